(** Relative pose errors: group algebra. *)
From Verif Require Import Base BaseFacts NumpyModel NumpyFacts TrajModel TrajSpec VecFacts TrajFacts
  GeomModel GeomSpec GeomFacts GeomFacts2 EvalModel EvalSpec.

(** ** se3_inv *)
Lemma se3_inv_left P : rigid P -> mul4 (se3_inv P) P = ident4.
Proof.
  intros ((H & _) & Hb & Hc). unfold se3_inv, mul4, ident4. rewrite Hb, Hc. cbn [lin tra bot cor]. rewrite H. f_equal.
  - m3; ring.
  - vars; apply V3_eq; munf; ring.
  - vars; apply V3_eq; munf; ring.
  - vars; munf; ring.
Qed.

Lemma se3_inv_right P : rigid P -> mul4 P (se3_inv P) = ident4.
Proof.
  intros (H & Hb & Hc). assert (Hr := is_rot_right _ H). unfold se3_inv, mul4, ident4. rewrite Hb, Hc. cbn [lin tra bot cor]. rewrite Hr.
  rewrite mapply_scale, <- mapply_mmul, Hr, mapply_ident. f_equal.
  - m3; ring.
  - vars; apply V3_eq; munf; ring.
  - vars; apply V3_eq; munf; ring.
  - vars; munf; ring.
Qed.

Lemma se3_inv_rigid P : rigid P -> rigid (se3_inv P).
Proof. intros (H & _ & _). split; [apply is_rot_mtrans, H|]. split; reflexivity. Qed.

Lemma se3_inv_unique P X : rigid P -> mul4 P X = ident4 -> X = se3_inv P.
Proof.
  intros H E. rewrite <- (mul4_ident_l X), <- (se3_inv_left P H), mul4_assoc, E, mul4_ident_r. reflexivity.
Qed.

Lemma se3_inv_mul a b : rigid a -> rigid b -> se3_inv (mul4 a b) = mul4 (se3_inv b) (se3_inv a).
Proof.
  intros Ha Hb. symmetry. apply se3_inv_unique; [apply rigid_mul; assumption|].
  rewrite mul4_assoc, <- (mul4_assoc b), se3_inv_right, mul4_ident_l by assumption. apply se3_inv_right, Ha.
Qed.

Lemma motion_iff P P' M : rigid P -> (motion P P' M <-> M = mul4 (se3_inv P) P').
Proof.
  intro H. unfold motion. split.
  - intros <-. rewrite <- mul4_assoc, se3_inv_left, mul4_ident_l by exact H. reflexivity.
  - intros ->. rewrite <- mul4_assoc, se3_inv_right, mul4_ident_l by exact H. reflexivity.
Qed.

Lemma rigid_cancel a x y : rigid a -> mul4 a x = mul4 a y -> x = y.
Proof.
  intros H E. rewrite <- (mul4_ident_l x), <- (mul4_ident_l y), <- (se3_inv_left a H), !mul4_assoc, E. reflexivity.
Qed.

(** ** The pose error *)
Lemma pose_error_rigid a b c d : rigid a -> rigid b -> rigid c -> rigid d -> rigid (pose_error a b c d).
Proof. intros. unfold pose_error. repeat (apply rigid_mul || apply se3_inv_rigid); assumption. Qed.

Lemma pose_error_motion a b c d M N :
  rigid a -> rigid b -> rigid c -> rigid d -> motion a b M -> motion c d N -> mul4 M (pose_error a b c d) = N.
Proof.
  intros Ha Hb Hc Hd HM HN. apply (motion_iff _ _ _ Ha) in HM. apply (motion_iff _ _ _ Hc) in HN. subst. unfold pose_error.
  rewrite <- mul4_assoc, se3_inv_right, mul4_ident_l; [reflexivity|]. apply rigid_mul; [apply se3_inv_rigid|]; assumption.
Qed.

Lemma delta_invariant T a b : rigid T -> rigid a -> mul4 (se3_inv (mul4 T a)) (mul4 T b) = mul4 (se3_inv a) b.
Proof.
  intros HT Ha. rewrite se3_inv_mul, mul4_assoc, <- (mul4_assoc (se3_inv T)), se3_inv_left, mul4_ident_l by assumption. reflexivity.
Qed.

Lemma pose_error_invariant T S a b c d :
  rigid T -> rigid S -> rigid a -> rigid c ->
  pose_error (mul4 S a) (mul4 S b) (mul4 T c) (mul4 T d) = pose_error a b c d.
Proof. intros. unfold pose_error. rewrite !delta_invariant by assumption. reflexivity. Qed.

(** ** Rotation angles *)
Lemma sq_le_1 x y z : x * x + y * y + z * z = 1 -> x <= 1 /\ x * x <= 1.
Proof.
  intro H. assert (Hy := Rle_0_sqr y). assert (Hz := Rle_0_sqr z). unfold Rsqr in *. assert (x * x <= 1) by lra.
  split; [|assumption]. clear - H0. nra.
Qed.

Lemma sq_rest_0 y z : 1 * 1 + y * y + z * z = 1 -> y = 0 /\ z = 0.
Proof. intro H. split; nra. Qed.

Lemma rot_trace_bounds m : is_rot m -> -1 <= mtrace m <= 3.
Proof.
  intro H. assert (A := is_rot_adj m H). assert (L := is_rot_left m H).
  destruct m as [[a b c] [d e f] [g h i]]. unfold mtrace; cbn.
  unfold madj in A. munfall. cbn in A, L. injection A as A1 A2 A3 A4 A5 A6 A7 A8 A9. injection L as L1 L2 L3 L4 L5 L6 L7 L8 L9.
  assert (E1 : f * h = e * i - a) by lra. assert (E2 : c * g = a * i - e) by lra. assert (E3 : b * d = a * e - i) by lra.
  assert (S1 : a * a + d * d + g * g = 1) by lra. assert (S2 : e * e + b * b + h * h = 1) by lra.
  assert (S3 : i * i + c * c + f * f = 1) by lra. clear A1 A2 A3 A4 A5 A6 A7 A8 A9 L1 L2 L3 L4 L5 L6 L7 L8 L9 H.
  assert (W : Rsqr (f - h) + Rsqr (c - g) + Rsqr (b - d) = (3 - (a + e + i)) * (1 + (a + e + i))) by (unfold Rsqr; lra).
  assert (N1 := Rle_0_sqr (f - h)). assert (N2 := Rle_0_sqr (c - g)). assert (N3 := Rle_0_sqr (b - d)).
  apply sq_le_1 in S1 as [S1 _]. apply sq_le_1 in S2 as [S2 _]. apply sq_le_1 in S3 as [S3 _].
  split; [|lra]. destruct (Req_dec (a + e + i) 3) as [E|E]; [lra|].
  assert (P : 0 <= (3 - (a + e + i)) * (1 + (a + e + i))) by lra. assert (Q : 0 < 3 - (a + e + i)) by lra.
  clear - P Q. set (x := a + e + i) in *. clearbody x. nra.
Qed.

Lemma rotation_error_angle E : is_rot (lin E) -> angle_of (lin E) (rotation_error E).
Proof.
  intro H. assert (B := rot_trace_bounds _ H). unfold angle_of, rotation_error. unfold mtrace in *.
  set (tr := vx (row1 (lin E)) + vy (row2 (lin E)) + vz (row3 (lin E))) in *.
  rewrite Rmin_left, Rmax_left by lra. split; [apply acos_bound|]. rewrite cos_acos by lra. lra.
Qed.

Lemma trace3_ident m : is_rot m -> mtrace m = 3 -> m = mident.
Proof.
  intros H T. assert (L := is_rot_left m H).
  destruct m as [[a b c] [d e f] [g h i]]. unfold mtrace in T; cbn in T. munfall. cbn in L. injection L as L1 L2 L3 L4 L5 L6 L7 L8 L9.
  assert (S1 : a * a + d * d + g * g = 1) by lra. assert (S2 : e * e + b * b + h * h = 1) by lra.
  assert (S3 : i * i + c * c + f * f = 1) by lra. clear L1 L2 L3 L4 L5 L6 L7 L8 L9 H.
  destruct (sq_le_1 _ _ _ S1) as [B1 _]. destruct (sq_le_1 _ _ _ S2) as [B2 _]. destruct (sq_le_1 _ _ _ S3) as [B3 _].
  assert (a = 1) by lra. assert (e = 1) by lra. assert (i = 1) by lra. subst a e i.
  apply sq_rest_0 in S1 as [-> ->]. apply sq_rest_0 in S2 as [-> ->]. apply sq_rest_0 in S3 as [-> ->]. reflexivity.
Qed.

Lemma rotation_error_zero E : is_rot (lin E) -> (rotation_error E = 0 <-> lin E = mident).
Proof.
  intro H. destruct (rotation_error_angle E H) as [_ A]. split.
  - intro Z. rewrite Z, cos_0 in A. apply trace3_ident; [exact H | lra].
  - intro Z. unfold rotation_error. rewrite Z. cbn. replace (1 / 2 * (1 + 1 + 1 - 1)) with 1 by lra.
    rewrite Rmin_left, Rmax_left by lra. apply acos_1.
Qed.

Lemma translation_error_norm E : translation_error E = vnorm (tra E).
Proof. reflexivity. Qed.

Lemma errors_zero a b c d M N :
  rigid a -> rigid b -> rigid c -> rigid d -> motion a b M -> motion c d N ->
  (translation_error (pose_error a b c d) = 0 /\ rotation_error (pose_error a b c d) = 0 <-> M = N).
Proof.
  intros Ha Hb Hc Hd HM HN. assert (HE := pose_error_rigid a b c d Ha Hb Hc Hd).
  assert (RM : rigid M) by (apply (motion_iff _ _ _ Ha) in HM; subst M; apply rigid_mul; [apply se3_inv_rigid|]; assumption).
  assert (X := pose_error_motion a b c d M N Ha Hb Hc Hd HM HN). rewrite translation_error_norm, vnorm_zero_iff, rotation_error_zero by apply HE.
  split.
  - intros [T L]. rewrite (rigid_is_pose _ HE), T, L in X. rewrite <- X. symmetry. exact (mul4_ident_r M).
  - intros <-. assert (pose_error a b c d = ident4) as ->; [|split; reflexivity].
    apply (rigid_cancel M); [exact RM|]. rewrite X, mul4_ident_r. reflexivity.
Qed.

(** ** Moving the trajectories *)
Lemma np_get_map {A B} (f : A -> B) l z : np_get (map f l) z = rmap f (np_get l z).
Proof.
  unfold np_get. rewrite map_length. destruct (py_index (length l) z) as [k|]; [|reflexivity].
  rewrite nth_error_map'. destruct (nth_error l k); reflexivity.
Qed.

Lemma np_get_in {A} (l : list A) z a : np_get l z = Ok a -> In a l.
Proof.
  unfold np_get. destruct (py_index (length l) z) as [k|]; [|discriminate]. destruct (nth_error l k) eqn:E; [|discriminate].
  intro H. injection H as <-. eapply nth_error_In, E.
Qed.

Lemma rmap_bind {A B D} (f : A -> B) (r : result A) (k : B -> result D) : bind (rmap f r) k = bind r (fun a => k (f a)).
Proof. destruct r; reflexivity. Qed.

Lemma bind_ext {A B} (r : result A) (f g : A -> result B) : (forall a, r = Ok a -> f a = g a) -> bind r f = bind r g.
Proof. intro H. destruct r; [apply H|]; reflexivity. Qed.

Lemma mapM_ext_in {A B} (f g : A -> result B) l : (forall a, In a l -> f a = g a) -> mapM f l = mapM g l.
Proof.
  induction l as [|a l IH]; intro H; [reflexivity|]. cbn. rewrite H by (left; reflexivity). rewrite IH; [reflexivity|].
  intros b Hb. apply H. right. exact Hb.
Qed.

Lemma rigid_diff_norm m v a b :
  is_rot m -> vnorm (vsub (vadd (mapply m a) v) (vadd (mapply m b) v)) = vnorm (vsub a b).
Proof.
  intro H. rewrite <- (rot_norm m (vsub a b) H), mapply_sub. f_equal. v3; ring.
Qed.

Section Moved.
  Context {Q : Type} (ops : rot_ops Q) (C : rot_contract ops).
  Implicit Types t test ref : traj Q.

  Lemma moved_has_orientation T t t' : moved ops T t t' -> has_orientation t' = has_orientation t.
  Proof.
    intros (_ & _ & H). unfold has_orientation. destruct (rot t) as [q|], (rot t') as [q'|]; try contradiction; [|reflexivity].
    apply (f_equal (@length M3)) in H. rewrite !map_length in H. rewrite H. reflexivity.
  Qed.

  Lemma moved_consistent T t t' : moved ops T t t' -> consistent t -> consistent t'.
  Proof.
    intros ((E1 & E2 & E3 & _) & Ex & Er) (C1 & C2 & C3 & C4). unfold consistent. rewrite E1, E2, E3, Ex, map_length.
    split; [exact C1|]. split; [|split; assumption]. destruct (rot t) as [q|], (rot t') as [q'|]; try contradiction; [|exact I].
    apply (f_equal (@length M3)) in Er. rewrite !map_length in Er. congruence.
  Qed.

  Lemma se3_rigid t P : consistent t -> has_orientation t = true -> In P (se3 ops t) -> rigid P.
  Proof.
    intros Hc Ho Hi. unfold has_orientation in Ho. destruct (rot t) as [q|] eqn:E; [|discriminate].
    rewrite (se3_some ops t q Hc E) in Hi. apply in_map_iff in Hi as (pr & <- & _). apply rigid_pose, (rc_rot ops C).
  Qed.

  Lemma moved_se3 T t t' :
    rigid T -> consistent t -> moved ops T t t' -> has_orientation t = true -> se3 ops t' = map (mul4 T) (se3 ops t).
  Proof.
    intros HT Hc M Ho. assert (Hc' := moved_consistent T t t' M Hc). destruct M as (_ & Ex & Er). unfold has_orientation in Ho.
    destruct (rot t) as [q|] eqn:E; [|discriminate]. destruct (rot t') as [q'|] eqn:E'; [|contradiction].
    rewrite (se3_some ops t q Hc E), (se3_some ops t' q' Hc' E'), Ex, map_map.
    assert (Lq : length q = length (xyz t)) by (destruct Hc as (_ & H & _); rewrite E in H; exact H).
    clear - HT Er Lq. revert q q' Er Lq. induction (xyz t) as [|p ps IH]; intros [|r q] [|r' q'] Er Lq; cbn in *; try discriminate; [reflexivity|].
    injection Er as E1 E2. injection Lq as Lq. rewrite (IH q q' E2 Lq), E1. f_equal. rewrite mul4_rigid_pose by exact HT. reflexivity.
  Qed.

  Lemma compare_pair_moved T S test test' ref ref' ds ij :
    rigid T -> rigid S -> consistent test -> consistent ref -> moved ops T test test' -> moved ops S ref ref' ->
    compare_pair ops test' ref' ds ij = compare_pair ops test ref ds ij.
  Proof.
    intros HT HS Ct Cr Mt Mr. unfold compare_pair. rewrite (moved_has_orientation _ _ _ Mt), (moved_has_orientation _ _ _ Mr).
    apply bind_ext; intros d1 _. apply bind_ext; intros d0 _.
    destruct (has_orientation ref) eqn:Or, (has_orientation test) eqn:Ot; cbn [andb].
    - rewrite (moved_se3 S ref ref' HS Cr Mr Or), (moved_se3 T test test' HT Ct Mt Ot), !np_get_map, rmap_bind.
      apply bind_ext; intros ri Hri. rewrite rmap_bind. apply bind_ext; intros rj _.
      rewrite rmap_bind. apply bind_ext; intros ti Hti. rewrite rmap_bind. apply bind_ext; intros tj _.
      apply np_get_in in Hri, Hti. apply (se3_rigid ref ri Cr Or) in Hri. apply (se3_rigid test ti Ct Ot) in Hti.
      rewrite pose_error_invariant by assumption. reflexivity.
    - destruct Mt as (_ & Et & _), Mr as (_ & Er & _). rewrite Et, Er, !np_get_map, !rmap_bind.
      repeat (apply bind_ext; intros ? ?; rewrite ?rmap_bind).
      rewrite !rigid_diff_norm by (apply HS || apply HT). reflexivity.
    - destruct Mt as (_ & Et & _), Mr as (_ & Er & _). rewrite Et, Er, !np_get_map, !rmap_bind.
      repeat (apply bind_ext; intros ? ?; rewrite ?rmap_bind).
      rewrite !rigid_diff_norm by (apply HS || apply HT). reflexivity.
    - destruct Mt as (_ & Et & _), Mr as (_ & Er & _). rewrite Et, Er, !np_get_map, !rmap_bind.
      repeat (apply bind_ext; intros ? ?; rewrite ?rmap_bind).
      rewrite !rigid_diff_norm by (apply HS || apply HT). reflexivity.
  Qed.

  Lemma compare_relative_moved T S test test' ref ref' s :
    rigid T -> rigid S -> consistent test -> consistent ref -> moved ops T test test' -> moved ops S ref ref' ->
    compare_relative ops test' ref' s = compare_relative ops test ref s.
  Proof.
    intros HT HS Ct Cr Mt Mr. unfold compare_relative. destruct (Rltb _ _); [reflexivity|].
    apply bind_ext; intros dists _.
    assert (En : name test' = name test) by apply Mt. assert (En' : name ref' = name ref) by apply Mr. rewrite En, En'.
    assert (Ed : pair_distances ref' (pair_distance_unit s) = pair_distances ref (pair_distance_unit s)).
    { unfold pair_distances. destruct Mr as ((E1 & E2 & _) & _). rewrite E1, E2. reflexivity. }
    f_equal. apply mapM_ext_in. intros d _. rewrite Ed. apply bind_ext; intros ds _. apply bind_ext; intros idx _. f_equal.
    apply mapM_ext_in. intros ij _. apply (compare_pair_moved T S); assumption.
  Qed.

  Lemma apply_transformation_moved T t q :
    rigid T -> consistent t -> rot t = Some q -> moved ops T t (apply_transformation ops T t).
  Proof.
    intros HT Hc E. split; [apply apply_transformation_rest|]. split; [apply apply_transformation_xyz, Hc|].
    rewrite E, (apply_transformation_rot ops T t q Hc E), map_map. apply map_ext. intro r.
    apply (rigid_rot_matrix ops C T r HT).
  Qed.
End Moved.
