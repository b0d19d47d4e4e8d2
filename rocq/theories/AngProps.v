(** Properties C98 and C99: errors of orientations, and errors as distances. *)
From Verif Require Import Base BaseFacts VecFacts NumpyModel TrajModel TrajSpec GeomModel GeomSpec GeomFacts GeomFacts2 GeomProps EvalModel EvalSpec EvalFacts EvalFacts4 EvalStats EvalProps.
From Verif Require Import IoModel IoSpec EqSpec ScaleModel ScaleSpec ScaleFacts ScaleProps DirectSpec AlignSpec AngModel AngSpec AngFacts AngFacts2.

(** * C98 *)

(** The combined deviation of a pose is the angle of the rotation from the test to the reference orientation; it is at most a half
    turn, zero exactly when the orientations agree, and does not depend on which trajectory is the reference. *)
Theorem C98_angles : forall Q (ops : rot_ops Q) rv (test ref : traj Q) q q', rot_contract ops -> rotvec_contract ops rv ->
  consistent test -> consistent ref -> tlen test = tlen ref -> rot ref = Some q -> rot test = Some q' ->
  exists r r' l, compare_absolute ops test ref = Ok r /\ compare_absolute ops ref test = Ok r' /\
    rot_dev_comb rv r = Angles l /\ rot_dev_comb rv r' = Angles l /\ length l = tlen ref /\
    forall i a b, nth_error q i = Some a -> nth_error q' i = Some b ->
      exists x, nth_error l i = Some x /\ angle_of (mmul (as_matrix ops a) (mtrans (as_matrix ops b))) x /\ (x = 0 <-> as_matrix ops a = as_matrix ops b).
Proof.
  intros Q ops rv test ref q q' C V Ct Cr L E E'. destruct (compare_angles ops test ref q q' Ct Cr L E E') as (r & d & K & Ed & Ld & _ & Hd).
  destruct (compare_angles ops ref test q' q Cr Ct (eq_sym L) E' E) as (r' & d' & K' & Ed' & Ld' & _ & Hd'). exists r, r', (map (rotangle rv) d).
  assert (Lq : length q = tlen ref) by (destruct Cr as (_ & H & _); rewrite E in H; exact H). assert (Lq' : length q' = tlen ref) by (rewrite <- L; destruct Ct as (_ & H & _); rewrite E' in H; exact H).
  split; [exact K|]. split; [exact K'|]. unfold rot_dev_comb. rewrite Ed, Ed'. split; [reflexivity|]. split.
  { f_equal. apply nth_error_ext_len; [rewrite !map_length; congruence|]. intros i I. rewrite map_length in I. rewrite !nth_error_map'.
    destruct (nth_error_lt_Some q i ltac:(lia)) as [a A]. destruct (nth_error_lt_Some q' i ltac:(lia)) as [b B]. rewrite (Hd i a b A B), (Hd' i b a B A). cbn. f_equal.
    apply (rotangle_trace ops rv V). rewrite !(rot_sub_matrix ops C). generalize (as_matrix ops a) (as_matrix ops b). intros m n. destruct m as [[m1 m2 m3] [m4 m5 m6] [m7 m8 m9]], n as [[n1 n2 n3] [n4 n5 n6] [n7 n8 n9]]. unfold mtrace. munf. ring. }
  split; [rewrite map_length; exact Ld|]. intros i a b A B. exists (rotangle rv (rot_sub ops a b)). rewrite nth_error_map', (Hd i a b A B). split; [reflexivity|].
  assert (G := rotangle_angle ops rv V (rot_sub ops a b)). assert (RS := rc_rot ops C (rot_sub ops a b)). assert (Z := angle_zero _ _ RS G). rewrite (rot_sub_matrix ops C) in G, Z. split; [exact G|]. rewrite Z. split; intro X.
  - assert (W := is_rot_left _ (rc_rot ops C b)). rewrite <- (mmul_ident_r (as_matrix ops a)), <- W, <- mmul_assoc, X. apply mmul_ident_l.
  - rewrite X. apply is_rot_right, (rc_rot ops C).
Qed.
Print Assumptions C98_angles.

(** Turning both trajectories alike, or mounting both sensors differently in the same way, changes no angle. *)
Theorem C98_invariant : forall Q (ops : rot_ops Q) rv (test ref test' ref' : traj Q) q1 q2 q1' q2' m n, rot_contract ops -> rotvec_contract ops rv ->
  consistent test -> consistent ref -> consistent test' -> consistent ref' -> tlen test = tlen ref -> is_rot m -> is_rot n ->
  rot ref = Some q1 -> rot test = Some q2 -> rot ref' = Some q1' -> rot test' = Some q2' ->
  map (as_matrix ops) q1' = map (fun q => mmul m (mmul (as_matrix ops q) n)) q1 -> map (as_matrix ops) q2' = map (fun q => mmul m (mmul (as_matrix ops q) n)) q2 ->
  exists r r', compare_absolute ops test ref = Ok r /\ compare_absolute ops test' ref' = Ok r' /\ rot_dev_comb rv r' = rot_dev_comb rv r.
Proof.
  intros Q ops rv test ref test' ref' q1 q2 q1' q2' m n C V Ct Cr Ct' Cr' L RM RN E1 E2 E1' E2' M1 M2.
  assert (Lq : forall (t : traj Q) q, consistent t -> rot t = Some q -> length q = tlen t) by (intros t q (_ & H & _) E; rewrite E in H; exact H).
  assert (L1 := Lq _ _ Cr E1). assert (L2 := Lq _ _ Ct E2). assert (L1' := Lq _ _ Cr' E1'). assert (L2' := Lq _ _ Ct' E2').
  assert (S1 := f_equal (@length _) M1). assert (S2 := f_equal (@length _) M2). rewrite !map_length in S1, S2.
  destruct (compare_angles ops test ref q1 q2 Ct Cr L E1 E2) as (r & d & K & Ed & Ld & _ & Hd).
  destruct (compare_angles ops test' ref' q1' q2' Ct' Cr' ltac:(lia) E1' E2') as (r' & d' & K' & Ed' & Ld' & _ & Hd'). exists r, r'. split; [exact K|]. split; [exact K'|].
  unfold rot_dev_comb. rewrite Ed, Ed'. f_equal. apply nth_error_ext_len; [rewrite !map_length; lia|]. intros i I. rewrite map_length in I. rewrite !nth_error_map'.
  destruct (nth_error_lt_Some q1 i ltac:(lia)) as [a A]. destruct (nth_error_lt_Some q2 i ltac:(lia)) as [b B].
  destruct (nth_error_lt_Some q1' i ltac:(lia)) as [a' A']. destruct (nth_error_lt_Some q2' i ltac:(lia)) as [b' B'].
  rewrite (Hd i a b A B), (Hd' i a' b' A' B'). cbn. f_equal. apply (rotangle_trace ops rv V). rewrite !(rot_sub_matrix ops C).
  apply (f_equal (fun l => nth_error l i)) in M1, M2. rewrite !nth_error_map', A, A' in M1. rewrite !nth_error_map', B, B' in M2. cbn in M1, M2. injection M1 as ->. injection M2 as ->.
  assert (X : mmul (mmul m (mmul (as_matrix ops a) n)) (mtrans (mmul m (mmul (as_matrix ops b) n))) = mmul m (mmul (mmul (as_matrix ops a) (mtrans (as_matrix ops b))) (mtrans m))).
  { rewrite !mtrans_mmul, !mmul_assoc. f_equal. f_equal. rewrite <- (mmul_assoc n), (is_rot_right _ RN), mmul_ident_l. reflexivity. }
  rewrite X. assert (T : forall x y, mtrace (mmul x y) = mtrace (mmul y x)). { intros [[x1 x2 x3] [x4 x5 x6] [x7 x8 x9]] [[y1 y2 y3] [y4 y5 y6] [y7 y8 y9]]. unfold mtrace. munf. ring. }
  rewrite T, mmul_assoc, (is_rot_left _ RM), mmul_ident_r. reflexivity.
Qed.
Print Assumptions C98_invariant.

(** The statistics of the angles are ordered and vanish exactly when all orientations agree. *)
Theorem C98_statistics : forall Q (ops : rot_ops Q) rv (r : ate_result Q) d, rot_contract ops -> rotvec_contract ops rv -> rot_dev r = Some d -> d <> [] ->
  exists lo hi mean rmse med std,
    rot_dev_min rv r = Ok lo /\ rot_dev_max rv r = Ok hi /\ rot_ate rv r = Some mean /\ rot_dev_rms rv r = Some rmse /\ rot_dev_median rv r = Some med /\ rot_dev_std rv r = Some std /\
    0 <= lo /\ lo <= mean /\ mean <= rmse /\ rmse <= hi /\ hi <= PI /\ lo <= med <= hi /\ 0 <= std /\ rmse * rmse = mean * mean + std * std /\
    ((forall q, In q d -> as_matrix ops q = mident) <-> mean = 0) /\ ((forall q, In q d -> as_matrix ops q = mident) <-> rmse = 0) /\ ((forall q, In q d -> as_matrix ops q = mident) <-> hi = 0).
Proof.
  intros Q ops rv r d C V E N. set (l := map (rotangle rv) d). assert (Nl : l <> []) by (apply map_nonempty, N).
  assert (B : forall y, In y l -> 0 <= y <= PI) by (intros y Hy; apply in_map_iff in Hy as (q & <- & _); apply (rotangle_angle ops rv V q)).
  destruct (stats_order l Nl (fun y Y => proj1 (B y Y))) as (lo & hi & m & s & q & H1 & H2 & H3 & H4 & H5 & Slo & Shi & _ & O1 & O2 & O3 & O4 & O5 & O6 & Z1 & Z2 & Z3).
  destruct (median_spec l Nl) as (med & Em & A1 & A2 & (x & y & Hx & Hy & Lx & Ly)).
  exists lo, hi, m, q, med, s. unfold rot_dev_min, rot_dev_max, rot_ate, rot_dev_rms, rot_dev_median, rot_dev_std, rot_dev_comb. rewrite E. cbn [flatten]. fold l.
  repeat (split; [assumption|]). split; [apply B, Shi|]. split.
  { assert (lo <= x) by (apply Slo, Hx). assert (y <= hi) by (apply Shi, Hy). lra. }
  split; [exact O5|]. split; [exact O6|].
  assert (ZZ : (forall q, In q d -> as_matrix ops q = mident) <-> (forall y, In y l -> y = 0)).
  { split; intros H.
    - intros z Hz. apply in_map_iff in Hz as (p & <- & P). apply (angle_zero (as_matrix ops p)); [apply C|apply (rotangle_angle ops rv V)|apply H, P].
    - intros p P. apply (angle_zero (as_matrix ops p) (rotangle rv p)); [apply C|apply (rotangle_angle ops rv V)|apply H, in_map, P]. }
  rewrite ZZ. auto.
Qed.
Print Assumptions C98_statistics.

(** Without orientations every statistic is zero, but the combined deviations are three zeros per pose and not one angle. *)
Theorem C98_refuted : forall Q (rv : Q -> V3) (r : ate_result Q), rot_dev r = None -> pos_dev r <> [] ->
  rot_dev_comb rv r = Rows (map (fun _ => vzero) (pos_dev r)) /\
  rot_dev_rms rv r = Some 0 /\ rot_ate rv r = Some 0 /\ rot_dev_std rv r = Some 0 /\ rot_dev_max rv r = Ok 0 /\ rot_dev_min rv r = Ok 0 /\ rot_dev_median rv r = Some 0.
Proof.
  intros Q rv r E N. unfold rot_dev_min, rot_dev_max, rot_ate, rot_dev_rms, rot_dev_median, rot_dev_std, rot_dev_comb. rewrite E. cbn [flatten]. split; [reflexivity|]. split; [reflexivity|].
  set (l := flat_map _ _). assert (Z : forall y, In y l -> y = 0). { intros y Hy. apply in_flat_map in Hy as (v & Hv & Hy). apply in_map_iff in Hv as (w & <- & _). cbn in Hy. intuition. }
  assert (Nl : l <> []) by (unfold l; destruct (pos_dev r); [congruence|discriminate]).
  destruct (stats_order l Nl) as (lo & hi & m & s & q & H1 & H2 & H3 & H4 & H5 & Slo & Shi & _ & O1 & O2 & O3 & O4 & O5 & O6 & Z1 & Z2 & Z3); [intros y Hy; rewrite (Z y Hy); lra|].
  destruct (median_spec l Nl) as (med & Em & A1 & A2 & (x & y & Hx & Hy & Lx & Ly)). apply Z in Hx, Hy.
  assert (hi = 0) by exact (proj1 Z3 Z). assert (m = 0) by exact (proj1 Z1 Z). assert (q = 0) by exact (proj1 Z2 Z). assert (s = 0) by (subst; apply Rsqr_0_uniq; unfold Rsqr; lra).
  assert (lo = 0) by lra. assert (med = 0) by lra. subst. auto 10.
Qed.
Print Assumptions C98_refuted.

(** The bias of the orientations is the rotation closest to all deviations. *)
Theorem C98_bias : forall Q (ops : rot_ops Q) mean (r : ate_result Q) d e, rot_contract ops -> mean_contract ops mean -> rot_dev r = Some d -> rot_bias_xyz ops mean r = Ok e ->
  is_rot (euler_matrix e) /\ forall m, is_rot m -> chordal_sum (euler_matrix e) (map (as_matrix ops) d) <= chordal_sum m (map (as_matrix ops) d).
Proof.
  intros Q ops mean r d e C M E H. unfold rot_bias_xyz in H. rewrite E in H. destruct (mean d) as [q|x] eqn:K; [|discriminate]. injection H as <-.
  rewrite <- (rc_euler ops C), (rc_as_euler ops C). split; [apply C|]. intros m RM. exact (M d q m K RM).
Qed.
Print Assumptions C98_bias.

(** * C99 Errors are distances *)

Theorem C99_positions : forall Q (ops : rot_ops Q) (a b c : traj Q), consistent a -> consistent b -> consistent c -> tlen b = tlen a -> tlen c = tlen a -> (0 < tlen a)%nat ->
  exists rab rbc rac m1 m2 m3 q1 q2 q3 h1 h2 h3,
    compare_absolute ops a b = Ok rab /\ compare_absolute ops b c = Ok rbc /\ compare_absolute ops a c = Ok rac /\
    pos_ate rab = Some m1 /\ pos_ate rbc = Some m2 /\ pos_ate rac = Some m3 /\ m3 <= m1 + m2 /\
    pos_dev_rms rab = Some q1 /\ pos_dev_rms rbc = Some q2 /\ pos_dev_rms rac = Some q3 /\ q3 <= q1 + q2 /\
    pos_dev_max rab = Ok h1 /\ pos_dev_max rbc = Ok h2 /\ pos_dev_max rac = Ok h3 /\ h3 <= h1 + h2.
Proof.
  intros Q ops a b c Ca Cb Cc Lb Lc N.
  destruct (compare_absolute_ok ops a b Ca Cb ltac:(lia)) as (r1 & E1 & _ & _ & L1 & _ & H1 & _). destruct (compare_absolute_ok ops b c Cb Cc ltac:(lia)) as (r2 & E2 & _ & _ & L2 & _ & H2 & _).
  destruct (compare_absolute_ok ops a c Ca Cc ltac:(lia)) as (r3 & E3 & _ & _ & L3 & _ & H3 & _). unfold tlen in *.
  destruct (error_triangle (pos_dev_comb r1) (pos_dev_comb r2) (pos_dev_comb r3)) as (ml & mm & ms & ql & qm & qs & hl & hm & hs & T).
  - intro Z. apply (f_equal (@length _)) in Z. unfold pos_dev_comb in Z. rewrite map_length in Z. cbn in Z. lia.
  - unfold pos_dev_comb. rewrite !map_length. lia.
  - unfold pos_dev_comb. rewrite !map_length. lia.
  - intros y Hy. unfold pos_dev_comb in Hy. destruct Hy as [Hy|[Hy|Hy]]; apply in_map_iff in Hy as (v & <- & _); apply sqrt_pos.
  - intros i x y z X Y Z. unfold pos_dev_comb in X, Y, Z. rewrite nth_error_map' in X, Y, Z.
    destruct (nth_error (pos_dev r1) i) as [v1|] eqn:V1; [|discriminate]. assert (I := nth_error_Some_lt _ _ _ V1).
    destruct (nth_error_lt_Some (xyz a) i ltac:(lia)) as [pa PA]. destruct (nth_error_lt_Some (xyz b) i ltac:(lia)) as [pb PB]. destruct (nth_error_lt_Some (xyz c) i ltac:(lia)) as [pc PC].
    rewrite (H1 i pb pa PB PA) in V1. injection V1 as <-. rewrite (H2 i pc pb PC PB) in Y. rewrite (H3 i pc pa PC PA) in Z. cbn in X, Y, Z. injection X as <-. injection Y as <-. injection Z as <-.
    replace (vsub pc pa) with (vadd (vsub pb pa) (vsub pc pb)) by (v3; ring). apply vnorm_triangle.
  - exists r1, r2, r3, ml, mm, ms, ql, qm, qs, hl, hm, hs. unfold pos_ate, pos_dev_rms, pos_dev_max. tauto.
Qed.
Print Assumptions C99_positions.

Theorem C99_rotations : forall Q (ops : rot_ops Q) rv (a b c : traj Q), rot_contract ops -> rotvec_contract ops rv ->
  consistent a -> consistent b -> consistent c -> rot a <> None -> rot b <> None -> rot c <> None -> tlen b = tlen a -> tlen c = tlen a -> (0 < tlen a)%nat ->
  exists rab rbc rac m1 m2 m3 q1 q2 q3 h1 h2 h3,
    compare_absolute ops a b = Ok rab /\ compare_absolute ops b c = Ok rbc /\ compare_absolute ops a c = Ok rac /\
    rot_ate rv rab = Some m1 /\ rot_ate rv rbc = Some m2 /\ rot_ate rv rac = Some m3 /\ m3 <= m1 + m2 /\
    rot_dev_rms rv rab = Some q1 /\ rot_dev_rms rv rbc = Some q2 /\ rot_dev_rms rv rac = Some q3 /\ q3 <= q1 + q2 /\
    rot_dev_max rv rab = Ok h1 /\ rot_dev_max rv rbc = Ok h2 /\ rot_dev_max rv rac = Ok h3 /\ h3 <= h1 + h2.
Proof.
  intros Q ops rv a b c C V Ca Cb Cc Na Nb Nc Lb Lc N. destruct (rot a) as [qa|] eqn:EA; [|congruence]. destruct (rot b) as [qb|] eqn:EB; [|congruence]. destruct (rot c) as [qc|] eqn:EC; [|congruence].
  assert (Lq : forall (t : traj Q) q, consistent t -> rot t = Some q -> length q = tlen t) by (intros t q (_ & H & _) E; rewrite E in H; exact H).
  assert (LA := Lq _ _ Ca EA). assert (LB := Lq _ _ Cb EB). assert (LC := Lq _ _ Cc EC).
  destruct (compare_angles ops a b qb qa Ca Cb ltac:(lia) EB EA) as (r1 & d1 & E1 & D1 & L1 & _ & H1). destruct (compare_angles ops b c qc qb Cb Cc ltac:(lia) EC EB) as (r2 & d2 & E2 & D2 & L2 & _ & H2).
  destruct (compare_angles ops a c qc qa Ca Cc ltac:(lia) EC EA) as (r3 & d3 & E3 & D3 & L3 & _ & H3).
  destruct (error_triangle (map (rotangle rv) d1) (map (rotangle rv) d2) (map (rotangle rv) d3)) as (ml & mm & ms & ql & qm & qs & hl & hm & hs & T).
  - intro Z. apply (f_equal (@length _)) in Z. rewrite map_length in Z. cbn in Z. lia.
  - rewrite !map_length. lia.
  - rewrite !map_length. lia.
  - intros y Hy. destruct Hy as [Hy|[Hy|Hy]]; apply in_map_iff in Hy as (v & <- & _); apply sqrt_pos.
  - intros i x y z X Y Z. rewrite nth_error_map' in X, Y, Z.
    destruct (nth_error d1 i) as [v1|] eqn:V1; [|discriminate]. assert (I := nth_error_Some_lt _ _ _ V1).
    destruct (nth_error_lt_Some qa i ltac:(lia)) as [pa PA]. destruct (nth_error_lt_Some qb i ltac:(lia)) as [pb PB]. destruct (nth_error_lt_Some qc i ltac:(lia)) as [pc PC].
    rewrite (H1 i pb pa PB PA) in V1. injection V1 as <-. rewrite (H2 i pc pb PC PB) in Y. rewrite (H3 i pc pa PC PA) in Z. cbn in X, Y, Z. injection X as <-. injection Y as <-. injection Z as <-.
    rewrite Rplus_comm. apply (rotangle_mul ops rv V). rewrite !(rot_sub_matrix ops C), mmul_assoc. f_equal. rewrite <- mmul_assoc, (is_rot_left _ (rc_rot ops C pb)), mmul_ident_l. reflexivity.
  - exists r1, r2, r3, ml, mm, ms, ql, qm, qs, hl, hm, hs. unfold rot_ate, rot_dev_rms, rot_dev_max, rot_dev_comb. rewrite D1, D2, D3. cbn [flatten]. tauto.
Qed.
Print Assumptions C99_rotations.

(** ** Rotation vectors as scipy computes them, and examples *)
Definition canonical (q : V4) : V4 := if Rltb (q_w q) 0 then mkV4 (- q_x q) (- q_y q) (- q_z q) (- q_w q) else q.
Definition rotvec_quat (q : V4) : V3 :=
  let c := canonical q in let n := sqrt (q_x c * q_x c + q_y c * q_y c + q_z c * q_z c) in
  if Reqb n 0 then vzero else vscale (2 * acos (q_w c) / n) (mkV3 (q_x c) (q_y c) (q_z c)).
Definition rotvec_impl (q : RotM) : V3 := rotvec_quat (qunit (markley (proj1_sig q))).

Lemma quat_hom q : qnorm2 q = 1 -> quat_matrix q = hom q.
Proof. destruct q as [x y z w]. unfold qnorm2, quat_matrix, hom. cbv zeta. cbn [q_x q_y q_z q_w]. intro N. assert (W : w * w = 1 - x * x - y * y - z * z) by lra. apply M3_eq; apply V3_eq; cbn; ring [W]. Qed.
Lemma canonical_spec q : hom (canonical q) = hom q /\ qnorm2 (canonical q) = qnorm2 q /\ 0 <= q_w (canonical q).
Proof.
  unfold canonical. destruct (Rltb (q_w q) 0) eqn:E; [apply Rltb_true in E|apply Rltb_false in E; auto]. destruct q as [x y z w]. cbn in E. unfold hom, qnorm2. cbv zeta. cbn [q_x q_y q_z q_w].
  split; [apply M3_eq; apply V3_eq; cbn; ring|]. split; [ring|lra].
Qed.
Lemma qunit_norm q : 0 < qnorm2 q -> qnorm2 (qunit q) = 1.
Proof.
  intro H. unfold qunit, qnorm. fold (qnorm2 q). assert (S := sqrt_sqrt _ (Rlt_le _ _ H)). assert (P := sqrt_lt_R0 _ H). set (r := sqrt (qnorm2 q)) in *.
  unfold qnorm2 at 1, qscale. cbn [q_x q_y q_z q_w]. replace (_ + _ + _ + _) with (qnorm2 q / (r * r)) by (unfold qnorm2; field; lra). rewrite S. field. lra.
Qed.
Theorem rotvec_witness : rotvec_contract rot_impl rotvec_impl.
Proof.
  intro q. assert (M : as_matrix rot_impl q = quat_matrix (qunit (markley (proj1_sig q)))) by (symmetry; apply scipy_exact; exact (proj2_sig q)).
  assert (U := qunit_norm _ (markley_pos (proj1_sig q))). unfold rotvec_impl. set (c0 := qunit _) in *. clearbody c0. rewrite M, (quat_hom _ U).
  destruct (canonical_spec c0) as (<- & U' & W). rewrite U in U'. unfold rotvec_quat. set (c := canonical c0) in *. clearbody c. clear c0 M U. destruct c as [x y z w]. unfold qnorm2 in U'. cbv zeta. cbn [q_x q_y q_z q_w] in *.
  set (n := sqrt (x * x + y * y + z * z)). assert (P : 0 <= x * x + y * y + z * z) by (pose proof (Rle_0_sqr x); pose proof (Rle_0_sqr y); pose proof (Rle_0_sqr z); unfold Rsqr in *; lra).
  assert (NN : n * n = x * x + y * y + z * z) by (apply sqrt_sqrt, P). assert (N0 : 0 <= n) by apply sqrt_pos. assert (W1 : w <= 1) by (apply Rle_sq; lra).
  assert (PI0 := PI_RGT_0). destruct (Reqb n 0) eqn:E.
  - apply Reqb_true in E. rewrite E in NN. assert (x = 0 /\ y = 0 /\ z = 0) as (-> & -> & ->).
    { pose proof (Rle_0_sqr x); pose proof (Rle_0_sqr y); pose proof (Rle_0_sqr z); unfold Rsqr in *. repeat split; apply Rsqr_0_uniq; unfold Rsqr; lra. }
    exists (mkV3 1 0 0), 0. split; [unfold vdot; cbn; ring|]. split; [lra|]. split; [v3; ring|]. assert (Q : mkV4 0 0 0 w = half (mkV3 1 0 0) 0).
    { unfold half. replace (0 / 2) with 0 by field. rewrite sin_0, cos_0. cbn. f_equal; try ring. assert (w * w = 1) by lra. assert (1 <= w) by (apply Rle_sq; lra). lra. }
    rewrite Q. symmetry. apply turn_hom. unfold vdot. cbn. ring.
  - apply Reqb_false in E. exists (mkV3 (x / n) (y / n) (z / n)), (2 * acos w). assert (UU : vdot (mkV3 (x / n) (y / n) (z / n)) (mkV3 (x / n) (y / n) (z / n)) = 1).
    { unfold vdot. cbn. replace (_ + _ + _) with ((x * x + y * y + z * z) / (n * n)) by (field; exact E). rewrite <- NN. field. exact E. }
    split; [exact UU|]. split.
    { assert (B := acos_bound w). split; [lra|]. assert (acos w <= PI / 2); [|lra]. apply cos_le_angle; [exact B|lra|]. rewrite cos_PI2, cos_acos by lra. exact W. }
    split; [v3; field; exact E|]. replace (mkV4 x y z w) with (half (mkV3 (x / n) (y / n) (z / n)) (2 * acos w)); [symmetry; apply turn_hom, UU|].
    unfold half. replace (2 * acos w / 2) with (acos w) by field. rewrite cos_acos, sin_acos by lra. replace (sqrt (1 - w²)) with n by (unfold n, Rsqr; f_equal; lra). cbn. f_equal; field; exact E.
Qed.
Print Assumptions rotvec_witness.

(** A quarter turn is an angle of a half pi: the second pose of [duo] against a trajectory that does not turn. *)
Definition straight : traj RotM := mkTraj [0; 1] [mkV3 0 0 0; mkV3 1 0 0] (Some [unrotated; unrotated]) [0; 1] [mkV3 1 0 0; vzero] SortTime "straight" 0.
Lemma zero_euler : euler_matrix vzero = mident.
Proof. unfold euler_matrix, Rx, Ry, Rz, vzero. cbn [vx vy vz]. rewrite sin_0, cos_0. m3; ring. Qed.
Lemma quarter_euler : euler_matrix (mkV3 0 0 (PI / 2)) = mkM3 (mkV3 0 (-1) 0) (mkV3 1 0 0) (mkV3 0 0 1).
Proof. unfold euler_matrix, Rx, Ry, Rz. cbn [vx vy vz]. rewrite sin_0, cos_0, sin_PI2, cos_PI2. m3; ring. Qed.
Example C98_case : exists r, compare_absolute rot_impl duo straight = Ok r /\ rot_dev_comb rotvec_impl r = Angles [0; PI / 2] /\ rot_ate rotvec_impl r = Some (PI / 4).
Proof.
  destruct (C98_angles RotM rot_impl rotvec_impl duo straight [unrotated; unrotated] [unrotated; quarter] rot_impl_contract rotvec_witness) as (r & r' & l & E & _ & D & _ & L & H); try reflexivity; [exact duo_consistent|repeat split|].
  exists r. split; [exact E|]. assert (l = [0; PI / 2]) as ->.
  { destruct l as [|x [|y [|]]]; try discriminate L. destruct (H 0%nat _ _ eq_refl eq_refl) as (x' & [= <-] & _ & Z). destruct (H 1%nat _ _ eq_refl eq_refl) as (y' & [= <-] & A & _).
    f_equal; [apply Z; reflexivity|]. f_equal. apply (angle_unique _ _ _ A). split; [pose proof PI_RGT_0; lra|]. rewrite cos_PI2. unfold unrotated, quarter. rewrite !(rc_euler rot_impl rot_impl_contract), zero_euler, quarter_euler. unfold mtrace. munf. ring. }
  split; [exact D|]. unfold rot_ate. rewrite D. unfold np_mean, np_sum. cbn. f_equal. field.
Qed.
Example C99_case : consistent duo /\ consistent straight /\ rot duo <> None /\ rot straight <> None /\ tlen straight = tlen duo /\ (0 < tlen duo)%nat.
Proof. split; [exact duo_consistent|]. split; [repeat split|]. repeat split; try discriminate. cbn. lia. Qed.
