(** Facts about rotation angles. *)
From Verif Require Import Base BaseFacts VecFacts NumpyModel TrajModel GeomModel GeomSpec GeomFacts EvalModel EvalSpec EvalFacts EvalStats IoModel IoSpec EqSpec ScaleModel ScaleSpec ScaleFacts ScaleProps AngModel AngSpec.

(** ** Quaternions *)
Definition half (u : V3) (a : R) : V4 := mkV4 (sin (a / 2) * vx u) (sin (a / 2) * vy u) (sin (a / 2) * vz u) (cos (a / 2)).
Definition hom (q : V4) : M3 :=
  let x := q_x q in let y := q_y q in let z := q_z q in let w := q_w q in
  mkM3 (mkV3 (x*x+w*w-y*y-z*z) (2*(x*y-z*w)) (2*(x*z+y*w)))
       (mkV3 (2*(x*y+z*w)) (y*y+w*w-x*x-z*z) (2*(y*z-x*w)))
       (mkV3 (2*(x*z-y*w)) (2*(y*z+x*w)) (z*z+w*w-x*x-y*y)).
Definition hamilton (p q : V4) : V4 :=
  mkV4 (q_w p * q_x q + q_x p * q_w q + q_y p * q_z q - q_z p * q_y q)
       (q_w p * q_y q + q_y p * q_w q + q_z p * q_x q - q_x p * q_z q)
       (q_w p * q_z q + q_z p * q_w q + q_x p * q_y q - q_y p * q_x q)
       (q_w p * q_w q - q_x p * q_x q - q_y p * q_y q - q_z p * q_z q).

Lemma hom_mul p q : mmul (hom p) (hom q) = hom (hamilton p q).
Proof. destruct p as [a b c d], q as [e f g h]. unfold hom, hamilton. cbv zeta. cbn [q_x q_y q_z q_w]. m3; ring. Qed.
Lemma hom_trace q : mtrace (hom q) = 4 * (q_w q * q_w q) - qnorm2 q.
Proof. destruct q as [a b c d]. unfold hom, mtrace, qnorm2. cbv zeta. cbn [q_x q_y q_z q_w row1 row2 row3 vx vy vz]. ring. Qed.
Lemma hamilton_norm p q : qnorm2 (hamilton p q) = qnorm2 p * qnorm2 q.
Proof. destruct p as [a b c d], q as [e f g h]. unfold hamilton, qnorm2. cbn [q_x q_y q_z q_w]. ring. Qed.

Lemma half_sq a : sin (a / 2) * sin (a / 2) = 1 - cos (a / 2) * cos (a / 2).
Proof. assert (H := sin2_cos2 (a / 2)). unfold Rsqr in H. lra. Qed.
Lemma half_cos a : cos a = 2 * (cos (a / 2) * cos (a / 2)) - 1.
Proof. replace a with (2 * (a / 2)) at 1 by field. rewrite cos_2a_cos. ring. Qed.
Lemma half_sin a : sin a = 2 * sin (a / 2) * cos (a / 2).
Proof. replace a with (2 * (a / 2)) at 1 by field. apply sin_2a. Qed.

Lemma turn_hom u a : vdot u u = 1 -> turn u a = hom (half u a) /\ qnorm2 (half u a) = 1.
Proof.
  intro U. destruct u as [x y z]. unfold vdot in U. cbn [vx vy vz] in U. assert (U' : x * x = 1 - y * y - z * z) by lra. unfold turn. rewrite half_cos, half_sin. assert (S := half_sq a).
  unfold half, qnorm2. cbn [vx vy vz q_x q_y q_z q_w]. set (s := sin (a / 2)) in *. set (c := cos (a / 2)) in *. clearbody s c. split; [|ring [U' S]].
  unfold hom, cross_matrix, outer. cbv zeta. cbn [q_x q_y q_z q_w vx vy vz]. apply M3_eq; apply V3_eq; munf; ring [U' S].
Qed.

Lemma turn_trace u a : vdot u u = 1 -> mtrace (turn u a) = 1 + 2 * cos a.
Proof. intro U. destruct (turn_hom u a U) as [-> N]. rewrite hom_trace, N, half_cos. cbn [half q_w]. ring. Qed.

(** ** Angles *)
Lemma angle_unique m a b : angle_of m a -> angle_of m b -> a = b.
Proof. intros [A TA] [B TB]. apply cos_inj; [exact A|exact B|lra]. Qed.
Lemma angle_zero m a : is_rot m -> angle_of m a -> (a = 0 <-> m = mident).
Proof.
  intros R [A T]. split.
  - intros ->. rewrite cos_0 in T. apply trace3_ident; [exact R|lra].
  - intros ->. unfold mtrace in T. cbn in T. apply cos_inj; [exact A|pose proof PI_RGT_0; lra|]. rewrite cos_0. lra.
Qed.

Lemma cos_le_angle a b : 0 <= a <= PI -> 0 <= b <= PI -> cos b <= cos a -> a <= b.
Proof. intros A B H. destruct (Rle_dec a b) as [L|L]; [exact L|]. assert (C := cos_decreasing_1 b a). assert (cos a < cos b) by (apply C; lra). lra. Qed.

Lemma turn_triangle u v a b c : vdot u u = 1 -> vdot v v = 1 -> 0 <= a <= PI -> 0 <= b <= PI ->
  angle_of (mmul (turn u a) (turn v b)) c -> c <= a + b.
Proof.
  intros U V A B [C T]. destruct (Rle_dec PI (a + b)) as [L|L]; [lra|].
  destruct (turn_hom u a U) as [EA NA]. destruct (turn_hom v b V) as [EB NB]. rewrite EA, EB, hom_mul, hom_trace, hamilton_norm, NA, NB, half_cos in T.
  set (w := q_w (hamilton (half u a) (half v b))) in T. assert (P := PI_RGT_0).
  assert (E : cos (a / 2 + b / 2) <= w).
  { rewrite cos_plus. unfold w, hamilton, half. cbn [q_x q_y q_z q_w]. assert (SA : 0 <= sin (a / 2)) by (apply sin_ge_0; lra). assert (SB : 0 <= sin (b / 2)) by (apply sin_ge_0; lra).
    assert (D : vdot u v <= 1). { assert (K := vdot_le u v). unfold vnorm in K. rewrite U, V, sqrt_1 in K. lra. }
    assert (M : 0 <= sin (a / 2) * sin (b / 2)) by (apply Rmult_le_pos; assumption). assert (M' : sin (a / 2) * sin (b / 2) * vdot u v <= sin (a / 2) * sin (b / 2) * 1) by (apply Rmult_le_compat_l; assumption).
    unfold vdot in M'. lra. }
  assert (Z : 0 <= cos (a / 2 + b / 2)) by (apply cos_ge_0; lra). assert (ZC : 0 <= cos (c / 2)) by (apply cos_ge_0; lra).
  assert (LE : cos (a / 2 + b / 2) <= cos (c / 2)). { apply Rle_sq; [exact ZC|]. assert (cos (a / 2 + b / 2) * cos (a / 2 + b / 2) <= w * w) by (apply Rmult_le_compat; assumption). lra. }
  apply cos_le_angle in LE; lra.
Qed.

(** ** Sums *)
Lemma sum_le l m : Forall2 Rle l m -> np_sum l <= np_sum m.
Proof. induction 1; [apply Rle_refl|]. rewrite !np_sum_cons. lra. Qed.

Definition zipw {A B C} (f : A -> B -> C) (l : list A) (m : list B) : list C := map (fun p => f (fst p) (snd p)) (combine l m).
Lemma zipw_cons {A B C} (f : A -> B -> C) a b l m : zipw f (a :: l) (b :: m) = f a b :: zipw f l m.
Proof. reflexivity. Qed.
Lemma sum_plus l m : length l = length m -> np_sum (zipw Rplus l m) = np_sum l + np_sum m.
Proof. revert m. induction l as [|a l IH]; intros [|b m] L; try discriminate L; [cbn; unfold np_sum; cbn; ring|]. rewrite zipw_cons, !np_sum_cons, IH by (injection L as L; exact L). ring. Qed.

Definition sq (x : R) : R := x * x.
Lemma cauchy_lists l m : length l = length m -> np_sum (zipw Rmult l m) * np_sum (zipw Rmult l m) <= np_sum (map sq l) * np_sum (map sq m).
Proof.
  intro L. set (a := np_sum (map sq l)). set (b := np_sum (zipw Rmult l m)). set (c := np_sum (map sq m)).
  assert (Q : forall t, 0 <= a * (t * t) - 2 * t * b + c).
  { intro t. unfold a, b, c. clear a b c. revert m L. induction l as [|x l IH]; intros [|y m] L; try discriminate L; [unfold np_sum; cbn; lra|]. injection L as L. cbn [map]. rewrite zipw_cons, !np_sum_cons.
    specialize (IH m L). assert (K := Rle_0_sqr (x * t - y)). unfold Rsqr in K. unfold sq at 1 3. lra. }
  assert (A : 0 <= a) by (apply np_sum_nonneg; intros y Hy; apply in_map_iff in Hy as (x & <- & _); apply Rle_0_sqr).
  destruct (Req_dec a 0) as [Z|N].
  - assert (b = 0). { destruct (Req_dec b 0) as [E|E]; [exact E|]. exfalso. specialize (Q ((c + 1) / b)). rewrite Z in Q. replace (0 * ((c + 1) / b * ((c + 1) / b)) - 2 * ((c + 1) / b) * b + c) with (- c - 2) in Q by (field; exact E).
      assert (0 <= c) by (apply np_sum_nonneg; intros y Hy; apply in_map_iff in Hy as (x & <- & _); apply Rle_0_sqr). lra. }
    rewrite H, Z. lra.
  - specialize (Q (b / a)). replace (a * (b / a * (b / a)) - 2 * (b / a) * b + c) with ((a * c - b * b) / a) in Q by (field; exact N).
    assert (0 < a) by lra. assert (0 <= (a * c - b * b) / a * a) by (apply Rmult_le_pos; lra). replace ((a * c - b * b) / a * a) with (a * c - b * b) in H0 by (field; exact N). lra.
Qed.

(** Minkowski's inequality *)
Lemma minkowski l m s : length l = length m -> length s = length l -> (forall y, In y s -> 0 <= y) -> Forall2 Rle s (zipw Rplus l m) ->
  sqrt (np_sum (map sq s)) <= sqrt (np_sum (map sq l)) + sqrt (np_sum (map sq m)).
Proof.
  intros L LS P F. set (a := np_sum (map sq l)). set (c := np_sum (map sq m)).
  assert (A : 0 <= a) by (apply np_sum_nonneg; intros y Hy; apply in_map_iff in Hy as (x & <- & _); apply Rle_0_sqr).
  assert (C : 0 <= c) by (apply np_sum_nonneg; intros y Hy; apply in_map_iff in Hy as (x & <- & _); apply Rle_0_sqr).
  assert (SA := sqrt_pos a). assert (SC := sqrt_pos c). assert (QA := sqrt_sqrt a A). assert (QC := sqrt_sqrt c C).
  set (b := np_sum (zipw Rmult l m)). assert (CS := cauchy_lists l m L). fold a b c in CS.
  assert (B : b <= sqrt a * sqrt c). { apply Rle_sq; [apply Rmult_le_pos; assumption|]. replace (sqrt a * sqrt c * (sqrt a * sqrt c)) with ((sqrt a * sqrt a) * (sqrt c * sqrt c)) by ring. rewrite QA, QC. exact CS. }
  assert (S : np_sum (map sq s) <= a + 2 * b + c).
  { assert (E : np_sum (map sq (zipw Rplus l m)) = a + 2 * b + c).
    { unfold a, b, c. clear - L. revert m L. induction l as [|x l IH]; intros [|y m] L; try discriminate L; [unfold np_sum; cbn; ring|]. injection L as L. rewrite !zipw_cons. cbn [map]. rewrite !np_sum_cons, IH by exact L. unfold sq. ring. }
    rewrite <- E. apply sum_le. clear - P F. induction F as [|x y s t H F IH]; [constructor|]. cbn. constructor; [|apply IH; intros; apply P; right; assumption].
    unfold sq. assert (0 <= x) by (apply P; left; reflexivity). apply Rmult_le_compat; assumption. }
  apply Rle_sq; [lra|]. rewrite sqrt_sqrt by (apply np_sum_nonneg; intros y Hy; apply in_map_iff in Hy as (x & <- & _); apply Rle_0_sqr). lra.
Qed.
