(** C160: what a wrong clock looks like. *)
From Verif Require Import Base BaseFacts VecFacts NumpyModel NumpyFacts TrajModel TrajSpec TrajFacts TrajFacts2 TrajFacts3 GeomModel GeomSpec GeomFacts GeomFacts2 GeomProps
  EvalModel EvalSpec EvalFacts EvalFacts2 EvalFacts3 EvalFacts4 EvalFacts5 EvalStats EvalProps MotionSpec MotionProps BiasModel BiasProps OffsetSpec.

Section Offset.
  Context {Q : Type} (ops : rot_ops Q).
  Implicit Types test ref : traj Q.

  Lemma late_pair f d test ref i a b : consistent test -> consistent ref -> records f ref -> clock_off d f test -> tstamps test = tstamps ref ->
    nth_error (xyz ref) i = Some a -> nth_error (xyz test) i = Some b -> exists x, nth_error (tstamps ref) i = Some x /\ a = f x /\ b = f (x + d).
  Proof.
    intros Ct Cr Rr Rt T A B. assert (I := nth_error_Some_lt _ _ _ A). destruct (nth_error_lt_Some (tstamps ref) i) as [x X].
    { destruct Cr as (K & _). unfold tlen in K. lia. }
    exists x. split; [exact X|]. split; [exact (recorded f ref i x a Cr Rr X A)|]. rewrite <- T in X. exact (recorded _ test i x b Ct Rt X B).
  Qed.

  Lemma same_count test ref : consistent test -> consistent ref -> tstamps test = tstamps ref -> tlen test = tlen ref.
  Proof. intros (A & _) (B & _) T. unfold tlen in *. congruence. Qed.
End Offset.

(** Any motion: no absolute position error exceeds the speed times the offset of the clock. *)
Theorem C160_any : forall (Q : Type) (ops : rot_ops Q) f d v (test ref : traj Q), consistent test -> consistent ref -> tstamps test = tstamps ref ->
  records f ref -> clock_off d f test -> speed_at_most v f -> (0 < tlen ref)%nat -> rot_contract ops ->
  exists r m, compare_absolute ops test ref = Ok r /\ pos_dev_max r = Ok m /\ m <= v * Rabs d.
Proof.
  intros Q ops f d v test ref Ct Cr T Rr Rt V P RC. assert (L := same_count test ref Ct Cr T).
  destruct (C33_deviations Q ops test ref RC Ct Cr L) as (r & E & _ & _ & LP & _ & D & _).
  destruct (np_max_spec (pos_dev_comb r)) as (m & M & I & _).
  { unfold pos_dev_comb. intro Z. apply (f_equal (@length _)) in Z. rewrite map_length in Z. cbn in Z. lia. }
  exists r, m. split; [exact E|]. split; [exact M|]. unfold pos_dev_comb in I. apply in_map_iff in I as (w & <- & I). apply In_nth_error in I as [i I].
  assert (J := nth_error_Some_lt _ _ _ I). destruct (nth_error_lt_Some (xyz ref) i) as [a A]; [unfold tlen in LP; lia|]. destruct (nth_error_lt_Some (xyz test) i) as [b B]; [unfold tlen in *; lia|].
  rewrite (D i a b A B) in I. injection I as <-. destruct (late_pair f d test ref i a b Ct Cr Rr Rt T A B) as (x & _ & -> & ->).
  change (vnorm (vsub (f x) (f (x + d)))) with (vdist (f x) (f (x + d))). eapply Rle_trans; [apply V|]. replace (x - (x + d)) with (- d) by ring. rewrite Rabs_Ropp. apply Rle_refl.
Qed.
Print Assumptions C160_any.

Lemma uniform_vdist p w s t : vdist (vadd p (vscale s w)) (vadd p (vscale t w)) = Rabs (s - t) * vnorm w.
Proof. unfold vdist. rewrite <- vnorm_scale. f_equal. destruct p, w. apply V3_eq; munf; ring. Qed.

(** Straight motion at constant velocity [w], no orientations: every pose is off by exactly [d |w|] along the track and by nothing across
    it, so the along-track bias divided by the speed is the offset of the clock.  (The sign of the last pose is right as long as the
    estimate is not behind by twice the last step, see C61.) *)
Theorem C160_straight : forall (Q : Type) (ops : rot_ops Q) p w d (test ref : traj Q), consistent test -> consistent ref -> tstamps test = tstamps ref ->
  strictly_time_sorted ref -> records (uniform p w) ref -> clock_off d (uniform p w) test -> rot ref = None -> rot test = None -> w <> vzero -> (2 <= tlen ref)%nat ->
  (forall a b, neighbours (tstamps ref) a b -> - (2 * (b - a)) < d) ->
  exists r, compare_absolute ops test ref = Ok r /\ directed_pos_dev r = repeat (mkV3 (d * vnorm w) 0 0) (tlen ref) /\
    pos_bias_along r = Some (d * vnorm w) /\ pos_bias_cross_h r = Some 0 /\ pos_bias_cross_v r = Some 0.
Proof.
  intros Q ops p w d test ref Ct Cr T SO Rr Rt Er Et W N2 G. assert (L := same_count test ref Ct Cr T).
  destruct (compare_absolute_ok ops test ref Ct Cr L) as (r & E & _ & _ & _ & LD & _). exists r. split; [exact E|].
  assert (WP : 0 < vnorm w). { assert (X := vnorm_nonneg w). destruct (Req_dec (vnorm w) 0) as [Z|Z]; [apply vnorm_zero_iff in Z; contradiction|lra]. }
  assert (LT : length (tstamps ref) = tlen ref) by (destruct Cr as (K & _); exact K).
  assert (K : forall i, (i < tlen ref)%nat -> nth_error (directed_pos_dev r) i = Some (mkV3 (d * vnorm w) 0 0)).
  { intros i I. destruct (nth_error_lt_Some (xyz ref) i I) as [o Ho]. destruct (nth_error_lt_Some (xyz test) i) as [q Hq]; [unfold tlen in *; lia|].
    destruct (late_pair (uniform p w) d test ref i o q Ct Cr Rr Rt T Ho Hq) as (x & X & Eo & Eq).
    assert (TL : exists a b xa xb, track_line (xyz ref) i a b /\ a = uniform p w xa /\ b = uniform p w xb /\ xa < xb /\ neighbours (tstamps ref) xa xb /\ (S i <> tlen ref -> xa = x) /\ (S i = tlen ref -> xb = x)).
    { destruct (Nat.eq_dec (S i) (tlen ref)) as [Z|Z].
      - destruct i as [|j]; [lia|]. destruct (nth_error_lt_Some (xyz ref) j) as [a A]; [unfold tlen in *; lia|]. destruct (nth_error_lt_Some (tstamps ref) j) as [xa XA]; [lia|].
        exists a, o, xa, x. split; [right; exists j; auto|]. split; [exact (recorded _ ref j xa a Cr Rr XA A)|]. split; [exact Eo|].
        split; [exact (proj1 (StronglySorted_nth Rlt (tstamps ref)) SO j (Datatypes.S j) xa x ltac:(lia) XA X)|].
        split; [exact (next_neighbours (tstamps ref) j xa x SO XA X)|]. split; [congruence|reflexivity].
      - destruct (nth_error_lt_Some (xyz ref) (Datatypes.S i)) as [b B]; [unfold tlen in *; lia|]. destruct (nth_error_lt_Some (tstamps ref) (Datatypes.S i)) as [xb XB]; [lia|].
        exists o, b, x, xb. split; [left; split; [unfold tlen in *; lia|auto]|]. split; [exact Eo|]. split; [exact (recorded _ ref (Datatypes.S i) xb b Cr Rr XB B)|].
        split; [exact (proj1 (StronglySorted_nth Rlt (tstamps ref)) SO i (Datatypes.S i) x xb ltac:(lia) X XB)|].
        split; [exact (next_neighbours (tstamps ref) i x xb SO X XB)|]. split; [reflexivity|congruence]. }
    destruct TL as (a & b & xa & xb & TL & Ea & Eb & LTab & NB & NL & LA).
    assert (DAB : vdist b a = (xb - xa) * vnorm w) by (rewrite Ea, Eb; unfold uniform; rewrite uniform_vdist, Rabs_right by lra; reflexivity).
    assert (NE : a <> b). { intros ->. rewrite (vdist_refl b) in DAB. assert (0 < (xb - xa) * vnorm w) by (apply Rmult_lt_0_compat; lra). lra. }
    assert (VB : vsub b a = vscale (xb - xa) w) by (rewrite Ea, Eb; unfold uniform; destruct p, w; apply V3_eq; munf; ring).
    assert (AL : forall s, along a b (vscale s w) = s * vnorm w).
    { intro s. unfold along. rewrite DAB, VB. replace (vdot (vscale s w) (vscale (xb - xa) w)) with (s * (xb - xa) * vdot w w) by (destruct w; munf; ring).
      rewrite <- vnorm_sq. field. split; lra. }
    assert (VO : vsub q o = vscale d w) by (rewrite Eo, Eq; unfold uniform; destruct p, w; apply V3_eq; munf; ring).
    destruct (directed_plain ops test ref r i q o a b Ct Cr L Er Et E Hq Ho TL NE) as (v & f & Hv & FP & V1 & V2 & _ & VZ & _ & _ & VS).
    assert (VX : vx v = d * vnorm w).
    { rewrite <- (AL d), <- VO. destruct (Nat.eq_dec (S i) (tlen ref)) as [Z|Z]; [|exact (V1 Z)]. apply V2; [exact Z|].
      specialize (LA Z). subst xb. replace (vsub q a) with (vscale (x + d - xa) w) by (rewrite Ea, Eq; unfold uniform; destruct p, w; apply V3_eq; munf; ring).
      rewrite AL, DAB. assert (GG := G xa x NB). assert (- (x - xa) < x + d - xa) by lra. replace (- ((x - xa) * vnorm w)) with (- (x - xa) * vnorm w) by ring. apply Rmult_lt_compat_r; assumption. }
    assert (SS : sum_sq (vsub o q) = (d * vnorm w) * (d * vnorm w)).
    { replace (vsub o q) with (vscale (- d) w) by (rewrite Eo, Eq; unfold uniform; destruct p, w; apply V3_eq; munf; ring).
      replace (d * vnorm w * (d * vnorm w)) with (d * d * (vnorm w * vnorm w)) by ring. rewrite vnorm_sq. unfold sum_sq. destruct w; munf; ring. }
    rewrite SS in VS. unfold sum_sq, vdot in VS. rewrite VX in VS.
    assert (Y0 := Rle_0_sqr (vy v)). assert (Z0 := Rle_0_sqr (vz v)). unfold Rsqr in Y0, Z0.
    assert (YY : vy v * vy v = 0) by lra. assert (ZZ : vz v * vz v = 0) by lra. apply Rmult_integral in YY, ZZ.
    rewrite Hv. f_equal. destruct v as [v1 v2 v3]. cbn [vx vy vz] in *. f_equal; [exact VX|tauto|tauto]. }
  assert (DD : directed_pos_dev r = repeat (mkV3 (d * vnorm w) 0 0) (tlen ref)).
  { apply nth_error_ext. intro i. destruct (Nat.lt_ge_cases i (tlen ref)) as [I|I].
    - rewrite (K i I). symmetry. apply nth_error_repeat, I.
    - rewrite (proj2 (nth_error_None _ _)) by lia. symmetry. apply nth_error_None. rewrite repeat_length. exact I. }
  split; [exact DD|]. assert (ME : forall f : V3 -> R, np_mean (map f (directed_pos_dev r)) = Some (f (mkV3 (d * vnorm w) 0 0))).
  { intro f. rewrite DD. rewrite mean_map by (destruct (tlen ref); [lia|discriminate]). f_equal.
    rewrite (MatchFacts2.np_sum_ext f (fun _ => f (mkV3 (d * vnorm w) 0 0))) by (intros u U; apply repeat_spec in U; subst; reflexivity).
    rewrite MatchFacts2.np_sum_const, repeat_length. field. apply Rgt_not_eq, lt_0_INR. lia. }
  unfold pos_bias_along, pos_bias_cross_h, pos_bias_cross_v. rewrite !ME. cbn [vx vy vz]. auto.
Qed.
Print Assumptions C160_straight.

(** The same with orientations that point along the velocity. *)
Theorem C160_vehicle : forall (Q : Type) (ops : rot_ops Q) p w d (test ref : traj Q) q, rot_contract ops -> consistent test -> consistent ref -> tstamps test = tstamps ref ->
  records (uniform p w) ref -> clock_off d (uniform p w) test -> rot ref = Some q -> (0 < tlen ref)%nat ->
  (forall m, In m q -> vscale (vnorm w) (mapply (as_matrix ops m) (mkV3 1 0 0)) = w) ->
  exists r, compare_absolute ops test ref = Ok r /\ pos_bias_along r = Some (d * vnorm w) /\ pos_bias_cross_h r = Some 0 /\ pos_bias_cross_v r = Some 0 /\
    pos_ate r = Some (Rabs d * vnorm w).
Proof.
  intros Q ops p w d test ref q RC Ct Cr T Rr Rt Er N H. assert (L := same_count test ref Ct Cr T).
  destruct (C115_directed Q ops test ref q (mkV3 (d * vnorm w) 0 0) RC Ct Cr L N Er) as (r & E & A & B & C & _ & _ & _ & D).
  - intros i a b m A B M. destruct (late_pair (uniform p w) d test ref i a b Ct Cr Rr Rt T A B) as (x & _ & -> & ->).
    assert (K := H m (nth_error_In _ _ M)). replace (mapply (as_matrix ops m) (mkV3 (d * vnorm w) 0 0)) with (vscale d (vscale (vnorm w) (mapply (as_matrix ops m) (mkV3 1 0 0))))
      by (destruct (as_matrix ops m) as [[] [] []]; apply V3_eq; munf; ring).
    rewrite K. unfold uniform. destruct p, w. apply V3_eq; munf; ring.
  - exists r. split; [exact E|]. split; [exact A|]. split; [exact B|]. split; [exact C|]. rewrite D. f_equal.
    replace (mkV3 (d * vnorm w) 0 0) with (vscale (d * vnorm w) (mkV3 1 0 0)) by (apply V3_eq; munf; ring).
    rewrite vnorm_scale, Rabs_mult, (Rabs_pos_eq (vnorm w)) by apply vnorm_nonneg. replace (vnorm (mkV3 1 0 0)) with 1; [ring|]. symmetry. apply vnorm_unique; [lra|munf; ring].
Qed.
Print Assumptions C160_vehicle.

(** A second of motion along the x axis at two metres per second, a quarter of a second off *)
Definition steady_motion : R -> V3 := uniform vzero (mkV3 2 0 0).
Definition on_time (o : option (list RotM)) : traj RotM := mkTraj [0; 1] [mkV3 0 0 0; mkV3 2 0 0] o [0; 2] [vzero; vzero] SortTime "true" 0.
Definition early (o : option (list RotM)) : traj RotM := mkTraj [0; 1] [mkV3 (1/2) 0 0; mkV3 (5/2) 0 0] o [0; 2] [vzero; vzero] SortTime "early" 0.
Example C160_case :
  (forall o, match o with Some q => length q = 2%nat | None => True end -> consistent (on_time o) /\ consistent (early o) /\ tstamps (early o) = tstamps (on_time o) /\
     strictly_time_sorted (on_time o) /\ records steady_motion (on_time o) /\ clock_off (1/4) steady_motion (early o)) /\
  mkV3 2 0 0 <> vzero /\ (forall a b, neighbours [0; 1] a b -> - (2 * (b - a)) < 1/4) /\ vnorm (mkV3 2 0 0) = 2 /\
  vscale (vnorm (mkV3 2 0 0)) (mapply (as_matrix rot_impl unrotated) (mkV3 1 0 0)) = mkV3 2 0 0 /\
  (exists r, compare_absolute rot_impl (early None) (on_time None) = Ok r /\ pos_bias_along r = Some (1/2)).
Proof.
  assert (N : vnorm (mkV3 2 0 0) = 2) by (apply vnorm_unique; [lra|munf; ring]).
  assert (A : forall o, match o with Some q => length q = 2%nat | None => True end -> consistent (on_time o) /\ consistent (early o) /\ tstamps (early o) = tstamps (on_time o) /\
     strictly_time_sorted (on_time o) /\ records steady_motion (on_time o) /\ clock_off (1/4) steady_motion (early o)).
  { intros o H. assert (C1 : consistent (on_time o)) by (destruct o; repeat split; exact H). assert (C2 : consistent (early o)) by (destruct o; repeat split; exact H).
    split; [exact C1|]. split; [exact C2|]. split; [reflexivity|]. split; [unfold strictly_time_sorted; cbn; repeat constructor; lra|].
    assert (PT : forall t : traj RotM, consistent t -> forall f, (forall i x p, nth_error (tstamps t) i = Some x -> nth_error (xyz t) i = Some p -> p = f x) -> records f t).
    { intros t Ct f F pp I. apply In_nth_error in I as [i I]. destruct (poses_components t Ct) as (PA & PB & _).
      apply (F i); [rewrite <- PA, nth_error_map', I; reflexivity|rewrite <- PB, nth_error_map', I; reflexivity]. }
    split; [apply PT; [exact C1|]|apply PT; [exact C2|]]; intros i x pp X P; destruct i as [|[|[|i]]]; cbn in X, P; try discriminate; injection X as <-; injection P as <-;
      unfold steady_motion, uniform; apply V3_eq; munf; field. }
  assert (G : forall a b, neighbours [0; 1] a b -> - (2 * (b - a)) < 1/4). { intros a b (_ & _ & O & _). lra. }
  assert (W : mkV3 2 0 0 <> vzero) by (intros [= X]; lra).
  split; [exact A|]. split; [exact W|]. split; [exact G|]. split; [exact N|]. split.
  { rewrite N. unfold unrotated. rewrite (rc_euler rot_impl rot_impl_contract). unfold euler_matrix, Rx, Ry, Rz. cbn [vx vy vz vzero]. rewrite ?sin_0, ?cos_0. apply V3_eq; munf; ring. }
  destruct (A None I) as (C1 & C2 & T & SO & R1 & R2).
  destruct (C160_straight _ rot_impl vzero (mkV3 2 0 0) (1/4) (early None) (on_time None) C2 C1 T SO R1 R2 eq_refl eq_refl W ltac:(cbn; lia) G) as (r & E & _ & B & _).
  exists r. split; [exact E|]. rewrite B, N. f_equal. field.
Qed.
