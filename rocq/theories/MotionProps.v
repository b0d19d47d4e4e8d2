(** C157: recordings of one motion. *)
From Verif Require Import Base BaseFacts VecFacts NumpyModel NumpyFacts TrajModel TrajSpec TrajFacts TrajFacts2 TrajFacts3 MatchModel MatchSpec MatchFacts MatchFacts2 MatchProps GeomModel GeomSpec EvalModel EvalSpec EvalProps TrajProps MotionSpec.

Section Motion.
  Context {Q : Type}.

  Lemma fraction a b x : a < x < b -> 0 < (x - a) / (b - a) < 1.
  Proof.
    intros [A B]. assert (P : 0 < b - a) by lra. split; [apply Rdiv_lt_0_compat; lra|].
    apply Rmult_lt_reg_r with (b - a); [exact P|]. unfold Rdiv. rewrite Rmult_assoc, Rinv_l by lra. lra.
  Qed.

  Lemma off_track (f : R -> V3) d a b x : a < x < b ->
    lerp (f a) (f b) ((x - a) / (b - a)) = vadd (f x) (vadd (vscale (1 - (x - a) / (b - a)) (vsub (f a) (vadd (f x) (vscale (a - x) d)))) (vscale ((x - a) / (b - a)) (vsub (f b) (vadd (f x) (vscale (b - x) d))))).
  Proof.
    intros [A B]. unfold lerp, vadd, vsub, vscale. cbn. f_equal; field; lra.
  Qed.

  Lemma deviation (f : R -> V3) d a b x e1 e2 : a < x < b -> vdist (f a) (vadd (f x) (vscale (a - x) d)) <= e1 -> vdist (f b) (vadd (f x) (vscale (b - x) d)) <= e2 ->
    vdist (lerp (f a) (f b) ((x - a) / (b - a))) (f x) <= (1 - (x - a) / (b - a)) * e1 + (x - a) / (b - a) * e2.
  Proof.
    intros X E1 E2. rewrite (off_track f d a b x X). destruct (fraction a b x X) as [F0 F1]. set (w := (x - a) / (b - a)) in *. clearbody w.
    unfold vdist in *. set (u := vsub (f a) _) in *. set (v := vsub (f b) _) in *.
    replace (vsub (vadd (f x) (vadd (vscale (1 - w) u) (vscale w v))) (f x)) with (vadd (vscale (1 - w) u) (vscale w v)) by (destruct (f x); unfold vadd, vsub, vscale; cbn; f_equal; ring).
    eapply Rle_trans; [apply vnorm_triangle|]. rewrite !vnorm_scale, !Rabs_right by lra. nra.
  Qed.

  Lemma by_speed v (f : R -> V3) a b x : speed_at_most v f -> a < x < b -> vdist (lerp (f a) (f b) ((x - a) / (b - a))) (f x) <= v * (b - a) / 2.
  Proof.
    intros V X. assert (Z : forall s, vadd (f x) (vscale (s - x) vzero) = f x) by (intro s; destruct (f x); unfold vadd, vscale, vzero; cbn; f_equal; ring).
    pose proof (V a x) as A. pose proof (V b x) as B. rewrite Rabs_left in A by lra. rewrite Rabs_right in B by lra.
    rewrite <- (Z a) in A. rewrite <- (Z b) in B.
    eapply Rle_trans; [apply (deviation f vzero a b x _ _ X A B)|]. destruct (fraction a b x X) as [F0 F1].
    assert (V0 : 0 <= v).
    { pose proof (V (x + 1) x) as P. rewrite Rabs_right in P by lra. pose proof (vnorm_nonneg (vsub (f (x + 1)) (f x))) as N. unfold vdist in P. lra. }
    assert (XA : x - a = (x - a) / (b - a) * (b - a)) by (field; lra).
    set (w := (x - a) / (b - a)) in *. clearbody w. set (h := b - a) in *.
    replace (- (a - x)) with (w * h) by lra. replace (b - x) with ((1 - w) * h) by (unfold h in *; lra).
    assert (H0 : 0 < h) by (unfold h; lra). clearbody h.
    assert (w * (1 - w) <= / 4) by (pose proof (pow2_ge_0 (w - / 2)) as SQ; simpl in SQ; lra).
    replace ((1 - w) * (v * (w * h)) + w * (v * ((1 - w) * h))) with (2 * (v * h) * (w * (1 - w))) by ring.
    assert (0 <= v * h) by nra. nra.
  Qed.

  Lemma by_acceleration c (f : R -> V3) a b x : acceleration_at_most c f -> a < x < b -> vdist (lerp (f a) (f b) ((x - a) / (b - a))) (f x) <= c * (b - a) ^ 2 / 8.
  Proof.
    intros [g G] X. pose proof (G a x) as A. pose proof (G b x) as B.
    eapply Rle_trans; [apply (deviation f (g x) a b x _ _ X A B)|]. destruct (fraction a b x X) as [F0 F1].
    assert (V0 : 0 <= c).
    { pose proof (G (x + 1) x) as P. replace (x + 1 - x) with 1 in P by ring. pose proof (vnorm_nonneg (vsub (f (x + 1)) (vadd (f x) (vscale 1 (g x))))) as N. unfold vdist in P. lra. }
    assert (XA : x - a = (x - a) / (b - a) * (b - a)) by (field; lra).
    set (w := (x - a) / (b - a)) in *. clearbody w. set (h := b - a) in *.
    replace (a - x) with (- (w * h)) by lra. replace (b - x) with ((1 - w) * h) by (unfold h in *; lra).
    assert (H0 : 0 < h) by (unfold h; lra). clearbody h.
    replace ((1 - w) * (c * (- (w * h)) ^ 2 / 2) + w * (c * ((1 - w) * h) ^ 2 / 2)) with (c * h ^ 2 / 2 * (w * (1 - w))) by field.
    assert (0 <= c * h ^ 2) by (apply Rmult_le_pos; [exact V0|apply pow2_ge_0]).
    assert (w * (1 - w) <= / 4) by (pose proof (pow2_ge_0 (w - / 2)) as SQ; simpl in SQ; lra). set (k := c * h ^ 2) in *. nra.
  Qed.

  Lemma recorded (f : R -> V3) (t : traj Q) k x p : consistent t -> records f t -> nth_error (tstamps t) k = Some x -> nth_error (xyz t) k = Some p -> p = f x.
  Proof.
    intros C D X P. destruct (poses_components t C) as (T1 & T2 & _). rewrite <- T1, nth_error_map' in X. rewrite <- T2, nth_error_map' in P.
    destruct (nth_error (poses t) k) as [po|] eqn:E; [|discriminate]. apply nth_error_In, D in E. cbn in X, P. congruence.
  Qed.

  Lemma next_neighbours (l : list R) k a b : StronglySorted Rlt l -> nth_error l k = Some a -> nth_error l (S k) = Some b -> neighbours l a b.
  Proof.
    intros S A B. rewrite StronglySorted_nth in S. repeat split; try (eapply nth_error_In; eassumption).
    - apply (S k (Datatypes.S k) a b); [lia|assumption..].
    - intros y I [L U]. apply In_nth_error in I as [j J]. destruct (le_lt_dec j k) as [K|K].
      + destruct (Nat.eq_dec j k) as [->|N]; [rewrite A in J; injection J as <-; lra|]. assert (y < a) by (apply (S j k); [lia|assumption..]). lra.
      + destruct (Nat.eq_dec j (Datatypes.S k)) as [->|N]; [rewrite B in J; injection J as <-; lra|]. assert (b < y) by (apply (S (Datatypes.S k) j); [lia|assumption..]). lra.
  Qed.
End Motion.

(** Interpolated positions of a recording with poses at most [h] apart are at most v h / 2 from the motion if it moves with at most [v], and at most
    a h^2 / 8 if it accelerates with at most [a]. *)
Theorem C157_interpolated : forall Q (seg : Q -> Q -> R -> Q) f h (t t' : traj Q) req i x p,
  consistent t -> strictly_time_sorted t -> records f t -> sampled_within h t -> interpolate seg t req = Ok t' ->
  nth_error (tstamps t') i = Some x -> nth_error (xyz t') i = Some p ->
  (forall v, speed_at_most v f -> vdist p (f x) <= v * Rmax h 0 / 2) /\ (forall a, acceleration_at_most a f -> vdist p (f x) <= a * h ^ 2 / 8).
Proof.
  intros Q seg f h t t' req i x p C S D G E X P.
  assert (TWO : rot t = None \/ (2 <= tlen t)%nat).
  { destruct (rot t) as [q|] eqn:Eq; [right|left; reflexivity]. apply (interpolate_needs_two seg t req t' q C Eq E). intro Z. rewrite Z in X. destruct i; discriminate. }
  destruct (interpolate_positions_spec seg t req t' i x C S TWO E X) as [(k & p' & A & B & P')|(k & a & b & p' & q & A & B & L & D1 & D2 & F)].
  - rewrite P in P'. injection P' as <-. rewrite (recorded f t k x p C D A B). rewrite vdist_refl. split.
    + intros v V. pose proof (V (x + 1) x) as K. rewrite Rabs_right in K by lra. pose proof (vnorm_nonneg (vsub (f (x + 1)) (f x))) as N. unfold vdist in K.
      pose proof (Rmax_r h 0). assert (0 <= v * Rmax h 0) by (apply Rmult_le_pos; lra). lra.
    + intros c [g V]. pose proof (V (x + 1) x) as K. replace (x + 1 - x) with 1 in K by ring. pose proof (vnorm_nonneg (vsub (f (x + 1)) (vadd (f x) (vscale 1 (g x))))) as N. unfold vdist in K.
      assert (0 <= c * h ^ 2) by (apply Rmult_le_pos; [lra|apply pow2_ge_0]). lra.
  - rewrite P in F. injection F as ->. rewrite (recorded f t k a p' C D A D1), (recorded f t (Datatypes.S k) b q C D B D2).
    assert (H : b - a <= h) by (apply G; eapply next_neighbours; eassumption). split.
    + intros v V. eapply Rle_trans; [apply (by_speed v f a b x V L)|].
      assert (0 <= v).
      { pose proof (V (x + 1) x) as K. rewrite Rabs_right in K by lra. pose proof (vnorm_nonneg (vsub (f (x + 1)) (f x))) as N. unfold vdist in K. lra. }
      pose proof (Rmax_l h 0). assert (v * (b - a) <= v * Rmax h 0) by (apply Rmult_le_compat_l; lra). lra.
    + intros c V. eapply Rle_trans; [apply (by_acceleration c f a b x V L)|].
      assert (0 <= c).
      { destruct V as [g V]. pose proof (V (x + 1) x) as K. replace (x + 1 - x) with 1 in K by ring. pose proof (vnorm_nonneg (vsub (f (x + 1)) (vadd (f x) (vscale 1 (g x))))) as N. unfold vdist in K. lra. }
      assert ((b - a) ^ 2 <= h ^ 2) by (apply pow_incr; lra). assert (c * (b - a) ^ 2 <= c * h ^ 2) by (apply Rmult_le_compat_l; assumption). lra.
Qed.
Print Assumptions C157_interpolated.

Lemma intersect_gives {Q} (t t' : traj Q) ts gap : consistent t -> intersect t ts gap = Ok t' ->
  consistent t' /\ exists K, kept (fun p => K p /\ supported ts gap (p_t p)) (poses t) (poses t').
Proof.
  intros C E. assert (N1 : ts <> []) by (intros ->; rewrite (intersect_empty t [] gap) in E by auto; discriminate).
  assert (N2 : tstamps t <> []) by (intro Z; rewrite (intersect_empty t ts gap) in E by auto; discriminate).
  destruct (min_exists ts N1) as [a0 A0]. destruct (max_exists ts N1) as [a1 A1]. destruct (min_exists _ N2) as [b0 B0]. destruct (max_exists _ N2) as [b1 B1].
  destruct (intersect_kept t ts gap a0 a1 b0 b1 C A0 A1 B0 B1) as (H & H' & _).
  destruct (Rle_or_lt (Rmax a0 b0) (Rmin a1 b1)) as [L|L]; [|apply H' in L; congruence].
  destruct (H L) as (u & U & Cu & _ & K). rewrite E in U. injection U as <-. split; [exact Cu|]. exists (fun p => Rmax a0 b0 <= p_t p <= Rmin a1 b1). exact K.
Qed.

Lemma interpolated_near : forall Q (seg : Q -> Q -> R -> Q) f (test ref test' ref' : traj Q) i x p,
  consistent test -> consistent ref -> strictly_time_sorted test -> time_sorted ref -> records f test ->
  match_interpolation seg test ref = Ok (test', ref') -> nth_error (xyz test') i = Some p -> nth_error (tstamps ref') i = Some x ->
  (forall v, speed_at_most v f -> vdist p (f x) <= v) /\ (forall a, acceleration_at_most a f -> vdist p (f x) <= a / 2).
Proof.
  intros Q seg f test ref test' ref' i x p Ct Cr St Sr Dt M P X. pose proof M as M0. unfold match_interpolation in M.
  apply bind_ok in M as [t1 [E1 M]]. apply bind_ok in M as [r1 [E2 M]]. apply bind_ok in M as [t2 [E3 M]]. injection M as <- <-.
  change (xyz (set_arc (arc r1) t2)) with (xyz t2) in P.
  destruct (intersect_gives test t1 _ _ Ct E1) as (C1 & K1 & HK1). destruct (intersect_gives ref r1 _ _ Cr E2) as (C2 & K2 & HK2).
  assert (S1 : strictly_time_sorted t1) by (apply (poses_strict t1 C1); apply (kept_sorted _ _ _ _ HK1); apply (poses_strict test Ct), St).
  assert (D1 : records f t1) by (intros po I; apply Dt; apply (kept_in _ _ _ HK1) in I; tauto).
  destruct (C22_interpolation_sampling Q seg test ref _ _ Ct Cr (strictly_sorted_sorted _ St) Sr M0) as (ET & _).
  change (tstamps (set_arc (arc r1) t2)) with (tstamps t2) in ET.
  assert (X2 : nth_error (tstamps t2) i = Some x) by congruence.
  assert (SU : supported (tstamps t1) 2 x).
  { destruct (poses_components r1 C2) as (T1 & _). rewrite <- T1, nth_error_map' in X. destruct (nth_error (poses r1) i) as [po|] eqn:E; [|discriminate]. injection X as <-.
    apply nth_error_In in E. apply (kept_in _ _ _ HK2) in E. tauto. }
  assert (TWO : rot t1 = None \/ (2 <= tlen t1)%nat).
  { destruct (rot t1) as [r|] eqn:Eq; [right|left; reflexivity]. apply (interpolate_needs_two seg t1 (tstamps r1) t2 r C1 Eq E3). intro Z. rewrite Z in X2. destruct i; discriminate. }
  assert (POS : (forall v, speed_at_most v f -> 0 <= v) /\ (forall a, acceleration_at_most a f -> 0 <= a)).
  { split.
    - intros v V. pose proof (V (x + 1) x) as K. rewrite Rabs_right in K by lra. pose proof (vnorm_nonneg (vsub (f (x + 1)) (f x))) as N. unfold vdist in K. lra.
    - intros c [g V]. pose proof (V (x + 1) x) as K. replace (x + 1 - x) with 1 in K by ring. pose proof (vnorm_nonneg (vsub (f (x + 1)) (vadd (f x) (vscale 1 (g x))))) as N. unfold vdist in K. lra. }
  destruct POS as [POS1 POS2].
  destruct (interpolate_positions_spec seg t1 (tstamps r1) t2 i x C1 S1 TWO E3 X2) as [(k & p' & A & B & F)|(k & a & b & p' & q' & A & B & L & F1 & F2 & F)].
  - rewrite P in F. injection F as <-. rewrite (recorded f t1 k x p C1 D1 A B). rewrite vdist_refl.
    split; [exact POS1|]. intros c V. apply POS2 in V. lra.
  - rewrite P in F. injection F as ->. rewrite (recorded f t1 k a p' C1 D1 A F1), (recorded f t1 (Datatypes.S k) b q' C1 D1 B F2).
    assert (NB : neighbours (tstamps t1) a b) by (eapply next_neighbours; eassumption).
    assert (H : b - a <= 2).
    { destruct NB as (IA & IB & AB & NB). destruct SU as [I|(a' & b' & (IA' & IB' & AB' & NB') & X' & GAP)]; [exfalso; apply (NB x I L)|].
      assert (a = a'). { destruct (Rtotal_order a a') as [Z|[Z|Z]]; [exfalso; apply (NB a' IA'); lra|exact Z|exfalso; apply (NB' a IA); lra]. }
      assert (b = b'). { destruct (Rtotal_order b b') as [Z|[Z|Z]]; [exfalso; apply (NB' b IB); lra|exact Z|exfalso; apply (NB b' IB'); lra]. }
      subst. exact GAP. }
    split.
    + intros v V. eapply Rle_trans; [apply (by_speed v f a b x V L)|]. apply POS1 in V. assert (v * (b - a) <= v * 2) by (apply Rmult_le_compat_l; lra). lra.
    + intros c V. eapply Rle_trans; [apply (by_acceleration c f a b x V L)|]. apply POS2 in V. assert ((b - a) ^ 2 <= 2 ^ 2) by (apply pow_incr; lra).
      assert (c * (b - a) ^ 2 <= c * 2 ^ 2) by (apply Rmult_le_compat_l; assumption). lra.
Qed.

Lemma reference_entry {Q} (seg : Q -> Q -> R -> Q) g (test ref test' ref' : traj Q) i q : consistent test -> consistent ref -> strictly_time_sorted test -> time_sorted ref ->
  records g ref -> match_interpolation seg test ref = Ok (test', ref') -> nth_error (xyz ref') i = Some q -> exists x, nth_error (tstamps ref') i = Some x /\ q = g x.
Proof.
  intros Ct Cr St Sr D M P. destruct (C22_interpolation_sampling Q seg test ref _ _ Ct Cr (strictly_sorted_sorted _ St) Sr M) as (_ & _ & C & _ & K & HK).
  assert (X : exists x, nth_error (tstamps ref') i = Some x) by (apply nth_error_lt_Some; destruct C as (C & _); rewrite C; eapply nth_error_Some_lt, P).
  destruct X as [x X]. exists x. split; [exact X|]. apply (recorded g ref' i x q C); [|exact X|exact P]. intros po I. apply D. apply (kept_in _ _ _ HK) in I. tauto.
Qed.

(** Matching by interpolation: two recordings of the same motion, at whatever times, differ by at most the way of one second, or half of what the
    acceleration adds up to in one second; longer gaps of the test trajectory are left out. *)
Theorem C157_matched : forall Q (seg : Q -> Q -> R -> Q) f (test ref test' ref' : traj Q) i p q,
  consistent test -> consistent ref -> strictly_time_sorted test -> time_sorted ref -> records f test -> records f ref ->
  match_interpolation seg test ref = Ok (test', ref') -> nth_error (xyz test') i = Some p -> nth_error (xyz ref') i = Some q ->
  (forall v, speed_at_most v f -> vdist p q <= v) /\ (forall a, acceleration_at_most a f -> vdist p q <= a / 2).
Proof.
  intros Q seg f test ref test' ref' i p q Ct Cr St Sr Dt Dr M P P'.
  destruct (reference_entry seg f test ref test' ref' i q Ct Cr St Sr Dr M P') as (x & X & ->). eapply interpolated_near; [exact Ct|exact Cr|exact St|exact Sr|exact Dt|exact M|exact P|exact X].
Qed.
Print Assumptions C157_matched.

(** Two different motions: the errors that are measured are those of the motions at the times of the reference, but for the same bounds, where speed and
    acceleration are those of the motion of the test trajectory. *)
Theorem C157_measured : forall Q (seg : Q -> Q -> R -> Q) f g (test ref test' ref' : traj Q) i p q,
  consistent test -> consistent ref -> strictly_time_sorted test -> time_sorted ref -> records f test -> records g ref ->
  match_interpolation seg test ref = Ok (test', ref') -> nth_error (xyz test') i = Some p -> nth_error (xyz ref') i = Some q ->
  exists x, nth_error (tstamps ref') i = Some x /\
    (forall v, speed_at_most v f -> Rabs (vdist p q - vdist (f x) (g x)) <= v) /\ (forall a, acceleration_at_most a f -> Rabs (vdist p q - vdist (f x) (g x)) <= a / 2).
Proof.
  intros Q seg f g test ref test' ref' i p q Ct Cr St Sr Dt Dr M P P'.
  destruct (reference_entry seg g test ref test' ref' i q Ct Cr St Sr Dr M P') as (x & X & ->). exists x. split; [exact X|].
  destruct (interpolated_near Q seg f test ref test' ref' i x p Ct Cr St Sr Dt M P X) as [A B].
  assert (K : Rabs (vdist p (g x) - vdist (f x) (g x)) <= vdist p (f x)).
  { pose proof (vdist_triangle p (f x) (g x)) as T1. pose proof (vdist_triangle (f x) p (g x)) as T2. rewrite (vdist_sym (f x) p) in T2. apply Rabs_le. lra. }
  split; intros c V; (eapply Rle_trans; [exact K|]); [apply A, V|apply B, V].
Qed.
Print Assumptions C157_measured.

(** Matching by time: at most the way of the largest permitted difference of time. *)
Theorem C157_nearest : forall Q query2 max f v (test ref test' ref' : traj Q) i p q,
  knn_contract dist2 query2 -> consistent test -> consistent ref -> 0 < max -> records f test -> records f ref -> speed_at_most v f ->
  match_temporal query2 max test ref = Ok (test', ref') -> nth_error (xyz test') i = Some p -> nth_error (xyz ref') i = Some q ->
  vdist p q <= v * max.
Proof.
  intros Q query2 max f v test ref test' ref' i p q KC Ct Cr Hm Dt Dr V M P P'.
  destruct (tstamps test) as [|x0 ts] eqn:Et; [exfalso; unfold match_temporal in M; rewrite Et in M; discriminate|].
  destruct (C19_temporal Q query2 max test ref KC Ct Cr ltac:(lra) ltac:(congruence)) as [(t' & r' & is & js & E' & Hp & Hs & Hr)|[E' _]]; [|congruence].
  rewrite M in E'. injection E' as <- <-.
  assert (G : forall (t t' : traj Q) idx, consistent t -> records f t -> selected t idx t' -> forall k y r, nth_error (tstamps t') k = Some y -> nth_error (xyz t') k = Some r -> r = f y).
  { intros t t' idx C D (C' & _ & L & H) k y r Y Z. assert (K : (k < length idx)%nat) by (rewrite <- L; eapply nth_error_Some_lt, Z).
    apply nth_error_lt_Some in K as [j J]. destruct (H k j J) as [E N]. destruct (pose_at t j) as [po|] eqn:F; [|congruence].
    apply pose_at_tstamp in E as [E1 E2]. apply pose_at_tstamp in F as [F1 F2].
    rewrite Y in E1. rewrite Z in E2. injection E1 as ->. injection E2 as ->. apply (recorded f t j _ _ C D F1 F2). }
  assert (X : exists x, nth_error (tstamps test') i = Some x).
  { apply nth_error_lt_Some. destruct Hs as ((C & _) & _). rewrite C. eapply nth_error_Some_lt, P. }
  assert (Y : exists y, nth_error (tstamps ref') i = Some y).
  { apply nth_error_lt_Some. destruct Hr as ((C & _) & _). rewrite C. eapply nth_error_Some_lt, P'. }
  destruct X as [x X], Y as [y Y]. rewrite (G test test' is Ct Dt Hs i x p X P), (G ref ref' js Cr Dr Hr i y q Y P').
  assert (T : Rabs (y - x) < max).
  { rewrite <- dist2_stamp. apply (paired_entries dist2 query2 (fun t => map stamp (tstamps t)) max js is test ref test' ref') with (m := i); auto.
    - intros t u k l po A B. apply pose_at_tstamp in A as [A _]. apply pose_at_tstamp in B as [B _]. rewrite !nth_error_map'. congruence.
    - intros t Hc. rewrite map_length. apply Hc.
    - rewrite nth_error_map', X. reflexivity.
    - rewrite nth_error_map', Y. reflexivity.
    - lra. }
  assert (V0 : 0 <= v).
  { pose proof (V (x + 1) x) as K. rewrite Rabs_right in K by lra. pose proof (vnorm_nonneg (vsub (f (x + 1)) (f x))) as N. unfold vdist in K. lra. }
  eapply Rle_trans; [apply V|]. rewrite <- Rabs_Ropp, Ropp_minus_distr. apply Rmult_le_compat_l; lra.
Qed.
Print Assumptions C157_nearest.

(** The errors of [ate] without alignment: what sampling alone can cause. *)
Theorem C157_errors : forall Q (ops : rot_ops Q) query2 query3 seg eigh loc (s : matching_settings) f (test ref test' ref' : traj Q) args r bound,
  rot_contract ops -> knn_contract dist2 query2 -> consistent test -> consistent ref -> strictly_time_sorted test -> time_sorted ref ->
  records f test -> records f ref -> match_trajectories query2 query3 seg eigh loc s test ref = Ok (args, (test', ref')) -> tstamps ref' <> [] ->
  compare_absolute ops test' ref' = Ok r ->
  (m_method s = Interpolation /\ speed_at_most bound f) \/ (m_method s = Interpolation /\ acceleration_at_most (2 * bound) f) \/
  (m_method s = NearestTemporal /\ 0 < max_time_diff s /\ exists v, speed_at_most v f /\ v * max_time_diff s <= bound) ->
  exists hi rmse mean, pos_dev_max r = Ok hi /\ pos_dev_rms r = Some rmse /\ pos_ate r = Some mean /\ hi <= bound /\ rmse <= bound /\ mean <= bound.
Proof.
  intros Q ops query2 query3 seg eigh loc s f test ref test' ref' args r bound RC KC Ct Cr St Sr Dt Dr M NE E HB.
  assert (G : consistent test' /\ consistent ref' /\ tlen test' = tlen ref' /\ forall i p q, nth_error (xyz test') i = Some p -> nth_error (xyz ref') i = Some q -> vdist p q <= bound).
  { assert (GI : m_method s = Interpolation -> consistent test' /\ consistent ref' /\ tlen test' = tlen ref' /\ match_interpolation seg test ref = Ok (test', ref')).
    { intro MM. unfold match_trajectories in M. rewrite MM in M. destruct (match_interpolation seg test ref) as [[a b]|] eqn:EM; [|discriminate]. cbn in M. injection M as _ <- <-.
      destruct (C22_consistent Q seg test ref a b Ct Cr (strictly_sorted_sorted _ St) Sr EM NE) as [A B].
      destruct (C22_interpolation_sampling Q seg test ref a b Ct Cr (strictly_sorted_sorted _ St) Sr EM) as (_ & _ & D & _). auto. }
    destruct HB as [[MM V]|[[MM V]|(MM & T & v & V & B)]].
    - destruct (GI MM) as (A & B & D & EM). split; [exact A|]. split; [exact B|]. split; [exact D|]. intros i p q P P'.
      apply (proj1 (C157_matched Q seg f test ref test' ref' i p q Ct Cr St Sr Dt Dr EM P P') bound V).
    - destruct (GI MM) as (A & B & D & EM). split; [exact A|]. split; [exact B|]. split; [exact D|]. intros i p q P P'.
      pose proof (proj2 (C157_matched Q seg f test ref test' ref' i p q Ct Cr St Sr Dt Dr EM P P') (2 * bound) V). lra.
    - unfold match_trajectories in M. rewrite MM in M. destruct (match_temporal query2 (max_time_diff s) test ref) as [[a b]|] eqn:EM; [|discriminate]. cbn in M. injection M as _ <- <-.
      destruct (tstamps test) as [|x0 ts] eqn:Et; [exfalso; unfold match_temporal in EM; rewrite Et in EM; discriminate|].
      destruct (C19_temporal Q query2 (max_time_diff s) test ref KC Ct Cr ltac:(lra) ltac:(congruence)) as [(t' & r' & is & js & E' & Hp & Hs & Hr)|[E' _]]; [|congruence].
      rewrite EM in E'. injection E' as <- <-. split; [apply Hs|]. split; [apply Hr|]. split; [apply (C19_equal_length _ _ _ _ _ _ _ _ _ _ _ _ _ Hp Hs Hr)|].
      intros i p q P P'. eapply Rle_trans; [|exact B]. eapply C157_nearest; [exact KC|exact Ct|exact Cr|exact T|exact Dt|exact Dr|exact V|exact EM|exact P|exact P']. }
  destruct G as (C1 & C2 & L & H).
  destruct (C33_deviations Q ops test' ref' RC C1 C2 L) as (r' & E' & _ & _ & LP & _ & D & _). rewrite E in E'. injection E' as <-.
  assert (N : pos_dev r <> []).
  { intro Z. rewrite Z in LP. apply NE. destruct C2 as (C2 & _). unfold tlen in LP. destruct (tstamps ref'); [reflexivity|cbn in C2, LP; lia]. }
  destruct (C35_statistics Q r N) as (lo & hi & mean & rmse & med & std & _ & A & B & F & _ & _ & _ & GR & _ & _ & _ & X1 & X2 & _).
  exists hi, rmse, mean. repeat (split; [assumption|]).
  assert (hi <= bound); [|lra]. destruct GR as [IN _]. apply in_map_iff in IN as (d & <- & I). apply In_nth_error in I as [i I].
  assert (K : (i < tlen ref')%nat) by (rewrite <- LP; eapply nth_error_Some_lt, I). unfold tlen in *. assert (K' : (i < length (xyz test'))%nat) by lia.
  apply nth_error_lt_Some in K as [a Ka]. apply nth_error_lt_Some in K' as [b Kb]. rewrite (D i a b Ka Kb) in I. injection I as <-.
  eapply Rle_trans; [|apply (H i b a Kb Ka)]. unfold vdist. right. replace (vsub a b) with (vscale (-1) (vsub b a)) by (unfold vsub, vscale; cbn; f_equal; ring).
  rewrite vnorm_scale, Rabs_left by lra. ring.
Qed.
Print Assumptions C157_errors.

(** ** One pair of recordings that reaches the bounds: it may come from |t|, whose speed is 1, and from t^2, whose acceleration is 2. *)
Definition bounce (t : R) : V3 := mkV3 (Rabs t) 0 0.
Definition bend (t : R) : V3 := mkV3 (t * t) 0 0.
Definition rarely : traj nat := mkTraj [-1; 1] [mkV3 1 0 0; mkV3 1 0 0] None [0; 0] [vzero; vzero] SortTime "test" 0.
Definition often : traj nat := mkTraj [-1; 0; 1] [mkV3 1 0 0; mkV3 0 0 0; mkV3 1 0 0] None [0; 1; 2] [vzero; vzero; vzero] SortTime "ref" 0.

Lemma on_axis x y : vdist (mkV3 x 0 0) (mkV3 y 0 0) = Rabs (x - y).
Proof. unfold vdist, vnorm, vdot, vsub. cbn. rewrite <- sqrt_Rsqr_abs. f_equal. unfold Rsqr. ring. Qed.

Lemma bounce_speed : speed_at_most 1 bounce.
Proof. intros s t. unfold bounce. rewrite on_axis, Rmult_1_l. apply Rabs_triang_inv2. Qed.
Lemma bend_acceleration : acceleration_at_most 2 bend.
Proof.
  exists (fun t => mkV3 (2 * t) 0 0). intros s t. unfold bend.
  replace (vadd (mkV3 (t * t) 0 0) (vscale (s - t) (mkV3 (2 * t) 0 0))) with (mkV3 (t * t + (s - t) * (2 * t)) 0 0) by (unfold vadd, vscale; cbn; f_equal; ring).
  rewrite on_axis. replace (s * s - (t * t + (s - t) * (2 * t))) with ((s - t) ^ 2) by ring. rewrite Rabs_right by (apply Rle_ge, pow2_ge_0). lra.
Qed.

Theorem C157_reached : exists test' ref', match_interpolation demo_seg rarely often = Ok (test', ref') /\
  nth_error (xyz test') 1 = Some (mkV3 1 0 0) /\ nth_error (xyz ref') 1 = Some (mkV3 0 0 0) /\ vdist (mkV3 1 0 0) (mkV3 0 0 0) = 1 /\
  consistent rarely /\ consistent often /\ strictly_time_sorted rarely /\ time_sorted often /\
  records bounce rarely /\ records bounce often /\ speed_at_most 1 bounce /\ records bend rarely /\ records bend often /\ acceleration_at_most 2 bend.
Proof.
  assert (C1 : consistent rarely) by (repeat split). assert (C2 : consistent often) by (repeat split).
  assert (S1 : strictly_time_sorted rarely) by (unfold strictly_time_sorted; cbn; repeat constructor; lra).
  assert (S2 : time_sorted often) by (unfold time_sorted; cbn; repeat constructor; lra).
  assert (E1 : intersect rarely (tstamps often) 2 = Ok rarely).
  { unfold intersect, common_time_span. cbn. rb. cbn. minmax. unfold crop. repeat (cbn; unfold gap_ok; rb). reflexivity. }
  assert (E2 : intersect often (tstamps rarely) 2 = Ok often).
  { unfold intersect, common_time_span. cbn. rb. cbn. minmax. unfold crop. repeat (cbn; unfold gap_ok; rb). reflexivity. }
  assert (M : exists t2, match_interpolation demo_seg rarely often = Ok (set_arc (arc often) t2, often) /\ interpolate demo_seg rarely (tstamps often) = Ok t2).
  { unfold match_interpolation. rewrite E1. cbn [bind]. rewrite E2. cbn [bind].
    destruct (interpolate_ok demo_seg rarely (tstamps often) C1 S1 ltac:(cbn; lia) ltac:(left; reflexivity)) as (lo & hi & u & _ & _ & U & _). rewrite U. exists u. split; reflexivity. }
  destruct M as (t2 & M & U).
  destruct (C22_interpolation_sampling nat demo_seg rarely often _ _ C1 C2 (strictly_sorted_sorted _ S1) S2 M) as (ET & _).
  change (tstamps t2 = tstamps often) in ET.
  assert (P : nth_error (xyz t2) 1 = Some (mkV3 1 0 0)).
  { pose proof (C08_interpolate_affine nat demo_seg rarely (tstamps often) t2 (mkV3 1 0 0) vzero 1 0 C1 S1 ltac:(left; reflexivity)) as K.
    rewrite K; [unfold vadd, vscale, vzero; cbn; do 2 f_equal; ring| |exact U|rewrite ET; reflexivity].
    intros [|[|k]] s p A B; cbn in A, B; [injection A as <-; injection B as <-|injection A as <-; injection B as <-|destruct k; discriminate]; unfold vadd, vscale, vzero; cbn; f_equal; ring. }
  exists (set_arc (arc often) t2), often. split; [exact M|]. split; [exact P|]. split; [reflexivity|].
  split; [rewrite on_axis; rewrite Rabs_right; lra|]. repeat (split; [assumption|]).
  assert (A1 : Rabs (-1) = 1) by (rewrite Rabs_left; lra). assert (A2 : Rabs 1 = 1) by (rewrite Rabs_right; lra).
  split; [intros p [<-|[<-|[]]]; cbn; unfold bounce; rewrite ?A1, ?A2; reflexivity|].
  split; [intros p [<-|[<-|[<-|[]]]]; cbn; unfold bounce; rewrite ?A1, ?A2, ?Rabs_R0; reflexivity|]. split; [exact bounce_speed|].
  split; [intros p [<-|[<-|[]]]; cbn; unfold bend; f_equal; ring|]. split; [intros p [<-|[<-|[<-|[]]]]; cbn; unfold bend; f_equal; ring|]. exact bend_acceleration.
Qed.
Print Assumptions C157_reached.

Example C157_case : sampled_within 2 rarely /\ exists test' ref', match_temporal (brute dist2) (1/2) rarely often = Ok (test', ref').
Proof.
  split.
  - intros a b (A & B & L & _). cbn in A, B. destruct A as [<-|[<-|[]]], B as [<-|[<-|[]]]; lra.
  - destruct (C19_temporal nat (brute dist2) (1/2) rarely often (brute_contract dist2) ltac:(repeat split) ltac:(repeat split) ltac:(lra) ltac:(discriminate)) as [(t' & r' & is & js & E & _)|[_ F]]; [eauto|].
    exfalso. destruct (F 1 1) as [_ K]; [right; left; reflexivity|right; right; left; reflexivity|]. rewrite Rminus_diag_eq, Rabs_R0 in K by reflexivity. lra.
Qed.
