(** Property C153: what looser limits change. *)
From Verif Require Import Base BaseFacts VecFacts NumpyModel NumpyFacts TrajModel TrajSpec TrajFacts TrajFacts2 TrajFacts3 GeomModel MatchModel MatchSpec MatchFacts MatchFacts2 MatchProps LawSpec
  LooseSpec LooseFacts EvalModel EvalSpec EvalFacts2 GeomFacts GeomProps EvalProps.

(** A looser limit never makes a spatial matching fail, keeps every matched reference pose, and changes only pairs to poses that the limit had
    excluded. *)
Theorem C153_spatial : forall Q query3 max max' (test ref test1 ref1 : traj Q),
  knn_contract vdist query3 -> consistent test -> consistent ref -> 0 <= max -> 0 <= max' -> looser max max' -> untied vdist (xyz ref) (xyz test) ->
  match_spatial query3 max test ref = Ok (test1, ref1) ->
  exists test2 ref2, match_spatial query3 max' test ref = Ok (test2, ref2) /\ loosened (fun r p => vdist (p_xyz r) (p_xyz p)) max test1 ref1 test2 ref2.
Proof.
  intros Q query3 max max' test ref test1 ref1 KC Ct Cr H1 H2 L U H.
  assert (N : xyz test <> []) by (intro Z; unfold match_spatial, kd_matcher in H; rewrite Z in H; discriminate).
  destruct (C19_spatial Q query3 max test ref KC Ct Cr H1 N) as [(a & b & is & js & E & Hp & S1 & S2)|[E _]]; [|congruence]. rewrite H in E. injection E as <- <-.
  destruct (C19_spatial Q query3 max' test ref KC Ct Cr H2 N) as [(c & d & is' & js' & E' & Hp' & S1' & S2')|[_ F]].
  - exists c, d. split; [exact E'|]. apply (loosened_trajs vdist query3 (@xyz Q) (fun p => p_xyz p) max max' js is js' is' test ref); try assumption.
    intros t i po A. apply (pose_at_tstamp t i po A).
  - exfalso. destruct Hp as (P1 & P2 & P3 & P4 & P5). destruct js as [|j js]; [congruence|]. destruct is as [|i is]; [discriminate|].
    destruct (P4 0%nat i j eq_refl eq_refl) as (p & A & (r & B & _ & D) & _). destruct (F p r (nth_error_In _ _ A) (nth_error_In _ _ B)) as [Z M].
    destruct L as [L|[L1 L2]]; [contradiction|]. specialize (D L1). lra.
Qed.
Print Assumptions C153_spatial.

Theorem C153_temporal : forall Q query2 max max' (test ref test1 ref1 : traj Q),
  knn_contract dist2 query2 -> consistent test -> consistent ref -> 0 <= max -> 0 <= max' -> looser max max' ->
  untied (fun a b => Rabs (a - b)) (tstamps ref) (tstamps test) ->
  match_temporal query2 max test ref = Ok (test1, ref1) ->
  exists test2 ref2, match_temporal query2 max' test ref = Ok (test2, ref2) /\ loosened (fun r p => Rabs (p_t r - p_t p)) max test1 ref1 test2 ref2.
Proof.
  intros Q query2 max max' test ref test1 ref1 KC Ct Cr H1 H2 L U H.
  assert (N : tstamps test <> []) by (intro Z; unfold match_temporal, kd_matcher in H; rewrite Z in H; discriminate).
  pose (proj := fun t : traj Q => map stamp (tstamps t)).
  assert (U' : untied dist2 (proj ref) (proj test)).
  { intros p i j r s I A B NE. unfold proj in *. rewrite nth_error_map' in A, B. destruct (nth_error (tstamps ref) i) as [x|] eqn:X; [|discriminate]. destruct (nth_error (tstamps ref) j) as [y|] eqn:Y; [|discriminate].
    injection A as <-. injection B as <-. apply in_map_iff in I as (z & <- & I). rewrite !dist2_stamp. apply (U z i j x y I X Y NE). }
  destruct (C19_temporal Q query2 max test ref KC Ct Cr H1 N) as [(a & b & is & js & E & Hp & S1 & S2)|[E _]]; [|congruence]. rewrite H in E. injection E as <- <-.
  destruct (C19_temporal Q query2 max' test ref KC Ct Cr H2 N) as [(c & d & is' & js' & E' & Hp' & S1' & S2')|[_ F]].
  - exists c, d. split; [exact E'|].
    assert (K := loosened_trajs dist2 query2 proj (fun p : pose Q => stamp (p_t p)) max max' js is js' is' test ref test1 ref1 c d KC U' H1 H2 L).
    assert (HP : forall (t : traj Q) i po, pose_at t i = Some po -> nth_error (proj t) i = Some (stamp (p_t po))).
    { intros t i po A. apply pose_at_tstamp in A as [A _]. unfold proj. rewrite nth_error_map', A. reflexivity. }
    destruct (K HP Hp S1 S2 Hp' S1' S2') as (f & K1 & K2 & K3). exists f. split; [exact K1|]. split.
    + intros m r p A B. destruct (K2 m r p A B) as (X & p' & Y & Z). split; [exact X|]. exists p'. split; [exact Y|]. rewrite <- dist2_stamp. exact Z.
    + intros m' r p A B D. apply (K3 m' r p A B). rewrite dist2_stamp. exact D.
  - exfalso. destruct Hp as (P1 & P2 & P3 & P4 & P5). destruct js as [|j js]; [congruence|]. destruct is as [|i is]; [discriminate|].
    destruct (P4 0%nat i j eq_refl eq_refl) as (p & A & (r & B & _ & D) & _). rewrite nth_error_map' in A, B.
    destruct (nth_error (tstamps test) i) as [x|] eqn:X; [|discriminate]. destruct (nth_error (tstamps ref) j) as [y|] eqn:Y; [|discriminate]. injection A as <-. injection B as <-.
    destruct (F x y (nth_error_In _ _ X) (nth_error_In _ _ Y)) as [Z M].
    destruct L as [L|[L1 L2]]; [contradiction|]. specialize (D L1). change (dist2 (stamp y) (stamp x) < max) in D. rewrite dist2_stamp in D. lra.
Qed.
Print Assumptions C153_temporal.

(** Allowing larger gaps keeps every pose that was kept. *)
Theorem C153_intersect : forall Q (t t1 : traj Q) ts gap gap', consistent t -> tstamps t <> [] -> ts <> [] -> gap <= gap' ->
  intersect t ts gap = Ok t1 -> exists t2, intersect t ts gap' = Ok t2 /\ kept (fun p => supported ts gap (p_t p)) (poses t2) (poses t1).
Proof.
  intros Q t t1 ts gap gap' C N1 N2 L H. destruct (min_exists ts N2) as [a0 A0]. destruct (max_exists ts N2) as [a1 A1].
  destruct (min_exists (tstamps t) N1) as [b0 B0]. destruct (max_exists (tstamps t) N1) as [b1 B1].
  destruct (Rle_or_lt (Rmax a0 b0) (Rmin a1 b1)) as [O1|O1].
  - destruct (intersect_kept t ts gap a0 a1 b0 b1 C A0 A1 B0 B1) as (X & _). destruct (X O1) as (x & E & _ & _ & K). rewrite H in E. injection E as <-.
    destruct (intersect_kept t ts gap' a0 a1 b0 b1 C A0 A1 B0 B1) as (X' & _). destruct (X' O1) as (t2 & E2 & _ & _ & K2). exists t2. split; [exact E2|].
    assert (Mono : forall x, supported ts gap x -> supported ts gap' x). { intros x [S1|(a & b & S1 & S2 & S3)]; [left; exact S1|]. right. exists a, b. split; [exact S1|]. split; [exact S2|]. lra. }
    clear - K K2 Mono. revert t1 t2 K K2. generalize (poses t). intros l t1 t2. generalize (poses t1) (poses t2). induction l as [|p l IH]; intros l1 l2 K K2.
    + inversion K; inversion K2; constructor.
    + inversion K as [|? ? k1 Ka Kb|? ? k1 Ka Kb]; subst; inversion K2 as [|? ? k2 Kc Kd|? ? k2 Kc Kd]; subst.
      * constructor; [apply Ka|apply IH; assumption].
      * exfalso. apply Kc. split; [apply Ka|apply Mono, Ka].
      * apply kept_no; [intro S1; apply Ka; split; [apply Kc|exact S1]|apply IH; assumption].
      * apply IH; assumption.
  - destruct (intersect_kept t ts gap a0 a1 b0 b1 C A0 A1 B0 B1) as (_ & X & _). apply X in O1. congruence.
Qed.
Print Assumptions C153_intersect.

(** Longer pairs are added to the relative errors of the shorter ones. *)
Theorem C153_longer : forall Q (ops : rot_ops Q) (test ref : traj Q) lo hi hi' st u all ds r,
  consistent test -> consistent ref -> tlen test = tlen ref -> pair_distances ref u = Ok ds -> StronglySorted Rle ds -> 0 < st -> hi <= hi' ->
  all = true \/ (0 < lo /\ ds <> []) ->
  compare_relative ops test ref (mkRelSettings lo hi st u all) = Ok r ->
  exists r' more, compare_relative ops test ref (mkRelSettings lo hi' st u all) = Ok r' /\ rpe_pairs r' = rpe_pairs r ++ more /\
    (forall k es, In (k, es) more -> hi < k).
Proof.
  intros Q ops test ref lo hi hi' st u all ds r Ct Cr Le Ed So Hs Hh Ha H.
  destruct (compare_relative_ok ops test ref _ r H) as (H1 & _ & _ & (k & es & Ik & Ne) & B & Ar). cbn in *.
  destruct (B k es Ik) as (ds' & idx & E' & Ei & F2). rewrite Ed in E'. injection E' as <-.
  destruct (np_arange_pos ZeroDivisionError lo (hi + st) st Hs) as (ks & K0 & K1 & K2). rewrite K0 in Ar. injection Ar as Ar.
  assert (Ikk : In k ks) by (rewrite Ar; apply (in_map fst _ _ Ik)). apply In_nth_error in Ikk as [i Hi]. assert (Li := nth_error_Some_lt _ _ _ Hi).
  assert (Ek := Hi). rewrite K2 in Ek by exact Li. injection Ek as Ek. apply K1 in Li.
  destruct (compare_relative_total ops test ref (mkRelSettings lo hi' st u all) ds Ct Cr Le Ed So) as [T _]; cbn; try lra; try assumption.
  destruct (T k i idx) as [r' R']; cbn; try assumption; try lra; [intros ->; inversion F2; subst; congruence|].
  destruct (compare_relative_ok ops test ref _ r' R') as (_ & _ & _ & _ & _ & Ar'). cbn in Ar'.
  destruct (np_arange_pos ZeroDivisionError lo (hi' + st) st Hs) as (ks' & K0' & K1' & K2').
  assert (Lk : (length ks <= length ks')%nat).
  { destruct (Nat.le_gt_cases (length ks) (length ks')) as [|G]; [assumption|]. exfalso. assert (X := proj1 (K1 (length ks')) G). assert (Y : lo + INR (length ks') * st < hi' + st) by lra. apply K1' in Y. lia. }
  pose (g := fun i => lo + INR i * st).
  assert (G : forall l, (forall i, (i < length l)%nat -> nth_error l i = Some (lo + INR i * st)) -> l = map g (seq 0 (length l))).
  { intros l X. apply nth_error_ext. intro n. rewrite nth_error_map', nth_error_seq. destruct (Nat.ltb_spec n (length l)) as [Ln|Ln]; [apply X, Ln|apply nth_error_None, Ln]. }
  assert (Sp : ks' = ks ++ map g (seq (length ks) (length ks' - length ks))).
  { rewrite (G ks' K2') at 1. replace (length ks') with (length ks + (length ks' - length ks))%nat at 1 by lia. rewrite seq_app, map_app, <- (G ks K2). reflexivity. }
  assert (R2 := R'). unfold compare_relative in H, R'. cbn in H, R'. rewrite K0 in H. rewrite K0' in R'.
  destruct (Rltb hi lo); [discriminate|]. destruct (Rltb hi' lo); [discriminate|]. cbn [bind] in H, R'.
  apply bind_ok in H as (bl & Hb & H). apply bind_ok in R' as (bl' & Hb' & R'). destruct (forallb _ bl); [discriminate|]. destruct (forallb _ bl') eqn:Ef'; [discriminate|].
  injection H as <-. injection R' as <-.
  rewrite Sp, mapM_app, Hb in Hb'. cbn [bind] in Hb'. apply bind_ok in Hb' as (more & Hm & Hb'). injection Hb' as <-.
  eexists. exists more. split; [exact R2|]. split; [reflexivity|].
  intros q qs Iq. apply mapM_Forall2 in Hm. assert (Iq' : In q (map g (seq (length ks) (length ks' - length ks)))).
  { clear - Hm Iq Ed. induction Hm as [|a b l1 l2 X Hm IH]; [contradiction|]. destruct Iq as [->|Iq]; [left|right; apply IH, Iq].
    apply bind_ok in X as (? & _ & X). apply bind_ok in X as (? & _ & X). apply bind_ok in X as (? & _ & X). congruence. }
  apply in_map_iff in Iq' as (n & <- & Hn). apply in_seq in Hn. unfold g.
  destruct (Rlt_or_le hi (lo + INR n * st)) as [|HG]; [assumption|]. exfalso. assert (X : lo + INR n * st < hi + st) by lra. apply K1 in X. lia.
Qed.
Print Assumptions C153_longer.

(** But a pair need not survive: without limit the reference pose at the origin is paired with an earlier test pose, which is farther away. *)
Theorem C153_pairs_refuted : forall query3, knn_contract vdist query3 ->
  exists test1 ref1 test2 ref2, match_spatial query3 2 near_test far_ref = Ok (test1, ref1) /\ match_spatial query3 0 near_test far_ref = Ok (test2, ref2) /\
    xyz ref1 = xyz ref2 /\ xyz test1 = [mkV3 1 0 0] /\ xyz test2 = [mkV3 3 0 0].
Proof.
  intros query3 KC. destruct (C20_best_partner_refuted query3 KC) as (test2 & ref2 & E2 & X2 & Y2 & _).
  assert (Ct : consistent near_test) by (repeat split). assert (Cr : consistent far_ref) by (repeat split).
  destruct (C19_spatial nat query3 2 near_test far_ref KC Ct Cr ltac:(lra) ltac:(discriminate)) as [(t' & r' & is & js & E & Hp & St & Sr)|[_ F]].
  2:{ exfalso. destruct (F (mkV3 1 0 0) (mkV3 0 0 0)) as [_ L]; [right; left; reflexivity|left; reflexivity|]. rewrite on_x_axis in L. unfold Rabs in L. destruct Rcase_abs; lra. }
  exists t', r', test2, ref2. split; [exact E|]. split; [exact E2|]. destruct Hp as (P1 & P2 & P3 & P4 & P5).
  assert (A : forall m i j, nth_error is m = Some i -> nth_error js m = Some j -> i = 1%nat /\ j = 0%nat).
  { intros m i j Hi Hj. destruct (P4 m i j Hi Hj) as (p & Hq & (r & Hr & _ & D) & _). specialize (D ltac:(lra)).
    destruct i as [|[|[|i]]]; cbn in Hq; try discriminate; injection Hq as <-; (destruct j as [|[|[|j]]]; cbn in Hr; try discriminate; injection Hr as <-); rewrite on_x_axis in D;
      unfold Rabs in D; destruct Rcase_abs; try lra; split; reflexivity. }
  assert (One : js = [0%nat] /\ is = [1%nat]).
  { destruct js as [|a [|b js]]; [congruence| |]; destruct is as [|i [|k is]]; try discriminate.
    - destruct (A 0%nat i a eq_refl eq_refl) as [-> ->]. split; reflexivity.
    - exfalso. destruct (A 0%nat i a eq_refl eq_refl) as [_ ->]. destruct (A 1%nat k b eq_refl eq_refl) as [_ ->]. inversion P3 as [|? ? _ Fo]; subst. inversion Fo; subst. lia. }
  destruct One as [-> ->].
  assert (X : forall (t u : traj nat) i, selected t [i] u -> forall p, nth_error (xyz t) i = Some p -> xyz u = [p]).
  { intros t u i (Cu & _ & Lu & Hu) p Hq. destruct (Hu 0%nat i eq_refl) as [Eu Nu].
    destruct (pose_at t i) as [po|] eqn:Ep; [|congruence]. destruct (pose_at_tstamp _ _ _ Eu) as [_ A1]. destruct (pose_at_tstamp _ _ _ Ep) as [_ B].
    unfold tlen in Lu. destruct (xyz u) as [|a [|b l]]; try discriminate. cbn in A1. congruence. }
  rewrite (X _ _ _ St (mkV3 1 0 0) eq_refl), (X _ _ _ Sr (mkV3 0 0 0) eq_refl). repeat split; [congruence|exact X2].
Qed.
Print Assumptions C153_pairs_refuted.

Lemma near_untied : untied vdist (xyz far_ref) (xyz near_test).
Proof.
  intros p i j r s [<-|[<-|[]]] A B N; destruct i as [|[|[|i]]]; cbn in A; try discriminate; injection A as <-; (destruct j as [|[|[|j]]]; cbn in B; try discriminate; injection B as <-);
    try congruence; rewrite !on_x_axis; unfold Rabs; repeat destruct Rcase_abs; lra.
Qed.
(** The hypotheses of the theorems hold for two short trajectories. *)
Example C153_case : consistent near_test /\ consistent far_ref /\ looser 2 0 /\ looser 2 5 /\ untied vdist (xyz far_ref) (xyz near_test) /\
  exists test1 ref1, match_spatial (brute vdist) 2 near_test far_ref = Ok (test1, ref1).
Proof.
  split; [repeat split|]. split; [repeat split|]. split; [left; reflexivity|]. split; [right; split; lra|]. split; [exact near_untied|].
  destruct (C153_pairs_refuted (brute vdist) (brute_contract vdist)) as (a & b & _ & _ & E & _). eauto.
Qed.
Print Assumptions C153_case.
Example C153_case_stamps : untied (fun a b => Rabs (a - b)) (tstamps far_ref) (tstamps near_test) /\ looser (1 / 2) 0 /\
  exists test1 ref1, match_temporal (brute dist2) (1 / 2) near_test far_ref = Ok (test1, ref1).
Proof.
  split; [|split; [left; reflexivity|apply C21_case]].
  intros p i j r s [<-|[<-|[]]] A B N; destruct i as [|[|[|i]]]; cbn in A; try discriminate; injection A as <-; (destruct j as [|[|[|j]]]; cbn in B; try discriminate; injection B as <-);
    try congruence; unfold Rabs; repeat destruct Rcase_abs; lra.
Qed.
Print Assumptions C153_case_stamps.
Example C153_case_longer : exists r r' more, compare_relative rot_impl duo duo (half_metre true) = Ok r /\
  compare_relative rot_impl duo duo (mkRelSettings (1 / 4) 3 (1 / 5) U_METER true) = Ok r' /\ rpe_pairs r' = rpe_pairs r ++ more.
Proof.
  destruct (duo_self_ok duo duo_consistent eq_refl eq_refl) as [r H]. exists r.
  destruct (C153_longer _ rot_impl duo duo (1 / 4) (1 / 2) 3 (1 / 5) U_METER true [0; 1] r duo_consistent duo_consistent eq_refl eq_refl duo_sorted ltac:(lra) ltac:(lra) (or_introl eq_refl) H)
    as (r' & more & E & P & _). exists r', more. split; [exact H|]. split; [exact E|exact P].
Qed.
Print Assumptions C153_case_longer.
Example C153_case_gap : consistent far_ref /\ exists t1, intersect far_ref [0; 1] (1 / 2) = Ok t1.
Proof.
  assert (C : consistent far_ref) by repeat split. split; [exact C|].
  assert (N : [0; 1] <> []) by discriminate. destruct (min_exists _ N) as [a A]. destruct (max_exists _ N) as [b B].
  assert (L : a <= b). { destruct A as [_ A]. destruct B as [B _]. apply A, B. }
  destruct (intersect_kept far_ref [0; 1] (1 / 2) a b a b C A B A B) as (X & _). destruct X as (t1 & E & _); [|eauto].
  rewrite Rmax_left, Rmin_left by lra. exact L.
Qed.
Print Assumptions C153_case_gap.
