(** Properties C19 to C24, C58 and C59: matching. *)
From Verif Require Import Base BaseFacts VecFacts NumpyModel NumpyFacts TrajModel TrajSpec TrajFacts TrajFacts2 TrajFacts3 TrajProps
  GeomModel GeomSpec GeomFacts MatchModel MatchSpec MatchFacts MatchFacts2.

(** The KD tree contract is satisfiable for every distance (brute-force search). *)
Theorem knn_contract_satisfiable : forall (P : Type) (dist : P -> P -> R), knn_contract dist (brute dist).
Proof. intros P dist. exact (brute_contract dist). Qed.
Print Assumptions knn_contract_satisfiable.

(** * C19 *)
Theorem C19_spatial :
  forall (Q : Type) query3 (max : R) (test ref : traj Q),
    knn_contract vdist query3 -> consistent test -> consistent ref -> 0 <= max -> xyz test <> [] ->
    (exists test' ref' is js,
       match_spatial query3 max test ref = Ok (test', ref') /\
       pairing vdist query3 (xyz ref) (xyz test) max js is /\ selected test is test' /\ selected ref js ref') \/
    (match_spatial query3 max test ref = Err ValueError /\
     forall p r, In p (xyz test) -> In r (xyz ref) -> max <> 0 /\ max <= vdist r p).
Proof.
  intros Q query3 max test ref C Ct Cr Hm N.
  exact (index_match vdist query3 C (xyz test) (xyz ref) max test ref Ct Cr eq_refl eq_refl Hm N).
Qed.
Print Assumptions C19_spatial.

Theorem C19_temporal :
  forall (Q : Type) query2 (max : R) (test ref : traj Q),
    knn_contract dist2 query2 -> consistent test -> consistent ref -> 0 <= max -> tstamps test <> [] ->
    (exists test' ref' is js,
       match_temporal query2 max test ref = Ok (test', ref') /\
       pairing dist2 query2 (map (fun x => (x, 0)) (tstamps ref)) (map (fun x => (x, 0)) (tstamps test)) max js is /\
       selected test is test' /\ selected ref js ref') \/
    (match_temporal query2 max test ref = Err ValueError /\
     forall x y, In x (tstamps test) -> In y (tstamps ref) -> max <> 0 /\ max <= Rabs (y - x)).
Proof.
  intros Q query2 max test ref C Ct Cr Hm N.
  destruct (index_match dist2 query2 C (map stamp (tstamps test)) (map stamp (tstamps ref)) max test ref Ct Cr) as [H|[H F]];
    [rewrite map_length; apply Ct | rewrite map_length; apply Cr | exact Hm | intro K; apply map_eq_nil in K; contradiction | left; exact H |].
  right. split; [exact H|]. intros x y Hx Hy. rewrite <- dist2_stamp. apply F; apply in_map; assumption.
Qed.
Print Assumptions C19_temporal.

(** Both matched trajectories have the same, non-zero length. *)
Theorem C19_equal_length :
  forall (Q P : Type) (dist : P -> P -> R) query (pr pt : list P) max js is (test ref test' ref' : traj Q),
    pairing dist query pr pt max js is -> selected test is test' -> selected ref js ref' ->
    tlen test' = tlen ref' /\ (0 < tlen test')%nat /\ NoDup js.
Proof.
  intros Q P dist query pr pt max js is test ref test' ref' (P1 & P2 & P3 & _) (_ & _ & L1 & _) (_ & _ & L2 & _).
  rewrite L1, L2. split; [lia|]. split; [destruct js; [congruence | cbn in *; lia]|].
  clear -P3. induction P3 as [|a l _ IH F]; constructor; [|exact IH]. rewrite Forall_forall in F. intro H. specialize (F a H). lia.
Qed.
Print Assumptions C19_equal_length.

Theorem C19_no_test_poses :
  forall (Q : Type) query2 query3 max (test ref : traj Q), consistent test -> xyz test = [] ->
    match_spatial query3 max test ref = Err IndexError /\ match_temporal query2 max test ref = Err IndexError.
Proof.
  intros Q query2 query3 max test ref (L & _) E. unfold match_spatial, match_temporal. rewrite E in *.
  destruct (tstamps test); [split; reflexivity | discriminate].
Qed.
Print Assumptions C19_no_test_poses.

Lemma paired_entries {Q P : Type} (dist : P -> P -> R) query (proj : traj Q -> list P) max js is (test ref test' ref' : traj Q) :
  (forall (t u : traj Q) i j po, pose_at t i = Some po -> pose_at u j = Some po -> nth_error (proj t) i = nth_error (proj u) j) ->
  (forall t : traj Q, consistent t -> length (proj t) = tlen t) ->
  pairing dist query (proj ref) (proj test) max js is -> selected test is test' -> selected ref js ref' ->
  forall m p q, nth_error (proj test') m = Some p -> nth_error (proj ref') m = Some q -> max <> 0 -> dist q p < max.
Proof.
  intros HP HL (P1 & _ & _ & P4 & _) (Ct & _ & L1 & H1) (Cr & _ & L2 & H2) m p q Hp Hq Hm.
  assert (A : (m < length is)%nat) by (rewrite <- L1, <- (HL _ Ct); eapply nth_error_Some_lt, Hp).
  assert (B : (m < length js)%nat) by lia. apply nth_error_lt_Some in A as [i Hi]. apply nth_error_lt_Some in B as [j Hj].
  destruct (P4 m i j Hi Hj) as (p' & Hp' & (r & Hr & _ & Hd) & _).
  destruct (H1 m i Hi) as [E1 N1]. destruct (H2 m j Hj) as [E2 N2].
  destruct (pose_at test i) as [po|] eqn:F1; [|congruence]. destruct (pose_at ref j) as [pr|] eqn:F2; [|congruence].
  assert (p' = p) by (pose proof (HP _ _ _ _ _ E1 F1); congruence). assert (r = q) by (pose proof (HP _ _ _ _ _ E2 F2); congruence).
  subst. auto.
Qed.

Lemma settings_respected {Q : Type} query2 query3 seg eigh loc (s : matching_settings) (test ref : traj Q) args test' ref' :
    knn_contract dist2 query2 -> knn_contract vdist query3 -> consistent test -> consistent ref ->
    0 <= max_time_diff s -> 0 <= max_distance s ->
    match_trajectories query2 query3 seg eigh loc s test ref = Ok (args, (test', ref')) ->
    (m_method s = NearestSpatial -> tlen test' = tlen ref' /\
       forall i p q, nth_error (xyz test') i = Some p -> nth_error (xyz ref') i = Some q ->
         max_distance s <> 0 -> vdist q p < max_distance s) /\
    (m_method s = NearestTemporal -> tlen test' = tlen ref' /\
       forall i x y, nth_error (tstamps test') i = Some x -> nth_error (tstamps ref') i = Some y ->
         max_time_diff s <> 0 -> Rabs (y - x) < max_time_diff s).
Proof.
  intros C2 C3 Ct Cr Ht Hd E. split; intro M; unfold match_trajectories in E; rewrite M in E; cbn [rmap] in E.
  - destruct (match_spatial query3 (max_distance s) test ref) as [[a b]|] eqn:Em; [|discriminate]. injection E as _ <- <-.
    assert (N : xyz test <> []).
    { intro Z. rewrite (proj1 (C19_no_test_poses Q query2 query3 (max_distance s) test ref Ct Z)) in Em. discriminate. }
    destruct (C19_spatial Q query3 (max_distance s) test ref C3 Ct Cr Hd N) as [(t' & r' & is & js & E' & Hp & S1 & S2)|[E' _]]; [|congruence].
    rewrite Em in E'. injection E' as <- <-. split; [apply (C19_equal_length _ _ _ _ _ _ _ _ _ _ _ _ _ Hp S1 S2)|].
    apply (paired_entries vdist query3 xyz (max_distance s) js is test ref a b); auto.
    intros t u i j po A B. apply pose_at_tstamp in A as [_ A]. apply pose_at_tstamp in B as [_ B]. congruence.
  - destruct (match_temporal query2 (max_time_diff s) test ref) as [[a b]|] eqn:Em; [|discriminate]. injection E as _ <- <-.
    assert (N : tstamps test <> []).
    { intro Z. assert (Zx : xyz test = []) by (destruct Ct as (L & _); rewrite Z in L; destruct (xyz test); [reflexivity | discriminate]).
      rewrite (proj2 (C19_no_test_poses Q query2 query3 (max_time_diff s) test ref Ct Zx)) in Em. discriminate. }
    destruct (C19_temporal Q query2 (max_time_diff s) test ref C2 Ct Cr Ht N) as [(t' & r' & is & js & E' & Hp & S1 & S2)|[E' _]]; [|congruence].
    rewrite Em in E'. injection E' as <- <-. split; [apply (C19_equal_length _ _ _ _ _ _ _ _ _ _ _ _ _ Hp S1 S2)|].
    intros i x y Hx Hy Hm. rewrite <- dist2_stamp.
    apply (paired_entries dist2 query2 (fun t => map stamp (tstamps t)) (max_time_diff s) js is test ref a b) with (m := i); auto.
    + intros t u k l po A B. apply pose_at_tstamp in A as [A _]. apply pose_at_tstamp in B as [B _]. rewrite !nth_error_map'. congruence.
    + intros t Hc. rewrite map_length. apply Hc.
    + rewrite nth_error_map', Hx. reflexivity.
    + rewrite nth_error_map', Hy. reflexivity.
Qed.

(** The settings reach the matcher: matched positions are closer than max_distance, matched
    timestamps closer than max_time_diff. *)
Theorem C19_settings :
  forall (Q : Type) query2 query3 seg eigh loc (s : matching_settings) (test ref : traj Q) args test' ref',
    knn_contract dist2 query2 -> knn_contract vdist query3 -> consistent test -> consistent ref ->
    0 <= max_time_diff s -> 0 <= max_distance s ->
    match_trajectories query2 query3 seg eigh loc s test ref = Ok (args, (test', ref')) ->
    (m_method s = NearestSpatial -> tlen test' = tlen ref' /\
       forall i p q, nth_error (xyz test') i = Some p -> nth_error (xyz ref') i = Some q ->
         max_distance s <> 0 -> vdist q p < max_distance s) /\
    (m_method s = NearestTemporal -> tlen test' = tlen ref' /\
       forall i x y, nth_error (tstamps test') i = Some x -> nth_error (tstamps ref') i = Some y ->
         max_time_diff s <> 0 -> Rabs (y - x) < max_time_diff s).
Proof. intros Q. exact (@settings_respected Q). Qed.
Print Assumptions C19_settings.

(** A reference with poses at x = 0 and x = 10, a test trajectory at x = 1 and x = 3. *)
Definition far_ref : traj nat := mkTraj [0; 1] [mkV3 0 0 0; mkV3 10 0 0] None [0; 10] [vzero; vzero] SortTime "ref" 0.
Definition near_test : traj nat := mkTraj [0; 1] [mkV3 3 0 0; mkV3 1 0 0] None [0; 2] [vzero; vzero] SortTime "test" 0.

Lemma on_x_axis a b : vdist (mkV3 a 0 0) (mkV3 b 0 0) = Rabs (a - b).
Proof.
  unfold vdist, vnorm, vdot, vsub; cbn. replace ((a - b) * (a - b) + (0 - 0) * (0 - 0) + (0 - 0) * (0 - 0)) with (Rsqr (a - b)) by (unfold Rsqr; ring).
  apply sqrt_Rsqr_abs.
Qed.

Example C19_case : consistent near_test /\ consistent far_ref /\ xyz near_test <> [] /\
  exists test' ref', match_spatial (brute vdist) 5 near_test far_ref = Ok (test', ref').
Proof.
  assert (Ct : consistent near_test) by (repeat split). assert (Cr : consistent far_ref) by (repeat split).
  split; [exact Ct|]. split; [exact Cr|]. split; [discriminate|].
  destruct (C19_spatial nat (brute vdist) 5 near_test far_ref (brute_contract vdist) Ct Cr ltac:(lra) ltac:(discriminate))
    as [(t' & r' & _ & _ & E & _)|[_ F]]; [eauto|]. exfalso.
  destruct (F (mkV3 3 0 0) (mkV3 0 0 0)) as [_ L]; [left; reflexivity..|]. rewrite on_x_axis in L.
  unfold Rabs in L. destruct Rcase_abs; lra.
Qed.
Print Assumptions C19_case.

(** * C20 *)
(** Of two test poses competing for a reference pose the first one is kept, not the closest, and the
    matched trajectories are shorter than the test trajectory, whatever the KD tree does. *)
Theorem C20_best_partner_refuted :
  forall query3, knn_contract vdist query3 ->
    exists test' ref', match_spatial query3 0 near_test far_ref = Ok (test', ref') /\
      xyz test' = [mkV3 3 0 0] /\ xyz ref' = [mkV3 0 0 0] /\ tlen test' <> tlen near_test /\
      vdist (mkV3 0 0 0) (mkV3 1 0 0) < vdist (mkV3 0 0 0) (mkV3 3 0 0).
Proof.
  intros query3 C. assert (Ct : consistent near_test) by (repeat split). assert (Cr : consistent far_ref) by (repeat split).
  destruct (C19_spatial nat query3 0 near_test far_ref C Ct Cr (Rle_refl 0) ltac:(discriminate)) as [(t' & r' & is & js & E & Hp & St & Sr)|[_ F]].
  2:{ exfalso. destruct (F (mkV3 3 0 0) (mkV3 0 0 0)) as [N _]; [left; reflexivity..|]. apply N. reflexivity. }
  destruct Hp as (P1 & P2 & P3 & P4 & P5).
  assert (Near : forall p j, In p (xyz near_test) -> nearest vdist (xyz far_ref) 0 p j -> j = 0%nat).
  { intros p j Hp (r & Hr & Hn & _). destruct j as [|[|j]]; [reflexivity| |destruct j; discriminate]. exfalso.
    cbn in Hr. injection Hr as <-. specialize (Hn (mkV3 0 0 0) (or_introl eq_refl)).
    destruct Hp as [<-|[<-|[]]]; rewrite !on_x_axis in Hn; unfold Rabs in Hn; repeat destruct Rcase_abs; lra. }
  assert (Rep : reported query3 (xyz far_ref) 0 (mkV3 3 0 0) 0).
  { destruct (query1_single vdist query3 C (xyz far_ref) 0 (mkV3 3 0 0) (Rle_refl 0)) as (row & Eq & E1).
    destruct row as [[j d]|].
    - assert (j = 0%nat) as -> by (apply (Near (mkV3 3 0 0)); [left; reflexivity | apply (reported_nearest vdist query3 C); [lra | exists d; exact E1]]).
      exists d. exact E1.
    - exfalso. destruct (not_reported vdist query3 C (xyz far_ref) 0 (mkV3 3 0 0) (Rle_refl 0)) with (r := mkV3 0 0 0) as [N _].
      + intros j [d Hd]. congruence.
      + left; reflexivity.
      + apply N; reflexivity. }
  assert (Hj : js = [0]%nat).
  { assert (A : forall m j, nth_error js m = Some j -> j = 0%nat).
    { intros m j Hj. assert (L : (m < length is)%nat) by (rewrite <- P1; eapply nth_error_Some_lt, Hj). apply nth_error_lt_Some in L as [i Hi].
      destruct (P4 m i j Hi Hj) as (p & Hp & Hn & _). apply (Near p j); [eapply nth_error_In, Hp | exact Hn]. }
    destruct js as [|a [|b js]]; [congruence| |].
    - f_equal. apply (A 0%nat). reflexivity.
    - exfalso. rewrite (A 0%nat a eq_refl), (A 1%nat b eq_refl) in P3. inversion P3 as [|? ? _ F]; subst. inversion F; subst. lia. }
  subst js. destruct is as [|i [|]]; try discriminate.
  assert (Hi : i = 0%nat).
  { destruct (P4 0%nat i 0%nat eq_refl eq_refl) as (p & Hp & _ & _ & Hf). destruct i as [|i]; [reflexivity|]. exfalso.
    apply (Hf 0%nat (mkV3 3 0 0)); [lia | reflexivity | exact Rep]. }
  subst i. exists t', r'. split; [exact E|].
  assert (X : forall (t u : traj nat), selected t [0%nat] u -> forall p, nth_error (xyz t) 0 = Some p -> xyz u = [p]).
  { intros t u (Cu & _ & Lu & Hu) p Hp. destruct (Hu 0%nat 0%nat eq_refl) as [Eu Nu].
    destruct (pose_at t 0) as [po|] eqn:Ep; [|congruence]. destruct (pose_at_tstamp _ _ _ Eu) as [_ A]. destruct (pose_at_tstamp _ _ _ Ep) as [_ B].
    unfold tlen in Lu. destruct (xyz u) as [|a [|b l]]; try discriminate. cbn in A. congruence. }
  rewrite (X _ _ St (mkV3 3 0 0) eq_refl), (X _ _ Sr (mkV3 0 0 0) eq_refl). split; [reflexivity|]. split; [reflexivity|].
  split; [destruct St as (_ & _ & Lt & _); rewrite Lt; discriminate|].
  rewrite !on_x_axis. unfold Rabs. repeat destruct Rcase_abs; lra.
Qed.
Print Assumptions C20_best_partner_refuted.

(** What is true: no test pose is lost when the nearest reference poses are all different. *)
Theorem C20_all_kept_partial :
  forall (P : Type) (dist : P -> P -> R) query (pr pt : list P) max js is,
    pairing dist query pr pt max js is ->
    (forall i p, nth_error pt i = Some p -> exists j, reported query pr max p j) ->
    (forall i i' p p' j, nth_error pt i = Some p -> nth_error pt i' = Some p' ->
       reported query pr max p j -> reported query pr max p' j -> i = i') ->
    Permutation is (seq 0 (length pt)).
Proof.
  intros P dist query pr pt max js is (P1 & P2 & P3 & P4 & P5) Hall Hinj.
  assert (ND : NoDup is).
  { apply NoDup_nth_error. intros a b La Hab. apply nth_error_lt_Some in La as [i Ha]. rewrite Ha in Hab. symmetry in Hab.
    assert (L1 : (a < length js)%nat) by (rewrite P1; eapply nth_error_Some_lt, Ha).
    assert (L2 : (b < length js)%nat) by (rewrite P1; eapply nth_error_Some_lt, Hab).
    apply nth_error_lt_Some in L1 as [j Hj]. apply nth_error_lt_Some in L2 as [k Hk].
    destruct (P4 a i j Ha Hj) as (p & Hp & _ & [d Hd] & _). destruct (P4 b i k Hab Hk) as (p' & Hp' & _ & [d' Hd'] & _).
    assert (j = k) by congruence. subst k. rewrite StronglySorted_nth in P3.
    destruct (Nat.lt_trichotomy a b) as [H|[H|H]]; [|exact H|].
    - specialize (P3 _ _ _ _ H Hj Hk). lia.
    - specialize (P3 _ _ _ _ H Hk Hj). lia. }
  apply NoDup_Permutation; [exact ND | apply seq_NoDup|]. intro i. rewrite in_seq. split.
  - intro Hi. apply In_nth_error in Hi as [m Hi]. assert (L : (m < length js)%nat) by (rewrite P1; eapply nth_error_Some_lt, Hi).
    apply nth_error_lt_Some in L as [j Hj]. destruct (P4 m i j Hi Hj) as (p & Hp & _). apply nth_error_Some_lt in Hp. cbn. lia.
  - intros [_ L]. apply nth_error_lt_Some in L as [p Hp]. destruct (Hall i p Hp) as [j Hj].
    assert (Hin : In j js) by (apply (P5 p j); [eapply nth_error_In, Hp | exact Hj]). apply In_nth_error in Hin as [m Hm].
    assert (L : (m < length is)%nat) by (rewrite <- P1; eapply nth_error_Some_lt, Hm). apply nth_error_lt_Some in L as [i' Hi'].
    destruct (P4 m i' j Hi' Hm) as (p' & Hp' & _ & Hr & _). rewrite (Hinj i i' p p' j Hp Hp' Hj Hr). eapply nth_error_In, Hi'.
Qed.
Print Assumptions C20_all_kept_partial.

(** * C21 *)
Theorem C21_temporal_sorted :
  forall (Q : Type) query2 (max : R) (test ref test' ref' : traj Q),
    knn_contract dist2 query2 -> consistent test -> consistent ref ->
    strictly_time_sorted test -> strictly_time_sorted ref -> 0 <= max ->
    match_temporal query2 max test ref = Ok (test', ref') ->
    strictly_time_sorted test' /\ strictly_time_sorted ref' /\
    (forall m x y, nth_error (tstamps test') m = Some x -> nth_error (tstamps ref') m = Some y -> max <> 0 -> Rabs (y - x) < max).
Proof.
  intros Q query2 max test ref test' ref' C Ct Cr St Sr Hm E.
  destruct (tstamps test) as [|x0 ts] eqn:Et.
  { exfalso. unfold match_temporal in E. rewrite Et in E. discriminate. }
  destruct (C19_temporal Q query2 max test ref C Ct Cr Hm ltac:(congruence)) as [(t' & r' & is & js & E' & Hp & Hs & Hr)|[E' _]]; [|congruence].
  rewrite E in E'. injection E' as <- <-.
  exact (temporal_sorted query2 C max test ref test' ref' js is Ct Cr St Sr Hp Hs Hr).
Qed.
Print Assumptions C21_temporal_sorted.

Example C21_case : strictly_time_sorted near_test /\ strictly_time_sorted far_ref /\
  exists test' ref', match_temporal (brute dist2) (1/2) near_test far_ref = Ok (test', ref').
Proof.
  split; [unfold strictly_time_sorted; cbn; repeat constructor; lra|]. split; [unfold strictly_time_sorted; cbn; repeat constructor; lra|].
  assert (Ct : consistent near_test) by (repeat split). assert (Cr : consistent far_ref) by (repeat split).
  destruct (C19_temporal nat (brute dist2) (1/2) near_test far_ref (brute_contract dist2) Ct Cr ltac:(lra) ltac:(discriminate))
    as [(t' & r' & _ & _ & E & _)|[_ F]]; [eauto|]. exfalso.
  destruct (F 0 0) as [_ L]; [left; reflexivity..|]. unfold Rabs in L. destruct Rcase_abs; lra.
Qed.
Print Assumptions C21_case.

(** * C22 *)
(** Identical timestamps and arc lengths; the reference keeps some of its poses, in order. *)
Theorem C22_interpolation_sampling :
  forall (Q : Type) (seg : Q -> Q -> R -> Q) (test ref test' ref' : traj Q),
    consistent test -> consistent ref -> time_sorted test -> time_sorted ref ->
    match_interpolation seg test ref = Ok (test', ref') ->
    tstamps test' = tstamps ref' /\ arc test' = arc ref' /\ consistent ref' /\ time_sorted ref' /\
    (exists K, kept K (poses ref) (poses ref')).
Proof.
  intros Q seg test ref test' ref' Ct Cr St Sr H.
  destruct (interpolation_match seg test ref test' ref' Ct Cr St Sr H) as (A & B & D & E & F & _). exact (conj A (conj B (conj D (conj E F)))).
Qed.
Print Assumptions C22_interpolation_sampling.

(** Every matched test position is a test position or lies between two test positions, at the
    fraction given by their timestamps. *)
Theorem C22_no_extrapolation :
  forall (Q : Type) (seg : Q -> Q -> R -> Q) (test ref test' ref' : traj Q) i x,
    consistent test -> consistent ref -> strictly_time_sorted test -> time_sorted ref ->
    match_interpolation seg test ref = Ok (test', ref') ->
    nth_error (tstamps test') i = Some x ->
    (exists p, In p (poses test) /\ p_t p = x /\ nth_error (xyz test') i = Some (p_xyz p)) \/
    (exists p q, In p (poses test) /\ In q (poses test) /\ p_t p < x < p_t q /\
       nth_error (xyz test') i = Some (lerp (p_xyz p) (p_xyz q) ((x - p_t p) / (p_t q - p_t p)))).
Proof. intros Q. exact interpolation_positions. Qed.
Print Assumptions C22_no_extrapolation.

(** The lengths of all components agree if a timestamp remains. *)
Theorem C22_consistent :
  forall (Q : Type) (seg : Q -> Q -> R -> Q) (test ref test' ref' : traj Q),
    consistent test -> consistent ref -> time_sorted test -> time_sorted ref ->
    match_interpolation seg test ref = Ok (test', ref') -> tstamps ref' <> [] ->
    consistent test' /\ tlen test' = tlen ref'.
Proof.
  intros Q seg test ref test' ref' Ct Cr St Sr H N.
  destruct (interpolation_match seg test ref test' ref' Ct Cr St Sr H) as (A & B & (D1 & D2 & D3 & D4) & _ & _ & mid & Cm & _ & _ & _ & t2 & E2 & -> & _).
  assert (N2 : tstamps t2 <> []) by (change (tstamps t2 <> []); change (tstamps (set_arc (arc ref') t2)) with (tstamps t2) in A; congruence).
  destruct (op_consistent seg mid (OpInterpolate (tstamps ref')) t2 Cm E2 (fun _ => N2)) as ((K1 & K2 & K3 & K4) & _).
  cbn [set_arc tstamps xyz rot arc speed] in *. split.
  - unfold consistent. cbn [set_arc tstamps xyz rot arc speed]. repeat split; auto; congruence.
  - unfold tlen. cbn [set_arc xyz]. congruence.
Qed.
Print Assumptions C22_consistent.

Definition dense_test : traj nat :=
  mkTraj [0; 1; 2] [mkV3 0 0 0; mkV3 1 0 0; mkV3 2 0 0] None [0; 1; 2] [vzero; vzero; vzero] SortTime "test" 0.
Definition shifted_ref : traj nat :=
  mkTraj [1; 3/2; 2] [mkV3 0 1 0; mkV3 1 1 0; mkV3 5 1 0] None [0; 1; 5] [vzero; vzero; vzero] SortTime "ref" 0.

Ltac minmax := repeat match goal with
  | |- context[Rmax ?a ?b] => first [rewrite (Rmax_left a b) by lra | rewrite (Rmax_right a b) by lra]
  | |- context[Rmin ?a ?b] => first [rewrite (Rmin_left a b) by lra | rewrite (Rmin_right a b) by lra]
  end.

Example C22_case : consistent dense_test /\ consistent shifted_ref /\ strictly_time_sorted dense_test /\ time_sorted shifted_ref /\
  exists test' ref', match_interpolation demo_seg dense_test shifted_ref = Ok (test', ref') /\ tlen ref' = 3%nat.
Proof.
  split; [repeat split|]. split; [repeat split|]. split; [unfold strictly_time_sorted; cbn; repeat constructor; lra|].
  split; [unfold time_sorted; cbn; repeat constructor; lra|].
  unfold match_interpolation.
  assert (E1 : intersect dense_test (tstamps shifted_ref) 2 =
    Ok (mkTraj [1; 2] [mkV3 1 0 0; mkV3 2 0 0] None [1; 2] [vzero; vzero] SortTime "test" 0)).
  { unfold intersect, common_time_span. cbn. rb. cbn. minmax. unfold crop. repeat (cbn; unfold gap_ok; rb). reflexivity. }
  rewrite E1. cbn [bind tstamps].
  assert (E2 : intersect shifted_ref [1; 2] 2 = Ok shifted_ref).
  { unfold intersect, common_time_span. cbn. rb. cbn. minmax. unfold crop. repeat (cbn; unfold gap_ok; rb). reflexivity. }
  rewrite E2. cbn [bind tstamps shifted_ref]. unfold interpolate, crop_request. cbn. rb. cbn. rb. cbn. do 2 eexists. split; reflexivity.
Qed.
Print Assumptions C22_case.

(** * C23 *)
(** Three of the four methods work on the arguments, so the metrics see the matched trajectories. *)
Theorem C23_metrics_compare_matched_partial :
  forall (Q : Type) query2 query3 seg eigh loc (s : matching_settings) (gt est : traj Q),
    m_method s <> NearestSpatialInterpolated ->
    compared_by_metrics query2 query3 seg eigh loc s gt est =
    rmap snd (match_trajectories query2 query3 seg eigh loc s est gt).
Proof.
  intros Q query2 query3 seg eigh loc s gt est N. unfold compared_by_metrics, match_trajectories.
  destruct (m_method s); try contradiction.
  - destruct (match_spatial query3 (max_distance s) est gt) as [[a b]|e]; reflexivity.
  - destruct (match_temporal query2 (max_time_diff s) est gt) as [[a b]|e]; reflexivity.
  - destruct (match_interpolation seg est gt) as [[a b]|e]; reflexivity.
  - reflexivity.
Qed.
Print Assumptions C23_metrics_compare_matched_partial.

(** With spatial interpolation the metrics always compare the unmatched arguments; here matching
    returns three poses each, the metrics get three and two. *)
Theorem C23_spatial_interpolation_refuted :
  forall query2 query3 (seg : nat -> nat -> R -> nat) eigh, knn_contract vdist query3 ->
    let s := mkMatching NearestSpatialInterpolated 0 0 2 in
    (exists matched, match_trajectories query2 query3 seg eigh (fun l => l) s dense_test far_ref = Ok ((dense_test, far_ref), matched) /\
       tlen (fst matched) = 3%nat /\ tlen (snd matched) = 3%nat) /\
    compared_by_metrics query2 query3 seg eigh (fun l => l) s far_ref dense_test = Ok (dense_test, far_ref) /\
    tlen dense_test = 3%nat /\ tlen far_ref = 2%nat.
Proof.
  intros query2 query3 seg eigh C s.
  destruct (spatial_interpolation_no_limit query3 eigh (fun l => l) 2 dense_test far_ref C (fun l => eq_refl) ltac:(cbn; lia) ltac:(discriminate))
    as (t' & r' & E & X & L).
  assert (M : match_trajectories query2 query3 seg eigh (fun l => l) s dense_test far_ref = Ok ((dense_test, far_ref), (t', r'))).
  { unfold match_trajectories. cbn [m_method s max_distance k_nearest]. rewrite E. reflexivity. }
  split; [exists (t', r'); split; [exact M|]; unfold tlen; cbn [fst snd]; rewrite X, L; split; reflexivity|].
  split; [unfold compared_by_metrics; rewrite M; reflexivity | split; reflexivity].
Qed.
Print Assumptions C23_spatial_interpolation_refuted.

(** * C24 *)
Theorem C24_projection :
  forall (l : line3d) (p : V3), vdot (l_dir l) (l_dir l) = 1 ->
    on_line l (evaluate_at l p) /\
    vdot (vsub p (evaluate_at l p)) (l_dir l) = 0 /\
    (forall q, on_line l q -> vdist p (evaluate_at l p) <= vdist p q) /\
    evaluate_at l (evaluate_at l p) = evaluate_at l p /\
    (on_line l p -> evaluate_at l p = p).
Proof. exact projection. Qed.
Print Assumptions C24_projection.

(** The matched reference positions are these projections, onto the line fitted to the k reported
    neighbours; the matched test positions are those with k neighbours in reach, in order. *)
Theorem C24_spatial_interpolation :
  forall (Q : Type) query3 eigh loc max k (test ref test' ref' : traj Q),
    knn_contract vdist query3 -> 0 <= max ->
    match_spatial_interpolation query3 eigh loc max k test ref = Ok (test', ref') ->
    kept (complete query3 (xyz ref) (bound max) k) (xyz test) (xyz test') /\
    length (xyz ref') = length (xyz test') /\ xyz test' <> [] /\
    (forall m p q, nth_error (xyz test') m = Some p -> nth_error (xyz ref') m = Some q ->
       exists l, line_of query3 eigh (xyz ref) (bound max) k p l /\ q = evaluate_at l p).
Proof. intros Q query3 eigh loc max k. exact (spatial_interpolation_spec query3 eigh loc max k). Qed.
Print Assumptions C24_spatial_interpolation.

Example C24_case : let l := mkLine (mkV3 1 1 0) (mkV3 0 (3/5) (4/5)) in
  vdot (l_dir l) (l_dir l) = 1 /\ evaluate_at l (mkV3 5 6 0) = mkV3 1 (14/5) (12/5).
Proof. split; [unfold vdot; cbn; lra | unfold evaluate_at; cbn; f_equal; lra]. Qed.
Print Assumptions C24_case.

(** * C58 *)
(** The line fitted to the neighbours is the least-squares line: no other line, with any choice of
    points on it, has a smaller sum of squared distances. *)
Theorem C58_least_squares_line :
  forall (eigh : M3 -> V3) (l : list V3) (other : line3d) (qs : list V3),
    (2 <= length l)%nat -> top_direction (covariance l) (eigh (covariance l)) ->
    vdot (l_dir other) (l_dir other) = 1 -> length qs = length l -> Forall (on_line other) qs ->
    squared_distances (combine l (map (evaluate_at (from_points eigh l)) l)) <= squared_distances (combine l qs).
Proof. exact fitted_line_best. Qed.
Print Assumptions C58_least_squares_line.

(** Two points on the x axis: the top eigenvector is the x axis. *)
Example C58_case : let l := [mkV3 0 0 0; mkV3 2 0 0] in
  (2 <= length l)%nat /\ top_direction (covariance l) (mkV3 1 0 0).
Proof.
  cbv zeta. split; [cbn; lia|]. split; [unfold vdot; cbn; ring|]. intros [a b c] U.
  unfold vdot in U; cbn in U.
  assert (E : covariance [mkV3 0 0 0; mkV3 2 0 0] = mkM3 (mkV3 2 0 0) (mkV3 0 0 0) (mkV3 0 0 0)).
  { unfold covariance, vmean, vsum, msum. cbn. munf. cbn. f_equal; f_equal; field. }
  rewrite E. munf. cbn. pose proof (Rle_0_sqr b). pose proof (Rle_0_sqr c). unfold Rsqr in *. lra.
Qed.
Print Assumptions C58_case.

(** * C59 *)
(** Spatial interpolation without a distance limit keeps every test pose if the reference has at
    least k poses, and never succeeds if it has fewer. *)
Theorem C59_no_limit :
  forall (Q : Type) query3 eigh loc k (test ref : traj Q),
    knn_contract vdist query3 -> (forall l, length (loc l) = length l) ->
    (2 <= k <= length (xyz ref))%nat -> xyz test <> [] ->
    exists test' ref', match_spatial_interpolation query3 eigh loc 0 k test ref = Ok (test', ref') /\
      xyz test' = xyz test /\ length (xyz ref') = length (xyz test).
Proof. intros Q query3 eigh loc k. exact (spatial_interpolation_no_limit query3 eigh loc k). Qed.
Print Assumptions C59_no_limit.

Theorem C59_too_few :
  forall (Q : Type) query3 eigh loc max k (test ref : traj Q) r,
    knn_contract vdist query3 -> 0 <= max -> (length (xyz ref) < k)%nat ->
    match_spatial_interpolation query3 eigh loc max k test ref <> Ok r.
Proof. intros Q query3 eigh loc max k. exact (spatial_interpolation_few query3 eigh loc max k). Qed.
Print Assumptions C59_too_few.

Example C59_case : (2 <= 2 <= length (xyz far_ref))%nat /\ (length (xyz far_ref) < 10)%nat.
Proof. cbn. lia. Qed.
Print Assumptions C59_case.
