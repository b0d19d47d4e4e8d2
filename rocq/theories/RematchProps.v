(** Property C131: matching again what has been matched. *)
From Verif Require Import Base BaseFacts NumpyModel NumpyFacts TrajModel TrajSpec TrajFacts TrajFacts2 TrajFacts3 TrajProps
  GeomModel MatchModel MatchSpec MatchFacts MatchFacts2 MatchProps LawSpec LawProps.

Lemma ascending_all (n : nat) (l : list nat) : StronglySorted lt l -> (forall i, In i l <-> (i < n)%nat) -> l = seq 0 n.
Proof.
  assert (G : forall n s l, StronglySorted lt l -> (forall i, In i l <-> (s <= i < s + n)%nat) -> l = seq s n).
  { clear. induction n as [|n IH]; intros s l SS H.
    - destruct l as [|a l]; [reflexivity|]. exfalso. assert (X := proj1 (H a) (or_introl eq_refl)). lia.
    - destruct l as [|a l]; [exfalso; apply (proj2 (H s)); lia|]. inversion SS as [|x y S1 F]; subst. rewrite Forall_forall in F.
      assert (a = s). { assert (X := proj1 (H a) (or_introl eq_refl)). destruct (proj2 (H s) ltac:(lia)) as [E|I]; [exact E|]. specialize (F s I). lia. }
      subst a. cbn. f_equal. apply IH; [exact S1|]. intro i. split; intro I.
      + assert (X := proj1 (H i) (or_intror I)). specialize (F i I). lia.
      + destruct (proj2 (H i) ltac:(lia)) as [E|J]; [lia|exact J]. }
  intros SS H. apply G; [exact SS|]. intro i. rewrite H. lia.
Qed.

Lemma selected_all {Q} (t t' : traj Q) : consistent t -> selected t (seq 0 (tlen t)) t' -> t' = t.
Proof.
  intros C (C' & M & L & H). rewrite seq_length in L. symmetry. apply traj_ext; [exact C|exact C'| |exact M].
  apply nth_error_ext. intro i. rewrite (poses_nth t i C), (poses_nth t' i C').
  destruct (Nat.lt_ge_cases i (tlen t)) as [LT|GE].
  - destruct (H i i) as [E _]; [|symmetry; exact E]. rewrite (nth_error_nth' _ 0%nat) by (rewrite seq_length; exact LT). rewrite seq_nth by exact LT. reflexivity.
  - rewrite <- (poses_nth t i C), <- (poses_nth t' i C'). rewrite (proj2 (nth_error_None _ _)), (proj2 (nth_error_None _ _)); [reflexivity| |]; rewrite poses_length by assumption; lia.
Qed.

(** The pairs of a second matching are the pairs of the first one. *)
Lemma pairs_again {Q P : Type} (dist : P -> P -> R) query (proj : traj Q -> list P) max js is js' is' (test ref test' ref' : traj Q) :
  knn_contract dist query -> 0 <= max ->
  (forall (t u : traj Q) i j po, pose_at t i = Some po -> pose_at u j = Some po -> nth_error (proj t) i = nth_error (proj u) j) ->
  (forall t : traj Q, consistent t -> length (proj t) = tlen t) ->
  untied dist (proj ref) (proj test) ->
  pairing dist query (proj ref) (proj test) max js is -> selected test is test' -> selected ref js ref' ->
  pairing dist query (proj ref') (proj test') max js' is' -> js' = seq 0 (tlen ref') /\ is' = seq 0 (tlen test').
Proof.
  intros KC HM HP HL U (P1 & P2 & P3 & P4 & P5) (Ct & _ & L1 & H1) (Cr & _ & L2 & H2) (R1 & R2 & R3 & R4 & R5).
  assert (TR : forall (t : traj Q) idx t', consistent t' -> tlen t' = length idx -> (forall m i, nth_error idx m = Some i -> pose_at t' m = pose_at t i /\ pose_at t i <> None) ->
    forall m p, nth_error (proj t') m = Some p -> exists i, nth_error idx m = Some i /\ nth_error (proj t) i = Some p).
  { intros t idx t' C L H m p Hp. assert (A : (m < length idx)%nat) by (rewrite <- L, <- (HL _ C); eapply nth_error_Some_lt, Hp).
    apply nth_error_lt_Some in A as [i Hi]. exists i. split; [exact Hi|]. destruct (H m i Hi) as [E N]. destruct (pose_at t i) as [po|] eqn:F; [|congruence].
    rewrite <- (HP _ _ _ _ _ E F). exact Hp. }
  assert (NDJ : forall a b j, nth_error js a = Some j -> nth_error js b = Some j -> a = b).
  { intros a b j A B. rewrite StronglySorted_nth in P3. destruct (Nat.lt_trichotomy a b) as [L|[L|L]]; [|exact L|]; [specialize (P3 a b j j L A B)|specialize (P3 b a j j L B A)]; lia. }
  (* the partner of an entry is the only nearest one *)
  assert (NE : forall m p q, nth_error (proj test') m = Some p -> nth_error (proj ref') m = Some q ->
    (max <> 0 -> dist q p < max) /\ forall m' q', nth_error (proj ref') m' = Some q' -> m' <> m -> dist q p < dist q' p).
  { intros m p q Hp Hq. destruct (TR test is test' Ct L1 H1 m p Hp) as (i & Hi & Pi). destruct (TR ref js ref' Cr L2 H2 m q Hq) as (j & Hj & Qj).
    destruct (P4 m i j Hi Hj) as (p0 & Hp0 & (r & Hr & Near & Hd) & _). assert (p0 = p) by congruence. assert (r = q) by congruence. subst p0 r.
    split; [exact Hd|]. intros m' q' Hq' N. destruct (TR ref js ref' Cr L2 H2 m' q' Hq') as (j' & Hj' & Qj').
    destruct (Near q' (nth_error_In _ _ Qj')) as [LT|EQ]; [exact LT|]. exfalso. apply (U p j j' q q' (nth_error_In _ _ Pi) Qj Qj'); [|exact EQ].
    intros ->. apply N, (NDJ _ _ _ Hj' Hj). }
  assert (V : valid_bound (bound max)). { unfold bound. destruct (Reqb max 0) eqn:Z; [exact Logic.I|]. cbn. apply Reqb_false in Z. lra. }
  assert (LE : tlen test' = tlen ref') by lia.
  (* what the tree reports *)
  assert (RP : forall m p, nth_error (proj test') m = Some p -> forall j, reported query (proj ref') max p j <-> j = m).
  { intros m p Hp.
    destruct (nth_error_lt_Some (proj ref') m) as [q Hq]; [rewrite (HL _ Cr), <- LE, <- (HL _ Ct); eapply nth_error_Some_lt, Hp|].
    destruct (NE m p q Hp Hq) as [BD ST].
    assert (HD : exists row, query (proj ref') (bound max) 1%nat p = [row]).
    { assert (L := knn_length dist query KC (proj ref') (bound max) 1 p V). destruct (query (proj ref') (bound max) 1%nat p) as [|row [|]]; try discriminate. exists row. reflexivity. }
    destruct HD as [row HD].
    assert (W : within (bound max) (dist q p)). { unfold bound. destruct (Reqb max 0) eqn:Z; [exact Logic.I|]. cbn. apply BD. apply Reqb_false in Z. exact Z. }
    assert (ROW : exists d, row = Some (m, d)).
    { destruct row as [[j d]|].
      - destruct (knn_sound dist query KC (proj ref') (bound max) 1 p j d V) as (r & Hr & -> & _); [rewrite HD; left; reflexivity|].
        destruct (Nat.eq_dec j m) as [->|N]; [eexists; reflexivity|]. exfalso. assert (Y := ST j r Hr N).
        destruct (knn_nearest dist query KC (proj ref') (bound max) 1 p m q V Hq W) with (row := Some (j, dist r p)) as (j' & d' & E & LEd).
        + intros d. rewrite HD. intros [E|[]]. injection E as E _. congruence.
        + rewrite HD. left. reflexivity.
        + injection E as <- <-. lra.
      - exfalso. destruct (knn_nearest dist query KC (proj ref') (bound max) 1 p m q V Hq W) with (row := @None (nat * R)) as (j' & d' & E & _); [| |discriminate].
        + intros d. rewrite HD. intros [E|[]]. discriminate.
        + rewrite HD. left. reflexivity. }
    destruct ROW as [d ->]. intro j. unfold reported, query1. rewrite HD. cbn. split.
    - intros [d' E]. injection E as E _. congruence.
    - intros ->. exists d. reflexivity. }
  assert (SAME : forall m i j, nth_error is' m = Some i -> nth_error js' m = Some j -> i = j).
  { intros m i j Hi Hj. destruct (R4 m i j Hi Hj) as (p & Hp & _ & Rp & _). apply (RP i p Hp) in Rp. congruence. }
  assert (EQ : is' = js').
  { apply nth_error_ext. intro m. destruct (nth_error is' m) as [i|] eqn:A.
    - destruct (nth_error_lt_Some js' m) as [j B]; [rewrite R1; eapply nth_error_Some_lt, A|]. rewrite B. f_equal. apply (SAME m i j A B).
    - apply nth_error_None in A. symmetry. apply nth_error_None. lia. }
  assert (J : js' = seq 0 (tlen ref')).
  { apply ascending_all; [exact R3|]. intro j. split.
    - intro I. apply In_nth_error in I as [m Hm]. assert (Hi := Hm). rewrite <- EQ in Hi. destruct (R4 m j j Hi Hm) as (p & Hp & _).
      apply nth_error_Some_lt in Hp. rewrite (HL _ Ct) in Hp. lia.
    - intro L. destruct (nth_error_lt_Some (proj test') j) as [p Hp]; [rewrite (HL _ Ct); lia|].
      apply (R5 p j (nth_error_In _ _ Hp)). apply (RP j p Hp). reflexivity. }
  split; [exact J|]. rewrite EQ, J, LE. reflexivity.
Qed.

Theorem C131_spatial : forall Q query3 max (test ref test' ref' : traj Q), knn_contract vdist query3 -> consistent test -> consistent ref -> 0 <= max ->
  untied vdist (xyz ref) (xyz test) -> match_spatial query3 max test ref = Ok (test', ref') -> match_spatial query3 max test' ref' = Ok (test', ref').
Proof.
  intros Q query3 max test ref test' ref' KC Ct Cr HM U E.
  assert (N : xyz test <> []). { intro Z. rewrite (proj1 (C19_no_test_poses Q (brute dist2) query3 max test ref Ct Z)) in E. discriminate. }
  destruct (C19_spatial Q query3 max test ref KC Ct Cr HM N) as [(a & b & is & js & E' & Hp & S1 & S2)|[E' _]]; [|congruence]. rewrite E in E'. injection E' as <- <-.
  assert (HP : forall (t u : traj Q) i j po, pose_at t i = Some po -> pose_at u j = Some po -> nth_error (xyz t) i = nth_error (xyz u) j).
  { intros t u i j po A B. apply pose_at_tstamp in A as [_ A]. apply pose_at_tstamp in B as [_ B]. congruence. }
  destruct (C19_equal_length _ _ _ _ _ _ _ _ _ _ _ _ _ Hp S1 S2) as (LE & PO & _).
  assert (C1 := proj1 S1). assert (C2 := proj1 S2).
  assert (N' : xyz test' <> []) by (intro Z; unfold tlen in PO; rewrite Z in PO; cbn in PO; lia).
  destruct (C19_spatial Q query3 max test' ref' KC C1 C2 HM N') as [(a & b & is' & js' & E' & Hp' & S1' & S2')|[_ F]].
  - destruct (pairs_again vdist query3 xyz max js is js' is' test ref test' ref' KC HM HP (fun t _ => eq_refl) U Hp S1 S2 Hp') as [-> ->].
    rewrite E'. f_equal. f_equal; apply selected_all; assumption.
  - exfalso. destruct (nth_error_lt_Some (xyz test') 0 PO) as [p P0]. destruct (nth_error_lt_Some (xyz ref') 0) as [q Q0]; [unfold tlen in *; lia|].
    destruct (F p q (nth_error_In _ _ P0) (nth_error_In _ _ Q0)) as [NZ LEm].
    assert (LT := paired_entries vdist query3 xyz max js is test ref test' ref' HP (fun t _ => eq_refl) Hp S1 S2 0%nat p q P0 Q0 NZ). lra.
Qed.
Print Assumptions C131_spatial.

Theorem C131_temporal : forall Q query2 max (test ref test' ref' : traj Q), knn_contract dist2 query2 -> consistent test -> consistent ref -> 0 <= max ->
  untied (fun a b => Rabs (a - b)) (tstamps ref) (tstamps test) -> match_temporal query2 max test ref = Ok (test', ref') -> match_temporal query2 max test' ref' = Ok (test', ref').
Proof.
  intros Q query2 max test ref test' ref' KC Ct Cr HM U E.
  assert (N : tstamps test <> []).
  { intro Z. assert (Zx : xyz test = []) by (destruct Ct as (L & _); rewrite Z in L; destruct (xyz test); [reflexivity | discriminate]).
    rewrite (proj2 (C19_no_test_poses Q query2 (brute vdist) max test ref Ct Zx)) in E. discriminate. }
  destruct (C19_temporal Q query2 max test ref KC Ct Cr HM N) as [(a & b & is & js & E' & Hp & S1 & S2)|[E' _]]; [|congruence]. rewrite E in E'. injection E' as <- <-.
  pose (proj := fun t : traj Q => map stamp (tstamps t)).
  assert (HP : forall (t u : traj Q) i j po, pose_at t i = Some po -> pose_at u j = Some po -> nth_error (proj t) i = nth_error (proj u) j).
  { intros t u i j po A B. apply pose_at_tstamp in A as [A _]. apply pose_at_tstamp in B as [B _]. unfold proj. rewrite !nth_error_map'. congruence. }
  assert (HL : forall t : traj Q, consistent t -> length (proj t) = tlen t) by (intros t C; unfold proj; rewrite map_length; apply C).
  destruct (C19_equal_length _ _ _ _ _ _ _ _ _ _ _ _ _ Hp S1 S2) as (LE & PO & _).
  assert (C1 := proj1 S1). assert (C2 := proj1 S2).
  assert (N' : tstamps test' <> []) by (intro Z; assert (L := proj1 C1); rewrite Z in L; unfold tlen in PO; cbn in L; lia).
  assert (U' : untied dist2 (proj ref) (proj test)).
  { intros p i j r s I A B NE. unfold proj in *. rewrite nth_error_map' in A, B. destruct (nth_error (tstamps ref) i) as [x|] eqn:X; [|discriminate]. destruct (nth_error (tstamps ref) j) as [y|] eqn:Y; [|discriminate].
    injection A as <-. injection B as <-. apply in_map_iff in I as (z & <- & I). rewrite !dist2_stamp. apply (U z i j x y I X Y NE). }
  destruct (C19_temporal Q query2 max test' ref' KC C1 C2 HM N') as [(a & b & is' & js' & E' & Hp' & S1' & S2')|[_ F]].
  - destruct (pairs_again dist2 query2 proj max js is js' is' test ref test' ref' KC HM HP HL U' Hp S1 S2 Hp') as [-> ->].
    rewrite E'. f_equal. f_equal; apply selected_all; assumption.
  - exfalso. destruct (nth_error_lt_Some (tstamps test') 0) as [p P0]; [rewrite (proj1 C1); exact PO|]. destruct (nth_error_lt_Some (tstamps ref') 0) as [q Q0]; [rewrite (proj1 C2); unfold tlen in *; lia|].
    destruct (F p q (nth_error_In _ _ P0) (nth_error_In _ _ Q0)) as [NZ LEm].
    assert (LT := paired_entries dist2 query2 proj max js is test ref test' ref' HP HL Hp S1 S2 0%nat (stamp p) (stamp q)).
    unfold proj in LT. rewrite !nth_error_map', P0, Q0 in LT. specialize (LT eq_refl eq_refl NZ). rewrite dist2_stamp in LT. lra.
Qed.
Print Assumptions C131_temporal.

(** A trajectory all of whose time stamps occur in the other one is not changed by intersecting. *)
Lemma intersect_full {Q} (t : traj Q) ts gap : consistent t -> tstamps t <> [] -> (forall x, In x (tstamps t) -> In x ts) -> intersect t ts gap = Ok t.
Proof.
  intros C N I. assert (N1 : ts <> []). { intros ->. destruct (tstamps t) as [|x l]; [congruence|]. apply (I x). left. reflexivity. }
  destruct (bounds_exist ts N1) as [a0 [a1 [A0 A1]]]. destruct (bounds_exist (tstamps t) N) as [b0 [b1 [B0 B1]]].
  destruct (C06_intersect Q t ts gap a0 a1 b0 b1 C A0 A1 B0 B1) as [F1 _].
  assert (X0 := proj2 A0 _ (I _ (proj1 B0))). assert (X1 := proj2 A1 _ (I _ (proj1 B1))). assert (X2 := proj2 B0 _ (proj1 B1)).
  assert (L : Rmax a0 b0 <= Rmin a1 b1) by (unfold Rmax, Rmin; repeat destruct Rle_dec; lra).
  destruct (F1 L) as [w [E [C' [M K]]]]. rewrite E. f_equal. symmetry. apply traj_ext; [exact C|exact C'| |exact M].
  symmetry. apply (kept_all _ _ _ K). intros p J. assert (T : In (p_t p) (tstamps t)) by (rewrite <- (proj1 (poses_components t C)); apply in_map, J).
  split; [|left; apply I, T]. assert (Z0 := proj2 B0 _ T). assert (Z1 := proj2 B1 _ T). unfold Rmax, Rmin. repeat destruct Rle_dec; lra.
Qed.

Lemma kept_strict {Q} (K : pose Q -> Prop) (t t' : traj Q) : consistent t -> consistent t' -> strictly_time_sorted t -> kept K (poses t) (poses t') -> strictly_time_sorted t'.
Proof.
  intros C C' SS H. unfold strictly_time_sorted in *. rewrite <- (proj1 (poses_components t C)) in SS. rewrite <- (proj1 (poses_components t' C')).
  revert SS. induction H as [|a l l' Ka H IH|a l l' Ka H IH]; cbn; intro SS; [constructor| |]; inversion SS as [|x y S1 F]; subst.
  - constructor; [apply IH, S1|]. rewrite Forall_forall in *. intros z J. apply F. apply in_map_iff in J as (p & <- & J). apply in_map. apply (kept_in _ _ _ H) in J. apply J.
  - apply IH, S1.
Qed.

Theorem C131_interpolation : forall Q (seg : Q -> Q -> R -> Q) (test ref test' ref' : traj Q), hits_ends seg -> consistent test -> consistent ref ->
  strictly_time_sorted test -> strictly_time_sorted ref -> match_interpolation seg test ref = Ok (test', ref') -> (2 <= tlen ref')%nat ->
  match_interpolation seg test' ref' = Ok (test', ref').
Proof.
  intros Q seg test ref test' ref' HE Ct Cr St Sr E L2.
  assert (Wt : time_sorted test) by (apply strict_weak, St). assert (Wr : time_sorted ref) by (apply strict_weak, Sr).
  destruct (interpolation_match seg test ref test' ref' Ct Cr Wt Wr E) as (T & A & C2 & S2 & (K & KR) & mid & Cm & Sm & (K' & KM) & Mm & t2 & E2 & D & _).
  assert (SS : strictly_time_sorted ref') by (apply (kept_strict K ref ref'); assumption).
  assert (NE : tstamps ref' <> []). { intro Z. assert (L := proj1 C2). rewrite Z in L. unfold tlen in L2. cbn in L. lia. }
  destruct (C22_consistent Q seg test ref test' ref' Ct Cr Wt Wr E NE) as [C1 L1].
  assert (SS1 : strictly_time_sorted test') by (unfold strictly_time_sorted; rewrite T; exact SS).
  unfold match_interpolation. rewrite (intersect_full test' (tstamps ref') 2 C1); [|rewrite T; exact NE|rewrite T; auto]. cbn [bind].
  rewrite (intersect_full ref' (tstamps test') 2 C2 NE) by (rewrite T; auto). cbn [bind].
  rewrite <- T. destruct (interpolate_ok seg test' (tstamps test') C1 SS1) as (lo & hi & u & _ & _ & Eu & _ & _ & _ & Gu & _); [lia|right; lia|].
  destruct (C129_interpolate Q seg test' HE C1 SS1) as (u' & Eu' & Tu & Xu & Ru & Au & Mu); [lia|right; lia|]. rewrite Eu in Eu'. injection Eu' as <-.
  rewrite Eu. cbn [bind]. f_equal. f_equal.
  (* speeds are computed from positions and times only *)
  assert (SM : strictly_time_sorted mid) by (apply (kept_strict K' test mid); assumption).
  assert (Gt : Ok (speed test') = gradient_3d (xyz test') (tstamps test')).
  { subst test'. unfold interpolate in E2. apply bind_ok in E2 as (tc & F1 & E2). apply bind_ok in E2 as (a & F2 & E2). apply bind_ok in E2 as (b & F3 & E2).
    apply bind_ok in E2 as (sp & F4 & E2). apply bind_ok in E2 as (al & F5 & E2). injection E2 as <-. cbn. symmetry. exact F4. }
  rewrite Xu, Tu in Gu. rewrite <- Gt in Gu. injection Gu as Gu.
  rewrite <- A. destruct Mu as (M1 & M2 & M3 & _). destruct test', u; cbn in *. subst. reflexivity.
Qed.
Print Assumptions C131_interpolation.

(** The matching with given settings, and hence the comparison by the metrics, of matched trajectories. *)
Theorem C131_settings : forall Q query2 query3 (seg : Q -> Q -> R -> Q) eigh loc (s : matching_settings) (test ref test' ref' : traj Q) args,
  knn_contract dist2 query2 -> knn_contract vdist query3 -> hits_ends seg -> consistent test -> consistent ref -> 0 <= max_time_diff s -> 0 <= max_distance s ->
  (m_method s = NearestSpatial -> untied vdist (xyz ref) (xyz test)) ->
  (m_method s = NearestTemporal -> untied (fun a b => Rabs (a - b)) (tstamps ref) (tstamps test)) ->
  (m_method s = Interpolation -> strictly_time_sorted test /\ strictly_time_sorted ref /\ (2 <= tlen ref')%nat) ->
  m_method s <> NearestSpatialInterpolated ->
  match_trajectories query2 query3 seg eigh loc s test ref = Ok (args, (test', ref')) ->
  match_trajectories query2 query3 seg eigh loc s test' ref' = Ok ((test', ref'), (test', ref')) /\
  compared_by_metrics query2 query3 seg eigh loc s ref' test' = compared_by_metrics query2 query3 seg eigh loc s ref test.
Proof.
  intros Q query2 query3 seg eigh loc s test ref test' ref' args K2 K3 HE Ct Cr H1 H2 U1 U2 U3 NS E.
  assert (G : match_trajectories query2 query3 seg eigh loc s test' ref' = Ok ((test', ref'), (test', ref')) /\ args = (test', ref')).
  { unfold match_trajectories in *. destruct (m_method s); try congruence.
    - destruct (match_spatial query3 (max_distance s) test ref) as [[a b]|] eqn:Em; [|discriminate]. injection E as <- <- <-.
      rewrite (C131_spatial Q query3 (max_distance s) test ref a b K3 Ct Cr H2 (U1 eq_refl) Em). split; reflexivity.
    - destruct (match_temporal query2 (max_time_diff s) test ref) as [[a b]|] eqn:Em; [|discriminate]. injection E as <- <- <-.
      rewrite (C131_temporal Q query2 (max_time_diff s) test ref a b K2 Ct Cr H1 (U2 eq_refl) Em). split; reflexivity.
    - destruct (match_interpolation seg test ref) as [[a b]|] eqn:Em; [|discriminate]. injection E as <- <- <-. destruct (U3 eq_refl) as (X & Y & Z).
      rewrite (C131_interpolation Q seg test ref a b HE Ct Cr X Y Em Z). split; reflexivity. }
  destruct G as [G ->]. split; [exact G|]. unfold compared_by_metrics. rewrite G, E. reflexivity.
Qed.
Print Assumptions C131_settings.

(** Two trajectories along a line: matched by place, by time and by interpolation. *)
Example C131_case : consistent near_test /\ consistent far_ref /\ strictly_time_sorted near_test /\ strictly_time_sorted far_ref /\
  untied vdist (xyz far_ref) (xyz near_test) /\ untied (fun a b => Rabs (a - b)) (tstamps far_ref) (tstamps near_test) /\
  (exists m, match_spatial (brute vdist) 0 near_test far_ref = Ok m) /\ (exists m, match_temporal (brute dist2) 0 near_test far_ref = Ok m) /\
  (exists a b, match_interpolation halfway near_test far_ref = Ok (a, b) /\ tlen b = 2%nat).
Proof.
  assert (C1 : consistent near_test) by (repeat split). assert (C2 : consistent far_ref) by (repeat split).
  assert (T : strictly_time_sorted near_test /\ strictly_time_sorted far_ref) by (split; repeat constructor; lra).
  split; [exact C1|]. split; [exact C2|]. split; [apply T|]. split; [apply T|].
  split; [|split; [|split; [|split]]].
  - intros p i j r s I A B N. assert (X : forall k v, nth_error (xyz far_ref) k = Some v -> (k = 0%nat /\ v = mkV3 0 0 0) \/ (k = 1%nat /\ v = mkV3 10 0 0)).
    { intros k v H. destruct k as [|[|k]]; [injection H as <-; auto|injection H as <-; auto|destruct k; discriminate]. }
    destruct (X i r A) as [[-> ->]|[-> ->]], (X j s B) as [[-> ->]|[-> ->]]; try congruence;
      destruct I as [<-|[<-|[]]]; rewrite !on_x_axis; unfold Rabs; repeat destruct Rcase_abs; lra.
  - intros p i j r s I A B N. assert (X : forall k v, nth_error (tstamps far_ref) k = Some v -> (k = 0%nat /\ v = 0) \/ (k = 1%nat /\ v = 1)).
    { intros k v H. destruct k as [|[|k]]; [injection H as <-; auto|injection H as <-; auto|destruct k; discriminate]. }
    destruct (X i r A) as [[-> ->]|[-> ->]], (X j s B) as [[-> ->]|[-> ->]]; try congruence;
      destruct I as [<-|[<-|[]]]; unfold Rabs; repeat destruct Rcase_abs; lra.
  - destruct (C19_spatial nat (brute vdist) 0 near_test far_ref (brute_contract vdist) C1 C2 (Rle_refl 0) ltac:(discriminate)) as [(t' & r' & is & js & E & _)|[_ F]]; [eexists; exact E|].
    exfalso. destruct (F (mkV3 3 0 0) (mkV3 0 0 0)) as [N _]; [left; reflexivity..|]. apply N. reflexivity.
  - destruct (C19_temporal nat (brute dist2) 0 near_test far_ref (brute_contract dist2) C1 C2 (Rle_refl 0) ltac:(discriminate)) as [(t' & r' & is & js & E & _)|[_ F]]; [eexists; exact E|].
    exfalso. destruct (F 0 0) as [N _]; [left; reflexivity..|]. apply N. reflexivity.
  - assert (I1 : intersect near_test (tstamps far_ref) 2 = Ok near_test) by (apply intersect_full; [exact C1|discriminate|auto]).
    assert (I2 : intersect far_ref (tstamps near_test) 2 = Ok far_ref) by (apply intersect_full; [exact C2|discriminate|auto]).
    unfold match_interpolation. rewrite I1. cbn [bind]. rewrite I2. cbn [bind].
    destruct (interpolate_ok halfway near_test (tstamps far_ref) C1 (proj1 T) ltac:(cbn; lia) (or_introl eq_refl)) as (_ & _ & u & _ & _ & E & _).
    rewrite E. eexists. eexists. split; [reflexivity|]. reflexivity.
Qed.
Print Assumptions C131_case.
