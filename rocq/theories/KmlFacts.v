(** Proofs about the KML export. *)
From Verif Require Import Base BaseFacts NumpyModel NumpyFacts TrajModel TrajSpec TrajFacts TrajFacts2 TrajProps KmlModel KmlSpec.

Lemma enumerate_nth {A} (l : list A) i a : In (i, a) (enumerate l) <-> nth_error l i = Some a.
Proof.
  unfold enumerate. assert (G : forall k, In (i, a) (combine (seq k (length l)) l) <-> (k <= i)%nat /\ nth_error l (i - k) = Some a).
  { revert i. induction l as [|x l IH]; intros i k; cbn [length seq combine In].
    - split; [tauto|]. intros [_ E]. destruct (i - k)%nat; discriminate E.
    - rewrite IH. split.
      + intros [E|[L E]].
        * injection E as -> ->. rewrite Nat.sub_diag. cbn. split; [lia|reflexivity].
        * split; [lia|]. replace (i - k)%nat with (S (i - S k)) by lia. exact E.
      + intros [L E]. destruct (Nat.eq_dec i k) as [->|N].
        * left. rewrite Nat.sub_diag in E. cbn in E. congruence.
        * right. split; [lia|]. replace (i - k)%nat with (S (i - S k)) in E by lia. exact E. }
  specialize (G 0%nat). rewrite Nat.sub_0_r in G. rewrite G. split; [tauto|]. split; [lia|auto].
Qed.

Lemma firstn_nth {A} (l : list A) n j a : nth_error (firstn n l) j = Some a <-> (j < n)%nat /\ nth_error l j = Some a.
Proof.
  revert n j. induction l as [|x l IH]; intros [|n] [|j]; cbn; try (split; [discriminate|intros [? ?]; try discriminate; lia]).
  - split; intros; [split; [lia|auto]|tauto].
  - rewrite IH. split; intros [? ?]; split; auto; lia.
Qed.

Lemma sorted_filter_enumerate {A} (p : nat * A -> bool) (l : list A) : StronglySorted lt (map fst (filter p (enumerate l))).
Proof.
  unfold enumerate. generalize 0%nat. induction l as [|x l IH]; intro k; cbn [length seq combine filter map]; [constructor|].
  destruct (p (k, x)); [|apply IH]. cbn [map fst]. constructor; [apply IH|]. apply Forall_forall. intros i I.
  apply in_map_iff in I as [[i' a] [<- I]]. apply filter_In in I as [I _]. apply in_combine_l in I. apply in_seq in I. cbn. lia.
Qed.

Lemma first_indices_in {A B} (eqb : A -> A -> bool) (f : A -> B) (EQ : forall a b, eqb a b = true <-> f a = f b) l i :
  In i (first_indices eqb l) <-> first_visit (map f l) i.
Proof.
  unfold first_indices, first_visit. rewrite in_map_iff, map_length. split.
  - intros [[i' a] [<- I]]. cbn [fst]. apply filter_In in I as [I N]. apply enumerate_nth in I. cbn [fst snd] in N.
    split; [apply nth_error_Some; congruence|]. intros j L E. rewrite (map_nth_error f _ _ I) in E.
    destruct (nth_error l j) as [b|] eqn:B'; [|rewrite nth_error_map, B' in E; discriminate E].
    rewrite (map_nth_error f _ _ B') in E. injection E as E. apply negb_true_iff in N.
    assert (existsb (eqb a) (firstn i' l) = true); [|congruence]. apply existsb_exists. exists b. split.
    + eapply nth_error_In. apply firstn_nth. eauto.
    + apply EQ. auto.
  - intros [L F]. destruct (nth_error l i) as [a|] eqn:A'; [|apply nth_error_None in A'; lia].
    exists (i, a). split; [reflexivity|]. apply filter_In. split; [now apply enumerate_nth|]. cbn [fst snd].
    apply negb_true_iff. destruct (existsb (eqb a) (firstn i l)) eqn:X; [|reflexivity]. exfalso.
    apply existsb_exists in X as [b [I E]]. apply In_nth_error in I as [j J]. apply firstn_nth in J as [J1 J2].
    apply (F j J1). rewrite (map_nth_error f _ _ A'), (map_nth_error f _ _ J2). f_equal. symmetry. now apply EQ.
Qed.

Lemma xy_eqb_iff a b : xy_eqb a b = true <-> (vy a, vx a) = (vy b, vx b).
Proof.
  unfold xy_eqb. rewrite andb_true_iff, !Reqb_true. split; [intros [-> ->]; reflexivity|]. intros [= -> ->]. auto.
Qed.

Section Facts.
  Context {Q : Type} (conv rnd : V3 -> V3).
  Implicit Types t : traj Q.

  Lemma kml_local t : epsg t = 0%Z -> create_kml conv rnd t = Err ValueError.
  Proof. intro E. unfold create_kml. rewrite E. reflexivity. Qed.

  Lemma pose_at_rounded t i p : pose_at t i = Some p -> forall ep,
    pose_at (set_xyz (map rnd (map conv (xyz t))) (mkTraj (tstamps t) (map conv (xyz t)) (rot t) (arc t) (speed t) (srt t) (name t) ep)) i =
    Some (mkPose (p_t p) (rnd (conv (p_xyz p))) (p_rot p) (p_arc p) (p_speed p)).
  Proof.
    intros P ep. unfold pose_at, set_xyz in *. cbn [tstamps xyz rot arc speed srt name epsg].
    destruct (nth_error (tstamps t) i); [|discriminate P]. destruct (nth_error (xyz t) i) eqn:X; [|discriminate P].
    destruct (nth_error (arc t) i); [|discriminate P]. destruct (nth_error (speed t) i); [|discriminate P].
    rewrite (map_nth_error rnd _ _ (map_nth_error conv _ _ X)).
    destruct (rot t) as [q|]; [destruct (nth_error q i); [|discriminate P]|]; injection P as <-; reflexivity.
  Qed.

  Lemma kml_exact t : consistent t -> epsg t <> 0%Z ->
    exists t' line idx, create_kml conv rnd t = Ok (t', line) /\ consistent t' /\ epsg t' = 4326%Z /\
      StronglySorted lt idx /\ (forall i, In i idx <-> first_visit (places conv rnd t) i) /\ tlen t' = length idx /\
      (forall k i, nth_error idx k = Some i -> exists p p', pose_at t i = Some p /\ pose_at t' k = Some p' /\
          moved_pose (rnd (conv (p_xyz p))) p p') /\
      length line = length idx /\
      (forall k i, nth_error idx k = Some i -> nth_error line k = nth_error (places conv rnd t) i).
  Proof.
    intros C E. unfold create_kml. rewrite (proj2 (Z.eqb_neq _ _) E).
    set (rounded := set_xyz _ _). set (idx := first_indices xy_eqb (xyz rounded)).
    assert (CR : consistent rounded).
    { destruct C as (C1 & C2 & C3 & C4). unfold rounded, consistent, set_xyz. cbn. rewrite !map_length. auto. }
    assert (LN : tlen rounded = tlen t) by (unfold tlen, rounded, set_xyz; cbn; now rewrite !map_length).
    assert (PL : map (fun p => (vy p, vx p)) (xyz rounded) = places conv rnd t).
    { unfold places, rounded, set_xyz. cbn. rewrite !map_map. reflexivity. }
    assert (IN : forall i, In i idx <-> first_visit (places conv rnd t) i).
    { intro i. rewrite <- PL. apply first_indices_in. exact xy_eqb_iff. }
    assert (RG : forall i, In i idx -> (i < tlen t)%nat).
    { intros i I. apply IN in I as [I _]. unfold places in I. rewrite map_length in I. exact I. }
    destruct (apply_index rounded (IInt (map Z.of_nat idx))) as [t'|e] eqn:A.
    2:{ exfalso. destruct (proj1 (C01_apply_index_raises Q rounded CR) (map Z.of_nat idx)) as [R1 R2].
        pose proof (R2 e A) as ->. apply R1 in A as [z [Z1 Z2]]. apply in_map_iff in Z1 as [i [<- I]]. apply RG in I. apply Z2. rewrite LN. lia. }
    cbn [bind]. destruct (C01_apply_index_int Q rounded t' (map Z.of_nat idx) CR A) as (C' & SM & L' & P').
    exists t', (map (fun p => (vy p, vx p)) (xyz t')), idx. rewrite map_length in L'.
    split; [reflexivity|]. split; [exact C'|]. split; [destruct SM as (_ & _ & -> & _); reflexivity|].
    split; [apply sorted_filter_enumerate|]. split; [exact IN|]. split; [exact L'|].
    assert (PP : forall k i, nth_error idx k = Some i -> exists p p', pose_at t i = Some p /\ pose_at t' k = Some p' /\
          moved_pose (rnd (conv (p_xyz p))) p p').
    { intros k i K. destruct (P' k (Z.of_nat i)) as (m & M1 & M2 & M3 & M4); [now apply map_nth_error|].
      assert (m = i) as ->.
      { assert (i < tlen t)%nat by (apply RG; eapply nth_error_In; exact K). rewrite LN in M1, M2. destruct M2; lia. }
      assert (exists p, pose_at t i = Some p) as [p P].
      { destruct C as (C1 & C2 & C3 & C4). try rewrite LN in M1. unfold tlen in M1.
        assert (GE : forall B (l : list B), length l = length (xyz t) -> exists x, nth_error l i = Some x).
        { intros B l H. destruct (nth_error l i) eqn:EE; [eauto|]. apply nth_error_None in EE. lia. }
        destruct (GE _ (tstamps t) C1) as [a Ha]. destruct (GE _ (xyz t) eq_refl) as [b Hb]. destruct (GE _ (arc t) C3) as [c Hc].
        destruct (GE _ (speed t) C4) as [d Hd]. unfold pose_at. rewrite Ha, Hb, Hc, Hd.
        destruct (rot t) as [q|]; [|eauto]. destruct (GE _ q C2) as [e He]. rewrite He. eauto. }
      exists p. eexists. split; [exact P|]. rewrite M3. split; [apply (pose_at_rounded t i p P 4326%Z)|]. reflexivity. }
    split; [exact PP|]. split; [rewrite map_length; exact L'|].
    intros k i K. destruct (PP k i K) as (p & p' & P1 & P2 & P3). rewrite P3 in P2.
    assert (X1 : nth_error (xyz t) i = Some (p_xyz p)).
    { unfold pose_at in P1. destruct (nth_error (tstamps t) i); [|discriminate P1]. destruct (nth_error (xyz t) i) eqn:X; [|discriminate P1].
      destruct (nth_error (arc t) i); [|discriminate P1]. destruct (nth_error (speed t) i); [|discriminate P1].
      destruct (rot t) as [q|]; [destruct (nth_error q i); [|discriminate P1]|]; injection P1 as <-; reflexivity. }
    assert (X2 : nth_error (xyz t') k = Some (rnd (conv (p_xyz p)))).
    { unfold pose_at in P2. destruct (nth_error (tstamps t') k); [|discriminate P2]. destruct (nth_error (xyz t') k) eqn:X; [|discriminate P2].
      destruct (nth_error (arc t') k); [|discriminate P2]. destruct (nth_error (speed t') k); [|discriminate P2].
      destruct (rot t') as [q|]; [destruct (nth_error q k); [|discriminate P2]|]; injection P2; intros; congruence. }
    rewrite (map_nth_error _ _ _ X2). unfold places. rewrite (map_nth_error _ _ _ X1). reflexivity.
  Qed.

  Lemma sorted_lt_le idx : StronglySorted lt idx -> forall k l i j, (k < l)%nat -> nth_error idx k = Some i -> nth_error idx l = Some j -> (i < j)%nat.
  Proof.
    intro S. induction S as [|a r S IH F]; intros [|k] [|l] i j L K J; cbn in *; try discriminate; try lia.
    - injection K as ->. rewrite Forall_forall in F. apply F. eapply nth_error_In; exact J.
    - apply (IH k l); auto. lia.
  Qed.

  Lemma kml_nodup t t' line : consistent t -> create_kml conv rnd t = Ok (t', line) -> NoDup line.
  Proof.
    intros C H. destruct (Z.eq_dec (epsg t) 0) as [E|E]; [rewrite kml_local in H by exact E; discriminate H|].
    destruct (kml_exact t C E) as (t1 & line1 & idx & H1 & _ & _ & S & IN & _ & _ & LL & NL). rewrite H in H1. injection H1 as <- <-.
    apply NoDup_nth_error. intros k l K E'.
    assert (KI : exists i, nth_error idx k = Some i).
    { destruct (nth_error idx k) eqn:X; [eauto|]. apply nth_error_None in X. lia. }
    destruct KI as [i KI].
    assert (l < length idx)%nat.
    { rewrite <- LL. apply nth_error_Some. rewrite <- E'. apply nth_error_Some. exact K. }
    assert (LI : exists j, nth_error idx l = Some j).
    { destruct (nth_error idx l) eqn:X; [eauto|]. apply nth_error_None in X. lia. }
    destruct LI as [j LI]. rewrite (NL k i KI), (NL l j LI) in E'.
    destruct (Nat.lt_trichotomy k l) as [X|[X|X]]; auto; exfalso.
    - pose proof (sorted_lt_le idx S k l i j X KI LI) as O. apply nth_error_In in LI. apply IN in LI as [_ LI]. exact (LI i O E').
    - pose proof (sorted_lt_le idx S l k j i X LI KI) as O. apply nth_error_In in KI. apply IN in KI as [_ KI]. exact (KI j O (eq_sym E')).
  Qed.
End Facts.
