(** Proofs about matching. *)
From Verif Require Import Base BaseFacts VecFacts NumpyModel NumpyFacts TrajModel TrajSpec TrajFacts TrajFacts2 TrajFacts3
  GeomModel GeomSpec GeomFacts MatchModel MatchSpec.

(** ** A brute-force neighbour search satisfies the contract *)
Section Brute.
  Context {P : Type} (dist : P -> P -> R).

  Definition withinb (ub : option R) (d : R) : bool := match ub with Some m => Rltb d m | None => true end.
  Lemma withinb_spec ub d : withinb ub d = true <-> within ub d.
  Proof. destruct ub; cbn; [apply Rltb_true | tauto]. Qed.

  Definition candidates (ref : list P) (ub : option R) (p : P) : list (R * nat) :=
    fold_right insert_key [] (filter (fun c => withinb ub (fst c)) (map (fun ir => (dist (snd ir) p, fst ir)) (enumerate ref))).
  Definition brute (ref : list P) (ub : option R) (k : nat) (p : P) : list (option (nat * R)) :=
    let hits := map (fun c => Some (snd c, fst c)) (firstn k (candidates ref ub p)) in
    hits ++ repeat None (k - length hits).

  Lemma candidates_in ref ub p d i :
    In (d, i) (candidates ref ub p) <-> exists r, nth_error ref i = Some r /\ d = dist r p /\ within ub d.
  Proof.
    unfold candidates. split.
    - intro H. apply (Permutation_in _ (fold_insert_key_perm _)) in H. apply filter_In in H as [H W].
      apply in_map_iff in H as [[j r] [E H]]. cbn in E. injection E as <- <-. apply In_enumerate in H.
      exists r. split; [exact H|]. split; [reflexivity|]. apply withinb_spec, W.
    - intros (r & H & -> & W). apply (Permutation_in _ (Permutation_sym (fold_insert_key_perm _))).
      apply filter_In. split; [|apply withinb_spec, W]. apply in_map_iff. exists (i, r). split; [reflexivity|].
      apply In_enumerate, H.
  Qed.

  Lemma candidates_nodup ref ub p : NoDup (map snd (candidates ref ub p)).
  Proof.
    unfold candidates. eapply Permutation_NoDup.
    - apply Permutation_map, Permutation_sym, fold_insert_key_perm.
    - assert (K : NoDup (map snd (map (fun ir => (dist (snd ir) p, fst ir)) (enumerate ref)))).
      { rewrite map_map. cbn. rewrite enumerate_map_fst. apply seq_NoDup. }
      clear -K. revert K. generalize (map (fun ir => (dist (snd ir) p, fst ir)) (enumerate ref)). intros l K.
      induction l as [|a l IH]; cbn; [constructor|]. inversion K; subst.
      destruct (withinb ub (fst a)); [|auto]. cbn. constructor; [|auto].
      intro H. apply H1. apply in_map_iff in H as [x [E H]]. apply filter_In in H as [H _]. rewrite <- E. apply in_map, H.
  Qed.

  Lemma in_firstn {A} (l : list A) k a : In a (firstn k l) -> In a l.
  Proof. revert k; induction l; intros [|k]; cbn; intuition eauto. Qed.

  Lemma brute_some ref ub k p i d : In (Some (i, d)) (brute ref ub k p) <-> In (d, i) (firstn k (candidates ref ub p)).
  Proof.
    unfold brute. cbv zeta. rewrite in_app_iff. split.
    - intros [H|H]; [|apply repeat_spec in H; discriminate].
      apply in_map_iff in H as [[x y] [E H]]. cbn in E. injection E as <- <-. exact H.
    - intro H. left. apply in_map_iff. exists (d, i). auto.
  Qed.

  Lemma sorted_firstn_skipn {A} (Rel : A -> A -> Prop) k l x y :
    StronglySorted Rel l -> In x (firstn k l) -> In y (skipn k l) -> Rel x y.
  Proof.
    revert k; induction l as [|a l IH]; intros [|k] H; cbn; try tauto.
    inversion H as [|? ? Hs Hf]; subst. intros [<-|Hx] Hy.
    - rewrite Forall_forall in Hf. apply Hf. rewrite <- (firstn_skipn k l). apply in_app_iff; auto.
    - eapply IH; eassumption.
  Qed.

  Lemma brute_contract : knn_contract dist brute.
  Proof.
    constructor.
    - intros. unfold brute. cbv zeta. rewrite app_length, repeat_length, map_length, firstn_length. lia.
    - intros ref ub k p i d _ H. apply brute_some in H. apply in_firstn, candidates_in in H. exact H.
    - intros ref ub k p a b i d e _ Ha Hb.
      assert (K : forall x f, nth_error (brute ref ub k p) x = Some (Some (i, f)) ->
        nth_error (map snd (candidates ref ub p)) x = Some i /\ (x < length (map snd (candidates ref ub p)))%nat).
      { intros x f H. unfold brute in H. cbv zeta in H.
        destruct (Nat.lt_ge_cases x (length (firstn k (candidates ref ub p)))) as [L|L].
        - rewrite nth_error_app1 in H by (rewrite map_length; exact L). rewrite nth_error_map in H.
          destruct (nth_error (firstn k (candidates ref ub p)) x) as [c|] eqn:E; [|discriminate]. cbn in H.
          injection H as H1 H2. assert (E' : nth_error (candidates ref ub p) x = Some c).
          { rewrite <- (firstn_skipn k (candidates ref ub p)), nth_error_app1 by exact L. exact E. }
          rewrite nth_error_map, E'. cbn. split; [congruence|]. rewrite map_length. apply nth_error_Some. congruence.
        - rewrite nth_error_app2 in H by (rewrite map_length; exact L).
          apply nth_error_In, repeat_spec in H. discriminate. }
      destruct (K a d Ha) as [A1 A2], (K b e Hb) as [B1 B2].
      eapply (proj1 (NoDup_nth_error _) (candidates_nodup ref ub p)); [exact A2 | congruence].
    - intros ref ub k p i r _ Hr W Hn row Hrow.
      assert (Hc : In (dist r p, i) (candidates ref ub p)) by (apply candidates_in; eauto).
      assert (Hs : In (dist r p, i) (skipn k (candidates ref ub p))).
      { rewrite <- (firstn_skipn k (candidates ref ub p)), in_app_iff in Hc. destruct Hc as [Hc|Hc]; [|exact Hc].
        exfalso. apply (Hn (dist r p)). apply brute_some, Hc. }
      assert (L : (k < length (candidates ref ub p))%nat).
      { destruct (Nat.lt_ge_cases k (length (candidates ref ub p))); [assumption|].
        rewrite skipn_all2 in Hs by assumption. destruct Hs. }
      unfold brute in Hrow. cbv zeta in Hrow. rewrite map_length, firstn_length, Nat.min_l, Nat.sub_diag, app_nil_r in Hrow by lia.
      apply in_map_iff in Hrow as [[d j] [<- H]]. exists j, d. split; [reflexivity|].
      apply (sorted_firstn_skipn key_le k (candidates ref ub p) (d, j) (dist r p, i)); auto.
      apply fold_insert_key_sorted.
  Qed.
End Brute.

(** ** kd_matcher *)
Section KdFacts.
  Context {P : Type} (dist : P -> P -> R) (query : list P -> option R -> nat -> P -> list (option (nat * R))).
  Hypothesis C : knn_contract dist query.

  Lemma bound_valid max : 0 <= max -> valid_bound (bound max).
  Proof. intro H. unfold bound. destruct (Reqb_spec max 0); cbn; [exact I | lra]. Qed.

  Lemma within_bound max d : within (bound max) d <-> (max <> 0 -> d < max).
  Proof. unfold bound. destruct (Reqb_spec max 0); cbn; tauto. Qed.

  Lemma query1_in ref max p x : query1 query ref (bound max) p = Some x -> In (Some x) (query ref (bound max) 1 p).
  Proof. unfold query1. destruct (query ref (bound max) 1 p); cbn; [discriminate | auto]. Qed.

  Lemma query1_single ref max p : 0 <= max -> exists row, query ref (bound max) 1 p = [row] /\ query1 query ref (bound max) p = row.
  Proof.
    intro H. pose proof (knn_length _ _ C ref (bound max) 1%nat p (bound_valid max H)) as L. unfold query1.
    destruct (query ref (bound max) 1 p) as [|row [|]]; try discriminate. cbn. eauto.
  Qed.

  Lemma reported_nearest ref max p j : 0 <= max -> reported query ref max p j -> nearest dist ref max p j.
  Proof.
    intros Hm [d H]. pose proof (bound_valid max Hm) as V. destruct (query1_single ref max p Hm) as (row & E1 & E2).
    rewrite H in E2. subst row.
    destruct (knn_sound _ _ C ref (bound max) 1%nat p j d V (query1_in _ _ _ _ H)) as (r & Hr & -> & W).
    exists r. split; [exact Hr|]. split; [|apply within_bound, W].
    intros r' Hr'. destruct (Rle_or_lt (dist r p) (dist r' p)) as [L|L]; [exact L|]. exfalso.
    apply In_nth_error in Hr' as [i Hi].
    assert (W' : within (bound max) (dist r' p)).
    { apply within_bound. intro N. apply within_bound in W; auto. lra. }
    destruct (Nat.eq_dec i j) as [->|N]; [rewrite Hr in Hi; injection Hi as ->; lra|].
    destruct (knn_nearest _ _ C ref (bound max) 1%nat p i r' V Hi W') with (row := Some (j, dist r p)) as (j' & d' & E & L').
    - intros d K. rewrite E1 in K. destruct K as [K|[]]. congruence.
    - rewrite E1. left. reflexivity.
    - injection E as <- <-. lra.
  Qed.

  Lemma not_reported ref max p : 0 <= max -> (forall j, ~ reported query ref max p j) ->
    forall r, In r ref -> max <> 0 /\ max <= dist r p.
  Proof.
    intros Hm H r Hr. pose proof (bound_valid max Hm) as V. destruct (query1_single ref max p Hm) as (row & E1 & E2).
    destruct row as [[j d]|]; [exfalso; apply (H j); exists d; exact E2|].
    assert (N : ~ within (bound max) (dist r p)).
    { intro W. apply In_nth_error in Hr as [i Hi].
      destruct (knn_nearest _ _ C ref (bound max) 1%nat p i r V Hi W) with (row := @None (nat * R)) as (j' & d' & E & _).
      - intros d K. rewrite E1 in K. destruct K as [K|[]]. discriminate.
      - rewrite E1. left. reflexivity.
      - discriminate. }
    rewrite within_bound in N. destruct (Req_dec max 0) as [->|Z]; [exfalso; apply N; intros []; reflexivity|].
    split; [exact Z|]. destruct (Rle_or_lt max (dist r p)); [assumption|]. exfalso. apply N. auto.
  Qed.

  Lemma hits_in ref test max i j :
    In (i, j) (kd_hits query ref test max) <-> exists p, nth_error test i = Some p /\ reported query ref max p j.
  Proof.
    unfold kd_hits, reported. rewrite in_flat_map. split.
    - intros [[k p] [H1 H2]]. cbn [fst snd] in H2. apply In_enumerate in H1.
      destruct (query1 query ref (bound max) p) as [[j' d]|] eqn:E; [|destruct H2].
      destruct H2 as [H2|[]]. injection H2 as -> ->. eauto.
    - intros (p & Hp & d & Hd). exists (i, p). split; [apply In_enumerate, Hp|]. cbn [fst snd]. rewrite Hd. left. reflexivity.
  Qed.

  Lemma hits_sorted ref test max : StronglySorted (fun a b => (fst a < fst b)%nat) (kd_hits query ref test max).
  Proof.
    unfold kd_hits, enumerate. generalize 0%nat as s. induction test as [|p test IH]; intro s; cbn [length seq combine flat_map]; [constructor|].
    destruct (query1 query ref (bound max) p) as [[j d]|] eqn:E; cbn [snd fst]; rewrite E; [|apply IH].
    cbn [app]. constructor; [apply IH|]. apply Forall_forall. intros [i k] H. apply in_flat_map in H as [[x q] [H1 H2]].
    cbn [fst snd] in H2. destruct (query1 query ref (bound max) q) as [[j' d']|]; [|destruct H2].
    destruct H2 as [H2|[]]. injection H2 as <- <-. apply in_combine_l, in_seq in H1. cbn. lia.
  Qed.

  Lemma kd_matcher_spec ref test max :
    0 <= max -> test <> [] ->
    (exists js is, kd_matcher query ref test max = Ok (js, is) /\ pairing dist query ref test max js is) \/
    (kd_matcher query ref test max = Err ValueError /\
     forall p r, In p test -> In r ref -> max <> 0 /\ max <= dist r p).
  Proof.
    intros Hm Ht. unfold kd_matcher. destruct test as [|p0 rest]; [congruence|]. set (test := p0 :: rest) in *.
    set (hits := kd_hits query ref test max). destruct (length hits =? 0)%nat eqn:E.
    - right. split; [reflexivity|]. intros p r Hp Hr. apply Nat.eqb_eq, length_zero_iff_nil in E.
      apply (not_reported ref max p Hm); [|exact Hr]. intros j Hj. apply In_nth_error in Hp as [i Hi].
      assert (K : In (i, j) hits) by (apply hits_in; eauto). rewrite E in K. destruct K.
    - left. set (l := map (fun h => INR (snd h)) hits). set (u := np_unique_index l).
      assert (Rg : Forall (fun k => (k < length hits)%nat) (map snd u)).
      { apply Forall_forall. intros k H. apply in_map_iff in H as [[v k'] [<- H]]. apply np_unique_in in H as [H _].
        apply nth_error_Some_lt in H. unfold l in H. rewrite map_length in H. exact H. }
      assert (T : forall A (m : list A), length m = length hits -> exists m', np_take m (map Z.of_nat (map snd u)) = Ok m' /\ length m' = length u /\
          (forall p, nth_error m' p = match nth_error (map snd u) p with Some i => nth_error m i | None => None end)).
      { intros A m Lm. destruct (np_take_nat m (map snd u)) as (m' & E1 & E2); [rewrite Lm; exact Rg|].
        exists m'. split; [exact E1|]. split; [|exact E2]. apply np_take_length in E1. rewrite !map_length in E1. exact E1. }
      destruct (T _ (map snd hits)) as (js & Ej & Lj & Sj); [apply map_length|].
      destruct (T _ (map fst hits)) as (is & Ei & Li & Si); [apply map_length|].
      cbn [bind]. rewrite Ej. cbn [bind]. rewrite Ei. cbn [bind]. exists js, is. split; [reflexivity|].
      assert (Pj : forall m v k, nth_error u m = Some (v, k) -> exists i j, nth_error hits k = Some (i, j) /\ v = INR j /\
                     nth_error js m = Some j /\ nth_error is m = Some i /\ (forall k', nth_error l k' = Some v -> (k <= k')%nat)).
      { intros m v k H. assert (Hin := nth_error_In _ _ H). apply np_unique_in in Hin as [H1 H2].
        unfold l in H1. rewrite nth_error_map in H1. destruct (nth_error hits k) as [[i j]|] eqn:Ek; [|discriminate].
        injection H1 as <-. exists i, j. split; [reflexivity|]. split; [reflexivity|].
        split; [rewrite Sj, nth_error_map, H; cbn [option_map snd]; rewrite nth_error_map, Ek; reflexivity|].
        split; [rewrite Si, nth_error_map, H; cbn [option_map snd]; rewrite nth_error_map, Ek; reflexivity | exact H2]. }
      assert (Uj : forall m j, nth_error js m = Some j -> exists k i, nth_error u m = Some (INR j, k) /\ nth_error hits k = Some (i, j) /\ nth_error is m = Some i /\ (forall k', nth_error l k' = Some (INR j) -> (k <= k')%nat)).
      { intros m j H. assert (Lm : (m < length u)%nat) by (rewrite <- Lj; eapply nth_error_Some_lt, H).
        apply nth_error_lt_Some in Lm as [[v k] Hu]. destruct (Pj m v k Hu) as (i & j' & Hk & Hv & Hj & Hi & Hmin).
        rewrite H in Hj. injection Hj as <-. subst v. exists k, i. auto. }
      assert (Uin : forall i j, In (i, j) hits -> In j js).
      { intros i j H. assert (Hl : exists k, nth_error l k = Some (INR j)).
        { apply In_nth_error in H as [k H]. exists k. unfold l. rewrite nth_error_map, H. reflexivity. }
        destruct Hl as [k Hk]. destruct (first_occurrence l k (INR j) Hk) as (k0 & H0 & _ & Hmin).
        assert (Hu : In (INR j, k0) u) by (apply np_unique_in; auto).
        apply In_nth_error in Hu as [m Hu]. destruct (Pj m _ _ Hu) as (i' & j' & _ & Hv & Hj & _).
        apply INR_eq in Hv. subst j'. eapply nth_error_In, Hj. }
      split; [lia|]. split.
      { destruct hits as [|[i j] hs] eqn:Eh; [discriminate|]. intro N. specialize (Uin i j (or_introl eq_refl)). rewrite N in Uin. destruct Uin. }
      split.
      { apply StronglySorted_nth. intros a b x y Hab Hx Hy.
        destruct (Uj a x Hx) as (k & i & Hu & _). destruct (Uj b y Hy) as (k' & i' & Hu' & _).
        pose proof (np_unique_sorted l) as S. fold u in S. rewrite StronglySorted_nth in S.
        specialize (S a b _ _ Hab Hu Hu'). unfold val_lt in S. cbn in S. apply INR_lt, S. }
      split.
      { intros m i j Hi Hj. destruct (Uj m j Hj) as (k & i' & Hu & Hk & Hi' & Hmin). rewrite Hi in Hi'. injection Hi' as <-.
        assert (Hin := nth_error_In _ _ Hk). apply hits_in in Hin as (p & Hp & Hr). exists p.
        split; [exact Hp|]. split; [apply reported_nearest; assumption|]. split; [exact Hr|].
        intros i'' p' Hlt Hp' Hr'. assert (In (i'', j) hits) by (apply hits_in; eauto).
        apply In_nth_error in H as [k'' Hk'']. assert (k <= k'')%nat by (apply Hmin; unfold l; rewrite nth_error_map, Hk''; reflexivity).
        destruct (Nat.eq_dec k k'') as [->|Nk]; [rewrite Hk in Hk''; injection Hk'' as ->; lia|].
        pose proof (hits_sorted ref test max) as S. fold hits in S. rewrite StronglySorted_nth in S.
        assert (k < k'')%nat by lia. specialize (S k k'' _ _ H0 Hk Hk''). cbn in S. lia. }
      { intros p j Hp Hr. apply In_nth_error in Hp as [i Hi]. apply (Uin i j). apply hits_in. eauto. }
  Qed.
End KdFacts.
