(** Facts about the cache of lines. *)
From Verif Require Import Base BaseFacts VecFacts NumpyModel NumpyFacts GeomModel MatchModel MatchSpec ApproxModel ApproxSpec ApproxFacts2 VoxModel CacheModel CacheSpec.
From Verif Require GeomFacts LawProps EvalFacts ClockFacts ApproxProps VoxProps.

(** ** A line does not depend on the order of its points. *)
Lemma vsum_perm l l' : Permutation l l' -> vsum l = vsum l'.
Proof.
  unfold vsum. induction 1 as [| x l l' H IH | x y l | l1 l2 l3 H1 IH1 H2 IH2]; cbn; [reflexivity|rewrite IH; reflexivity| |congruence].
  unfold vadd. cbn. f_equal; ring.
Qed.
Lemma msum_perm l l' : Permutation l l' -> msum l = msum l'.
Proof.
  unfold msum. induction 1 as [| x l l' H IH | x y l | l1 l2 l3 H1 IH1 H2 IH2]; cbn [fold_right]; [reflexivity|rewrite IH; reflexivity| |congruence].
  rewrite <- !GeomFacts.madd_assoc, (GeomFacts.madd_comm y x). reflexivity.
Qed.
Lemma line_perm eigh l l' : Permutation l l' -> line_of_points eigh l = line_of_points eigh l'.
Proof.
  intro P. unfold line_of_points, from_points. assert (M : vmean l = vmean l') by (unfold vmean; rewrite (Permutation_length P), (vsum_perm l l' P); reflexivity).
  assert (C : covariance l = covariance l').
  { unfold covariance. rewrite M, (Permutation_length P). f_equal. apply msum_perm, Permutation_map, P. }
  rewrite M, C, (Permutation_length P). reflexivity.
Qed.

(** ** Sets of names *)
Lemma existsb_name x l : existsb (String.eqb x) l = true <-> In x l.
Proof.
  rewrite existsb_exists. split; [intros (y & I & E); apply String.eqb_eq in E; subst; exact I|]. intro I. exists x. split; [exact I|apply String.eqb_refl].
Qed.
Lemma same_set_true a b : same_set a b = true <-> forall x, In x a <-> In x b.
Proof.
  unfold same_set. rewrite andb_true_iff, !forallb_forall. split.
  - intros [A B] x. split; intro I; [apply existsb_name, A, I|apply existsb_name, B, I].
  - intro H. split; intros x I; apply existsb_name, H, I.
Qed.
Lemma nodup_names_inj (vs : voxel_dict) e e' : NoDup (map fst vs) -> In e vs -> In e' vs -> fst e = fst e' -> e = e'.
Proof.
  induction vs as [|v vs IH]; [intros _ []|]. cbn. intros N [->|I] [->|J] E; [reflexivity| | |].
  - inversion N as [|x l N1 N2]; subst. exfalso. apply N1. rewrite E. apply in_map, J.
  - inversion N as [|x l N1 N2]; subst. exfalso. apply N1. rewrite <- E. apply in_map, I.
  - inversion N as [|x l N1 N2]; subst. apply IH; assumption.
Qed.
Lemma nodup_fst {A B} (l : list (A * B)) : NoDup (map fst l) -> NoDup l.
Proof. apply NoDup_map_inv. Qed.
Lemma same_names_perm (vs es es' : voxel_dict) : NoDup (map fst vs) -> incl es vs -> incl es' vs -> NoDup (map fst es) -> NoDup (map fst es') ->
  (forall x, In x (map fst es) <-> In x (map fst es')) -> Permutation es es'.
Proof.
  intros N I I' D D' S. apply NoDup_Permutation; [apply nodup_fst, D|apply nodup_fst, D'|].
  intro e. split; intro J.
  - assert (X : In (fst e) (map fst es')) by (apply S, in_map, J). apply in_map_iff in X as (e' & E & J'). rewrite (nodup_names_inj vs e e' N (I e J) (I' e' J')); [exact J'|]. congruence.
  - assert (X : In (fst e) (map fst es)) by (apply S, in_map, J). apply in_map_iff in X as (e' & E & J'). rewrite (nodup_names_inj vs e e' N (I' e J) (I e' J')); [exact J'|]. congruence.
Qed.
Lemma concat_perm {A} (l l' : list (list A)) : Permutation l l' -> Permutation (concat l) (concat l').
Proof.
  induction 1 as [| x l l' H IH | x y l | l1 l2 l3 H1 IH1 H2 IH2]; cbn; [constructor|apply Permutation_app_head, IH| |etransitivity; eassumption].
  rewrite !app_assoc. apply Permutation_app_tail, Permutation_app_comm.
Qed.
Lemma mapM_points vs es : NoDup (map fst vs) -> incl es vs -> mapM (voxel_points vs) (map fst es) = Ok (map snd es).
Proof.
  intros N. induction es as [|[id ps] es IH]; intro I; [reflexivity|]. cbn. rewrite (VoxProps.voxel_points_ok vs id ps N (I _ (or_introl eq_refl))). cbn.
  rewrite IH; [reflexivity|]. intros x J. apply I. right. exact J.
Qed.

Lemma np_get_nat_inv {A} (l : list A) j a : np_get l (Z.of_nat j) = Ok a -> nth_error l j = Some a.
Proof.
  intro H. destruct (nth_error l j) as [b|] eqn:E; [apply np_get_nat in E; congruence|]. exfalso. apply nth_error_None in E.
  assert (X : exists b, np_get l (Z.of_nat j) = Ok b) by eauto. apply np_get_in_range in X. lia.
Qed.

Section Facts.
  Variable query : list V3 -> option R -> nat -> V3 -> list (option (nat * R)).
  Variable eigh : M3 -> V3.
  Variable fresh : list nat -> nat.
  Variable iterate : list string -> list string.
  Hypothesis KN : knn_contract vdist query.
  Hypothesis FR : free_address fresh.
  Hypothesis IT : set_iteration iterate.

  Lemma iterated vs es : NoDup (map fst vs) -> incl es vs -> NoDup (map fst es) -> exists points, points_from_voxel_set vs (iterate (map fst es)) = Ok points /\ Permutation points (concat (map snd es)).
  Proof.
    intros N I D. destruct (IT (map fst es)) as [DI SI].
    assert (P : Permutation (iterate (map fst es)) (map fst es)) by (apply NoDup_Permutation; assumption).
    apply Permutation_map_inv in P as (es' & E & P). unfold points_from_voxel_set. rewrite E.
    rewrite mapM_points; [|exact N|intros x J; apply I, (Permutation_in _ (Permutation_sym P)), J]. eexists. split; [reflexivity|].
    apply concat_perm, Permutation_map. symmetry. exact P.
  Qed.

  (** What the cache holds is what would be computed. *)
  Definition right_entry (st : process) (e : nat * list string * option line3d) : Prop :=
    exists vs es, In (fst (fst e), vs) (objects st) /\ NoDup (map fst vs) /\ incl es vs /\ NoDup (map fst es) /\
      (forall x, In x (snd (fst e)) <-> In x (map fst es)) /\ snd e = line_of_points eigh (concat (map snd es)).
  Definition right_cache (st : process) : Prop := NoDup (map fst (objects st)) /\ Forall (right_entry st) (entries st).

  Lemma deref_in st a vs : NoDup (map fst (objects st)) -> In (a, vs) (objects st) -> deref st a = Ok vs.
  Proof.
    unfold deref. induction (objects st) as [|[b ws] l IH]; [intros _ []|]. cbn. intros N [E|I].
    - injection E as -> ->. rewrite Nat.eqb_refl. reflexivity.
    - inversion N as [|x r N1 N2]; subst. destruct (Nat.eqb_spec b a); [|apply IH; assumption]. subst. exfalso. apply N1. change a with (fst (a, vs)). apply in_map, I.
  Qed.
  Lemma object_unique st a vs ws : NoDup (map fst (objects st)) -> In (a, vs) (objects st) -> In (a, ws) (objects st) -> vs = ws.
  Proof. intros N I J. apply (deref_in st a vs N) in I. apply (deref_in st a ws N) in J. congruence. Qed.

  Lemma approximator st a vs es : right_cache st -> In (a, vs) (objects st) -> NoDup (map fst vs) -> incl es vs -> NoDup (map fst es) ->
    exists st', cached_line_approximator eigh iterate a (map fst es) st = (st', Ok (line_of_points eigh (concat (map snd es)))) /\
      right_cache st' /\ objects st' = objects st /\ incl (entries st) (entries st') /\ (exists e, In e (entries st') /\ fst (fst e) = a).
  Proof.
    intros [NO RE] I N ES D. unfold cached_line_approximator, cached. destruct (find _ (entries st)) as [[[b s] l]|] eqn:F; cbn [option_map snd].
    - apply find_some in F as [IE T]. cbn in T. apply andb_true_iff in T as [T1 T2]. apply Nat.eqb_eq in T1. subst b. rewrite same_set_true in T2.
      exists st. rewrite Forall_forall in RE. destruct (RE _ IE) as (ws & es' & IO & NW & ES' & D' & SM & L). cbn in *.
      pose proof (object_unique st a vs ws NO I IO) as <-. split.
      { rewrite L. f_equal. f_equal. apply line_perm, concat_perm, Permutation_map. apply (same_names_perm vs); try assumption. intro x. rewrite <- SM. apply T2. }
      split; [split; [exact NO|apply Forall_forall; exact RE]|]. split; [reflexivity|]. split; [apply incl_refl|]. exists (a, s, l). split; [exact IE|reflexivity].
    - rewrite (deref_in st a vs NO I). cbn [bind]. destruct (iterated vs es N ES D) as (points & E & P). rewrite E. eexists. split; [rewrite (line_perm eigh _ _ P); reflexivity|].
      assert (G : right_entry st (a, map fst es, line_of_points eigh (concat (map snd es)))).
      { exists vs, es. cbn. repeat split; try assumption; auto. }
      split; [split; [exact NO|]|]; cbn.
      { constructor; [exact G|exact RE]. }
      split; [reflexivity|]. split; [apply incl_tl, incl_refl|]. eexists. split; [left; reflexivity|reflexivity].
  Qed.

  Definition smoothed (p : V3) (es : voxel_dict) : V3 := match line_of_points eigh (concat (map snd es)) with Some l => evaluate_at l p | None => p end.
  Lemma smooth_rows a vs : NoDup (map fst vs) -> forall pts ess st, length pts = length ess -> Forall (fun es => incl es vs /\ NoDup (map fst es)) ess ->
    right_cache st -> In (a, vs) (objects st) ->
    exists st', smooth_all eigh iterate a (combine pts (map (map fst) ess)) st = (st', Ok (map (fun pe => smoothed (fst pe) (snd pe)) (combine pts ess))) /\
      right_cache st' /\ objects st' = objects st /\ incl (entries st) (entries st') /\ (pts <> [] -> exists e, In e (entries st') /\ fst (fst e) = a).
  Proof.
    intros N. induction pts as [|p pts IH]; intros [|es ess] st L F RC I; try discriminate.
    - exists st. cbn. split; [reflexivity|]. split; [exact RC|]. split; [reflexivity|]. split; [apply incl_refl|congruence].
    - apply Forall_cons_iff in F as [[ES D] F]. destruct (approximator st a vs es RC I N ES D) as (st1 & E1 & RC1 & O1 & I1 & X1). cbn [map combine smooth_all]. rewrite E1.
      destruct (IH ess st1) as (st2 & E2 & RC2 & O2 & I2 & X2); [cbn in L; lia|exact F|exact RC1|rewrite O1; exact I|].
      exists st2. rewrite E2. cbn. split; [reflexivity|]. split; [exact RC2|]. split; [congruence|]. split; [eapply incl_tran; eassumption|].
      intros _. destruct X1 as (e & J & A). exists e. split; [apply I2, J|exact A].
  Qed.

  (** The voxel of a row of the answer of the tree *)
  Definition row_voxel (vs : voxel_dict) (n : option (nat * R)) : result (string * list V3) :=
    match n with Some (j, _) => np_get vs (Z.of_nat j) | None => Err IndexError end.
  Definition voxels_of (vs : voxel_dict) (k : nat) (p : V3) : result voxel_dict :=
    if (k =? 1)%nat then Err TypeError else mapM (row_voxel vs) (query (mean_points vs) None k p).
  Lemma set_of vs k p : neighbour_set query vs k p = rmap (map fst) (voxels_of vs k p).
  Proof.
    unfold neighbour_set, voxels_of. destruct (k =? 1)%nat; [reflexivity|]. rewrite <- ClockFacts.mapM_rmap. apply EvalFacts.mapM_ext_in. intros [[j d]|] _; [|reflexivity].
    unfold index_to_id. rewrite EvalFacts.np_get_map. reflexivity.
  Qed.
  Lemma points_of vs k p : neighbour_points query vs (map (fun v => vmean (snd v)) vs) k p = rmap (fun es => concat (map snd es)) (voxels_of vs k p).
  Proof.
    unfold neighbour_points, voxels_of. destruct (k =? 1)%nat; [reflexivity|]. change (map (fun v => vmean (snd v)) vs) with (mean_points vs).
    rewrite (EvalFacts.mapM_ext_in _ (fun n => rmap snd (row_voxel vs n))).
    - rewrite ClockFacts.mapM_rmap. destruct (mapM (row_voxel vs) _); reflexivity.
    - intros [[j d]|] _; [|reflexivity]. cbn. rewrite EvalFacts.np_get_map. reflexivity.
  Qed.
  Lemma voxels_distinct vs k p es : NoDup (map fst vs) -> voxels_of vs k p = Ok es -> incl es vs /\ NoDup (map fst es).
  Proof.
    intros N E. unfold voxels_of in E. destruct (k =? 1)%nat; [discriminate|]. split.
    - intros e I. apply In_nth_error in I as (i & I). pose proof (mapM_nth_error _ _ _ i E) as M. destruct (nth_error (query (mean_points vs) None k p) i) as [n|]; [|congruence].
      destruct M as (b & RB & NB). rewrite I in NB. injection NB as <-. destruct n as [[j d]|]; [|discriminate]. cbn in RB. exact (EvalFacts.np_get_in _ _ _ RB).
    - apply NoDup_nth_error. intros i i' L EQ. rewrite map_length in L. rewrite !nth_error_map in EQ.
      destruct (nth_error es i) as [e|] eqn:I; [|apply nth_error_None in I; lia]. destruct (nth_error es i') as [e'|] eqn:I'; [|discriminate]. cbn in EQ. injection EQ as EQ.
      pose proof (mapM_nth_error _ _ _ i E) as M. pose proof (mapM_nth_error _ _ _ i' E) as M'.
      destruct (nth_error (query (mean_points vs) None k p) i) as [n|] eqn:Q; [|congruence]. destruct (nth_error (query (mean_points vs) None k p) i') as [n'|] eqn:Q'; [|congruence].
      destruct M as (b & RB & NB). rewrite I in NB. injection NB as <-. destruct M' as (b & RB' & NB). rewrite I' in NB. injection NB as <-.
      destruct n as [[j d]|]; [|discriminate]. destruct n' as [[j' d']|]; [|discriminate]. cbn in RB, RB'. apply np_get_nat_inv in RB. apply np_get_nat_inv in RB'.
      assert (j = j') as <-.
      { assert (NN := N). rewrite NoDup_nth_error in NN. apply NN; [rewrite map_length; apply nth_error_Some; congruence|]. rewrite !nth_error_map, RB, RB'. cbn. congruence. }
      exact (knn_distinct vdist query KN (mean_points vs) None k p i i' j d d' Logic.I Q Q').
  Qed.

  Lemma smooth_point_of vs k p : smooth_point query eigh vs (map (fun v => vmean (snd v)) vs) k p = rmap (smoothed p) (voxels_of vs k p).
  Proof. unfold smooth_point. rewrite points_of. destruct (voxels_of vs k p) as [es|e]; cbn [bind rmap]; [|reflexivity]. unfold smoothed, line_of_points. destruct (1 <? length (concat (map snd es)))%nat; reflexivity. Qed.
  Lemma mapM_smooth vs k pts ess : mapM (voxels_of vs k) pts = Ok ess ->
    mapM (smooth_point query eigh vs (map (fun v => vmean (snd v)) vs) k) pts = Ok (map (fun pe => smoothed (fst pe) (snd pe)) (combine pts ess)).
  Proof.
    revert ess. induction pts as [|p pts IH]; intros ess E; [injection E as <-; reflexivity|]. cbn in E. apply bind_ok in E as (es & E1 & E). apply bind_ok in E as (r & E2 & E). injection E as <-.
    cbn. rewrite smooth_point_of, E1. cbn. rewrite (IH r E2). reflexivity.
  Qed.
  Lemma mapM_smooth_err vs k pts e : mapM (voxels_of vs k) pts = Err e -> mapM (smooth_point query eigh vs (map (fun v => vmean (snd v)) vs) k) pts = Err e.
  Proof.
    induction pts as [|p pts IH]; [discriminate|]. cbn. rewrite smooth_point_of. destruct (voxels_of vs k p) as [es|x]; cbn; [|intro H; injection H as <-; reflexivity].
    destruct (mapM (voxels_of vs k) pts) as [r|x] eqn:E; [discriminate|]. cbn. intro H. injection H as ->. rewrite (IH eq_refl). reflexivity.
  Qed.

  Lemma right_release a st : right_cache st -> right_cache (release a st).
  Proof.
    intros [N F]. split; cbn.
    - clear F. induction (objects st) as [|o l IH]; [constructor|]. cbn in N. inversion N as [|x r N1 N2]; subst. cbn [filter]. destruct (negb _ || _); [|apply IH, N2]. cbn. constructor; [|apply IH, N2].
      intro I. apply N1. apply in_map_iff in I as (o' & E & I). apply filter_In in I as [I _]. apply in_map_iff. exists o'. split; assumption.
    - rewrite Forall_forall in *. intros e I. destruct (F e I) as (vs & es & IO & R). exists vs, es. split; [|exact R]. cbn. apply filter_In. split; [exact IO|]. cbn.
      destruct (Nat.eqb_spec (fst (fst e)) a); [|reflexivity]. cbn. apply existsb_exists. exists e. split; [exact I|]. apply Nat.eqb_eq. assumption.
  Qed.

  (** A step leaves everything in the cache, and what it refers to. *)
  Definition grows (n : nat) (st st' : process) : Prop :=
    incl (entries st) (entries st') /\ exists new, length new = n /\ NoDup new /\ (forall a, In a new -> ~ In a (map (fun e => fst (fst e)) (entries st)) /\ In a (map (fun e => fst (fst e)) (entries st'))).

  Lemma single_cached pts size k st : right_cache st ->
    exists st', mls_single_cached query eigh fresh iterate pts size k st = (st', mls_single query eigh pts size k) /\ right_cache st' /\
      grows (if match mls_single query eigh pts size k with Ok _ => true | Err _ => false end then 1 else 0) st st'.
  Proof.
    intros RC. assert (G0 : forall s, entries s = entries st -> grows 0 st s).
    { intros s E. split; [rewrite E; apply incl_refl|]. exists []. split; [reflexivity|]. split; [constructor|intros a []]. }
    unfold mls_single_cached, mls_single. destruct (create_voxels pts size) as [vs|e] eqn:V; [|exists st; split; [reflexivity|split; [exact RC|apply G0; reflexivity]]].
    cbn [bind]. destruct (ApproxProps.C53_partition pts size vs V) as (N & _).
    set (a := fresh (map fst (objects st))). set (st1 := mkProcess ((a, vs) :: objects st) (entries st)).
    assert (RC1 : right_cache st1).
    { destruct RC as [NO F]. split; cbn; [constructor; [apply FR|exact NO]|]. rewrite Forall_forall in *. intros e I. destruct (F e I) as (ws & es & IO & R). exists ws, es. split; [right; exact IO|exact R]. }
    assert (S1 : mapM (neighbour_set query vs k) pts = rmap (map (map fst)) (mapM (voxels_of vs k) pts)).
    { rewrite <- ClockFacts.mapM_rmap. apply EvalFacts.mapM_ext_in. intros p _. apply set_of. }
    rewrite S1. destruct (mapM (voxels_of vs k) pts) as [ess|e] eqn:M; cbn [rmap].
    - assert (L : length pts = length ess) by (apply mapM_length in M; congruence).
      assert (F : Forall (fun es => incl es vs /\ NoDup (map fst es)) ess).
      { rewrite Forall_forall. intros es I. apply In_nth_error in I as (i & I). pose proof (mapM_nth_error _ _ _ i M) as X. destruct (nth_error pts i) as [p|]; [|pose proof (eq_trans (eq_sym X) I); discriminate].
        destruct X as (b & E & B). pose proof (eq_trans (eq_sym B) I) as Y. injection Y as ->. exact (voxels_distinct vs k p es N E). }
      destruct (smooth_rows a vs N pts ess st1 L F RC1 (or_introl eq_refl)) as (st2 & E2 & RC2 & O2 & I2 & X2). rewrite E2, (mapM_smooth vs k pts ess M). cbn.
      exists (release a st2). split; [reflexivity|]. split; [apply right_release, RC2|]. split; [exact I2|]. exists [a]. split; [reflexivity|]. split; [constructor; [intros []|constructor]|].
      intros b [<-|[]]. split.
      + intro I. apply in_map_iff in I as (e & E & I). destruct RC as [NO F0]. rewrite Forall_forall in F0. destruct (F0 e I) as (ws & es & IO & _). rewrite E in IO. apply (FR (map fst (objects st))). fold a. change a with (fst (a, ws)). apply in_map, IO.
      + destruct X2 as (e & IE & A); [|apply in_map_iff; exists e; split; [exact A|exact IE]]. intros ->. discriminate.
    - rewrite (mapM_smooth_err vs k pts e M). cbn. exists (release a st1). split; [reflexivity|]. split; [apply right_release, RC1|apply G0; reflexivity].
  Qed.

  Lemma grows_trans n m st st1 st2 : grows n st st1 -> grows m st1 st2 -> grows (n + m) st st2.
  Proof.
    intros (I1 & l1 & L1 & N1 & P1) (I2 & l2 & L2 & N2 & P2). split; [eapply incl_tran; eassumption|]. exists (l1 ++ l2). split; [rewrite app_length; congruence|]. split.
    - apply VoxProps.NoDup_app'; [exact N1|exact N2|]. intros a A B. destruct (P1 a A) as [_ X]. destruct (P2 a B) as [Y _]. contradiction.
    - intros a A. apply in_app_or in A as [A|A].
      + destruct (P1 a A) as [X Y]. split; [exact X|]. apply in_map_iff in Y as (e & E & Y). apply in_map_iff. exists e. split; [exact E|apply I2, Y].
      + destruct (P2 a A) as [X Y]. split; [|exact Y]. intro B. apply X. apply in_map_iff in B as (e & E & B). apply in_map_iff. exists e. split; [exact E|apply I1, B].
  Qed.
  Lemma grows_less n m st st' : (m <= n)%nat -> grows n st st' -> grows m st st'.
  Proof.
    intros L (I & l & LL & N & P). split; [exact I|]. exists (firstn m l). split; [rewrite firstn_length; lia|]. split.
    - rewrite <- (firstn_skipn m l) in N. exact (LawProps.NoDup_left _ _ N).
    - intros a A. apply P. rewrite <- (firstn_skipn m l). apply in_or_app. left. exact A.
  Qed.

  Definition succeeded {A} (r : result A) : nat := match r with Ok _ => 1 | Err _ => 0 end.
  Lemma loop_cached size k th n : forall pts st, right_cache st ->
    exists st', mls_loop_cached query eigh fresh iterate n pts size k th st = (st', mls_loop query eigh n pts size k th) /\ right_cache st' /\
      grows (match n with O => 0 | S _ => succeeded (mls_loop query eigh n pts size k th) end) st st'.
  Proof.
    assert (G0 : forall st, grows 0 st st).
    { intro st. split; [apply incl_refl|]. exists []. split; [reflexivity|]. split; [constructor|intros a []]. }
    induction n as [|n IH]; intros pts st RC; [exists st; cbn; split; [reflexivity|split; [exact RC|apply G0]]|].
    cbn [mls_loop_cached mls_loop]. destruct (single_cached pts size k st RC) as (st1 & E & RC1 & G). rewrite E. destruct (mls_single query eigh pts size k) as [[out mv]|e]; cbn [bind].
    - destruct (Rltb th mv).
      + destruct (IH out st1 RC1) as (st2 & E2 & RC2 & G2). rewrite E2. exists st2. split; [reflexivity|]. split; [exact RC2|].
        refine (grows_less _ _ _ _ _ (grows_trans _ _ _ _ _ G G2)). destruct (mls_loop query eigh n out size k th); cbn; lia.
      + exists st1. split; [reflexivity|]. split; [exact RC1|exact G].
    - exists st1. split; [reflexivity|]. split; [exact RC1|exact G].
  Qed.

  Definition smoothing_of (c : smoothing_call) : result (list V3) := mls_iterative query eigh (c_points c) (c_size c) (c_nearest c) (c_threshold c).
  Lemma calls_cached calls : forall st, right_cache st ->
    exists st', smoothing_calls query eigh fresh iterate calls st = (st', map smoothing_of calls) /\ right_cache st' /\
      grows (list_sum (map (fun c => succeeded (smoothing_of c)) calls)) st st'.
  Proof.
    induction calls as [|c calls IH]; intros st RC.
    - exists st. split; [reflexivity|]. split; [exact RC|]. split; [apply incl_refl|]. exists []. split; [reflexivity|]. split; [constructor|intros a []].
    - cbn [smoothing_calls]. unfold mls_iterative_cached. destruct (loop_cached (c_size c) (c_nearest c) (c_threshold c) 10 (c_points c) st RC) as (st1 & E1 & RC1 & G1). rewrite E1.
      destruct (IH st1 RC1) as (st2 & E2 & RC2 & G2). rewrite E2. exists st2. split; [reflexivity|]. split; [exact RC2|]. exact (grows_trans _ _ _ _ _ G1 G2).
  Qed.
  Lemma started_right : right_cache started.
  Proof. split; constructor. Qed.

  (** The objects in memory *)
  Lemma grows_objects n st : right_cache st -> grows n started st -> (n <= length (objects st))%nat.
  Proof.
    intros [N F] (_ & l & L & NL & P). rewrite <- L. rewrite <- (map_length fst (objects st)). apply NoDup_incl_length; [exact NL|]. intros a A.
    destruct (P a A) as [_ X]. apply in_map_iff in X as (e & E & I). rewrite Forall_forall in F. destruct (F e I) as (vs & es & IO & _). rewrite E in IO. change a with (fst (a, vs)). apply in_map, IO.
  Qed.
End Facts.
