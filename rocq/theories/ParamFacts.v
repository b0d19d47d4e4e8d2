(** Lemmas about parameter sets. *)
From Verif Require Import Base BaseFacts NumpyModel NumpyFacts EvalModel ParamModel ParamSpec.

Definition live (enabled_only : bool) (p : param) : bool := negb (negb (p_enabled p) && enabled_only).

Lemma ps_get_all s k : ps_get s k false = map (key_get k) (ps_params s).
Proof.
  unfold ps_get. f_equal. apply filter_true. intros p _. destruct (p_enabled p); reflexivity.
Qed.
Lemma ps_len_eq s : ps_len s = length (ps_params s).
Proof. unfold ps_len, values. now rewrite ps_get_all, map_length. Qed.
Lemma ps_get_enabled s k : ps_get s k true = map (key_get k) (filter p_enabled (ps_params s)).
Proof. unfold ps_get. f_equal. apply filter_ext. intro p. now destruct (p_enabled p). Qed.
Lemma num_enabled_eq s : num_enabled s = length (filter p_enabled (ps_params s)).
Proof. unfold num_enabled, values_enabled. now rewrite ps_get_enabled, map_length. Qed.

(** ** The setting loop *)
Lemma set_loop_ok k eo l vals :
  length vals = length (filter (live eo) l) -> exists l', set_loop k eo l vals = Ok l'.
Proof.
  revert vals; induction l as [|p l IH]; intros vals H; cbn [set_loop]; [eauto|].
  cbn [filter] in H. unfold live in H at 1.
  destruct (negb (p_enabled p) && eo)%bool; cbn [negb] in H.
  - destruct (IH vals H) as [l' E]. rewrite E. cbn. eauto.
  - destruct vals as [|v vs]; [discriminate|]. injection H as H.
    destruct (IH vs H) as [l' E]. rewrite E. cbn. eauto.
Qed.

Definition assigned (k : key) (eo : bool) (p p' : param) : Prop :=
  if live eo p then exists v, p' = key_set k v p else p' = p.

Lemma set_loop_spec k eo l vals l' :
  length vals = length (filter (live eo) l) -> set_loop k eo l vals = Ok l' ->
  Forall2 (assigned k eo) l l' /\
  Forall2 (fun p v => p = key_set k v p) (filter (live eo) l') vals.
Proof.
  revert vals l'; induction l as [|p l IH]; intros vals l' HL H; cbn [set_loop] in H.
  - injection H as <-. destruct vals; [|discriminate]. split; constructor.
  - cbn [filter] in HL. unfold live in HL at 1. unfold assigned.
    destruct (negb (p_enabled p) && eo)%bool eqn:E; cbn [negb] in HL.
    + apply bind_ok in H as [r [Hr H]]. injection H as <-.
      destruct (IH _ _ HL Hr) as [A B]. split.
      * constructor; [|exact A]. unfold live. rewrite E. reflexivity.
      * cbn [filter]. unfold live at 1. rewrite E. exact B.
    + destruct vals as [|v vs]; [discriminate|]. injection HL as HL.
      apply bind_ok in H as [r [Hr H]]. injection H as <-.
      destruct (IH _ _ HL Hr) as [A B]. split.
      * constructor; [|exact A]. unfold live. rewrite E. cbn. eauto.
      * cbn [filter]. unfold live at 1.
        replace (p_enabled (key_set k v p)) with (p_enabled p) by (destruct k; reflexivity).
        rewrite E. constructor; [|exact B]. destruct k; reflexivity.
Qed.

Lemma filter_live_false l : filter (live false) l = l.
Proof. apply filter_true. intros p _. unfold live. now destruct (p_enabled p). Qed.
Lemma filter_live_true l : filter (live true) l = filter p_enabled l.
Proof. apply filter_ext. intro p. unfold live. now destruct (p_enabled p). Qed.

Definition targets (eo : bool) (s : pset) : nat := length (filter (live eo) (ps_params s)).

Lemma ps_set_ok s vals k eo :
  length vals = targets eo s -> exists l, ps_set s vals k eo = Ok (ps_set_params s l) /\
    set_loop k eo (ps_params s) vals = Ok l.
Proof.
  intro H. unfold ps_set. unfold targets in H.
  destruct (set_loop_ok k eo (ps_params s) vals H) as [l E].
  exists l. rewrite E. split; [|reflexivity]. destruct eo.
  - rewrite filter_live_true, <- num_enabled_eq in H. rewrite <- H, Nat.eqb_refl. cbn.
    rewrite Bool.andb_false_r. reflexivity.
  - rewrite filter_live_false, <- ps_len_eq in H. rewrite <- H, Nat.eqb_refl. cbn.
    rewrite Bool.andb_false_r. reflexivity.
Qed.
Lemma ps_set_bad s vals k eo : length vals <> targets eo s -> ps_set s vals k eo = Err ValueError.
Proof.
  unfold ps_set, targets. intro H. destruct eo.
  - rewrite filter_live_true, <- num_enabled_eq in H.
    destruct (Nat.eqb_spec (num_enabled s) (length vals)) as [E|E]; [congruence|reflexivity].
  - rewrite filter_live_false, <- ps_len_eq in H. rewrite Bool.andb_false_r.
    destruct (Nat.eqb_spec (ps_len s) (length vals)) as [E|E]; [congruence|reflexivity].
Qed.
Lemma ps_set_inv s vals k eo s' : ps_set s vals k eo = Ok s' ->
  length vals = targets eo s /\ ps_cov s' = ps_cov s /\ ps_enabled s' = ps_enabled s /\
  Forall2 (assigned k eo) (ps_params s) (ps_params s') /\
  Forall2 (fun p v => p = key_set k v p) (filter (live eo) (ps_params s')) vals.
Proof.
  intro H. destruct (Nat.eq_dec (length vals) (targets eo s)) as [E|E].
  - destruct (ps_set_ok s vals k eo E) as [l [A B]]. rewrite H in A. injection A as ->.
    cbn. destruct (set_loop_spec _ _ _ _ _ E B). auto.
  - rewrite (ps_set_bad _ _ _ _ E) in H. discriminate.
Qed.

Lemma targets_enabled s : targets true s = num_enabled s.
Proof. unfold targets. now rewrite filter_live_true, num_enabled_eq. Qed.
Lemma targets_all s : targets false s = ps_len s.
Proof. unfold targets. now rewrite filter_live_false, ps_len_eq. Qed.

Lemma Forall2_map_eq {A B C} (f : A -> C) (g : B -> C) l l' :
  Forall2 (fun a b => f a = g b) l l' -> map f l = map g l'.
Proof. induction 1; cbn; congruence. Qed.
Lemma Forall2_nth {A B} (P : A -> B -> Prop) l l' i a b :
  Forall2 P l l' -> nth_error l i = Some a -> nth_error l' i = Some b -> P a b.
Proof.
  intro H; revert i; induction H as [|x y l l' Hxy _ IH]; intros [|i]; cbn; try discriminate.
  - congruence.
  - apply IH.
Qed.
Lemma Forall2_impl {A B} (P Q : A -> B -> Prop) :
  (forall a b, P a b -> Q a b) -> forall l l', Forall2 P l l' -> Forall2 Q l l'.
Proof. intros H l l' F; induction F; constructor; auto. Qed.
Lemma Forall2_len {A B} (P : A -> B -> Prop) l l' : Forall2 P l l' -> length l = length l'.
Proof. induction 1; cbn; congruence. Qed.

Lemma assigned_enabled k eo l l' :
  Forall2 (assigned k eo) l l' -> map p_enabled l' = map p_enabled l.
Proof.
  intro H. symmetry. apply Forall2_map_eq. revert H. apply Forall2_impl. intros p p' H.
  unfold assigned in H. destruct (live eo p); [destruct H as [v ->]; destruct k|subst]; reflexivity.
Qed.

Lemma values_read_back k l vals :
  (forall p, In p l -> p_enabled p = true) -> Forall2 (fun p v => p = key_set k v p) l vals -> map (key_get k) l = vals.
Proof.
  intros HE H. induction H as [|p v l vs Hp _ IH]; cbn; [reflexivity|].
  f_equal; [|apply IH; intros; apply HE; now right].
  specialize (HE p (or_introl eq_refl)). rewrite Hp. destruct k; cbn; unfold p_value, p_variance; cbn; now rewrite HE.
Qed.

Lemma enabled_read_back s vals k s' :
  ps_set s vals k true = Ok s' -> ps_get s' k true = vals.
Proof.
  intro H. apply ps_set_inv in H as [_ [_ [_ [_ H]]]]. rewrite ps_get_enabled.
  rewrite filter_live_true in H. apply values_read_back; [|exact H].
  intros p Hp. now apply filter_In in Hp.
Qed.

(** ** Positions of the enabled parameters *)
Lemma filter_enum_gen (m : list bool) s :
  map fst (filter (fun ib : nat * bool => snd ib) (combine (seq s (length m)) m))
  = match m with
    | [] => []
    | b :: r => (if b then [s] else []) ++ map fst (filter (fun ib : nat * bool => snd ib) (combine (seq (S s) (length r)) r))
    end.
Proof. destruct m as [|[|] m]; reflexivity. Qed.

Lemma enabled_indices_shift (m : list bool) s :
  map fst (filter (fun ib : nat * bool => snd ib) (combine (seq s (length m)) m))
  = map (Nat.add s) (map fst (filter (fun ib : nat * bool => snd ib) (enumerate m))).
Proof.
  unfold enumerate. revert s. induction m as [|b m IH]; intro s; [reflexivity|].
  rewrite filter_enum_gen, (filter_enum_gen _ 0), map_app, (IH (S s)), (IH 1%nat), !map_map.
  f_equal; [destruct b; cbn; [f_equal; lia|reflexivity]|]. apply map_ext. intro; cbn; lia.
Qed.

Definition true_positions (m : list bool) : list nat := map fst (filter (fun ib : nat * bool => snd ib) (enumerate m)).

Lemma true_positions_cons b m :
  true_positions (b :: m) = (if b then [0%nat] else []) ++ map S (true_positions m).
Proof.
  unfold true_positions at 1, enumerate. rewrite filter_enum_gen, enabled_indices_shift.
  reflexivity.
Qed.

Lemma true_positions_nth m a i : nth_error (true_positions m) a = Some i <-> nth_true m a i.
Proof.
  unfold nth_true. revert a i; induction m as [|b m IH]; intros a i.
  - cbn. split; [destruct a; discriminate|]. intros [H _]. destruct i; discriminate.
  - rewrite true_positions_cons. destruct b; cbn [app].
    + destruct a as [|a].
      * cbn. split; [intros [= <-]; auto|]. intros [H C]. destruct i as [|i]; [reflexivity|].
        cbn in C. unfold count_true, count in C. cbn in C. discriminate.
      * cbn [nth_error]. rewrite nth_error_map'. destruct (nth_error (true_positions m) a) as [j|] eqn:E; cbn.
        -- apply IH in E as [E1 E2]. split.
           ++ intros [= <-]. cbn. split; [exact E1|]. unfold count_true, count in *. cbn. now rewrite E2.
           ++ intros [H C]. destruct i as [|i]; [discriminate|]. cbn in H. f_equal. f_equal.
              unfold count_true, count in C. cbn in C. injection C as C.
              assert (nth_error (true_positions m) a = Some i) as X.
              { apply IH. split; assumption. }
              assert (nth_error (true_positions m) a = Some j) as Y by (apply IH; split; assumption).
              congruence.
        -- split; [discriminate|]. intros [H C]. destruct i as [|i]; [discriminate|].
           cbn in H. unfold count_true, count in C. cbn in C. injection C as C.
           assert (nth_error (true_positions m) a = Some i) as X by (apply IH; split; assumption).
           congruence.
    + rewrite nth_error_map'. destruct (nth_error (true_positions m) a) as [j|] eqn:E; cbn.
      * assert (E' := E). apply IH in E' as [E1 E2]. split.
        -- intros [= <-]. cbn. split; [exact E1|exact E2].
        -- intros [H C]. destruct i as [|i]; [discriminate|]. cbn in H, C.
           assert (nth_error (true_positions m) a = Some i) as X by (apply IH; split; [exact H|exact C]). congruence.
      * split; [discriminate|]. intros [H C]. destruct i as [|i]; [discriminate|]. cbn in H, C.
        assert (nth_error (true_positions m) a = Some i) as X by (apply IH; split; [exact H|exact C]). congruence.
Qed.

Lemma true_positions_length m : length (true_positions m) = count_true m.
Proof.
  induction m as [|b m IH]; [reflexivity|].
  rewrite true_positions_cons, app_length, map_length, IH. unfold count_true, count. destruct b; reflexivity.
Qed.
Lemma true_positions_NoDup m : NoDup (true_positions m).
Proof.
  induction m as [|b m IH]; [constructor|]. rewrite true_positions_cons.
  assert (NoDup (map S (true_positions m))) as H by (apply FinFun.Injective_map_NoDup; [intros x y; congruence|exact IH]).
  destruct b; cbn [app]; [|exact H]. constructor; [|exact H].
  rewrite in_map_iff. intros [x [X _]]. discriminate.
Qed.
Lemma true_positions_lt m i : In i (true_positions m) -> (i < length m)%nat.
Proof.
  intro H. apply In_nth_error in H as [a H]. apply true_positions_nth in H as [H _]. now apply nth_error_Some_lt in H.
Qed.
Lemma true_positions_In m i : In i (true_positions m) <-> nth_error m i = Some true.
Proof.
  split.
  - intro H. apply In_nth_error in H as [a H]. now apply true_positions_nth in H as [H _].
  - intro H. eapply nth_error_In. apply true_positions_nth. split; [exact H|reflexivity].
Qed.

Lemma index_of_spec l i a : NoDup l -> (index_of i l = Some a <-> nth_error l a = Some i).
Proof.
  intro ND. revert a; induction l as [|j l IH]; intro a; cbn.
  - destruct a; split; discriminate.
  - inversion ND as [|? ? NI ND']; subst. destruct (Nat.eqb_spec i j) as [->|E].
    + destruct a as [|a]; cbn; split; try congruence.
      * intro H. apply nth_error_In in H. contradiction.
    + destruct (index_of i l) as [b|] eqn:X; cbn; destruct a as [|a]; cbn; split; try congruence.
      * intros [= <-]. now apply IH.
      * intro H. apply (IH ND') in H. congruence.
      * intro H. apply (IH ND') in H. congruence.
Qed.
Lemma index_of_None l i : index_of i l = None <-> ~ In i l.
Proof.
  induction l as [|j l IH]; cbn; [tauto|]. destruct (Nat.eqb_spec i j) as [->|E].
  - split; [discriminate|]. intro H. exfalso. auto.
  - destruct (index_of i l) as [a|]; cbn.
    + split; [discriminate|]. intro H. exfalso. assert (~ In i l) as X by tauto. apply IH in X. discriminate.
    + split; [|reflexivity]. intros _ [H|H]; [congruence|]. now apply IH.
Qed.

Lemma enabled_indices_eq s : enabled_indices s = true_positions (enabled_bool_list s).
Proof. reflexivity. Qed.
Lemma count_true_filter l : count_true (map p_enabled l) = length (filter p_enabled l).
Proof. unfold count_true, count. now rewrite filter_map, map_length. Qed.
Lemma num_enabled_count s : num_enabled s = count_true (enabled_bool_list s).
Proof. unfold enabled_bool_list. now rewrite count_true_filter, num_enabled_eq. Qed.

Lemma indices_in_range s i : In i (enabled_indices s) -> (i < ps_len s)%nat.
Proof.
  rewrite enabled_indices_eq, ps_len_eq. intro H. apply true_positions_lt in H.
  unfold enabled_bool_list in H. now rewrite map_length in H.
Qed.
Lemma range_test m idx n : square_of n m -> (forall i, In i idx -> (i < n)%nat) ->
  forallb (fun i => (i <? m_rows m)%nat && (i <? m_cols m)%nat)%bool idx = true.
Proof.
  intros [-> ->] H. apply forallb_forall. intros i Hi. apply H in Hi. apply Nat.ltb_lt in Hi. now rewrite Hi.
Qed.

Lemma get_covariance_ok s : square_of (ps_len s) (ps_cov s) ->
  exists m, get_covariance s true = Ok m /\ square_of (num_enabled s) m /\
  forall a b i j, nth_true (enabled_bool_list s) a i -> nth_true (enabled_bool_list s) b j -> m_at m a b = m_at (ps_cov s) i j.
Proof.
  intro H. unfold get_covariance, np_ix. rewrite (range_test _ _ _ H (indices_in_range s)).
  eexists. split; [reflexivity|]. split.
  - split; cbn; now rewrite enabled_indices_eq, true_positions_length, num_enabled_count.
  - intros a b i j Ha Hb. cbn. apply true_positions_nth in Ha, Hb. rewrite enabled_indices_eq.
    now rewrite (nth_error_nth _ _ 0%nat Ha), (nth_error_nth _ _ 0%nat Hb).
Qed.

(** ** Variances *)
Lemma set_pairs_ok m idx vals n : square_of n m -> (forall i, In i idx -> (i < n)%nat) ->
  exists m', np_set_pairs m idx vals = Ok m' /\ square_of n m' /\
  (forall i j, i <> j -> m_at m' i j = m_at m i j) /\
  (forall i, ~ In i idx -> m_at m' i i = m_at m i i) /\
  (NoDup idx -> forall i a v, nth_error idx a = Some i -> nth_error vals a = Some v -> m_at m' i i = v).
Proof.
  intros HS H. unfold np_set_pairs. rewrite (range_test _ _ _ HS H). eexists. split; [reflexivity|].
  split; [destruct HS; split; assumption|]. cbn. split; [|split].
  - intros i j E. apply Nat.eqb_neq in E. now rewrite E.
  - intros i E. rewrite Nat.eqb_refl. apply index_of_None in E. now rewrite E.
  - intros ND i a v Ha Hv. rewrite Nat.eqb_refl. apply (index_of_spec _ _ _ ND) in Ha. now rewrite Ha, Hv.
Qed.

Lemma assigned_values eo l l' :
  Forall2 (assigned KVariance eo) l l' -> map p_value l' = map p_value l.
Proof.
  intro H. symmetry. apply Forall2_map_eq. revert H. apply Forall2_impl. intros p p' H.
  unfold assigned in H. destruct (live eo p); [destruct H as [v ->]|subst]; reflexivity.
Qed.

Lemma diag_nth m i : (i < Nat.min (m_rows m) (m_cols m))%nat -> nth_error (np_diag m) i = Some (m_at m i i).
Proof.
  intro H. unfold np_diag. rewrite nth_error_map', nth_error_seq. apply Nat.ltb_lt in H. now rewrite H.
Qed.
Lemma diag_length m : length (np_diag m) = Nat.min (m_rows m) (m_cols m).
Proof. unfold np_diag. now rewrite map_length, seq_length. Qed.

Lemma fill_own_diagonal m n : square_of n m -> mat_eq (fill_diagonal m (np_diag m)) m.
Proof.
  intros [Hr Hc]. split; [reflexivity|]. split; [reflexivity|]. intros i j Hi Hj. cbn in *.
  destruct (Nat.eqb_spec i j) as [<-|]; [|reflexivity].
  rewrite diag_length, Hr, Hc, Nat.min_id, Nat.mod_small by lia.
  rewrite diag_nth by lia. reflexivity.
Qed.

Lemma set_variances_enabled_spec s vals : square_of (ps_len s) (ps_cov s) -> length vals = num_enabled s ->
  exists s', set_variances_enabled s vals = Ok s' /\
    variances_enabled s' = vals /\
    enabled_bool_list s' = enabled_bool_list s /\ values s' = values s /\
    Forall2 (assigned KVariance true) (ps_params s) (ps_params s') /\
    square_of (ps_len s) (ps_cov s') /\
    (forall i j, i <> j -> m_at (ps_cov s') i j = m_at (ps_cov s) i j) /\
    (forall i, nth_error (enabled_bool_list s) i <> Some true -> m_at (ps_cov s') i i = m_at (ps_cov s) i i) /\
    (forall i a v, nth_true (enabled_bool_list s) a i -> nth_error vals a = Some v -> m_at (ps_cov s') i i = v).
Proof.
  intros HS HL. unfold set_variances_enabled.
  destruct (ps_set_ok s vals KVariance true) as [l [E _]]; [now rewrite targets_enabled|].
  rewrite E. cbn [bind]. assert (E' := E). apply ps_set_inv in E as [_ [HC [_ [HA _]]]]. cbn in HC, HA.
  assert (enabled_bool_list (ps_set_params s l) = enabled_bool_list s) as HB by (unfold enabled_bool_list; cbn; eapply assigned_enabled; eauto).
  assert (enabled_indices (ps_set_params s l) = enabled_indices s) as HI by (now rewrite !enabled_indices_eq, HB).
  cbn [ps_cov ps_set_params]. rewrite HI.
  destruct (set_pairs_ok (ps_cov s) (enabled_indices s) vals _ HS (indices_in_range s)) as [m [Hm [M1 [M2 [M3 M4]]]]].
  rewrite Hm. cbn [bind]. eexists. split; [reflexivity|].
  split; [exact (enabled_read_back _ _ _ _ E')|]. split; [exact HB|]. split.
  { unfold values. rewrite !ps_get_all. cbn. eapply assigned_values; eauto. }
  split; [exact HA|]. split; [exact M1|]. split; [exact M2|]. split.
  - intros i Hi. apply M3. rewrite enabled_indices_eq, true_positions_In. exact Hi.
  - intros i a v Ha Hv. eapply M4; [apply true_positions_NoDup| |exact Hv].
    rewrite enabled_indices_eq. now apply true_positions_nth.
Qed.

Lemma set_variances_spec s vals : square_of (ps_len s) (ps_cov s) -> length vals = ps_len s ->
  exists s', set_variances s vals = Ok s' /\
    enabled_bool_list s' = enabled_bool_list s /\ values s' = values s /\
    map p_stored_var (ps_params s') = vals /\
    Forall2 (assigned KVariance false) (ps_params s) (ps_params s') /\
    square_of (ps_len s) (ps_cov s') /\
    (forall i j, i <> j -> m_at (ps_cov s') i j = m_at (ps_cov s) i j) /\
    (forall i v, nth_error vals i = Some v -> m_at (ps_cov s') i i = v).
Proof.
  intros HS HL. unfold set_variances.
  destruct (ps_set_ok s vals KVariance false) as [l [E _]]; [now rewrite targets_all|].
  rewrite E. cbn [bind]. assert (E' := E). apply ps_set_inv in E as [_ [HC [_ [HA HV]]]]. cbn in HC, HA, HV.
  eexists. split; [reflexivity|]. split; [unfold enabled_bool_list; cbn; eapply assigned_enabled; eauto|].
  split. { unfold values. rewrite !ps_get_all. cbn. eapply assigned_values; eauto. }
  split. { rewrite filter_live_false in HV. cbn. clear -HV. induction HV as [|p v l vs H _ IH]; cbn; [reflexivity|].
           rewrite H at 1. cbn. now rewrite IH. }
  split; [exact HA|]. split; [exact HS|]. split.
  - intros i j N. cbn. apply Nat.eqb_neq in N. now rewrite N.
  - intros i v Hv. cbn. rewrite Nat.eqb_refl, Nat.mod_small, Hv; [reflexivity|]. now apply nth_error_Some_lt in Hv.
Qed.

(** ** Covariance matrices *)
Lemma all_true_positions m : count_true m = length m -> forall i, (i < length m)%nat -> nth_true m i i.
Proof.
  induction m as [|b m IH]; cbn; intros H i Hi; [lia|].
  assert (L := count_le_length (fun b : bool => b) m).
  destruct b; unfold count_true, count in *; cbn in H; [|lia].
  injection H as H. destruct i as [|i]; [split; reflexivity|].
  destruct (IH H i) as [A B]; [lia|]. split; [exact A|]. unfold count_true, count in *. cbn. now rewrite B.
Qed.

Lemma full_covariance s m : square_of (ps_len s) m ->
  exists s', set_covariance_matrix s m = Ok s' /\ mat_eq (ps_cov s') m /\
    enabled_bool_list s' = enabled_bool_list s /\ values s' = values s /\
    map p_stored_var (ps_params s') = np_diag m /\
    Forall2 (assigned KVariance false) (ps_params s) (ps_params s').
Proof.
  intros HS. assert (HS' := HS). destruct HS' as [Hr Hc]. unfold set_covariance_matrix, validate_covariance.
  cbn [ps_cov ps_set_cov]. rewrite Hr, Hc, Nat.eqb_refl. cbn [negb].
  replace (ps_len (ps_set_cov s m)) with (ps_len s) by reflexivity. rewrite Nat.eqb_refl.
  destruct (set_variances_spec (ps_set_cov s m) (np_diag m)) as [s' [E [A [B [C [D [F [G H]]]]]]]].
  - exact HS.
  - rewrite diag_length, Hr, Hc, Nat.min_id. reflexivity.
  - exists s'. split; [exact E|]. split; [|auto].
    destruct F as [F1 F2]. cbn in F1, F2. unfold ps_len in F1, F2. cbn in F1, F2.
    fold (ps_len s) in F1, F2. split; [rewrite F1; now rewrite Hr|]. split; [rewrite F2; now rewrite Hc|].
    intros i j Hi Hj. rewrite F1 in Hi. rewrite F2 in Hj. destruct (Nat.eq_dec i j) as [<-|N].
    + apply H. apply diag_nth. rewrite Hr, Hc, Nat.min_id. exact Hi.
    + now rewrite G.
Qed.

Lemma block_covariance s m : square_of (num_enabled s) m -> num_enabled s <> ps_len s ->
  exists s', set_covariance_matrix s m = Ok s' /\
    enabled_bool_list s' = enabled_bool_list s /\ values s' = values s /\
    variances_enabled s' = np_diag m /\
    Forall2 (assigned KVariance true) (ps_params s) (ps_params s') /\
    square_of (ps_len s) (ps_cov s') /\
    (forall a b i j, nth_true (enabled_bool_list s) a i -> nth_true (enabled_bool_list s) b j -> m_at (ps_cov s') i j = m_at m a b) /\
    (forall i j, nth_error (enabled_bool_list s) i <> Some true \/ nth_error (enabled_bool_list s) j <> Some true ->
                 m_at (ps_cov s') i j = 0).
Proof.
  intros HS HN. assert (HS' := HS). destruct HS' as [Hr Hc]. unfold set_covariance_matrix, validate_covariance.
  cbn [ps_cov ps_set_cov]. rewrite Hr, Hc, Nat.eqb_refl. cbn [negb].
  replace (ps_len (ps_set_cov s m)) with (ps_len s) by reflexivity.
  replace (num_enabled (ps_set_cov s m)) with (num_enabled s) by reflexivity.
  replace (enabled_indices (ps_set_cov s m)) with (enabled_indices s) by reflexivity.
  destruct (Nat.eqb_spec (num_enabled s) (ps_len s)) as [|_]; [contradiction|]. rewrite Nat.eqb_refl. cbn [negb].
  set (full := np_ix_set (np_zeros (ps_len s)) (enabled_indices s) m).
  set (s1 := ps_set_cov (ps_set_cov s m) full). cbv zeta.
  assert (square_of (ps_len s) full) as SQ by (split; reflexivity).
  assert (forall a b i j, nth_true (enabled_bool_list s) a i -> nth_true (enabled_bool_list s) b j -> m_at full i j = m_at m a b) as HIN.
  { intros a b i j Ha Hb. apply true_positions_nth in Ha, Hb.
    apply (index_of_spec _ _ _ (true_positions_NoDup _)) in Ha, Hb.
    unfold full. cbn. rewrite enabled_indices_eq, Ha, Hb. reflexivity. }
  assert (forall i j, nth_error (enabled_bool_list s) i <> Some true \/ nth_error (enabled_bool_list s) j <> Some true -> m_at full i j = 0) as HOUT.
  { intros i j H. unfold full. cbn. rewrite enabled_indices_eq. destruct H as [H|H]; rewrite <- true_positions_In in H;
      apply index_of_None in H; rewrite H; [reflexivity|]. destruct (index_of i _); reflexivity. }
  destruct (get_covariance_ok s1) as [sub [Hsub [SS Hsv]]]; [exact SQ|].
  rewrite Hsub. cbn [bind].
  replace (num_enabled s1) with (num_enabled s) in SS by reflexivity.
  destruct SS as [S1 S2].
  replace (enabled_bool_list s1) with (enabled_bool_list s) in Hsv by reflexivity. cbn [ps_cov s1 ps_set_cov] in Hsv.
  assert (np_diag sub = np_diag m) as HD.
  { unfold np_diag. rewrite S1, S2, Hr, Hc, Nat.min_id. apply map_ext_in. intros a Ha. apply in_seq in Ha as [_ Ha]. cbn in Ha.
    rewrite num_enabled_count, <- true_positions_length in Ha.
    destruct (nth_error_lt_Some _ _ Ha) as [i Hi]. apply true_positions_nth in Hi.
    rewrite (Hsv a a i i Hi Hi). now apply HIN. }
  rewrite HD.
  destruct (set_variances_enabled_spec s1 (np_diag m)) as [s' [E [A [B [C [D [F [G [H I]]]]]]]]].
  - exact SQ.
  - rewrite diag_length, Hr, Hc, Nat.min_id. reflexivity.
  - exists s'. split; [exact E|]. split; [exact B|]. split; [exact C|]. split; [exact A|]. split; [exact D|].
    split; [exact F|]. replace (enabled_bool_list s1) with (enabled_bool_list s) in * by reflexivity.
    cbn [ps_cov s1 ps_set_cov] in G, H. split.
    + intros a b i j Ha Hb. destruct (Nat.eq_dec i j) as [<-|N].
      * assert (a = b) as <- by (destruct Ha as [_ <-], Hb as [_ <-]; reflexivity).
        eapply I; [exact Ha|]. apply diag_nth. rewrite Hr, Hc, Nat.min_id, num_enabled_count, <- true_positions_length.
        apply true_positions_nth in Ha. now apply nth_error_Some_lt in Ha.
      * rewrite G by exact N. now apply HIN.
    + intros i j Hij. destruct (Nat.eq_dec i j) as [<-|N].
      * rewrite H by tauto. now apply HOUT.
      * rewrite G by exact N. now apply HOUT.
Qed.

Lemma bad_covariance s m :
  ~ (square_of (ps_len s) m \/ square_of (num_enabled s) m) -> set_covariance_matrix s m = Err AlignmentParametersError.
Proof.
  intro H. unfold set_covariance_matrix, validate_covariance. cbn [ps_cov ps_set_cov].
  destruct (Nat.eqb_spec (m_rows m) (m_cols m)) as [E|E]; cbn [negb]; [|reflexivity].
  replace (ps_len (ps_set_cov s m)) with (ps_len s) by reflexivity.
  replace (num_enabled (ps_set_cov s m)) with (num_enabled s) by reflexivity.
  destruct (Nat.eqb_spec (m_rows m) (ps_len s)) as [X|X].
  - exfalso. apply H. left. split; congruence.
  - destruct (Nat.eqb_spec (m_rows m) (num_enabled s)) as [Y|Y]; cbn [negb]; [|reflexivity].
    exfalso. apply H. right. split; congruence.
Qed.
