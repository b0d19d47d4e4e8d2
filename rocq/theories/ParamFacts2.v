(** Histories of calls on a parameter set; settings; files. *)
From Verif Require Import Base BaseFacts NumpyModel NumpyFacts EvalModel ParamModel ParamSpec ParamFacts.

(** ** Shapes *)
Lemma assigned_len k eo s s' : Forall2 (assigned k eo) (ps_params s) (ps_params s') -> ps_len s' = ps_len s.
Proof. intro H. rewrite !ps_len_eq. symmetry. eapply Forall2_len; eauto. Qed.

Lemma set_flags_length l bs : length (set_flags l bs) = length l.
Proof. revert bs; induction l as [|p l IH]; intros [|b bs]; cbn; try reflexivity. now rewrite IH. Qed.

Lemma set_flags_nth l bs i p : nth_error l i = Some p ->
  nth_error (set_flags l bs) i = Some (match nth_error bs i with Some b => p_set_enabled b p | None => p end).
Proof.
  revert bs i; induction l as [|q l IH]; intros bs i H; [destruct i; discriminate|].
  destruct bs as [|b bs].
  - cbn [set_flags]. rewrite H. destruct i; reflexivity.
  - destruct i as [|i]; cbn in *; [congruence|]. now apply IH.
Qed.

Lemma set_values_len s v s' eo k : ps_set s v k eo = Ok s' -> ps_len s' = ps_len s /\ ps_cov s' = ps_cov s.
Proof. intro H. apply ps_set_inv in H as [_ [C [_ [A _]]]]. split; [eapply assigned_len; eauto|exact C]. Qed.

Lemma run_call_shape s c : well_shaped s -> admissible s c ->
  well_shaped (run_call s c) /\ ps_len (run_call s c) = ps_len s.
Proof.
  intros W A. unfold well_shaped in *. destruct c; cbn [run_call].
  - destruct (set_values s v) as [s'|] eqn:E; cbn; [|auto]. apply set_values_len in E as [-> ->]. auto.
  - destruct (set_values_enabled s v) as [s'|] eqn:E; cbn; [|auto]. apply set_values_len in E as [-> ->]. auto.
  - destruct (set_variances s v) as [s'|] eqn:E; cbn; [|auto].
    destruct (Nat.eq_dec (length v) (ps_len s)) as [L|L].
    + destruct (set_variances_spec s v W L) as [s2 [E2 [_ [_ [_ [F [Q _]]]]]]]. rewrite E in E2. injection E2 as <-.
      rewrite (assigned_len _ _ _ _ F). auto.
    + unfold set_variances in E. rewrite ps_set_bad in E by now rewrite targets_all. discriminate.
  - destruct (set_variances_enabled s v) as [s'|] eqn:E; cbn; [|auto].
    destruct (Nat.eq_dec (length v) (num_enabled s)) as [L|L].
    + destruct (set_variances_enabled_spec s v W L) as [s2 [E2 [_ [_ [_ [F [Q _]]]]]]]. rewrite E in E2. injection E2 as <-.
      rewrite (assigned_len _ _ _ _ F). auto.
    + unfold set_variances_enabled in E. rewrite ps_set_bad in E by now rewrite targets_enabled. discriminate.
  - unfold after_set_covariance. cbn in A.
    destruct (Nat.eq_dec (num_enabled s) (ps_len s)) as [L|L].
    + assert (square_of (ps_len s) m) as A' by (destruct A as [A|A]; [exact A|rewrite <- L; exact A]).
      destruct (full_covariance s m A') as [s' [-> [[Mr [Mc _]] [_ [_ [_ F]]]]]].
      rewrite (assigned_len _ _ _ _ F). split; [|reflexivity]. destruct A' as [R1 R2]. split; congruence.
    + destruct A as [A|A].
      * destruct (full_covariance s m A) as [s' [-> [[Mr [Mc _]] [_ [_ [_ F]]]]]].
        rewrite (assigned_len _ _ _ _ F). split; [|reflexivity]. destruct A as [R1 R2]. split; congruence.
      * destruct (block_covariance s m A L) as [s' [-> [_ [_ [_ [F [Q _]]]]]]].
        rewrite (assigned_len _ _ _ _ F). auto.
  - assert (ps_len (ps_enable s) = ps_len s) as L by (rewrite !ps_len_eq; cbn; apply map_length). now rewrite L.
  - assert (ps_len (ps_disable s) = ps_len s) as L by (rewrite !ps_len_eq; cbn; apply map_length). now rewrite L.
  - assert (ps_len (set_enabled_bool_list s bs) = ps_len s) as L by (rewrite !ps_len_eq; cbn; apply set_flags_length).
    now rewrite L.
Qed.

Lemma run_calls_shape cs : forall s, well_shaped s -> history admissible s cs ->
  well_shaped (run_calls s cs) /\ ps_len (run_calls s cs) = ps_len s.
Proof.
  induction cs as [|c cs IH]; intros s W H; [cbn; auto|]. destruct H as [A H].
  destruct (run_call_shape s c W A) as [W' L]. cbn. destruct (IH _ W' H) as [X Y]. split; [exact X|].
  unfold run_calls in Y. congruence.
Qed.

Lemma post_init_shape l cov s : post_init l cov = Ok s -> well_shaped s /\ ps_len s = length l.
Proof.
  unfold post_init. set (s0 := mkPset l cov true). cbv zeta.
  assert (ps_len s0 = length l) as HL by (now rewrite ps_len_eq).
  destruct (Nat.eqb_spec (m_rows cov) (ps_len s0)) as [E|E]; intro H.
  - destruct (Nat.eq_dec (m_rows cov) (m_cols cov)) as [Q|Q].
    + destruct (full_covariance s0 cov) as [s' [E' [[Mr [Mc _]] [_ [_ [_ F]]]]]]; [split; congruence|].
      change (validate_covariance s0) with (set_covariance_matrix s0 cov) in H. rewrite E' in H. injection H as <-.
      unfold well_shaped. rewrite (assigned_len _ _ _ _ F). repeat split; congruence.
    + unfold validate_covariance in H. cbn [ps_cov s0] in H. apply Nat.eqb_neq in Q. rewrite Q in H. discriminate.
  - injection H as <-. split; [split; reflexivity|exact HL].
Qed.

(** ** Variances and the diagonal *)
Lemma filter_nth_true {A} (f : A -> bool) l a i : nth_true (map f l) a i -> nth_error (filter f l) a = nth_error l i.
Proof.
  unfold nth_true. revert a i; induction l as [|x l IH]; intros a i [H C]; [destruct i; discriminate|].
  destruct i as [|i].
  - cbn in H. injection H as H. cbn in C. subst a. cbn. now rewrite H.
  - cbn in H. cbn [firstn map] in C. cbn [filter nth_error]. unfold count_true, count in *. cbn [filter] in C.
    destruct (f x); cbn [length] in C; subst a; cbn; apply IH; auto.
Qed.
Lemma nth_true_exists m i : nth_error m i = Some true -> exists a, nth_true m a i.
Proof. intro H. eexists. split; [exact H|reflexivity]. Qed.

Definition agree_on (P : param -> bool) (s : pset) : Prop :=
  forall i p, nth_error (ps_params s) i = Some p -> P p = true -> m_at (ps_cov s) i i = p_stored_var p.

Lemma Forall2_nth_r {A B} (P : A -> B -> Prop) l l' i b :
  Forall2 P l l' -> nth_error l' i = Some b -> exists a, nth_error l i = Some a /\ P a b.
Proof.
  intro H; revert i; induction H as [|x y l l' Hxy _ IH]; intros [|i]; cbn; try discriminate.
  - intros [= <-]. eauto.
  - apply IH.
Qed.

Lemma agree_values P s v eo s' :
  (forall x p, P (p_set_value x p) = P p) ->
  agree_on P s -> ps_set s v KValue eo = Ok s' -> agree_on P s'.
Proof.
  intros HP A H i p Hp E. apply ps_set_inv in H as [_ [C [_ [F _]]]].
  destruct (Forall2_nth_r _ _ _ _ _ F Hp) as [q [Hq R]]. rewrite C. unfold assigned in R.
  destruct (live eo q); [destruct R as [x ->]|subst p].
  - cbn in *. apply A; [exact Hq|]. now rewrite HP in E.
  - now apply A.
Qed.

Lemma agree_variances P s v s' : well_shaped s -> set_variances s v = Ok s' -> agree_on P s'.
Proof.
  intros W H i p Hp _.
  destruct (Nat.eq_dec (length v) (ps_len s)) as [L|L].
  - destruct (set_variances_spec s v W L) as [s2 [E2 [_ [_ [V [F [Q [_ D]]]]]]]]. rewrite H in E2. injection E2 as <-.
    apply D. rewrite <- V, nth_error_map', Hp. reflexivity.
  - unfold set_variances in H. rewrite ps_set_bad in H by now rewrite targets_all. discriminate.
Qed.

Lemma variances_enabled_nth s a i p vals : variances_enabled s = vals ->
  nth_error (ps_params s) i = Some p -> nth_true (enabled_bool_list s) a i -> nth_error vals a = Some (p_stored_var p).
Proof.
  intros <- Hp Ha. unfold variances_enabled. rewrite ps_get_enabled, nth_error_map'.
  rewrite (filter_nth_true p_enabled _ a i Ha), Hp. cbn. unfold p_variance.
  destruct Ha as [Ha _]. unfold enabled_bool_list in Ha. rewrite nth_error_map', Hp in Ha. injection Ha as ->. reflexivity.
Qed.
Lemma enabled_nth s i p : nth_error (ps_params s) i = Some p -> nth_error (enabled_bool_list s) i = Some (p_enabled p).
Proof. intro H. unfold enabled_bool_list. now rewrite nth_error_map', H. Qed.

Lemma agree_variances_enabled P s v s' : well_shaped s -> agree_on P s ->
  set_variances_enabled s v = Ok s' -> agree_on P s'.
Proof.
  intros W A H i p Hp E.
  destruct (Nat.eq_dec (length v) (num_enabled s)) as [L|L].
  - destruct (set_variances_enabled_spec s v W L) as [s2 [E2 [V [B [_ [F [Q [_ [D0 D1]]]]]]]]]. rewrite H in E2. injection E2 as <-.
    assert (En := enabled_nth _ _ _ Hp). destruct (p_enabled p) eqn:Ep.
    + destruct (nth_true_exists _ _ En) as [a Ha].
      eapply D1; [rewrite <- B; exact Ha|]. eapply variances_enabled_nth; eauto.
    + rewrite D0 by (rewrite <- B, En; discriminate).
      destruct (Forall2_nth_r _ _ _ _ _ F Hp) as [q [Hq R]]. unfold assigned, live in R.
      assert (Eq := enabled_nth _ _ _ Hq). rewrite <- B, En in Eq. injection Eq as Eq. rewrite <- Eq in R. cbn in R.
      subst p. now apply A.
  - unfold set_variances_enabled in H. rewrite ps_set_bad in H by now rewrite targets_enabled. discriminate.
Qed.

Lemma agree_full P s m s' : square_of (ps_len s) m -> set_covariance_matrix s m = Ok s' -> agree_on P s'.
Proof.
  intros Q H i p Hp _. destruct (full_covariance s m Q) as [s2 [E2 [[Mr [Mc M]] [_ [_ [V F]]]]]].
  rewrite H in E2. injection E2 as <-.
  assert (nth_error (np_diag m) i = Some (p_stored_var p)) as D by (rewrite <- V, nth_error_map', Hp; reflexivity).
  assert (i < length (np_diag m))%nat as L by (eapply nth_error_Some_lt; eauto). rewrite diag_length in L.
  rewrite diag_nth in D by exact L. injection D as <-. apply M; [rewrite Mr|rewrite Mc]; lia.
Qed.

Lemma agree_block s m s' : square_of (num_enabled s) m -> set_covariance_matrix s m = Ok s' -> agree_on p_enabled s'.
Proof.
  intros Q H. destruct (Nat.eq_dec (num_enabled s) (ps_len s)) as [L|L].
  { eapply agree_full; [rewrite <- L; exact Q|exact H]. }
  intros i p Hp E.
  destruct (block_covariance s m Q L) as [s2 [E2 [B [_ [V [F [_ [D _]]]]]]]]. rewrite H in E2. injection E2 as <-.
  assert (En := enabled_nth _ _ _ Hp). rewrite E in En. destruct (nth_true_exists _ _ En) as [a Ha].
  assert (X := variances_enabled_nth _ _ _ _ _ V Hp Ha).
  assert (a < length (np_diag m))%nat as La by (eapply nth_error_Some_lt; eauto). rewrite diag_length in La.
  rewrite diag_nth in X by exact La. injection X as <-. apply D; rewrite <- B; exact Ha.
Qed.

Lemma agree_flags s s' : ps_cov s' = ps_cov s ->
  Forall2 (fun p p' => p_stored_var p' = p_stored_var p) (ps_params s) (ps_params s') ->
  agree_on (fun _ => true) s -> agree_on (fun _ => true) s'.
Proof.
  intros C F A i p Hp _. destruct (Forall2_nth_r _ _ _ _ _ F Hp) as [q [Hq E]]. rewrite C, E. now apply A.
Qed.
Lemma agree_flags_off s s' : ps_cov s' = ps_cov s ->
  Forall2 (fun p p' => p_stored_var p' = p_stored_var p) (ps_params s) (ps_params s') ->
  (forall i, nth_error (enabled_bool_list s) i = Some false -> nth_error (enabled_bool_list s') i = Some false) ->
  agree_on p_enabled s -> agree_on p_enabled s'.
Proof.
  intros C F T A i p Hp E. destruct (Forall2_nth_r _ _ _ _ _ F Hp) as [q [Hq V]]. rewrite C, V. apply A; [exact Hq|].
  destruct (p_enabled q) eqn:Eq; [reflexivity|]. apply enabled_nth in Hq. rewrite Eq in Hq. apply T in Hq.
  apply enabled_nth in Hp. congruence.
Qed.

Lemma set_flags_vars l bs : Forall2 (fun p p' => p_stored_var p' = p_stored_var p) l (set_flags l bs).
Proof. revert bs; induction l as [|p l IH]; intros [|b bs]; cbn; constructor; auto.
  clear; induction l; constructor; auto. Qed.
Lemma map_enabled_vars b l : Forall2 (fun p p' => p_stored_var p' = p_stored_var p) l (map (p_set_enabled b) l).
Proof. induction l; cbn; constructor; auto. Qed.

Lemma after_cov_ok s m : admissible s (CallCovariance m) -> exists s', set_covariance_matrix s m = Ok s'.
Proof.
  cbn. intro A. destruct (Nat.eq_dec (num_enabled s) (ps_len s)) as [L|L].
  - destruct (full_covariance s m) as [s' [E _]]; [destruct A as [A|A]; [exact A|rewrite <- L; exact A]|eauto].
  - destruct A as [A|A]; [destruct (full_covariance s m A) as [s' [E _]]|destruct (block_covariance s m A L) as [s' [E _]]]; eauto.
Qed.

Lemma run_call_agree_enabled s c : well_shaped s -> admissible s c -> turns_nothing_on s c ->
  agree_on p_enabled s -> agree_on p_enabled (run_call s c).
Proof.
  intros W Ad T A. destruct c; cbn [run_call] in *.
  - destruct (set_values s v) as [s'|] eqn:E; cbn; [|auto]. eapply agree_values; eauto.
  - destruct (set_values_enabled s v) as [s'|] eqn:E; cbn; [|auto]. eapply agree_values; eauto.
  - destruct (set_variances s v) as [s'|] eqn:E; cbn; [|auto]. eapply agree_variances; eauto.
  - destruct (set_variances_enabled s v) as [s'|] eqn:E; cbn; [|auto]. eapply agree_variances_enabled; eauto.
  - unfold after_set_covariance. destruct (after_cov_ok s m Ad) as [s' E]. rewrite E.
    destruct Ad as [Ad|Ad]; [eapply agree_full|eapply agree_block]; eauto.
  - apply (agree_flags_off s); [reflexivity|apply map_enabled_vars|exact T|exact A].
  - apply (agree_flags_off s); [reflexivity|apply map_enabled_vars|exact T|exact A].
  - apply (agree_flags_off s); [reflexivity|apply set_flags_vars|exact T|exact A].
Qed.

Lemma run_call_agree_all s c : well_shaped s -> full_matrices s c ->
  agree_on (fun _ => true) s -> agree_on (fun _ => true) (run_call s c).
Proof.
  intros W Ad A. destruct c; cbn [run_call] in *.
  - destruct (set_values s v) as [s'|] eqn:E; cbn; [|auto]. eapply agree_values; eauto.
  - destruct (set_values_enabled s v) as [s'|] eqn:E; cbn; [|auto]. eapply agree_values; eauto.
  - destruct (set_variances s v) as [s'|] eqn:E; cbn; [|auto]. eapply agree_variances; eauto.
  - destruct (set_variances_enabled s v) as [s'|] eqn:E; cbn; [|auto]. eapply agree_variances_enabled; eauto.
  - unfold after_set_covariance. destruct (after_cov_ok s m (or_introl Ad)) as [s' E]. rewrite E. eapply agree_full; eauto.
  - apply (agree_flags s); [reflexivity|apply map_enabled_vars|exact A].
  - apply (agree_flags s); [reflexivity|apply map_enabled_vars|exact A].
  - apply (agree_flags s); [reflexivity|apply set_flags_vars|exact A].
Qed.

Lemma agree_reported s : agree_on p_enabled s -> variances_agree s.
Proof.
  intros A i v En Hv. unfold variances in Hv. rewrite ps_get_all, nth_error_map' in Hv.
  destruct (nth_error (ps_params s) i) as [p|] eqn:Hp; [|discriminate]. cbn in Hv. injection Hv as <-.
  apply enabled_nth in Hp as Hp'. rewrite En in Hp'. injection Hp' as Ep. unfold p_variance. rewrite <- Ep. now apply A.
Qed.
Lemma reported_agree s : variances_agree s -> agree_on p_enabled s.
Proof.
  intros A i p Hp E. apply A; [rewrite (enabled_nth _ _ _ Hp), E; reflexivity|].
  unfold variances. rewrite ps_get_all, nth_error_map', Hp. cbn. unfold p_variance. now rewrite E.
Qed.

Lemma history_enabled cs : forall s, well_shaped s ->
  history (fun s c => admissible s c /\ turns_nothing_on s c) s cs -> agree_on p_enabled s -> agree_on p_enabled (run_calls s cs).
Proof.
  induction cs as [|c cs IH]; intros s W H A; [exact A|]. destruct H as [[H1 H2] H]. cbn.
  apply IH; [apply run_call_shape; assumption|exact H|]. now apply run_call_agree_enabled.
Qed.
Lemma history_full cs : forall s, well_shaped s ->
  history full_matrices s cs -> agree_on (fun _ => true) s -> agree_on (fun _ => true) (run_calls s cs).
Proof.
  induction cs as [|c cs IH]; intros s W H A; [exact A|]. destruct H as [H1 H]. cbn.
  apply IH; [apply run_call_shape; [exact W|destruct c; cbn; auto]|exact H|]. now apply run_call_agree_all.
Qed.

(** ** Settings *)
Lemma and_any b l : In b l -> (b && any l)%bool = b.
Proof.
  intro H. destruct b; [|reflexivity]. cbn. unfold any. apply existsb_exists. exists true. auto.
Qed.
Lemma any_false l : any l = false -> forall b, In b l -> b = false.
Proof.
  unfold any. intros H b Hb. destruct b; [|reflexivity].
  assert (existsb (fun b => b) l = true) by (apply existsb_exists; exists true; auto). congruence.
Qed.
Lemma helmert_filter_eq e : helmert_filter e = [trans_x e; trans_y e; trans_z e; rot_x e; rot_y e; rot_z e; scale e].
Proof.
  unfold helmert_filter. destruct (helmert_enabled e) eqn:E; [reflexivity|]. cbn [negb].
  assert (H := any_false _ E). cbn in H.
  rewrite (H (trans_x e)), (H (trans_y e)), (H (trans_z e)), (H (rot_x e)), (H (rot_y e)), (H (rot_z e)), (H (scale e)) by tauto.
  reflexivity.
Qed.
Lemma leverarm_filter_eq e : leverarm_filter e = [lever_x e; lever_y e; lever_z e].
Proof.
  unfold leverarm_filter. destruct (leverarm_enabled e) eqn:E; [reflexivity|]. cbn [negb].
  assert (H := any_false _ E). cbn in H.
  rewrite (H (lever_x e)), (H (lever_y e)), (H (lever_z e)) by tauto. reflexivity.
Qed.
Lemma time_shift_enabled_eq e :
  time_shift_enabled e = (time_shift e && (use_x_speed e || use_y_speed e || use_z_speed e))%bool.
Proof.
  unfold time_shift_enabled, time_shift_filter. destruct (time_shift e); [|reflexivity].
  cbn. destruct (use_x_speed e), (use_y_speed e), (use_z_speed e); reflexivity.
Qed.
Lemma lq_filter_requested e : lq_parameter_filter e = requested e.
Proof.
  unfold lq_parameter_filter, requested. now rewrite helmert_filter_eq, leverarm_filter_eq, time_shift_enabled_eq.
Qed.

Lemma set_flags_enabled l bs : length bs = length l -> map p_enabled (set_flags l bs) = bs.
Proof.
  revert bs; induction l as [|p l IH]; intros [|b bs] H; try discriminate; [reflexivity|].
  cbn. f_equal. apply IH. now injection H.
Qed.
Lemma set_flags_stored l bs : map p_stored (set_flags l bs) = map p_stored l.
Proof. revert bs; induction l as [|p l IH]; intros [|b bs]; cbn; [reflexivity..|]. now rewrite IH. Qed.

Lemma apply_settings_mask s e : ps_len s = 11%nat -> enabled_bool_list (apply_settings s e) = requested e.
Proof.
  intro H. rewrite ps_len_eq in H. unfold enabled_bool_list, apply_settings. cbn [ps_params ps_set_params].
  rewrite set_flags_enabled by (now rewrite H). unfold requested, helmert_enabled, leverarm_enabled.
  rewrite !and_any by (cbn; tauto). now rewrite time_shift_enabled_eq.
Qed.

Lemma select_app {A} m1 m2 (l1 l2 : list A) : length m1 = length l1 -> select (m1 ++ m2) (l1 ++ l2) = select m1 l1 ++ select m2 l2.
Proof.
  revert l1; induction m1 as [|b m1 IH]; intros [|a l1] H; try discriminate; [reflexivity|].
  cbn. injection H as H. destruct b; cbn; now rewrite IH.
Qed.
Lemma select_length {A} m (l : list A) : length m = length l -> length (select m l) = count_true m.
Proof.
  revert l; induction m as [|b m IH]; intros [|a l] H; try discriminate; [reflexivity|].
  injection H as H. unfold count_true, count in *. destruct b; cbn; now rewrite (IH _ H).
Qed.
Lemma select_none {A} m (l : list A) : any m = false -> select m l = [].
Proof.
  revert l; induction m as [|b m IH]; intros [|a l] H; try reflexivity; [destruct b; reflexivity|].
  unfold any in *. cbn in H. destruct b; [discriminate|]. now apply IH.
Qed.
Lemma np_mask_select {A} (l : list A) m : length m = length l -> np_mask l m = Ok (select m l).
Proof.
  intro H. unfold np_mask. rewrite H, Nat.eqb_refl. f_equal. revert m H.
  induction l as [|a l IH]; intros [|b m] H; try discriminate; [reflexivity|].
  injection H as H. specialize (IH _ H). cbn. destruct b; cbn; [f_equal|]; exact IH.
Qed.

(** ** Files *)
Lemma csv_rows_app f g : csv_rows (f ++ g) = csv_rows f ++ csv_rows g.
Proof. induction f as [|[t|c] f IH]; cbn; congruence. Qed.
Lemma csv_rows_map {A} (f : A -> list R) l : csv_rows (map (fun c => CsvRow (f c)) l) = map f l.
Proof. induction l; cbn; congruence. Qed.

Lemma pad_nth n c k x : nth_error c k = Some x -> nth_error (pad n c) k = Some (Some x).
Proof.
  intro H. unfold pad. rewrite nth_error_app1.
  - now rewrite nth_error_map', H.
  - rewrite map_length. eapply nth_error_Some_lt; eauto.
Qed.
Lemma pad_exact c : pad (length c) c = map Some c.
Proof. unfold pad. rewrite Nat.sub_diag. apply app_nil_r. Qed.

Lemma column_pad n rows k : Forall (fun c => (k < length c)%nat) rows ->
  column (map (pad n) rows) k = Ok (map (fun c => nth k c 0) rows).
Proof.
  unfold column. induction 1 as [|c rows H _ IH]; [reflexivity|]. cbn [map mapM].
  destruct (nth_error_lt_Some _ _ H) as [x Hx]. rewrite (pad_nth n c k x Hx). cbn [bind]. rewrite IH. cbn.
  now rewrite (nth_error_nth _ _ 0 Hx).
Qed.
Lemma numbers_some rows : numbers (map (map Some) rows) = Ok rows.
Proof.
  unfold numbers. induction rows as [|c rows IH]; [reflexivity|]. cbn [map mapM].
  replace (mapM _ (map Some c)) with (Ok c).
  - cbn [bind]. rewrite IH. reflexivity.
  - clear. induction c as [|x c IH]; [reflexivity|]. cbn [map mapM bind]. rewrite <- IH. reflexivity.
Qed.
Lemma skipn_pad rows n k : Forall (fun c => length c = n) rows ->
  map (skipn k) (map (pad n) rows) = map (map Some) (map (skipn k) rows).
Proof.
  induction 1 as [|c rows H _ IH]; [reflexivity|]. cbn [map]. rewrite IH. f_equal.
  rewrite <- H, pad_exact. clear. revert c; induction k as [|k IHk]; intros [|x c]; cbn; auto.
Qed.

Lemma map_snd_combine {A B} (l : list A) (l' : list B) : length l = length l' -> map snd (combine l l') = l'.
Proof. revert l'; induction l as [|a l IH]; intros [|b l'] H; try discriminate; cbn; [reflexivity|]. rewrite IH by (now injection H). reflexivity. Qed.
Lemma map_fst_combine {A B} (l : list A) (l' : list B) : length l = length l' -> map fst (combine l l') = l.
Proof. revert l'; induction l as [|a l IH]; intros [|b l'] H; try discriminate; cbn; [reflexivity|]. rewrite IH by (now injection H). reflexivity. Qed.

Lemma values_length s : length (values s) = ps_len s.
Proof. reflexivity. Qed.
Lemma flags_length s : length (enabled_bool_list s) = ps_len s.
Proof. unfold enabled_bool_list. now rewrite map_length, ps_len_eq. Qed.

Lemma param_rows_flags_nth s i : nth_error (param_rows_flags s) i =
  match nth_error (values s) i, nth_error (enabled_bool_list s) i with
  | Some v, Some b => Some (v :: bool_num b :: cov_row (ps_cov s) i)
  | _, _ => None
  end.
Proof.
  unfold param_rows_flags. rewrite nth_error_map', enumerate_nth, nth_error_combine.
  destruct (nth_error (enabled_bool_list s) i), (nth_error (values s) i); reflexivity.
Qed.
Lemma param_rows_flags_length s : length (param_rows_flags s) = ps_len s.
Proof.
  unfold param_rows_flags. rewrite map_length, enumerate_length, combine_length, flags_length, values_length. apply Nat.min_id.
Qed.
Lemma cov_row_length m i : length (cov_row m i) = m_cols m.
Proof. unfold cov_row. now rewrite map_length, seq_length. Qed.
Lemma param_rows_flags_width s : Forall (fun c => length c = (2 + m_cols (ps_cov s))%nat) (param_rows_flags s).
Proof.
  apply Forall_forall. intros c H. unfold param_rows_flags in H. apply in_map_iff in H as [x [<- _]].
  cbn. now rewrite cov_row_length.
Qed.

Lemma set_values_stored s v s' : set_values s v = Ok s' ->
  map p_stored (ps_params s') = v /\ map p_default (ps_params s') = map p_default (ps_params s) /\
  ps_len s' = ps_len s /\ ps_cov s' = ps_cov s.
Proof.
  intro H. assert (H' := H). apply ps_set_inv in H as [L [C [_ [F V]]]]. rewrite filter_live_false in V.
  split; [|split; [|split; [eapply assigned_len; eauto|exact C]]].
  - clear -V. induction V as [|p x l v H _ IH]; cbn; [reflexivity|]. rewrite H at 1. cbn. now rewrite IH.
  - symmetry. apply Forall2_map_eq. revert F. apply Forall2_impl. intros p p' H. unfold assigned in H.
    destruct (live false p); [destruct H as [x ->]|subst]; reflexivity.
Qed.
Lemma set_flags_default l bs : map p_default (set_flags l bs) = map p_default l.
Proof. revert bs; induction l as [|p l IH]; intros [|b bs]; cbn; [reflexivity..|]. now rewrite IH. Qed.

Lemma values_nth s i p : nth_error (ps_params s) i = Some p -> nth_error (values s) i = Some (p_value p).
Proof. intro H. unfold values. now rewrite ps_get_all, nth_error_map', H. Qed.

(** A set read from values and flags reports the values, where the values of switched-off parameters
    are the defaults. *)
Lemma loaded_values std s s0 v s1 flags (f : R -> R) :
  s0 = mkPset std (ps_cov s0) (ps_enabled s0) ->
  length (ps_params s) = length std -> standard_defaults std s ->
  flags = enabled_bool_list s -> set_values s0 v = Ok s1 ->
  (forall p, In p std -> f (p_default p) = p_default p) -> v = map f (values s) ->
  enabled_bool_list (set_enabled_bool_list s1 flags) = enabled_bool_list s /\
  values (set_enabled_bool_list s1 flags) = map f (values s).
Proof.
  intros E0 L SD -> HS HF ->. apply set_values_stored in HS as [V [D [LN _]]].
  assert (length (ps_params s1) = length (ps_params s)) as L1.
  { rewrite !ps_len_eq in LN. rewrite LN, E0. cbn. now rewrite L. }
  assert (enabled_bool_list (set_enabled_bool_list s1 (enabled_bool_list s)) = enabled_bool_list s) as HE.
  { unfold enabled_bool_list at 1, set_enabled_bool_list. cbn. apply set_flags_enabled.
    unfold enabled_bool_list. now rewrite map_length. }
  split; [exact HE|]. apply nth_error_ext. intro i. rewrite nth_error_map'.
  destruct (nth_error (ps_params s) i) as [p|] eqn:Hp.
  - rewrite (values_nth _ _ _ Hp). cbn [option_map].
    destruct (nth_error_lt_Some (ps_params s1) i) as [q Hq]; [rewrite L1; eapply nth_error_Some_lt; eauto|].
    destruct (nth_error_lt_Some std i) as [d Hd]; [rewrite <- L; eapply nth_error_Some_lt; eauto|].
    assert (nth_error (ps_params (set_enabled_bool_list s1 (enabled_bool_list s))) i = Some (p_set_enabled (p_enabled p) q)) as X.
    { cbn. rewrite (set_flags_nth _ _ _ _ Hq), (enabled_nth _ _ _ Hp). reflexivity. }
    rewrite (values_nth _ _ _ X). f_equal. unfold p_value at 1. cbn.
    assert (nth_error (map p_stored (ps_params s1)) i = Some (f (p_value p))) as Y
      by (rewrite V, nth_error_map', (values_nth _ _ _ Hp); reflexivity).
    rewrite nth_error_map', Hq in Y. cbn in Y. injection Y as Y.
    assert (nth_error (map p_default (ps_params s1)) i = Some (p_default d)) as Z
      by (rewrite D, E0; cbn; rewrite nth_error_map', Hd; reflexivity).
    rewrite nth_error_map', Hq in Z. cbn in Z. injection Z as Z.
    unfold p_value in *. destruct (p_enabled p) eqn:En; [exact Y|].
    rewrite Z, (SD i p d Hp Hd En). symmetry. apply HF. eapply nth_error_In; eauto.
  - assert (nth_error (values s) i = None) as ->.
    { unfold values. rewrite ps_get_all, nth_error_map', Hp. reflexivity. }
    cbn [option_map]. unfold values. rewrite ps_get_all, nth_error_map'.
    replace (nth_error (ps_params (set_enabled_bool_list s1 (enabled_bool_list s))) i) with (@None param); [reflexivity|].
    symmetry. apply nth_error_None. cbn. rewrite set_flags_length, L1. now apply nth_error_None.
Qed.
