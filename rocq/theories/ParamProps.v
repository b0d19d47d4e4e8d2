(** Parameter sets, estimation settings and parameter files: the properties. *)
From Verif Require Import Base BaseFacts NumpyModel NumpyFacts EvalModel ParamModel ParamSpec ParamFacts ParamFacts2 ParamFacts3.

(** A set used in the examples: translation z, scale and time shift are switched on. *)
Definition three_on : pset :=
  set_enabled_bool_list default_alignment
    [false; false; true; false; false; false; true; true; false; false; false].
Lemma three_on_shape : well_shaped three_on.
Proof. split; reflexivity. Qed.
Definition block3 : mat := mkMat 3 3 (fun i j => INR (1 + i + j)).

(** * C36: enabled-only access *)
Theorem C36_values : forall s v,
  (length v = num_enabled s ->
   exists s', set_values_enabled s v = Ok s' /\ values_enabled s' = v /\
     ps_cov s' = ps_cov s /\ enabled_bool_list s' = enabled_bool_list s /\
     Forall2 (fun p p' => if p_enabled p then same_but_value p p' else p' = p) (ps_params s) (ps_params s')) /\
  (length v <> num_enabled s -> set_values_enabled s v = Err ValueError).
Proof.
  intros s v. split.
  - intro H. rewrite <- targets_enabled in H. destruct (ps_set_ok s v KValue true H) as [l [E _]].
    eexists. split; [exact E|]. split; [exact (enabled_read_back _ _ _ _ E)|].
    apply ps_set_inv in E as [_ [C [_ [F _]]]]. split; [exact C|]. split; [exact (assigned_enabled _ _ _ _ F)|].
    revert F. apply Forall2_impl. intros p p'. unfold assigned, live. destruct (p_enabled p) eqn:E; cbn.
    + intros [x ->]. unfold same_but_value. cbn. auto.
    + auto.
  - intro H. apply ps_set_bad. now rewrite targets_enabled.
Qed.
Print Assumptions C36_values.

Theorem C36_all_values : forall s v,
  (length v = ps_len s ->
   exists s', set_values s v = Ok s' /\ enabled_bool_list s' = enabled_bool_list s /\
     (forall i b x, nth_error (enabled_bool_list s) i = Some b -> nth_error v i = Some x ->
        nth_error (values s') i = if b then Some x else nth_error (values s) i) /\
     (* the values of the switched-off parameters are kept for later *)
     values (ps_enable s') = v) /\
  (length v <> ps_len s -> set_values s v = Err ValueError).
Proof.
  intros s v. split.
  - intro H. assert (H' := H). rewrite <- targets_all in H. destruct (ps_set_ok s v KValue false H) as [l [E _]].
    eexists. split; [exact E|]. assert (E' := E). apply set_values_stored in E' as [V [D _]].
    apply ps_set_inv in E as [_ [_ [_ [F _]]]]. cbn [ps_params ps_set_params] in *. assert (B := assigned_enabled _ _ _ _ F).
    split; [exact B|]. split.
    + intros i b x Hb Hx. unfold enabled_bool_list in Hb. rewrite nth_error_map' in Hb.
      destruct (nth_error (ps_params s) i) as [p|] eqn:Hp; [|discriminate]. injection Hb as <-.
      destruct (nth_error_lt_Some l i) as [q Hq].
      { rewrite <- (Forall2_len _ _ _ F). eapply nth_error_Some_lt; eauto. }
      rewrite (values_nth (ps_set_params s l) i q Hq), (values_nth s i p Hp).
      assert (p_enabled q = p_enabled p) as EB.
      { assert (nth_error (map p_enabled l) i = nth_error (map p_enabled (ps_params s)) i) as X by congruence.
        rewrite !nth_error_map', Hp, Hq in X. now injection X. }
      assert (p_default q = p_default p) as ED.
      { assert (nth_error (map p_default l) i = nth_error (map p_default (ps_params s)) i) as X by congruence.
        rewrite !nth_error_map', Hp, Hq in X. now injection X. }
      assert (p_stored q = x) as ES.
      { assert (nth_error (map p_stored l) i = Some x) as X by congruence.
        rewrite nth_error_map', Hq in X. now injection X. }
      unfold p_value. rewrite EB. destruct (p_enabled p); congruence.
    + unfold values. rewrite ps_get_all. cbn. rewrite map_map. exact V.
  - intro H. apply ps_set_bad. now rewrite targets_all.
Qed.
Print Assumptions C36_all_values.

Theorem C36_covariance : forall s m,
  (square_of (num_enabled s) m ->
   exists s', set_covariance_matrix s m = Ok s' /\
     (exists m', get_covariance s' true = Ok m' /\ mat_eq m' m) /\
     variances_enabled s' = np_diag m /\ values s' = values s /\ enabled_bool_list s' = enabled_bool_list s /\
     square_of (ps_len s) (ps_cov s') /\
     (forall i j, nth_error (enabled_bool_list s) i = Some false \/ nth_error (enabled_bool_list s) j = Some false ->
        m_at (ps_cov s') i j = 0) /\
     Forall2 (fun p p' => p_enabled p = false -> p' = p) (ps_params s) (ps_params s')) /\
  (square_of (ps_len s) m ->
   exists s', set_covariance_matrix s m = Ok s' /\
     (exists m', get_covariance s' false = Ok m' /\ mat_eq m' m) /\
     values s' = values s /\ enabled_bool_list s' = enabled_bool_list s /\
     forall i b, nth_error (enabled_bool_list s) i = Some b -> nth_error (variances s') i = Some (if b then m_at m i i else 0)) /\
  (~ square_of (num_enabled s) m -> ~ square_of (ps_len s) m -> set_covariance_matrix s m = Err AlignmentParametersError).
Proof.
  intros s m. split; [|split].
  - intro Q. destruct (Nat.eq_dec (num_enabled s) (ps_len s)) as [L|L].
    + assert (square_of (ps_len s) m) as Q' by (rewrite <- L; exact Q).
      destruct (full_covariance s m Q') as [s' [E [ME [B [V [D F]]]]]].
      exists s'. split; [exact E|]. assert (ps_len s' = ps_len s) as LS by (eapply assigned_len; eauto).
      assert (square_of (ps_len s) (ps_cov s')) as SQ by (destruct ME as [M1 [M2 _]], Q' as [Q1 Q2]; split; congruence).
      assert (NE : num_enabled s' = num_enabled s) by (rewrite !num_enabled_count; congruence).
      assert (forall i, (i < ps_len s)%nat -> nth_true (enabled_bool_list s') i i) as AT.
      { intros i Hi. apply all_true_positions; rewrite ?flags_length, ?LS; [|exact Hi].
        rewrite <- num_enabled_count. congruence. }
      split.
      { destruct (get_covariance_ok s') as [m' [G [[G1 G2] GE]]]; [rewrite LS; exact SQ|].
        exists m'. split; [exact G|]. destruct Q as [Qr Qc]. split; [congruence|]. split; [congruence|].
        intros i j Hi Hj. rewrite (GE i j i j) by (apply AT; congruence). apply ME; destruct SQ; congruence. }
      split.
      { apply nth_error_ext. intro i. destruct (Nat.lt_ge_cases i (ps_len s)) as [Hi|Hi].
        - destruct (nth_error_lt_Some (ps_params s') i) as [p Hp]; [rewrite <- ps_len_eq; congruence|].
          assert (nth_error (np_diag m) i = Some (p_stored_var p)) as -> by (rewrite <- D, nth_error_map', Hp; reflexivity).
          eapply variances_enabled_nth; [reflexivity|exact Hp|]. now apply AT.
        - transitivity (@None R); [|symmetry]; apply nth_error_None.
          + unfold variances_enabled. rewrite ps_get_enabled, map_length, <- num_enabled_eq. lia.
          + rewrite diag_length. destruct Q' as [-> ->]. lia. }
      split; [exact V|]. split; [exact B|]. split; [exact SQ|]. split.
      { intros i j H. exfalso. destruct H as [H|H]; assert (X := nth_error_Some_lt _ _ _ H); rewrite flags_length in X;
          destruct (AT _ X) as [Y _]; congruence. }
      { assert (forall p, In p (ps_params s) -> p_enabled p = true) as AE.
        { intros p Hp. apply In_nth_error in Hp as [i Hp]. assert (X := nth_error_Some_lt _ _ _ Hp).
          rewrite <- ps_len_eq in X. destruct (AT _ X) as [Y _]. rewrite B, (enabled_nth _ _ _ Hp) in Y. congruence. }
        clear -F AE. induction F as [|p p' l l' _ _ IH]; constructor.
        - intro H. rewrite AE in H by now left. discriminate.
        - apply IH. intros q Hq. apply AE. now right. }
    + destruct (block_covariance s m Q L) as [s' [E [B [V [D [F [SQ [IN OUT]]]]]]]].
      assert (ps_len s' = ps_len s) as LS by (eapply assigned_len; eauto).
      assert (NE : num_enabled s' = num_enabled s) by (rewrite !num_enabled_count; congruence).
      exists s'. split; [exact E|]. split.
      { destruct (get_covariance_ok s') as [m' [G [[G1 G2] GE]]]; [rewrite LS; exact SQ|].
        exists m'. split; [exact G|]. destruct Q as [Qr Qc]. split; [congruence|]. split; [congruence|].
        intros a b Ha Hb. rewrite G1 in Ha. rewrite G2 in Hb. rewrite num_enabled_count, <- true_positions_length in Ha, Hb.
        destruct (nth_error_lt_Some _ _ Ha) as [i Hi]. destruct (nth_error_lt_Some _ _ Hb) as [j Hj].
        apply true_positions_nth in Hi, Hj. rewrite (GE a b i j Hi Hj). apply IN; rewrite <- B; assumption. }
      split; [exact D|]. split; [exact V|]. split; [exact B|]. split; [exact SQ|]. split.
      { intros i j [H|H]; apply OUT; [left|right]; congruence. }
      revert F. apply Forall2_impl. intros p p' H E'. unfold assigned, live in H. rewrite E' in H. exact H.
  - intro Q. destruct (full_covariance s m Q) as [s' [E [ME [B [V [D F]]]]]].
    exists s'. split; [exact E|]. split; [eexists; split; [reflexivity|exact ME]|]. split; [exact V|]. split; [exact B|].
    intros i b Hb. rewrite <- B in Hb. unfold enabled_bool_list in Hb. rewrite nth_error_map' in Hb.
    destruct (nth_error (ps_params s') i) as [p|] eqn:Hp; [|discriminate]. injection Hb as <-.
    unfold variances. rewrite ps_get_all, nth_error_map', Hp. cbn. unfold p_variance. f_equal.
    destruct (p_enabled p); [|reflexivity].
    assert (nth_error (np_diag m) i = Some (p_stored_var p)) as X by (rewrite <- D, nth_error_map', Hp; reflexivity).
    assert (Y := nth_error_Some_lt _ _ _ X). rewrite diag_length in Y. rewrite diag_nth in X by exact Y. congruence.
  - intros A B. apply bad_covariance. tauto.
Qed.
Print Assumptions C36_covariance.

Theorem C36_disabled_report_default : forall s,
  (forall i p, nth_error (ps_params s) i = Some p -> p_enabled p = false ->
     nth_error (values s) i = Some (p_default p) /\ nth_error (variances s) i = Some 0) /\
  values (ps_disable s) = map p_default (ps_params s) /\ variances (ps_disable s) = map (fun _ => 0) (ps_params s) /\
  num_enabled (ps_disable s) = 0%nat /\
  (* switching off and on again restores the values *)
  (num_enabled s = ps_len s -> values (ps_enable (ps_disable s)) = values s /\ variances (ps_enable (ps_disable s)) = variances s).
Proof.
  intro s. split; [|split; [|split; [|split]]].
  - intros i p Hp E. rewrite (values_nth _ _ _ Hp). unfold variances. rewrite ps_get_all, nth_error_map', Hp. cbn.
    unfold p_value, p_variance. rewrite E. auto.
  - unfold values. rewrite ps_get_all. cbn. rewrite map_map. reflexivity.
  - unfold variances. rewrite ps_get_all. cbn. rewrite map_map. reflexivity.
  - rewrite num_enabled_eq. cbn. rewrite filter_none; [reflexivity|]. intros p Hp. apply in_map_iff in Hp as [q [<- _]]. reflexivity.
  - intro H. assert (forall p, In p (ps_params s) -> p_enabled p = true) as AE.
    { intros p Hp. apply In_nth_error in Hp as [i Hp]. assert (X := nth_error_Some_lt _ _ _ Hp).
      rewrite num_enabled_count, <- flags_length in H.
      destruct (all_true_positions _ H i) as [Y _]; [rewrite flags_length, ps_len_eq; exact X|].
      rewrite (enabled_nth _ _ _ Hp) in Y. congruence. }
    unfold values, variances. rewrite !ps_get_all. cbn. rewrite !map_map.
    split; apply map_ext_in; intros p Hp; cbn; unfold p_value, p_variance; cbn; now rewrite (AE p Hp).
Qed.
Print Assumptions C36_disabled_report_default.

Example C36_case :
  num_enabled three_on = 3%nat /\
  (exists s', set_values_enabled three_on [5; 2; 7] = Ok s' /\ values s' = [0; 0; 5; 0; 0; 0; 2; 7; 0; 0; 0]) /\
  set_values_enabled three_on [5; 2] = Err ValueError /\
  (exists s' m', set_covariance_matrix three_on block3 = Ok s' /\ get_covariance s' true = Ok m' /\
     m_at m' 0 2 = 3 /\ m_at (ps_cov s') 2 7 = 3 /\ m_at (ps_cov s') 2 6 = 2 /\ m_at (ps_cov s') 2 3 = 0 /\
     variances s' = [0; 0; 1; 0; 0; 0; 3; 5; 0; 0; 0]) /\
  set_covariance_matrix three_on (np_zeros 4) = Err AlignmentParametersError.
Proof.
  split; [reflexivity|]. split; [eexists; split; reflexivity|]. split; [reflexivity|]. split; [|reflexivity].
  eexists _, _. split; [reflexivity|]. split; [reflexivity|]. cbn. repeat split; try lra. repeat f_equal; lra.
Qed.

(** * C65: the covariance matrix always has the right shape *)
(** A rejected covariance matrix is stored nevertheless, and the set is unusable afterwards. *)
Theorem C65_rejected_matrix_refuted : exists s m e,
  well_shaped s /\ set_covariance_matrix s m = Err e /\
  let s' := after_set_covariance s m in
  ps_cov s' = m /\ ~ well_shaped s' /\ get_covariance s' true = Err IndexError.
Proof.
  exists three_on, (mkMat 2 2 (fun _ _ => 1)), AlignmentParametersError. split; [exact three_on_shape|].
  split; [reflexivity|]. cbv zeta. split; [reflexivity|]. split; [|reflexivity].
  intros [H _]. vm_compute in H. discriminate.
Qed.
Print Assumptions C65_rejected_matrix_refuted.

Theorem C65_shape_partial :
  (forall l cov s, post_init l cov = Ok s -> well_shaped s /\ ps_len s = length l) /\
  forall s cs, well_shaped s -> history admissible s cs ->
  well_shaped (run_calls s cs) /\ ps_len (run_calls s cs) = ps_len s /\
  exists m, get_covariance (run_calls s cs) true = Ok m /\ square_of (num_enabled (run_calls s cs)) m.
Proof.
  split; [exact post_init_shape|]. intros s cs W H. destruct (run_calls_shape cs s W H) as [A B].
  split; [exact A|]. split; [exact B|]. destruct (get_covariance_ok _ A) as [m [G [Q _]]]. eauto.
Qed.
Print Assumptions C65_shape_partial.

Example C65_case :
  history admissible default_alignment
    [CallFlags [false; false; true; false; false; false; true; true]; CallCovariance block3; CallVariances [1]; CallDisable] /\
  exists s, post_init default_params (np_zeros 11) = Ok s /\ ps_len s = 11%nat.
Proof.
  split; [cbn; repeat split; right; vm_compute; split; reflexivity|]. eexists. split; reflexivity.
Qed.

(** * C66: variances and covariance matrix agree *)
Theorem C66_variances_agree_refuted : exists s cs,
  well_shaped s /\ variances_agree s /\ history admissible s cs /\ ~ variances_agree (run_calls s cs).
Proof.
  exists (mkPset [mkParam 0 4 0 true "a" U_METER; mkParam 0 9 0 true "b" U_METER]
            (mkMat 2 2 (fun i j => if (i =? j)%nat then (if (i =? 0)%nat then 4 else 9) else 0)) true),
         [CallFlags [true; false]; CallCovariance (mkMat 1 1 (fun _ _ => 16)); CallEnable].
  split; [split; reflexivity|]. split; [|split].
  - intros i v. destruct i as [|[|i]]; cbn; [intros _ [= <-]; reflexivity..|]. destruct i; discriminate.
  - cbn. repeat split. right. split; reflexivity.
  - intro H. specialize (H 1%nat 9 eq_refl eq_refl). cbn in H. lra.
Qed.
Print Assumptions C66_variances_agree_refuted.

Theorem C66_no_enabling_partial : forall s cs, well_shaped s -> variances_agree s ->
  history (fun s c => admissible s c /\ turns_nothing_on s c) s cs -> variances_agree (run_calls s cs).
Proof.
  intros s cs W A H. apply agree_reported. apply history_enabled; [exact W|exact H|]. now apply reported_agree.
Qed.
Print Assumptions C66_no_enabling_partial.

Theorem C66_full_matrices_partial : forall s cs, well_shaped s ->
  (forall i p, nth_error (ps_params s) i = Some p -> m_at (ps_cov s) i i = p_stored_var p) ->
  history full_matrices s cs -> variances_agree (run_calls s cs).
Proof.
  intros s cs W A H. apply agree_reported.
  assert (agree_on (fun _ => true) (run_calls s cs)) as X by (apply history_full; [exact W|exact H|]; intros i p Hp _; now apply A).
  intros i p Hp _. now apply X.
Qed.
Print Assumptions C66_full_matrices_partial.

Example C66_case :
  variances_agree three_on /\
  history (fun s c => admissible s c /\ turns_nothing_on s c) three_on [CallCovariance block3; CallVariancesEnabled [1; 2; 3]] /\
  (forall i p, nth_error (ps_params default_alignment) i = Some p -> m_at (ps_cov default_alignment) i i = p_stored_var p) /\
  history full_matrices default_alignment [CallFlags [true]; CallCovariance (np_zeros 11); CallEnable].
Proof.
  split; [|split; [|split]].
  - intros i v _ H. unfold three_on, variances in H. cbn in H. do 11 (destruct i as [|i]; [cbn in H; injection H as <-; reflexivity|]).
    destruct i; discriminate.
  - cbn [history]. split; [split|split; [split|exact I]].
    + right. vm_compute. split; reflexivity.
    + intros i H. exact H.
    + exact I.
    + intros i H. exact H.
  - intros i p H. do 11 (destruct i as [|i]; [cbn in H; injection H as <-; reflexivity|]). destruct i; discriminate.
  - cbn. repeat split.
Qed.

(** * C68: arithmetic on parameters *)
(** Adding or subtracting independent parameters should add their variances; the code combines
    them as if they were standard deviations. *)
Theorem C68_variance_propagation_refuted : exists a b,
  p_enabled a = true /\ p_enabled b = true /\ 0 <= p_variance a /\ 0 <= p_variance b /\
  p_variance (p_add a b) <> p_variance a + p_variance b.
Proof.
  exists (mkParam 1 3 0 true "a" U_METER), (mkParam 2 4 0 true "b" U_METER). cbn. repeat split; try lra.
  unfold p_variance; cbn. intro H.
  assert (sqrt (3 * (3 * 1) + 4 * (4 * 1)) = 5) as X.
  { replace (3 * (3 * 1) + 4 * (4 * 1)) with (5 * 5) by lra. apply sqrt_square. lra. }
  lra.
Qed.
Print Assumptions C68_variance_propagation_refuted.

Theorem C68_values_partial : forall a b,
  p_value (p_add a b) = p_value a + p_value b /\ p_value (p_sub a b) = p_value a - p_value b /\
  p_value (p_neg a) = - p_value a /\ p_variance (p_neg a) = p_variance a /\
  p_value (p_neg (p_neg a)) = p_value a /\
  (p_variance b = 0 -> 0 <= p_variance a -> p_variance (p_add a b) = p_variance a) /\
  (0 <= p_variance a -> 0 <= p_variance b -> p_variance (p_add a b) <= p_variance a + p_variance b).
Proof.
  intros a b. split; [reflexivity|]. split; [reflexivity|].
  assert (forall p, p_value (p_neg p) = - p_value p) as N by (intro p; unfold p_value; cbn; unfold p_value; destruct (p_enabled p); reflexivity).
  split; [apply N|]. split; [unfold p_variance; cbn; unfold p_variance; destruct (p_enabled a); reflexivity|].
  split; [rewrite !N; lra|].
  change (p_variance (p_add a b)) with (sqrt (p_variance a ^ 2 + p_variance b ^ 2)). split.
  - intros -> H. replace (p_variance a ^ 2 + 0 ^ 2) with (p_variance a * p_variance a) by ring. now apply sqrt_square.
  - intros Ha Hb. rewrite <- (sqrt_square (p_variance a + p_variance b)) by lra. apply sqrt_le_1_alt. nra.
Qed.
Print Assumptions C68_values_partial.

(** * C37: settings decide what is estimated *)
Theorem C37_settings : forall s e, ps_len s = 11%nat ->
  enabled_bool_list (apply_settings s e) = requested e /\
  lq_parameter_filter e = requested e /\
  num_enabled (apply_settings s e) = count_true (requested e) /\
  (time_shift_enabled e = true <-> time_shift e = true /\ (use_x_speed e = true \/ use_y_speed e = true \/ use_z_speed e = true)) /\
  (est_bool e = true <-> exists i, nth_error (requested e) i = Some true) /\
  (all_disabled e = true <-> sensor_rotation e = false /\ forall i, nth_error (requested e) i <> Some true).
Proof.
  intros s e L. split; [now apply apply_settings_mask|]. split; [apply lq_filter_requested|].
  split; [rewrite num_enabled_count; now rewrite apply_settings_mask|].
  split. { rewrite time_shift_enabled_eq. rewrite !Bool.andb_true_iff, !Bool.orb_true_iff. tauto. }
  assert (any [helmert_enabled e; time_shift_enabled e; leverarm_enabled e] = any (requested e)) as X.
  { unfold requested. rewrite <- time_shift_enabled_eq. unfold any, helmert_enabled, leverarm_enabled, any. cbn [existsb].
    rewrite !Bool.orb_false_r, <- !Bool.orb_assoc. reflexivity. }
  assert (any (requested e) = true <-> exists i, nth_error (requested e) i = Some true) as Y.
  { unfold any. rewrite existsb_exists. split.
    - intros [b [Hb ->]]. now apply In_nth_error in Hb.
    - intros [i Hi]. exists true. split; [eapply nth_error_In; eauto|reflexivity]. }
  split.
  - unfold est_bool, all_lq_disabled. rewrite X, Bool.negb_involutive. exact Y.
  - unfold all_disabled. replace (any [helmert_enabled e; time_shift_enabled e; leverarm_enabled e; sensor_rotation e])
      with (any (requested e) || sensor_rotation e)%bool.
    + rewrite Bool.negb_true_iff, Bool.orb_false_iff. rewrite <- Bool.not_true_iff_false, Y.
      split; [intros [A ->]; split; [reflexivity|intros i Hi; apply A; eauto]|intros [-> A]; split; [intros [i Hi]; exact (A i Hi)|reflexivity]].
    + rewrite <- X. unfold any. cbn [existsb]. rewrite !Bool.orb_false_r, <- !Bool.orb_assoc. reflexivity.
Qed.
Print Assumptions C37_settings.

(** The columns kept of a design-matrix row are those of the enabled parameters, in their order, one
    per estimated parameter; choosing among the columns of the enabled groups gives the same. *)
Theorem C37_columns : forall {A} s e (helmert : list A) (shift : A) (lever : list A),
  ps_len s = 11%nat -> length helmert = 7%nat -> length lever = 3%nat ->
  let row := helmert ++ [shift] ++ lever in
  exists cols, np_mask row (lq_parameter_filter e) = Ok cols /\
  cols = select (enabled_bool_list (apply_settings s e)) row /\
  length cols = num_enabled (apply_settings s e) /\
  np_mask ((if helmert_enabled e then helmert else []) ++ (if time_shift_enabled e then [shift] else [])
           ++ (if leverarm_enabled e then lever else [])) (enabled_lq_parameter_filter e) = Ok cols.
Proof.
  intros A s e helmert shift lever L LH LL row.
  assert (length (lq_parameter_filter e) = length row) as LF.
  { rewrite lq_filter_requested. unfold row. rewrite !app_length, LH, LL. reflexivity. }
  exists (select (lq_parameter_filter e) row). split; [now apply np_mask_select|].
  split; [now rewrite lq_filter_requested, apply_settings_mask|].
  split. { rewrite select_length by exact LF. rewrite num_enabled_count, apply_settings_mask by exact L. now rewrite lq_filter_requested. }
  unfold enabled_lq_parameter_filter.
  assert (length (helmert_filter e) = 7%nat) as H7 by (now rewrite helmert_filter_eq).
  assert (length (leverarm_filter e) = 3%nat) as H3 by (now rewrite leverarm_filter_eq).
  rewrite np_mask_select.
  2: { rewrite !app_length. destruct (helmert_enabled e), (time_shift_enabled e), (leverarm_enabled e); cbn [length]; lia. }
  f_equal. unfold row, lq_parameter_filter.
  rewrite (select_app (helmert_filter e)) by congruence.
  rewrite (select_app [time_shift_enabled e]) by reflexivity.
  rewrite (select_app (if helmert_enabled e then helmert_filter e else [])) by (destruct (helmert_enabled e); [congruence|reflexivity]).
  rewrite (select_app (if time_shift_enabled e then [time_shift e] else [])) by (destruct (time_shift_enabled e); reflexivity).
  f_equal; [|f_equal].
  - destruct (helmert_enabled e) eqn:E; [reflexivity|]. cbn. symmetry. apply select_none. rewrite helmert_filter_eq. exact E.
  - destruct (time_shift_enabled e) eqn:E; [|reflexivity]. rewrite time_shift_enabled_eq in E. apply andb_prop in E as [-> _]. reflexivity.
  - destruct (leverarm_enabled e) eqn:E; [reflexivity|]. cbn. symmetry. apply select_none. rewrite leverarm_filter_eq. exact E.
Qed.
Print Assumptions C37_columns.

(** The constructors by components switch on exactly the groups asked for. *)
Theorem C37_components : forall similarity shift lever sensor auto,
  let e := from_components similarity shift lever sensor auto in
  requested e = repeat similarity 7 ++ [shift] ++ repeat lever 3 /\
  helmert_enabled e = similarity /\ time_shift_enabled e = shift /\ leverarm_enabled e = lever /\ sensor_rotation e = sensor /\
  requested (est_all sensor auto) = repeat true 11.
Proof. intros [] [] [] s a; repeat split. Qed.
Print Assumptions C37_components.

Example C37_case :
  let e := mkEst true false false false false true false true false true false false false true false false in
  requested e = [true; false; false; false; false; true; false; true; false; false; true] /\
  time_shift_enabled e = true /\ enabled_bool_list (apply_settings three_on e) = requested e /\
  np_mask [0; 1; 2; 3; 4; 5; 6; 7; 8; 9; 10]%nat (lq_parameter_filter e) = Ok [0; 5; 7; 10]%nat /\
  requested (mkEst false false false false false false false true false false false false false false true true) = repeat false 11.
Proof. repeat split. Qed.

(** * C38: parameters from settings *)
Theorem C38_from_settings_refuted : exists e,
  enabled_bool_list (from_settings e) <> requested e.
Proof.
  exists (mkEst true false false false false false false false true true true false false false false false). cbn. discriminate.
Qed.
Print Assumptions C38_from_settings_refuted.

(** Exactly when the result follows the settings, and what it is otherwise. *)
Theorem C38_from_settings_partial : forall e,
  (enabled_bool_list (from_settings e) = requested e <->
   trans_y e = trans_x e /\ trans_z e = trans_x e /\
   (time_shift e = true -> use_x_speed e = true \/ use_y_speed e = true \/ use_z_speed e = true)) /\
  skipn 3 (firstn 7 (enabled_bool_list (from_settings e))) = skipn 3 (firstn 7 (requested e)) /\
  skipn 8 (enabled_bool_list (from_settings e)) = skipn 8 (requested e) /\
  values (from_settings e) = values default_alignment /\
  enabled_bool_list (apply_settings (from_settings e) e) = requested e.
Proof.
  intro e. split; [|split; [reflexivity|split; [reflexivity|split]]].
  - unfold requested. cbn. split.
    + intros [= Hy Hz Ht]. split; [congruence|]. split; [congruence|]. intro T. rewrite T in Ht. cbn in Ht. symmetry in Ht.
      rewrite !Bool.orb_true_iff in Ht. tauto.
    + intros [-> [-> H]]. repeat f_equal. destruct (time_shift e); [|reflexivity]. cbn. symmetry.
      rewrite !Bool.orb_true_iff. destruct (H eq_refl); tauto.
  - unfold values. rewrite !ps_get_all. cbn. unfold p_value. cbn.
    destruct (trans_x e), (rot_x e), (rot_y e), (rot_z e); destruct (scale e), (time_shift e), (lever_x e), (lever_y e), (lever_z e); reflexivity.
  - apply apply_settings_mask. rewrite ps_len_eq. reflexivity.
Qed.
Print Assumptions C38_from_settings_partial.

Example C38_case :
  let e := from_components true true false false false in
  trans_y e = trans_x e /\ trans_z e = trans_x e /\ enabled_bool_list (from_settings e) = requested e.
Proof. repeat split. Qed.

(** * C67: from parameters back to settings *)
Theorem C67_settings_of_parameters : forall s,
  (ps_len s = 11%nat -> exists e, to_estimation_settings s = Ok e /\
     requested e = enabled_bool_list s /\
     forall s', ps_len s' = 11%nat -> enabled_bool_list (apply_settings s' e) = enabled_bool_list s) /\
  (forall e0, ps_len s = 11%nat -> exists e, to_estimation_settings (apply_settings s e0) = Ok e /\ requested e = requested e0).
Proof.
  assert (forall s, ps_len s = 11%nat -> exists e, to_estimation_settings s = Ok e /\ requested e = enabled_bool_list s) as X.
  { intros s L. unfold to_estimation_settings. assert (length (enabled_bool_list s) = 11%nat) as LB by (now rewrite flags_length).
    destruct (enabled_bool_list s) as [|b l]; [discriminate|].
    do 10 (destruct l as [|? l]; [discriminate|]). destruct l; [|discriminate]. eexists. split; [reflexivity|].
    unfold requested. cbn. now rewrite Bool.andb_true_r. }
  intro s. split.
  - intro L. destruct (X s L) as [e [E R]]. exists e. split; [exact E|]. split; [exact R|].
    intros s' L'. now rewrite apply_settings_mask.
  - intros e0 L. destruct (X (apply_settings s e0)) as [e [E R]].
    + rewrite ps_len_eq. cbn. now rewrite set_flags_length, <- ps_len_eq.
    + exists e. split; [exact E|]. rewrite R. now apply apply_settings_mask.
Qed.
Print Assumptions C67_settings_of_parameters.

Theorem C67_from_bool_list : forall l,
  (length l = 14%nat -> exists e, from_bool_list l = Ok e /\ requested e = firstn 11 l /\
     (sensor_rotation e = true <-> In true (skipn 11 l))) /\
  (length l <> 14%nat -> from_bool_list l = Err ValueError).
Proof.
  intro l. split; intro L.
  - destruct l as [|b l]; [discriminate|]. do 13 (destruct l as [|? l]; [discriminate|]). destruct l; [|discriminate].
    eexists. split; [reflexivity|]. split; [unfold requested; cbn; now rewrite Bool.andb_true_r|].
    cbn [sensor_rotation skipn]. unfold any. rewrite existsb_exists. split.
    + intros [x [Hx ->]]. exact Hx.
    + intro H. exists true. auto.
  - destruct l as [|b l]; [reflexivity|]. do 13 (destruct l as [|? l]; [reflexivity|]). destruct l; [|reflexivity]. cbn in L. lia.
Qed.
Print Assumptions C67_from_bool_list.

Example C67_case :
  exists e, to_estimation_settings three_on = Ok e /\ scale e = true /\ trans_z e = true /\ trans_x e = false /\
  from_bool_list [true; false] = Err ValueError.
Proof. eexists. repeat split. Qed.

(** * C39: parameter files *)
(** No parameter file written by the parameters themselves can be read back. *)
Theorem C39_parameter_file_refuted : forall s,
  ps_len s = 11%nat -> square_of 11 (ps_cov s) ->
  params_from_file (params_to_file s) = Err AlignmentParametersError.
Proof. exact params_to_file_unreadable. Qed.
Print Assumptions C39_parameter_file_refuted.

(** Result files do carry the parameters. *)
Theorem C39_result_file_partial : forall fmt name r,
  decimal_format 15 fmt ->
  ps_len (position_parameters r) = 11%nat -> square_of 11 (ps_cov (position_parameters r)) ->
  ps_len (rotation_parameters r) = 3%nat ->
  standard_defaults default_params (position_parameters r) ->
  standard_defaults default_sensor_params (rotation_parameters r) ->
  exists r', result_from_file (result_to_file fmt [] name r) = Ok r' /\
    Forall2 (fun x x' => Rabs (x' - x) <= / 2 * / 10 ^ 15) (values (position_parameters r)) (values (position_parameters r')) /\
    enabled_bool_list (position_parameters r') = enabled_bool_list (position_parameters r) /\
    square_of 11 (ps_cov (position_parameters r')) /\
    (forall i j, (i < 11)%nat -> (j < 11)%nat ->
       Rabs (m_at (ps_cov (position_parameters r')) i j - m_at (ps_cov (position_parameters r)) i j) <= / 2 * / 10 ^ 15) /\
    values (rotation_parameters r') = values (rotation_parameters r) /\
    enabled_bool_list (rotation_parameters r') = enabled_bool_list (rotation_parameters r) /\
    requested (estimation_of r') = enabled_bool_list (position_parameters r) /\
    (sensor_rotation (estimation_of r') = true <-> In true (enabled_bool_list (rotation_parameters r))).
Proof.
  intros fmt name r HF LP SQ LR SP SR.
  destruct (result_round_trip fmt name r HF LP SQ LR SP SR) as [r' [E [V [B [[M1 [M2 M]] [V2 [B2 ES]]]]]]].
  exists r'. split; [exact E|]. split.
  { rewrite V. generalize (values (position_parameters r)) as l. induction l; constructor; [apply HF|assumption]. }
  split; [exact B|]. split; [split; assumption|]. split.
  { intros i j Hi Hj. rewrite M by (cbn in *; congruence). cbn. apply HF. }
  split; [exact V2|]. split; [exact B2|].
  set (l := enabled_bool_list (position_parameters r) ++ enabled_bool_list (rotation_parameters r)) in *.
  assert (length (enabled_bool_list (position_parameters r)) = 11%nat) as L11 by (now rewrite flags_length).
  assert (length l = 14%nat) as L14 by (unfold l; now rewrite app_length, !flags_length, LP, LR).
  destruct (proj1 (C67_from_bool_list l) L14) as [e [E' [RQ SE]]]. rewrite ES in E'. injection E' as <-.
  unfold l in RQ, SE. rewrite firstn_app, L11, Nat.sub_diag, <- L11, firstn_all in RQ. cbn in RQ. rewrite app_nil_r in RQ.
  rewrite skipn_app, L11, Nat.sub_diag, <- L11, skipn_all in SE. auto.
Qed.
Print Assumptions C39_result_file_partial.

(** Writing to an existing result file makes it unreadable: the rows are appended. *)
Theorem C39_append_refuted : forall fmt n1 n2 r1 r2,
  ps_len (position_parameters r1) = 11%nat -> square_of 11 (ps_cov (position_parameters r1)) -> ps_len (rotation_parameters r1) = 3%nat ->
  ps_len (position_parameters r2) = 11%nat -> square_of 11 (ps_cov (position_parameters r2)) -> ps_len (rotation_parameters r2) = 3%nat ->
  exists e, result_from_file (result_to_file fmt (result_to_file fmt [] n1 r1) n2 r2) = Err e.
Proof. exact result_twice. Qed.
Print Assumptions C39_append_refuted.

Definition some_result : align_result :=
  mkResult three_on default_sensor (est_all true false) true.
Example C39_case :
  (exists fmt, decimal_format 15 fmt) /\
  ps_len (position_parameters some_result) = 11%nat /\ square_of 11 (ps_cov (position_parameters some_result)) /\
  ps_len (rotation_parameters some_result) = 3%nat /\
  standard_defaults default_params (position_parameters some_result) /\
  standard_defaults default_sensor_params (rotation_parameters some_result).
Proof.
  split; [exists (round_decimals 15); apply round_decimals_format|].
  split; [reflexivity|]. split; [split; reflexivity|]. split; [reflexivity|]. split.
  - intros i p q Hp Hq _. do 11 (destruct i as [|i]; [cbn in Hp, Hq; injection Hp as <-; injection Hq as <-; reflexivity|]).
    destruct i; discriminate.
  - intros i p q Hp Hq _. do 3 (destruct i as [|i]; [cbn in Hp, Hq; injection Hp as <-; injection Hq as <-; reflexivity|]).
    destruct i; discriminate.
Qed.
