(** Properties of the Gauss-Helmert adjustment: C82 to C85. *)
From Coq Require Import Ranalysis1.
From Verif Require Import Base BaseFacts NumpyModel TrajModel ParamModel DataModel EstModel GeomModel
  JacModel JacSpec JacFacts2 JacProps LsqModel LsqSpec LsqFacts GhmModel GhmSpec GhmFacts2 GhmFacts3 GhmFacts4 GhmCase.

(** ** C82: one iteration solves the linearised problem *)
(** [Jp] and [Jl] are the derivatives of the misclosures with respect to parameters and observations at the current state,
    [w] the contradictions. The changed parameters and the residuals close the linearised equations, parameters that are not
    estimated stay as they are, and among all ways to close the equations the weighted squares of the residuals are the
    smallest, in one way only. *)
Theorem C82_optimal : forall solve egrad s d n l w delta v s' Jp Jl,
  solve_contract solve -> egrad_contract egrad -> ready s d n -> Forall (fun x => 0 < x) (a_var d) -> length w = (3 * n)%nat ->
  jacobian (fun q => misclosures (a_est d) (params_of q) n (est_obs_vector d)) (values s) (3 * n) Jp ->
  jacobian (misclosures (a_est d) (params_of (values s)) n) (est_obs_vector d) (3 * n) Jl ->
  ghm_linearise egrad s d = Ok l -> ghm_deltas solve l d w = Ok delta -> ghm_residuals solve l d delta w = Ok v ->
  ghm_add_deltas s delta = Ok s' ->
  let change := vminus (values s') (values s) in
  allowed s change /\ length v = length (a_obs d) /\ closes (3 * n) Jp Jl w change v /\
  forall dp dv, allowed s dp -> length dv = length (a_obs d) -> closes (3 * n) Jp Jl w dp dv ->
    weighted (a_var d) v <= weighted (a_var d) dv /\ (weighted (a_var d) dv <= weighted (a_var d) v -> dv = v).
Proof.
  intros solve egrad s d n l w delta v s' Jp Jl CS CE RD PV LW JP JL HL HD HR HA.
  exact (iteration_optimal solve egrad CS CE s d n l RD HL Jp Jl JP JL w delta v s' LW PV HD HR HA).
Qed.
Print Assumptions C82_optimal.

(** If the derivatives determine the estimated parameters, no other change of them is as good. *)
Theorem C82_unique : forall solve egrad s d n l w delta v s' Jp Jl,
  solve_contract solve -> egrad_contract egrad -> ready s d n -> Forall (fun x => 0 < x) (a_var d) -> length w = (3 * n)%nat ->
  jacobian (fun q => misclosures (a_est d) (params_of q) n (est_obs_vector d)) (values s) (3 * n) Jp ->
  jacobian (misclosures (a_est d) (params_of (values s)) n) (est_obs_vector d) (3 * n) Jl -> determined s n Jp ->
  ghm_linearise egrad s d = Ok l -> ghm_deltas solve l d w = Ok delta -> ghm_residuals solve l d delta w = Ok v ->
  ghm_add_deltas s delta = Ok s' ->
  forall dp dv, allowed s dp -> length dv = length (a_obs d) -> closes (3 * n) Jp Jl w dp dv ->
    weighted (a_var d) dv <= weighted (a_var d) v -> dv = v /\ dp = vminus (values s') (values s).
Proof.
  intros solve egrad s d n l w delta v s' Jp Jl CS CE RD PV LW JP JL DT HL HD HR HA dp dv AL LV CL LE.
  destruct (iteration_optimal solve egrad CS CE s d n l RD HL Jp Jl JP JL w delta v s' LW PV HD HR HA) as [A1 [L1 [C1 O1]]].
  destruct (O1 dp dv AL LV CL) as [_ U]. specialize (U LE). split; [exact U|]. subst dv.
  exact (same_change s d n Jp Jl w v _ _ RD DT A1 AL C1 CL).
Qed.
Print Assumptions C82_unique.

(** ** C83: where the iteration comes to rest *)
(** If an iteration changes nothing, neither parameters nor residuals nor contradictions, then the adjusted observations and
    the parameters satisfy the equations exactly, and the residuals are orthogonal, in the metric of the variances, to
    every change of the observations that the equations allow: no neighbouring solution has smaller weighted squares, up to
    terms of second order. *)
Theorem C83_fixed_point : forall solve egrad s d n l w delta s' f Jp Jl,
  solve_contract solve -> egrad_contract egrad -> ready s d n -> Forall (fun x => 0 < x) (a_var d) -> length w = (3 * n)%nat ->
  ghm_linearise egrad s d = Ok l -> ghm_deltas solve l d w = Ok delta -> ghm_residuals solve l d delta w = Ok (a_res d) ->
  ghm_add_deltas s delta = Ok s' -> values s' = values s -> ghm_evaluate s' d = Ok f -> ghm_contradictions l f (a_res d) = Ok w ->
  jacobian (fun q => misclosures (a_est d) (params_of q) n (est_obs_vector d)) (values s) (3 * n) Jp ->
  jacobian (misclosures (a_est d) (params_of (values s)) n) (est_obs_vector d) (3 * n) Jl ->
  misclosures (a_est d) (params_of (values s)) n (est_obs_vector d) = repeat 0 (3 * n) /\
  forall dp dv, allowed s dp -> length dv = length (a_obs d) -> closes (3 * n) Jp Jl (repeat 0 (3 * n)) dp dv ->
    weighted_product (a_var d) (a_res d) dv = 0.
Proof. intros solve egrad s d n l w delta s' f Jp Jl CS CE. apply fixed_point; assumption. Qed.
Print Assumptions C83_fixed_point.

(** ** C84: exact data *)
(** If the observations satisfy the equations with the initial values and the derivatives determine the parameters, the
    adjustment stops after one iteration with these values and without residuals. *)
Theorem C84_adjustment : forall solve egrad pinv init ths s d n s' d' converged updates Jp Jl,
  solve_contract solve -> egrad_contract egrad -> ready s d n -> Forall (fun x => 0 < x) (a_var d) -> Forall (fun t => 0 <= t) ths ->
  misclosures (a_est d) (params_of (values s)) n (a_obs d) = repeat 0 (3 * n) ->
  jacobian (fun q => misclosures (a_est d) (params_of q) n (a_obs d)) (values s) (3 * n) Jp ->
  jacobian (misclosures (a_est d) (params_of (values s)) n) (a_obs d) (3 * n) Jl -> determined s n Jp ->
  adjustment (ghm solve egrad pinv init) ths s d = Ok (s', d', converged, updates) ->
  converged = true /\ values s' = values s /\ enabled_bool_list s' = enabled_bool_list s /\
  d' = with_vector d Res (repeat 0 (length (a_obs d))) /\ length updates = 1%nat.
Proof. intros solve egrad pinv init ths s d n s' d' converged updates Jp Jl CS CE. apply exact_adjustment; assumption. Qed.
Print Assumptions C84_adjustment.

Theorem C84_estimate : forall solve egrad pinv init ths s d n p ok runs Jp Jl,
  solve_contract solve -> egrad_contract egrad -> init (a_est d) (a_obs d) = Ok s -> all_lq_disabled (a_est d) = false ->
  ready s d n -> Forall (fun x => 0 < x) (a_var d) -> Forall (fun t => 0 <= t) ths ->
  misclosures (a_est d) (params_of (values s)) n (a_obs d) = repeat 0 (3 * n) ->
  jacobian (fun q => misclosures (a_est d) (params_of q) n (a_obs d)) (values s) (3 * n) Jp ->
  jacobian (misclosures (a_est d) (params_of (values s)) n) (a_obs d) (3 * n) Jl -> determined s n Jp ->
  estimate (ghm solve egrad pinv init) ths false d = Ok (p, ok, runs) -> ok = true /\ values p = values s.
Proof. intros solve egrad pinv init ths s d n p ok runs Jp Jl CS CE. apply exact_estimate; assumption. Qed.
Print Assumptions C84_estimate.

(** With estimation of the variances the same data never give a result: the variance factor is zero, all variances are
    multiplied by it, and the second adjustment has to divide by them. *)
Theorem C84_variances_refuted : forall solve egrad pinv init ths s d n r Jp Jl,
  solve_contract solve -> egrad_contract egrad -> init (a_est d) (a_obs d) = Ok s -> all_lq_disabled (a_est d) = false ->
  ready s d n -> Forall (fun x => 0 < x) (a_var d) -> Forall (fun t => 0 <= t) ths ->
  misclosures (a_est d) (params_of (values s)) n (a_obs d) = repeat 0 (3 * n) ->
  jacobian (fun q => misclosures (a_est d) (params_of q) n (a_obs d)) (values s) (3 * n) Jp ->
  jacobian (misclosures (a_est d) (params_of (values s)) n) (a_obs d) (3 * n) Jl -> determined s n Jp ->
  (3 * n)%nat <> length (filter p_enabled (ps_params s)) -> estimate (ghm solve egrad pinv init) ths true d <> Ok r.
Proof. intros solve egrad pinv init ths s d n r Jp Jl CS CE. rewrite <- num_enabled_filter. apply exact_with_variances; assumption. Qed.
Print Assumptions C84_variances_refuted.

(** ** C85: variances *)
(** The variance factor is the sum of the weighted squared residuals divided by the number of equations minus the number of
    estimated parameters, if these are not the same. *)
Theorem C85_factor : forall solve s d n factor, solve_contract solve -> ready s d n -> Forall (fun x => 0 < x) (a_var d) ->
  length (a_res d) = length (a_var d) -> (3 * n)%nat <> length (filter p_enabled (ps_params s)) -> ghm_variance_factor solve s d = Ok factor ->
  factor = Fin (weighted (a_var d) (a_res d) / (INR (3 * n) - INR (length (filter p_enabled (ps_params s))))).
Proof.
  intros solve s d n factor CS RD PV L NR H. assert (ER : redundancy s d = (Z.of_nat (3 * n) - Z.of_nat (length (filter p_enabled (ps_params s))))%Z).
  { unfold redundancy. rewrite num_enabled_filter. destruct RD as [_ _ R3 _]. rewrite (epochs_count _ _ n R3). lia. }
  destruct (variance_factor_spec solve s d factor CS PV L H) as [[_ ->]|[Z _]]; [|lia].
  rewrite ER, minus_IZR, <- !INR_IZR_INZ. reflexivity.
Qed.
Print Assumptions C85_factor.

(** Variances multiplied by their variance factor have the factor one. *)
Theorem C85_scaled_factor : forall solve s d factor, solve_contract solve -> Forall (fun x => 0 < x) (a_var d) ->
  length (a_res d) = length (a_var d) -> 0 < factor -> ghm_variance_factor solve s d = Ok (Fin factor) ->
  forall factor', ghm_variance_factor solve s (rescaled factor d) = Ok factor' -> factor' = Fin 1.
Proof. exact rescaled_factor. Qed.
Print Assumptions C85_scaled_factor.

(** Multiplying all variances by the same factor changes neither the residuals nor the parameters of an iteration. *)
Theorem C85_scale_free : forall solve egrad s d n c w l l' delta delta' v v' s1 s1' Jp Jl,
  solve_contract solve -> egrad_contract egrad -> 0 < c -> ready s d n -> Forall (fun x => 0 < x) (a_var d) -> length w = (3 * n)%nat ->
  jacobian (fun q => misclosures (a_est d) (params_of q) n (est_obs_vector d)) (values s) (3 * n) Jp ->
  jacobian (misclosures (a_est d) (params_of (values s)) n) (est_obs_vector d) (3 * n) Jl -> determined s n Jp ->
  ghm_linearise egrad s d = Ok l -> ghm_deltas solve l d w = Ok delta -> ghm_residuals solve l d delta w = Ok v -> ghm_add_deltas s delta = Ok s1 ->
  ghm_linearise egrad s (rescaled c d) = Ok l' -> ghm_deltas solve l' (rescaled c d) w = Ok delta' ->
  ghm_residuals solve l' (rescaled c d) delta' w = Ok v' -> ghm_add_deltas s delta' = Ok s1' ->
  v' = v /\ values s1' = values s1.
Proof. exact rescaled_step. Qed.
Print Assumptions C85_scale_free.

(** ** Cases *)
(** The source at (1, 2, 3) was seen at (4, 5, 7); only a translation in x is estimated. *)
Definition seen : adata := mkData only_x [1; 2; 3; 4; 5; 7] (repeat 1 6) (repeat 0 6).
Definition halves : list R := [0; 3 / 2; 2; 0; - (3 / 2); -2].
Definition adjusted : adata := with_vector seen Res halves.
(** The same source, seen at (4, 2, 3) *)
Definition seen_exactly : adata := mkData only_x [1; 2; 3; 4; 2; 3] (repeat 1 6) (repeat 0 6).

Lemma scaled_identity c : diagonal (repeat c 3) = [[c; 0; 0]; [0; c; 0]; [0; 0; c]].
Proof. reflexivity. Qed.
Lemma case_determined t a : length a = 6%nat -> determined (shifted_x t) 1 (case_jacobian t a).
Proof.
  intros L dp [LD AL] H. cbn in LD. do 11 (destruct dp as [|? dp]; [discriminate LD|]). destruct dp; [|discriminate LD].
  assert (Z : forall j, (0 < j < 11)%nat -> nth j [r; r0; r1; r2; r3; r4; r5; r6; r7; r8; r9] 0 = 0).
  { intros j Hj. destruct (nth_error (ps_params (shifted_x t)) j) as [q|] eqn:E.
    - apply (AL j q E). do 11 (destruct j as [|j]; [try lia; cbn in E; injection E as <-; reflexivity|]). lia.
    - apply nth_error_None in E. cbn in E. lia. }
  assert (Z1 := Z 1%nat ltac:(lia)). assert (Z2 := Z 2%nat ltac:(lia)). assert (Z3 := Z 3%nat ltac:(lia)). assert (Z4 := Z 4%nat ltac:(lia)).
  assert (Z5 := Z 5%nat ltac:(lia)). assert (Z6 := Z 6%nat ltac:(lia)). assert (Z7 := Z 7%nat ltac:(lia)). assert (Z8 := Z 8%nat ltac:(lia)).
  assert (Z9 := Z 9%nat ltac:(lia)). assert (Z10 := Z 10%nat ltac:(lia)). cbn in Z1, Z2, Z3, Z4, Z5, Z6, Z7, Z8, Z9, Z10. subst.
  specialize (H 0%nat ltac:(lia)). cbn [length sum_to nth] in H. rewrite (case_jacobian_first t a 0 L) in H by lia. cbn [nth] in H.
  assert (r = 0) as -> by lra. reflexivity.
Qed.
Lemma case_ready t d : a_est d = only_x -> length (a_obs d) = 6%nat -> length (a_res d) = 6%nat -> ready (shifted_x t) d 1.
Proof. intros E L1 L2. constructor; rewrite ?E, ?L1, ?L2; reflexivity. Qed.

(** Solving with multiples of the identity *)
Lemma case_deltas d v w0 w1 w2 : a_est d = only_x -> v <> 0 ->
  ghm_deltas solve_scalar (mkLin [[1]; [0]; [0]] case_condition (diagonal (repeat v 3))) d [w0; w1; w2] = Ok [Fin (- w0)].
Proof.
  intros E V. unfold ghm_deltas, parameter_deltas. rewrite E. cbn [l_design l_bbt]. change (columns only_x =? 1)%nat with true. cbn match.
  rewrite (solve_scalar_ok v 2 [w0; w1; w2] V eq_refl). change (column_of [[1]; [0]; [0]] 0) with [1; 0; 0].
  rewrite (solve_scalar_ok v 2 [1; 0; 0] V eq_refl). cbn [bind map dot].
  assert (N : / v <> 0) by (apply Rinv_neq_0_compat, V).
  destruct (Reqb _ 0) eqn:Z.
  - exfalso. apply Reqb_true in Z. apply N. unfold dot in Z. cbn in Z. lra.
  - cbn. do 3 f_equal. unfold dot. cbn. field. exact V.
Qed.
Lemma case_residuals d v w0 w1 w2 t : a_var d = repeat v 6 -> v <> 0 ->
  ghm_residuals solve_scalar (mkLin [[1]; [0]; [0]] case_condition (diagonal (repeat (2 * v) 3))) d [Fin t] [w0; w1; w2] =
  Ok [- (t + w0) / 2; - w1 / 2; - w2 / 2; (t + w0) / 2; w1 / 2; w2 / 2].
Proof.
  intros E V. unfold ghm_residuals, correlates. rewrite E. cbn [l_design l_bbt l_condition finite mapM bind].
  rewrite (solve_scalar_ok (2 * v) 2) by (reflexivity || lra). cbn [bind]. f_equal.
  cbn. repeat (apply f_equal2; [field; exact V|]); reflexivity.
Qed.
Lemma case_add t x : ghm_add_deltas (shifted_x t) [Fin x] = Ok (shifted_x (t + x)).
Proof. reflexivity. Qed.

Lemma halves_residuals v t w0 : v <> 0 -> t + w0 = 0 -> forall d, a_var d = repeat v 6 ->
  ghm_residuals solve_scalar (mkLin [[1]; [0]; [0]] case_condition (diagonal (repeat (2 * v) 3))) d [Fin t] [w0; -3; -4] = Ok halves.
Proof.
  intros V Z d E. rewrite (case_residuals d v w0 (-3) (-4) t E V), Z. unfold halves. f_equal. repeat (apply f_equal2; [field|]); reflexivity.
Qed.

(** The translation becomes 3; what remains in y and z is shared between source and target. *)
Example C82_case : exists l, ready (shifted_x 0) seen 1 /\ Forall (fun x => 0 < x) (a_var seen) /\
  ghm_evaluate (shifted_x 0) seen = Ok [-3; -3; -4] /\
  jacobian (fun q => misclosures (a_est seen) (params_of q) 1 (est_obs_vector seen)) (values (shifted_x 0)) 3 (case_jacobian 0 (est_obs_vector seen)) /\
  jacobian (misclosures (a_est seen) (params_of (values (shifted_x 0))) 1) (est_obs_vector seen) 3 case_jl /\
  determined (shifted_x 0) 1 (case_jacobian 0 (est_obs_vector seen)) /\
  ghm_linearise derive_egrad (shifted_x 0) seen = Ok l /\ ghm_deltas solve_scalar l seen [-3; -3; -4] = Ok [Fin 3] /\
  ghm_residuals solve_scalar l seen [Fin 3] [-3; -3; -4] = Ok halves /\ ghm_add_deltas (shifted_x 0) [Fin 3] = Ok (shifted_x 3) /\
  weighted (a_var seen) halves = 25 / 2.
Proof.
  eexists. split; [apply case_ready; reflexivity|]. split; [cbn; repeat constructor; lra|]. split.
  { unfold ghm_evaluate. f_equal. change (named ?l) with (params_of l). rewrite (eval_misclosures _ _ _ 1) by reflexivity.
    rewrite shifted_values, case_misclosures. cbn. repeat (apply f_equal2; [ring|]); reflexivity. }
  split; [apply case_jacobian_p; reflexivity|]. split; [apply case_jacobian_l; reflexivity|]. split; [apply case_determined; reflexivity|].
  split; [eapply (case_linearise (shifted_x 0) _ 0 _ 1); reflexivity|].
  split; [rewrite case_deltas by (reflexivity || lra); do 3 f_equal; ring|].
  split; [apply (halves_residuals 1); (lra || reflexivity)|].
  split; [rewrite case_add; do 2 f_equal; ring|]. unfold halves. cbn. field.
Qed.

(** The next iteration changes nothing any more. *)
Example C83_case : exists l, ready (shifted_x 3) adjusted 1 /\ Forall (fun x => 0 < x) (a_var adjusted) /\
  ghm_linearise derive_egrad (shifted_x 3) adjusted = Ok l /\ ghm_deltas solve_scalar l adjusted [0; -3; -4] = Ok [Fin 0] /\
  ghm_residuals solve_scalar l adjusted [Fin 0] [0; -3; -4] = Ok (a_res adjusted) /\
  ghm_add_deltas (shifted_x 3) [Fin 0] = Ok (shifted_x 3) /\
  ghm_evaluate (shifted_x 3) adjusted = Ok [0; 0; 0] /\ ghm_contradictions l [0; 0; 0] (a_res adjusted) = Ok [0; -3; -4] /\
  jacobian (fun q => misclosures (a_est adjusted) (params_of q) 1 (est_obs_vector adjusted)) (values (shifted_x 3)) 3 (case_jacobian 3 (est_obs_vector adjusted)) /\
  jacobian (misclosures (a_est adjusted) (params_of (values (shifted_x 3))) 1) (est_obs_vector adjusted) 3 case_jl.
Proof.
  eexists. split; [apply case_ready; reflexivity|]. split; [cbn; repeat constructor; lra|].
  split; [eapply (case_linearise (shifted_x 3) _ 3 _ 1); reflexivity|].
  split; [rewrite case_deltas by (reflexivity || lra); do 3 f_equal; ring|].
  split; [apply (halves_residuals 1); (lra || reflexivity)|].
  split; [rewrite case_add; do 2 f_equal; ring|]. split.
  { unfold ghm_evaluate. f_equal. change (named ?l) with (params_of l). rewrite (eval_misclosures _ _ _ 1) by reflexivity.
    rewrite shifted_values, case_misclosures. unfold halves. cbn. repeat (apply f_equal2; [field|]); reflexivity. }
  split; [unfold ghm_contradictions, adjusted, halves; f_equal; cbn; repeat (apply f_equal2; [field|]); reflexivity|].
  split; [apply case_jacobian_p; reflexivity | apply case_jacobian_l; reflexivity].
Qed.

(** Exact data: the estimation returns the translation 3. *)
Definition start_at_3 (_ : est_settings) (_ : list R) : result pset := Ok (shifted_x 3).
Example C84_case : ready (shifted_x 3) seen_exactly 1 /\ all_lq_disabled (a_est seen_exactly) = false /\
  misclosures (a_est seen_exactly) (params_of (values (shifted_x 3))) 1 (a_obs seen_exactly) = repeat 0 3 /\
  jacobian (fun q => misclosures (a_est seen_exactly) (params_of q) 1 (a_obs seen_exactly)) (values (shifted_x 3)) 3 (case_jacobian 3 (a_obs seen_exactly)) /\
  jacobian (misclosures (a_est seen_exactly) (params_of (values (shifted_x 3))) 1) (a_obs seen_exactly) 3 case_jl /\
  determined (shifted_x 3) 1 (case_jacobian 3 (a_obs seen_exactly)) /\
  forall pinv, exists p, estimate (ghm solve_scalar derive_egrad pinv start_at_3) [1 / 1000] false seen_exactly = Ok (p, true, [[[Fin 0]]]).
Proof.
  split; [apply case_ready; reflexivity|]. split; [reflexivity|]. 
  split; [rewrite shifted_values, case_misclosures; cbn; repeat (apply f_equal2; [ring|]); reflexivity|].
  split; [apply case_jacobian_p; reflexivity|]. split; [apply case_jacobian_l; reflexivity|]. split; [apply case_determined; reflexivity|].
  intro pinv.
  assert (SC : exists q, set_covariance_matrix (shifted_x 3) (as_mat 1 [[/ dot [1; 0; 0] (map (fun x => x / (2 * 1)) [1; 0; 0])]]) = Ok q /\ num_enabled q = 1%nat)
    by (eexists; split; reflexivity).
  destruct SC as [q [SC NQ]]. exists q.
  unfold estimate. cbn [init_parameters ghm start_at_3 bind]. change (all_lq_disabled (a_est seen_exactly)) with false. cbn match.
  cbn [recompute]. unfold adjustment. set (d0 := with_vector seen_exactly Res (repeat 0 (length (a_obs seen_exactly)))).
  assert (OV : length (est_obs_vector d0) = 6%nat) by reflexivity.
  assert (EV : ghm_evaluate (shifted_x 3) d0 = Ok [0; 0; 0]).
  { unfold ghm_evaluate. f_equal. change (named ?l) with (params_of l). rewrite (eval_misclosures _ _ _ 1) by reflexivity.
    rewrite shifted_values, case_misclosures. cbn. repeat (apply f_equal2; [ring|]); reflexivity. }
  cbn [evaluate ghm]. rewrite EV. cbn [bind]. change 16%nat with (S 15). rewrite iterate_more by reflexivity.
  rewrite (case_linearise (shifted_x 3) d0 3 _ 1 eq_refl eq_refl eq_refl OV eq_refl). cbn [bind].
  rewrite case_deltas by (reflexivity || lra). replace (- 0) with 0 by ring. cbn [bind].
  rewrite (case_residuals d0 1) by (reflexivity || lra). replace [- (0 + 0) / 2; - 0 / 2; - 0 / 2; (0 + 0) / 2; 0 / 2; 0 / 2] with (a_res d0)
    by (cbn; repeat (apply f_equal2; [field|]); reflexivity).
  cbn [bind]. change (set_res d0 (a_res d0)) with (Ok d0). cbn [bind]. rewrite case_add. replace (3 + 0) with 3 by ring. cbn [bind]. rewrite EV. cbn [bind].
  unfold ghm_contradictions. cbn [bind]. rewrite iterate_stop.
  2: { unfold any_exceeds. cbn [combine existsb exceeds fst snd]. rewrite Rabs_R0. rewrite (proj2 (Rltb_false _ _)) by lra. reflexivity. }
  cbn [bind fst snd]. cbn [store_variances ghm]. unfold ghm_store_variances. change (length (values_enabled (shifted_x 3)) =? 1)%nat with true. cbn match.
  cbn [l_bbt l_design]. change (column_of [[1]; [0]; [0]] 0) with [1; 0; 0]. rewrite (solve_scalar_ok (2 * 1) 2) by (reflexivity || lra). cbn [bind].
  rewrite SC. cbn [bind]. cbn [variance_factor ghm]. unfold ghm_variance_factor.
  change (a_var d0) with (repeat 1 6). rewrite (solve_scalar_ok 1 5) by (reflexivity || lra). cbn [bind]. unfold redundancy. rewrite NQ.
  change (number_of_epochs (a_est d0) (a_obs d0)) with 1%nat. cbn. reflexivity.
Qed.

(** The variance factor of the case is 25/4; the same data with four times the variances *)
Example C85_case : ready (shifted_x 3) adjusted 1 /\ length (a_res adjusted) = length (a_var adjusted) /\
  ghm_variance_factor solve_scalar (shifted_x 3) adjusted = Ok (Fin (25 / 4)) /\
  ghm_variance_factor solve_scalar (shifted_x 3) (rescaled (25 / 4) adjusted) = Ok (Fin 1) /\
  (exists l, ghm_linearise derive_egrad (shifted_x 0) (rescaled 4 seen) = Ok l /\ ghm_deltas solve_scalar l (rescaled 4 seen) [-3; -3; -4] = Ok [Fin 3] /\
     ghm_residuals solve_scalar l (rescaled 4 seen) [Fin 3] [-3; -3; -4] = Ok halves /\ ghm_add_deltas (shifted_x 0) [Fin 3] = Ok (shifted_x 3)).
Proof.
  split; [apply case_ready; reflexivity|]. split; [reflexivity|].
  assert (F : forall d v, a_var d = repeat v 6 -> a_res d = halves -> a_obs d = a_obs seen -> a_est d = only_x -> v <> 0 ->
    ghm_variance_factor solve_scalar (shifted_x 3) d = Ok (Fin (25 / 4 / v))).
  { intros d v E1 E2 E3 E4 V. unfold ghm_variance_factor. rewrite E1, E2, (solve_scalar_ok v 5) by (reflexivity || exact V). cbn [bind].
    unfold redundancy. rewrite E3, E4. change (number_of_epochs only_x (a_obs seen)) with 1%nat. change (num_enabled (shifted_x 3)) with 1%nat.
    change (Z.of_nat (1 * 3) - Z.of_nat 1)%Z with 2%Z. cbn [Z.eqb]. do 2 f_equal. unfold halves. cbn. field. exact V. }
  split; [rewrite (F adjusted 1) by (reflexivity || lra); do 2 f_equal; field|].
  split; [rewrite (F _ (1 * (25 / 4))) by (reflexivity || lra); do 2 f_equal; field|].
  eexists. split; [eapply (case_linearise (shifted_x 0) _ 0 _ (1 * 4)); reflexivity|].
  split; [rewrite case_deltas by (reflexivity || lra); do 3 f_equal; ring|].
  split; [apply (halves_residuals (1 * 4)); (lra || reflexivity)|]. rewrite case_add. do 2 f_equal. ring.
Qed.
