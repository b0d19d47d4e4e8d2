(** Property C118: the covariance of the estimated parameters. *)
From Coq Require Import Ranalysis1.
From Verif Require Import Base BaseFacts NumpyModel ParamModel ParamSpec DataModel EstModel GeomModel JacModel JacSpec JacProps LsqModel LsqSpec LsqFacts SolveSpec SolveFacts
  GhmModel GhmSpec GhmFacts2 GhmCase GhmFacts5 GhmFacts6 GhmProps InitProps CovSpec CovFacts.

(** ** C118: error propagation *)
(** Let [g c] be the change of the estimated parameters in response to a change of observation [c] by one.  The covariance stored
    for the estimated parameters is the one that these responses carry over from the variances of the observations. *)
Theorem C118_propagation : forall solve egrad pinv s d n l s1 s2 Jp Jl,
  solve_contract solve -> solve_complete solve -> egrad_contract egrad -> pinv_contract pinv ->
  ready s d n -> Forall (fun x => 0 < x) (a_var d) ->
  jacobian (fun q => misclosures (a_est d) (params_of q) n (est_obs_vector d)) (values s) (3 * n) Jp ->
  jacobian (misclosures (a_est d) (params_of (values s)) n) (est_obs_vector d) (3 * n) Jl -> determined s n Jp ->
  ghm_linearise egrad s d = Ok l -> enabled_bool_list s1 = enabled_bool_list s -> ghm_store_variances solve pinv s1 l = Ok s2 ->
  exists g m, (forall c, (c < length (a_obs d))%nat -> ghm_deltas solve l d (response (3 * n) Jl c) = Ok (map Fin (g c)) /\ length (g c) = num_enabled s) /\
    get_covariance s2 true = Ok m /\ square_of (num_enabled s) m /\
    forall i j, (i < num_enabled s)%nat -> (j < num_enabled s)%nat ->
      m_at m i j = sum_to (length (a_obs d)) (fun c => nth c (a_var d) 0 * nth i (g c) 0 * nth j (g c) 0).
Proof. intros. eapply stored_propagated; eassumption. Qed.
Print Assumptions C118_propagation.

(** It is symmetric, the reported variances are its diagonal, and every linear combination of the estimated parameters has a
    positive variance. *)
Theorem C118_positive : forall solve egrad pinv s d n l s1 s2 Jp,
  solve_contract solve -> solve_complete solve -> egrad_contract egrad -> pinv_contract pinv ->
  ready s d n -> Forall (fun x => 0 < x) (a_var d) ->
  jacobian (fun q => misclosures (a_est d) (params_of q) n (est_obs_vector d)) (values s) (3 * n) Jp -> determined s n Jp ->
  ghm_linearise egrad s d = Ok l -> enabled_bool_list s1 = enabled_bool_list s -> ghm_store_variances solve pinv s1 l = Ok s2 ->
  exists m, get_covariance s2 true = Ok m /\ variances_enabled s2 = map (fun i => m_at m i i) (seq 0 (num_enabled s)) /\
    (forall i j, (i < num_enabled s)%nat -> (j < num_enabled s)%nat -> m_at m i j = m_at m j i) /\
    forall x, length x = num_enabled s -> x <> repeat 0 (num_enabled s) ->
      0 < sum_to (num_enabled s) (fun i => nth i x 0 * sum_to (num_enabled s) (fun j => m_at m i j * nth j x 0)).
Proof. intros. eapply stored_positive; eassumption. Qed.
Print Assumptions C118_positive.

(** All variances multiplied by [c] multiply the covariance by [c]. *)
Theorem C118_rescaled : forall solve egrad pinv s d n c l l' s1 s2 s2' Jp,
  solve_contract solve -> solve_complete solve -> egrad_contract egrad -> pinv_contract pinv ->
  ready s d n -> 0 < c -> Forall (fun x => 0 < x) (a_var d) ->
  jacobian (fun q => misclosures (a_est d) (params_of q) n (est_obs_vector d)) (values s) (3 * n) Jp -> determined s n Jp ->
  ghm_linearise egrad s d = Ok l -> ghm_linearise egrad s (rescaled c d) = Ok l' -> enabled_bool_list s1 = enabled_bool_list s ->
  ghm_store_variances solve pinv s1 l = Ok s2 -> ghm_store_variances solve pinv s1 l' = Ok s2' ->
  exists m m', get_covariance s2 true = Ok m /\ get_covariance s2' true = Ok m' /\ square_of (num_enabled s) m /\ square_of (num_enabled s) m' /\
    forall i j, (i < num_enabled s)%nat -> (j < num_enabled s)%nat -> m_at m' i j = c * m_at m i j.
Proof. intros. eapply stored_rescaled; eassumption. Qed.
Print Assumptions C118_rescaled.

(** A whole adjustment stores the covariance of its last linearisation: at parameters [s0] and residuals of [d0] from which the last
    update leads to the result. *)
Theorem C118_adjustment : forall solve egrad pinv init ths s d n s' d' converged updates,
  solve_contract solve -> solve_complete solve -> egrad_contract egrad -> pinv_contract pinv ->
  ready s d n -> Forall (fun x => 0 < x) (a_var d) ->
  adjustment (ghm solve egrad pinv init) ths s d = Ok (s', d', converged, updates) ->
  exists s0 d0 x l, ready s0 d0 n /\ a_est d0 = a_est d /\ a_obs d0 = a_obs d /\ a_var d0 = a_var d /\ enabled_bool_list s0 = enabled_bool_list s /\
    ghm_linearise egrad s0 d0 = Ok l /\ last updates [] = map Fin x /\ values s' = vplus (values s0) (expand (enabled_bool_list s) x) /\
    forall Jp Jl, jacobian (fun q => misclosures (a_est d) (params_of q) n (est_obs_vector d0)) (values s0) (3 * n) Jp ->
      jacobian (misclosures (a_est d) (params_of (values s0)) n) (est_obs_vector d0) (3 * n) Jl -> determined s0 n Jp ->
      exists g m, (forall c, (c < length (a_obs d))%nat -> ghm_deltas solve l d0 (response (3 * n) Jl c) = Ok (map Fin (g c)) /\ length (g c) = num_enabled s) /\
        get_covariance s' true = Ok m /\ square_of (num_enabled s) m /\
        forall i j, (i < num_enabled s)%nat -> (j < num_enabled s)%nat ->
          m_at m i j = sum_to (length (a_obs d)) (fun c => nth c (a_var d) 0 * nth i (g c) 0 * nth j (g c) 0).
Proof.
  intros solve egrad pinv init ths s d n s' d' converged updates CS CC CE CP RD PV H.
  destruct (run_last solve egrad pinv init ths s d n s' d' converged updates RD H) as (s0 & d0 & x & l & s1 & R0 & E1 & E2 & E3 & E4 & HL & EX & V & EF & HS & _).
  exists s0, d0, x, l. do 8 (split; [assumption|]). intros Jp Jl HP HJ DT. rewrite <- E1 in HP, HJ.
  assert (NE : num_enabled s = num_enabled s0) by (rewrite !enabled_count; congruence). rewrite NE, <- E2, <- E3.
  eapply (C118_propagation solve egrad pinv s0 d0 n l s1 s' Jp Jl); try eassumption. rewrite E3. exact PV.
Qed.
Print Assumptions C118_adjustment.

Lemma sum_to_scale n c f : sum_to n (fun i => c * f i) = c * sum_to n f.
Proof. induction n as [|n IH]; cbn [sum_to]; [ring|]. rewrite IH. ring. Qed.

(** A whole estimation that has results stores the covariance of the last linearisation of its last run.  If the variances are estimated too, that run has the
    given variances times a common factor [f], and the covariance has the factor with them; the factor found in the last run itself is not part of it. *)
Theorem C118_estimate : forall solve egrad pinv init ths ve s d n p runs,
  solve_contract solve -> solve_complete solve -> egrad_contract egrad -> pinv_contract pinv ->
  init (a_est d) (a_obs d) = Ok s -> ready s d n -> Forall (fun x => 0 < x) (a_var d) -> length (a_var d) = length (a_obs d) ->
  estimate (ghm solve egrad pinv init) ths ve d = Ok (p, true, runs) ->
  exists f s0 d0 x l, ready s0 d0 n /\ a_est d0 = a_est d /\ a_obs d0 = a_obs d /\ a_var d0 = map (fun v => v * f) (a_var d) /\ enabled_bool_list s0 = enabled_bool_list s /\
    (ve = false -> f = 1) /\ ((length runs <= 1)%nat -> f = 1) /\
    ghm_linearise egrad s0 d0 = Ok l /\ last (last runs []) [] = map Fin x /\ values p = vplus (values s0) (expand (enabled_bool_list s) x) /\
    forall Jp Jl, 0 < f -> jacobian (fun q => misclosures (a_est d) (params_of q) n (est_obs_vector d0)) (values s0) (3 * n) Jp ->
      jacobian (misclosures (a_est d) (params_of (values s0)) n) (est_obs_vector d0) (3 * n) Jl -> determined s0 n Jp ->
      exists g m, (forall c, (c < length (a_obs d))%nat -> ghm_deltas solve l d0 (response (3 * n) Jl c) = Ok (map Fin (g c)) /\ length (g c) = num_enabled s) /\
        get_covariance p true = Ok m /\ square_of (num_enabled s) m /\
        forall i j, (i < num_enabled s)%nat -> (j < num_enabled s)%nat ->
          m_at m i j = f * sum_to (length (a_obs d)) (fun c => nth c (a_var d) 0 * nth i (g c) 0 * nth j (g c) 0).
Proof.
  intros solve egrad pinv init ths ve s d n p runs CS CC CE CP HI RD PV LV H. unfold estimate in H.
  change (init_parameters (ghm solve egrad pinv init)) with init in H. rewrite HI in H. cbn [bind] in H. destruct (all_lq_disabled (a_est d)); [discriminate|].
  apply bind_ok in H as [[[[p' d'] conv] trs] [HR H]]. destruct conv; cbn [negb] in H; [|apply bind_ok in H as [? [_ H]]; discriminate]. injection H as -> ->.
  destruct (recompute_last solve egrad pinv init ths ve 5 s d n false p d' true runs RD HR ltac:(lia)) as (f & s1 & d1 & d2 & tr & R1 & A2 & A3 & A4 & A5 & HA & LT & F1 & F2).
  destruct (run_last solve egrad pinv init ths s1 d1 n p d2 true tr R1 HA) as (s0 & d0 & x & l & s2 & R0 & E1 & E2 & E3 & E4 & HL & EX & V & EF & HS & _).
  exists f, s0, d0, x, l. split; [exact R0|]. split; [congruence|]. split; [congruence|]. split; [congruence|]. split; [congruence|]. split; [exact F1|]. split; [exact F2|]. split; [exact HL|].
  split; [rewrite LT; exact EX|]. split; [rewrite <- A5; exact V|]. intros Jp Jl Pf HP HJ DT.
  assert (EE : a_est d0 = a_est d) by congruence. assert (EO : a_obs d0 = a_obs d) by congruence. assert (EV : a_var d0 = map (fun v => v * f) (a_var d)) by congruence.
  assert (NE : num_enabled s = num_enabled s0) by (rewrite !enabled_count; congruence). rewrite <- EE in HP, HJ. rewrite NE, <- EO.
  destruct (C118_propagation solve egrad pinv s0 d0 n l s2 p Jp Jl CS CC CE CP R0) as (g & m & G1 & G2 & G3 & G4); try eassumption.
  { rewrite EV. apply Forall_map. apply (Forall_impl _ (fun v Hv => Rmult_lt_0_compat _ _ Hv Pf) PV). }
  exists g, m. split; [exact G1|]. split; [exact G2|]. split; [exact G3|]. intros i j Hi Hj. rewrite (G4 i j Hi Hj), EV, <- sum_to_scale. apply sum_to_ext. intros c Hc.
  rewrite (nth_indep (map (fun v => v * f) (a_var d)) 0 (0 * f)) by (rewrite map_length; rewrite LV, <- EO; exact Hc). rewrite (map_nth (fun v => v * f)). ring.
Qed.
Print Assumptions C118_estimate.

(** ** Case *)
(** One epoch with variances of one, only the translation in x is estimated: its variance is two. *)
Example C118_case : pinv_contract gauss_pinv /\ solve_contract gauss /\ solve_complete gauss /\ egrad_contract derive_egrad /\ ready (shifted_x 0) seen 1 /\
  determined (shifted_x 0) 1 (case_jacobian 0 (a_obs seen)) /\
  exists l s2 m, ghm_linearise derive_egrad (shifted_x 0) seen = Ok l /\ ghm_store_variances gauss gauss_pinv (shifted_x 0) l = Ok s2 /\
    get_covariance s2 true = Ok m /\ m_at m 0 0 = 2.
Proof.
  split; [exact gauss_pinv_contract|]. split; [exact gauss_contract|]. split; [exact gauss_complete|]. split; [exact derive_egrad_contract|].
  assert (RD : ready (shifted_x 0) seen 1) by (apply case_ready; reflexivity). split; [exact RD|].
  split; [apply case_determined; reflexivity|].
  assert (HL := case_linearise (shifted_x 0) seen 0 _ 1 eq_refl eq_refl eq_refl eq_refl eq_refl).
  eexists. exists (match ghm_store_variances gauss gauss_pinv (shifted_x 0) (mkLin [[1]; [0]; [0]] case_condition (diagonal (repeat (2 * 1) 3))) with Ok q => q | Err _ => shifted_x 0 end).
  assert (ST : exists sa, gauss (diagonal (repeat (2 * 1) 3)) [1; 0; 0] = Ok sa /\ dot [1; 0; 0] sa = 1 / 2).
  { destruct (gauss_complete 3%nat (diagonal (repeat (2 * 1) 3)) [1; 0; 0]) as [sa E].
    - apply (bbt_regular derive_egrad (shifted_x 0) seen 1 _ RD HL). apply Forall_forall. intros y I. apply repeat_spec in I. lra.
    - reflexivity.
    - exists sa. split; [exact E|]. destruct (gauss_contract _ _ _ E) as [L M]. rewrite diagonal_mv in M by (rewrite L; reflexivity).
      destruct sa as [|a [|b [|c [|]]]]; try discriminate L. cbn in M. injection M as M1 M2 M3. cbn. lra. }
  destruct ST as [sa [E1 E2]].
  assert (ES : ghm_store_variances gauss gauss_pinv (shifted_x 0) (mkLin [[1]; [0]; [0]] case_condition (diagonal (repeat (2 * 1) 3))) =
    set_covariance_matrix (shifted_x 0) (as_mat 1 [[/ (1 / 2)]])).
  { unfold ghm_store_variances. change (length (values_enabled (shifted_x 0)) =? 1)%nat with true. cbn match. cbn [l_bbt l_design].
    change (column_of [[1]; [0]; [0]] 0) with [1; 0; 0]. rewrite E1. cbn [bind]. rewrite E2. reflexivity. }
  rewrite ES. eexists. split; [exact HL|]. split; [reflexivity|]. split; [reflexivity|]. cbn. field.
Qed.

(** An estimation with results *)
Example C118_estimate_case : exists p runs, estimate (ghm gauss derive_egrad gauss_pinv start_at_3) [1 / 1000] false seen_exactly = Ok (p, true, runs) /\
  start_at_3 (a_est seen_exactly) (a_obs seen_exactly) = Ok (shifted_x 3) /\ ready (shifted_x 3) seen_exactly 1 /\ Forall (fun x => 0 < x) (a_var seen_exactly) /\
  length (a_var seen_exactly) = length (a_obs seen_exactly).
Proof.
  destruct C84_case as (RD & AD & EX & JP & JL & DT & _).
  destruct (C84_total gauss derive_egrad gauss_pinv start_at_3 [1 / 1000] (shifted_x 3) seen_exactly 1 (case_jacobian 3 (a_obs seen_exactly)) case_jl
    gauss_contract gauss_complete derive_egrad_contract eq_refl AD RD) as (p & runs & E & _); try assumption;
    [lia|reflexivity|cbn; repeat constructor; lra|repeat constructor; lra|discriminate|].
  exists p, runs. split; [exact E|]. split; [reflexivity|]. split; [exact RD|]. split; [cbn; repeat constructor; lra|reflexivity].
Qed.
