(** Properties C86 and C87, and that the estimations of C82 and C84 succeed. *)
From Coq Require Import Ranalysis1.
From Verif Require Import Base BaseFacts NumpyModel NumpyFacts TrajModel ParamModel DataModel DataSpec DataFacts EstModel GeomModel GeomSpec GeomFacts LsqModel LsqSpec LsqFacts SolveSpec SolveFacts
  DirectModel DirectSpec DirectProps JacModel JacSpec JacProps GhmModel GhmSpec GhmFacts5 GhmFacts6 GhmCase GhmProps InitModel InitSpec InitFacts6.

(** ** The contract of the linear solver can be met *)
Theorem solver_exists : exists solve, solve_contract solve /\ solve_complete solve.
Proof. exists gauss. split; [exact gauss_contract|exact gauss_complete]. Qed.
Print Assumptions solver_exists.

(** ** C82: with regular equations an iteration does not fail *)
Theorem C82_exists : forall solve egrad s d n w Jp, solve_contract solve -> solve_complete solve -> egrad_contract egrad ->
  ready s d n -> (0 < n)%nat -> length (a_var d) = length (a_obs d) -> Forall (fun x => 0 < x) (a_var d) -> length w = (3 * n)%nat ->
  jacobian (fun q => misclosures (a_est d) (params_of q) n (est_obs_vector d)) (values s) (3 * n) Jp -> determined s n Jp ->
  exists l delta v s', ghm_linearise egrad s d = Ok l /\ ghm_deltas solve l d w = Ok delta /\
    ghm_residuals solve l d delta w = Ok v /\ ghm_add_deltas s delta = Ok s'.
Proof. intros solve egrad s d n w Jp CS CC CE. apply iteration_ok; assumption. Qed.
Print Assumptions C82_exists.
Example C82_exists_case : exists l delta v s', ghm_linearise derive_egrad (shifted_x 0) seen = Ok l /\ ghm_deltas gauss l seen [-3; -3; -4] = Ok delta /\
  ghm_residuals gauss l seen delta [-3; -3; -4] = Ok v /\ ghm_add_deltas (shifted_x 0) delta = Ok s'.
Proof.
  apply (C82_exists gauss derive_egrad (shifted_x 0) seen 1 _ (case_jacobian 0 (est_obs_vector seen)) gauss_contract gauss_complete derive_egrad_contract);
    [apply case_ready; reflexivity|lia|reflexivity|cbn; repeat constructor; lra|reflexivity|apply case_jacobian_p; reflexivity|apply case_determined; reflexivity].
Qed.

(** ** C84: with exact data the estimation succeeds *)
Theorem C84_total : forall solve egrad pinv init ths s d n Jp Jl, solve_contract solve -> solve_complete solve -> egrad_contract egrad ->
  init (a_est d) (a_obs d) = Ok s -> all_lq_disabled (a_est d) = false -> ready s d n -> (0 < n)%nat ->
  length (a_var d) = length (a_obs d) -> Forall (fun x => 0 < x) (a_var d) -> Forall (fun t => 0 <= t) ths -> ths <> [] ->
  misclosures (a_est d) (params_of (values s)) n (a_obs d) = repeat 0 (3 * n) ->
  jacobian (fun q => misclosures (a_est d) (params_of q) n (a_obs d)) (values s) (3 * n) Jp ->
  jacobian (misclosures (a_est d) (params_of (values s)) n) (a_obs d) (3 * n) Jl -> determined s n Jp ->
  exists p runs, estimate (ghm solve egrad pinv init) ths false d = Ok (p, true, runs) /\ values p = values s.
Proof. intros solve egrad pinv init ths s d n Jp Jl CS CC CE. apply estimate_ok; assumption. Qed.
Print Assumptions C84_total.
Example C84_total_case : exists p runs, estimate (ghm gauss derive_egrad (fun m => m) start_at_3) [1 / 1000] false seen_exactly = Ok (p, true, runs) /\
  values p = [3; 0; 0; 0; 0; 0; 1; 0; 0; 0; 0].
Proof.
  destruct C84_case as (RD & AD & EX & JP & JL & DT & _).
  refine (C84_total gauss derive_egrad (fun m => m) start_at_3 [1 / 1000] (shifted_x 3) seen_exactly 1 (case_jacobian 3 (a_obs seen_exactly)) case_jl
    gauss_contract gauss_complete derive_egrad_contract eq_refl AD RD _ _ _ _ _ EX JP JL DT);
    [lia|reflexivity|cbn; repeat constructor; lra|repeat constructor; lra|discriminate].
Qed.

(** ** C86: a similarity between the trajectories is found *)
Theorem C86_similarity : forall Q (ops : rot_ops Q) svd solve egrad pinv e st ths from t m s rpy speed d h,
  rot_contract ops -> svd_contract svd -> solve_contract solve -> solve_complete solve -> egrad_contract egrad ->
  for_similarity e t m s -> weighted_data e st -> usable_thresholds ths ->
  is_rot m -> 0 < s -> not_coplanar from -> vx (row3 m) ^ 2 <> 1 ->
  let to := map (similar t m s) from in
  direct_helmert svd ops from to [] = Ok (Some h) -> make_data e st from to rpy speed = Ok d ->
  exists p runs angles, estimate (ghm solve egrad pinv (init_values svd ops solve)) ths false d = Ok (p, true, runs) /\
    values p = params_list (mkAlign t angles s 0 vzero) /\ euler_matrix angles = m.
Proof.
  intros Q ops svd solve egrad pinv e st ths from t m s rpy speed d h CR CV CS CC CE [F1 F2 F3 F4 F5 F6 F7 [F8 F9] F10] W [T1 T2] RM SP NC GL to HH HM.
  exact (similarity solve egrad CS CC CE pinv svd ops CR CV e st d ths W T2 T1 from t m s rpy speed h F1 F2 F3 F4 F5 F6 F7 F8 F9 F10 RM SP GL NC HH HM).
Qed.
Print Assumptions C86_similarity.

(** Positions turned by a quarter about z and enlarged by two; all seven parameters are estimated. *)
Definition seven : est_settings := mkEst true true true true true true true false true true true false false false false false.
Definition unit_stds : stochastics := mkStoch 1 1 1 1 1 1 1.
Example C86_case : exists svd d p runs angles,
  make_data seven unit_stds corners (map (similar vzero quarter 2) corners) None [] = Ok d /\
  estimate (ghm gauss derive_egrad (fun m => m) (init_values svd rot_impl gauss)) [1 / 1000] false d = Ok (p, true, runs) /\
  values p = params_list (mkAlign vzero angles 2 0 vzero) /\ euler_matrix angles = quarter.
Proof.
  destruct C76_case as (svd & t & e & s & SC & NC & E & _).
  destruct (make_total seven unit_stds corners (map (similar vzero quarter 2) corners) None [] 6) as [obs [var [EM _]]].
  { repeat split; discriminate. }
  set (d := mkData seven obs var (build_res_vector obs)) in *. exists svd, d.
  destruct (C86_similarity RotM rot_impl svd gauss derive_egrad (fun m => m) seven unit_stds [1 / 1000] corners vzero quarter 2 None [] d (t, e, s)
    rot_impl_contract SC gauss_contract gauss_complete derive_egrad_contract) with (9 := EM) as (p & runs & angles & A & B & C).
  - constructor; try reflexivity; try (intro X; discriminate X); [split; reflexivity].
  - intros q _. destruct q; cbn; lra.
  - split; [discriminate|]. repeat constructor; lra.
  - exact quarter_rot.
  - lra.
  - exact NC.
  - unfold quarter. cbn. lra.
  - exact E.
  - exists p, runs, angles. split; [exact EM|]. auto.
Qed.

(** ** C87: a lever arm or a time shift or both are found *)
Theorem C87_lever : forall Q (ops : rot_ops Q) svd solve egrad pinv e st ths (poses : list DirectSpec.pose) dt l rpy speed d,
  solve_contract solve -> solve_complete solve -> egrad_contract egrad ->
  for_lever e dt l poses -> weighted_data e st -> usable_thresholds ths ->
  (leverarm_enabled e = true -> rpy = Some (map pose_rpy poses)) -> (time_shift_enabled e = true -> speed = map DirectSpec.pose_speed poses) ->
  make_data e st (map pose_at poses) (map (levered dt l) poses) rpy speed = Ok d ->
  exists p runs, estimate (ghm solve egrad pinv (init_values svd ops solve)) ths false d = Ok (p, true, runs) /\
    values p = params_list (mkAlign vzero vzero 1 dt l).
Proof.
  intros Q ops svd solve egrad pinv e st ths poses dt l rpy speed d CS CC CE [F1 F2 F3 F4 F5 F6 F7 F8 F9] W [T1 T2] HR HS HM.
  exact (lever_and_shift solve egrad CS CC CE pinv svd ops e st d ths W T2 T1 poses dt l rpy speed F1 F2 HR HS F3 F4 F5 F6 F7 F8 F9 HM).
Qed.
Print Assumptions C87_lever.

(** Two poses, the second faster; lever arm (1, 0, 2) without a y component, time shift 3. *)
Definition lever_xz : est_settings := mkEst false false false false false false false true true true true true false true false false.
Definition two_poses : list DirectSpec.pose := [(vzero, vzero, mkV3 1 0 0); (mkV3 1 0 0, vzero, mkV3 2 0 0)].
Example C87_case : forall Q (ops : rot_ops Q) svd, exists d p runs,
  make_data lever_xz unit_stds (map pose_at two_poses) (map (levered 3 (mkV3 1 0 2)) two_poses) (Some (map pose_rpy two_poses)) (map DirectSpec.pose_speed two_poses) = Ok d /\
  estimate (ghm gauss derive_egrad (fun m => m) (init_values svd ops gauss)) [1 / 1000] false d = Ok (p, true, runs) /\
  values p = [0; 0; 0; 0; 0; 0; 1; 3; 1; 0; 2].
Proof.
  intros Q ops svd.
  destruct (make_total lever_xz unit_stds (map pose_at two_poses) (map (levered 3 (mkV3 1 0 2)) two_poses) (Some (map pose_rpy two_poses)) (map DirectSpec.pose_speed two_poses) 2) as [obs [var [EM _]]].
  { repeat split. intros _. eexists. split; reflexivity. }
  set (d := mkData lever_xz obs var (build_res_vector obs)) in *. exists d. destruct (C87_lever Q ops svd gauss derive_egrad (fun m => m) lever_xz unit_stds [1 / 1000] two_poses 3 (mkV3 1 0 2) (Some (map pose_rpy two_poses)) (map DirectSpec.pose_speed two_poses) d gauss_contract gauss_complete derive_egrad_contract) with (6 := EM) as (p & runs & A & B).
  - constructor; [reflexivity|left; reflexivity|intro X; discriminate X|intro X; discriminate X|intros _; reflexivity|intro X; discriminate X|discriminate|intro X; discriminate X|].
    + intros _ _. exists (vzero, vzero, mkV3 1 0 0), (mkV3 1 0 0, vzero, mkV3 2 0 0). split; [left; reflexivity|]. split; [right; left; reflexivity|].
      unfold body_speed, pose_rpy, DirectSpec.pose_speed. cbn [fst snd]. rewrite euler_zero. intro X. apply (f_equal vx) in X. munfall. lra.
  - intros q _. destruct q; cbn; lra.
  - split; [discriminate|]. repeat constructor; lra.
  - reflexivity.
  - reflexivity.
  - exists p, runs. split; [exact EM|]. auto.
Qed.
