(** Estimating an alignment between trajectories, and the absolute trajectory error: properties C93 and C94. *)
From Verif Require Import Base BaseFacts NumpyModel NumpyFacts TrajModel TrajSpec TrajFacts EvalModel ParamModel ParamFacts DataModel DataSpec DataFacts EstModel MatchModel MatchSpec MatchFacts GeomModel GeomSpec GeomFacts GeomFacts2 LsqModel LsqSpec SolveSpec SolveFacts
  DirectModel DirectSpec DirectFacts DirectProps DirectProps3 JacModel JacSpec JacFacts2 JacProps GhmModel GhmSpec InitModel InitSpec InitProps AlignModel AlignSpec AlignFacts AlignFacts2 AlignFacts3 AlignFacts4.

(** * C93 Estimating an alignment *)

(** The result carries the names and settings.  Rotation parameters are estimated only if they are asked for and both
    trajectories have orientations; otherwise they are zero and disabled.  Estimated ones turn the orientations of the source,
    after the similarity, as close to those of the target as any rotation can (stated for scale one). *)
Theorem C93_result : forall Q (ops : rot_ops Q) svd solve egrad pinv mean matched s ms (from to : traj Q) n r,
  rot_contract ops -> mean_contract ops mean ->
  estimate_alignment ops svd solve egrad pinv mean matched s ms from to = Ok (n, r) ->
  exists f g, prepared matched s ms from to = Ok (f, g) /\ n = (name f ++ " to " ++ name g)%string /\ estimation_of r = al_estimation s /\
    (sensor_rotation (al_estimation s) = false \/ rot f = None \/ rot g = None ->
       sensor_angles (rotation_parameters r) = vzero /\ enabled_bool_list (rotation_parameters r) = [false; false; false]) /\
    (forall qf qg, sensor_rotation (al_estimation s) = true -> rot f = Some qf -> rot g = Some qg -> consistent f -> length qg = length qf ->
       enabled_bool_list (rotation_parameters r) = [true; true; true] /\
       let p := params_of (values (position_parameters r)) in
       sim_scale p = 1 -> exists pre, map (as_matrix ops) pre = map (fun q => mmul (euler_matrix (sim_rot p)) (as_matrix ops q)) qf /\
         forall m, is_rot m -> misorientation ops (euler_matrix (sensor_angles (rotation_parameters r))) pre qg <= misorientation ops m pre qg).
Proof.
  intros Q ops svd solve egrad pinv mean matched s ms from to n r CR MC H. unfold estimate_alignment in H.
  apply bind_ok in H as [[f g] [HP H]]. apply bind_ok in H as [d [HD H]]. apply bind_ok in H as [ths [HT H]]. apply bind_ok in H as [[[p has] runs] [HE H]].
  apply bind_ok in H as [sensor [HS H]]. cbn [fst snd] in *. injection H as <- <-. exists f, g. split; [exact HP|]. split; [reflexivity|]. split; [reflexivity|].
  cbn [rotation_parameters position_parameters]. split.
  - intro K. rewrite no_rotation_estimated in HS by (intro SR; destruct K as [K|K]; [congruence|exact K]). injection HS as <-. split; reflexivity.
  - intros qf qg SR RF RG CF L. unfold estimate_sensor_rotation in HS. rewrite RF, RG, SR in HS. apply bind_ok in HS as [[a|] [HA HS]]; [|discriminate]. injection HS as <-.
    split; [reflexivity|]. cbn zeta. intro S1. rewrite values_sensor. set (ap := params_of (values p)) in *.
    rewrite (apply_transformation_rot ops _ f qf CF RF) in HA. eexists. split; [|intros m RM].
    2:{ rewrite <- (rotation_matrix_euler ops CR). refine (proj2 (C79_optimal Q ops mean _ qg a CR MC _ HA) m RM). rewrite map_length. exact L. }
    rewrite map_map. apply map_ext. intro q. unfold sim3_matrix; cbn [GeomModel.lin]. rewrite S1, mscale_one, (rotation_matrix_euler ops CR).
    apply (rc_from ops CR), is_rot_mmul; [apply is_rot_euler|apply (rc_rot ops CR)].
Qed.
Print Assumptions C93_result.

(** If the target poses are the source poses moved by a similarity, the estimation converges and its result moves every
    trajectory by this similarity. *)
Theorem C93_similarity : forall Q (ops : rot_ops Q) svd solve egrad pinv mean matched s ms (from to f g : traj Q) t m sc h,
  rot_contract ops -> svd_contract svd -> solve_contract solve -> solve_complete solve -> egrad_contract egrad ->
  usable_settings s -> weighted_data (al_estimation s) (al_stochastics s) -> for_similarity (al_estimation s) t m sc ->
  is_rot m -> 0 < sc -> not_coplanar (xyz f) -> vx (row3 m) ^ 2 <> 1 ->
  prepared matched s ms from to = Ok (f, g) -> xyz g = map (similar t m sc) (xyz f) ->
  direct_helmert svd ops (xyz f) (xyz g) [] = Ok (Some h) ->
  (sensor_rotation (al_estimation s) = true -> rot f = None \/ rot g = None) ->
  exists n r, estimate_alignment ops svd solve egrad pinv mean matched s ms from to = Ok (n, r) /\ converged r = true /\
    forall u, consistent u -> exists u', apply_result ops r false u = Ok u' /\ moved t m sc u u' /\ (sc = 1 -> turned ops m u u').
Proof.
  intros Q ops svd solve egrad pinv mean matched s ms from to f g t m sc h CR CV CS CC CE US W FS RM SP NC GL HP HG HH HS.
  destruct (similarity_estimated ops svd solve egrad pinv mean matched CR CV CS CC CE s ms US W from to f g t m sc h FS RM SP NC GL HP HG HH) as (p & a & VP & EA & E).
  rewrite no_rotation_estimated in E by exact HS. cbn [bind] in E. eexists _, _. split; [exact E|]. split; [reflexivity|].
  intros u CU. unfold apply_result. cbn [position_parameters rotation_parameters]. rewrite values_no_sensor, VP, params_of_list.
  destruct (apply_pointwise ops CR (mkAlign t a sc 0 vzero) vzero u CU) as (u' & q' & F & RS & CU' & _ & RU & PX & _ & PR). exists u'. split; [exact F|].
  cbn [sim_trans sim_rot sim_scale lever GeomModel.time_shift] in *. rewrite EA in *. split; [split; [exact (PX eq_refl eq_refl)|split; assumption]|].
  intros S1 q HQ. exists q'. split; [exact RU|]. rewrite (PR q HQ S1), euler_zero. apply map_ext. intro r. now rewrite mmul_ident_l.
Qed.
Print Assumptions C93_similarity.

(** If moreover the target orientations are those of the source, moved by the same rotation and mounted differently by a fixed
    rotation [m0], the result turns orientations by both (scale one). *)
Theorem C93_mounting : forall Q (ops : rot_ops Q) svd solve egrad pinv mean matched s ms (from to f g : traj Q) t m h m0 qf qg,
  rot_contract ops -> svd_contract svd -> solve_contract solve -> solve_complete solve -> egrad_contract egrad -> mean_contract ops mean -> mean_agreeing ops mean ->
  usable_settings s -> weighted_data (al_estimation s) (al_stochastics s) -> for_similarity (al_estimation s) t m 1 ->
  is_rot m -> not_coplanar (xyz f) -> vx (row3 m) ^ 2 <> 1 ->
  prepared matched s ms from to = Ok (f, g) -> consistent f -> xyz g = map (similar t m 1) (xyz f) ->
  direct_helmert svd ops (xyz f) (xyz g) [] = Ok (Some h) ->
  sensor_rotation (al_estimation s) = true -> is_rot m0 -> rot f = Some qf -> rot g = Some qg ->
  map (as_matrix ops) qg = map (fun q => mmul m0 (mmul m (as_matrix ops q))) qf ->
  exists n r, estimate_alignment ops svd solve egrad pinv mean matched s ms from to = Ok (n, r) /\ converged r = true /\
    forall u, consistent u -> exists u', apply_result ops r false u = Ok u' /\ moved t m 1 u u' /\ turned ops (mmul m0 m) u u'.
Proof.
  intros Q ops svd solve egrad pinv mean matched s ms from to f g t m h m0 qf qg CR CV CS CC CE MC MA US W FS RM NC GL HP CF HG HH SR RM0 RF RG HQ.
  destruct (similarity_estimated ops svd solve egrad pinv mean matched CR CV CS CC CE s ms US W from to f g t m 1 h FS RM Rlt_0_1 NC GL HP HG HH) as (p & a & VP & EA & E).
  destruct (mounting_found ops mean CR (al_estimation s) p f g qf qg m0 MC MA CF SR) as (b & ES & EB); rewrite ?VP, ?params_of_list; cbn [sim_scale sim_rot]; try assumption; try reflexivity.
  { intros ->. destruct (distinct_points _ NC) as (x & _ & X & _). destruct CF as (_ & L & _). rewrite RF in L. destruct (xyz f); [destruct X|discriminate]. }
  { rewrite EA. exact HQ. }
  rewrite ES in E. cbn [bind] in E. eexists _, _. split; [exact E|]. split; [reflexivity|].
  intros u CU. unfold apply_result. cbn [position_parameters rotation_parameters]. rewrite values_sensor, VP, params_of_list.
  destruct (apply_pointwise ops CR (mkAlign t a 1 0 vzero) b u CU) as (u' & q' & F & RS & CU' & _ & RU & PX & _ & PR). exists u'. split; [exact F|].
  cbn [sim_trans sim_rot sim_scale lever GeomModel.time_shift] in *. rewrite EA, EB in *. split; [split; [exact (PX eq_refl eq_refl)|split; assumption]|].
  intros q HQ'. exists q'. split; [exact RU|]. exact (PR q HQ' eq_refl).
Qed.
Print Assumptions C93_mounting.

(** If the target positions are the source positions moved by a lever arm and a time shift, the result moves every trajectory
    with orientations by the same. *)
Theorem C93_lever : forall Q (ops : rot_ops Q) svd solve egrad pinv mean matched s ms (from to f g : traj Q) q dt l,
  rot_contract ops -> solve_contract solve -> solve_complete solve -> egrad_contract egrad ->
  usable_settings s -> weighted_data (al_estimation s) (al_stochastics s) ->
  prepared matched s ms from to = Ok (f, g) -> consistent f -> rot f = Some q -> (exists a b, In a (xyz f) /\ In b (xyz f) /\ a <> b) ->
  for_lever (al_estimation s) dt l (combine (combine (xyz f) (map (as_euler ops) q)) (speed f)) -> xyz g = levered_traj ops dt l f q ->
  (sensor_rotation (al_estimation s) = true -> rot g = None) ->
  exists n r, estimate_alignment ops svd solve egrad pinv mean matched s ms from to = Ok (n, r) /\ converged r = true /\
    forall u qu, consistent u -> rot u = Some qu -> exists u', apply_result ops r false u = Ok u' /\
      xyz u' = levered_traj ops dt l u qu /\ same_rest u u' /\ consistent u' /\ turned ops mident u u'.
Proof.
  intros Q ops svd solve egrad pinv mean matched s ms from to f g q dt l CR CS CC CE US W HP CF RF (a & b & A & B & D) FL HG HS.
  destruct (lever_estimated ops svd solve egrad pinv mean matched CR CS CC CE s ms US W from to f g q dt l a b CF FL RF A B D HP HG) as (p & VP & E).
  rewrite no_rotation_estimated in E by (intro K; right; exact (HS K)). cbn [bind] in E. eexists _, _. split; [exact E|]. split; [reflexivity|].
  intros u qu CU RQ. unfold apply_result. cbn [position_parameters rotation_parameters]. rewrite values_no_sensor, VP, params_of_list.
  destruct (apply_pointwise ops CR (mkAlign vzero vzero 1 dt l) vzero u CU) as (u' & q' & F & RS & CU' & _ & RU & _ & PX & PR). exists u'. split; [exact F|].
  cbn [sim_trans sim_rot sim_scale lever GeomModel.time_shift] in *. split; [exact (PX qu RQ eq_refl eq_refl eq_refl)|]. split; [exact RS|]. split; [exact CU'|].
  intros q0 HQ. exists q'. split; [exact RU|]. rewrite (PR q0 HQ eq_refl), euler_zero. apply map_ext. intro r. now rewrite !mmul_ident_l.
Qed.
Print Assumptions C93_lever.

(** * C94 The absolute trajectory error of exactly aligned trajectories *)

(** Two trajectories with the same time stamps whose positions differ by a similarity, compared by time stamp: the absolute
    trajectory error after alignment is zero. *)
Theorem C94_similarity : forall Q (ops : rot_ops Q) svd solve egrad pinv mean query2 query3 slerp_seg eigh loc s ms (gt est : traj Q) t m sc h,
  rot_contract ops -> svd_contract svd -> solve_contract solve -> solve_complete solve -> egrad_contract egrad -> knn_contract dist2 query2 ->
  usable_settings s -> weighted_data (al_estimation s) (al_stochastics s) -> for_similarity (al_estimation s) t m sc -> no_preprocessing (al_preprocessing s) ->
  m_method ms = NearestTemporal -> 0 <= max_time_diff ms ->
  consistent gt -> consistent est -> tstamps gt = tstamps est -> strictly_time_sorted est ->
  is_rot m -> 0 < sc -> not_coplanar (xyz est) -> vx (row3 m) ^ 2 <> 1 -> xyz gt = map (similar t m sc) (xyz est) ->
  direct_helmert svd ops (xyz est) (xyz gt) [] = Ok (Some h) ->
  (sensor_rotation (al_estimation s) = true -> rot est = None \/ rot gt = None) ->
  exists r a, ate ops svd solve egrad pinv mean (compared_by_metrics query2 query3 slerp_seg eigh loc) s ms gt est = Ok (r, a) /\ zero_error (tlen est) r.
Proof.
  intros Q ops svd solve egrad pinv mean query2 query3 slerp_seg eigh loc s ms gt est t m sc h CR CV CS CC CE CK US W FS NP MM M0 CG CT ET ST RM SP NC GL HG HH HS.
  assert (NE : xyz est <> []) by (destruct NC as (a & _ & _ & _ & A & _); destruct (xyz est); [destruct A|discriminate]).
  assert (NT : tstamps est <> []) by (destruct CT as (L & _); destruct (tstamps est), (xyz est); cbn in L; congruence || discriminate).
  destruct (C93_similarity Q ops svd solve egrad pinv mean (compared_by_metrics query2 query3 slerp_seg eigh loc) s ms est gt est gt t m sc h CR CV CS CC CE US W FS RM SP NC GL) as (n & r & E & _ & A);
    [apply prepared_same; assumption|assumption..|]. destruct (A est CT) as (u & AU & (XU & RS & CU) & _).
  assert (LG : tlen gt = tlen est) by (unfold tlen; rewrite HG; apply map_length).
  assert (N0 : (0 < tlen est)%nat) by (unfold tlen; destruct (xyz est); [congruence|cbn; lia]).
  destruct (ate_zero ops svd solve egrad pinv mean (compared_by_metrics query2 query3 slerp_seg eigh loc) CR s ms gt est est gt n r u) as (d & F & Z & _);
    [apply matched_same; assumption|exact E|exact AU|exact CU|exact CG|congruence|lia|].
  exists d, (n, r). split; [exact F|]. rewrite <- LG. exact Z.
Qed.
Print Assumptions C94_similarity.

(** If the orientations differ by the same rotation and a fixed mounting, the rotations left after alignment are the identity. *)
Theorem C94_mounting : forall Q (ops : rot_ops Q) svd solve egrad pinv mean query2 query3 slerp_seg eigh loc s ms (gt est : traj Q) t m h m0 qe qg,
  rot_contract ops -> svd_contract svd -> solve_contract solve -> solve_complete solve -> egrad_contract egrad -> knn_contract dist2 query2 ->
  mean_contract ops mean -> mean_agreeing ops mean ->
  usable_settings s -> weighted_data (al_estimation s) (al_stochastics s) -> for_similarity (al_estimation s) t m 1 -> no_preprocessing (al_preprocessing s) ->
  m_method ms = NearestTemporal -> 0 <= max_time_diff ms ->
  consistent gt -> consistent est -> tstamps gt = tstamps est -> strictly_time_sorted est ->
  is_rot m -> not_coplanar (xyz est) -> vx (row3 m) ^ 2 <> 1 -> xyz gt = map (similar t m 1) (xyz est) ->
  direct_helmert svd ops (xyz est) (xyz gt) [] = Ok (Some h) ->
  sensor_rotation (al_estimation s) = true -> is_rot m0 -> rot est = Some qe -> rot gt = Some qg ->
  map (as_matrix ops) qg = map (fun q => mmul m0 (mmul m (as_matrix ops q))) qe ->
  exists r a d, ate ops svd solve egrad pinv mean (compared_by_metrics query2 query3 slerp_seg eigh loc) s ms gt est = Ok (r, a) /\ zero_error (tlen est) r /\
    rot_dev r = Some d /\ length d = tlen est /\ Forall (fun q => as_matrix ops q = mident) d.
Proof.
  intros Q ops svd solve egrad pinv mean query2 query3 slerp_seg eigh loc s ms gt est t m h m0 qe qg CR CV CS CC CE CK MC MA US W FS NP MM M0 CG CT ET ST RM NC GL HG HH SR RM0 RE RG HQ.
  assert (NE : xyz est <> []) by (destruct NC as (a & _ & _ & _ & A & _); destruct (xyz est); [destruct A|discriminate]).
  assert (NT : tstamps est <> []) by (destruct CT as (L & _); destruct (tstamps est), (xyz est); cbn in L; congruence || discriminate).
  destruct (C93_mounting Q ops svd solve egrad pinv mean (compared_by_metrics query2 query3 slerp_seg eigh loc) s ms est gt est gt t m h m0 qe qg CR CV CS CC CE MC MA US W FS RM NC GL) as (n & r & E & _ & A);
    [apply prepared_same; assumption|assumption..|]. destruct (A est CT) as (u & AU & (XU & RS & CU) & TU). destruct (TU qe RE) as (qu & RU & QU).
  assert (LG : tlen gt = tlen est) by (unfold tlen; rewrite HG; apply map_length).
  assert (N0 : (0 < tlen est)%nat) by (unfold tlen; destruct (xyz est); [congruence|cbn; lia]).
  destruct (ate_zero ops svd solve egrad pinv mean (compared_by_metrics query2 query3 slerp_seg eigh loc) CR s ms gt est est gt n r u) as (d & F & Z & RD);
    [apply matched_same; assumption|exact E|exact AU|exact CU|exact CG|congruence|lia|]. rewrite RG, RU in RD. destruct RD as (k & K1 & K2 & K3).
  { rewrite HQ, QU. apply map_ext. intro q. symmetry. apply mmul_assoc. }
  exists d, (n, r), k. rewrite <- LG. auto.
Qed.
Print Assumptions C94_mounting.

(** The same for a lever arm and a time shift. *)
Theorem C94_lever : forall Q (ops : rot_ops Q) svd solve egrad pinv mean query2 query3 slerp_seg eigh loc s ms (gt est : traj Q) q dt l,
  rot_contract ops -> solve_contract solve -> solve_complete solve -> egrad_contract egrad -> knn_contract dist2 query2 ->
  usable_settings s -> weighted_data (al_estimation s) (al_stochastics s) -> no_preprocessing (al_preprocessing s) ->
  m_method ms = NearestTemporal -> 0 <= max_time_diff ms ->
  consistent gt -> consistent est -> tstamps gt = tstamps est -> strictly_time_sorted est ->
  rot est = Some q -> (exists a b, In a (xyz est) /\ In b (xyz est) /\ a <> b) ->
  for_lever (al_estimation s) dt l (combine (combine (xyz est) (map (as_euler ops) q)) (speed est)) -> xyz gt = levered_traj ops dt l est q ->
  (sensor_rotation (al_estimation s) = true -> rot gt = None) ->
  exists r a, ate ops svd solve egrad pinv mean (compared_by_metrics query2 query3 slerp_seg eigh loc) s ms gt est = Ok (r, a) /\ zero_error (tlen est) r.
Proof.
  intros Q ops svd solve egrad pinv mean query2 query3 slerp_seg eigh loc s ms gt est q dt l CR CS CC CE CK US W NP MM M0 CG CT ET ST RE DI FL HG HS.
  assert (NE : xyz est <> []) by (destruct DI as (a & b & A & _); destruct (xyz est); [destruct A|discriminate]).
  assert (NT : tstamps est <> []) by (destruct CT as (L & _); destruct (tstamps est), (xyz est); cbn in L; congruence || discriminate).
  destruct (C93_lever Q ops svd solve egrad pinv mean (compared_by_metrics query2 query3 slerp_seg eigh loc) s ms est gt est gt q dt l CR CS CC CE US W) as (n & r & E & _ & A);
    [apply prepared_same; assumption|assumption..|]. destruct (A est q CT RE) as (u & AU & XU & RS & CU & _).
  assert (LG : tlen gt = tlen est) by (destruct CG as (L1 & _), CT as (L2 & _); unfold tlen; congruence).
  assert (N0 : (0 < tlen est)%nat) by (unfold tlen; destruct (xyz est); [congruence|cbn; lia]).
  destruct (ate_zero ops svd solve egrad pinv mean (compared_by_metrics query2 query3 slerp_seg eigh loc) CR s ms gt est est gt n r u) as (d & F & Z & _);
    [apply matched_same; assumption|exact E|exact AU|exact CU|exact CG|congruence|lia|].
  exists d, (n, r). split; [exact F|]. rewrite <- LG. exact Z.
Qed.
Print Assumptions C94_lever.

(** ** Cases *)

(** The six corners of an octahedron, one per second, without orientations; the other trajectory is turned by a quarter and
    enlarged by two; all seven parameters are estimated. *)
Definition flying (x : list V3) (q : option (list RotM)) : traj RotM := mkTraj [0; 1; 2; 3; 4; 5] x q [0; 1; 2; 3; 4; 5] (repeat vzero 6) SortTime "a" 0.
Definition plain_settings (e : est_settings) : align_settings := mkAlignSettings (mkPre 0 0 0) e unit_stds false (1 / 1000) (1 / 1000).
Definition by_time : matching_settings := mkMatching NearestTemporal (1 / 100) 0 10.
Lemma flying_consistent x q : length x = 6%nat -> match q with Some l => length l = 6%nat | None => True end -> consistent (flying x q).
Proof. intros L LQ. unfold consistent, flying, tlen. cbn. rewrite L. repeat split. destruct q; [exact LQ|exact I]. Qed.
Lemma flying_sorted x q : strictly_time_sorted (flying x q).
Proof. unfold strictly_time_sorted. cbn. repeat (constructor; [|repeat (constructor; try lra)]). constructor. Qed.
Lemma plain_usable e : usable_settings (plain_settings e) /\ weighted_data e unit_stds /\ no_preprocessing (al_preprocessing (plain_settings e)).
Proof.
  split; [|split]; [repeat split; cbn; lra|intros q _; destruct q; cbn; lra|repeat split; cbn; lra].
Qed.
Lemma mean_equal_agreeing : mean_agreeing rot_impl mean_equal.
Proof.
  intros q qs F. cbn [mean_equal]. exists q. rewrite (proj2 (forallb_forall _ _)); [reflexivity|]. intros p I. rewrite Forall_forall in F. apply M3eqb_true. exact (F p I).
Qed.

Example C94_case : exists svd r a, ate rot_impl svd gauss derive_egrad (fun m => m) mean_equal
    (compared_by_metrics (brute dist2) (brute vdist) (fun a _ _ => a) (fun _ => vzero) (fun l => l)) (plain_settings seven) by_time
    (flying (map (similar vzero quarter 2) corners) None) (flying corners None) = Ok (r, a) /\ zero_error 6 r.
Proof.
  destruct C76_case as (svd & t & e & s & SC & NC & E & _). destruct (plain_usable seven) as (US & W & NP). exists svd.
  refine (C94_similarity RotM rot_impl svd gauss derive_egrad (fun m => m) mean_equal (brute dist2) (brute vdist) _ _ _ (plain_settings seven) by_time (flying (map (similar vzero quarter 2) corners) None) (flying corners None)
    vzero quarter 2 (t, e, s) rot_impl_contract SC gauss_contract gauss_complete derive_egrad_contract (brute_contract dist2) US W _ NP eq_refl _ _ _ eq_refl (flying_sorted _ _) quarter_rot _ NC _ eq_refl E _).
  - constructor; try reflexivity; try (intro X; discriminate X); [split; reflexivity].
  - cbn. lra.
  - apply flying_consistent; [reflexivity|exact I].
  - apply flying_consistent; [reflexivity|exact I].
  - lra.
  - unfold quarter. cbn. lra.
  - intros _. left. reflexivity.
Qed.

(** The same without a scale and with orientations: the sensor of the second trajectory is mounted a quarter further. *)
Definition six_mounted : est_settings := mkEst true true true true true true false false true true true false false false true false.
Example C94_mounting_case : exists svd r a d, ate rot_impl svd gauss derive_egrad (fun m => m) mean_equal
    (compared_by_metrics (brute dist2) (brute vdist) (fun a _ _ => a) (fun _ => vzero) (fun l => l)) (plain_settings six_mounted) by_time
    (flying (map (similar vzero quarter 1) corners) (Some (repeat (rmul rot_impl quarter_q quarter_q) 6))) (flying corners (Some (repeat ident_q 6))) = Ok (r, a) /\ zero_error 6 r /\
    rot_dev r = Some d /\ length d = 6%nat /\ Forall (fun q => as_matrix rot_impl q = mident) d.
Proof.
  set (svd := svd_known mident (mkV3 2 2 2) (mtrans quarter)).
  assert (svd_contract svd) as SC by (apply svd_known_contract; [exact ident_orth|apply is_rot_orth, is_rot_mtrans, quarter_rot|cbn; lra..]).
  destruct C76_case as (_ & _ & _ & _ & _ & NC & _).
  assert (exists t e s, direct_helmert svd rot_impl corners (map (similar vzero quarter 1) corners) [] = Ok (Some (t, e, s))) as (t & e & s & E).
  { unfold direct_helmert, svd. rewrite procrustes_known; unfold corners, quarter, similar; [|reflexivity|flatv|flatv|flatr|flatr|flatm]. cbn [rmap option_map]. eexists. eexists. eexists. reflexivity. }
  destruct (plain_usable six_mounted) as (US & W & NP). exists svd.
  refine (C94_mounting RotM rot_impl svd gauss derive_egrad (fun m => m) mean_equal (brute dist2) (brute vdist) _ _ _ (plain_settings six_mounted) by_time (flying (map (similar vzero quarter 1) corners) (Some (repeat (rmul rot_impl quarter_q quarter_q) 6))) (flying corners (Some (repeat ident_q 6)))
    vzero quarter (t, e, s) quarter (repeat ident_q 6) (repeat (rmul rot_impl quarter_q quarter_q) 6) rot_impl_contract SC gauss_contract gauss_complete derive_egrad_contract (brute_contract dist2) mean_equal_contract mean_equal_agreeing
    US W _ NP eq_refl _ _ _ eq_refl (flying_sorted _ _) quarter_rot NC _ eq_refl E eq_refl quarter_rot eq_refl eq_refl _).
  - constructor; try reflexivity; try (intro X; discriminate X); try (split; reflexivity); intros _; reflexivity.
  - cbn. lra.
  - apply flying_consistent; reflexivity.
  - apply flying_consistent; reflexivity.
  - unfold quarter. cbn. lra.
  - unfold quarter. cbn [repeat map as_matrix rot_impl proj1_sig quarter_q ident_q rmul]. 
    assert (X : as_matrix rot_impl (rmul rot_impl quarter_q quarter_q) = mmul quarter (mmul quarter (as_matrix rot_impl ident_q))).
    { rewrite (rc_mul rot_impl rot_impl_contract). change (as_matrix rot_impl ident_q) with mident. now rewrite mmul_ident_r. }
    change (repeat (as_matrix rot_impl (rmul rot_impl quarter_q quarter_q)) 6 = repeat (mmul quarter (mmul quarter (as_matrix rot_impl ident_q))) 6). now rewrite X.
Qed.

(** Two poses, the second faster; the other trajectory has a lever arm (1, 0, 2) and a time shift of 3. *)
Definition speeding : traj RotM := mkTraj [0; 1] [vzero; mkV3 1 0 0] (Some [ident_q; ident_q]) [0; 1] [mkV3 1 0 0; mkV3 2 0 0] SortTime "a" 0.
Definition speeding_levered : traj RotM := set_rot None (set_xyz (levered_traj rot_impl 3 (mkV3 1 0 2) speeding [ident_q; ident_q]) speeding).
Example C94_lever_case : forall svd, exists r a, ate rot_impl svd gauss derive_egrad (fun m => m) mean_equal
    (compared_by_metrics (brute dist2) (brute vdist) (fun a _ _ => a) (fun _ => vzero) (fun l => l)) (plain_settings lever_xz) by_time
    speeding_levered speeding = Ok (r, a) /\ zero_error 2 r.
Proof.
  intro svd. destruct (plain_usable lever_xz) as (US & W & NP).
  refine (C94_lever RotM rot_impl svd gauss derive_egrad (fun m => m) mean_equal (brute dist2) (brute vdist) _ _ _ (plain_settings lever_xz) by_time speeding_levered speeding
    [ident_q; ident_q] 3 (mkV3 1 0 2) rot_impl_contract gauss_contract gauss_complete derive_egrad_contract (brute_contract dist2) US W NP eq_refl _ _ _ eq_refl _ eq_refl _ _ eq_refl _).
  - cbn. lra.
  - repeat split.
  - repeat split.
  - unfold strictly_time_sorted. cbn. repeat constructor. lra.
  - exists vzero, (mkV3 1 0 0). split; [left; reflexivity|]. split; [right; left; reflexivity|]. intro X. apply (f_equal vx) in X. munfall. lra.
  - constructor; [reflexivity|left; reflexivity|intro X; discriminate X|intro X; discriminate X|intros _; reflexivity|intro X; discriminate X|discriminate|intro X; discriminate X|].
    intros _ _. eexists _, _. split; [left; reflexivity|]. split; [right; left; reflexivity|].
    unfold body_speed, pose_rpy, DirectSpec.pose_speed. cbn [fst snd]. rewrite !(euler_as_euler rot_impl rot_impl_contract). change (as_matrix rot_impl ident_q) with mident. intro X. apply (f_equal vx) in X. munfall. lra.
  - intro X. discriminate X.
Qed.
