(** Property C139: the unit of length. *)
From Verif Require Import Base BaseFacts VecFacts NumpyModel NumpyFacts TrajModel TrajSpec TrajFacts TrajProps EvalModel EvalFacts EvalFacts4 ViewFacts MergeModel MatchModel MatchSpec MatchFacts MatchProps GeomModel ClockSpec ClockFacts ClockFacts2 ClockFacts3 LenSpec LenFacts LenFacts2 LenFacts3.

(** Selecting poses by index, time span, common time stamps or intersection, and interpolating, give the same trajectory in
    every unit of length, with the same exceptions. *)
Theorem C139_operations : forall (Q : Type) (t : traj Q) k, 0 < k ->
  (forall ix, apply_index (enlarge k t) ix = rmap (enlarge k) (apply_index t ix)) /\
  (forall a b inverse, crop (enlarge k t) a b inverse = rmap (enlarge k) (crop t a b inverse)) /\
  (forall ts, match_timestamps (enlarge k t) ts = rmap (enlarge k) (match_timestamps t ts)) /\
  (forall ts gap, intersect (enlarge k t) ts gap = rmap (enlarge k) (intersect t ts gap)) /\
  (forall seg ts, interpolate seg (enlarge k t) ts = rmap (enlarge k) (interpolate seg t ts)).
Proof.
  intros Q t k K0. split; [intro; apply index_enlarge|]. split; [intros; apply crop_enlarge|]. split; [intro; apply match_enlarge|]. split; [intros; apply intersect_enlarge|]. intros. apply interpolate_enlarge.
Qed.
Print Assumptions C139_operations.

(** Constructing from converted positions, and merging converted trajectories, give the converted trajectory: computed arc
    lengths and speeds are in the new unit.  [loc] is the conversion into local coordinates of the point sets. *)
Theorem C139_constructing : forall (Q : Type) loc pos ep (r : option (list Q)) ts nm al sp so k, 0 < k ->
  (forall l, loc (map (vscale k) l) = map (vscale k) (loc l)) ->
  new_traj loc (map (vscale k) pos) ep r ts nm (option_map (map (Rmult k)) al) (option_map (map (vscale k)) sp) so = rmap (enlarge k) (new_traj loc pos ep r ts nm al sp so) /\
  forall argsort qid pop l, merge_trajectories argsort loc qid pop (map (@enlarge Q k) l) = rmap (enlarge k) (merge_trajectories argsort loc qid pop l).
Proof. intros Q loc pos ep r ts nm al sp so k K0 HL. split; [apply new_enlarge; assumption|intros; apply merge_enlarge; assumption]. Qed.
Print Assumptions C139_constructing.

(** Every matching method finds the same pairs, with the limit of the distance in the new unit. *)
Theorem C139_matching : forall (Q : Type) query2 query3 seg eigh loc m (test ref : traj Q) k, 0 < k -> scales query3 -> unit_free eigh ->
  (forall l, loc (map (vscale k) l) = map (vscale k) (loc l)) ->
  match_trajectories query2 query3 seg eigh loc (longer k m) (enlarge k test) (enlarge k ref)
  = rmap (both (both (enlarge k))) (match_trajectories query2 query3 seg eigh loc m test ref).
Proof. intros. apply matching_enlarge; assumption. Qed.
Print Assumptions C139_matching.

(** An absolute comparison: deviations are multiplied, also those along and across the path; differences of the
    orientations stay. *)
Theorem C139_absolute : forall (Q : Type) (ops : rot_ops Q) (test ref : traj Q) k, 0 < k ->
  compare_absolute ops (enlarge k test) (enlarge k ref) = rmap (enlarged_ate k) (compare_absolute ops test ref).
Proof. intros. apply absolute_enlarge. assumption. Qed.
Print Assumptions C139_absolute.

(** Each statistic of the position errors is then multiplied by the factor. *)
Theorem C139_statistics : forall (Q : Type) (r : ate_result Q) k, 0 < k ->
  let r' := enlarged_ate k r in let times := option_map (Rmult k) in
  pos_dev_comb r' = map (Rmult k) (pos_dev_comb r) /\
  pos_ate r' = times (pos_ate r) /\ pos_dev_rms r' = times (pos_dev_rms r) /\ pos_dev_std r' = times (pos_dev_std r) /\ pos_dev_median r' = times (pos_dev_median r) /\
  pos_dev_min r' = rmap (Rmult k) (pos_dev_min r) /\ pos_dev_max r' = rmap (Rmult k) (pos_dev_max r) /\
  pos_bias_x r' = times (pos_bias_x r) /\ pos_bias_y r' = times (pos_bias_y r) /\ pos_bias_z r' = times (pos_bias_z r) /\
  pos_rms_x r' = times (pos_rms_x r) /\ pos_rms_y r' = times (pos_rms_y r) /\ pos_rms_z r' = times (pos_rms_z r) /\
  pos_rms_along r' = times (pos_rms_along r) /\ pos_rms_cross_h r' = times (pos_rms_cross_h r) /\ pos_rms_cross_v r' = times (pos_rms_cross_v r).
Proof.
  intros Q r k K0 r' times.
  assert (C : pos_dev_comb r' = map (Rmult k) (pos_dev_comb r)) by (unfold pos_dev_comb; cbn; rewrite !map_map; apply map_ext; intro; apply norm_scale, K0).
  assert (F : forall f l, (forall v, f (vscale k v) = k * f v) -> map f (map (vscale k) l) = map (Rmult k) (map f l)) by (intros f l H; rewrite !map_map; apply map_ext; exact H).
  split; [exact C|]. unfold pos_ate, pos_dev_rms, pos_dev_std, pos_dev_median, pos_dev_min, pos_dev_max. rewrite C.
  rewrite mean_scaled, (rms_scaled k K0), (std_scaled k K0), (median_scaled k K0), (min_scaled k K0), (max_scaled k K0).
  unfold pos_bias_x, pos_bias_y, pos_bias_z, pos_rms_x, pos_rms_y, pos_rms_z, pos_rms_along, pos_rms_cross_h, pos_rms_cross_v, r'. cbn [pos_dev directed_pos_dev enlarged_ate].
  rewrite !(F vx), !(F vy), !(F vz) by reflexivity. rewrite !mean_scaled, !(rms_scaled k K0). repeat split.
Qed.
Print Assumptions C139_statistics.

(** A relative comparison over distances, with the settings in the new unit: the drift of the position is a ratio of
    lengths and stays, the drift of the orientation is per length and is divided.  Over time the settings stay and the
    drift of the position is multiplied. *)
Theorem C139_relative : forall (Q : Type) (ops : rot_ops Q) (test ref : traj Q) c k, 0 < k ->
  (pair_distance_unit c = U_METER -> compare_relative ops (enlarge k test) (enlarge k ref) (rescaled k c) = rmap (enlarged_over_length k) (compare_relative ops test ref c)) /\
  (pair_distance_unit c = U_SECOND -> compare_relative ops (enlarge k test) (enlarge k ref) c = rmap (enlarged_over_time k) (compare_relative ops test ref c)).
Proof. intros Q ops test ref c k K0. split; [apply relative_length, K0|apply relative_seconds, K0]. Qed.
Print Assumptions C139_relative.

(** The whole relative error metric, matching included *)
Theorem C139_rpe : forall (Q : Type) (ops : rot_ops Q) query2 query3 seg eigh loc m c (gt est : traj Q) k, 0 < k -> scales query3 -> unit_free eigh ->
  (forall l, loc (map (vscale k) l) = map (vscale k) (loc l)) ->
  let rpe m c gt est := (let! x := compared_by_metrics query2 query3 seg eigh loc m gt est in compare_relative ops (fst x) (snd x) c) in
  (pair_distance_unit c = U_METER -> rpe (longer k m) (rescaled k c) (enlarge k gt) (enlarge k est) = rmap (enlarged_over_length k) (rpe m c gt est)) /\
  (pair_distance_unit c = U_SECOND -> rpe (longer k m) c (enlarge k gt) (enlarge k est) = rmap (enlarged_over_time k) (rpe m c gt est)).
Proof.
  intros Q ops query2 query3 seg eigh loc m c gt est k K0 SQ UF HL rpe. unfold rpe. rewrite compared_enlarge by assumption.
  split; intro U; destruct (compared_by_metrics query2 query3 seg eigh loc m gt est) as [[a b]|]; cbn [rmap bind both fst snd]; try reflexivity; [apply relative_length|apply relative_seconds]; assumption.
Qed.
Print Assumptions C139_rpe.

(** What is assumed of the search tree is met by a brute-force search.  Any routine for the principal direction becomes
    independent of the unit, and stays correct, when it is given the matrix divided by its trace. *)
Theorem C139_assumptions_met : scales (brute vdist) /\
  (forall eigh, unit_free (by_trace eigh)) /\
  (forall eigh m, 0 < trace m -> top_direction (mscale (/ trace m) m) (eigh (mscale (/ trace m) m)) -> top_direction m (by_trace eigh m)) /\
  (forall k (l : list V3), (fun p => p) (map (vscale k) l) = map (vscale k) ((fun p => p) l)).
Proof. split; [exact brute_scales|]. split; [exact by_trace_free|]. split; [exact by_trace_top|reflexivity]. Qed.
Print Assumptions C139_assumptions_met.

(** Two positions a metre from their references, in millimetres: a mean
    error of one becomes one of a thousand. *)
Definition walked : traj nat := mkTraj [0; 1] [mkV3 0 0 0; mkV3 3 0 0] None [0; 3] [vzero; vzero] SortTime "walked" 0.
Definition beside : traj nat := mkTraj [0; 1] [mkV3 0 1 0; mkV3 3 1 0] None [0; 3] [vzero; vzero] SortTime "beside" 0.
Example C139_case : consistent walked /\ consistent beside /\
  forall ops, exists r, compare_absolute ops beside walked = Ok r /\ pos_ate r = Some 1 /\
    exists r', compare_absolute ops (enlarge 1000 beside) (enlarge 1000 walked) = Ok r' /\ pos_ate r' = Some 1000.
Proof.
  split; [repeat split|]. split; [repeat split|]. intro ops.
  destruct (compare_absolute_ok ops beside walked ltac:(repeat split) ltac:(repeat split) eq_refl) as (r & E & _ & _ & L & _ & H & _). exists r. split; [exact E|].
  assert (D : pos_dev r = [vsub (mkV3 0 0 0) (mkV3 0 1 0); vsub (mkV3 3 0 0) (mkV3 3 1 0)]).
  { assert (H0 := H 0%nat _ _ eq_refl eq_refl). assert (H1 := H 1%nat _ _ eq_refl eq_refl). unfold tlen in L. cbn in L. destruct (pos_dev r) as [|a [|b [|? ?]]]; cbn in *; try discriminate. injection H0 as <-. injection H1 as <-. reflexivity. }
  assert (A : pos_ate r = Some 1).
  { unfold pos_ate, pos_dev_comb. rewrite D. unfold vnorm, vsub, vdot. cbn. f_equal. replace ((0 - 0) * (0 - 0) + (0 - 1) * (0 - 1) + (0 - 0) * (0 - 0)) with 1 by ring.
    replace ((3 - 3) * (3 - 3) + (0 - 1) * (0 - 1) + (0 - 0) * (0 - 0)) with 1 by ring. rewrite sqrt_1. field. }
  split; [exact A|]. exists (enlarged_ate 1000 r). split; [rewrite C139_absolute, E by lra; reflexivity|].
  destruct (C139_statistics nat r 1000 ltac:(lra)) as (_ & K & _). rewrite K, A. cbn. f_equal. ring.
Qed.
Print Assumptions C139_case.
