(** Property C136: the origin and the unit of time. *)
From Verif Require Import Base BaseFacts VecFacts NumpyModel NumpyFacts TrajModel TrajSpec TrajFacts TrajProps EvalModel EvalFacts ViewFacts ParamModel DataModel EstModel MergeModel MatchModel MatchSpec MatchFacts MatchProps GeomModel JacModel JacSpec LsqModel DirectModel GhmModel InitModel AlignModel ClockSpec ClockFacts ClockFacts2 ClockFacts3.

(** Selecting poses by index, by time span, by common time stamps or by intersection gives the same poses, with the same
    exceptions, on every clock; bounds, requests and gap are expressed on that clock. *)
Theorem C136_selecting : forall (Q : Type) (t : traj Q) s d, 0 < s ->
  (forall ix, apply_index (retime s d t) ix = rmap (retime s d) (apply_index t ix)) /\
  (forall a b inverse, crop (retime s d t) (on_clock s d a) (on_clock s d b) inverse = rmap (retime s d) (crop t a b inverse)) /\
  (forall ts, match_timestamps (retime s d t) (map (on_clock s d) ts) = rmap (retime s d) (match_timestamps t ts)) /\
  (forall ts gap, intersect (retime s d t) (map (on_clock s d) ts) (s * gap) = rmap (retime s d) (intersect t ts gap)).
Proof. intros Q t s d S0. split; [intro; apply index_retime|]. split; [intros; apply crop_retime, S0|]. split; [intro; apply match_retime, S0|intros; apply intersect_retime, S0]. Qed.
Print Assumptions C136_selecting.

(** Interpolating gives the same positions, orientations and arc lengths, and the speeds per new unit of time. *)
Theorem C136_interpolating : forall (Q : Type) seg (t : traj Q) ts s d, 0 < s ->
  interpolate seg (retime s d t) (map (on_clock s d) ts) = rmap (retime s d) (interpolate seg t ts).
Proof. intros Q seg t ts s d S0. apply interpolate_retime, S0. Qed.
Print Assumptions C136_interpolating.

(** Constructing a trajectory from the converted time stamps gives the same trajectory read on the new clock. *)
Theorem C136_constructing : forall (Q : Type) loc pos ep (r : option (list Q)) ts nm al sp so s d, 0 < s ->
  new_traj loc pos ep r (Some (map (on_clock s d) ts)) nm al (option_map (map (vscale (/ s))) sp) so
  = rmap (retime s d) (new_traj loc pos ep r (Some ts) nm al sp so).
Proof. intros. apply new_retime. Qed.
Print Assumptions C136_constructing.

(** Merging commutes with the change of clock when the sorting routine looks at the order of the keys only. *)
Theorem C136_merging : forall (Q : Type) argsort loc (qid : Q) pop l s d, comparison_sort argsort -> 0 < s ->
  merge_trajectories argsort loc qid pop (map (retime s d) l) = rmap (retime s d) (merge_trajectories argsort loc qid pop l).
Proof. intros Q argsort loc qid pop l s d CS S0. apply merge_retime; assumption. Qed.
Print Assumptions C136_merging.

(** Matching by time with the tolerance in the new unit, and by place, finds the same pairs on every clock. *)
Theorem C136_nearest : forall (Q : Type) query2 query3 (test ref : traj Q) m s d, moves_along query2 -> 0 < s ->
  match_temporal query2 (s * m) (retime s d test) (retime s d ref) = rmap (both (retime s d)) (match_temporal query2 m test ref) /\
  match_spatial query3 m (retime s d test) (retime s d ref) = rmap (both (retime s d)) (match_spatial query3 m test ref).
Proof. intros Q query2 query3 test ref m s d MV S0. split; [apply temporal_retime; assumption|apply spatial_retime]. Qed.
Print Assumptions C136_nearest.

(** The origin of time does not matter to any of the matching methods.  The trajectories returned by the matching with
    interpolated lines are new ones without the times of the recording; the arguments keep theirs. *)
Theorem C136_matching_origin : forall (Q : Type) query2 query3 seg eigh loc m (test ref : traj Q) d, moves_along query2 ->
  match_trajectories query2 query3 seg eigh loc m (delayed d test) (delayed d ref)
  = rmap (fun r => (both (delayed d) (fst r), match m_method m with NearestSpatialInterpolated => snd r | _ => both (delayed d) (snd r) end))
         (match_trajectories query2 query3 seg eigh loc m test ref).
Proof. intros Q query2 query3 seg eigh loc m test ref d MV. apply match_delayed, MV. Qed.
Print Assumptions C136_matching_origin.

(** A relative comparison over time spans: with the settings in the new unit the spans are multiplied and the drifts per
    unit of time divided by the factor.  Over distances the clock does not matter at all. *)
Theorem C136_relative : forall (Q : Type) ops (test ref : traj Q) c s d, 0 < s ->
  (pair_distance_unit c = U_SECOND -> compare_relative ops (retime s d test) (retime s d ref) (rescaled s c) = rmap (rescaled_rpe s) (compare_relative ops test ref c)) /\
  (pair_distance_unit c <> U_SECOND -> compare_relative ops (retime s d test) (retime s d ref) c = compare_relative ops test ref c).
Proof. intros Q ops test ref c s d S0. split; [apply relative_time, S0|apply relative_other]. Qed.
Print Assumptions C136_relative.

(** The relative error of two recordings does not depend on the origin of time, whatever matching and whatever unit. *)
Theorem C136_rpe_origin : forall (Q : Type) ops query2 query3 seg eigh loc m c (gt est : traj Q) d, moves_along query2 ->
  (let! x := compared_by_metrics query2 query3 seg eigh loc m (delayed d gt) (delayed d est) in compare_relative ops (fst x) (snd x) c)
  = (let! x := compared_by_metrics query2 query3 seg eigh loc m gt est in compare_relative ops (fst x) (snd x) c).
Proof.
  intros Q ops query2 query3 seg eigh loc m c gt est d MV. rewrite compared_delayed by exact MV.
  destruct (compared_by_metrics query2 query3 seg eigh loc m gt est) as [[a b]|]; cbn [rmap bind both fst snd]; [|reflexivity]. apply relative_delayed.
Qed.
Print Assumptions C136_rpe_origin.

(** The estimated alignment and the absolute error do not depend on the origin of time: the same parameters, the same
    deviations, the same exceptions; the trajectory in the result has the times it was given. *)
Theorem C136_ate_origin : forall (Q : Type) (ops : rot_ops Q) svd solve egrad pinv mean query2 query3 seg eigh loc s ms (gt est : traj Q) d, moves_along query2 ->
  let matched := compared_by_metrics query2 query3 seg eigh loc in
  estimate_alignment ops svd solve egrad pinv mean matched s ms (delayed d est) (delayed d gt)
    = estimate_alignment ops svd solve egrad pinv mean matched s ms est gt /\
  ate ops svd solve egrad pinv mean matched s ms (delayed d gt) (delayed d est)
    = rmap (fun r => (retimed_ate d (fst r), snd r)) (ate ops svd solve egrad pinv mean matched s ms gt est).
Proof.
  intros Q ops svd solve egrad pinv mean query2 query3 seg eigh loc s ms gt est d MV matched.
  assert (ME : forall ms gt est, matched ms (delayed d gt) (delayed d est) = rmap (both (delayed d)) (matched ms gt est)) by (intros; apply compared_delayed, MV).
  split; [apply estimate_delayed, ME|apply ate_delayed, ME].
Qed.
Print Assumptions C136_ate_origin.

(** What the theorems assume of the search tree and of the sorting routine is met by a brute-force search and by a
    stable sort. *)
Theorem C136_assumptions_met : moves_along (brute dist2) /\ comparison_sort stable_argsort.
Proof. split; [exact brute_moves|exact stable_comparison]. Qed.
Print Assumptions C136_assumptions_met.

(** Matching by interpolation depends on the unit: gaps are compared with the number two, whatever it means on the clock
    of the recording. *)
Definition sparse : traj nat := mkTraj [0; 2] [mkV3 0 0 0; mkV3 2 0 0] None [0; 2] [vzero; vzero] SortTime "sparse" 0.
Definition dense : traj nat := mkTraj [0; 1; 2] [mkV3 0 0 0; mkV3 1 0 0; mkV3 2 0 0] None [0; 1; 2] [vzero; vzero; vzero] SortTime "dense" 0.
Lemma dense_seconds : exists a b, match_interpolation demo_seg sparse dense = Ok (a, b) /\ tlen b = 3%nat.
Proof.
  unfold match_interpolation.
  assert (E1 : intersect sparse (tstamps dense) 2 = Ok sparse).
  { unfold intersect, common_time_span. cbn. rb. cbn. minmax. unfold crop. repeat (cbn; unfold gap_ok; rb). reflexivity. }
  rewrite E1. cbn [bind tstamps].
  assert (E2 : intersect dense (tstamps sparse) 2 = Ok dense).
  { unfold intersect, common_time_span. cbn. rb. cbn. minmax. unfold crop. repeat (cbn; unfold gap_ok; rb). reflexivity. }
  rewrite E2. cbn [bind tstamps dense]. unfold interpolate, crop_request. cbn. rb. cbn. rb. cbn. do 2 eexists. split; reflexivity.
Qed.
Lemma dense_halves : exists a b, match_interpolation demo_seg (retime 2 0 sparse) (retime 2 0 dense) = Ok (a, b) /\ tlen b = 2%nat.
Proof.
  unfold match_interpolation.
  assert (E1 : intersect (retime 2 0 sparse) (tstamps (retime 2 0 dense)) 2 = Ok (retime 2 0 sparse)).
  { unfold intersect, common_time_span. cbn. unfold on_clock. rb. cbn. minmax. unfold crop. repeat (cbn; unfold gap_ok, on_clock; rb). reflexivity. }
  rewrite E1. cbn [bind tstamps].
  assert (E2 : exists b, intersect (retime 2 0 dense) (tstamps (retime 2 0 sparse)) 2 = Ok b /\ tstamps b = [2 * 0 + 0; 2 * 2 + 0] /\ tlen b = 2%nat).
  { unfold intersect, common_time_span. cbn. unfold on_clock. rb. cbn. minmax. unfold crop. repeat (cbn; unfold gap_ok, on_clock; rb). eexists. repeat split; reflexivity. }
  destruct E2 as (b & E2 & T & L). rewrite E2. cbn [bind]. rewrite T. unfold interpolate, crop_request. cbn. unfold on_clock. rb. cbn. rb. cbn. do 2 eexists. split; [reflexivity|exact L].
Qed.
Theorem C136_interpolation_unit_refuted :
  ~ (forall (Q : Type) seg (test ref : traj Q) s d, 0 < s ->
       match_interpolation seg (retime s d test) (retime s d ref) = rmap (both (retime s d)) (match_interpolation seg test ref)).
Proof.
  intro H. specialize (H nat demo_seg sparse dense 2 0 ltac:(lra)). destruct dense_seconds as (a & b & E & L). destruct dense_halves as (a' & b' & E' & L').
  rewrite E, E' in H. injection H as _ H. apply (f_equal tlen) in H. change (tlen (retime 2 0 b)) with (tlen b) in H. lia.
Qed.
Print Assumptions C136_interpolation_unit_refuted.

(** A recording of one and a half seconds, read in milliseconds and an hour later: cropped to its first second, and
    resampled between its poses. *)
Definition blinking : traj nat := mkTraj [0; 1/2; 3/2] [mkV3 0 0 0; mkV3 1 0 0; mkV3 3 0 0] None [0; 1; 3] [mkV3 2 0 0; mkV3 2 0 0; vzero] SortTime "blinking" 0.
Example C136_case : consistent blinking /\
  (exists u, crop blinking 0 1 false = Ok u /\ tstamps u = [0; 1/2] /\
    crop (retime 1000 3600000 blinking) 3600000 3601000 false = Ok (retime 1000 3600000 u)) /\
  (exists u, interpolate demo_seg blinking [1] = Ok u /\ interpolate demo_seg (retime 1000 3600000 blinking) [3601000] = Ok (retime 1000 3600000 u)).
Proof.
  split; [repeat split|]. split.
  - assert (E : exists u, crop blinking 0 1 false = Ok u /\ tstamps u = [0; 1/2]).
    { unfold crop. cbn. rb. cbn. eexists. split; reflexivity. }
    destruct E as (u & E & T). exists u. split; [exact E|]. split; [exact T|].
    assert (K := crop_retime 1000 3600000 ltac:(lra) blinking 0 1 false). rewrite E in K. unfold on_clock in K. rewrite Rmult_0_r, Rmult_1_r, Rplus_0_l in K.
    replace (1000 + 3600000) with 3601000 in K by ring. exact K.
  - assert (E : exists u, interpolate demo_seg blinking [1] = Ok u).
    { unfold interpolate, crop_request. cbn. rb. cbn. rb. cbn. eexists. reflexivity. }
    destruct E as (u & E). exists u. split; [exact E|].
    assert (K := interpolate_retime 1000 3600000 ltac:(lra) demo_seg blinking [1]). rewrite E in K. cbn [map rmap] in K. unfold on_clock in K.
    replace (1000 * 1 + 3600000) with 3601000 in K by ring. exact K.
Qed.
Print Assumptions C136_case.
