(** Estimating an alignment and the absolute trajectory error, end to end: alignment/estimation.py:42-99
    [estimate_alignment], trajectory.py:621-692 [apply_alignment] for an AlignmentResult, and evaluation/metrics.py:13-46 [ate].
    The logging and the [print] of the rotation parameters are left out. *)
From Verif Require Import Base NumpyModel TrajModel EvalModel ParamModel DataModel EstModel MatchModel GeomModel JacModel JacSpec LsqModel DirectModel GhmModel InitModel.

(** settings/alignment.py:275-290 [AlignmentSettings] *)
Record align_settings := mkAlignSettings {
  al_preprocessing : preprocessing;
  al_estimation : est_settings;
  al_stochastics : stochastics;
  al_variance_estimation : bool;       (* a field of the stochastics *)
  metric_threshold : R;
  time_threshold : R
}.

(** data.py:495-496: the diagonal of the bounding box *)
Definition extent (l : list V3) : result R :=
  let! x1 := np_max (map vx l) in let! y1 := np_max (map vy l) in let! z1 := np_max (map vz l) in
  let! x0 := np_min (map vx l) in let! y0 := np_min (map vy l) in let! z0 := np_min (map vz l) in
  Ok (vnorm (mkV3 (x1 - x0) (y1 - y0) (z1 - z0))).

(** data.py:484-507 [thresholds].  They depend on the observations only, which an estimation does not change, so they are
    computed once here (in the code before every iteration). *)
Definition data_thresholds (metric time : R) (d : adata) : result (list R) :=
  let os := est_epochs (a_est d) (a_obs d) in
  let! a := extent (map e_from os) in
  let! b := extent (map e_to os) in
  Ok (thresholds metric time (Rmax a b)).

(** direct.py:267-271: the rotation parameters made from three angles *)
Definition sensor_params (e : V3) : pset :=
  mkPset [ mkParam (vx e) 0 0 true "Rotation x" U_RADIAN; mkParam (vy e) 0 0 true "Rotation y" U_RADIAN;
           mkParam (vz e) 0 0 true "Rotation z" U_RADIAN ]%string (np_zeros 3) true.
(** estimation.py:91 [SensorRotationParameters(enabled=False)] *)
Definition no_sensor_rotation : pset := mkPset default_sensor_params (np_zeros 3) false.

(** parameters.py:606-608 [SensorRotationParameters.rotation] *)
Definition sensor_angles (s : pset) : V3 := mkV3 (nth 0 (values s) 0) (nth 1 (values s) 0) (nth 2 (values s) 0).

Section Align.
  Context {Q : Type} (ops : rot_ops Q).
  Variable svd : M3 -> result (M3 * V3 * M3).
  Variable solve : list (list R) -> list R -> result (list R).
  Variable egrad : (list R -> R) -> nat -> list R -> R.
  Variable pinv : list (list R) -> list (list R).
  Variable mean : list Q -> result Q.
  Variable matched : matching_settings -> traj Q -> traj Q -> result (traj Q * traj Q).
  Implicit Types from to gt est : traj Q.

  (** data.py:41-86: the poses the estimation compares, as (from, to).  [matched ms to from] is [compared_by_metrics] of
      MatchModel.v: as in [ate], the return value of [match_trajectories] is discarded and the argument objects are used. *)
  Definition prepared (s : align_settings) (ms : matching_settings) from to : result (traj Q * traj Q) :=
    let! ft := preprocess (al_preprocessing s) from to in
    let! m := matched ms (snd ft) (fst ft) in
    let! _ := np_get (tstamps (fst m)) (-1) in
    Ok m.

  (** data.py:87-98: the observations *)
  Definition observed_data (s : align_settings) from to : result adata :=
    make_data (al_estimation s) (al_stochastics s) (xyz from) (xyz to) (option_map (map (as_euler ops)) (rot from)) (speed from).

  (** estimation.py:76-91: the rotation parameters *)
  Definition estimate_sensor_rotation (e : est_settings) (p : pset) from to : result pset :=
    match rot from, rot to with
    | Some _, Some _ =>
        if sensor_rotation e then
          let pre_aligned := apply_transformation ops (sim3_matrix ops (params_of (values p))) from in
          let! angles := align_rotations ops mean (rot pre_aligned) (rot to) in
          match angles with
          | Some a => Ok (sensor_params a)
          | None => Err TypeError     (* not reached: both have orientations *)
          end
        else Ok no_sensor_rotation
    | _, _ => Ok no_sensor_rotation
    end.

  (** estimation.py:42-99 [estimate_alignment]: the name and the result *)
  Definition estimate_alignment (s : align_settings) (ms : matching_settings) from to : result (string * align_result) :=
    let! m := prepared s ms from to in
    let! d := observed_data s (fst m) (snd m) in
    let! ths := data_thresholds (metric_threshold s) (time_threshold s) d in
    let! out := estimate (ghm solve egrad pinv (init_values svd ops solve)) ths (al_variance_estimation s) d in
    let '(p, has_results, _) := out in
    let! sensor := estimate_sensor_rotation (al_estimation s) p (fst m) (snd m) in
    Ok ((name (fst m) ++ " to " ++ name (snd m))%string, mkResult p sensor (al_estimation s) has_results).

  (** trajectory.py:621-692 [apply_alignment] for a result *)
  Definition apply_result (r : align_result) (inplace : bool) (t : traj Q) : result (traj Q) :=
    apply_alignment ops (params_of (values (position_parameters r))) (sensor_angles (rotation_parameters r)) inplace t.

  (** evaluation/metrics.py:13-46 [ate] with the alignment *)
  Definition ate (s : align_settings) (ms : matching_settings) gt est : result (ate_result Q * (string * align_result)) :=
    let! m := matched ms gt est in
    let! alignment := estimate_alignment s ms (fst m) (snd m) in
    let! aligned := apply_result (snd alignment) false (fst m) in
    let! r := compare_absolute ops aligned (snd m) in
    Ok (r, alignment).
End Align.
