(** Trajectories as tables, their data rate, rough time offsets, trajectory reports and bar charts:
    trajectory.py:256-296, 373-378, matching.py:236-250, report/trajectory.py, plotting/plotly/scatter_plots.py, plotting/plotly/bar_plots.py. *)
From Verif Require Import Base NumpyModel TrajModel GeomModel MatchModel EvalModel ParamModel DataModel EstModel TextModel IoModel AngModel.

(** * Tables *)
(** [list.index]; ValueError if the element is missing *)
Fixpoint position_of (x : string) (l : list string) : option nat :=
  match l with
  | [] => None
  | y :: r => if String.eqb x y then Some 0%nat else option_map S (position_of x r)
  end.

(** [dataframe.sort_values(by=name)]; KeyError for a column that does not exist *)
Definition sort_values (argsort : list R -> list nat) (columns : list string) (rows : list (list R)) (by_ : string) : result (list (list R)) :=
  match position_of by_ columns with
  | None => Err KeyError
  | Some c => let! keys := mapM (fun row => match nth_error row c with Some x => Ok x | None => Err IndexError end) rows in
              np_take rows (map Z.of_nat (argsort keys))
  end.

Section Table.
  Context {Q : Type} (argsort : list R -> list nat) (as_quat : Q -> V4).
  Implicit Types t : traj Q.

  (** [np.c_] of columns and blocks: ValueError if the numbers of rows differ *)
  Definition np_c (blocks : list (list (list R))) : result (list (list R)) :=
    match blocks with
    | [] => Err ValueError
    | b :: r => if forallb (fun c => length c =? length b)%nat r then
                  Ok (fold_right (fun c acc => map (fun p => fst p ++ snd p) (combine c acc)) (map (fun _ => []) b) blocks)
                else Err ValueError
    end.
  Definition block1 (l : list R) : list (list R) := map (fun x => [x]) l.
  Definition block3 (l : list V3) : list (list R) := map (fun v => [vx v; vy v; vz v]) l.
  Definition block4 (l : list V4) : list (list R) := map (fun v => [q_x v; q_y v; q_z v; q_w v]) l.

  (** sorting.py:24-26 [Sorting] as text *)
  Definition sorting_text (s : sorting) : string := match s with SortTime => "time" | _ => "arc_length" end.

  (** trajectory.py:256-296 [to_dataframe].  A Rotation is always true. *)
  Definition to_dataframe t (sort_by : string) : result (list string * list (list R)) :=
    let by_ := if String.eqb sort_by "" then sorting_text (srt t) else sort_by in
    match rot t with
    | Some q =>
        let columns := ["time"; "arc_length"; "pos_x"; "pos_y"; "pos_z"; "rot_x"; "rot_y"; "rot_z"; "rot_w"; "speed_x"; "speed_y"; "speed_z"]%string in
        let! rows := np_c [block1 (tstamps t); block1 (arc t); block3 (xyz t); block4 (map as_quat q); block3 (speed t)] in
        let! sorted := sort_values argsort columns rows by_ in Ok (columns, sorted)
    | None =>
        let columns := ["time"; "arc_length"; "pos_x"; "pos_y"; "pos_z"; "speed_x"; "speed_y"; "speed_z"]%string in
        let! rows := np_c [block1 (tstamps t); block1 (arc t); block3 (xyz t); block3 (speed t)] in
        let! sorted := sort_values argsort columns rows by_ in Ok (columns, sorted)
    end.
End Table.

(** trajectory.py:373-378 [data_rate]: 1 / mean of the differences; the mean of nothing is not a number *)
Definition data_rate {Q} (t : traj Q) : num :=
  match np_mean (np_diff (np_sort (tstamps t))) with
  | None => NaN
  | Some m => if Reqb m 0 then Inf else Fin (1 / m)
  end.

(** matching.py:236-250 [rough_timestamp_matching] (on copies of the arguments) *)
Definition rough_timestamp_matching {Q} query3 (ref test : traj Q) (max_distance : R) : result num :=
  let! m := match_spatial query3 max_distance test ref in
  let! d := np_zip Rminus (tstamps (snd m)) (tstamps (fst m)) in
  Ok (match np_median d with Some x => Fin x | None => NaN end).

(** * Trajectory reports *)
(** plotting/plotly/scatter_plots.py:28-29: [axes.index(char)] for every character of scatter_axis_order; ValueError for another character *)
Definition axis_index (c : ascii) : result nat :=
  if Ascii.eqb c "x" then Ok 0%nat else if Ascii.eqb c "y" then Ok 1%nat else if Ascii.eqb c "z" then Ok 2%nat else Err ValueError.
Fixpoint axes_indices (order : string) : result (list nat) :=
  match order with
  | "" => Ok []
  | String c r => let! i := axis_index c in let! l := axes_indices r in Ok (i :: l)
  end%string.
(** [pos[:, i]] *)
Definition column (i : nat) (l : list V3) : list R :=
  map (fun v => match i with 0%nat => vx v | 1%nat => vy v | _ => vz v end) l.

Section Report.
  Context {Q : Type} (argsort : list R -> list nat).
  (** PointSet.to_epsg(4326) on every position (external package) *)
  Variable conv : V3 -> V3.
  Implicit Types t : traj Q.

  Inductive drawing :=
  | Nothing                                        (* an empty text *)
  | Map (traces : list (string * (list R * list R)))  (* name, latitudes, longitudes *)
  | Scatter (traces : list (string * list (list R)))  (* name and one column per axis *)
  | Components (traces : list (string * (list R * list V3))).  (* name, abscissae, positions *)

  Definition to_wgs84 t : traj Q := mkTraj (tstamps t) (map conv (xyz t)) (rot t) (arc t) (speed t) (srt t) (name t) 4326.

  (** plotting/plotly/scatter_plots.py:33-84 [render_trajectories_mapbox]: the trajectories afterwards and what is drawn.  The local
      transformer of a PointSet exists if its epsg code is not 0.  The centre of the map is left out. *)
  Definition render_mapbox (order : string) (ts : list (traj Q)) : result (list (traj Q) * drawing) :=
    if existsb (fun t => Z.eqb (epsg t) 0) ts then Ok (ts, Nothing)
    else
      let ts := map to_wgs84 ts in
      let! axes := axes_indices order in
      match axes with
      | i :: j :: _ =>
          let! traces := mapM (fun t => let! p := xyz_sorted argsort t in Ok (name t, (column i p, column j p))) ts in
          Ok (ts, Map traces)
      | _ => Err IndexError
      end.

  (** plotting/plotly/scatter_plots.py:248-307 [render_trajectories] *)
  Definition render_trajectories (order : string) (ts : list (traj Q)) : result drawing :=
    let! axes := axes_indices order in
    let! traces := mapM (fun t => let! p := xyz_sorted argsort t in
                                  if ((length axes =? 2) || (length axes =? 3))%nat%bool then Ok (name t, map (fun i => column i p) axes) else Err ValueError) ts in
    Ok (Scatter traces).

  (** plotting/plotly/multi_line_plots.py:237-249 [render_pos_plot] *)
  Definition render_pos_plot (ts : list (traj Q)) : result drawing :=
    let! traces := mapM (fun t => let! f := function_of argsort t in let! p := xyz_sorted argsort t in Ok (name t, (f, p))) ts in
    Ok (Components traces).

  (** report/trajectory.py:21-36 [render_one_line_plots] without the orientations: the trajectories afterwards and the plots *)
  Definition trajectory_report (mapbox : bool) (order : string) (ts : list (traj Q)) : result (list (traj Q) * list drawing) :=
    let! first := if mapbox then render_mapbox order ts else (let! d := render_trajectories order ts in Ok (ts, d)) in
    let! second := render_pos_plot (fst first) in
    Ok (fst first, [snd first; second]).
End Report.

(** * Bar charts *)
(** [name.split("vs")[0]] *)
Fixpoint before_vs (s : string) : string :=
  match s with
  | "" => ""
  | String c r => match strip_prefix "vs" s with Some _ => "" | None => String c (before_vs r) end
  end%string.

Section Bars.
  Context {Q : Type} (as_rotvec : Q -> V3).
  Implicit Types r : ate_result Q.

  (** report/data.py:38-40 [short_name] *)
  Definition short_name r : string := before_vs (ate_name r).

  Definition as_num (o : option R) : num := match o with Some x => Fin x | None => NaN end.
  Definition in_degrees (x : num) : num := match x with Fin x => Fin (x * (180 / PI)) | n => n end.
  Definition metric_names : list string := ["ATE"; "ATE Min"; "ATE Max"; "ATE Median"; "ATE RMS"; "ATE Std"]%string.

  (** plotting/plotly/bar_plots.py:21-40 [to_pos_metrics_df]: rows (trajectory, metric, value) *)
  Definition pos_metrics r : result (list (string * string * num)) :=
    let! lo := pos_dev_min r in
    let! hi := pos_dev_max r in
    Ok (map (fun mv => (short_name r, fst mv, snd mv))
         (combine metric_names [as_num (pos_ate r); Fin lo; Fin hi; as_num (pos_dev_median r); as_num (pos_dev_rms r); as_num (pos_dev_std r)])).
  Definition to_pos_metrics (rs : list (ate_result Q)) : result (list (string * string * num)) :=
    rmap (@concat _) (mapM pos_metrics rs).

  (** plotting/plotly/bar_plots.py:43-68 [to_rot_metrics_df] *)
  Definition has_orientation r : bool := match rot_dev r with Some _ => true | None => false end.
  Definition rot_metrics r : result (list (string * string * num)) :=
    let! lo := rot_dev_min as_rotvec r in
    let! hi := rot_dev_max as_rotvec r in
    Ok (map (fun mv => (short_name r, fst mv, snd mv))
         (combine metric_names (map in_degrees [as_num (rot_ate as_rotvec r); Fin lo; Fin hi; as_num (rot_dev_median as_rotvec r); as_num (rot_dev_rms as_rotvec r); as_num (rot_dev_std as_rotvec r)]))).
  Definition to_rot_metrics (rs : list (ate_result Q)) : result (list (string * string * num)) :=
    rmap (@concat _) (mapM rot_metrics (filter has_orientation rs)).

  (** plotting/plotly/scatter_plots.py:147-161 [get_marker_dict]: the limits of the colour bar; ValueError without colours *)
  Definition marker_limits (colors : list R) (max_std : R) : result (R * R) :=
    let! lo := np_min colors in
    let! hi := np_max colors in
    match np_std colors with
    | Some s => Ok (lo, Rmin hi (lo + s * max_std))
    | None => Err ValueError
    end.
End Bars.
