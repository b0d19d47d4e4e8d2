(** Figures of matplotlib: histograms with their legends, scatter plots of deviations, axis labels and curves of trajectories:
    plotting/mpl/deviation_plot.py, plotting/mpl/trajectory_plot.py, plotting/utils.py, plotting/plotly/histograms.py. *)
From Verif Require Import Base NumpyModel TrajModel GeomModel EvalModel EstModel AngModel TextModel ViewModel PlotModel PageModel.

(** settings/mpl_settings.py:17-36 [MPLPlotSettings] (heatmap_spacing is left out) *)
Record mpl_settings := mkMpl { mpl_cbar : cbar_settings; scatter_no_axis : bool; ate_unit_is_mm : bool; hist_as_stairs : bool; show_directed_devs : bool }.
Definition default_mpl : mpl_settings := mkMpl (mkCbar 3 4 true) false false false false.
Definition unit_multiplier (s : mpl_settings) : R := if ate_unit_is_mm s then 1000 else 1.
Definition unit_str (s : mpl_settings) : string := if ate_unit_is_mm s then "[mm]" else "[m]".

(** * Histograms *)
(** plotting/mpl/deviation_plot.py:41-51 [_stair_hist]: what is drawn are the counts; only the returned number is normalised *)
Definition stair_hist (auto : list R -> list R) (mm : bool) (l : list R) : list R * list num := norm_hist auto mm false l.
(** One histogram as stairs or as bars, lines 79-86 and 104-111 *)
Definition one_hist (auto : list R -> list R) (s : mpl_settings) (mm : bool) (l : list R) : list R * list num :=
  if hist_as_stairs s then stair_hist auto mm l else norm_hist auto mm false l.
(** [plt.legend(labels)]: the labels are given to what has been drawn, in the order of drawing *)
Definition with_legend {A} (labels : list string) (drawn : list A) : list (string * A) := combine labels drawn.

Section Hist.
  Context {Q : Type} (ops : rot_ops Q) (auto : list R -> list R).
  Implicit Types r : ate_result Q.

  (** [np.rad2deg] *)
  Definition rad2deg (x : R) : R := x * (180 / PI).

  (** plotting/mpl/deviation_plot.py:72-87 [plot_rotation_hist]: unit on the axis, histograms with their names *)
  Definition plot_rotation_hist (s : mpl_settings) r : string * list (string * (list R * list num)) :=
    let roll := map rad2deg (map vx (rot_dev_xyz ops r)) in
    let pitch := map rad2deg (map vy (rot_dev_xyz ops r)) in
    let yaw := map rad2deg (map vz (rot_dev_xyz ops r)) in
    ("[°]", with_legend ["yaw"; "pitch"; "roll"] [one_hist auto s false yaw; one_hist auto s false pitch; one_hist auto s false roll])%string.

  (** plotting/mpl/deviation_plot.py:90-113 [plot_position_hist] *)
  Definition plot_position_hist (s : mpl_settings) r : string * list (string * (list R * list num)) :=
    let devs := if show_directed_devs s then directed_pos_dev r else pos_dev r in
    let deviations_xa := map vx devs in
    let deviations_yh := map vy devs in
    let deviations_zv := map vz devs in
    let labels := if show_directed_devs s then ["vertical"; "horizontal"; "along"]%string else ["x"; "y"; "z"]%string in
    let mm := ate_unit_is_mm s in
    (unit_str s, with_legend labels [one_hist auto s mm deviations_zv; one_hist auto s mm deviations_yh; one_hist auto s mm deviations_xa]).

  (** plotting/mpl/deviation_plot.py:54-69 [plot_compact_hist]: the diagram of the positions and, with orientations, that of the rotations *)
  Definition plot_compact_hist (s : mpl_settings) r : list (string * list (string * (list R * list num))) :=
    plot_position_hist s r :: match rot_dev r with Some _ => [plot_rotation_hist s r] | None => [] end.

  (** The names of report settings (settings/report.py) that histograms use *)
  Record hist_names := mkNames { pos_names : string * string * string; dir_names : string * string * string; rot_names : string * string * string }.

  (** plotting/plotly/histograms.py:14-43 [render_pos_devs] over report/data.py:75-96: names and values; [directed] is settings.directed_ate and
      the values of [r] are already in the unit of the report *)
  Definition render_pos_devs (n : hist_names) (directed : bool) r : list (string * list R) :=
    let '(nx, ny, nz) := if directed then dir_names n else pos_names n in
    let devs := if directed then directed_pos_dev r else pos_dev r in
    [(nx, map vx devs); (ny, map vy devs); (nz, map vz devs)].

  (** plotting/plotly/histograms.py:46-80 [render_rot_devs] over report/data.py:126-145; ValueError without orientations *)
  Definition render_rot_devs (n : hist_names) r : result (list (string * list R)) :=
    match rot_dev r with
    | None => Err ValueError
    | Some _ => let '(nx, ny, nz) := rot_names n in
                Ok [(nx, map rad2deg (map vx (rot_dev_xyz ops r))); (ny, map rad2deg (map vy (rot_dev_xyz ops r))); (nz, map rad2deg (map vz (rot_dev_xyz ops r)))]
    end.
End Hist.

(** * Scatter plots of deviations *)
Record scatter_fig := mkScatter { sf_points : list ((R * R) * R); sf_lower : R; sf_upper : R; sf_ticks : list (R * string); sf_label : string; sf_axis_off : bool }.

(** plotting/mpl/deviation_plot.py:412-441 [_colored_scatter_plot]; [plt.scatter] raises a ValueError for a wrong number of colours *)
Definition colored_scatter (shown : R -> string) (s : mpl_settings) (xyz : list V3) (c_list : list R) (c_label : string) : result scatter_fig :=
  let! cb := setup_cbar (mpl_cbar s) shown c_list in
  if (length xyz =? length (cb_values cb))%nat then
    Ok (mkScatter (combine (map (fun p => (vx p, vy p)) xyz) (cb_values cb)) (cb_lower cb) (cb_upper cb) (cb_ticks cb) c_label (scatter_no_axis s))
  else Err ValueError.

Section ScatterDev.
  Context {Q : Type} (as_rotvec : Q -> V3) (shown : R -> string).
  Implicit Types r : ate_result Q.

  (** plotting/mpl/deviation_plot.py:391-409 [scatter_deviations]: the settings are not passed on to [_colored_scatter_plot] *)
  Definition scatter_deviations (s : mpl_settings) r : result (list scatter_fig) :=
    let! pos := colored_scatter shown default_mpl (xyz (ate_trajectory r)) (map (fun d => d * unit_multiplier s) (pos_dev_comb r)) ("Deviation " ++ unit_str s) in
    match rot_dev r with
    | None => Ok [pos]
    | Some d => let! rot := colored_scatter shown default_mpl (xyz (ate_trajectory r)) (map (fun q => rotangle as_rotvec q * 180 / PI) d) "Deviation [°]" in
                Ok [pos; rot]
    end.
End ScatterDev.

(** * Labels *)
(** plotting/utils.py:16-24 [derive_xlabel_from_sortings] *)
Definition derive_xlabel (sortings : list sorting) : string :=
  if forallb (fun s => match s with SortArc => true | SortTime => false end) sortings then "trajectory length [m]"
  else if forallb (fun s => match s with SortTime => true | SortArc => false end) sortings then "time [s]"
  else "time [s] / trajectory length [m]".

(** [str.replace] for a pattern that is not empty *)
Fixpoint drop_text (n : nat) (s : string) : string := match n, s with S n, String _ r => drop_text n r | _, _ => s end.
Fixpoint replace_text (fuel : nat) (old new s : string) : string :=
  match fuel with
  | O => s
  | S fuel =>
      match strip_prefix old s with
      | Some r => new ++ replace_text fuel old new r
      | None => match s with "" => "" | String c r => String c (replace_text fuel old new r) end
      end
  end%string.
Definition py_replace (old new s : string) : string := replace_text (String.length s) old new s.
Definition shown_unit (u : string) : string := py_replace "degree" "°" (py_replace "metre" "m" u).

(** An axis of a coordinate reference system (pyproj): name and unit *)
Record axis := mkAxis { axis_name : string; axis_unit : string }.

Section Labels.
  Context {Q : Type}.
  (** [pos.crs.axis_info]: no reference system for some epsg codes (external packages) *)
  Variable crs : Z -> option (list axis).
  Implicit Types ts : list (traj Q).

  Definition nth_axis (l : list axis) (i : nat) : result axis := match nth_error l i with Some a => Ok a | None => Err IndexError end.
  (** The unit of the first axis, or "unknown" *)
  Definition first_unit (t : traj Q) : result string :=
    match crs (epsg t) with Some l => let! a := nth_axis l 0 in Ok (axis_unit a) | None => Ok "unknown"%string end.

  (** plotting/utils.py:27-55 and plotting/mpl/trajectory_plot.py:84-111 [get_axis_label] *)
  Definition get_axis_label ts : result (string * string * string) :=
    if forallb (fun t => Z.eqb (epsg t) 0) ts then Ok ("x [m]", "y [m]", "z [m]")%string
    else
      let! units := mapM first_unit ts in
      match nodup string_dec units with
      | [u] =>
          let unit_name := shown_unit u in
          match ts with
          | [] => Err IndexError
          | t :: _ =>
              match crs (epsg t) with
              | None => Err AttributeError
              | Some info =>
                  let! x := nth_axis info 0 in
                  let! y := nth_axis info 1 in
                  let z := match nth_error info 2 with Some a => (axis_name a, shown_unit (axis_unit a)) | None => ("z", "m")%string end in
                  Ok (axis_name x ++ " [" ++ unit_name ++ "]", axis_name y ++ " [" ++ unit_name ++ "]", fst z ++ " [" ++ snd z ++ "]")%string
              end
          end
      | [] => Err KeyError            (* pop of an empty set *)
      | _ => Ok ("x", "y", "z")%string
      end.
End Labels.

(** * Curves of trajectories *)
Section Curves.
  Context {Q : Type} (argsort : list R -> list nat) (ops : rot_ops Q).
  Implicit Types ts : list (traj Q).

  (** plotting/mpl/trajectory_plot.py:28-60 [plot_pos]: one line per trajectory, through [pos.x], [pos.y] (and [pos.z]); ValueError for
      another dimension *)
  Definition plot_pos (dim : Z) ts : result (list (string * list (list R))) :=
    if Z.eqb dim 2 then Ok (map (fun t => (name t, [map vx (xyz t); map vy (xyz t)])) ts)
    else if Z.eqb dim 3 then Ok (map (fun t => (name t, [map vx (xyz t); map vy (xyz t); map vz (xyz t)])) ts)
    else Err ValueError.

  (** plotting/mpl/trajectory_plot.py:63-82 [plot_xyz]: the label of the abscissa and, per trajectory, abscissae and the three coordinates *)
  Definition plot_xyz ts : result (string * list (string * (list R * list V3))) :=
    let! curves := mapM (fun t => let! f := function_of argsort t in let! p := xyz_sorted argsort t in Ok (name t, (f, p))) ts in
    Ok (derive_xlabel (map srt ts), curves).

  (** trajectory.py:233-254 [quat], [rpy] of a trajectory with orientations (the conversion to quaternions and back is left out) *)
  Definition rpy_sorted (t : traj Q) (q : list Q) : result (list V3) :=
    let! s := np_take q (map Z.of_nat (sorting_index argsort t)) in Ok (map (as_euler ops) s).

  (** plotting/mpl/trajectory_plot.py:115-136 [plot_rpy]: None if there is nothing to draw *)
  Definition plot_rpy ts : result (option (string * list (string * (list R * list V3)))) :=
    let shown := flat_map (fun t => match rot t with Some q => if (length q =? 0)%nat then [] else [(t, q)] | None => [] end) ts in
    let! curves := mapM (fun tq => let! f := function_of argsort (fst tq) in let! a := rpy_sorted (fst tq) (snd tq) in
                                   Ok (name (fst tq), (f, map (fun v => mkV3 (rad2deg (vx v)) (rad2deg (vy v)) (rad2deg (vz v))) a))) shown in
    Ok (match shown with [] => None | _ => Some (derive_xlabel (map srt ts), curves) end).

  (** plotting/plotly/multi_line_plots.py:252-267 [render_rot_plot] for trajectories with orientations, report/trajectory.py:33-34 with
      trajectory.py:102-106 [has_orientation] *)
  Definition render_rot_plot ts : result (option (string * list (string * (list R * list V3)))) :=
    let shown := flat_map (fun t => match rot t with Some q => if (length q =? 0)%nat then [] else [(t, q)] | None => [] end) ts in
    let! curves := mapM (fun tq => let! f := function_of argsort (fst tq) in let! a := rpy_sorted (fst tq) (snd tq) in
                                   Ok (name (fst tq), (f, map (fun v => mkV3 (rad2deg (vx v)) (rad2deg (vy v)) (rad2deg (vz v))) a))) shown in
    Ok (match shown with [] => None | _ => Some (derive_xlabel (map (fun tq => srt (fst tq)) shown), curves) end).
End Curves.
