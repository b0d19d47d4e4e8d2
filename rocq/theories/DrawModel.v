(** Where reports and plots draw the deviations of an absolute comparison. *)
From Verif Require Import Base NumpyModel TrajModel EvalModel.

Section Draw.
  Context {Q : Type} (argsort : list R -> list nat).
  Implicit Types r : ate_result Q.

  (** report/data.py:66-68 [function_of] over plotting/plotly/line_plots.py:141-266 [render_dev_pos_plot], [render_dev_rot_plot],
      [render_dev_comb_plot] and plotting/plotly/multi_line_plots.py:102-167: the points of a curve of deviations; [devs] is one of the
      arrays of report/data.py:70-145 (one number per pose, in the order of the poses) *)
  Definition report_curve r (devs : list R) : result (list (R * R)) :=
    let! f := function_of argsort (ate_trajectory r) in Ok (combine f devs).

  (** report/data.py:54-64 [pos_x], [pos_y], [pos_z] over plotting/plotly/scatter_plots.py:164-245: positions and their colours *)
  Definition report_scatter r (devs : list R) : result (list (V3 * R)) :=
    let! p := xyz_sorted argsort (ate_trajectory r) in Ok (combine p devs).

  (** plotting/mpl/deviation_plot.py:214-265 [plot_deviations], the curve of one result *)
  Definition mpl_curve r (devs : list R) : result (list (R * R)) :=
    let! f := function_of argsort (ate_trajectory r) in
    let order := map Z.of_nat (argsort f) in
    let! x := np_take f order in
    let! y := np_take devs order in
    Ok (combine x y).

  (** plotting/mpl/deviation_plot.py:236-239: results without data are skipped *)
  Definition drawn r : bool := negb (tlen (ate_trajectory r) =? 0)%nat.

  (** plotting/mpl/deviation_plot.py:214-265 [plot_deviations]: the curves of the positions.  A Rotation is always true, so the second
      axis exists if and only if some result has orientation deviations; its limits are set in any case (line 261).  The limits of the
      abscissa are left out; results with orientation deviations are drawn with [angles] on the second axis. *)
  Definition plot_deviations (angles : ate_result Q -> list R) (rs : list (ate_result Q)) : result (list (list (R * R)) * list (list (R * R))) :=
    let rot_axis := existsb (fun r => match rot_dev r with Some _ => true | None => false end) rs in
    let! pos := mapM (fun r => mpl_curve r (pos_dev_comb r)) (filter drawn rs) in
    let! ang := if rot_axis then mapM (fun r => mpl_curve r (angles r)) (filter drawn rs) else Ok [] in
    if rot_axis then Ok (pos, ang) else Err AttributeError.
End Draw.
