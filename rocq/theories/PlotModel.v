(** The computations behind the plots of deviations. *)
From Verif Require Import Base NumpyModel TrajModel EvalModel.

(** plotting/mpl/deviation_plot.py:132-143 [plot_position_edf], 146-160 [plot_rotation_edf], plotting/plotly/line_plots.py:16-38
    [render_dev_edf] and plotting/plotly/multi_line_plots.py:44-77 [render_dev_edf]: the points of the curve of the cumulative
    probability (the unit conversion of the abscissa is left out) *)
Definition edf_points (devs : list R) : list (R * R) :=
  let s := np_sort devs in
  combine s (map (fun i => INR i / INR (length s)) (seq 0 (length s))).

(** ** The colour bar, plotting/mpl/deviation_plot.py:444-477 [_setup_cbar_params] *)
Record cbar_settings := mkCbar { scatter_sigma_factor : R; scatter_cbar_steps : nat; scatter_cbar_show_zero : bool }.
Record cbar := mkCbarParams { cb_values : list R; cb_lower : R; cb_upper : R; cb_ticks : list (R * string) }.

(** [np.mean] and [np.std] of values that are not empty *)
Definition cbar_bounds (s : cbar_settings) (c : list R) : result (R * R) :=
  let! lo := np_min c in
  let! hi := np_max c in
  if Reqb (scatter_sigma_factor s) 0 then Ok (lo, hi)
  else match np_mean c, np_std c with
       | Some m, Some d => Ok (Rmax lo (m - scatter_sigma_factor s * d), Rmin hi (m + scatter_sigma_factor s * d))
       | _, _ => Err ValueError     (* not reached: [np.min] of nothing raises *)
       end.

(** [np.clip] *)
Definition clip (lo hi x : R) : R := Rmin hi (Rmax lo x).

(** A dictionary with real keys: the first of equal keys keeps its place and gets the last value. *)
Fixpoint tick_set (d : list (R * string)) (k : R) (v : string) : list (R * string) :=
  match d with
  | [] => [(k, v)]
  | (k', v') :: r => if Reqb k' k then (k', v) :: r else (k', v') :: tick_set r k v
  end.

(** lines 449, 453 and 457-464: the ticks; [shown] is the number formatted with two decimals; without steps [i / 0] raises *)
Definition tick_mark (s : cbar_settings) (i : nat) : string :=
  if Reqb (scatter_sigma_factor s) 0 then ""
  else if (i =? scatter_cbar_steps s)%nat then "$\geq$" else if (i =? 0)%nat then "$\leq$" else "".
Definition cbar_tick (s : cbar_settings) (lo range : R) (i : nat) : R := lo + INR i / INR (scatter_cbar_steps s) * range.
Definition all_ticks (s : cbar_settings) (shown : R -> string) (lo range : R) : result (list (R * string)) :=
  if (scatter_cbar_steps s =? 0)%nat then Err ZeroDivisionError
  else Ok (fold_left (fun d i => tick_set d (cbar_tick s lo range i) (tick_mark s i ++ shown (cbar_tick s lo range i))) (seq 0 (scatter_cbar_steps s + 1)) []).

Definition setup_cbar (s : cbar_settings) (shown : R -> string) (c : list R) : result cbar :=
  let! b := cbar_bounds s c in
  let '(lo, hi) := b in
  let range := Rabs (hi - lo) in
  let! ticks := all_ticks s shown lo range in
  let kept := if (Rltb lo 0 && Rltb 0 hi && scatter_cbar_show_zero s)%bool
              then tick_set (filter (fun kv => Rltb (1 / 2 / INR (scatter_cbar_steps s) * range) (Rabs (fst kv))) ticks) 0 "0"
              else ticks in
  Ok (mkCbarParams (map (clip lo hi) c) lo hi kept).
