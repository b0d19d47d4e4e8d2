(** Report data: trajectopy_core/report/utils.py:44-71 and report/data.py. *)
From Verif Require Import Base NumpyModel TrajModel GeomModel EvalModel.

(** A value of an array of floats; None is not-a-number.  Infinite values are not modelled. *)
Definition is_zero (x : option R) : bool := match x with Some v => Reqb v 0 | None => false end.

(** [a.reshape(-1, c)] of an array whose length is a multiple of [c > 0] *)
Definition reshape_rows (c : nat) (l : list (option R)) : list (list (option R)) :=
  map (fun i => firstn c (skipn (i * c) l)) (seq 0 (length l / c)).

(** The numbers of a row; [np.nanmean] of a row *)
Definition not_nan (row : list (option R)) : list R := flat_map (fun x => match x with Some v => [v] | None => [] end) row.
Definition nanmean (row : list (option R)) : option R := np_mean (not_nan row).

(** report/utils.py:44-71 [shrink_data].  [np.nanmean(..., 1)] of an array without rows, which has one dimension, raises
    AxisError, a ValueError. *)
Definition shrink_data (data : list (option R)) (max_size : Z) : result (list (option R)) :=
  let n := Z.of_nat (length data) in
  if (max_size <? 0)%Z then Ok data
  else if (n <=? max_size)%Z then Ok data
  else if (max_size =? 0)%Z then Err ZeroDivisionError
  else
    let array_size := ((- n) mod max_size + n)%Z in
    let padded_data := data ++ repeat (Some 0) (Z.to_nat (array_size - n)) in
    let padded_data := map (fun x => if is_zero x then None else x) padded_data in
    let reshaped_data := filter (fun row => match not_nan row with [] => false | _ => true end)
                                (reshape_rows (Z.to_nat (array_size / max_size)) padded_data) in
    match reshaped_data with
    | [] => Err ValueError
    | _ => Ok (map nanmean reshaped_data)
    end.

(** report/data.py:33-36 [ATEReportData.__post_init__]: what making a report from [r] leaves behind in [r].
    [pos_dev] and [directed_pos_dev] are different arrays in every result of the library. *)
Definition report_data {Q} (ate_unit_is_mm : bool) (r : ate_result Q) : ate_result Q :=
  if ate_unit_is_mm then
    mkAte (ate_name r) (ate_trajectory r) (map (vscale 1000) (pos_dev r)) (map (vscale 1000) (directed_pos_dev r)) (rot_dev r) (rotations_used r)
  else r.

(** report/multi.py:69-75: the reports of the same result, one after the other *)
Definition report_all {Q} (units : list bool) (r : ate_result Q) : ate_result Q := fold_left (fun r mm => report_data mm r) units r.
