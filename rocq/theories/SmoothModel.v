(** Smoothing and rounding of deviations and small geometric helpers: utils.py:171-215 and 307-325, sorting.py:314-328. *)
From Verif Require Import Base NumpyModel TrajModel EvalModel GeomModel.

(** [a[z]], 0 outside of the array (the padding of [np.convolve]) *)
Definition padded (a : list R) (z : Z) : R := if (0 <=? z)%Z then nth (Z.to_nat z) a 0 else 0.

(** [np.convolve(a, v, "same")]: the arrays are exchanged if the second one is longer; the result has the length of the longer one; ValueError for an empty array *)
Definition convolve_same (a v : list R) : result (list R) :=
  let (a, v) := if (length a <? length v)%nat then (v, a) else (a, v) in
  if (length v =? 0)%nat then Err ValueError
  else Ok (map (fun i => np_sum (map (fun t => nth t v 0 * padded a (Z.of_nat i + Z.of_nat ((length v - 1) / 2) - Z.of_nat t)) (seq 0 (length v)))) (seq 0 (length a))).

(** Rows of numbers *)
Fixpoint row_eqb (a b : list R) : bool :=
  match a, b with [], [] => true | x :: a, y :: b => (Reqb x y && row_eqb a b)%bool | _, _ => false end.

(** [np.sort(np.unique(rows, return_index=True, axis=0)[1])]: the positions of the first occurrence of every row, in increasing order *)
Definition first_rows (rows : list (list R)) : list nat :=
  filter (fun i => negb (existsb (fun j => row_eqb (nth j rows []) (nth i rows [])) (seq 0 i))) (seq 0 (length rows)).

(** utils.py:171-201 [round_to_precision].  [rint] is numpy's rounding to an integer.  [function_of] is given by its rows (rows of one number for a one-dimensional array).
    Simplification: a resolution of zero (not-a-number) is left out of the theorems. *)
Definition round_to_precision (rint : R -> R) (function_of : list (list R)) (data : list R) (resolution : R) (filter_size : nat) : result (list (list R) * list R) :=
  if (filter_size =? 0)%nat then Err ZeroDivisionError
  else
    let! data_smoothed := convolve_same data (repeat (1 / INR filter_size) filter_size) in
    let data_rounded := map (fun x => rint (x / resolution) * resolution) data_smoothed in
    if (length function_of =? length data_rounded)%nat then
      let idx := map Z.of_nat (first_rows (map (fun p => fst p ++ [snd p]) (combine function_of data_rounded))) in
      let! f := np_take function_of idx in
      let! d := np_take data_smoothed idx in
      Ok (f, d)
    else Err ValueError.

(** utils.py:307-325 [skew_symmetric_matrix] *)
Definition skew_symmetric_matrix (v : V3) : M3 := mkM3 (mkV3 0 (- vz v) (vy v)) (mkV3 (vz v) 0 (- vx v)) (mkV3 (- vy v) (vx v) 0).

(** sorting.py:314-328 [complete_lap_dist]; IndexError without points *)
Definition complete_lap_dist (xyz : list V3) (dist_th : R) : result bool :=
  match xyz with
  | [] => Err IndexError
  | first :: _ => Ok (Rltb (vnorm (vsub first (last xyz first))) dist_th)
  end.
