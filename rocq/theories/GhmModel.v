(** One iteration of the Gauss-Helmert adjustment: alignment/estimation.py:276-350.

    Gives the fields that [EstModel.solver] leaves open, except for the initial values. *)
From Verif Require Import Base NumpyModel TrajModel ParamModel DataModel EstModel GeomModel JacModel LsqModel.

(** A sparse matrix with [m] rows and [n] columns as a list of rows *)
Definition dense (m n : nat) (t : list (nat * (nat * R))) : list (list R) :=
  map (fun r => map (sparse_entry t r) (seq 0 n)) (seq 0 m).

(** The values of the eleven parameters, by name *)
Definition named (l : list R) : align_params :=
  mkAlign (mkV3 (nth 0 l 0) (nth 1 l 0) (nth 2 l 0)) (mkV3 (nth 3 l 0) (nth 4 l 0) (nth 5 l 0)) (nth 6 l 0) (nth 7 l 0)
          (mkV3 (nth 8 l 0) (nth 9 l 0) (nth 10 l 0)).

(** a_design (already filtered), b_cond and bbt of one iteration *)
Record lin := mkLin { l_design : list (list R); l_condition : list (list R); l_bbt : list (list R) }.

Definition negate (u : list R) : list R := map Ropp u.

Section Ghm.
  (** [scipy.sparse.linalg.spsolve]; ValueError stands for the not-a-number result for a singular matrix *)
  Variable solve : list (list R) -> list R -> result (list R).
  Variable egrad : (list R -> R) -> nat -> list R -> R.
  (** [np.linalg.pinv] *)
  Variable pinv : list (list R) -> list (list R).

  (** [spsolve(N, A)] for a matrix [A] with [n] columns: one system for each column *)
  Definition solve_columns (n : nat) (N A : list (list R)) : result (list (list R)) :=
    let! cols := mapM (solve N) (transpose n A) in Ok (transpose (length A) cols).

  (** Number of columns of the design matrix: the enabled parameters *)
  Definition columns (e : est_settings) : nat := count (fun b => b) (lq_parameter_filter e).

  (** estimation.py:523-529 at the current parameters and adjusted observations *)
  Definition ghm_evaluate (s : pset) (d : adata) : result (list R) :=
    Ok (eval_functional_relationship (named (values s)) (est_epochs (a_est d) (est_obs_vector d))).

  (** estimation.py:309-315: design matrix, filtered by columns, condition matrix and bbt.  Without epochs scipy cannot
      infer the shape of the condition matrix; a vector of variances of the wrong length fails in the product. *)
  Definition ghm_linearise (s : pset) (d : adata) : result lin :=
    let e := a_est d in
    let os := est_epochs e (est_obs_vector d) in
    let m := (length os * 3)%nat in
    let N := (length os * num_obs_per_epoch e)%nat in
    let! A := mapM (fun row => np_mask row (lq_parameter_filter e)) (design_matrix egrad (named (values s)) os) in
    if (length os =? 0)%nat then Err ValueError
    else if negb (length (a_var d) =? N)%nat then Err ValueError
    else
      let B := dense m N (condition_matrix egrad (named (values s)) e os) in
      Ok (mkLin A B (mm m (mm N B (diagonal (a_var d))) (transpose N B))).

  (** estimation.py:339-350 [_compute_parameter_deltas]; a vanishing denominator gives inf or nan in numpy: ValueError *)
  Definition parameter_deltas (n : nat) (w : list R) (A bbt : list (list R)) : result (list R) :=
    if (n =? 1)%nat then
      let a := column_of A 0 in
      let! sw := solve bbt w in
      let! sa := solve bbt a in
      if Reqb (dot a sa) 0 then Err ValueError else Ok [- dot a sw / dot a sa]
    else
      let! sols := solve_columns n bbt A in
      let! sw := solve bbt w in
      let! x := solve (mm n (transpose n A) sols) (mv (transpose n A) sw) in
      Ok (negate x).
  Definition ghm_deltas (l : lin) (d : adata) (w : list R) : result (list num) :=
    let! x := parameter_deltas (columns (a_est d)) w (l_design l) (l_bbt l) in Ok (map Fin x).

  (** The updates as numbers; the deltas above are always finite *)
  Definition finite (l : list num) : result (list R) :=
    mapM (fun x => match x with Fin r => Ok r | _ => Err ValueError end) l.

  (** estimation.py:319-320: correlates and residuals *)
  Definition correlates (l : lin) (delta w : list R) : result (list R) :=
    let! k := solve (l_bbt l) (vplus (mv (l_design l) delta) w) in Ok (negate k).
  Definition ghm_residuals (l : lin) (d : adata) (delta : list num) (w : list R) : result (list R) :=
    let! x := finite delta in
    let! k := correlates l x w in
    let N := length (a_var d) in
    Ok (mv (mm (length (l_condition l)) (diagonal (a_var d)) (transpose N (l_condition l))) k).

  (** estimation.py:323: numpy raises if the number of updates is wrong (a single update would be broadcast; the number is
      always right, see C37) *)
  Definition ghm_add_deltas (s : pset) (delta : list num) : result pset :=
    let! x := finite delta in
    if (length x =? num_enabled s)%nat then set_values_enabled s (vplus (values_enabled s) x) else Err ValueError.

  (** estimation.py:324 *)
  Definition ghm_contradictions (l : lin) (f r : list R) : result (list R) := Ok (vminus f (mv (l_condition l) r)).

  (** estimation.py:332-337 [_compute_parameter_variances] *)
  Definition as_mat (n : nat) (m : list (list R)) : ParamModel.mat := mkMat n n (fun i j => nth j (nth i m []) 0).
  Definition ghm_store_variances (s : pset) (l : lin) : result pset :=
    let n := length (values_enabled s) in
    if (n =? 1)%nat then
      let a := column_of (l_design l) 0 in
      let! sa := solve (l_bbt l) a in
      set_covariance_matrix s (as_mat 1 [[/ dot a sa]])
    else
      let! sols := solve_columns n (l_bbt l) (l_design l) in
      set_covariance_matrix s (as_mat n (pinv (mm n (transpose n (l_design l)) sols))).

  (** estimation.py:270-280 [redundancy] and [variance_factor]; without redundancy numpy divides by zero: nan, or inf, for which
      ValueError stands (after it, all variances are infinite) *)
  Definition redundancy (s : pset) (d : adata) : Z :=
    (Z.of_nat (number_of_epochs (a_est d) (a_obs d) * 3) - Z.of_nat (num_enabled s))%Z.
  Definition ghm_variance_factor (s : pset) (d : adata) : result num :=
    let! x := solve (diagonal (a_var d)) (a_res d) in
    if (redundancy s d =? 0)%Z then if Reqb (dot (a_res d) x) 0 then Ok NaN else Err ValueError
    else Ok (Fin (dot (a_res d) x / IZR (redundancy s d))).

  (** estimation.py:234; the loop ends if the factor is not a number *)
  Definition ghm_scale_variances (v : list R) (f : num) : list R := match f with Fin r => map (fun x => x * r) v | _ => v end.

  (** The adjustment with given initial values *)
  Definition ghm (init : est_settings -> list R -> result pset) : solver pset lin :=
    mkSolver pset lin init default_alignment ghm_evaluate ghm_linearise ghm_deltas ghm_residuals ghm_add_deltas ghm_contradictions
      ghm_store_variances ghm_variance_factor ghm_scale_variances.
End Ghm.
