(** Smoothing: trajectopy_core/approximation (voxels, moving least squares, piecewise cubics, rotation windows) and
    [rndodd] of trajectopy_core/utils.py. *)
From Coq Require Import DecimalString DecimalNat.
From Verif Require Import Base NumpyModel LsqModel GeomModel MatchModel.

(** ** Rounding *)

(** utils.py:153-168 [rndodd].  [Int_part] is the floor; [s % 2] is s - 2*floor(s/2). *)
Definition rndodd (s : R) : Z :=
  let idx := Rltb (s - 2 * IZR (Int_part (s / 2))) 1 in
  let f := Int_part s in
  if idx then (f + 1)%Z else f.

(** [np.round]: to the nearest integer, halves to the even one *)
Definition np_round (x : R) : Z :=
  let f := Int_part x in
  let d := x - IZR f in
  if Rltb d (1 / 2) then f
  else if Rltb (1 / 2) d then (f + 1)%Z
  else if Z.even f then f else (f + 1)%Z.

(** Number of different values, [len(np.unique(...))] *)
Definition distinct (l : list Z) : nat := length (nodup Z.eq_dec l).

(** ** Rotation averaging *)
Section Window.
  Context {A : Type}.
  (** [RotationSet.from_quat(q).mean().as_quat()], which raises for no rotations *)
  Variable mean : list A -> result A.
  (** the row of [np.zeros((n, 4))] *)
  Variable zero : A.

  (** Python slice [l[a:b]] for 0 <= a, b *)
  Definition slice (l : list A) (a b : nat) : list A := firstn (b - a) (skipn a l).

  (** rot_approximation.py:45-46: half of the window, as a number of rotations.  The division of the two lengths raises
      without rotations.  Not modelled: win_size = 0 (numpy divides by zero without raising). *)
  Definition window_ext (function_of : list R) (win_size : R) : result nat :=
    let bins := distinct (map (fun x => np_round (x / win_size)) function_of) in
    if (bins =? 0)%nat then Err ZeroDivisionError
    else
      let steps := rndodd (INR (length function_of) / INR bins) in
      Ok (Z.to_nat (steps / 2)).

  (** rot_approximation.py:19-62 [rot_average_window].  Assigning to a row behind the last one raises IndexError. *)
  Definition rot_average_window (function_of : list R) (quat : list A) (win_size : R) : result (list A) :=
    let! ext := window_ext function_of win_size in
    if (ext =? 0)%nat then Ok quat
    else
      let n := length quat in
      let! rows := mapM (fun i =>
          let window_start_index := (i - ext)%nat in
          let window_end_index := Nat.min (n - 1) (i + ext) in
          let! q := mean (slice quat window_start_index window_end_index) in
          if (i <? length function_of)%nat then Ok q else Err IndexError) (seq 0 n) in
      Ok (rows ++ repeat zero (length function_of - n)).
End Window.

(** ** Voxels *)

(** Decimal digits of a natural number, Python's [f"{n}"] *)
Definition show_nat (n : nat) : string := NilZero.string_of_uint (Nat.to_uint n).

(** Smallest and largest element; ValueError for an empty list *)
Definition list_min (l : list R) : result R := match l with [] => Err ValueError | x :: r => Ok (fold_left Rmin r x) end.
Definition list_max (l : list R) : result R := match l with [] => Err ValueError | x :: r => Ok (fold_left Rmax r x) end.

(** voxelizer.py:73-79: one axis of the grid and the cell of each coordinate.  For step sizes that are not positive numpy
    raises ValueError (zero) or gives a descending grid (negative, not modelled). *)
Definition bin_ids (coords : list R) (voxel_size : R) : result (list nat) :=
  let! lo := list_min coords in
  let! hi := list_max coords in
  if Rleb voxel_size 0 then Err ValueError
  else Ok (map (searchsorted_left (np_arange lo (hi + voxel_size) voxel_size)) coords).

(** voxelizer.py:83 *)
Definition voxel_id (b : nat * nat * nat) : string :=
  (show_nat (fst (fst b)) ++ show_nat (snd (fst b)) ++ show_nat (snd b))%string.

(** A dictionary from identifiers to points, in insertion order *)
Definition voxel_dict := list (string * list V3).
Fixpoint add_point (vs : voxel_dict) (id : string) (p : V3) : voxel_dict :=
  match vs with
  | [] => [(id, [p])]
  | (k, ps) :: r => if String.eqb k id then (k, ps ++ [p]) :: r else (k, ps) :: add_point r id p
  end.

(** voxelizer.py:63-88 [_create_voxels] *)
Definition voxel_bins (pts : list V3) (voxel_size : R) : result (list (nat * nat * nat)) :=
  let! bx := bin_ids (map vx pts) voxel_size in
  let! by_ := bin_ids (map vy pts) voxel_size in
  let! bz := bin_ids (map vz pts) voxel_size in
  Ok (combine (combine bx by_) bz).
Definition create_voxels (pts : list V3) (voxel_size : R) : result voxel_dict :=
  let! bins := voxel_bins pts voxel_size in
  Ok (fold_left (fun vs bp => add_point vs (voxel_id (fst bp)) (snd bp)) (combine bins pts) []).

(** ** Moving least squares *)
Section Mls.
  (** [KDTree(ref).query(p, k)] as in MatchModel: k entries, [None] for a missing neighbour (scipy then reports the index
      one behind the last point) *)
  Variable query : list V3 -> option R -> nat -> V3 -> list (option (nat * R)).
  Variable eigh : M3 -> V3.

  (** voxelizer.py:117-133 [k_nearest_query] for one position, and voxelizer.py:135-140 [points_from_voxel_set]: the points of
      the nearest voxels.  The order of the voxels in a frozenset is arbitrary; here it is that of the query, since mean and
      covariance do not depend on it.  With k = 1 scipy returns a plain index, which cannot be iterated over. *)
  Definition neighbour_points (vs : voxel_dict) (means : list V3) (k : nat) (p : V3) : result (list V3) :=
    if (k =? 1)%nat then Err TypeError
    else
      let! sets := mapM (fun n => match n with
                                  | Some (j, _) => np_get (map snd vs) (Z.of_nat j)
                                  | None => Err IndexError
                                  end) (query means None k p) in
      Ok (concat sets).

  (** mls_approximation.py:86-103 [cached_line_approximator] and 77-80: a point is projected on the line through its
      neighbourhood, if that has more than one point. *)
  Definition smooth_point (vs : voxel_dict) (means : list V3) (k : nat) (p : V3) : result V3 :=
    let! pts := neighbour_points vs means k p in
    Ok (if (1 <? length pts)%nat then evaluate_at (from_points eigh pts) p else p).

  (** mls_approximation.py:62-83 [mls_single] *)
  Definition mls_single (pts : list V3) (voxel_size : R) (k : nat) : result (list V3 * R) :=
    let! vs := create_voxels pts voxel_size in
    let means := map (fun v => vmean (snd v)) vs in
    let! out := mapM (smooth_point vs means k) pts in
    Ok (out, np_sum (map (fun pq => vnorm (vsub (fst pq) (snd pq))) (combine pts out)) / INR (length pts)).

  (** mls_approximation.py:22-59 [mls_iterative]; [n] is the number of iterations left. *)
  Fixpoint mls_loop (n : nat) (pts : list V3) (voxel_size : R) (k : nat) (movement_threshold : R) : result (list V3) :=
    match n with
    | O => Ok pts
    | S n' =>
        let! r := mls_single pts voxel_size k in
        let (pts', movement) := r in
        if Rltb movement_threshold movement then mls_loop n' pts' voxel_size k movement_threshold else Ok pts'
    end.
  Definition mls_iterative (pts : list V3) (voxel_size : R) (k : nat) (movement_threshold : R) : result (list V3) :=
    mls_loop 10 pts voxel_size k movement_threshold.
End Mls.

(** ** Piecewise cubics *)

(** The four coefficients of one observation *)
Record coeffs := mkCoeffs { cf0 : R; cf1 : R; cf2 : R; cf3 : R }.

(** cubic_approximation.py:153-181 [_compute_c] for one location; an interval of length zero
    makes numpy continue with not-a-number and a warning.  Results with not-a-number are not modelled: here such a fit ends
    with an error, and no theorem says which.  The evaluation never selects an interval of length zero. *)
Definition compute_c (location interval_start interval_end : R) : result coeffs :=
  if Reqb (interval_end - interval_start) 0 then Err ZeroDivisionError
  else
    let q := (location - interval_start) / (interval_end - interval_start) in
    Ok (mkCoeffs (1 - 3 * q ^ 2 + 2 * q ^ 3)
                 ((location - interval_start) * (1 - 2 * (location - interval_start) / (interval_end - interval_start) + q ^ 2))
                 (3 * q ^ 2 - 2 * q ^ 3)
                 ((location - interval_start) * (q ^ 2 - q))).

(** cubic_approximation.py:85-92: the local variables of the loop.  The lists t_final, intervals and coefficients are kept
    with their last element first. *)
Record cubic_state := mkCubic {
  int_list : list R;
  int_start_idx : nat;
  t_final_rev : list R;
  intervals_rev : list (list R);
  coefficients_rev : list (list coeffs)
}.

(** One pass through the body of the loop, cubic_approximation.py:95-130 *)
Definition cubic_step (var_red : list R) (int_size : R) (min_obs : nat) (i : nat) (p : R) (s : cubic_state) : result cubic_state :=
  let! start := np_get var_red (Z.of_nat (int_start_idx s)) in
  let int_len := p - start in
  let int_list' := int_list s ++ [p] in
  let last_int := (i =? length var_red - 1)%nat in
  if ((min_obs <=? length int_list')%nat && Rleb int_size int_len) || last_int then
    let last_too_small := last_int && (length int_list' <? min_obs)%nat in
    if last_too_small then
      let! t_start := np_get var_red (Z.of_nat (int_start_idx s) - 1) in
      match intervals_rev s with
      | [] => Err IndexError
      | l :: ls =>
          let l' := l ++ int_list' in
          let! c := mapM (fun x => compute_c x t_start p) l' in
          Ok (mkCubic [] (i + 1) (t_final_rev s) (l' :: ls) (c :: tl (coefficients_rev s)))
      end
    else
      let! c := mapM (fun x => compute_c x start p) int_list' in
      Ok (mkCubic [] (i + 1) (start :: t_final_rev s) (int_list' :: intervals_rev s) (c :: coefficients_rev s))
  else Ok (mkCubic int_list' (int_start_idx s) (t_final_rev s) (intervals_rev s) (coefficients_rev s)).

Fixpoint cubic_loop (var_red : list R) (int_size : R) (min_obs : nat) (i : nat) (rest : list R) (s : cubic_state) : result cubic_state :=
  match rest with
  | [] => Ok s
  | p :: rest' => let! s' := cubic_step var_red int_size min_obs i p s in cubic_loop var_red int_size min_obs (i + 1) rest' s'
  end.

(** cubic_approximation.py:183-217 [_design_matrix]: the row of an observation in interval [k] of [n] has its coefficients in
    the columns 2k to 2k+3. *)
Definition design_row (n k : nat) (c : coeffs) : vec :=
  repeat 0 (2 * k) ++ [cf0 c; cf1 c; cf2 c; cf3 c] ++ repeat 0 (2 * (n - 1 - k)).
Definition design_matrix (c : list (list coeffs)) : mat :=
  concat (map (fun kc => map (design_row (length c) (fst kc)) (snd kc)) (enumerate c)).

Record cubic := mkApprox { parameters : vec; est_obs : vec; residuals : vec; interval_steps : vec }.

Section Cubic.
  Variable solve : mat -> vec -> result vec.

  (** cubic_approximation.py:72-151 [_cubic_approx].  np.arange raises ValueError for a step of zero; without a step before
      the end, interval_steps[-1] raises IndexError. *)
  Definition cubic_fit (function_of : list R) (int_size : R) (min_obs : nat) : result (list R * cubic_state) :=
    let! f0 := np_get function_of 0 in
    let var_red := map (fun x => x - f0) function_of in
    let! last := np_get var_red (-1) in
    if Reqb int_size 0 then Err ValueError
    else if (length (np_arange 0 last int_size) =? 0)%nat then Err IndexError
    else
      let! s := cubic_loop var_red int_size min_obs 0 var_red (mkCubic [] 0 [] [] []) in
      Ok (map (fun t => t + f0) (rev (t_final_rev s) ++ [last]), s).
  Definition cubic_approx (function_of values : list R) (int_size : R) (min_obs : nat) : result cubic :=
    let! r := cubic_fit function_of int_size min_obs in
    let (steps, s) := r in
    let c := rev (coefficients_rev s) in
    let! r := sparse_least_squares solve (2 * length c + 2) (design_matrix c) values in
    let '(x, l, v) := r in
    Ok (mkApprox x l v steps).
End Cubic.

(** [parameters[::2]] and [parameters[1::2]] *)
Fixpoint evens {A} (l : list A) : list A := match l with x :: _ :: r => x :: evens r | [x] => [x] | [] => [] end.
Definition odds {A} (l : list A) : list A := evens (tl l).

(** cubic_approximation.py:44-70 [eval] *)
Definition cubic_eval (ap : cubic) (locations : list R) : result (list R) :=
  let! lo := list_min locations in
  let! hi := list_max locations in
  let! smax := list_max (interval_steps ap) in
  let! smin := list_min (interval_steps ap) in
  if Rltb smax lo || Rltb hi smin then Err ValueError
  else
    let f_vals := evens (parameters ap) in
    let f_deriv_vals := odds (parameters ap) in
    let interval_indices := map (fun x => Z.of_nat (searchsorted_left (interval_steps ap) x)) locations in
    let! int_start := np_take (interval_steps ap) (map (fun k => (k - 1)%Z) interval_indices) in
    let! int_end := np_take (interval_steps ap) interval_indices in
    let! c := mapM (fun p => compute_c (fst p) (fst (snd p)) (snd (snd p))) (combine locations (combine int_start int_end)) in
    let! f0 := np_take f_vals (map (fun k => (k - 1)%Z) interval_indices) in
    let! d0 := np_take f_deriv_vals (map (fun k => (k - 1)%Z) interval_indices) in
    let! f1 := np_take f_vals interval_indices in
    let! d1 := np_take f_deriv_vals interval_indices in
    Ok (map (fun p => match p with (c, (a, b, d, e)) => a * cf0 c + b * cf1 c + d * cf2 c + e * cf3 c end)
            (combine c (combine (combine (combine f0 d0) f1) d1))).

(** cubic_approximation.py:220-248 [piecewise_cubic] for positions *)
Definition piecewise_cubic (solve : mat -> vec -> result vec) (function_of : list R) (values : list V3) (int_size : R) (min_obs : nat)
    : result (list V3) :=
  let! x := cubic_approx solve function_of (map vx values) int_size min_obs in
  let! y := cubic_approx solve function_of (map vy values) int_size min_obs in
  let! z := cubic_approx solve function_of (map vz values) int_size min_obs in
  Ok (map (fun p => mkV3 (fst (fst p)) (snd (fst p)) (snd p)) (combine (combine (est_obs x) (est_obs y)) (est_obs z))).
