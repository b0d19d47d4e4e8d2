(** Observation data of the alignment: alignment/data.py. *)
From Verif Require Import Base NumpyModel TrajModel ParamModel MatchModel GeomModel.

(** data.py:113-125: the keys of the group table; any other key is a KeyError. *)
Inductive group := XY_FROM | Z_FROM | XYZ_FROM | XY_TO | Z_TO | XYZ_TO | POSITIONS | ROLL_PITCH | YAW | RPY | SPEED.

(** data.py:100-126 [observation_groups]; None stands for (None, None) *)
Definition observation_group (e : est_settings) (g : group) : option (nat * nat) :=
  match g with
  | XY_FROM => Some (0, 2)
  | Z_FROM => Some (2, 3)
  | XYZ_FROM => Some (0, 3)
  | XY_TO => Some (3, 5)
  | Z_TO => Some (5, 6)
  | XYZ_TO => Some (3, 6)
  | POSITIONS => Some (0, 6)
  | ROLL_PITCH => if leverarm_enabled e then Some (6, 8) else None
  | YAW => if leverarm_enabled e then Some (8, 9) else None
  | RPY => if leverarm_enabled e then Some (6, 9) else None
  | SPEED => if negb (time_shift_enabled e) then None
             else if leverarm_enabled e then Some (9, 12) else Some (6, 9)
  end%nat.

(** data.py:128-139 [variance_groups] *)
Definition variance_groups (e : est_settings) : list group :=
  [XY_FROM; Z_FROM; XY_TO; Z_TO] ++ (if leverarm_enabled e then [ROLL_PITCH; YAW] else [])
  ++ (if time_shift_enabled e then [SPEED] else []).

(** data.py:197-211 [num_obs_per_epoch] *)
Definition num_obs_per_epoch (e : est_settings) : nat :=
  (6 + (if leverarm_enabled e then 3 else 0) + (if time_shift_enabled e then 3 else 0))%nat.

(** ** Strided access [vector[i::k]], k > 0 *)
(** Number of elements of [vector[i::k]] for a vector of length n. *)
Definition stride_count (n i k : nat) : nat := ((n - i + (k - 1)) / k)%nat.
Definition strided {A} (l : list A) (i k : nat) : list A :=
  flat_map (fun j => match nth_error l (i + k * j)%nat with Some x => [x] | None => [] end)
           (seq 0 (stride_count (length l) i k)).
(** [vector[i::k] = values]: one value for each element, or one value for all *)
Definition set_strided {A} (l : list A) (i k : nat) (vals : list A) : result (list A) :=
  let c := stride_count (length l) i k in
  let put (f : nat -> option A) :=
    map (fun px => if ((i <=? fst px) && ((fst px - i) mod k =? 0))%nat%bool
                   then match f ((fst px - i) / k)%nat with Some v => v | None => snd px end
                   else snd px) (enumerate l) in
  if (length vals =? c)%nat then Ok (put (nth_error vals))
  else match vals with
       | [v] => Ok (put (fun _ => Some v))
       | _ => Err ValueError
       end.

(** data.py:319-326 [_extract_from_vector]: the columns of the group *)
Definition extract_from_vector (e : est_settings) (vector : list R) (g : group) : result (list (list R)) :=
  match observation_group e g with
  | None => Err ValueError
  | Some (a, b) => Ok (map (fun i => strided vector i (num_obs_per_epoch e)) (seq a (b - a)))
  end.

(** data.py:328-337 [_set_vector_components]; the two-dimensional array [values] is given by its columns *)
Fixpoint set_columns (k : nat) (vector : list R) (i : nat) (cols : list (list R)) : result (list R) :=
  match cols with
  | [] => Ok vector
  | c :: r => let! v := set_strided vector i k c in set_columns k v (S i) r
  end.
Definition set_vector_components (e : est_settings) (vector : list R) (values : list (list R)) (g : group) : result (list R) :=
  match observation_group e g with
  | None => Err ValueError
  | Some (a, b) =>
      if negb (length values =? b - a)%nat then Err ValueError
      else set_columns (num_obs_per_epoch e) vector a values
  end.

(** ** Observation vector *)
Definition coords (v : V3) : list R := [vx v; vy v; vz v].
(** [np.c_[a, b]]: ValueError unless both have the same number of rows *)
Definition hstack (a b : list (list R)) : result (list (list R)) :=
  if (length a =? length b)%nat then Ok (map (fun ab => fst ab ++ snd ab) (combine a b)) else Err ValueError.

(** data.py:213-255 [build_obs_vector].  [rpy_from] are the Euler angles of the source orientations,
    None without orientations.  [speed] is never None (trajectory.py:387-393).  Line 252:
    [not time_shift_filter] is False for every non-empty list, and a column index of False selects no
    element, True all of them. *)
Definition blank_speed (filter : list bool) (speed : list V3) : list V3 :=
  if (length filter =? 0)%nat then map (fun _ => vzero) speed else speed.
Definition build_obs_vector (e : est_settings) (xyz_from xyz_to : list V3) (rpy_from : option (list V3))
    (speed : list V3) : result (list R) :=
  let! obs := hstack (map coords xyz_from) (map coords xyz_to) in
  let! obs := (if leverarm_enabled e then
                 match rpy_from with
                 | Some r => hstack obs (map coords r)
                 | None => Err ValueError
                 end
               else Ok obs) in
  let! obs := (if time_shift_enabled e then hstack obs (map coords (blank_speed (time_shift_filter e) speed)) else Ok obs) in
  Ok (concat obs).

(** settings/alignment.py:219-259 [AlignmentStochastics] *)
Record stochastics := mkStoch {
  std_xy_from : R; std_z_from : R; std_xy_to : R; std_z_to : R; std_roll_pitch : R; std_yaw : R; std_speed : R }.

(** data.py:192-195, 146-147 *)
Definition number_of_epochs (e : est_settings) (vector : list R) : nat := (length vector / num_obs_per_epoch e)%nat.

(** data.py:257-293 [build_var_vector] *)
Definition build_var_vector (e : est_settings) (s : stochastics) (obs : list R) : result (list R) :=
  let n := number_of_epochs e obs in
  let three (xy z : R) := [repeat (xy ^ 2) n; repeat (xy ^ 2) n; repeat (z ^ 2) n] in
  let v := repeat 1 (length obs) in
  let! v := set_vector_components e v (three (std_xy_from s) (std_z_from s)) XYZ_FROM in
  let! v := set_vector_components e v (three (std_xy_to s) (std_z_to s)) XYZ_TO in
  let! v := (if leverarm_enabled e then set_vector_components e v (three (std_roll_pitch s) (std_yaw s)) RPY else Ok v) in
  (if time_shift_enabled e then set_vector_components e v (three (std_speed s) (std_speed s)) SPEED else Ok v).

(** data.py:295-296 [build_res_vector] *)
Definition build_res_vector (obs : list R) : list R := repeat 0 (length obs).

(** The three vectors of an AlignmentData object. *)
Record adata := mkData { a_est : est_settings; a_obs : list R; a_var : list R; a_res : list R }.

(** data.py:149-180: the setters accept vectors with whole epochs only *)
Definition divisible (e : est_settings) (v : list R) : bool := (length v mod num_obs_per_epoch e =? 0)%nat.

(** data.py:88-98: the second half of [setup] *)
Definition make_data (e : est_settings) (s : stochastics) (xyz_from xyz_to : list V3) (rpy_from : option (list V3))
    (speed : list V3) : result adata :=
  let! obs := build_obs_vector e xyz_from xyz_to rpy_from speed in
  if negb (divisible e obs) then Err ValueError
  else
    let! var := build_var_vector e s obs in
    if negb (divisible e var) then Err ValueError
    else
      let res := build_res_vector obs in
      if negb (divisible e res) then Err ValueError
      else Ok (mkData e obs var res).

(** data.py:298-317: reading and writing groups; data.py:182-184 [est_obs_vector] *)
Inductive vec := Obs | Var | Res.
Definition the_vector (d : adata) (v : vec) : list R := match v with Obs => a_obs d | Var => a_var d | Res => a_res d end.
Definition with_vector (d : adata) (v : vec) (l : list R) : adata :=
  match v with
  | Obs => mkData (a_est d) l (a_var d) (a_res d)
  | Var => mkData (a_est d) (a_obs d) l (a_res d)
  | Res => mkData (a_est d) (a_obs d) (a_var d) l
  end.
Definition get_group (d : adata) (v : vec) (g : group) : result (list (list R)) := extract_from_vector (a_est d) (the_vector d v) g.
Definition set_group (d : adata) (v : vec) (g : group) (values : list (list R)) : result adata :=
  let! l := set_vector_components (a_est d) (the_vector d v) values g in Ok (with_vector d v l).
Definition est_obs_vector (d : adata) : list R := map (fun ab => fst ab + snd ab) (combine (a_obs d) (a_res d)).
Definition get_est_obs_group (d : adata) (g : group) : result (list (list R)) := extract_from_vector (a_est d) (est_obs_vector d) g.

(** Calls on the object: a call that raises leaves it as it was (the length check precedes the writes
    and all columns of an array have the same length). *)
Inductive data_call := CSet (v : vec) (g : group) (values : list (list R)) | CVector (v : vec) (values : list R).
Definition data_step (d : adata) (c : data_call) : adata :=
  match c with
  | CSet v g values => match set_group d v g values with Ok d' => d' | Err _ => d end
  | CVector v values => if divisible (a_est d) values then with_vector d v values else d
  end.

(** ** Preprocessing *)
(** settings/alignment.py:18-24 *)
Record preprocessing := mkPre { min_speed : R; time_start : R; time_end : R }.

Section Setup.
  Context {Q : Type}.

  (** trajectory.py:400-403 property [speed] and data.py:57-58 *)
  Definition speed_filter (m : R) (t : traj Q) : result (traj Q) :=
    apply_index t (IMask (map (fun v => Rleb m (vnorm v)) (speed t))).

  (** data.py:56-73, first half of [setup]; result (from, to) *)
  Definition preprocess (p : preprocessing) (from to : traj Q) : result (traj Q * traj Q) :=
    let! to := speed_filter (min_speed p) to in
    let! from := speed_filter (min_speed p) from in
    let! ft := (if (negb (Reqb (time_start p) 0) || negb (Reqb (time_end p) 0))%bool then
                  let! t0 := np_get (tstamps from) 0 in
                  let! to := crop to (t0 + time_start p) (t0 + time_end p) false in
                  let! from := crop from (t0 + time_start p) (t0 + time_end p) false in
                  Ok (from, to)
                else Ok (from, to)) in
    if ((tlen (fst ft) =? 0)%nat || (tlen (snd ft) =? 0)%nat)%bool then Err ValueError else Ok ft.

  (** data.py:49-98 [setup]: [compared] are the matched argument objects (MatchModel.v,
      [compared_by_metrics]: the return value is discarded here as well), [euler] the Euler angles.
      Lines 81-86 only log, but evaluate [tstamps[-1]]: IndexError without timestamps. *)
  Definition setup (compared : traj Q -> traj Q -> result (traj Q * traj Q)) (euler : Q -> V3)
      (p : preprocessing) (e : est_settings) (s : stochastics) (from to : traj Q) : result adata :=
    let! ft := preprocess p from to in
    let! m := compared (fst ft) (snd ft) in
    let! _ := np_get (tstamps (fst m)) (-1) in
    make_data e s (xyz (fst m)) (xyz (snd m)) (option_map (map euler) (rot (fst m))) (speed (fst m)).
End Setup.

(** ** Subset for variance estimation *)
(** [np.std] with ddof=1 as pandas computes it for a full window *)
Definition window_std (w : list R) : R :=
  let m := np_sum w / INR (length w) in
  sqrt (np_sum (map (fun x => (x - m) ^ 2) w) / (INR (length w) - 1)).
(** [rolling(window=w).std()]: the entry at i is the deviation of the w values ending at i; None is NaN,
    for the first w - 1 entries *)
Definition rolling_std (w : nat) (l : list R) : list (option R) :=
  map (fun i => if (S i <? w)%nat then None else Some (window_std (firstn w (skipn (S i - w) l)))) (seq 0 (length l)).
(** [idxmax]: first index of the largest entry, NaN skipped *)
Fixpoint idxmax_from (i : nat) (best : option (nat * R)) (l : list (option R)) : option nat :=
  match l with
  | [] => option_map fst best
  | None :: r => idxmax_from (S i) best r
  | Some x :: r =>
      idxmax_from (S i) (match best with
                         | None => Some (i, x)
                         | Some (j, y) => if Rltb y x then Some (i, x) else Some (j, y)
                         end) r
  end.
Definition idxmax (l : list (option R)) : option nat := idxmax_from 0 None l.

(** [np.linalg.norm] of the rows of the reshaped observation vector *)
Definition row_norms (k : nat) (obs : list R) : list R :=
  map (fun i => sqrt (np_sum (map (fun x => x ^ 2) (firstn k (skipn (i * k) obs))))) (seq 0 (length obs / k)).

(** data.py:509-544 [get_variance_estimation_subset]: the index applied to both trajectories, None if the
    data are used as they are.  For num_obs > 1 (a window of one value has no standard deviation). *)
Definition subset_index (e : est_settings) (obs : list R) (num_obs : nat) : option (list Z) :=
  let k := num_obs_per_epoch e in
  if (length obs / k <=? num_obs)%nat then None
  else
    match idxmax (rolling_std num_obs (row_norms k obs)) with
    | None => None
    | Some max_idx => Some (map (fun i => (Z.of_nat max_idx - Z.of_nat num_obs + Z.of_nat i)%Z) (seq 0 num_obs))
    end.

(** data.py:484-507 [thresholds] for given extents of the two point sets.  A zero extent divides by
    zero (inf in numpy); theorems about the values exclude it. *)
Definition thresholds (metric time max_dist : R) : list R :=
  let angle := metric / max_dist in
  [metric; metric; metric; angle; angle; angle; angle; time; metric; metric; metric].
