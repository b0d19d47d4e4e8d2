(** Model of [trajectopy_core/trajectory.py] (class Trajectory) and of the helpers it uses
    in [trajectopy_core/utils.py].

    Simplifications common to the file: numpy arrays are lists of reals / vectors; rotations are
    elements of an arbitrary type [Q] (indexing quaternions and re-normalising them with
    [RotationSet.from_quat] is indexing the rotations); logging is dropped; the PointSet object
    is reduced to its coordinates and epsg code; names are given by the caller (the
    "Trajectory <counter>" default is not modelled); [inplace] is not visible here because every function returns the new value
    (aliasing and in-place effects are modelled in HeapModel.v). *)
From Verif Require Import Base NumpyModel.

(** sorting.py:24-26 [class Sorting(str, Enum)] *)
Inductive sorting := SortTime | SortArc.

(** utils.py:77-100 [lengths_from_xyz] (identical copy in sorting.py:82-105).
    Simplification: the argument is always an array, the type check is dropped. *)
Definition lengths_from_xyz (p : list V3) : list R :=
  0 :: np_cumsum (map (fun ab => vnorm (vsub (snd ab) (fst ab))) (pairs p)).

(** numpy broadcasting of a binary operation along the rows: equal lengths, or one operand
    with a single row, else ValueError. *)
Definition broadcast {A B C} (f : A -> B -> C) (l : list A) (m : list B) : result (list C) :=
  if (length l =? length m)%nat then Ok (map (fun ab => f (fst ab) (snd ab)) (combine l m))
  else match l, m with
       | [a], _ => Ok (map (f a) m)
       | _, [b] => Ok (map (fun a => f a b) l)
       | _, _ => Err ValueError
       end.

Definition vdiv (v : V3) (s : R) : V3 := mkV3 (vx v / s) (vy v / s) (vz v / s).

(** utils.py:103-119 [gradient_3d].  Division by a zero time difference gives inf/nan in
    numpy; theorems about the values exclude it. *)
Definition gradient_3d (p : list V3) (t : list R) : result (list V3) :=
  let! g := broadcast vdiv (map (fun ab => vsub (snd ab) (fst ab)) (pairs p)) (np_diff t) in
  Ok (g ++ [vzero]).

(** utils.py:122-150 [common_time_span]; IndexError for empty input is raised by [tstamps[0]]. *)
Definition common_time_span (ts1 ts2 : list R) : result (option (R * R)) :=
  let s1 := np_sort ts1 in
  let s2 := np_sort ts2 in
  let! a0 := np_get s1 0 in
  let! b0 := np_get s2 0 in
  let! a1 := np_get s1 (-1) in
  let! b1 := np_get s2 (-1) in
  let overlap :=
    (Rleb a0 b0 && Rleb b0 a1) || (Rleb a0 b1 && Rleb b1 a1)
    || (Rleb b0 a0 && Rleb a0 b1) || (Rleb b0 a1 && Rleb a1 b1) in
  if negb overlap then Ok None else Ok (Some (Rmax a0 b0, Rmin a1 b1)).

Section Traj.
  Context {Q : Type}.

  (** trajectory.py:60-79: the attributes of a Trajectory.  [speed] is [_speed_3d], which is
      never None after construction. *)
  Record traj := mkTraj {
    tstamps : list R;
    xyz : list V3;
    rot : option (list Q);
    arc : list R;
    speed : list V3;
    srt : sorting;
    name : string;
    epsg : Z
  }.

  Definition set_tstamps v (t : traj) := mkTraj v (xyz t) (rot t) (arc t) (speed t) (srt t) (name t) (epsg t).
  Definition set_xyz v (t : traj) := mkTraj (tstamps t) v (rot t) (arc t) (speed t) (srt t) (name t) (epsg t).
  Definition set_rot v (t : traj) := mkTraj (tstamps t) (xyz t) v (arc t) (speed t) (srt t) (name t) (epsg t).
  Definition set_arc v (t : traj) := mkTraj (tstamps t) (xyz t) (rot t) v (speed t) (srt t) (name t) (epsg t).
  Definition set_speed v (t : traj) := mkTraj (tstamps t) (xyz t) (rot t) (arc t) v (srt t) (name t) (epsg t).
  Definition set_srt v (t : traj) := mkTraj (tstamps t) (xyz t) (rot t) (arc t) (speed t) v (name t) (epsg t).

  (** trajectory.py:47-81 [__init__].  [loc] is [pos.to_local(inplace=False).xyz] (identity for
      epsg 0).  A RotationSet is truthy even when empty. *)
  Definition new_traj (loc : list V3 -> list V3) (pos : list V3) (ep : Z) (r : option (list Q))
      (ts : option (list R)) (nm : string) (al : option (list R)) (sp : option (list V3))
      (so : sorting) : result traj :=
    let mismatch := match r with Some q => negb (length q =? length pos)%nat | None => false end in
    if mismatch then Err ValueError
    else
      let times := match ts with None => map INR (seq 0 (length pos)) | Some t => t end in
      let computed_speed := gradient_3d (loc pos) times in
      let! v := match sp with
                | Some s => if (length s =? length pos)%nat then Ok s else computed_speed
                | None => computed_speed
                end in
      let computed_arc := lengths_from_xyz (loc pos) in
      let l := match al with
               | Some a => if (length a =? length pos)%nat then a else computed_arc
               | None => computed_arc
               end in
      Ok (mkTraj times pos r l v so nm ep).

  (** trajectory.py:111-115 [__len__] *)
  Definition tlen (t : traj) : nat := length (xyz t).

  (** trajectory.py:101-106 [has_orientation] *)
  Definition has_orientation (t : traj) : bool :=
    match rot t with Some q => negb (length q =? 0)%nat | None => false end.

  (** trajectory.py:380-385 [total_length] *)
  Definition total_length (t : traj) : R :=
    match rev (arc t) with [] => 0 | a :: _ => a end.

  (** trajectory.py:569-604 [apply_index] *)
  Definition apply_index (t : traj) (ix : index) : result traj :=
    let! ts := np_index (tstamps t) ix in
    let! ps := np_index (xyz t) ix in
    let! q := match rot t with
              | Some r => rmap Some (np_index r ix)
              | None => Ok None
              end in
    let! al := np_index (arc t) ix in
    let! sp := np_index (speed t) ix in
    Ok (mkTraj ts ps q al sp (srt t) (name t) (epsg t)).

  (** trajectory.py:408-431 [crop] *)
  Definition crop (t : traj) (t_start t_end : R) (inverse : bool) : result traj :=
    let inside := fun x => Rleb t_start x && Rleb x t_end in
    let filt := if inverse then map (fun x => negb (inside x)) (tstamps t)
                else map inside (tstamps t) in
    apply_index t (IMask filt).

  (** trajectory.py:507-520 [match_timestamps] *)
  Definition match_timestamps (t : traj) (ts : list R) : result traj :=
    apply_index t (IInt (map Z.of_nat (intersect1d_idx (tstamps t) ts))).

  (** trajectory.py:557-564, the filter condition of [intersect] for one timestamp, with Python
      index semantics (a neighbour index of -1 would address the last element). *)
  Definition gap_ok (sorted : list R) (max_gap : R) (tstamp : R) (lower : Z) : result bool :=
    let! low := np_get sorted lower in
    if Reqb low tstamp then Ok true
    else
      let! up := np_get sorted (lower + 1)%Z in
      let! low' := np_get sorted lower in
      Ok (Rleb (up - low') max_gap).

  (** trajectory.py:522-567 [intersect] *)
  Definition intersect (t : traj) (ts : list R) (max_gap : R) : result traj :=
    let! span := common_time_span ts (tstamps t) in
    match span with
    | None => Err ValueError
    | Some (t0, t1) =>
        let! c := crop t t0 t1 false in
        let sorted := np_sort ts in
        let lower := map (fun x => (Z.of_nat (searchsorted_right sorted x) - 1)%Z) (tstamps c) in
        let! keep := mapM (fun p => gap_ok sorted max_gap (fst p) (snd p)) (combine (tstamps c) lower) in
        let idx := map fst (filter snd (enumerate keep)) in
        apply_index c (IInt (map Z.of_nat idx))
    end.

  (** trajectory.py:489-505 [_interpolate_positions] *)
  Definition interpolate_positions (t : traj) (ts : list R) : result traj :=
    let! x := np_interp ts (tstamps t) (map vx (xyz t)) in
    let! y := np_interp ts (tstamps t) (map vy (xyz t)) in
    let! z := np_interp ts (tstamps t) (map vz (xyz t)) in
    Ok (set_xyz (map (fun p => mkV3 (fst (fst p)) (snd (fst p)) (snd p)) (combine (combine x y) z)) t).

  Variable slerp_seg : Q -> Q -> R -> Q.

  (** trajectory.py:464-487 [_interpolate_rotations] *)
  Definition interpolate_rotations (t : traj) (ts : list R) : result traj :=
    match rot t with
    | None => Ok t
    | Some r =>
        if (length ts =? 0)%nat then Ok t
        else let! q := slerp slerp_seg (tstamps t) r ts in Ok (set_rot (Some q) t)
    end.

  (** trajectory.py:452: the requested timestamps inside [tstamps[0], tstamps[-1]]; the bounds are
      evaluated once per requested timestamp, so no IndexError without requests. *)
  Definition crop_request (own request : list R) : result (list R) :=
    let! keep := mapM (fun x =>
                   let! lo := np_get own 0 in
                   if Rleb lo x then let! hi := np_get own (-1) in Ok (Rleb x hi) else Ok false)
                 request in
    Ok (map fst (filter snd (combine request keep))).

  (** trajectory.py:433-462 [interpolate] *)
  Definition interpolate (t : traj) (request : list R) : result traj :=
    let! ts := crop_request (tstamps t) (np_sort request) in
    let! t1 := interpolate_positions t ts in
    let! t2 := interpolate_rotations t1 ts in
    let! sp := gradient_3d (xyz t2) ts in
    let! al := np_interp ts (tstamps t2) (arc t2) in
    Ok (set_tstamps ts (set_arc al (set_speed sp t2))).

  (** trajectory.py:193-198 [sorting_index], for any implementation of argsort. *)
  Definition sorting_index (argsort : list R -> list nat) (t : traj) : list nat :=
    match srt t with SortTime => argsort (tstamps t) | SortArc => argsort (arc t) end.

  (** trajectory.py:186-191 [sort_switching_index]; the keys are the integers of the index. *)
  Definition sort_switching_index (argsort : list R -> list nat) (t : traj) : list nat :=
    argsort (map INR (sorting_index argsort t)).

  (** trajectory.py:200-207 [function_of] *)
  Definition function_of (argsort : list R -> list nat) (t : traj) : result (list R) :=
    np_take (match srt t with SortTime => tstamps t | SortArc => arc t end)
            (map Z.of_nat (sorting_index argsort t)).

  (** trajectory.py:223-231 property [xyz] *)
  Definition xyz_sorted (argsort : list R -> list nat) (t : traj) : result (list V3) :=
    np_take (xyz t) (map Z.of_nat (sorting_index argsort t)).

  (** trajectory.py:233-244 property [quat], for a trajectory with rotations. *)
  Definition quat_sorted (argsort : list R -> list nat) (t : traj) : result (list Q) :=
    match rot t with
    | Some r => np_take r (map Z.of_nat (sorting_index argsort t))
    | None => Err TypeError (* zeros((n,4)): not rotations *)
    end.

  (** trajectory.py:715-748 [approximate]: [cubic] stands for [piecewise_cubic] (positions as a
      function of the sorted argument) and [win] for [rot_average_window]. *)
  Definition approximate (argsort : list R -> list nat)
      (cubic : list R -> list V3 -> result (list V3))
      (win : list R -> list Q -> result (list Q)) (t : traj) : result traj :=
    let! f := function_of argsort t in
    let! p := xyz_sorted argsort t in
    let! pa := cubic f p in
    let! p' := np_take pa (map Z.of_nat (sort_switching_index argsort t)) in
    let t1 := set_xyz p' t in
    if negb (has_orientation t1) then Ok t1
    else
      let! q := quat_sorted argsort t in
      let! qa := win f q in
      let! q' := np_take qa (map Z.of_nat (sort_switching_index argsort t)) in
      Ok (set_rot (Some q') t1).
End Traj.
Arguments traj Q : clear implicits.
