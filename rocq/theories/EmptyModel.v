(** The operations that build new rotations, with the version of scipy that poetry.lock pins (1.13.1).

    [Rotation.__init__] of that version refuses an array without rows (ValueError), and [from_quat], [from_matrix],
    [from_euler] and [identity] all end there, so a RotationSet has at least one rotation.  TrajModel.v,
    GeomModel.v, MergeModel.v and HeapModel.v model versions that accept an array without rows, which
    pyproject.toml (scipy = "^1.12.0") allows too. *)
From Verif Require Import Base NumpyModel TrajModel MergeModel GeomModel HeapModel.

(** scipy 1.13.1, spatial/transform/_rotation.pyx [Rotation.__init__] *)
Definition rotations {A} (q : list A) : result (list A) := match q with [] => Err ValueError | _ => Ok q end.

Section Strict.
  Context {Q : Type}.

  (** trajectory.py:569-604 [apply_index]; lines 595-597 build the new rotations *)
  Definition strict_index (t : traj Q) (ix : index) : result (traj Q) :=
    let! ts := np_index (tstamps t) ix in
    let! ps := np_index (xyz t) ix in
    let! q := match rot t with
              | Some r => let! i := np_index r ix in let! q := rotations i in Ok (Some q)
              | None => Ok None
              end in
    let! al := np_index (arc t) ix in
    let! sp := np_index (speed t) ix in
    Ok (mkTraj ts ps q al sp (srt t) (name t) (epsg t)).

  (** trajectory.py:408-431 [crop] *)
  Definition strict_crop (t : traj Q) (t_start t_end : R) (inverse : bool) : result (traj Q) :=
    let inside := fun x => Rleb t_start x && Rleb x t_end in
    strict_index t (IMask (if inverse then map (fun x => negb (inside x)) (tstamps t) else map inside (tstamps t))).

  (** trajectory.py:507-520 [match_timestamps] *)
  Definition strict_match (t : traj Q) (ts : list R) : result (traj Q) :=
    strict_index t (IInt (map Z.of_nat (intersect1d_idx (tstamps t) ts))).

  (** trajectory.py:522-567 [intersect] *)
  Definition strict_intersect (t : traj Q) (ts : list R) (max_gap : R) : result (traj Q) :=
    let! span := common_time_span ts (tstamps t) in
    match span with
    | None => Err ValueError
    | Some (t0, t1) =>
        let! c := strict_crop t t0 t1 false in
        let sorted := np_sort ts in
        let lower := map (fun x => (Z.of_nat (searchsorted_right sorted x) - 1)%Z) (tstamps c) in
        let! keep := mapM (fun p => gap_ok sorted max_gap (fst p) (snd p)) (combine (tstamps c) lower) in
        strict_index c (IInt (map Z.of_nat (map fst (filter snd (enumerate keep)))))
    end.

  (** trajectory.py:606-619 [apply_transformation] with the setter 358-371, whose last line builds the rotations *)
  Definition strict_transformation (ops : rot_ops Q) (T : M4) (t : traj Q) : result (traj Q) :=
    let l := map (mul4 T) (se3 ops t) in
    let! q := rotations (map (fun m => from_matrix ops (lin m)) l) in
    Ok (set_rot (Some q) (set_xyz (map tra l) t)).

  (** trajectory.py:621-692 [apply_alignment] *)
  Definition strict_alignment (ops : rot_ops Q) (p : align_params) (sensor : V3) (inplace : bool) (t : traj Q) : result (traj Q) :=
    if inplace then Err UnboundLocalError
    else
      let! shift :=
        match rot t with
        | Some q => broadcast (fun e s => leverarm_time_component e s (time_shift p) (lever p)) (map (as_euler ops) q) (speed t)
        | None => Ok (map (fun s => leverarm_time_component vzero s (time_shift p) vzero) (speed t))
        end in
      let! moved := iadd (xyz t) shift in
      let! t1 := strict_transformation ops (sim3_matrix ops p) (set_xyz moved t) in
      match rot t1 with
      | Some q => Ok (set_rot (Some (map (rmul ops (from_euler ops sensor)) q)) t1)
      | None => Ok t1
      end.

  Variable argsort : list R -> list nat.
  Variable loc : list V3 -> list V3.
  Variable qid : Q.
  Variable pop : list Z -> Z.

  (** merging.py:47 [t.rot.as_quat() if t.has_orientation else RotationSet.identity(len(t)).as_quat()] *)
  Definition strict_rotations (t : traj Q) : result (list Q) :=
    match rot t with
    | Some q => if has_orientation t then Ok q else rotations (repeat qid (tlen t))
    | None => rotations (repeat qid (tlen t))
    end.

  (** merging.py:20-61 [merge_trajectories] *)
  Definition strict_merge (l : list (traj Q)) : result (traj Q) :=
    match l with
    | [] => Err KeyError
    | _ =>
        let! quats := mapM strict_rotations l in
        let! r := if existsb has_orientation l then rmap Some (rotations (concat quats)) else Ok None in
        let! merged := new_traj loc (concat (map xyz l)) (pop (map epsg l)) r (Some (concat (map tstamps l))) "Merged" None None SortTime in
        strict_index merged (IInt (map Z.of_nat (argsort (tstamps merged))))
    end.

  (** trajectory.py:569-604: the body of [apply_index] as a sequence of assignments, followed by [k] *)
  Definition strict_index_then (ix : index) (k : prog Q) : prog Q :=
    Read (fun t => lift (np_index (tstamps t) ix) (fun ts => Write (WTstamps ts) (
    Read (fun t => lift (np_index (xyz t) ix) (fun ps => Write (WXyz ps) (
    Read (fun t =>
      let rest :=
        Read (fun t => lift (np_index (arc t) ix) (fun al => Write (WArc al) (
        Read (fun t => lift (np_index (speed t) ix) (fun sp => Write (WSpeed sp) k))))) in
      match rot t with
      | Some r => lift (np_index r ix) (fun i => lift (rotations i) (fun q => Write (WRot (Some q)) rest))
      | None => rest
      end))))))).
  Definition strict_index_body (ix : index) : prog Q := strict_index_then ix Done.

  (** trajectory.py:408-431 [crop], followed by [k] *)
  Definition strict_crop_then (t_start t_end : R) (inverse : bool) (k : prog Q) : prog Q :=
    Read (fun t =>
      let inside := fun x => Rleb t_start x && Rleb x t_end in
      strict_index_then (IMask (if inverse then map (fun x => negb (inside x)) (tstamps t)
                         else map inside (tstamps t))) k).
  Definition strict_crop_body a b inverse : prog Q := strict_crop_then a b inverse Done.

  (** trajectory.py:507-520 [match_timestamps] *)
  Definition strict_match_body (ts : list R) : prog Q :=
    Read (fun t => strict_index_body (IInt (map Z.of_nat (intersect1d_idx (tstamps t) ts)))).

  (** trajectory.py:522-567 [intersect] *)
  Definition strict_intersect_body (ts : list R) (max_gap : R) : prog Q :=
    Read (fun t => lift (common_time_span ts (tstamps t)) (fun span =>
      match span with
      | None => Raise ValueError
      | Some (t0, t1) =>
          strict_crop_then t0 t1 false (Read (fun c =>
            let sorted := np_sort ts in
            let lower := map (fun x => (Z.of_nat (searchsorted_right sorted x) - 1)%Z) (tstamps c) in
            lift (mapM (fun p => gap_ok sorted max_gap (fst p) (snd p)) (combine (tstamps c) lower)) (fun keep =>
              strict_index_body (IInt (map Z.of_nat (map fst (filter snd (enumerate keep))))))))
      end)).
End Strict.
