(** Trajectory objects in memory: which object an operation writes to, in which order, and what is
    left behind when it raises.

    A Trajectory object holds its arrays and a reference to a PointSet object (trajectory.py:60-79
    stores [pos] without copying it).  Simplification: the arrays themselves are values, i.e. two objects never
    share a numpy buffer (every assignment modelled here stores a freshly computed array, except
    [xyz += ...], which writes the PointSet of the object). *)
From Verif Require Import Base NumpyModel TrajModel GeomModel.

Definition addr := nat.

(** pointset.PointSet (external package) reduced to coordinates and epsg code *)
Record pobj := mkPobj { pb_xyz : list V3; pb_epsg : Z }.

Section Heap.
  Context {Q : Type}.

  (** trajectory.py:60-79: attributes of a Trajectory object *)
  Record tobj := mkTobj {
    o_tstamps : list R; o_pos : addr; o_rot : option (list Q); o_arc : list R;
    o_speed : list V3; o_srt : sorting; o_name : string
  }.

  (** All Trajectory and all PointSet objects; an address is a position in the list. *)
  Record heap := mkHeap { trajs : list tobj; points : list pobj }.

  (** What a user sees when reading all attributes of the object at an address. *)
  Definition view_of (o : tobj) (p : pobj) : traj Q :=
    mkTraj (o_tstamps o) (pb_xyz p) (o_rot o) (o_arc o) (o_speed o) (o_srt o) (o_name o) (pb_epsg p).
  Definition view (h : heap) (a : addr) : option (traj Q) :=
    match nth_error (trajs h) a with
    | Some o => match nth_error (points h) (o_pos o) with Some p => Some (view_of o p) | None => None end
    | None => None
    end.

  (** One attribute assignment on a trajectory. *)
  Inductive write :=
  | WTstamps (v : list R) | WXyz (v : list V3) | WRot (v : option (list Q))
  | WArc (v : list R) | WSpeed (v : list V3) | WSrt (v : sorting).

  (** Body of a method: reads of the object, assignments to it, exceptions. *)
  Inductive prog :=
  | Done
  | Raise (e : err)
  | Read (k : traj Q -> prog)
  | Write (w : write) (k : prog).

  Definition lift {A} (r : result A) (k : A -> prog) : prog :=
    match r with Ok a => k a | Err e => Raise e end.

  Fixpoint upd {A} (n : nat) (a : A) (l : list A) : list A :=
    match l, n with
    | [], _ => []
    | _ :: r, O => a :: r
    | x :: r, S m => x :: upd m a r
    end.

  (** Effect of an assignment: [traj.pos.xyz = v] goes to the PointSet, the others to the object. *)
  Definition store (o : tobj) (w : write) : tobj :=
    match w with
    | WTstamps v => mkTobj v (o_pos o) (o_rot o) (o_arc o) (o_speed o) (o_srt o) (o_name o)
    | WXyz _ => o
    | WRot v => mkTobj (o_tstamps o) (o_pos o) v (o_arc o) (o_speed o) (o_srt o) (o_name o)
    | WArc v => mkTobj (o_tstamps o) (o_pos o) (o_rot o) v (o_speed o) (o_srt o) (o_name o)
    | WSpeed v => mkTobj (o_tstamps o) (o_pos o) (o_rot o) (o_arc o) v (o_srt o) (o_name o)
    | WSrt v => mkTobj (o_tstamps o) (o_pos o) (o_rot o) (o_arc o) (o_speed o) v (o_name o)
    end.
  Definition assign (h : heap) (a : addr) (w : write) : heap :=
    match nth_error (trajs h) a with
    | None => h
    | Some o =>
        match w with
        | WXyz v =>
            match nth_error (points h) (o_pos o) with
            | Some p => mkHeap (trajs h) (upd (o_pos o) (mkPobj v (pb_epsg p)) (points h))
            | None => h
            end
        | _ => mkHeap (upd a (store o w) (trajs h)) (points h)
        end
    end.

  (** Execution of a method body on the object at [a].  The heap is returned also when it raises. *)
  Fixpoint run (p : prog) (a : addr) (h : heap) : heap * result unit :=
    match p with
    | Done => (h, Ok tt)
    | Raise e => (h, Err e)
    | Read k => match view h a with Some t => run (k t) a h | None => (h, Err AttributeError) end
    | Write w k => run k a (assign h a w)
    end.

  (** trajectory.py:137-141 [copy] (deepcopy: new object with a new PointSet) *)
  Definition copy (a : addr) (h : heap) : heap * result addr :=
    match nth_error (trajs h) a with
    | None => (h, Err AttributeError)
    | Some o =>
        match nth_error (points h) (o_pos o) with
        | None => (h, Err AttributeError)
        | Some p =>
            (mkHeap (trajs h ++ [mkTobj (o_tstamps o) (length (points h)) (o_rot o) (o_arc o) (o_speed o) (o_srt o) (o_name o)])
                    (points h ++ [p]),
             Ok (length (trajs h)))
        end
    end.

  (** The common shape of the methods with [inplace]: [traj_self = self if inplace else self.copy()],
      the body, [return traj_self]. *)
  Definition call (p : prog) (self : addr) (inplace : bool) (h : heap) : heap * result addr :=
    match (if inplace then (h, Ok self) else copy self h) with
    | (h1, Err e) => (h1, Err e)
    | (h1, Ok target) =>
        match run p target h1 with
        | (h2, Ok tt) => (h2, Ok target)
        | (h2, Err e) => (h2, Err e)
        end
    end.

  (** [PointSet(xyz=..., epsg=...)] *)
  Definition new_points (p : pobj) (h : heap) : heap * addr :=
    (mkHeap (trajs h) (points h ++ [p]), length (points h)).

  (** trajectory.py:47-81 [Trajectory(pos=..., ...)] on an existing PointSet object; the new object
      refers to that PointSet.  For the attributes see [new_traj] in TrajModel.v. *)
  Definition construct (loc : list V3 -> list V3) (pos : addr) (r : option (list Q)) (ts : option (list R))
      (nm : string) (al : option (list R)) (sp : option (list V3)) (so : sorting) (h : heap) : heap * result addr :=
    match nth_error (points h) pos with
    | None => (h, Err AttributeError)
    | Some p =>
        match new_traj loc (pb_xyz p) (pb_epsg p) r ts nm al sp so with
        | Err e => (h, Err e)
        | Ok t => (mkHeap (trajs h ++ [mkTobj (tstamps t) pos (rot t) (arc t) (speed t) (srt t) (name t)]) (points h),
                   Ok (length (trajs h)))
        end
    end.

  (** ** Method bodies *)
  (** trajectory.py:569-604 [apply_index], followed by [k] *)
  Definition index_then (ix : index) (k : prog) : prog :=
    Read (fun t => lift (np_index (tstamps t) ix) (fun ts => Write (WTstamps ts) (
    Read (fun t => lift (np_index (xyz t) ix) (fun ps => Write (WXyz ps) (
    Read (fun t =>
      let rest :=
        Read (fun t => lift (np_index (arc t) ix) (fun al => Write (WArc al) (
        Read (fun t => lift (np_index (speed t) ix) (fun sp => Write (WSpeed sp) k))))) in
      match rot t with
      | Some r => lift (np_index r ix) (fun q => Write (WRot (Some q)) rest)
      | None => rest
      end))))))).
  Definition apply_index_body (ix : index) : prog := index_then ix Done.

  (** trajectory.py:408-431 [crop], followed by [k] *)
  Definition crop_then (t_start t_end : R) (inverse : bool) (k : prog) : prog :=
    Read (fun t =>
      let inside := fun x => Rleb t_start x && Rleb x t_end in
      index_then (IMask (if inverse then map (fun x => negb (inside x)) (tstamps t)
                         else map inside (tstamps t))) k).
  Definition crop_body a b inverse : prog := crop_then a b inverse Done.

  (** trajectory.py:507-520 [match_timestamps] *)
  Definition match_timestamps_body (ts : list R) : prog :=
    Read (fun t => apply_index_body (IInt (map Z.of_nat (intersect1d_idx (tstamps t) ts)))).

  (** trajectory.py:522-567 [intersect] *)
  Definition intersect_body (ts : list R) (max_gap : R) : prog :=
    Read (fun t => lift (common_time_span ts (tstamps t)) (fun span =>
      match span with
      | None => Raise ValueError
      | Some (t0, t1) =>
          crop_then t0 t1 false (Read (fun c =>
            let sorted := np_sort ts in
            let lower := map (fun x => (Z.of_nat (searchsorted_right sorted x) - 1)%Z) (tstamps c) in
            lift (mapM (fun p => gap_ok sorted max_gap (fst p) (snd p)) (combine (tstamps c) lower)) (fun keep =>
              apply_index_body (IInt (map Z.of_nat (map fst (filter snd (enumerate keep))))))))
      end)).

  (** trajectory.py:433-462 [interpolate] with 464-505 *)
  Definition interpolate_body (slerp_seg : Q -> Q -> R -> Q) (request : list R) : prog :=
    Read (fun t => lift (crop_request (tstamps t) (np_sort request)) (fun ts =>
      lift (np_interp ts (tstamps t) (map vx (xyz t))) (fun x =>
      lift (np_interp ts (tstamps t) (map vy (xyz t))) (fun y =>
      lift (np_interp ts (tstamps t) (map vz (xyz t))) (fun z =>
      Write (WXyz (map (fun p => mkV3 (fst (fst p)) (snd (fst p)) (snd p)) (combine (combine x y) z)))
      (Read (fun t =>
        let rest :=
          Read (fun t => lift (gradient_3d (xyz t) ts) (fun sp => Write (WSpeed sp)
          (Read (fun t => lift (np_interp ts (tstamps t) (arc t)) (fun al => Write (WArc al)
          (Write (WTstamps ts) Done)))))) in
        match rot t with
        | None => rest
        | Some r => if (length ts =? 0)%nat then rest
                    else lift (slerp slerp_seg (tstamps t) r ts) (fun q => Write (WRot (Some q)) rest)
        end))))))).

  (** trajectory.py:606-619 [apply_transformation] with the setter 358-371, followed by [k] *)
  Definition transform_then (ops : rot_ops Q) (T : M4) (k : prog) : prog :=
    Read (fun t => let l := map (mul4 T) (se3 ops t) in
      Write (WXyz (map tra l)) (Write (WRot (Some (map (fun m => from_matrix ops (lin m)) l))) k)).
  Definition apply_transformation_body ops T : prog := transform_then ops T Done.

  (** trajectory.py:656-692 body of [apply_alignment] after the copy *)
  Definition apply_alignment_body (ops : rot_ops Q) (p : align_params) (sensor : V3) : prog :=
    Read (fun t =>
      lift match rot t with
           | Some q => broadcast (fun e s => leverarm_time_component e s (time_shift p) (lever p))
                                 (map (as_euler ops) q) (speed t)
           | None => Ok (map (fun s => leverarm_time_component vzero s (time_shift p) vzero) (speed t))
           end (fun shift =>
      lift (iadd (xyz t) shift) (fun moved => Write (WXyz moved) (
      transform_then ops (sim3_matrix ops p) (Read (fun t1 =>
        match rot t1 with
        | Some q => Write (WRot (Some (map (rmul ops (from_euler ops sensor)) q))) Done
        | None => Done
        end)))))).
  (** trajectory.py:656: with inplace=True the local variable is read before it is assigned. *)
  Definition call_apply_alignment ops p sensor (self : addr) (inplace : bool) (h : heap) : heap * result addr :=
    if inplace then (h, Err UnboundLocalError) else call (apply_alignment_body ops p sensor) self false h.

  (** trajectory.py:765-778 [adopt_first_position]; the argument is not used. *)
  Definition adopt_first_position_body : prog :=
    Read (fun t => lift (np_get (xyz t) 0) (fun a => lift (np_get (xyz t) 0) (fun b =>
      Write (WXyz (map (fun x => vadd x (vsub a b)) (xyz t))) Done))).

  (** trajectory.py:694-713 [sort_spatially]; [mls] stands for [sort_mls], [argsort] for the
      permutation that sorts [sort_idx]. *)
  Definition sort_spatially_body (mls : list V3 -> result (list nat * list R)) (argsort : list nat -> list nat) : prog :=
    Read (fun t => lift (mls (xyz t)) (fun si =>
      lift (np_take (fst si) (map Z.of_nat (argsort (fst si)))) (fun sorted =>
      index_then (IInt (map Z.of_nat sorted)) (
        lift (np_take (snd si) (map Z.of_nat (argsort (fst si)))) (fun al =>
        Write (WArc al) (Write (WSrt SortArc) Done)))))).

  (** trajectory.py:715-748 [approximate] *)
  Definition approximate_body (argsort : list R -> list nat)
      (cubic : list R -> list V3 -> result (list V3)) (win : list R -> list Q -> result (list Q)) : prog :=
    Read (fun t =>
      lift (function_of argsort t) (fun f => lift (xyz_sorted argsort t) (fun p => lift (cubic f p) (fun pa =>
      lift (np_take pa (map Z.of_nat (sort_switching_index argsort t))) (fun p' =>
      Write (WXyz p') (
      if negb (has_orientation t) then Done
      else lift (quat_sorted argsort t) (fun q => lift (win f q) (fun qa =>
           lift (np_take qa (map Z.of_nat (sort_switching_index argsort t))) (fun q' =>
           Write (WRot (Some q')) Done))))))))).
End Heap.
Arguments tobj Q : clear implicits.
Arguments heap Q : clear implicits.
Arguments prog Q : clear implicits.
Arguments write Q : clear implicits.
