(** Merging of trajectories (trajectopy_core/merging.py). *)
From Verif Require Import Base NumpyModel TrajModel.

Section Merge.
  Context {Q : Type}.
  (** External code: [np.argsort], the local transformation of a PointSet, the identity rotation,
      [set.pop] on the set of epsg codes. *)
  Variable argsort : list R -> list nat.
  Variable loc : list V3 -> list V3.
  Variable qid : Q.
  Variable pop : list Z -> Z.

  (** merging.py:45 [t.rot.as_quat() if t.has_orientation else RotationSet.identity(len(t)).as_quat()] *)
  Definition rotations_or_identity (t : traj Q) : list Q :=
    match rot t with
    | Some q => if has_orientation t then q else repeat qid (tlen t)
    | None => repeat qid (tlen t)
    end.

  (** merging.py:20-61 [merge_trajectories]; [set.pop] raises KeyError on the empty set. *)
  Definition merge_trajectories (l : list (traj Q)) : result (traj Q) :=
    match l with
    | [] => Err KeyError
    | _ =>
        let ep := pop (map epsg l) in
        let merged_xyz := concat (map xyz l) in
        let merged_quat := concat (map rotations_or_identity l) in
        let merged_timestamps := concat (map tstamps l) in
        let! merged := new_traj loc merged_xyz ep
                         (if existsb has_orientation l then Some merged_quat else None)
                         (Some merged_timestamps) "Merged" None None SortTime in
        apply_index merged (IInt (map Z.of_nat (argsort (tstamps merged))))
    end.
End Merge.
