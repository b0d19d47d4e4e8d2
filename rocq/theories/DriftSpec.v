(** Words for C158: estimates that go wrong in a regular way. *)
From Verif Require Import Base TrajModel TrajSpec GeomModel GeomSpec EvalModel.

(** Pose by pose both trajectories have the same orientation matrix. *)
Definition same_orientations {Q} (ops : rot_ops Q) (test ref : traj Q) : Prop :=
  exists qt qr, rot test = Some qt /\ rot ref = Some qr /\ map (as_matrix ops) qt = map (as_matrix ops) qr.

(** The estimate is the true position, displaced by [c] and by [d] for every second of the clock. *)
Definition drifting {Q} (c d : V3) (test ref : traj Q) : Prop :=
  forall i p t, nth_error (xyz ref) i = Some p -> nth_error (tstamps ref) i = Some t ->
    nth_error (xyz test) i = Some (vadd p (vadd c (vscale t d))).

(** The estimate is the true path with all lengths multiplied by [s], displaced by [c]. *)
Definition stretched {Q} (s : R) (c : V3) (test ref : traj Q) : Prop :=
  forall i p, nth_error (xyz ref) i = Some p -> nth_error (xyz test) i = Some (vadd (vscale s p) c).

(** The estimated orientation is the true one, turned about the vertical axis by [c] and by [w] for every second of the clock. *)
Definition turning {Q} (ops : rot_ops Q) (c w : R) (test ref : traj Q) : Prop :=
  exists qt qr, rot test = Some qt /\ rot ref = Some qr /\
    forall i q q' t, nth_error qr i = Some q -> nth_error qt i = Some q' -> nth_error (tstamps ref) i = Some t ->
      as_matrix ops q' = mmul (Rz (c + w * t)) (as_matrix ops q).

(** [e] is an entry of the result: the errors over one pair of poses. *)
Definition entry_of (r : rpe_result) (e : pair_entry) : Prop :=
  exists k es, In (k, es) (rpe_pairs r) /\ In e es.
