(** Vocabulary for the locality of interpolation. *)
From Verif Require Import Base TrajModel TrajSpec.

Section Local.
  Context {Q : Type}.
  (** Every requested time lies between two times at which the trajectory has poses. *)
  Definition covers (t : traj Q) (req : list R) : Prop :=
    forall x, In x req -> exists lo hi, In lo (tstamps t) /\ In hi (tstamps t) /\ lo <= x <= hi.
  (** The poses of a trajectory with times from [a] to [b] *)
  Definition poses_during (a b : R) (t : traj Q) : list (pose Q) :=
    filter (fun p => Rleb a (p_t p) && Rleb (p_t p) b) (poses t).
  (** The same pose, whatever its speed *)
  Definition same_but_speed (p q : pose Q) : Prop :=
    p_t p = p_t q /\ p_xyz p = p_xyz q /\ p_rot p = p_rot q /\ p_arc p = p_arc q.
End Local.
