(** Vocabulary of C164: better trajectories. *)
From Verif Require Import Base TrajModel.

(** Every position of [test] is at most as far from its reference position as the position of [test2]. *)
Definition closer {Q} (ref test test2 : traj Q) : Prop :=
  forall i p a b, nth_error (xyz ref) i = Some p -> nth_error (xyz test) i = Some a -> nth_error (xyz test2) i = Some b -> vdist p a <= vdist p b.
