(** Vocabulary of the property about recordings of one motion. *)
From Verif Require Import Base TrajModel TrajSpec.

(** The positions are where [f] is at the times of the poses. *)
Definition records {Q} (f : R -> V3) (t : traj Q) : Prop := forall p, In p (poses t) -> p_xyz p = f (p_t p).
(** [f] moves with a speed of at most [v]. *)
Definition speed_at_most (v : R) (f : R -> V3) : Prop := forall s t, vdist (f s) (f t) <= v * Rabs (s - t).
(** [f] accelerates with at most [a]: it leaves its tangents no faster than a motion with that acceleration. *)
Definition acceleration_at_most (a : R) (f : R -> V3) : Prop :=
  exists g, forall s t, vdist (f s) (vadd (f t) (vscale (s - t) (g t))) <= a * (s - t) ^ 2 / 2.
(** Consecutive poses are at most [h] apart in time. *)
Definition sampled_within {Q} (h : R) (t : traj Q) : Prop := forall a b, neighbours (tstamps t) a b -> b - a <= h.
