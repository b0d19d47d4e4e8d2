(** Vocabulary of C163: smoothing and transforming. *)
From Verif Require Import Base TrajModel GeomModel GeomSpec DirectSpec.

(** A best mean of some orientations, and orientations with a single best mean *)
Definition best_mean {Q} (ops : rot_ops Q) (l : list Q) (m : M3) : Prop :=
  is_rot m /\ forall k, is_rot k -> chordal_sum m (map (as_matrix ops) l) <= chordal_sum k (map (as_matrix ops) l).
Definition clear_mean {Q} (ops : rot_ops Q) (l : list Q) : Prop := forall m m', best_mean ops l m -> best_mean ops l m' -> m = m'.

(** All successive orientations of a trajectory, in the order in which they are smoothed *)
Definition clear_windows {Q} (ops : rot_ops Q) (argsort : list R -> list nat) (t : traj Q) : Prop :=
  forall a l b, quat_sorted argsort t = Ok (a ++ l ++ b) -> l <> [] -> clear_mean ops l.
