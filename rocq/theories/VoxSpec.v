(** Vocabulary of the properties of searches in voxels. *)
From Verif Require Import Base.

(** What a ball query of a k-d tree returns: the positions of all points at most [r] away, each once. *)
Definition ball_contract (ball : list V3 -> R -> V3 -> list nat) : Prop :=
  forall pts r p, NoDup (ball pts r p) /\ forall j, In j (ball pts r p) <-> exists q, nth_error pts j = Some q /\ vdist q p <= r.

Definition total (f : V3 -> R) (ps : list V3) : R := fold_right Rplus 0 (map f ps).
(** [m] is the mean of the points [ps], which are at least one. *)
Definition is_mean (ps : list V3) (m : V3) : Prop :=
  ps <> [] /\ INR (length ps) * vx m = total vx ps /\ INR (length ps) * vy m = total vy ps /\ INR (length ps) * vz m = total vz ps.
