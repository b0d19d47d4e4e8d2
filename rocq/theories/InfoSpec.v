(** Vocabulary for the length of a trajectory: what arc lengths say about the path. *)
From Verif Require Import Base NumpyModel TrajModel TrajSpec.

Section Info.
  Context {Q : Type}.
  (** Of any two poses the earlier one is stored first, and the difference of their arc lengths is at least the distance
      between their positions. *)
  Definition travelled (t : traj Q) : Prop :=
    StronglySorted (fun p q => p_t p <= p_t q /\ vdist (p_xyz p) (p_xyz q) <= p_arc q - p_arc p) (poses t).

  (** From pose to pose the arc length grows by exactly the distance. *)
  Definition arcs_exact (t : traj Q) : Prop :=
    forall i p q, pose_at t i = Some p -> pose_at t (S i) = Some q -> p_arc q = p_arc p + vdist (p_xyz p) (p_xyz q).
End Info.
