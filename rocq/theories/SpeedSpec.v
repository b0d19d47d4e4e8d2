(** Vocabulary for speeds. *)
From Verif Require Import Base NumpyModel TrajModel TrajSpec.

Section Speeds.
  Context {Q : Type}.
  (** Poses are stored in the order of time, and no two of them are further apart than [V] allows in the time between them. *)
  Definition slower (V : R) (t : traj Q) : Prop :=
    StronglySorted (fun p q => p_t p < p_t q /\ vdist (p_xyz p) (p_xyz q) <= V * (p_t q - p_t p)) (poses t).

  (** Speeds lead from pose to pose. *)
  Definition leads (t : traj Q) : Prop :=
    forall i p q, pose_at t i = Some p -> pose_at t (S i) = Some q ->
      p_xyz q = vadd (p_xyz p) (vscale (p_t q - p_t p) (p_speed p)).

  (** Requests without repetition *)
  Definition plain_request (o : op) : Prop := match o with OpIndex _ => False | OpInterpolate ts => NoDup ts | _ => True end.
End Speeds.
