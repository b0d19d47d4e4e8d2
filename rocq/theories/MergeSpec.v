(** Vocabulary of the merging properties. *)
From Verif Require Import Base TrajModel TrajSpec.

Section Spec.
  Context {Q : Type}.
  (** What merging has to keep of a pose: timestamp, position and orientation; with [default] for a
      missing orientation. *)
  Definition entry (p : pose Q) : R * V3 * option Q := (p_t p, p_xyz p, p_rot p).
  Definition oriented_entry (default : Q) (p : pose Q) : R * V3 * option Q :=
    (p_t p, p_xyz p, Some (match p_rot p with Some q => q | None => default end)).
  (** The trajectory stores at least one orientation. *)
  Definition oriented (t : traj Q) : Prop := exists q r, rot t = Some (q :: r).
End Spec.
