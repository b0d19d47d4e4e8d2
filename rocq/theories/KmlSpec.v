(** Vocabulary of the KML property. *)
From Verif Require Import Base TrajModel TrajSpec.

(** Pose [p'] is pose [p] at the position [q]. *)
Definition moved_pose {Q} (q : V3) (p p' : pose Q) : Prop :=
  p' = mkPose (p_t p) q (p_rot p) (p_arc p) (p_speed p).

(** Position [i] of a list of places is the first visit of its place. *)
Definition first_visit {A} (l : list A) (i : nat) : Prop :=
  (i < length l)%nat /\ forall j, (j < i)%nat -> nth_error l j <> nth_error l i.

(** Longitude and latitude of the displayed positions. *)
Definition places {Q} (conv rnd : V3 -> V3) (t : traj Q) : list (R * R) :=
  map (fun p => (vy (rnd (conv p)), vx (rnd (conv p)))) (xyz t).
