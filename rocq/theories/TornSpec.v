(** Vocabulary for interrupted writing. *)
From Verif Require Import Base EstModel TextModel HeaderModel NumpyModel TrajModel TrajSpec GeomModel IoModel IoSpec.

(** The poses agree as after reading a complete file, apart from the speed, of which only the first two components agree. *)
Definition near_but_vz {Q} (qops : quat_ops Q) (a b : pose Q) : Prop :=
  near (p_t a) (p_t b) /\ near_v3 (p_xyz a) (p_xyz b) /\ near (p_arc a) (p_arc b) /\
  near (vx (p_speed a)) (vx (p_speed b)) /\ near (vy (p_speed a)) (vy (p_speed b)) /\
  match p_rot a, p_rot b with
  | None, None => True
  | Some q, Some r => near_quat (as_quat qops q) (as_quat qops r)
  | _, _ => False
  end.

(** [got] is a beginning of [full], up to the written precision and the last vertical speed. *)
Definition beginning {Q} (qops : quat_ops Q) (full got : list (pose Q)) : Prop :=
  (length got <= length full)%nat /\
  forall i a b, nth_error full i = Some a -> nth_error got i = Some b ->
    near_but_vz qops a b /\ (near_pose qops a b \/ Datatypes.S i = length got).
