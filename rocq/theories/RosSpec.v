(** Vocabulary of the ROS bag property. *)
From Verif Require Import Base TrajModel IoModel IoSpec RosModel.

(** The values of a list in the order of their first occurrence. *)
Fixpoint distinct (l : list string) : list string :=
  match l with [] => [] | a :: r => a :: filter (fun b => negb (String.eqb b a)) (distinct r) end.

(** The pose messages of a bag with their topics, in the order of recording. *)
Definition pose_messages (bag : list message) : list (string * pose_msg) :=
  flat_map (fun m => match content m with PoseStamped p => [(topic m, p)] | OtherMsg _ => [] end) bag.

(** The pose messages of one topic. *)
Definition on_topic (k : string) (bag : list message) : list pose_msg :=
  map snd (filter (fun kp => String.eqb (fst kp) k) (pose_messages bag)).

(** Seconds since the epoch. *)
Definition stamp (p : pose_msg) : R := IZR (m_sec p) + IZR (m_nanosec p) / 10 ^ 9.

(** The trajectory [t] consists of the poses of [ms]; orientations are the normalised quaternions. *)
Definition follows {Q} (qops : quat_ops Q) (t : traj Q) (ms : list pose_msg) : Prop :=
  tstamps t = map stamp ms /\ xyz t = map m_position ms /\
  exists qs, rot t = Some qs /\
    map (as_quat qops) qs = map (fun p => qscale (/ qnorm (m_orientation p)) (m_orientation p)) ms.
