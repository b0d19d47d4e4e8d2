(** Reading ROS bags: property C91. *)
From Verif Require Import Base NumpyModel TrajModel TrajSpec GeomModel IoModel IoSpec IoFacts4 RosModel RosSpec RosFacts.

(** One trajectory per topic with pose messages, in the order of the first messages of the topics; each has exactly the
    poses of its topic in the order of recording.  Messages of other types change nothing. *)
Theorem C91 : forall Q (ops : rot_ops Q) (qops : quat_ops Q) (loc : list V3 -> list V3) (bag : list message),
  quat_contract ops qops -> (forall l, length (loc l) = length l) ->
  (forall k p, In (k, p) (pose_messages bag) -> qnorm (m_orientation p) <> 0) ->
  exists ts, trajectories_from_rosbag qops loc bag = Ok ts /\ map name ts = distinct (map fst (pose_messages bag)) /\
    forall t, In t ts -> consistent t /\ follows qops t (on_topic (name t) bag).
Proof. intros Q ops qops loc bag QC L H. exact (bag_ok ops qops QC loc L bag H). Qed.
Print Assumptions C91.

(** A pose message with a zero quaternion on any topic makes the whole bag unreadable. *)
Theorem C91_errors : forall Q (ops : rot_ops Q) (qops : quat_ops Q) (loc : list V3 -> list V3) (bag : list message) k p,
  quat_contract ops qops -> (forall l, length (loc l) = length l) ->
  In (k, p) (pose_messages bag) -> qnorm (m_orientation p) = 0 -> trajectories_from_rosbag qops loc bag = Err ValueError.
Proof. intros Q ops qops loc bag k p QC L I Z. exact (bag_zero ops qops QC loc L bag k p I Z). Qed.
Print Assumptions C91_errors.

Definition sample_msg (s : Z) (x : R) : pose_msg := mkPoseMsg s 500000000 (mkV3 x 0 0) (mkV4 0 0 0 2).
Definition sample_bag : list message :=
  [mkMessage "/lidar" (PoseStamped (sample_msg 10 1)); mkMessage "/camera" (OtherMsg "sensor_msgs/msg/Image");
   mkMessage "/gnss" (PoseStamped (sample_msg 11 2)); mkMessage "/lidar" (PoseStamped (sample_msg 12 3))].

Example C91_case : quat_contract sample_rot_ops sample_quat_ops /\
  (forall k p, In (k, p) (pose_messages sample_bag) -> qnorm (m_orientation p) <> 0) /\
  distinct (map fst (pose_messages sample_bag)) = ["/lidar"; "/gnss"]%string /\
  on_topic "/lidar" sample_bag = [sample_msg 10 1; sample_msg 12 3] /\
  In ("/imu"%string, mkPoseMsg 1 0 vzero (mkV4 0 0 0 0)) (pose_messages (mkMessage "/imu" (PoseStamped (mkPoseMsg 1 0 vzero (mkV4 0 0 0 0))) :: sample_bag)) /\
  qnorm (mkV4 0 0 0 0) = 0.
Proof.
  split; [exact sample_quat_contract|]. split; [|split; [reflexivity|split; [reflexivity|split; [left; reflexivity|]]]].
  - assert (qnorm (mkV4 0 0 0 2) <> 0).
    { unfold qnorm. cbn. intro E. apply sqrt_eq_0 in E; lra. }
    intros k p [I|[I|[I|[]]]]; injection I as _ <-; exact H.
  - unfold qnorm. cbn. replace (0 * 0 + 0 * 0 + 0 * 0 + 0 * 0) with 0 by ring. apply sqrt_0.
Qed.
