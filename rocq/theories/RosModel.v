(** Reading ROS bags: trajectopy_core/input_output/rosbag.py and rosmsg.py.
    The bag is the list of its messages in the order in which the reader delivers them.  Reading the file and decoding the
    message types (the rosbags package) are not modelled; a message that cannot be decoded does not occur. *)
From Verif Require Import Base NumpyModel TrajModel GeomModel IoModel.
Local Open Scope string_scope.

(** geometry_msgs/msg/PoseStamped as used in rosmsg.py:11-40 *)
Record pose_msg := mkPoseMsg { m_sec : Z; m_nanosec : Z; m_position : V3; m_orientation : V4 }.

(** One message: the topic, and the content.  [OtherMsg] has any type without a handler. *)
Inductive payload := PoseStamped (m : pose_msg) | OtherMsg (msgtype : string).
Record message := mkMessage { topic : string; content : payload }.

(** rosmsg.py:43-61 [geometry_pose_stamped_handler] *)
Definition geometry_pose_stamped_handler (m : pose_msg) : list (string * R) :=
  [("tstamps", IZR (m_sec m) + IZR (m_nanosec m) * (1 / 10 ^ 9));
   ("x", vx (m_position m)); ("y", vy (m_position m)); ("z", vz (m_position m));
   ("qx", q_x (m_orientation m)); ("qy", q_y (m_orientation m)); ("qz", q_z (m_orientation m)); ("qw", q_w (m_orientation m))].

(** A dictionary in the order of insertion: [get_item] looks up, [upd_item] changes the value of a key and inserts it at
    the end, made from [fresh], if it is not there *)
Definition dict A := list (string * A).
Fixpoint get_item {A} (d : dict A) (k : string) : option A :=
  match d with [] => None | (k', a) :: r => if String.eqb k' k then Some a else get_item r k end.
Fixpoint upd_item {A} (fresh : A) (f : A -> A) (d : dict A) (k : string) : dict A :=
  match d with
  | [] => [(k, f fresh)]
  | (k', a) :: r => if String.eqb k' k then (k', f a) :: r else (k', a) :: upd_item fresh f r k
  end.

(** rosbag.py:85-99 [add_to_dict] *)
Definition add_to_dict (data : dict (dict (list R))) (key sub_key : string) (value : R) : dict (dict (list R)) :=
  upd_item [] (fun d => upd_item [] (fun l => (l ++ [value])%list) d sub_key) data key.

(** rosbag.py:58-82 [read_ros_bag]: the handlers are looked up by message type (rosbag.py:22) *)
Definition read_step (data : dict (dict (list R))) (m : message) : dict (dict (list R)) :=
  match content m with
  | OtherMsg _ => data
  | PoseStamped p => fold_left (fun d kv => add_to_dict d (topic m) (fst kv) (snd kv)) (geometry_pose_stamped_handler p) data
  end.
Definition read_ros_bag (bag : list message) : dict (dict (list R)) := fold_left read_step bag [].

(** [np.c_] of three and four columns; ValueError for different lengths *)
Fixpoint np_c3 (a b c : list R) : result (list V3) :=
  match a, b, c with
  | [], [], [] => Ok []
  | x :: a, y :: b, z :: c => let! r := np_c3 a b c in Ok (mkV3 x y z :: r)
  | _, _, _ => Err ValueError
  end.
Fixpoint np_c4 (a b c d : list R) : result (list V4) :=
  match a, b, c, d with
  | [], [], [], [] => Ok []
  | x :: a, y :: b, z :: c, w :: d => let! r := np_c4 a b c d in Ok (mkV4 x y z w :: r)
  | _, _, _, _ => Err ValueError
  end.

Definition item {A} (d : dict A) (k : string) : result A := match get_item d k with Some a => Ok a | None => Err KeyError end.
Definition has_key {A} (d : dict A) (k : string) : bool := match get_item d k with Some _ => true | None => false end.

Section Ros.
  Context {Q : Type} (qops : quat_ops Q).

  (** rosbag.py:36-52, the body of the loop.  [loc] as in [new_traj]; the epsg code of [PointSet(xyz)] is 0 *)
  Definition topic_trajectory (loc : list V3 -> list V3) (key : string) (d : dict (list R)) : result (traj Q) :=
    let! x := item d "x" in
    let! y := item d "y" in
    let! z := item d "z" in
    let! pos := np_c3 x y z in
    let! rot :=
      if existsb (fun k => negb (has_key d k)) ["qx"; "qy"; "qz"; "qw"] then Ok None
      else
        let! a := item d "qx" in
        let! b := item d "qy" in
        let! c := item d "qz" in
        let! e := item d "qw" in
        let! quats := np_c4 a b c e in
        rmap Some (mapM (fun v => match from_quat qops v with Some q => Ok q | None => Err ValueError end) quats) in
    let ts := match get_item d "tstamps" with Some l => l | None => map INR (seq 0 (length pos)) end in
    new_traj loc pos 0 rot (Some ts) key None None SortTime.

  (** rosbag.py:27-55 [trajectories_from_rosbag] *)
  Definition trajectories_from_rosbag (loc : list V3 -> list V3) (bag : list message) : result (list (traj Q)) :=
    mapM (fun kd => topic_trajectory loc (fst kd) (snd kd)) (read_ros_bag bag).
End Ros.
