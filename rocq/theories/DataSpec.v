(** Vocabulary of the observation data properties. *)
From Verif Require Import Base NumpyModel TrajModel TrajSpec ParamModel DataModel.

(** What is observed in one epoch: source and target position, platform angles, speed. *)
Inductive quantity := FromX | FromY | FromZ | ToX | ToY | ToZ | Roll | Pitch | Yaw | SpeedX | SpeedY | SpeedZ.

(** The quantities of a group, in the order of its columns. *)
Definition parts (g : group) : list quantity :=
  match g with
  | XY_FROM => [FromX; FromY]
  | Z_FROM => [FromZ]
  | XYZ_FROM => [FromX; FromY; FromZ]
  | XY_TO => [ToX; ToY]
  | Z_TO => [ToZ]
  | XYZ_TO => [ToX; ToY; ToZ]
  | POSITIONS => [FromX; FromY; FromZ; ToX; ToY; ToZ]
  | ROLL_PITCH => [Roll; Pitch]
  | YAW => [Yaw]
  | RPY => [Roll; Pitch; Yaw]
  | SPEED => [SpeedX; SpeedY; SpeedZ]
  end.

(** Angles are observed for lever arm estimation, speeds for time shift estimation. *)
Definition observed (e : est_settings) (q : quantity) : Prop :=
  match q with
  | Roll | Pitch | Yaw => leverarm_enabled e = true
  | SpeedX | SpeedY | SpeedZ => time_shift_enabled e = true
  | _ => True
  end.
Definition available (e : est_settings) (g : group) : Prop := forall q, In q (parts g) -> observed e q.

(** All values of a quantity in given data. *)
Definition measured (from to rpy speed : list V3) (q : quantity) : list R :=
  match q with
  | FromX => map vx from | FromY => map vy from | FromZ => map vz from
  | ToX => map vx to | ToY => map vy to | ToZ => map vz to
  | Roll => map vx rpy | Pitch => map vy rpy | Yaw => map vz rpy
  | SpeedX => map vx speed | SpeedY => map vy speed | SpeedZ => map vz speed
  end.

(** The configured standard deviation of a quantity. *)
Definition std_of (s : stochastics) (q : quantity) : R :=
  match q with
  | FromX | FromY => std_xy_from s | FromZ => std_z_from s
  | ToX | ToY => std_xy_to s | ToZ => std_z_to s
  | Roll | Pitch => std_roll_pitch s | Yaw => std_yaw s
  | SpeedX | SpeedY | SpeedZ => std_speed s
  end.

(** The data cover n epochs: enough rows of everything that is observed. *)
Definition fitting (e : est_settings) (from to : list V3) (rpy : option (list V3)) (speed : list V3) (n : nat) : Prop :=
  length from = n /\ length to = n /\
  (leverarm_enabled e = true -> exists r, rpy = Some r /\ length r = n) /\
  (time_shift_enabled e = true -> length speed = n).

(** Every vector of the object holds whole epochs. *)
Definition whole_epochs (d : adata) : Prop :=
  forall v, exists m, length (the_vector d v) = (m * num_obs_per_epoch (a_est d))%nat.

(** Consecutive integers from a. *)
Definition consecutive (a : Z) (n : nat) (l : list Z) : Prop :=
  length l = n /\ forall i z, nth_error l i = Some z -> z = (a + Z.of_nat i)%Z.

(** Speed of a pose. *)
Definition pose_speed {Q} (p : pose Q) : R := vnorm (p_speed p).
