(** Vocabulary of the evaluation properties. *)
From Verif Require Import Base NumpyModel TrajModel TrajSpec GeomModel GeomSpec EvalModel.

(** [t'] is [t] moved by the rigid motion [T]; everything except the poses is the same. *)
Definition moved {Q} (ops : rot_ops Q) (T : M4) (t t' : traj Q) : Prop :=
  same_rest t t' /\ xyz t' = map (fun p => vadd (mapply (lin T) p) (tra T)) (xyz t) /\
  match rot t, rot t' with
  | None, None => True
  | Some q, Some q' => map (as_matrix ops) q' = map (fun r => mmul (lin T) (as_matrix ops r)) q
  | _, _ => False
  end.

(** The motion from pose [P] to pose [P'], seen from [P]. *)
Definition motion (P P' M : M4) : Prop := mul4 P M = P'.

(** [a] is the rotation angle of the rotation matrix [m]. *)
Definition angle_of (m : M3) (a : R) : Prop := 0 <= a <= PI /\ mtrace m = 1 + 2 * cos a.

(** Pose number [i] of a trajectory with orientations, as a matrix. *)
Definition pose_matrix {Q} (ops : rot_ops Q) (t : traj Q) (i : nat) (P : M4) : Prop :=
  exists q p r, rot t = Some q /\ nth_error (xyz t) i = Some p /\ nth_error q i = Some r /\ P = pose4 (as_matrix ops r) p.

(** [j] is the first index at which [ds] is at least [x]. *)
Definition first_at_least (ds : list R) (x : R) (j : nat) : Prop :=
  (exists d, nth_error ds j = Some d /\ x <= d) /\ (forall i d, (i < j)%nat -> nth_error ds i = Some d -> d < x).

(** The last distance. *)
Definition last_distance (ds : list R) (d : R) : Prop := nth_error ds (length ds - 1) = Some d.

(** Sum of squares. *)
Definition sum_sq (v : V3) : R := vx v * vx v + vy v * vy v + vz v * vz v.

(** The reference line used at pose [i] of [n]: from the pose to its successor, at the last pose from
    its predecessor. *)
Definition track_line (ref : list V3) (i : nat) (a b : V3) : Prop :=
  ((S i < length ref)%nat /\ nth_error ref i = Some a /\ nth_error ref (S i) = Some b) \/
  (exists j, i = S j /\ S i = length ref /\ nth_error ref j = Some a /\ nth_error ref i = Some b).

(** [f] is the point of the line through [a] and [b] closest to [p]. *)
Definition foot_point (a b p f : V3) : Prop :=
  (exists s, f = vadd a (vscale s (vsub b a))) /\ (forall s, vdist p f <= vdist p (vadd a (vscale s (vsub b a)))).

(** Signed length of [v] along the direction from [a] to [b]. *)
Definition along (a b v : V3) : R := vdot v (vsub b a) / vdist b a.

(** The point [p] is off the vertical plane through the line, or the line is horizontal. *)
Definition side_defined (a b p : V3) : Prop :=
  (vx p - vx a) * (vy b - vy a) - (vy p - vy a) * (vx b - vx a) <> 0 \/ vz a = vz b.

(** Extremes and middle of a list. *)
Definition is_least (l : list R) (x : R) : Prop := In x l /\ forall y, In y l -> x <= y.
Definition is_greatest (l : list R) (x : R) : Prop := In x l /\ forall y, In y l -> y <= x.
