(** Vocabulary of the comparison properties. *)
From Verif Require Import Base TrajModel TrajSpec ParamModel HeaderModel GeomModel IoModel RpeModel RpeSpec.

(** Numbers that numpy's default tolerances do not tell apart.  The allowance depends on the second number. *)
Definition close (a b : R) : Prop := Rabs (a - b) <= / 10 ^ 8 + / 10 ^ 5 * Rabs b.
Definition close3 (a b : V3) : Prop := close (vx a) (vx b) /\ close (vy a) (vy b) /\ close (vz a) (vz b).
Definition close4 (a b : V4) : Prop :=
  close (q_x a) (q_x b) /\ close (q_y a) (q_y b) /\ close (q_z a) (q_z b) /\ close (q_w a) (q_w b).

(** Two poses agree within these tolerances; orientations are compared by the components of their quaternions. *)
Definition close_pose {Q} (quat : Q -> V4) (p q : pose Q) : Prop :=
  close (p_t p) (p_t q) /\ close3 (p_xyz p) (p_xyz q) /\ close (p_arc p) (p_arc q) /\ close3 (p_speed p) (p_speed q) /\
  match p_rot p, p_rot q with
  | Some a, Some b => close4 (quat a) (quat b)
  | None, None => True
  | _, _ => False
  end.

(** The same trajectory with every time stamp moved by [d] seconds. *)
Definition delayed {Q} (d : R) (t : traj Q) : traj Q := set_tstamps (map (fun x => x + d) (tstamps t)) t.

(** The rotation matrix that a unit quaternion stands for. *)
Definition quat_matrix (q : V4) : M3 :=
  mkM3 (mkV3 (1 - 2 * (q_y q * q_y q + q_z q * q_z q)) (2 * (q_x q * q_y q - q_z q * q_w q)) (2 * (q_x q * q_z q + q_y q * q_w q)))
       (mkV3 (2 * (q_x q * q_y q + q_z q * q_w q)) (1 - 2 * (q_x q * q_x q + q_z q * q_z q)) (2 * (q_y q * q_z q - q_x q * q_w q)))
       (mkV3 (2 * (q_x q * q_z q - q_y q * q_w q)) (2 * (q_y q * q_z q + q_x q * q_w q)) (1 - 2 * (q_x q * q_x q + q_y q * q_y q))).

(** Parameter sets as the library creates them: [n] parameters and an n x n covariance matrix. *)
Definition shaped (n : nat) (s : pset) : Prop :=
  length (ps_params s) = n /\ m_rows (ps_cov s) = n /\ m_cols (ps_cov s) = n.

(** What two equal alignment results have in common. *)
Definition same_result (a b : align_result) : Prop :=
  (forall i x y, nth_error (values (position_parameters a)) i = Some x -> nth_error (values (position_parameters b)) i = Some y -> close x y) /\
  (forall i j, (i < 11)%nat -> (j < 11)%nat -> close (m_at (ps_cov (position_parameters a)) i j) (m_at (ps_cov (position_parameters b)) i j)) /\
  (forall i x y, nth_error (values (rotation_parameters a)) i = Some x -> nth_error (values (rotation_parameters b)) i = Some y -> close x y) /\
  estimation_of a = estimation_of b.

(** An RPE result without its orientation deviations. *)
Definition without_rotations (r : rpe) : rpe :=
  mkRpeResult (r_name r) (map (fun kb => (fst kb, mkBlock (b_dist (snd kb)) (b_pos (snd kb)) [])) (r_blocks r)) (r_unit r).

(** Some pair of poses was compared. *)
Definition compared (r : rpe) : Prop := exists b, In b (blocks r) /\ b_pos b <> [].

(** The average of a list. *)
Definition average (l : list R) : R := fold_right Rplus 0 l / INR (length l).

(** The line of the summary for the pairs of one distance: the average distance, and the average position drift in
    percent or meters per second (orientation drift in degrees per 100 m or per second). *)
Definition drift_line (show : R -> string) (r : rpe) (b : block) : string * string :=
  match r_unit r with
  | METER => ("Average position drift at " ++ show (average (b_dist b)) ++ " (avg) m", show (average (b_pos b) * 100) ++ " %")
  | _ => ("Average position drift at " ++ show (average (b_dist b)) ++ " (avg) s", show (average (b_pos b) * 1) ++ " m/s")
  end%string.
Definition rotation_line (show : R -> string) (r : rpe) (b : block) : string * string :=
  match r_unit r with
  | METER => ("Average rotation drift at " ++ show (average (b_dist b)) ++ " (avg) m", show (average (b_rot b) * 100 * 180 / PI) ++ " deg/100m")
  | _ => ("Average rotation drift at " ++ show (average (b_dist b)) ++ " (avg) s", show (average (b_rot b) * 1 * 180 / PI) ++ " deg/s")
  end%string.

(** Different distances are displayed differently. *)
Definition displayed_apart (show : R -> string) (r : rpe) : Prop :=
  NoDup (map (fun b => show (average (b_dist b))) (used_blocks r)).
