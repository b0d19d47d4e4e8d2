(** 3x3 and 4x4 matrices, scipy rotations as an interface with a contract, the observation
    equations of [alignment/equations.py], and the pose-level operations of [trajectory.py]
    that use them. *)
From Verif Require Import Base NumpyModel TrajModel.

(** A 3x3 matrix by its rows. *)
Record M3 := mkM3 { row1 : V3; row2 : V3; row3 : V3 }.

Definition col1 (m : M3) : V3 := mkV3 (vx (row1 m)) (vx (row2 m)) (vx (row3 m)).
Definition col2 (m : M3) : V3 := mkV3 (vy (row1 m)) (vy (row2 m)) (vy (row3 m)).
Definition col3 (m : M3) : V3 := mkV3 (vz (row1 m)) (vz (row2 m)) (vz (row3 m)).

Definition mident : M3 := mkM3 (mkV3 1 0 0) (mkV3 0 1 0) (mkV3 0 0 1).
Definition mtrans (m : M3) : M3 := mkM3 (col1 m) (col2 m) (col3 m).
Definition mapply (m : M3) (v : V3) : V3 := mkV3 (vdot (row1 m) v) (vdot (row2 m) v) (vdot (row3 m) v).
Definition vmul (v : V3) (m : M3) : V3 := mkV3 (vdot v (col1 m)) (vdot v (col2 m)) (vdot v (col3 m)).
Definition mmul (a b : M3) : M3 := mkM3 (vmul (row1 a) b) (vmul (row2 a) b) (vmul (row3 a) b).
Definition mscale (s : R) (m : M3) : M3 := mkM3 (vscale s (row1 m)) (vscale s (row2 m)) (vscale s (row3 m)).
Definition madd (a b : M3) : M3 := mkM3 (vadd (row1 a) (row1 b)) (vadd (row2 a) (row2 b)) (vadd (row3 a) (row3 b)).
(** The matrix a*b^T. *)
Definition outer (a b : V3) : M3 := mkM3 (vscale (vx a) b) (vscale (vy a) b) (vscale (vz a) b).
Definition mtrace (m : M3) : R := vx (row1 m) + vy (row2 m) + vz (row3 m).
Definition vcross (a b : V3) : V3 :=
  mkV3 (vy a * vz b - vz a * vy b) (vz a * vx b - vx a * vz b) (vx a * vy b - vy a * vx b).
Definition mdet (m : M3) : R := vdot (row1 m) (vcross (row2 m) (row3 m)).

(** A 4x4 matrix in blocks: [lin] 3x3, [tra] the last column, [bot] and [cor] the last row. *)
Record M4 := mkM4 { lin : M3; tra : V3; bot : V3; cor : R }.

(** [np.dot] of two 4x4 matrices, in blocks. *)
Definition mul4 (a b : M4) : M4 :=
  mkM4 (madd (mmul (lin a) (lin b)) (outer (tra a) (bot b)))
       (vadd (mapply (lin a) (tra b)) (vscale (cor b) (tra a)))
       (vadd (vmul (bot a) (lin b)) (vscale (cor a) (bot b)))
       (vdot (bot a) (tra b) + cor a * cor b).

Definition ident4 : M4 := mkM4 mident vzero vzero 1.

(** The pose matrix with rotation [m] and position [p]. *)
Definition pose4 (m : M3) (p : V3) : M4 := mkM4 m p vzero 1.

(** scipy.spatial.transform.Rotation (one rotation), seen through its matrix.  Used functions:
    [as_matrix], [from_matrix], [from_euler("xyz")], [as_euler("xyz")], [*], [inv]. *)
Record rot_ops (Q : Type) := mkRotOps {
  as_matrix : Q -> M3;
  from_matrix : M3 -> Q;
  from_euler : V3 -> Q;
  as_euler : Q -> V3;
  rmul : Q -> Q -> Q;
  rinv : Q -> Q
}.
Arguments as_matrix {Q}.  Arguments from_matrix {Q}.  Arguments from_euler {Q}.
Arguments as_euler {Q}.   Arguments rmul {Q}.         Arguments rinv {Q}.

(** equations.py:334-397 [functional_helmert_component_x/y/z] *)
Definition helmert_x (x_from y_from z_from sim_trans_x sim_rot_x sim_rot_y sim_rot_z sim_scale : R) : R :=
  let a := cos sim_rot_y * cos sim_rot_z in
  let b := sin sim_rot_x * sin sim_rot_y * cos sim_rot_z - cos sim_rot_x * sin sim_rot_z in
  let c := cos sim_rot_x * sin sim_rot_y * cos sim_rot_z + sin sim_rot_x * sin sim_rot_z in
  sim_trans_x + sim_scale * (a * x_from + b * y_from + c * z_from).

Definition helmert_y (x_from y_from z_from sim_trans_y sim_rot_x sim_rot_y sim_rot_z sim_scale : R) : R :=
  let d := cos sim_rot_y * sin sim_rot_z in
  let e := sin sim_rot_x * sin sim_rot_y * sin sim_rot_z + cos sim_rot_x * cos sim_rot_z in
  let f := cos sim_rot_x * sin sim_rot_y * sin sim_rot_z - sin sim_rot_x * cos sim_rot_z in
  sim_trans_y + sim_scale * (d * x_from + e * y_from + f * z_from).

Definition helmert_z (x_from y_from z_from sim_trans_z sim_rot_x sim_rot_y sim_scale : R) : R :=
  let g := - sin sim_rot_y in
  let h := sin sim_rot_x * cos sim_rot_y in
  let i := cos sim_rot_x * cos sim_rot_y in
  sim_trans_z + sim_scale * (g * x_from + h * y_from + i * z_from).

(** equations.py:400-465 [functional_leverarm_time_component_x/y/z] *)
Definition leverarm_x (euler_x euler_y euler_z lever_x lever_y lever_z time_shift speed_x : R) : R :=
  let a := cos euler_y * cos euler_z in
  let b := sin euler_x * sin euler_y * cos euler_z - cos euler_x * sin euler_z in
  let c := cos euler_x * sin euler_y * cos euler_z + sin euler_x * sin euler_z in
  a * lever_x + b * lever_y + c * lever_z + time_shift * speed_x.

Definition leverarm_y (euler_x euler_y euler_z lever_x lever_y lever_z time_shift speed_y : R) : R :=
  let d := cos euler_y * sin euler_z in
  let e := sin euler_x * sin euler_y * sin euler_z + cos euler_x * cos euler_z in
  let f := cos euler_x * sin euler_y * sin euler_z - sin euler_x * cos euler_z in
  d * lever_x + e * lever_y + f * lever_z + time_shift * speed_y.

Definition leverarm_z (euler_x euler_y lever_x lever_y lever_z time_shift speed_z : R) : R :=
  let g := - sin euler_y in
  let h := sin euler_x * cos euler_y in
  let i := cos euler_x * cos euler_y in
  g * lever_x + h * lever_y + i * lever_z + time_shift * speed_z.

(** equations.py:158-200 [leverarm_time_component], the three keyword groups as vectors. *)
Definition leverarm_time_component (euler speed : V3) (time_shift : R) (lever : V3) : V3 :=
  mkV3 (leverarm_x (vx euler) (vy euler) (vz euler) (vx lever) (vy lever) (vz lever) time_shift (vx speed))
       (leverarm_y (vx euler) (vy euler) (vz euler) (vx lever) (vy lever) (vz lever) time_shift (vy speed))
       (leverarm_z (vx euler) (vy euler) (vx lever) (vy lever) (vz lever) time_shift (vz speed)).

(** parameters.py:399-435: values of the eleven position parameters (AlignmentParameters), grouped
    as translation, Euler angles, scale, time shift and lever arm. *)
Record align_params := mkAlign {
  sim_trans : V3; sim_rot : V3; sim_scale : R; time_shift : R; lever : V3
}.

(** equations.py:203-332 [transformed_x_from], [transformed_y_from], [transformed_z_from] *)
Definition transformed_from (p : align_params) (from euler speed : V3) : V3 :=
  let lt := leverarm_time_component euler speed (time_shift p) (lever p) in
  let x := vx from + vx lt in
  let y := vy from + vy lt in
  let z := vz from + vz lt in
  mkV3 (helmert_x x y z (vx (sim_trans p)) (vx (sim_rot p)) (vy (sim_rot p)) (vz (sim_rot p)) (sim_scale p))
       (helmert_y x y z (vy (sim_trans p)) (vx (sim_rot p)) (vy (sim_rot p)) (vz (sim_rot p)) (sim_scale p))
       (helmert_z x y z (vz (sim_trans p)) (vx (sim_rot p)) (vy (sim_rot p)) (sim_scale p)).

(** equations.py:12-155 [functional_relationship_x/y/z] *)
Definition functional_relationship (p : align_params) (from to euler speed : V3) : V3 :=
  let tr := transformed_from p from euler speed in
  mkV3 (- vx to + vx tr) (- vy to + vy tr) (- vz to + vz tr).

Section Ops.
  Context {Q : Type} (ops : rot_ops Q).

  (** parameters.py:348-356 [HelmertTransformation.rotation_matrix]; also 611-615
      [SensorRotationParameters.rotation_matrix] *)
  Definition rotation_matrix (angles : V3) : M3 := as_matrix ops (from_euler ops angles).

  (** parameters.py:358-359 [HelmertTransformation.apply_to] for one row *)
  Definition helmert_apply_to (t : V3) (angles : V3) (s : R) (p : V3) : V3 :=
    vadd t (vscale s (mapply (rotation_matrix angles) p)).

  (** parameters.py:376-396 [Leverarm.apply_to] for one row; the length check is in
      [leverarm_apply_all] *)
  Definition leverarm_apply_to (l : V3) (p : V3) (q : Q) : V3 := vadd p (mapply (as_matrix ops q) l).
  Definition leverarm_apply_all (l : V3) (ps : list V3) (qs : list Q) : result (list V3) :=
    if (length ps =? length qs)%nat
    then Ok (map (fun pq => leverarm_apply_to l (fst pq) (snd pq)) (combine ps qs))
    else Err ValueError.

  (** parameters.py:446-455 [AlignmentParameters.sim3_matrix] *)
  Definition sim3_matrix (p : align_params) : M4 :=
    mkM4 (mscale (sim_scale p) (rotation_matrix (sim_rot p))) (sim_trans p) vzero 1.

  (** trajectory.py:339-356 property [se3] ([zip] stops at the shorter list) *)
  Definition se3 (t : traj Q) : list M4 :=
    match xyz t with
    | [] => []
    | _ =>
      let matrices := match rot t with
                      | None => repeat mident (length (xyz t))
                      | Some q => map (as_matrix ops) q
                      end in
      map (fun tm => pose4 (snd tm) (fst tm)) (combine (xyz t) matrices)
    end.

  (** trajectory.py:358-371 setter of [se3] *)
  Definition set_se3 (l : list M4) (t : traj Q) : traj Q :=
    set_rot (Some (map (fun m => from_matrix ops (lin m)) l)) (set_xyz (map tra l) t).

  (** trajectory.py:606-619 [apply_transformation] *)
  Definition apply_transformation (T : M4) (t : traj Q) : traj Q :=
    set_se3 (map (mul4 T) (se3 t)) t.

  (** numpy [a += b] along the rows: [b] has as many rows as [a] or a single one. *)
  Definition iadd (a b : list V3) : result (list V3) :=
    if (length a =? length b)%nat then Ok (map (fun ab => vadd (fst ab) (snd ab)) (combine a b))
    else match b with
         | [v] => Ok (map (fun x => vadd x v) a)
         | _ => Err ValueError
         end.

  (** trajectory.py:621-692 [apply_alignment]: [p] are the position parameters, [sensor] the three
      angles of the rotation parameters of the AlignmentResult.  Line 656 reads the local variable
      [trajectory] before assignment when [inplace] is true. *)
  Definition apply_alignment (p : align_params) (sensor : V3) (inplace : bool) (t : traj Q) : result (traj Q) :=
    if inplace then Err UnboundLocalError
    else
      let v := speed t in
      let! shift :=
        match rot t with
        | Some q =>
            broadcast (fun e s => leverarm_time_component e s (time_shift p) (lever p))
                      (map (as_euler ops) q) v
        | None => Ok (map (fun s => leverarm_time_component vzero s (time_shift p) vzero) v)
        end in
      let! moved := iadd (xyz t) shift in
      let t1 := apply_transformation (sim3_matrix p) (set_xyz moved t) in
      match rot t1 with
      | Some q => Ok (set_rot (Some (map (rmul ops (from_euler ops sensor)) q)) t1)
      | None => Ok t1
      end.

  (** trajectory.py:765-778 [adopt_first_position]: the parameter [trajectory] is overwritten by the
      receiver before it is read; [xyz[0, :]] raises IndexError without positions. *)
  Definition adopt_first_position (self other : traj Q) : result (traj Q) :=
    let trajectory := self in
    let! a := np_get (xyz trajectory) 0 in
    let! b := np_get (xyz trajectory) 0 in
    let position_difference := vsub a b in
    Ok (set_xyz (map (fun x => vadd x position_difference) (xyz trajectory)) trajectory).

  (** trajectory.py:780-797 [adopt_first_orientation] *)
  Definition adopt_first_orientation (self other : traj Q) : result (traj Q) :=
    let trajectory := self in
    match rot self, rot trajectory with
    | Some _, Some q =>
        let rpy_from := map (as_euler ops) q in
        let! a := np_get (map (as_euler ops) q) 0 in
        let! b := np_get rpy_from 0 in
        let rotation_difference := vsub a b in
        Ok (set_rot (Some (map (fun e => from_euler ops (vadd e rotation_difference)) rpy_from)) trajectory)
    | _, _ => Ok trajectory
    end.

  (** trajectory.py:750-763 [adopt_first_pose] *)
  Definition adopt_first_pose (self other : traj Q) : result (traj Q) :=
    let trajectory := self in
    let! t1 := adopt_first_position trajectory trajectory in
    adopt_first_orientation t1 t1.
End Ops.
