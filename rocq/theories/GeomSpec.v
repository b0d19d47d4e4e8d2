(** Vocabulary for geometry: rotations, elementary rotations, rigid motions and the contract of
    the rotation library. *)
From Verif Require Import Base TrajModel GeomModel.

(** A proper rotation: orthonormal columns and determinant one. *)
Definition is_rot (m : M3) : Prop := mmul (mtrans m) m = mident /\ mdet m = 1.

(** Right-handed rotations about the coordinate axes. *)
Definition Rx (a : R) : M3 := mkM3 (mkV3 1 0 0) (mkV3 0 (cos a) (- sin a)) (mkV3 0 (sin a) (cos a)).
Definition Ry (b : R) : M3 := mkM3 (mkV3 (cos b) 0 (sin b)) (mkV3 0 1 0) (mkV3 (- sin b) 0 (cos b)).
Definition Rz (c : R) : M3 := mkM3 (mkV3 (cos c) (- sin c) 0) (mkV3 (sin c) (cos c) 0) (mkV3 0 0 1).

(** First about x, then about the fixed y, then about the fixed z axis. *)
Definition euler_matrix (e : V3) : M3 := mmul (Rz (vz e)) (mmul (Ry (vy e)) (Rx (vx e))).

(** The rigid motion p |-> m p + v as a 4x4 matrix. *)
Definition rigid (T : M4) : Prop := is_rot (lin T) /\ bot T = vzero /\ cor T = 1.

(** What is assumed of the rotation library: every rotation has a proper rotation matrix,
    [from_matrix] returns the rotation with the given matrix if there is one, "xyz" Euler angles
    are the fixed-axis angles above, [as_euler] returns angles of the same rotation, and product
    and inverse are those of the matrices.  Nothing is assumed of [from_matrix] on matrices that
    are not rotations. *)
Record rot_contract {Q} (ops : rot_ops Q) : Prop := mkRotContract {
  rc_rot : forall q, is_rot (as_matrix ops q);
  rc_from : forall m, is_rot m -> as_matrix ops (from_matrix ops m) = m;
  rc_euler : forall e, as_matrix ops (from_euler ops e) = euler_matrix e;
  rc_as_euler : forall q, as_matrix ops (from_euler ops (as_euler ops q)) = as_matrix ops q;
  rc_mul : forall a b, as_matrix ops (rmul ops a b) = mmul (as_matrix ops a) (as_matrix ops b);
  rc_inv : forall a, as_matrix ops (rinv ops a) = mtrans (as_matrix ops a)
}.

(** Where the alignment model sends a position [x] with speed [v] and attitude matrix [A]: lever
    arm and time shift first, then the similarity. *)
Definition aligned (p : align_params) (x v : V3) (A : M3) : V3 :=
  vadd (sim_trans p)
       (vscale (sim_scale p)
          (mapply (euler_matrix (sim_rot p))
             (vadd x (vadd (mapply A (lever p)) (vscale (time_shift p) v))))).

(** The orientations of two rotation lists agree. *)
Definition same_rotations {Q} (ops : rot_ops Q) (a b : option (list Q)) : Prop :=
  option_map (map (as_matrix ops)) a = option_map (map (as_matrix ops)) b.

(** Two trajectories are the same for every observer that looks at rotations through their matrix. *)
Definition traj_equiv {Q} (ops : rot_ops Q) (t t' : traj Q) : Prop :=
  tstamps t' = tstamps t /\ xyz t' = xyz t /\ same_rotations ops (rot t) (rot t') /\ arc t' = arc t /\
  speed t' = speed t /\ srt t' = srt t /\ name t' = name t /\ epsg t' = epsg t.

(** Everything except positions and rotations is the same. *)
Definition same_rest {Q} (t t' : traj Q) : Prop :=
  tstamps t' = tstamps t /\ arc t' = arc t /\ speed t' = speed t /\ srt t' = srt t /\
  name t' = name t /\ epsg t' = epsg t.

(** The parameters that leave every position where it is (parameters.py:399-435 defaults). *)
Definition default_params : align_params := mkAlign vzero vzero 1 0 vzero.
