(** scipy's [Rotation.from_matrix] for matrices that are not rotations, as trajectory.py:359-371 [se3.setter] calls it after a
    transformation with a scale.  This is library code (scipy 1.13.1, which poetry.lock pins): "if the input is not proper
    orthogonal, an approximation is created using the method described in" Markley, Unit quaternion from rotation matrix (2008). *)
From Verif Require Import Base NumpyModel TrajModel GeomModel IoModel.

(** [_argmax4]: the first of the largest *)
Definition largest (a b c d : R) : nat :=
  if Rleb b a && Rleb c a && Rleb d a then 0%nat else if Rleb c b && Rleb d b then 1%nat else if Rleb d c then 2%nat else 3%nat.

(** The quaternion (x, y, z, w) before it is normalised *)
Definition markley (m : M3) : V4 :=
  let m00 := vx (row1 m) in let m01 := vy (row1 m) in let m02 := vz (row1 m) in
  let m10 := vx (row2 m) in let m11 := vy (row2 m) in let m12 := vz (row2 m) in
  let m20 := vx (row3 m) in let m21 := vy (row3 m) in let m22 := vz (row3 m) in
  let trace := m00 + m11 + m22 in
  match largest m00 m11 m22 trace with
  | 0%nat => mkV4 (1 - trace + 2 * m00) (m10 + m01) (m20 + m02) (m21 - m12)
  | 1%nat => mkV4 (m01 + m10) (1 - trace + 2 * m11) (m21 + m12) (m02 - m20)
  | 2%nat => mkV4 (m02 + m20) (m12 + m21) (1 - trace + 2 * m22) (m10 - m01)
  | _ => mkV4 (m21 - m12) (m02 - m20) (m10 - m01) (1 + trace)
  end.
