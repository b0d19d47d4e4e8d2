(** Vocabulary of properties C98 and C99. *)
From Verif Require Import Base NumpyModel TrajModel GeomModel GeomSpec EvalModel.

(** The matrix of the cross product with [u] *)
Definition cross_matrix (u : V3) : M3 := mkM3 (mkV3 0 (- vz u) (vy u)) (mkV3 (vz u) 0 (- vx u)) (mkV3 (- vy u) (vx u) 0).

(** The rotation about the unit vector [u] by the angle [a] *)
Definition turn (u : V3) (a : R) : M3 :=
  madd (mscale (cos a) mident) (madd (mscale (sin a) (cross_matrix u)) (mscale (1 - cos a) (outer u u))).

(** What scipy says about rotation vectors: codirectional with the axis, their norm is the angle, at most a half turn *)
Definition rotvec_contract {Q} (ops : rot_ops Q) (as_rotvec : Q -> V3) : Prop :=
  forall q, exists u a, vdot u u = 1 /\ 0 <= a <= PI /\ as_rotvec q = vscale a u /\ as_matrix ops q = turn u a.
