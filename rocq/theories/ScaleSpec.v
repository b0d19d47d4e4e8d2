(** Vocabulary of property C95. *)
From Verif Require Import Base TrajModel GeomModel IoModel IoSpec EqSpec ScaleModel.

(** A quaternion made a unit quaternion *)
Definition qunit (q : V4) : V4 := qscale (/ qnorm q) q.

(** Making rotations from matrices as scipy does *)
Definition scipy_from_matrix {Q} (ops : rot_ops Q) : Prop :=
  forall m, as_matrix ops (from_matrix ops m) = quat_matrix (qunit (markley m)).

(** The identity and the half turns about the coordinate axes, among rotations *)
Definition diagonal (m : M3) : Prop :=
  vy (row1 m) = 0 /\ vz (row1 m) = 0 /\ vx (row2 m) = 0 /\ vz (row2 m) = 0 /\ vx (row3 m) = 0 /\ vy (row3 m) = 0.
