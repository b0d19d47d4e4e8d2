(** Vocabulary of the ATE file properties. *)
From Verif Require Import Base EstModel TextModel TextFacts HeaderModel NumpyModel TrajModel TrajSpec GeomModel GeomSpec IoModel IoSpec EvalModel RpeModel RpeSpec.

(** A result with one deviation per pose: what absolute comparisons return *)
Definition complete {Q} (r : ate_result Q) : Prop :=
  consistent (ate_trajectory r) /\
  length (pos_dev r) = length (xyz (ate_trajectory r)) /\
  length (directed_pos_dev r) = length (xyz (ate_trajectory r)) /\
  match rot_dev r with Some q => length q = length (xyz (ate_trajectory r)) | None => True end.

(** Equal up to half a unit of the twelfth decimal; for quaternions, which are normalised again, three times that *)
Definition near12_v3 (a b : V3) : Prop := near12 (vx a) (vx b) /\ near12 (vy a) (vy b) /\ near12 (vz a) (vz b).
Definition near12_quat (a b : V4) : Prop :=
  Rabs (q_x b - q_x a) <= 15 / 10 ^ 13 /\ Rabs (q_y b - q_y a) <= 15 / 10 ^ 13 /\
  Rabs (q_z b - q_z a) <= 15 / 10 ^ 13 /\ Rabs (q_w b - q_w a) <= 15 / 10 ^ 13.
Definition near12_rots {Q} (qops : quat_ops Q) (a b : option (list Q)) : Prop :=
  match a, b with
  | None, None => True
  | Some p, Some q => Forall2 (fun x y => near12_quat (as_quat qops x) (as_quat qops y)) p q
  | _, _ => False
  end.
