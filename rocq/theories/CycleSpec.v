(** Vocabulary of the property about saving and loading repeatedly. *)
From Verif Require Import Base EstModel TextModel HeaderModel NumpyModel TrajModel GeomModel IoModel IoSpec.

(** "%.9f" of a number that was read from such a text gives the same text again. *)
Definition repeatable (T : text_ops) : Prop := forall x y, number T (show9 T x) = Some (Fin y) -> show9 T y = show9 T x.

(** [t'] is what remains of [t] after it was written to a file and read from it [k] times. *)
Fixpoint reloaded {Q} (ops : rot_ops Q) (qops : quat_ops Q) T C loc counted (k : nat) (t t' : traj Q) : Prop :=
  match k with
  | O => t' = t
  | S k => exists text u, to_file qops T "" t = Ok text /\ from_file ops qops T C loc counted text = Ok (Some u) /\
             reloaded ops qops T C loc counted k u t'
  end.

(** Components of two quaternions differ by at most [e]. *)
Definition off_by (e : R) (a b : V4) : Prop :=
  Rabs (q_x b - q_x a) <= e /\ Rabs (q_y b - q_y a) <= e /\ Rabs (q_z b - q_z a) <= e /\ Rabs (q_w b - q_w a) <= e.
