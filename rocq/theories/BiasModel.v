(** Biases of an absolute comparison in the directions of the track. *)
From Verif Require Import Base NumpyModel TrajModel EvalModel.

Section Bias.
  Context {Q : Type}.
  Implicit Types r : ate_result Q.

  (** ate_result.py:125-138 [pos_bias_cross_h], [pos_bias_cross_v], [pos_bias_along] *)
  Definition pos_bias_along r : option R := np_mean (map vx (directed_pos_dev r)).
  Definition pos_bias_cross_h r : option R := np_mean (map vy (directed_pos_dev r)).
  Definition pos_bias_cross_v r : option R := np_mean (map vz (directed_pos_dev r)).
End Bias.
