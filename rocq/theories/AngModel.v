(** Statistics of orientation deviations: evaluation/ate_result.py:156-158, 197-221 and 266-305, rotationset.py:43-50. *)
From Verif Require Import Base NumpyModel TrajModel GeomModel EvalModel.

(** An array of the deviations: one angle per pose, or three zeros per pose *)
Inductive rot_array := Angles (l : list R) | Rows (l : list V3).
(** The numbers that [np.mean], [np.std], ... of the array go through *)
Definition flatten (a : rot_array) : list R :=
  match a with Angles l => l | Rows l => flat_map (fun v => [vx v; vy v; vz v]) l end.

Section Rotations.
  Context {Q : Type} (ops : rot_ops Q).
  (** scipy's [Rotation.as_rotvec] and [Rotation.mean] *)
  Variable as_rotvec : Q -> V3.
  Variable mean : list Q -> result Q.
  Implicit Types r : ate_result Q.

  (** rotationset.py:43-50 [rotangle] of one rotation *)
  Definition rotangle (q : Q) : R := vnorm (as_rotvec q).

  (** ate_result.py:215-221 [rot_dev_comb] *)
  Definition rot_dev_comb r : rot_array :=
    match rot_dev r with
    | Some d => Angles (map rotangle d)
    | None => Rows (map (fun _ => vzero) (pos_dev r))
    end.
  (** ate_result.py:266-305 *)
  Definition rot_dev_rms r : option R := match rot_dev r with Some _ => rms (flatten (rot_dev_comb r)) | None => Some 0 end.
  Definition rot_dev_std r : option R := np_std (flatten (rot_dev_comb r)).
  Definition rot_ate r : option R := np_mean (flatten (rot_dev_comb r)).
  Definition rot_dev_median r : option R := np_median (flatten (rot_dev_comb r)).
  Definition rot_dev_min r : result R := np_min (flatten (rot_dev_comb r)).
  Definition rot_dev_max r : result R := np_max (flatten (rot_dev_comb r)).

  (** ate_result.py:197-205 [rot_dev_xyz], of which 141-153 are the columns *)
  Definition rot_dev_xyz r : list V3 :=
    match rot_dev r with Some d => map (as_euler ops) d | None => map (fun _ => vzero) (pos_dev r) end.
  (** ate_result.py:156-173 [rot_bias_xyz] and its components *)
  Definition rot_bias_xyz r : result V3 :=
    match rot_dev r with Some d => rmap (as_euler ops) (mean d) | None => Ok vzero end.
End Rotations.
