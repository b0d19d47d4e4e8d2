(** Vocabulary for property C134: operations that leave no pose. *)
From Verif Require Import Base NumpyModel TrajModel TrajSpec EmptyModel.

(** The outcome [r] of an operation on [t], except that a trajectory with orientations is not left without poses: ValueError. *)
Definition refusing {Q} (t : traj Q) (r : result (traj Q)) : result (traj Q) :=
  match r with
  | Ok u => match rot t, xyz u with Some _, [] => Err ValueError | _, _ => Ok u end
  | Err e => Err e
  end.

(** What is left of [t] in place after such a failure: no timestamps and no positions, but all of the rest. *)
Definition torn {Q} (t u : traj Q) : Prop :=
  tstamps u = [] /\ xyz u = [] /\ rot u = rot t /\ arc u = arc t /\ speed u = speed t /\ srt u = srt t /\ name u = name t /\ epsg u = epsg t.

(** Histories of successful calls, as in TrajSpec.v *)
Definition strict_op {Q} (seg : Q -> Q -> R -> Q) (t : traj Q) (o : op) : result (traj Q) :=
  match o with
  | OpIndex ix => strict_index t ix
  | OpCrop a b inv => strict_crop t a b inv
  | OpMatch ts => strict_match t ts
  | OpIntersect ts gap => strict_intersect t ts gap
  | OpInterpolate ts => interpolate seg t ts
  end.
Inductive strict_history {Q} (seg : Q -> Q -> R -> Q) : traj Q -> list op -> traj Q -> Prop :=
| strict_nil t : strict_history seg t [] t
| strict_step t o t1 ops t' : strict_op seg t o = Ok t1 -> (is_interpolate o -> tstamps t1 <> []) -> strict_history seg t1 ops t' -> strict_history seg t (o :: ops) t'.
