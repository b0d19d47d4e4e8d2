(** Vocabulary for interrupted writing of result files. *)
From Verif Require Import Base EstModel TextModel HeaderModel NumpyModel TrajModel GeomModel IoModel EvalModel RpeModel RpeSpec AteModel AteSpec.

(** Lists of the same length whose elements are related, apart from the last ones *)
Definition all_but_last {A B} (P : A -> B -> Prop) (l : list A) (l' : list B) : Prop :=
  length l' = length l /\ forall i x y, nth_error l i = Some x -> nth_error l' i = Some y -> P x y \/ S i = length l.
Definition near_but_last : list R -> list R -> Prop := all_but_last near12.

(** [b] holds the first pairs of the block [a], up to the written precision.  The last value of the last column can be
    another one: the last drift of the orientation, or of the position if there are no orientations. *)
Definition first_pairs (a b : block) : Prop :=
  exists m, (m <= length (b_dist a))%nat /\
    Forall2 near12 (firstn m (b_dist a)) (b_dist b) /\
    near_but_last (firstn m (b_pos a)) (b_pos b) /\
    (b_rot a <> [] -> Forall2 near12 (firstn m (b_pos a)) (b_pos b)) /\
    near_but_last (firstn m (b_rot a)) (b_rot b).

(** The first [k] poses and deviations of an absolute result *)
Definition first_rows {Q} (k : nat) (r : ate_result Q) : ate_result Q :=
  let t := ate_trajectory r in
  mkAte (ate_name r)
    (mkTraj (firstn k (tstamps t)) (firstn k (xyz t)) (option_map (firstn k) (rot t)) (firstn k (arc t)) (firstn k (speed t)) (srt t) (name t) (epsg t))
    (firstn k (pos_dev r)) (firstn k (directed_pos_dev r)) (option_map (firstn k) (rot_dev r)) (rotations_used r).

(** [r'] holds the first poses and deviations of [r], up to the written precision.  The last value of the last column can be
    another one: of the last rotation deviation, or of the last directed deviation if there are no rotation deviations. *)
Definition first_deviations {Q} (qops : quat_ops Q) (r r' : ate_result Q) : Prop :=
  let t := ate_trajectory r in let t' := ate_trajectory r' in
  exists m, (m <= length (xyz t))%nat /\
    Forall2 near12 (firstn m (tstamps t)) (tstamps t') /\ Forall2 near12 (firstn m (arc t)) (arc t') /\
    Forall2 near12_v3 (firstn m (xyz t)) (xyz t') /\ Forall2 near12_v3 (firstn m (pos_dev r)) (pos_dev r') /\
    all_but_last near12_v3 (firstn m (directed_pos_dev r)) (directed_pos_dev r') /\
    (rot_dev r <> None -> Forall2 near12_v3 (firstn m (directed_pos_dev r)) (directed_pos_dev r')) /\
    (m <> 0%nat -> near12_rots qops (option_map (firstn m) (rot t)) (rot t')) /\
    (m <> 0%nat -> match rot_dev r, rot_dev r' with
                   | None, None => True
                   | Some q, Some q' => all_but_last (fun x y => near12_quat (as_quat qops x) (as_quat qops y)) (firstn m q) q'
                   | _, _ => False
                   end).
