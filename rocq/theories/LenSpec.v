(** What it means to express the same recording in another unit of length. *)
From Verif Require Import Base NumpyModel TrajModel GeomModel EvalModel MatchModel.

(** The same recording in a unit of which [k] make an old one: positions, arc lengths and speeds are multiplied. *)
Definition enlarge {Q} (k : R) (t : traj Q) : traj Q :=
  mkTraj (tstamps t) (map (vscale k) (xyz t)) (rot t) (map (Rmult k) (arc t)) (map (vscale k) (speed t)) (srt t) (name t) (epsg t).

(** An absolute result in the new unit; rotations do not change *)
Definition enlarged_ate {Q} (k : R) (r : ate_result Q) : ate_result Q :=
  mkAte (ate_name r) (enlarge k (ate_trajectory r)) (map (vscale k) (pos_dev r)) (map (vscale k) (directed_pos_dev r)) (rot_dev r) (rotations_used r).

(** A relative result over distances: drifts of the position are ratios of lengths, drifts of the orientation are per length *)
Definition enlarged_over_length (k : R) (r : rpe_result) : rpe_result :=
  mkRpe (rpe_name r)
    (map (fun b => (k * fst b, map (fun e => mkEntry (e_pos e) (option_map (option_map (fun x => x / k)) (e_rot e)) (k * e_dist e)) (snd b))) (rpe_pairs r))
    (rpe_unit r).
(** A relative result over time: drifts of the position are lengths per time *)
Definition enlarged_over_time (k : R) (r : rpe_result) : rpe_result :=
  mkRpe (rpe_name r) (map (fun b => (fst b, map (fun e => mkEntry (option_map (Rmult k) (e_pos e)) (e_rot e) (e_dist e)) (snd b))) (rpe_pairs r)) (rpe_unit r).

(** A search tree of points that follows a change of the unit *)
Definition scales (query : list V3 -> option R -> nat -> V3 -> list (option (nat * R))) : Prop :=
  forall k ref ub n p, 0 < k ->
    query (map (vscale k) ref) (option_map (Rmult k) ub) n (vscale k p) = map (option_map (fun c => (fst c, k * snd c))) (query ref ub n p).

(** A routine for the principal direction that does not depend on the unit of the points *)
Definition unit_free (eigh : M3 -> V3) : Prop := forall k m, 0 < k -> eigh (mscale (k * k) m) = eigh m.

(** Matching settings in the new unit *)
Definition longer (k : R) (m : matching_settings) : matching_settings := mkMatching (m_method m) (max_time_diff m) (k * max_distance m) (k_nearest m).
