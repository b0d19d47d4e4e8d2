(** What it means to read the same recording on another clock: with a new origin and a new unit of time. *)
From Verif Require Import Base NumpyModel TrajModel EvalModel.

(** A time on the new clock; [s] is the number of new units in an old one, [d] the reading at the old origin. *)
Definition on_clock (s d x : R) : R := s * x + d.

(** The same recording on the new clock: times converted, positions, orientations and arc lengths kept, speeds
    expressed per new unit of time. *)
Definition retime {Q} (s d : R) (t : traj Q) : traj Q :=
  mkTraj (map (on_clock s d) (tstamps t)) (xyz t) (rot t) (arc t) (map (vscale (/ s)) (speed t)) (srt t) (name t) (epsg t).

(** The same recording with another origin of time: nothing but the time stamps changes. *)
Definition delayed {Q} (d : R) (t : traj Q) : traj Q := set_tstamps (map (fun x => x + d) (tstamps t)) t.

(** Settings of a relative comparison expressed in the new unit *)
Definition rescaled (s : R) (c : rel_settings) : rel_settings :=
  mkRelSettings (s * pair_min_distance c) (s * pair_max_distance c) (s * pair_distance_step c) (pair_distance_unit c) (use_all_pose_pairs c).

(** A relative result expressed in the new unit: distances times [s], drifts per unit divided by [s] *)
Definition rescaled_entry (s : R) (e : pair_entry) : pair_entry :=
  mkEntry (option_map (fun x => x / s) (e_pos e)) (option_map (option_map (fun x => x / s)) (e_rot e)) (s * e_dist e).
Definition rescaled_rpe (s : R) (r : rpe_result) : rpe_result :=
  mkRpe (rpe_name r) (map (fun b => (s * fst b, map (rescaled_entry s) (snd b))) (rpe_pairs r)) (rpe_unit r).

(** An absolute result whose trajectory is read on the new clock; the deviations are the same *)
Definition retimed_ate {Q} (d : R) (r : ate_result Q) : ate_result Q :=
  mkAte (ate_name r) (delayed d (ate_trajectory r)) (pos_dev r) (directed_pos_dev r) (rot_dev r) (rotations_used r).

Definition both {A B} (f : A -> B) (p : A * A) : B * B := (f (fst p), f (snd p)).

(** A two-dimensional search tree whose answers do not depend on where the points are along the first axis, and follow
    a change of unit of both axes. *)
Definition moves_along (query : list (R * R) -> option R -> nat -> R * R -> list (option (nat * R))) : Prop :=
  forall s d ref ub k p, 0 < s -> (forall r, In r ref -> snd r = 0) -> snd p = 0 ->
    query (map (fun r => (on_clock s d (fst r), snd r)) ref) (option_map (Rmult s) ub) k (on_clock s d (fst p), snd p)
    = map (option_map (fun c => (fst c, s * snd c))) (query ref ub k p).

(** A sorting routine that looks at the order of the keys only *)
Definition comparison_sort (argsort : list R -> list nat) : Prop :=
  forall s d l, 0 < s -> argsort (map (on_clock s d) l) = argsort l.
