(** Vocabulary for small changes of positions. *)
From Verif Require Import Base TrajModel EvalModel.

(** Two lists of numbers that differ by at most [e] anywhere *)
Definition within (e : R) (l m : list R) : Prop := Forall2 (fun a b => Rabs (a - b) <= e) l m.

Section Shaken.
  Context {Q : Type}.
  (** The same times and orientations, every position moved by at most [e]; nothing is said about arc lengths and speeds. *)
  Definition shaken (e : R) (t u : traj Q) : Prop :=
    Forall2 (fun p q => vdist p q <= e) (xyz t) (xyz u) /\ tstamps u = tstamps t /\ rot u = rot t.
End Shaken.

(** The same pose pair: the same distance and rotation drift, and position drifts that differ by at most [e] per distance *)
Definition entry_within (e : R) (a b : pair_entry) : Prop :=
  e_dist b = e_dist a /\ e_rot b = e_rot a /\
  match e_pos a, e_pos b with
  | Some x, Some y => Rabs (x - y) <= e / Rabs (e_dist a)
  | None, None => True
  | _, _ => False
  end.

(** The same outcome, numbers differing by at most [e] *)
Definition opt_within (e : R) (a b : option R) : Prop :=
  match a, b with Some x, Some y => Rabs (x - y) <= e | None, None => True | _, _ => False end.
Definition res_within (e : R) (a b : result R) : Prop :=
  match a, b with Ok x, Ok y => Rabs (x - y) <= e | Err x, Err y => x = y | _, _ => False end.

(** All values an absolute comparison shows for positions, pose by pose and in summary, differ by at most [e]. *)
Definition positions_within {Q} (e : R) (r r' : ate_result Q) : Prop :=
  within e (pos_dev_comb r) (pos_dev_comb r') /\
  opt_within e (pos_ate r) (pos_ate r') /\ opt_within e (pos_dev_rms r) (pos_dev_rms r') /\
  opt_within e (pos_dev_median r) (pos_dev_median r') /\ opt_within e (pos_dev_std r) (pos_dev_std r') /\
  res_within e (pos_dev_max r) (pos_dev_max r') /\ res_within e (pos_dev_min r) (pos_dev_min r') /\
  opt_within e (pos_bias_x r) (pos_bias_x r') /\ opt_within e (pos_bias_y r) (pos_bias_y r') /\ opt_within e (pos_bias_z r) (pos_bias_z r') /\
  opt_within e (pos_rms_x r) (pos_rms_x r') /\ opt_within e (pos_rms_y r) (pos_rms_y r') /\ opt_within e (pos_rms_z r) (pos_rms_z r').
