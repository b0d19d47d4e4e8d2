(** Summary values of a trajectory: trajectory.py, beside [total_length] in TrajModel. *)
From Verif Require Import Base NumpyModel TrajModel EstModel EvalModel.

(** trajectory.py:374-378 [data_rate]: [1 / np.mean(np.diff(np.sort(self.tstamps)))].  The mean of nothing is nan, and numpy's 1 / 0.0
    is inf (with a warning); the mean is never negative. *)
Definition data_rate {Q} (t : traj Q) : num :=
  match np_mean (np_diff (np_sort (tstamps t))) with
  | None => NaN
  | Some m => if Reqb m 0 then Inf else Fin (1 / m)
  end.

(** trajectory.py:400-406 [speed]: the norms of [speed_3d], which is never None after construction. *)
Definition speeds {Q} (t : traj Q) : list R := map vnorm (speed t).
