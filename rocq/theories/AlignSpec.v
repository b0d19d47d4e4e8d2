(** Vocabulary of the end-to-end alignment property. *)
From Verif Require Import Base TrajModel TrajSpec EvalModel ParamModel DataModel GeomModel GeomSpec DirectSpec MatchModel AlignModel.

(** Scipy's mean of rotations that are all the same does not raise. *)
Definition mean_agreeing {Q} (ops : rot_ops Q) (mean : list Q -> result Q) : Prop :=
  forall q qs, Forall (fun p => as_matrix ops p = as_matrix ops q) qs -> exists r, mean (q :: qs) = Ok r.

(** [u'] is [u] moved by the similarity p |-> t + s m p; time stamps, arc lengths, speeds and names stay. *)
Definition moved {Q} (t : V3) (m : M3) (s : R) (u u' : traj Q) : Prop :=
  xyz u' = map (similar t m s) (xyz u) /\ same_rest u u' /\ consistent u'.

(** The orientations of [u'] are those of [u], turned by [m]. *)
Definition turned {Q} (ops : rot_ops Q) (m : M3) (u u' : traj Q) : Prop :=
  forall q, rot u = Some q -> exists q', rot u' = Some q' /\ map (as_matrix ops) q' = map (fun r => mmul m (as_matrix ops r)) q.

(** [u'] is [u] with every position moved by the lever arm [l] in the frame of its pose and by [dt] seconds along its speed. *)
Definition levered_traj {Q} (ops : rot_ops Q) (dt : R) (l : V3) (u : traj Q) (q : list Q) : list V3 :=
  map (fun xrv => vadd (fst (fst xrv)) (vadd (mapply (as_matrix ops (snd (fst xrv))) l) (vscale dt (snd xrv))))
      (combine (combine (xyz u) q) (speed u)).

(** No pose is left out before the estimation. *)
Definition no_preprocessing (p : preprocessing) : Prop := min_speed p <= 0 /\ time_start p = 0 /\ time_end p = 0.

(** Thresholds of the settings that the iteration can meet *)
Definition usable_settings (s : align_settings) : Prop :=
  0 <= metric_threshold s /\ 0 <= time_threshold s /\ al_variance_estimation s = false.

(** An absolute trajectory error of nothing but zeros, for [n] > 0 poses *)
Definition zero_error {Q} (n : nat) (r : ate_result Q) : Prop :=
  length (pos_dev r) = n /\ Forall (eq vzero) (pos_dev r) /\ pos_ate r = Some 0 /\ pos_dev_rms r = Some 0 /\ pos_dev_max r = Ok 0.
