(** Vocabulary of C165: the argument of an approximation on another clock. *)
From Verif Require Import Base LsqModel ApproxModel ClockSpec.

(** The same approximation with the nodes of its intervals on another clock *)
Definition nodes_moved (d : R) (ap : cubic) : cubic := mkApprox (parameters ap) (est_obs ap) (residuals ap) (map (fun x => x + d) (interval_steps ap)).
