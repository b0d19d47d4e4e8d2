(** Vocabulary of the properties of the covariance of the estimated parameters. *)
From Verif Require Import Base LsqModel SolveSpec.

(** Contract of [np.linalg.pinv] for regular matrices: the inverse.  (For other matrices nothing is used.) *)
Definition pinv_contract (pinv : mat -> mat) : Prop :=
  forall n N, regular n N -> square n (pinv N) /\ forall x, length x = n -> mv (pinv N) (mv N x) = x.

(** The misclosures if only observation [c] changes, by one *)
Definition response (m : nat) (Jl : nat -> nat -> R) (c : nat) : vec := map (fun r => Jl r c) (seq 0 m).
