(** Linear systems that a solver has to solve. *)
From Verif Require Import Base LsqModel.

(** A square matrix that sends no vector but zero to zero *)
Definition square (n : nat) (N : mat) : Prop := length N = n /\ Forall (fun r => length r = n) N.
Definition regular (n : nat) (N : mat) : Prop :=
  square n N /\ forall x, length x = n -> mv N x = repeat 0 n -> x = repeat 0 n.

(** Second part of the contract of a linear solver: it does not fail for regular matrices.  (The first part, [solve_contract],
    says that what it returns solves the system.) *)
Definition solve_complete (solve : mat -> vec -> result vec) : Prop :=
  forall n N b, regular n N -> length b = n -> exists x, solve N b = Ok x.
