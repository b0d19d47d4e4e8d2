(** Vocabulary of the properties of the cache of lines. *)
From Verif Require Import Base MatchModel ApproxModel CacheModel.

(** A new object does not lie where another one is. *)
Definition free_address (fresh : list nat -> nat) : Prop := forall used, ~ In (fresh used) used.

(** Iterating over a set gives each of its members once. *)
Definition set_iteration (iterate : list string -> list string) : Prop :=
  forall s, NoDup (iterate s) /\ forall x, In x (iterate s) <-> In x s.

(** A process that has not smoothed anything yet *)
Definition started : process := mkProcess [] [].
