(** Vocabulary of the report properties. *)
From Verif Require Import Base NumpyModel.

(** Number [i] of the consecutive parts of size [c] of a list (the last one may be shorter) *)
Definition part {A} (c i : nat) (l : list A) : list A := firstn c (skipn (i * c) l).
(** [c] is the smallest size for which at most [m] parts cover [n] values. *)
Definition chunk_size (n m c : nat) : Prop := (n <= c * m)%nat /\ forall c', (n <= c' * m)%nat -> (c <= c')%nat.
(** Arithmetic mean *)
Definition average (l : list R) (x : R) : Prop := l <> [] /\ x * INR (length l) = fold_right Rplus 0 l.
(** The values of a list that are numbers and not zero *)
Definition visible (l : list (option R)) : list R :=
  flat_map (fun x => match x with Some v => if Req_EM_T v 0 then [] else [v] | None => [] end) l.
