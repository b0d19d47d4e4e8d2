(** Vocabulary of properties C96 and C97. *)
From Verif Require Import Base NumpyModel.

(** The fraction of the values that are below [x], and that are not above [x] *)
Definition fraction_below (l : list R) (x : R) : R := INR (count (fun y => Rltb y x) l) / INR (length l).
Definition fraction_upto (l : list R) (x : R) : R := INR (count (fun y => Rleb y x) l) / INR (length l).
