(** Vocabulary of C167: parts of a list in the same order. *)
From Verif Require Import Base.

Inductive part {A} : list A -> list A -> Prop :=
| part_nil : part [] []
| part_take a l l' : part l l' -> part (a :: l) (a :: l')
| part_leave a l l' : part l l' -> part l (a :: l').
