(** Vocabulary of property C100. *)
From Verif Require Import Base NumpyModel TrajModel TrajSpec EvalModel.

(** The points that should be drawn, in any order: pose [i] at its own abscissa (or position) with its own deviation *)
Definition drawn_right {X} (at_pose : list X) (devs : list R) (points : list (X * R)) : Prop := Permutation points (combine at_pose devs).
