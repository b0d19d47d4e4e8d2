(** Vocabulary of the RPE file properties. *)
From Verif Require Import Base EstModel TextModel TextFacts HeaderModel NumpyModel EvalModel RpeModel.
Local Open Scope string_scope.

(** Contract of "%.12f": one word without comma and hash that is read as a number at most half a unit of the last digit
    away.  Integers are written without comma. *)
Record format12 (T : text_ops) (show12 : R -> string) : Prop := mkFormat12 {
  f12_num : forall x, exists y, number T (show12 x) = Some (Fin y) /\ Rabs (y - x) <= 5 / 10 ^ 13;
  f12_word : forall x, word (show12 x);
  f12_comma : forall x, has_char "," (show12 x) = false;
  f12_hash : forall x, has_char "#" (show12 x) = false;
  f12_int_comma : forall z, has_char "," (show_int T z) = false
}.

(** Lists of matching length: every pair has a distance and a position deviation, and either every pair of the result has a
    rotation deviation or none. *)
Definition matching (r : rpe) : Prop :=
  Forall (fun b => length (b_pos b) = length (b_dist b)) (blocks r) /\
  (Forall (fun b => length (b_rot b) = length (b_dist b)) (blocks r) \/ Forall (fun b => b_rot b = []) (blocks r)).

(** The blocks that have pairs *)
Definition used_blocks (r : rpe) : list block := filter (fun b => filled (b_dist b)) (blocks r).

(** Equal up to half a unit of the twelfth decimal *)
Definition near12 (x y : R) : Prop := Rabs (y - x) <= 5 / 10 ^ 13.
Definition near_block (a b : block) : Prop :=
  Forall2 near12 (b_dist a) (b_dist b) /\ Forall2 near12 (b_pos a) (b_pos b) /\ Forall2 near12 (b_rot a) (b_rot b).

(** Mean pair distance of a block *)
Definition mean_distance (b : block) : R := np_sum (b_dist b) / INR (length (b_dist b)).

(** The mean distances of different used blocks differ by more than the rounding of the file. *)
Definition separated (l : list block) : Prop :=
  forall i j a b, nth_error l i = Some a -> nth_error l j = Some b -> i <> j ->
  Rabs (mean_distance a - mean_distance b) > 1 / 10 ^ 12.
