(** Vocabulary of settings files. *)
From Verif Require Import Base TextModel SettModel SettSpec JsonModel.
Local Open Scope string_scope.

(** Contract of [float.__repr__] and [float] for the floating point numbers: the text is a number with a fraction or an
    exponent, and is read as the same number. *)
Definition float_format (show : R -> string) (float : string -> R) (is_float : R -> Prop) : Prop :=
  forall x, is_float x -> float (show x) = x /\ exists i f e, number_token (show x) = Some (i, f, e, "") /\ (f <> "" \/ e <> "").

(** The names of a dictionary *)
Fixpoint keys (d : kvs) : list string := match d with KNil => [] | KCons k _ r => k :: keys r end.

(** What a JSON document can hold: the numbers with a fraction are floating point numbers, and no dictionary has a name
    twice (as Python dictionaries never do). *)
Fixpoint storable (is_float : R -> Prop) (v : val) : Prop :=
  match v with
  | VNum x => is_float x
  | VDict d => NoDup (keys d) /\ storable_all is_float d
  | VObj _ a => storable_all is_float a
  | _ => True
  end
with storable_all (is_float : R -> Prop) (d : kvs) : Prop :=
  match d with KNil => True | KCons _ v r => storable is_float v /\ storable_all is_float r end.
