(** Vocabulary for the tables of the alignment report. *)
From Verif Require Import Base NumpyModel EvalModel ParamModel DataModel EstModel TextModel.
Local Open Scope string_scope.

(** A number format writes at least one character and only digits, signs, points and the letters of "inf" and "nan". *)
Definition number_char (c : ascii) : bool :=
  let n := nat_of_ascii c in (((48 <=? n) && (n <=? 57)) || has_char c "-.+infa")%nat%bool.
Fixpoint all_chars (f : ascii -> bool) (s : string) : bool := match s with "" => true | String c r => (f c && all_chars f r)%bool end.
Definition number_format (fixed : nat -> num -> string) : Prop := forall d x, fixed d x <> "" /\ all_chars number_char (fixed d x) = true.

(** [cell] shows the number [x] followed, after any number of spaces, by the unit [u]. *)
Definition shows (cell number unit : string) : Prop := exists gap, all_chars (fun c => Ascii.eqb c " ") gap = true /\ cell = number ++ gap ++ unit.

(** The unit a parameter is shown in, its factor and decimals (values and, in smaller units, standard deviations). *)
Definition value_unit (u : unit_kind) : R * string * nat :=
  match u with
  | U_METER => (1, "m", 3%nat) | U_SECOND => (1000, "ms", 1%nat)
  | U_RADIAN => (180 / PI, String (ascii_of_nat 176) "", 3%nat) | U_DEGREE => (1, String (ascii_of_nat 176) "", 3%nat)
  | U_SCALE | U_NONE => (1, "-", 3%nat)
  end.
Definition deviation_unit (u : unit_kind) : R * string * nat :=
  match u with
  | U_METER => (1000, "mm", 1%nat) | U_SCALE => (1000000, "ppm", 1%nat)
  | u => value_unit u
  end.

(** A symmetric matrix whose quadratic form is never negative, as every covariance matrix. *)
Definition sum_to (n : nat) (f : nat -> R) : R := fold_right Rplus 0 (map f (seq 0 n)).
Definition is_covariance (m : mat) : Prop :=
  m_rows m = m_cols m /\ (forall i j, (i < m_rows m)%nat -> (j < m_rows m)%nat -> m_at m i j = m_at m j i) /\
  forall x, 0 <= sum_to (m_rows m) (fun i => sum_to (m_rows m) (fun j => x i * m_at m i j * x j)).

(** Parameter [i] of [s] is in row [a] of a table of all or of the enabled parameters. *)
Definition shown_row (s : pset) (enabled_only : bool) (a i : nat) : Prop :=
  if enabled_only then nth_error (map p_enabled (ps_params s)) i = Some true /\ a = length (filter p_enabled (firstn i (ps_params s)))
  else a = i /\ (i < length (ps_params s))%nat.
