(** Vocabulary of the files of alignment results. *)
From Verif Require Import Base EstModel TextModel TextFacts HeaderModel NumpyModel EvalModel ParamModel ParamSpec GeomModel IoModel TornModel StoreModel.
Local Open Scope string_scope.

(** Contract of the number formats: ["%.15f"] and [str] write one word without comma and hash; the first is read as the
    number rounded to 15 decimals, by [fmt]; "0" and "1" are read as 0 and 1. *)
Record format15 (T : text_ops) (show15 show : R -> string) (fmt : R -> R) : Prop := mkFormat15 {
  f15_decimals : decimal_format 15 fmt;
  f15_num : forall x, number T (show15 x) = Some (Fin (fmt x));
  f15_word : forall x, word (show15 x);
  f15_comma : forall x, has_char "," (show15 x) = false;
  f15_hash : forall x, has_char "#" (show15 x) = false;
  f15_str_word : forall x, word (show x);
  f15_str_comma : forall x, has_char "," (show x) = false;
  f15_str_hash : forall x, has_char "#" (show x) = false;
  f15_zero : number T "0" = Some (Fin 0);
  f15_one : number T "1" = Some (Fin 1)
}.

(** [str] of the angles of the sensor rotation is read as the same number: they are floating point numbers. *)
Definition shown_exactly (T : text_ops) (show : R -> string) (r : align_result) : Prop :=
  forall x, In x (values (rotation_parameters r)) -> number T (show x) = Some (Fin x).

(** A result as the package makes them: 11 and 3 parameters, with their default values, and a covariance matrix of that size *)
Definition whole_result (r : align_result) : Prop :=
  ps_len (position_parameters r) = 11%nat /\ square_of 11 (ps_cov (position_parameters r)) /\ ps_len (rotation_parameters r) = 3%nat /\
  standard_defaults default_params (position_parameters r) /\ standard_defaults default_sensor_params (rotation_parameters r).

(** The position parameters [s'] are those of [s] up to half a unit of the fifteenth decimal. *)
Definition near15 (x y : R) : Prop := Rabs (y - x) <= / 2 * / 10 ^ 15.
Definition near_parameters (s s' : pset) : Prop :=
  Forall2 near15 (values s) (values s') /\ enabled_bool_list s' = enabled_bool_list s /\ square_of 11 (ps_cov s') /\
  (forall i j, (i < 11)%nat -> (j < 11)%nat -> near15 (m_at (ps_cov s) i j) (m_at (ps_cov s') i j)).
