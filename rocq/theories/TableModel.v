(** The tables of the alignment report: plotting/plotly/tables.py and report/alignment.py. *)
From Verif Require Import Base NumpyModel EvalModel ParamModel DataModel EstModel TextModel.
Local Open Scope string_scope.

(** * Text *)
Definition degree_sign : string := String (ascii_of_nat 176) "".

(** [s.lstrip()], [s.rstrip()], [s.strip()] *)
Fixpoint lstrip (s : string) : string :=
  match s with "" => "" | String c r => if is_space c then lstrip r else s end.
Fixpoint rstrip (s : string) : string :=
  match s with
  | "" => ""
  | String c r => match rstrip r with "" => if is_space c then "" else String c "" | r' => String c r' end
  end.
Definition strip (s : string) : string := rstrip (lstrip s).

(** [f"{s:<n}"]: filled up with spaces on the right *)
Fixpoint spaces (n : nat) : string := match n with 0%nat => "" | S n => String " " (spaces n) end.
Definition ljust (n : nat) (s : string) : string := s ++ spaces (n - String.length s).

(** definitions.py:55-62 [UNIT_FORMAT_RULES]: factor, unit and decimals; the second rule is the first one where there is no "precise" *)
Definition rule_normal (u : unit_kind) : R * string * nat :=
  match u with
  | U_METER => (1, "m", 3%nat)
  | U_RADIAN => (180 / PI, degree_sign, 3%nat)
  | U_DEGREE => (1, degree_sign, 3%nat)
  | U_SECOND => (1000, "ms", 1%nat)
  | U_SCALE => (1, "-", 3%nat)
  | U_NONE => (1, "-", 3%nat)
  end.
Definition rule_precise (u : unit_kind) : R * string * nat :=
  match u with
  | U_METER => (1000, "mm", 1%nat)
  | U_SECOND => (1000, "ms", 1%nat)
  | U_SCALE => (1000000, "ppm", 1%nat)
  | u => rule_normal u
  end.

(** [np.sqrt] of a number: not a number below zero *)
Definition np_sqrt (x : R) : num := if Rltb x 0 then NaN else Fin (sqrt x).
Definition num_scale (f : R) (x : num) : num := match x with Fin r => Fin (r * f) | Inf => Inf | NaN => NaN end.

Section Table.
  (** [format(x, f".{d}f")], without the filling *)
  Context (fixed : nat -> num -> string).

  (** parameters.py:68-71 [Parameter.__str__] *)
  Definition param_str (p : param) : string :=
    let '(f, u, d) := rule_normal (p_unit p) in
    let '(f', u', d') := rule_precise (p_unit p) in
    ljust 16 (p_name p) ++ " = " ++ ljust 8 (fixed d (num_scale f (Fin (p_value p)))) ++ ljust 4 u ++
    "  s-dev.: " ++ ljust 8 (fixed d' (num_scale f' (np_sqrt (p_variance p)))) ++ ljust 4 u'.

  (** parameters.py:217-218 [to_string_list] *)
  Definition to_string_list (s : pset) (enabled_only : bool) : list string :=
    map param_str (filter (fun p => p_enabled p || negb enabled_only)%bool (ps_params s)).
  (** parameters.py:220-225 [to_name_list], 443-444 [params_labels] *)
  Definition to_name_list (s : pset) (enabled_only lower_case : bool) : list string :=
    map (fun p => if lower_case then lower (p_name p) else p_name p) (filter (fun p => p_enabled p || negb enabled_only)%bool (ps_params s)).

  (** tables.py:22-23 [extract_value], 25-26 [extract_std].  A split never gives an empty list. *)
  Definition extract_value (s : string) : result string :=
    match nth_error (split_on "=" s) 1 with
    | None => Err IndexError
    | Some t => match split_on "s" t with v :: _ => Ok (strip v) | [] => Err IndexError end
    end.
  Definition extract_std (s : string) : result string :=
    match rev (split_on ":" s) with v :: _ => Ok (strip v) | [] => Err IndexError end.

  (** tables.py:8-43 [render_alignment_table]: the three columns *)
  Definition alignment_table (s : pset) : result (list string * list string * list string) :=
    let! values := mapM extract_value (to_string_list s true) in
    let! stds := mapM extract_std (to_string_list s true) in
    Ok (to_name_list s true false, values, stds).
End Table.

(** * Correlations *)
Definition num_mul (a b : num) : num :=
  match a, b with
  | Fin x, Fin y => Fin (x * y)
  | NaN, _ | _, NaN => NaN
  | Inf, Fin y => if Reqb y 0 then NaN else Inf
  | Fin x, Inf => if Reqb x 0 then NaN else Inf
  | Inf, Inf => Inf
  end.
Definition num_div (a b : num) : num :=
  match a, b with
  | NaN, _ | _, NaN | Inf, Inf => NaN
  | Inf, Fin _ => Inf
  | Fin _, Inf => Fin 0
  | Fin x, Fin y => if Reqb y 0 then (if Reqb x 0 then NaN else Inf) else Fin (x / y)
  end.

(** A table with labelled rows and columns *)
Record frame := mkFrame { f_index : list string; f_columns : list string; f_at : nat -> nat -> num }.

(** report/alignment.py:23-33 [build_correlation_dataframe]; the covariance matrix of a parameter set is square (pandas raises
    otherwise). *)
Definition correlation_frame (s : pset) (enabled_only : bool) : result frame :=
  let! c := get_covariance s enabled_only in
  let labels := to_name_list s enabled_only true in
  let std i := np_sqrt (m_at c i i) in
  if ((length labels =? m_rows c) && (length labels =? m_cols c))%nat%bool then
    Ok (mkFrame labels labels (fun i j => if (i =? j)%nat then NaN else num_div (Fin (m_at c i j)) (num_mul (std i) (std j))))
  else Err ValueError.
