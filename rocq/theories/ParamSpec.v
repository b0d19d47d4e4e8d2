(** Vocabulary of the parameter and settings properties. *)
From Verif Require Import Base NumpyModel EvalModel ParamModel.

(** The flags of the settings, parameter by parameter: a parameter is estimated if it is switched on;
    the time shift additionally needs a speed axis. *)
Definition requested (e : est_settings) : list bool :=
  [ trans_x e; trans_y e; trans_z e; rot_x e; rot_y e; rot_z e; scale e;
    (time_shift e && (use_x_speed e || use_y_speed e || use_z_speed e))%bool;
    lever_x e; lever_y e; lever_z e ].

Definition count_true (l : list bool) : nat := count (fun b => b) l.

(** The elements of [l] at the positions where the mask is true. *)
Fixpoint select {A} (m : list bool) (l : list A) : list A :=
  match m, l with
  | true :: m', a :: l' => a :: select m' l'
  | false :: m', _ :: l' => select m' l'
  | _, _ => []
  end.

(** Same parameter apart from its stored value. *)
Definition same_but_value (p p' : param) : Prop :=
  p_stored_var p' = p_stored_var p /\ p_default p' = p_default p /\ p_enabled p' = p_enabled p /\
  p_name p' = p_name p /\ p_unit p' = p_unit p.

(** Entries agree inside a shape of n x n. *)
Definition square_of (n : nat) (m : mat) : Prop := m_rows m = n /\ m_cols m = n.
Definition mat_eq (a b : mat) : Prop :=
  m_rows a = m_rows b /\ m_cols a = m_cols b /\
  forall i j, (i < m_rows a)%nat -> (j < m_cols a)%nat -> m_at a i j = m_at b i j.

(** Position [i] is the [a]-th position where the mask is true. *)
Definition nth_true (m : list bool) (a i : nat) : Prop :=
  nth_error m i = Some true /\ count_true (firstn i m) = a.

(** Writing with [d] decimals and reading back. *)
Definition decimal_format (d : nat) (fmt : R -> R) : Prop :=
  (forall x, Rabs (fmt x - x) <= / 2 * / (10 ^ d)) /\ (forall z : Z, fmt (IZR z * / 10 ^ d) = IZR z * / 10 ^ d).

(** ** Histories of calls *)
(** The covariance matrix has a row and a column per parameter. *)
Definition well_shaped (s : pset) : Prop := square_of (ps_len s) (ps_cov s).

(** Calls that give a covariance matrix of an admissible size; [P] restricts the calls further. *)
Definition admissible (s : pset) (c : call) : Prop :=
  match c with
  | CallCovariance m => square_of (ps_len s) m \/ square_of (num_enabled s) m
  | _ => True
  end.
Fixpoint history (P : pset -> call -> Prop) (s : pset) (cs : list call) : Prop :=
  match cs with
  | [] => True
  | c :: r => P s c /\ history P (run_call s c) r
  end.

(** The reported variance of every enabled parameter is the diagonal entry of the covariance matrix. *)
Definition variances_agree (s : pset) : Prop :=
  forall i v, nth_error (enabled_bool_list s) i = Some true -> nth_error (variances s) i = Some v ->
  m_at (ps_cov s) i i = v.

(** No call of the history switches a parameter on. *)
Definition turns_nothing_on (s : pset) (c : call) : Prop :=
  forall i, nth_error (enabled_bool_list s) i = Some false -> nth_error (enabled_bool_list (run_call s c)) i = Some false.

(** Every covariance matrix given is one for all parameters. *)
Definition full_matrices (s : pset) (c : call) : Prop :=
  match c with CallCovariance m => square_of (ps_len s) m | _ => True end.

(** The defaults of the parameters that are switched off are those of a new set. *)
Definition standard_defaults (std : list param) (s : pset) : Prop :=
  forall i p q, nth_error (ps_params s) i = Some p -> nth_error std i = Some q ->
  p_enabled p = false -> p_default p = p_default q.
