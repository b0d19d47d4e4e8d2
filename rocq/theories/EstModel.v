(** The iterative adjustment: alignment/estimation.py.

    The numerical kernels (linearisation, sparse solver, chi-square test) are the fields of [solver], so
    that every theorem holds for all of them; the control flow around them is modelled here. *)
From Verif Require Import Base NumpyModel ParamModel DataModel.

(** A floating point number as the loop sees it: updates may be infinite or not a number (the sign of an
    infinity does not matter, lines 299 and 231 take absolute values). *)
Inductive num := Fin (r : R) | Inf | NaN.

(** [abs(value) > threshold]; every comparison with NaN is False *)
Definition exceeds (d : num) (threshold : R) : bool :=
  match d with Fin r => Rltb threshold (Rabs r) | Inf => true | NaN => false end.

(** estimation.py:299 [any(... for value, threshold in zip(delta_params, self.data.thresholds))] *)
Definition any_exceeds (delta : list num) (ths : list R) : bool :=
  existsb (fun dt => exceeds (fst dt) (snd dt)) (combine delta ths).

(** What the loop calls.  P: parameter sets; L: the matrices a_design, b_cond, bbt of one iteration. *)
Record solver (P L : Type) := mkSolver {
  init_parameters : est_settings -> list R -> result P;       (* 149-209, from settings and observations *)
  default_parameters : P;                                     (* AlignmentParameters() *)
  evaluate : P -> adata -> result (list R);                   (* 523-529 _eval_functional_relationship *)
  linearise : P -> adata -> result L;                         (* 309-315 *)
  deltas : L -> adata -> list R -> result (list num);         (* 339-350 _compute_parameter_deltas *)
  residuals : L -> adata -> list num -> list R -> result (list R);  (* 319-320 *)
  add_deltas : P -> list num -> result P;                     (* 323 values_enabled += delta_params *)
  contradictions : L -> list R -> list R -> result (list R);   (* 324 evaluated - b_cond @ residuals *)
  store_variances : P -> L -> result P;                         (* 332-337 _compute_parameter_variances *)
  variance_factor : P -> adata -> result num;                 (* 276-280 *)
  scale_variances : list R -> num -> list R                   (* 234 var_vector *= variance_factor *)
}.
Arguments init_parameters {P L}.  Arguments default_parameters {P L}.  Arguments evaluate {P L}.
Arguments linearise {P L}.        Arguments deltas {P L}.              Arguments residuals {P L}.
Arguments add_deltas {P L}.       Arguments contradictions {P L}.       Arguments store_variances {P L}.
Arguments variance_factor {P L}.  Arguments scale_variances {P L}.

(** data.py:172-180: assigning the residuals *)
Definition set_res (d : adata) (r : list R) : result adata :=
  if divisible (a_est d) r then Ok (with_vector d Res r) else Err ValueError.

Section Estimation.
  Context {P L : Type} (s : solver P L) (ths : list R).

  (** estimation.py:299-325, the while loop; [left] is max_iterations + 1 - it_counter, [lin] the matrices
      of the last iteration if there was one.  The last component lists the parameter updates made. *)
  Fixpoint iterate (left : nat) (p : P) (d : adata) (w : list R) (delta : list num) (lin : option L)
    : result (P * adata * bool * option L * list (list num)) :=
    if any_exceeds delta ths then
      match left with
      | O => Ok (p, d, false, lin, [])
      | S left' =>
          let! l := linearise s p d in
          let! dl := deltas s l d w in
          let! r := residuals s l d dl w in
          let! d' := set_res d r in
          let! p' := add_deltas s p dl in
          let! f := evaluate s p' d' in
          let! w' := contradictions s l f r in
          let! out := iterate left' p' d' w' dl (Some l) in
          Ok (fst out, dl :: snd out)
      end
    else Ok (p, d, true, lin, []).

  (** estimation.py:282-330 [_estimate_parameters]; len(self._est_params) is 11.  Line 330 uses the matrices
      of the last iteration: UnboundLocalError without one. *)
  Definition adjustment (p : P) (d : adata) : result (P * adata * bool * list (list num)) :=
    let d := with_vector d Res (repeat 0 (length (a_obs d))) in
    let! w := evaluate s p d in
    let! out := iterate 16 p d w (repeat Inf 11) None in
    match out with
    | (p', d', conv, Some l, tr) => let! p'' := store_variances s p' l in Ok (p'', d', conv, tr)
    | (_, _, _, None, _) => Err UnboundLocalError
    end.

  (** [abs(variance_factor - 1) > 1e-3] *)
  Definition off_one (f : num) : bool := match f with Fin r => Rltb (1 / 1000) (Rabs (r - 1)) | Inf => true | NaN => false end.

  (** estimation.py:224-244, the outer loop; [left] is max_recomputations - cnt.  225-226: the global test
      evaluates the variance factor and logs. *)
  Fixpoint recompute (variance_estimation : bool) (left : nat) (p : P) (d : adata) (conv : bool)
    : result (P * adata * bool * list (list (list num))) :=
    match left with
    | O => Ok (p, d, conv, [])
    | S left' =>
        let! out := adjustment p d in
        match out with
        | (p1, d1, conv1, tr) =>
            let! f := variance_factor s p1 d1 in
            if negb variance_estimation then Ok (p1, d1, conv1, [tr])
            else
              let d2 := with_vector d1 Var (scale_variances s (a_var d1) f) in
              if off_one f then
                let! out2 := recompute variance_estimation left' p1 d2 conv1 in
                Ok (fst out2, tr :: snd out2)
              else Ok (p1, d2, conv1, [tr])
        end
    end.

  (** estimation.py:135-141 (the constructor) and 211-250 [estimate_parameters]: returned parameters,
      has_results, and the updates made *)
  Definition estimate (variance_estimation : bool) (d : adata) : result (P * bool * list (list (list num))) :=
    let! p0 := init_parameters s (a_est d) (a_obs d) in
    if all_lq_disabled (a_est d) then Ok (default_parameters s, false, [])
    else
      let! out := recompute variance_estimation 5 p0 d false in
      match out with
      | (p, d', conv, trs) =>
          if negb conv then
            let! p1 := init_parameters s (a_est d') (a_obs d') in Ok (p1, false, trs)
          else Ok (p, true, trs)
      end.
End Estimation.
