(** The running number in the names of parameters, and parameter sets as dictionaries and arrays: alignment/parameters.py. *)
From Verif Require Import Base NumpyModel TrajModel ApproxModel EvalModel ParamModel.

(** parameters.py:47-67 [Parameter.__init__] with the class attribute [_cnt] *)
Definition new_param (cnt : nat) (value variance default : R) (enabled : bool) (name : string) (unit : unit_kind) : nat * param :=
  (S cnt, mkParam value variance default enabled (if String.eqb name "" then "Parameter " ++ show_nat cnt else name)%string unit).

(** What makes parameters: the constructor, and parameters.py:73-94 [__sub__], [__add__], [__neg__] of the i-th and j-th parameter made so far *)
Inductive making :=
| MNew (value variance default : R) (enabled : bool) (name : string) (unit : unit_kind)
| MSub (i j : nat) | MAdd (i j : nat) | MNeg (i : nat).

(** parameters.py:47-94; [None] if there is no such parameter *)
Definition make (cnt : nat) (made : list param) (m : making) : option (nat * param) :=
  match m with
  | MNew v s d e n u => Some (new_param cnt v s d e n u)
  | MSub i j =>
      match nth_error made i, nth_error made j with
      | Some a, Some b => Some (new_param cnt (p_value a - p_value b) (sqrt (p_variance a ^ 2 + p_variance b ^ 2)) 0 true "" U_NONE)
      | _, _ => None
      end
  | MAdd i j =>
      match nth_error made i, nth_error made j with
      | Some a, Some b => Some (new_param cnt (p_value a + p_value b) (sqrt (p_variance a ^ 2 + p_variance b ^ 2)) 0 true "" U_NONE)
      | _, _ => None
      end
  | MNeg i =>
      match nth_error made i with
      | Some a => Some (new_param cnt (- p_value a) (p_variance a) (- p_default a) (p_enabled a) (p_name a) (p_unit a))
      | None => None
      end
  end.

(** A history; a reference to a parameter that does not exist ends it. *)
Fixpoint makes (cnt : nat) (made : list param) (ms : list making) : option (nat * list param) :=
  match ms with
  | [] => Some (cnt, made)
  | m :: ms => match make cnt made m with Some (cnt', p) => makes cnt' (made ++ [p]) ms | None => None end
  end.

(** parameters.py:227-232 [to_dict]: a dict keeps the place of a key and the value given last. *)
Fixpoint put {A} (d : list (string * A)) (k : string) (v : A) : list (string * A) :=
  match d with
  | [] => [(k, v)]
  | (k', v') :: r => if String.eqb k' k then (k', v) :: r else (k', v') :: put r k v
  end.
Definition to_dict (s : pset) (enabled_only : bool) : list (string * (R * R)) :=
  fold_left (fun d p => put d (p_name p) (p_value p, p_variance p))
            (filter (fun p => p_enabled p || negb enabled_only)%bool (ps_params s)) [].

(** parameters.py:437-441 [__add__], [__sub__] of two parameter sets: arrays of their values; arrays of different lengths raise ValueError
    unless one has length one. *)
Definition sum_values (a b : pset) : result (list R) := broadcast Rplus (values a) (values b).
Definition diff_values (a b : pset) : result (list R) := broadcast Rminus (values a) (values b).

(** parameters.py:457-471 [from_settings]: eleven parameters without names, so with running numbers; all three translations follow the
    first switch. *)
Definition numbered_from_settings (cnt : nat) (e : est_settings) : nat * pset :=
  let defs := [(trans_x e, 0); (trans_x e, 0); (trans_x e, 0); (rot_x e, 0); (rot_y e, 0); (rot_z e, 0); (scale e, 1); (time_shift e, 0);
               (lever_x e, 0); (lever_y e, 0); (lever_z e, 0)] in
  let step := fun (st : nat * list param) (d : bool * R) => let (c, p) := new_param (fst st) (snd d) 0 (snd d) (fst d) "" U_NONE in (c, snd st ++ [p]) in
  let (c, ps) := fold_left step defs (cnt, []) in
  (c, mkPset ps (np_zeros 11) true).
