(** The groups of the alignment parameters: alignment/parameters.py:330-346, 360-375 and 489-503. *)
From Verif Require Import Base NumpyModel GeomModel EvalModel ParamModel.

(** The parameter objects of [s] from position [lo] on, [n] of them *)
Definition part (lo n : nat) (s : pset) : list param := firstn n (skipn lo (ps_params s)).

(** parameters.py:489-499 [helmert] and 501-503 [leverarm]: a new parameter set around the same parameter objects.  No covariance matrix is passed. *)
Definition group (lo n : nat) (s : pset) : result pset := post_init (part lo n s) (mkMat 0 0 (fun _ _ => 0)).
Definition helmert (s : pset) : result pset := group 0 7 s.
Definition leverarm (s : pset) : result pset := group 8 3 s.

(** What [s] looks like after a change of the parameter objects of the group [v] *)
Definition shared (lo n : nat) (s v : pset) : pset :=
  ps_set_params s (firstn lo (ps_params s) ++ ps_params v ++ skipn (lo + n) (ps_params s)).

(** A call on the group that the property returns, for example [s.helmert.disable()]: the alignment parameters afterwards *)
Definition through (lo n : nat) (s : pset) (c : call) : result pset :=
  let! v := group lo n s in Ok (shared lo n s (run_call v c)).
Definition through_helmert (s : pset) (c : call) : result pset := through 0 7 s c.
Definition through_leverarm (s : pset) (c : call) : result pset := through 8 3 s c.

(** parameters.py:330-332, 340-342: properties [translation], [rotation] of the group, and the scale *)
Definition three (l : list R) : V3 := mkV3 (nth 0 l 0) (nth 1 l 0) (nth 2 l 0).
Definition translation (v : pset) : V3 := three (values v).
Definition rotation (v : pset) : V3 := three (skipn 3 (values v)).
Definition scale_value (v : pset) : R := nth 6 (values v) 0.
(** parameters.py:334-338, 344-348: their setters *)
Definition assign (lo : nat) (t : V3) (v : pset) : pset :=
  match skipn lo (ps_params v) with
  | a :: b :: c :: r => ps_set_params v (firstn lo (ps_params v) ++ p_set_value (vx t) a :: p_set_value (vy t) b :: p_set_value (vz t) c :: r)
  | _ => v
  end.
Definition set_translation (s : pset) (t : V3) : result pset := let! v := helmert s in Ok (shared 0 7 s (assign 0 t v)).
Definition set_rotation (s : pset) (t : V3) : result pset := let! v := helmert s in Ok (shared 0 7 s (assign 3 t v)).

(** parameters.py:358-359, 376-396 [apply_to] of the groups *)
Definition similarity {Q} (ops : rot_ops Q) (v : pset) (p : V3) : V3 := helmert_apply_to ops (translation v) (rotation v) (scale_value v) p.
Definition lever_apply {Q} (ops : rot_ops Q) (v : pset) (ps : list V3) (qs : list Q) : result (list V3) := leverarm_apply_all ops (three (values v)) ps qs.
