(** The standard deviations of the groups of observations and the test of the adjustment. *)
From Verif Require Import Base NumpyModel TrajModel EvalModel ParamModel DataModel EstModel.

(** [np.mean(np.sqrt(values))]: not a number without values or with a negative one *)
Definition mean_of_roots (l : list R) : num :=
  if existsb (fun x => Rltb x 0) l then NaN
  else match np_mean (map sqrt l) with Some m => Fin m | None => NaN end.

(** alignment/data.py:339-342 [group_stds]: the dictionary as a list; all columns of a group count alike *)
Definition group_stds (d : adata) : result (list (group * num)) :=
  mapM (fun g => let! cols := get_group d Var g in Ok (g, mean_of_roots (concat cols))) (variance_groups (a_est d)).

(** alignment/estimation.py:352-365 [_global_test].  [ppf] is scipy's chi2.ppf, None where it is not a number; comparisons with
    something that is not a number fail.  An infinite variance factor exceeds every quantile. *)
Definition global_test (ppf : R -> Z -> option R) (error_probability : R) (variance_factor : num) (redundancy : Z) : bool :=
  match variance_factor, ppf (1 - error_probability) redundancy with
  | Fin f, Some q => Rleb (f * IZR redundancy) q
  | _, _ => false
  end.
