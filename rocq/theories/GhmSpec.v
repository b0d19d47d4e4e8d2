(** Vocabulary of the Gauss-Helmert properties. *)
From Verif Require Import Base ParamModel DataModel LsqModel JacSpec GeomModel.

(** All partial derivatives of [m] functions *)
Definition jacobian (f : list R -> list R) (xs : list R) (m : nat) (J : nat -> nat -> R) : Prop :=
  forall r c, (r < m)%nat -> (c < length xs)%nat -> partial f xs r c (J r c).

(** Finite sums *)
Fixpoint sum_to (n : nat) (f : nat -> R) : R := match n with O => 0 | S k => sum_to k f + f k end.

(** The linearised equations: changes of the parameters and of the observations that close the misclosures [w] *)
Definition closes (m : nat) (Jp Jl : nat -> nat -> R) (w dp dv : list R) : Prop :=
  forall r, (r < m)%nat ->
    sum_to (length dp) (fun j => Jp r j * nth j dp 0) + sum_to (length dv) (fun c => Jl r c * nth c dv 0) + nth r w 0 = 0.

(** Changes of the eleven parameters that leave those alone that are not estimated *)
Definition allowed (s : pset) (dp : list R) : Prop :=
  length dp = length (ps_params s) /\ forall j q, nth_error (ps_params s) j = Some q -> p_enabled q = false -> nth j dp 0 = 0.

(** Sum of the squared residuals, each divided by the variance of its observation *)
Fixpoint weighted (var v : list R) : R :=
  match var, v with s :: var', x :: v' => x ^ 2 / s + weighted var' v' | _, _ => 0 end.

(** The same as a scalar product *)
Fixpoint weighted_product (var u v : list R) : R :=
  match var, u, v with s :: var', x :: u', y :: v' => x * y / s + weighted_product var' u' v' | _, _, _ => 0 end.

(** The data of one adjustment: whole epochs, residuals and variances for every observation, and the flags of the
    parameters as the settings demand *)
Record ready (s : pset) (d : adata) (n : nat) : Prop := mkReady {
  rd_params : length (ps_params s) = 11%nat;
  rd_flags : enabled_bool_list s = lq_parameter_filter (a_est d);
  rd_obs : length (a_obs d) = (n * num_obs_per_epoch (a_est d))%nat;
  rd_res : length (a_res d) = length (a_obs d)
}.

(** Only no change at all of the estimated parameters leaves all equations as they are. *)
Definition determined (s : pset) (n : nat) (Jp : nat -> nat -> R) : Prop :=
  forall dp, allowed s dp -> (forall r, (r < 3 * n)%nat -> sum_to (length dp) (fun j => Jp r j * nth j dp 0) = 0) -> dp = repeat 0 (length dp).

(** The same data with all variances multiplied by [c] *)
Definition rescaled (c : R) (d : adata) : adata := with_vector d Var (map (fun x => x * c) (a_var d)).
