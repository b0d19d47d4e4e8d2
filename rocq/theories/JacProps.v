(** Properties of the linearisation used by the adjustment: C80 and C81. *)
From Coq Require Import Ranalysis1.
From Coquelicot Require Derive.
From Verif Require Import Base NumpyModel TrajModel ParamModel DataModel LsqModel GeomModel GeomSpec JacModel JacSpec JacFacts JacFacts2.

(** The contract of the automatic differentiation can be met. *)
Definition derive_egrad (f : list R -> R) (k : nat) (xs : list R) : R := Derive.Derive (fun t => f (replace_nth k t xs)) (nth k xs 0).
Lemma derive_egrad_contract : egrad_contract derive_egrad.
Proof. intros f k xs d _ D. apply Derive.is_derive_unique, Derive.is_derive_Reals, D. Qed.

(** ** C80: the equations and their derivatives with respect to the parameters *)
(** The evaluated equations are the differences aligned source minus target, epoch by epoch. *)
Theorem C80_misclosures : forall e p vector n, length vector = (n * num_obs_per_epoch e)%nat ->
  eval_functional_relationship p (est_epochs e vector) = misclosures e p n vector.
Proof. exact eval_misclosures. Qed.
Print Assumptions C80_misclosures.

(** The design matrix has three rows per epoch and eleven columns. *)
Theorem C80_shape : forall egrad e p vector n, length vector = (n * num_obs_per_epoch e)%nat ->
  length (design_matrix egrad p (est_epochs e vector)) = (3 * n)%nat /\
  Forall (fun row => length row = 11%nat) (design_matrix egrad p (est_epochs e vector)).
Proof. exact design_shape. Qed.
Print Assumptions C80_shape.

(** Its entries are the partial derivatives of the misclosures with respect to the parameters. *)
Theorem C80_design : forall egrad e p vector n r j, egrad_contract egrad ->
  length vector = (n * num_obs_per_epoch e)%nat -> (r < 3 * n)%nat -> (j < 11)%nat ->
  partial (fun q => misclosures e (params_of q) n vector) (params_list p) r j
    (nth j (nth r (design_matrix egrad p (est_epochs e vector)) []) 0).
Proof. exact design_partial. Qed.
Print Assumptions C80_design.

(** ** C81: the derivatives with respect to the observations *)
Theorem C81_condition : forall egrad e p vector n r c, egrad_contract egrad ->
  length vector = (n * num_obs_per_epoch e)%nat -> (r < 3 * n)%nat -> (c < length vector)%nat ->
  partial (misclosures e p n) vector r c (sparse_entry (condition_matrix egrad p e (est_epochs e vector)) r c).
Proof. exact condition_partial. Qed.
Print Assumptions C81_condition.

(** No entry lies outside of the 3n rows and the columns of the observations. *)
Theorem C81_inside : forall egrad e p vector n, length vector = (n * num_obs_per_epoch e)%nat ->
  Forall (fun t => (fst t < 3 * n)%nat /\ (fst (snd t) < length vector)%nat)
    (condition_matrix egrad p e (est_epochs e vector)).
Proof. exact condition_inside. Qed.
Print Assumptions C81_inside.

(** ** Cases *)
Definition all_on : est_settings := from_components true true true false false.
Definition two_epochs : list R :=
  [1; 2; 3; 4; 5; 6; 0; 0; 0; 7; 8; 9;   2; 4; 8; 1; 3; 5; 0; 0; 0; 1; 1; 2].
Definition unmoved : align_params := mkAlign (mkV3 0 0 0) (mkV3 0 0 0) 1 0 (mkV3 0 0 0).

Example C80_case_length : length two_epochs = (2 * num_obs_per_epoch all_on)%nat.
Proof. reflexivity. Qed.

(** The second row belongs to y of the first epoch: its misclosure is 2 - 5, a larger scale adds y = 2 to it and a time
    shift the speed 8. *)
Example C80_case : exists egrad, egrad_contract egrad /\
  nth 1 (eval_functional_relationship unmoved (est_epochs all_on two_epochs)) 0 = -3 /\
  nth 6 (nth 1 (design_matrix egrad unmoved (est_epochs all_on two_epochs)) []) 0 = 2 /\
  nth 7 (nth 1 (design_matrix egrad unmoved (est_epochs all_on two_epochs)) []) 0 = 8.
Proof.
  exists derive_egrad. assert (C := derive_egrad_contract). split; [exact C|].
  assert (L : length two_epochs = (2 * num_obs_per_epoch all_on)%nat) by reflexivity.
  split; [|split].
  - rewrite (eval_misclosures all_on unmoved two_epochs 2 L). etransitivity; [apply (misclosures_nth all_on unmoved 2 two_epochs 0 1); lia|].
    rewrite fr_misclosed. cbn. unfold helmert_y, leverarm_x, leverarm_y, leverarm_z. cbn. rewrite !sin_0, !cos_0. ring.
  - assert (D := design_partial derive_egrad all_on unmoved two_epochs 2 1 6 C L ltac:(lia) ltac:(lia)).
    refine (uniqueness_limite _ _ _ _ D _).
    apply (D_ext (fun t => -5 + 2 * t)).
    + intro t. symmetry. etransitivity; [apply (misclosures_nth all_on _ 2 two_epochs 0 1); lia|].
      rewrite fr_misclosed. cbn. unfold helmert_y, leverarm_x, leverarm_y, leverarm_z. cbn. rewrite !sin_0, !cos_0. ring.
    + apply D_linear.
  - assert (D := design_partial derive_egrad all_on unmoved two_epochs 2 1 7 C L ltac:(lia) ltac:(lia)).
    refine (uniqueness_limite _ _ _ _ D _).
    apply (D_ext (fun t => -3 + 8 * t)).
    + intro t. symmetry. etransitivity; [apply (misclosures_nth all_on _ 2 two_epochs 0 1); lia|].
      rewrite fr_misclosed. cbn. unfold helmert_y, leverarm_x, leverarm_y, leverarm_z. cbn. rewrite !sin_0, !cos_0. ring.
    + apply D_linear.
Qed.

(** Row 4 is y of the second epoch: the entry of its own source y is 1, the one of the first epoch's source y is 0. *)
Example C81_case : exists egrad, egrad_contract egrad /\
  sparse_entry (condition_matrix egrad unmoved all_on (est_epochs all_on two_epochs)) 4 13 = 1 /\
  sparse_entry (condition_matrix egrad unmoved all_on (est_epochs all_on two_epochs)) 4 1 = 0.
Proof.
  exists derive_egrad. assert (C := derive_egrad_contract). split; [exact C|].
  assert (L : length two_epochs = (2 * num_obs_per_epoch all_on)%nat) by reflexivity.
  split.
  - assert (D := condition_partial derive_egrad all_on unmoved two_epochs 2 4 13 C L ltac:(cbn; lia) ltac:(cbn; lia)).
    refine (uniqueness_limite _ _ _ _ D _).
    apply (D_ext (fun t => -3 + 1 * t)).
    + intro t. symmetry. etransitivity; [apply (misclosures_nth all_on _ 2 _ 1 1); lia|].
      rewrite fr_misclosed. cbn. unfold helmert_y, leverarm_x, leverarm_y, leverarm_z. cbn. rewrite !sin_0, !cos_0. ring.
    + apply D_linear.
  - etransitivity; [apply (condition_entry derive_egrad unmoved all_on two_epochs 2 1 1 1 L); lia|]. reflexivity.
Qed.
