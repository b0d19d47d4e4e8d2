(** A concrete adjustment: one epoch, only the translation in x is estimated. *)
From Coq Require Import Ranalysis1.
From Verif Require Import Base BaseFacts NumpyModel NumpyFacts TrajModel ParamModel DataModel DataFacts EstModel GeomModel
  JacModel JacSpec JacFacts JacFacts2 JacProps LsqModel LsqSpec LsqFacts GhmModel GhmSpec GhmFacts GhmFacts2 GhmFacts3.

(** A solver that knows the multiples of the identity; it meets the contract. *)
Definition solve_scalar (N : list (list R)) (b : list R) : result (list R) :=
  let c := nth 0 (nth 0 N []) 0 in
  if list_eq_dec (list_eq_dec Req_EM_T) N (diagonal (repeat c (length b)))
  then if Req_EM_T c 0 then Err ValueError else Ok (map (fun x => x / c) b)
  else Err ValueError.
Lemma solve_scalar_contract : solve_contract solve_scalar.
Proof.
  intros N b x H. unfold solve_scalar in H. set (c := nth 0 (nth 0 N []) 0) in *. destruct (list_eq_dec _ _ _) as [E|]; [|discriminate].
  destruct (Req_EM_T c 0) as [|C]; [discriminate|]. injection H as <-. split; [apply map_length|]. rewrite E.
  rewrite diagonal_mv by (rewrite repeat_length, map_length; reflexivity).
  clear E. induction b as [|y b IH]; [reflexivity|]. cbn. rewrite IH. f_equal. field. exact C.
Qed.
Lemma solve_scalar_ok c k b : c <> 0 -> length b = S k -> solve_scalar (diagonal (repeat c (S k))) b = Ok (map (fun x => x / c) b).
Proof.
  intros C L. unfold solve_scalar.
  assert (E : nth 0 (nth 0 (diagonal (repeat c (S k))) []) 0 = c) by reflexivity.
  rewrite E, L. destruct (list_eq_dec _ _ _) as [_|N]; [|congruence]. destruct (Req_EM_T c 0); [congruence|]. reflexivity.
Qed.

Definition only_x : est_settings := mkEst true false false false false false false false false false false false false false false false.
Definition shifted_x (t : R) : pset :=
  apply_settings (ps_set_params default_alignment (match default_params with q :: r => mkParam t 0 0 true (p_name q) (p_unit q) :: r | [] => [] end)) only_x.

Lemma case_misclosures t a : misclosures only_x (params_of [t; 0; 0; 0; 0; 0; 1; 0; 0; 0; 0]) 1 a =
  [nth 0 a 0 + t - nth 3 a 0; nth 1 a 0 - nth 4 a 0; nth 2 a 0 - nth 5 a 0].
Proof.
  assert (K : forall b, (b < 3)%nat -> nth b (misclosures only_x (params_of [t; 0; 0; 0; 0; 0; 1; 0; 0; 0; 0]) 1 a) 0 =
    nth b [nth 0 a 0 + t - nth 3 a 0; nth 1 a 0 - nth 4 a 0; nth 2 a 0 - nth 5 a 0] 0).
  { intros b Hb. etransitivity; [apply (misclosures_nth only_x _ 1 a 0 b); lia|]. rewrite fr_misclosed.
    destruct b as [|[|[|b]]]; [| | |lia]; cbn; unfold helmert_x, helmert_y, helmert_z, leverarm_x, leverarm_y, leverarm_z; cbn; rewrite !sin_0, !cos_0; ring. }
  apply (nth_ext _ _ 0 0); [rewrite misclosures_length; reflexivity|]. intros b Hb. rewrite misclosures_length in Hb. apply K. lia.
Qed.

Lemma shifted_values t : values (shifted_x t) = [t; 0; 0; 0; 0; 0; 1; 0; 0; 0; 0].
Proof. reflexivity. Qed.

Lemma D_affine f x k : (forall t, f t = f 0 + k * t) -> derivable_pt_lim f x k.
Proof. intro H. apply (D_ext (fun t => f 0 + k * t)); [intro; symmetry; apply H | apply D_linear]. Qed.

(** The derivatives of the case *)
Definition case_jp (r j : nat) : R :=
  nth j (nth r [[1; 0; 0]; [0; 1; 0]; [0; 0; 1]] []) 0.
Definition case_condition : list (list R) := [[1; 0; 0; -1; 0; 0]; [0; 1; 0; 0; -1; 0]; [0; 0; 1; 0; 0; -1]].
Definition case_jl (r c : nat) : R := nth c (nth r case_condition []) 0.

Lemma case_jacobian_l t a : length a = 6%nat -> jacobian (misclosures only_x (params_of [t; 0; 0; 0; 0; 0; 1; 0; 0; 0; 0]) 1) a 3 case_jl.
Proof.
  intros L r c Hr Hc. rewrite L in Hc. unfold partial.
  destruct a as [|a0 [|a1 [|a2 [|a3 [|a4 [|a5 [|]]]]]]]; try discriminate L.
  apply D_affine. intro x. rewrite !case_misclosures.
  destruct r as [|[|[|r]]]; [| | |lia]; (destruct c as [|[|[|[|[|[|c]]]]]]; [| | | | | |lia]); cbn; ring.
Qed.

(** The column of the translation in x *)
Lemma case_jacobian_x t a r : (r < 3)%nat -> partial (fun q => misclosures only_x (params_of q) 1 a) [t; 0; 0; 0; 0; 0; 1; 0; 0; 0; 0] r 0 (case_jp r 0).
Proof.
  intro Hr. unfold partial. apply D_affine. intro x. unfold replace_nth. cbn [firstn skipn app nth]. rewrite !case_misclosures.
  destruct r as [|[|[|r]]]; [| | |lia]; cbn; ring.
Qed.
Definition case_jacobian (t : R) (a : list R) (r j : nat) : R :=
  nth j (nth r (design_matrix derive_egrad (params_of [t; 0; 0; 0; 0; 0; 1; 0; 0; 0; 0]) (est_epochs only_x a)) []) 0.
Lemma case_jacobian_p t a : length a = 6%nat ->
  jacobian (fun q => misclosures only_x (params_of q) 1 a) [t; 0; 0; 0; 0; 0; 1; 0; 0; 0; 0] 3 (case_jacobian t a).
Proof.
  intros L r j Hr Hj. exact (design_partial derive_egrad only_x (params_of [t; 0; 0; 0; 0; 0; 1; 0; 0; 0; 0]) a 1 r j derive_egrad_contract L Hr Hj).
Qed.
Lemma case_jacobian_first t a r : length a = 6%nat -> (r < 3)%nat -> case_jacobian t a r 0 = nth r [1; 0; 0] 0.
Proof.
  intros L Hr. etransitivity; [exact (uniqueness_limite _ _ _ _ (case_jacobian_p t a L r 0%nat Hr ltac:(cbn; lia)) (case_jacobian_x t a r Hr))|].
  destruct r as [|[|[|r]]]; reflexivity || lia.
Qed.

Lemma case_linearise s d t a v : values s = [t; 0; 0; 0; 0; 0; 1; 0; 0; 0; 0] -> a_est d = only_x -> est_obs_vector d = a -> length a = 6%nat ->
  a_var d = repeat v 6 ->
  ghm_linearise derive_egrad s d = Ok (mkLin [[1]; [0]; [0]] case_condition (diagonal (repeat (2 * v) 3))).
Proof.
  intros HV HE HO L Hvar. unfold ghm_linearise. rewrite HE, HO, Hvar, HV. change (named ?l) with (params_of l).
  set (p := params_of [t; 0; 0; 0; 0; 0; 1; 0; 0; 0; 0]).
  assert (LE : length (est_epochs only_x a) = 1%nat) by (unfold est_epochs; rewrite map_length, seq_length; apply epochs_count; exact L).
  rewrite LE.
  destruct (design_shape derive_egrad only_x p a 1 L) as [LD FD].
  assert (E0 := case_jacobian_first t a 0%nat L ltac:(lia)). assert (E1 := case_jacobian_first t a 1 L ltac:(lia)). assert (E2 := case_jacobian_first t a 2 L ltac:(lia)).
  unfold case_jacobian in E0, E1, E2. fold p in E0, E1, E2.
  destruct (design_matrix derive_egrad p (est_epochs only_x a)) as [|r0 [|r1 [|r2 [|]]]]; try discriminate LD.
  assert (LR : forall r : list R, length r = 11%nat -> np_mask r (lq_parameter_filter only_x) = Ok [nth 0 r 0]).
  { intros r Lr. do 11 (destruct r as [|? r]; [discriminate Lr|]). destruct r; [|discriminate Lr]. reflexivity. }
  inversion FD as [|? ? L0 FD1]. inversion FD1 as [|? ? L1 FD2]. inversion FD2 as [|? ? L2 FD3].
  cbn [mapM]. rewrite !LR by assumption. cbn [nth] in E0, E1, E2. cbn [bind]. rewrite E0, E1, E2. cbn [Nat.eqb].
  change (num_obs_per_epoch only_x) with 6%nat. cbn [repeat length Nat.eqb Nat.mul Nat.add negb].
  assert (EB : dense 3 6 (condition_matrix derive_egrad p only_x (est_epochs only_x a)) = case_condition).
  { assert (K : forall r c, (r < 3)%nat -> (c < 6)%nat -> sparse_entry (condition_matrix derive_egrad p only_x (est_epochs only_x a)) r c = case_jl r c).
    { intros r c Hr Hc. assert (Hc' : (c < length a)%nat) by lia.
      exact (uniqueness_limite _ _ _ _ (condition_partial derive_egrad only_x p a 1 r c derive_egrad_contract L Hr Hc') (case_jacobian_l t a L r c Hr Hc')). }
    unfold dense. cbn [seq map]. rewrite !K by lia. reflexivity. }
  rewrite EB. do 2 f_equal.
  cbn. repeat (apply f_equal2; [|]); try reflexivity; ring.
Qed.
