(** Proofs about the Gauss-Helmert estimation: with exact data it succeeds. *)
From Coq Require Import Ranalysis1.
From Verif Require Import Base BaseFacts NumpyModel NumpyFacts TrajModel ParamModel ParamSpec ParamFacts ParamFacts2 DataModel DataFacts EstModel GeomModel
  JacModel JacSpec JacFacts JacFacts2 LsqModel LsqSpec LsqFacts SolveSpec GhmModel GhmSpec GhmFacts GhmFacts2 GhmFacts3 GhmFacts4 GhmFacts5.

Section Estimation.
  Variable solve : list (list R) -> list R -> result (list R).
  Variable egrad : (list R -> R) -> nat -> list R -> R.
  Hypothesis CS : solve_contract solve.
  Hypothesis CC : solve_complete solve.
  Hypothesis CE : egrad_contract egrad.
  Variable pinv : list (list R) -> list (list R).
  Variable init : est_settings -> list R -> result pset.
  Let G := ghm solve egrad pinv init.

  Lemma mapM_solve n N cols : regular n N -> Forall (fun c => length c = n) cols -> exists xs, mapM (solve N) cols = Ok xs.
  Proof.
    intros RN F. induction F as [|c cs Hc F [xs IH]]; cbn; [eexists; reflexivity|].
    destruct (CC _ _ c RN Hc) as [y ->]. cbn. rewrite IH. cbn. eexists; reflexivity.
  Qed.

  Lemma covariance_ok s m : square_of (num_enabled s) m -> exists s', set_covariance_matrix s m = Ok s'.
  Proof. intro H. apply after_cov_ok. right. exact H. Qed.

  Lemma store_ok s d n l s1 : ready s d n -> ghm_linearise egrad s d = Ok l -> Forall (fun x => 0 < x) (a_var d) ->
    exists s', ghm_store_variances solve pinv s1 l = Ok s'.
  Proof.
    intros RD HL PV. assert (RB := bbt_regular egrad s d n l RD HL PV). destruct (design_dims egrad s d n l RD HL) as [LA _].
    unfold ghm_store_variances. change (length (values_enabled s1)) with (num_enabled s1). destruct (Nat.eqb_spec (num_enabled s1) 1) as [E|E].
    - destruct (CC _ _ (column_of (l_design l) 0) RB) as [sa ->]; [unfold column_of; rewrite map_length; exact LA|]. cbn [bind].
      apply covariance_ok. rewrite E. split; reflexivity.
    - unfold solve_columns. destruct (mapM_solve _ _ (transpose (num_enabled s1) (l_design l)) RB) as [xs ->].
      { rewrite <- LA. apply transpose_rows. }
      cbn [bind]. apply covariance_ok. split; reflexivity.
  Qed.

  Lemma diagonal_regular var : Forall (fun x => 0 < x) var -> regular (length var) (diagonal var).
  Proof.
    intro PV. destruct (diagonal_weights var) as [LD [FD _]]; [revert PV; apply Forall_impl; intros; lra|].
    split; [split; assumption|]. intros x LX H. rewrite diagonal_mv in H by lia. rewrite <- LX. apply list_zeros. intros r Hr.
    apply (scaled_zero var x r PV LX Hr). rewrite H. apply nth_zeros.
  Qed.

  Lemma factor_ok s d : Forall (fun x => 0 < x) (a_var d) -> length (a_res d) = length (a_var d) -> a_res d = repeat 0 (length (a_res d)) ->
    exists f, ghm_variance_factor solve s d = Ok f.
  Proof.
    intros PV L Z. unfold ghm_variance_factor. destruct (CC _ _ (a_res d) (diagonal_regular _ PV) L) as [x ->]. cbn [bind].
    destruct (_ =? 0)%Z; [|eexists; reflexivity]. rewrite Z, dot_comm, dot_zeros_r, Reqb_refl. eexists; reflexivity.
  Qed.

  Lemma inf_exceeds ths k : ths <> [] -> any_exceeds (repeat Inf (S k)) ths = true.
  Proof. destruct ths as [|t ths]; [contradiction|]. reflexivity. Qed.

  Lemma divisible_ok e n r : length r = (n * num_obs_per_epoch e)%nat -> divisible e r = true.
  Proof.
    intro L. unfold divisible. rewrite L. apply Nat.eqb_eq. apply Nat.mod_mul. assert (H := num_obs_pos e). lia.
  Qed.

  Theorem adjustment_ok ths s d n Jp Jl : ready s d n -> (0 < n)%nat -> length (a_var d) = length (a_obs d) -> Forall (fun x => 0 < x) (a_var d) ->
    Forall (fun t => 0 <= t) ths -> ths <> [] ->
    misclosures (a_est d) (params_of (values s)) n (a_obs d) = repeat 0 (3 * n) ->
    jacobian (fun q => misclosures (a_est d) (params_of q) n (a_obs d)) (values s) (3 * n) Jp ->
    jacobian (misclosures (a_est d) (params_of (values s)) n) (a_obs d) (3 * n) Jl -> determined s n Jp ->
    exists out, adjustment G ths s d = Ok out.
  Proof.
    intros RD Hn LV PV FT NT EX JP JL DT. unfold adjustment.
    set (d0 := with_vector d Res (repeat 0 (length (a_obs d)))).
    assert (E0 : est_obs_vector d0 = a_obs d) by (rewrite est_vector_plus; cbn; apply vplus_zeros; reflexivity).
    assert (RD0 : ready s d0 n) by (destruct RD as [R1 R2 R3 R4]; constructor; cbn; try assumption; apply repeat_length).
    change (evaluate G s d0) with (ghm_evaluate s d0). destruct (ghm_evaluate s d0) as [w|] eqn:HW; [|discriminate].
    apply (evaluate_spec s d0 n w RD0) in HW. rewrite E0 in HW. cbn [a_est d0 with_vector] in HW. rewrite EX in HW. subst w. cbn [bind].
    destruct (iteration_ok solve egrad CS CC CE s d0 n (repeat 0 (3 * n)) Jp RD0 Hn LV PV (repeat_length _ _)) as [l [dl [v [s1 [HL [HD [HR HA]]]]]]].
    { rewrite E0. exact JP. }
    { exact DT. }
    destruct (exact_step solve egrad CS CE s d0 n l dl v s1 Jp Jl RD0 PV) as [Zv [V1 [F1 [x [-> Zx]]]]]; try assumption; try (rewrite E0; assumption).
    change 16%nat with (S 15). unfold G. rewrite iterate_more by (apply inf_exceeds; exact NT).
    rewrite HL. cbn [bind]. rewrite HD. cbn [bind]. rewrite HR. cbn [bind].
    assert (HS : set_res d0 v = Ok (with_vector d0 Res v)).
    { unfold set_res. rewrite (divisible_ok (a_est d0) n); [reflexivity|]. rewrite Zv, repeat_length. apply RD. }
    rewrite HS. cbn [bind]. rewrite HA. cbn [bind]. unfold ghm_evaluate at 1. cbn [bind]. unfold ghm_contradictions. cbn [bind].
    rewrite iterate_stop by (apply zero_exceeds; assumption). cbn [bind fst snd].
    change (store_variances (ghm solve egrad pinv init) s1 l) with (ghm_store_variances solve pinv s1 l).
    destruct (store_ok s d0 n l s1 RD0 HL PV) as [s2 ->]. cbn [bind]. eexists; reflexivity.
  Qed.

  (** The estimation returns the initial values. *)
  Theorem estimate_ok ths s d n Jp Jl : init (a_est d) (a_obs d) = Ok s -> all_lq_disabled (a_est d) = false ->
    ready s d n -> (0 < n)%nat -> length (a_var d) = length (a_obs d) -> Forall (fun x => 0 < x) (a_var d) ->
    Forall (fun t => 0 <= t) ths -> ths <> [] ->
    misclosures (a_est d) (params_of (values s)) n (a_obs d) = repeat 0 (3 * n) ->
    jacobian (fun q => misclosures (a_est d) (params_of q) n (a_obs d)) (values s) (3 * n) Jp ->
    jacobian (misclosures (a_est d) (params_of (values s)) n) (a_obs d) (3 * n) Jl -> determined s n Jp ->
    exists p runs, estimate G ths false d = Ok (p, true, runs) /\ values p = values s.
  Proof.
    intros HI AD RD Hn LV PV FT NT EX JP JL DT.
    destruct (adjustment_ok ths s d n Jp Jl RD Hn LV PV FT NT EX JP JL DT) as [[[[s' d'] conv] tr] HA].
    destruct (exact_adjustment solve egrad CS CE pinv init ths s d n s' d' conv tr Jp Jl RD PV FT EX JP JL DT HA) as [-> [V [_ [ED _]]]].
    unfold estimate. change (init_parameters G) with init. rewrite HI. cbn [bind]. rewrite AD. cbn [recompute]. rewrite HA. cbn [bind].
    change (variance_factor G s' d') with (ghm_variance_factor solve s' d').
    destruct (factor_ok s' d') as [f ->].
    - rewrite ED. exact PV.
    - rewrite ED. cbn. rewrite repeat_length. symmetry. exact LV.
    - rewrite ED. cbn. rewrite repeat_length. reflexivity.
    - cbn. exists s', [tr]. split; [reflexivity | exact V].
  Qed.
End Estimation.
