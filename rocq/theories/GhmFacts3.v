(** Proofs about the Gauss-Helmert iteration: fixed points, exact data, variances. *)
From Coq Require Import Ranalysis1.
From Verif Require Import Base BaseFacts NumpyModel NumpyFacts TrajModel ParamModel ParamFacts DataModel DataFacts EstModel GeomModel
  JacModel JacSpec JacFacts JacFacts2 LsqModel LsqSpec LsqFacts GhmModel GhmSpec GhmFacts GhmFacts2.

Lemma vminus_self u : vminus u u = repeat 0 (length u).
Proof. induction u as [|x u IH]; cbn; [reflexivity|]. rewrite IH. f_equal. ring. Qed.

Lemma sum_to_zero n f : (forall i, (i < n)%nat -> f i = 0) -> sum_to n f = 0.
Proof. induction n as [|n IH]; intro H; [reflexivity|]. cbn. rewrite IH, H by (intros; try apply H; lia). ring. Qed.

Lemma nth_vminus u v r : length u = length v -> nth r (vminus u v) 0 = nth r u 0 - nth r v 0.
Proof.
  revert v r. induction u as [|x u IH]; intros [|y v] [|r] L; cbn in *; try lia; try ring. apply IH. lia.
Qed.

Lemma covariance_keeps p p' m : set_covariance_matrix p m = Ok p' -> values p' = values p /\ enabled_bool_list p' = enabled_bool_list p.
Proof.
  intro H. destruct (Nat.eq_dec (m_rows m) (m_cols m)) as [E|E].
  - destruct (Nat.eq_dec (m_rows m) (ps_len p)) as [E1|E1].
    + destruct (full_covariance p m) as [q [Q [_ [B [V _]]]]]; [split; congruence|]. rewrite H in Q. injection Q as <-. split; assumption.
    + destruct (Nat.eq_dec (m_rows m) (num_enabled p)) as [E2|E2].
      * destruct (block_covariance p m) as [q [Q [B [V _]]]]; [split; congruence | congruence |]. rewrite H in Q. injection Q as <-. split; assumption.
      * rewrite bad_covariance in H; [discriminate|]. intros [[A _]|[A _]]; congruence.
  - rewrite bad_covariance in H; [discriminate|]. intros [[A B]|[A B]]; congruence.
Qed.

Section Fixed.
  Variable solve : list (list R) -> list R -> result (list R).
  Variable egrad : (list R -> R) -> nat -> list R -> R.
  Hypothesis CS : solve_contract solve.
  Hypothesis CE : egrad_contract egrad.

  Lemma misclosures_length e p n vec : length (misclosures e p n vec) = (3 * n)%nat.
  Proof. unfold misclosures. rewrite (blocks_length (fun i => vx (misclosed p (observed_epoch e vec i))) (fun i => vy (misclosed p (observed_epoch e vec i))) (fun i => vz (misclosed p (observed_epoch e vec i)))), seq_length. reflexivity. Qed.

  Lemma evaluate_spec s d n f : ready s d n -> ghm_evaluate s d = Ok f -> f = misclosures (a_est d) (params_of (values s)) n (est_obs_vector d).
  Proof.
    intros RD H. unfold ghm_evaluate in H. injection H as <-. change (named (values s)) with (params_of (values s)).
    apply eval_misclosures. apply (est_vector_length s d n RD).
  Qed.

  Theorem fixed_point s d n l w dl s' f Jp Jl : ready s d n -> Forall (fun x => 0 < x) (a_var d) -> length w = (3 * n)%nat ->
    ghm_linearise egrad s d = Ok l -> ghm_deltas solve l d w = Ok dl -> ghm_residuals solve l d dl w = Ok (a_res d) ->
    ghm_add_deltas s dl = Ok s' -> values s' = values s -> ghm_evaluate s' d = Ok f -> ghm_contradictions l f (a_res d) = Ok w ->
    jacobian (fun q => misclosures (a_est d) (params_of q) n (est_obs_vector d)) (values s) (3 * n) Jp ->
    jacobian (misclosures (a_est d) (params_of (values s)) n) (est_obs_vector d) (3 * n) Jl ->
    misclosures (a_est d) (params_of (values s)) n (est_obs_vector d) = repeat 0 (3 * n) /\
    forall dp dv, allowed s dp -> length dv = length (a_obs d) -> closes (3 * n) Jp Jl (repeat 0 (3 * n)) dp dv ->
      weighted_product (a_var d) (a_res d) dv = 0.
  Proof.
    intros RD PV LW HL HD HR HA EV HF HC JP JL. split.
    - destruct (iteration_optimal solve egrad CS CE s d n l RD HL Jp Jl JP JL w dl (a_res d) s' LW PV HD HR HA) as [_ [LR [CL _]]].
      assert (Ef : f = misclosures (a_est d) (params_of (values s)) n (est_obs_vector d)).
      { unfold ghm_evaluate in HF. rewrite EV in HF. exact (evaluate_spec s d n f RD HF). }
      rewrite <- Ef. assert (Lf : length f = (3 * n)%nat) by (rewrite Ef; apply misclosures_length).
      rewrite <- Lf. apply list_zeros. intros r Hr. rewrite Lf in Hr. specialize (CL r Hr).
      rewrite EV, vminus_self in CL. rewrite sum_to_zero in CL by (intros i _; rewrite nth_zeros; ring).
      unfold ghm_contradictions in HC. injection HC as HC. rewrite <- HC in CL.
      assert (RD' := RD). destruct RD' as [R1 R2 R3 R4].
      destruct (condition_dims egrad s d n l RD HL) as [LB _].
      rewrite nth_vminus in CL by (rewrite mv_length; lia).
      rewrite (condition_product egrad CE s d n l RD HL Jl JL) in CL by (lia || exact Hr).
      rewrite R4, R3 in CL. lra.
    - intros dp dv AL LDV CLz.
      eapply iteration_tangent; eassumption.
  Qed.

  (** ** Exact data *)
  Variable pinv : list (list R) -> list (list R).
  Variable init : est_settings -> list R -> result pset.
  Let G := ghm solve egrad pinv init.

  Lemma iterate_more ths k p d w dl li : any_exceeds dl ths = true ->
    iterate G ths (S k) p d w dl li =
      let! l := ghm_linearise egrad p d in
      let! dl := ghm_deltas solve l d w in
      let! r := ghm_residuals solve l d dl w in
      let! d' := set_res d r in
      let! p' := ghm_add_deltas p dl in
      let! f := ghm_evaluate p' d' in
      let! w' := ghm_contradictions l f r in
      let! out := iterate G ths k p' d' w' dl (Some l) in
      Ok (fst out, dl :: snd out).
  Proof. intro H. cbn [iterate]. rewrite H. reflexivity. Qed.
  Lemma iterate_stop ths k p d w dl li : any_exceeds dl ths = false -> iterate G ths k p d w dl li = Ok (p, d, true, li, []).
  Proof. intro H. destruct k; cbn [iterate]; rewrite H; reflexivity. Qed.

  Lemma store_values p l p' : ghm_store_variances solve pinv p l = Ok p' -> values p' = values p /\ enabled_bool_list p' = enabled_bool_list p.
  Proof.
    assert (K : forall m, set_covariance_matrix p m = Ok p' -> values p' = values p /\ enabled_bool_list p' = enabled_bool_list p) by (intro m; apply covariance_keeps).
    unfold ghm_store_variances. destruct (_ =? 1)%nat; intro H; apply bind_ok in H as [x [_ H]]; exact (K _ H).
  Qed.

  Lemma zero_exceeds ths x : Forall (fun t => 0 <= t) ths -> x = repeat 0 (length x) -> any_exceeds (map Fin x) ths = false.
  Proof.
    intros F ->. generalize (length x). intro k. revert F. revert ths. induction k as [|k IH]; intros ths F; [reflexivity|].
    destruct F as [|t ths Ht F]; [reflexivity|]. unfold any_exceeds. cbn [repeat map combine existsb fst snd exceeds].
    rewrite Rabs_R0. rewrite (proj2 (Rltb_false t 0)) by lra. apply IH, F.
  Qed.

  Lemma expand_zero bs x : length x = count (fun b => b) bs -> expand bs x = repeat 0 (length bs) -> x = repeat 0 (length x).
  Proof.
    unfold count. revert x. induction bs as [|[] bs IH]; intros x L H; cbn in *.
    - destruct x; [reflexivity | discriminate].
    - destruct x as [|y x]; [discriminate|]. injection H as -> H. cbn in *. f_equal. apply IH; [lia | exact H].
    - injection H as H. apply IH; assumption.
  Qed.

  Lemma exact_step s d n l dl v s' Jp Jl : ready s d n -> Forall (fun x => 0 < x) (a_var d) -> 
    jacobian (fun q => misclosures (a_est d) (params_of q) n (est_obs_vector d)) (values s) (3 * n) Jp ->
    jacobian (misclosures (a_est d) (params_of (values s)) n) (est_obs_vector d) (3 * n) Jl -> determined s n Jp ->
    ghm_linearise egrad s d = Ok l -> ghm_deltas solve l d (repeat 0 (3 * n)) = Ok dl -> ghm_residuals solve l d dl (repeat 0 (3 * n)) = Ok v ->
    ghm_add_deltas s dl = Ok s' ->
    v = repeat 0 (length (a_obs d)) /\ values s' = values s /\ enabled_bool_list s' = enabled_bool_list s /\
    exists x, dl = map Fin x /\ x = repeat 0 (length x).
  Proof.
    intros RD PV JP JL DT HL HD HR HA.
    destruct (iteration_optimal solve egrad CS CE s d n l RD HL Jp Jl JP JL _ dl v s' (repeat_length _ _) PV HD HR HA) as [AL [LV [CL OPT]]].
    assert (Zv : v = repeat 0 (length (a_obs d))).
    { destruct (OPT (repeat 0 11) (repeat 0 (length (a_obs d)))) as [O1 _].
      - split; [rewrite repeat_length; symmetry; apply RD|]. intros. apply nth_zeros.
      - apply repeat_length.
      - intros r Hr. rewrite !sum_to_zero by (intros; rewrite nth_zeros; ring). rewrite nth_zeros. ring.
      - assert (Z : weighted (a_var d) (repeat 0 (length (a_obs d))) = 0).
        { generalize (length (a_obs d)). clear - PV. induction PV as [|x l Hx F IH]; intros [|k]; cbn; try reflexivity. rewrite IH. unfold Rdiv. ring. }
        rewrite Z in O1. assert (P := weighted_nonneg (a_var d) v PV).
        assert (LVar : length (a_var d) = length (a_obs d)).
        { destruct (lin_spec egrad s d n l RD HL) as [_ [_ [_ [-> _]]]]. symmetry. apply RD. }
        rewrite <- LVar. apply weighted_zero; [exact PV | congruence | lra]. }
    split; [exact Zv|].
    assert (Zp : vminus (values s') (values s) = repeat 0 (length (vminus (values s') (values s)))).
    { apply DT; [exact AL|]. intros r Hr. specialize (CL r Hr). rewrite Zv in CL.
      rewrite (sum_to_zero (length (repeat 0 _))) in CL by (intros; rewrite nth_zeros; ring). rewrite nth_zeros in CL. lra. }
    destruct (step_parts solve egrad s d n l RD HL _ dl v HD HR) as [x [k [E1 _]]]. subst dl.
    destruct (add_deltas_spec s x s' HA) as [V [F LX]].
    assert (LE : length (values s) = length (expand (enabled_bool_list s) x)).
    { rewrite expand_length, values_all. unfold enabled_bool_list. rewrite !map_length. reflexivity. }
    assert (EV : vminus (values s') (values s) = expand (enabled_bool_list s) x).
    { rewrite V. clear - LE. revert LE. generalize (expand (enabled_bool_list s) x). generalize (values s).
      induction l as [|y a IH]; intros [|z b] L; cbn in *; try lia; [reflexivity|]. rewrite IH by lia. f_equal. ring. }
    rewrite EV in Zp. split; [|split; [exact F|]].
    - rewrite V, Zp. apply vplus_zeros. exact LE.
    - exists x. split; [reflexivity|]. apply (expand_zero (enabled_bool_list s)).
      + rewrite LX. apply enabled_count.
      + rewrite expand_length in Zp. exact Zp.
  Qed.

  Theorem exact_adjustment ths s d n s'' d'' conv tr Jp Jl : ready s d n -> Forall (fun x => 0 < x) (a_var d) -> Forall (fun t => 0 <= t) ths ->
    misclosures (a_est d) (params_of (values s)) n (a_obs d) = repeat 0 (3 * n) ->
    jacobian (fun q => misclosures (a_est d) (params_of q) n (a_obs d)) (values s) (3 * n) Jp ->
    jacobian (misclosures (a_est d) (params_of (values s)) n) (a_obs d) (3 * n) Jl -> determined s n Jp ->
    adjustment G ths s d = Ok (s'', d'', conv, tr) ->
    conv = true /\ values s'' = values s /\ enabled_bool_list s'' = enabled_bool_list s /\
    d'' = with_vector d Res (repeat 0 (length (a_obs d))) /\ length tr = 1%nat.
  Proof.
    intros RD PV FT EX JP JL DT H. unfold adjustment in H.
    set (d0 := with_vector d Res (repeat 0 (length (a_obs d)))) in *.
    assert (E0 : est_obs_vector d0 = a_obs d) by (rewrite est_vector_plus; cbn; apply vplus_zeros; reflexivity).
    assert (RD0 : ready s d0 n) by (destruct RD as [R1 R2 R3 R4]; constructor; cbn; try assumption; apply repeat_length).
    apply bind_ok in H as [w [HW H]]. change (ghm_evaluate s d0 = Ok w) in HW.
    apply (evaluate_spec s d0 n w RD0) in HW. rewrite E0 in HW. cbn [a_est d0 with_vector] in HW. rewrite EX in HW. subst w.
    apply bind_ok in H as [out [HI H]].
    destruct (any_exceeds (repeat Inf 11) ths) eqn:EX0.
    2: { rewrite iterate_stop in HI by exact EX0. injection HI as <-. discriminate H. }
    change 16%nat with (S 15) in HI. rewrite iterate_more in HI by exact EX0.
    apply bind_ok in HI as [l [HL HI]]. apply bind_ok in HI as [dl [HD HI]]. apply bind_ok in HI as [v [HR HI]].
    apply bind_ok in HI as [d1 [HS HI]]. apply bind_ok in HI as [s1 [HA HI]]. apply bind_ok in HI as [f [HF HI]].
    apply bind_ok in HI as [w1 [HC HI]]. apply bind_ok in HI as [o [HI HO]].
    destruct (exact_step s d0 n l dl v s1 Jp Jl RD0 PV) as [Zv [V1 [F1 [x [-> Zx]]]]]; try assumption; try (rewrite E0; assumption).
    rewrite iterate_stop in HI by (apply zero_exceeds; assumption). injection HI as <-. injection HO as <-. cbn [fst snd] in H.
    apply bind_ok in H as [s2 [HV H]]. injection H as <- <- <- <-. change (ghm_store_variances solve pinv s1 l = Ok s2) in HV.
    destruct (store_values s1 l s2 HV) as [V2 F2].
    split; [reflexivity|]. split; [congruence|]. split; [congruence|]. split; [|reflexivity].
    unfold set_res in HS. destruct (divisible _ _); [|discriminate]. injection HS as <-. rewrite Zv. reflexivity.
  Qed.

  (** The estimation as a whole, without variance estimation *)
  Theorem exact_estimate ths s d n p ok runs Jp Jl : init (a_est d) (a_obs d) = Ok s -> all_lq_disabled (a_est d) = false ->
    ready s d n -> Forall (fun x => 0 < x) (a_var d) -> Forall (fun t => 0 <= t) ths ->
    misclosures (a_est d) (params_of (values s)) n (a_obs d) = repeat 0 (3 * n) ->
    jacobian (fun q => misclosures (a_est d) (params_of q) n (a_obs d)) (values s) (3 * n) Jp ->
    jacobian (misclosures (a_est d) (params_of (values s)) n) (a_obs d) (3 * n) Jl -> determined s n Jp ->
    estimate G ths false d = Ok (p, ok, runs) -> ok = true /\ values p = values s.
  Proof.
    intros HI AD RD PV FT EX JP JL DT H. unfold estimate in H. change (init_parameters G) with init in H. rewrite HI in H. cbn [bind] in H. rewrite AD in H.
    apply bind_ok in H as [out [HR H]]. cbn [recompute] in HR. apply bind_ok in HR as [[[[p1 d1] c1] tr] [HA HR]].
    apply bind_ok in HR as [f [_ HR]]. cbn [negb] in HR. injection HR as <-.
    destruct (exact_adjustment ths s d n p1 d1 c1 tr Jp Jl RD PV FT EX JP JL DT HA) as [-> [V _]].
    cbn in H. injection H as <- <- <-. split; [reflexivity | exact V].
  Qed.
End Fixed.

(** ** Variances *)
Lemma weighted_scale c var v : c <> 0 -> Forall (fun s => 0 < s) var -> weighted (map (fun x => x * c) var) v = weighted var v / c.
Proof.
  intros Hc F. revert v. induction F as [|s var H F IH]; intros [|x v]; cbn; try (unfold Rdiv; ring). rewrite IH. field. split; lra.
Qed.

Lemma solve_diagonal solve var v x : solve_contract solve -> Forall (fun s => 0 < s) var -> length v = length var ->
  solve (diagonal var) v = Ok x -> dot v x = weighted var v.
Proof.
  intros C F L H. destruct (C _ _ _ H) as [LX M]. rewrite diagonal_mv in M by lia. subst v. clear H.
  rewrite weighted_product_self.
  assert (LX' : length x = length var) by (rewrite <- L, LX; reflexivity).
  assert (LM : length (map (fun p => fst p * snd p) (combine var x)) = length var) by (rewrite map_length, combine_length; lia).
  rewrite <- (diagonal_mv var x) in * by lia. rewrite (weighted_diagonal var x) by (assumption || rewrite mv_length in *; lia).
  apply dot_comm.
Qed.

Theorem variance_factor_spec solve s d f : solve_contract solve -> Forall (fun x => 0 < x) (a_var d) -> length (a_res d) = length (a_var d) ->
  ghm_variance_factor solve s d = Ok f -> redundancy s d <> 0%Z /\ f = Fin (weighted (a_var d) (a_res d) / IZR (redundancy s d)) \/ redundancy s d = 0%Z /\ f = NaN.
Proof.
  intros C F L H. unfold ghm_variance_factor in H. apply bind_ok in H as [x [HX H]]. destruct (Z.eqb_spec (redundancy s d) 0) as [Z|Z].
  { right. split; [exact Z|]. destruct (Reqb _ 0); [injection H as <-; reflexivity | discriminate]. }
  left. split; [exact Z|]. injection H as <-.
  rewrite (solve_diagonal solve (a_var d) (a_res d) x C F L HX). reflexivity.
Qed.

Lemma add_deltas_values (solve : list (list R) -> list R -> result (list R)) s d (n : nat) l w dl s1 : ghm_deltas solve l d w = Ok dl -> ghm_add_deltas s dl = Ok s1 ->
  length (values s1) = length (values s) /\ values s1 = vplus (values s) (vminus (values s1) (values s)).
Proof.
  intros HD HA. unfold ghm_deltas in HD. apply bind_ok in HD as [x [_ HD]]. injection HD as <-.
  destruct (add_deltas_spec s x s1 HA) as [V _].
  assert (L : length (values s1) = length (values s)).
  { rewrite V. apply vplus_length. rewrite expand_length, values_all. unfold enabled_bool_list. rewrite !map_length. reflexivity. }
  split; [exact L|]. clear V. revert L. generalize (values s1) (values s). intro a. induction a as [|y a IH]; intros [|z b] L; cbn in *; try lia; [reflexivity|].
  rewrite <- IH by lia. f_equal. ring.
Qed.

Lemma rescaled_pos c var : 0 < c -> Forall (fun x => 0 < x) var -> Forall (fun x => 0 < x) (map (fun x => x * c) var).
Proof. intros Hc F. apply Forall_map. revert F. apply Forall_impl. intros x Hx. apply Rmult_lt_0_compat; assumption. Qed.

Theorem rescaled_factor solve s d f : solve_contract solve -> Forall (fun x => 0 < x) (a_var d) -> length (a_res d) = length (a_var d) -> 0 < f ->
  ghm_variance_factor solve s d = Ok (Fin f) -> forall g, ghm_variance_factor solve s (rescaled f d) = Ok g -> g = Fin 1.
Proof.
  intros C F L Hf H g HG. apply (variance_factor_spec solve s d _ C F L) in H. destruct H as [[Z H]|[_ H]]; [|discriminate]. injection H as H.
  apply (variance_factor_spec solve s (rescaled f d)) in HG; [|exact C | apply rescaled_pos; assumption | cbn; rewrite map_length; exact L].
  change (redundancy s (rescaled f d)) with (redundancy s d) in HG. destruct HG as [[_ HG]|[HG _]]; [|contradiction].
  rewrite HG. f_equal.
  cbn [a_var a_res rescaled with_vector]. rewrite weighted_scale by (lra || exact F).
  assert (N : IZR (redundancy s d) <> 0).
  { intro Z0. rewrite Z0 in H. unfold Rdiv in H. rewrite Rinv_0 in H. lra. }
  revert H N. generalize (weighted (a_var d) (a_res d)) (IZR (redundancy s d)). intros W r H N.
  assert (E : W = f * r) by (rewrite H; field; exact N). rewrite E. field. split; lra.
Qed.

(** Two changes of the parameters that close the same equations with the same residuals *)
Lemma same_change s d n Jp Jl w v a b : ready s d n -> determined s n Jp -> allowed s a -> allowed s b ->
  closes (3 * n) Jp Jl w a v -> closes (3 * n) Jp Jl w b v -> b = a.
Proof.
  intros RD DT A1 A2 C1 C2.
  assert (La : length a = 11%nat) by (destruct A1 as [-> _]; apply RD). assert (Lb : length b = 11%nat) by (destruct A2 as [-> _]; apply RD).
  assert (Z : vminus b a = repeat 0 (length (vminus b a))).
  { apply DT.
    - destruct A1 as [_ K1]. destruct A2 as [_ K2]. split; [rewrite vminus_length by lia; rewrite Lb; symmetry; apply RD|].
      intros j q E F. rewrite nth_vminus by lia. rewrite (K1 j q E F), (K2 j q E F). ring.
    - intros r Hr. specialize (C1 r Hr). specialize (C2 r Hr). rewrite vminus_length by lia. rewrite La in C1. rewrite Lb in *.
      assert (X : sum_to 11 (fun j => Jp r j * nth j (vminus b a) 0) = sum_to 11 (fun j => Jp r j * nth j b 0) - sum_to 11 (fun j => Jp r j * nth j a 0)).
      { rewrite (sum_to_ext 11 _ (fun j => Jp r j * nth j b 0 - Jp r j * nth j a 0)) by (intros j _; rewrite nth_vminus by lia; ring).
        generalize 11%nat. intro k. induction k as [|k IH]; cbn; [ring|]. rewrite IH. ring. }
      rewrite X. lra. }
  apply (vminus_zero b a); [lia|]. rewrite Z. apply Forall_forall. intros x I. apply repeat_spec in I. exact I.
Qed.

Theorem rescaled_step solve egrad s d n c w l l' dl dl' v v' s1 s1' Jp Jl : solve_contract solve -> egrad_contract egrad -> 0 < c ->
  ready s d n -> Forall (fun x => 0 < x) (a_var d) -> length w = (3 * n)%nat ->
  jacobian (fun q => misclosures (a_est d) (params_of q) n (est_obs_vector d)) (values s) (3 * n) Jp ->
  jacobian (misclosures (a_est d) (params_of (values s)) n) (est_obs_vector d) (3 * n) Jl -> determined s n Jp ->
  ghm_linearise egrad s d = Ok l -> ghm_deltas solve l d w = Ok dl -> ghm_residuals solve l d dl w = Ok v -> ghm_add_deltas s dl = Ok s1 ->
  ghm_linearise egrad s (rescaled c d) = Ok l' -> ghm_deltas solve l' (rescaled c d) w = Ok dl' ->
  ghm_residuals solve l' (rescaled c d) dl' w = Ok v' -> ghm_add_deltas s dl' = Ok s1' ->
  v' = v /\ values s1' = values s1.
Proof.
  intros CS CE Hc RD PV LW JP JL DT HL HD HR HA HL' HD' HR' HA'.
  assert (RD' : ready s (rescaled c d) n) by (destruct RD; constructor; assumption).
  destruct (iteration_optimal solve egrad CS CE s d n l RD HL Jp Jl JP JL w dl v s1 LW PV HD HR HA) as [A1 [L1 [C1 O1]]].
  destruct (iteration_optimal solve egrad CS CE s (rescaled c d) n l' RD' HL' Jp Jl JP JL w dl' v' s1' LW (rescaled_pos c _ Hc PV) HD' HR' HA') as [A2 [L2 [C2 O2]]].
  cbn [a_obs a_var rescaled with_vector] in L2, O2.
  assert (EV : v' = v).
  { apply (O1 _ v' A2 L2 C2). destruct (O2 _ v A1 L1 C1) as [Le _].
    rewrite !weighted_scale in Le by (lra || exact PV). unfold Rdiv in Le. apply Rmult_le_reg_r in Le; [exact Le | apply Rinv_0_lt_compat, Hc]. }
  split; [exact EV|]. subst v'.
  destruct (add_deltas_values solve s d n l w dl s1 HD HA) as [_ G1]. destruct (add_deltas_values solve s (rescaled c d) n l' w dl' s1' HD' HA') as [_ G2].
  assert (Eab := same_change s d n Jp Jl w v _ _ RD DT A1 A2 C1 C2).
  rewrite G1, G2, Eab. reflexivity.
Qed.
