(** Proofs about the Gauss-Helmert iteration: vanishing variances. *)
From Verif Require Import Base BaseFacts NumpyModel NumpyFacts TrajModel ParamModel ParamFacts DataModel DataFacts EstModel GeomModel
  JacModel JacSpec JacFacts JacFacts2 LsqModel LsqSpec LsqFacts GhmModel GhmSpec GhmFacts GhmFacts2 GhmFacts3.

Lemma mv_zeros (A : list (list R)) k : mv A (repeat 0 k) = repeat 0 (length A).
Proof. unfold mv. induction A as [|r A IH]; [reflexivity|]. cbn. rewrite IH, dot_zeros_r. reflexivity. Qed.

Lemma zero_products k (x : list R) : length x = k -> map (fun p : R * R => fst p * snd p) (combine (repeat 0 k) x) = repeat 0 k.
Proof. intros <-. induction x as [|y x IH]; [reflexivity|]. cbn. rewrite IH. f_equal. ring. Qed.

Lemma columns_pos e : all_lq_disabled e = false -> (0 < columns e)%nat.
Proof.
  intro H. unfold all_lq_disabled in H. apply Bool.negb_false_iff in H.
  assert (K : any (lq_parameter_filter e) = true).
  { unfold any, lq_parameter_filter in *. cbn [existsb] in H. rewrite Bool.orb_false_r in H.
    rewrite !existsb_app. apply Bool.orb_true_iff in H as [H|H]; [|apply Bool.orb_true_iff in H as [H|H]].
    - unfold helmert_filter. rewrite H. cbn [negb]. unfold helmert_enabled, any in H. rewrite H. reflexivity.
    - cbn [existsb]. rewrite H. rewrite Bool.orb_true_r. reflexivity.
    - unfold leverarm_filter. rewrite H. cbn [negb]. unfold leverarm_enabled, any in H. rewrite H. rewrite !Bool.orb_true_r. reflexivity. }
  unfold columns, count, any in *. apply existsb_exists in K as [b [I B]]. assert (I' : In b (filter (fun b => b) (lq_parameter_filter e))) by (apply filter_In; split; assumption).
  destruct (filter _ _); [destruct I' | cbn; lia].
Qed.

Lemma expand_ones bs : (0 < count (fun b => b) bs)%nat -> expand bs (repeat 1 (count (fun b => b) bs)) <> repeat 0 (length bs).
Proof.
  unfold count. induction bs as [|[] bs IH]; cbn; intro H; [lia| |].
  - intro E. injection E as E _. lra.
  - intro E. injection E as E. exact (IH H E).
Qed.

Section Singular.
  Variable solve : list (list R) -> list R -> result (list R).
  Variable egrad : (list R -> R) -> nat -> list R -> R.
  Hypothesis CS : solve_contract solve.
  Hypothesis CE : egrad_contract egrad.
  Variable pinv : list (list R) -> list (list R).
  Variable init : est_settings -> list R -> result pset.
  Let G := ghm solve egrad pinv init.

  Lemma singular_deltas s d n l w dl Jp : ready s d n -> a_var d = repeat 0 (length (a_var d)) -> all_lq_disabled (a_est d) = false ->
    jacobian (fun q => misclosures (a_est d) (params_of q) n (est_obs_vector d)) (values s) (3 * n) Jp -> determined s n Jp -> length w = (3 * n)%nat ->
    ghm_linearise egrad s d = Ok l -> ghm_deltas solve l d w = Ok dl -> False.
  Proof.
    intros RD Z AD JP DT LW HL HD. unfold ghm_deltas in HD. apply bind_ok in HD as [x [HD _]].
    destruct (design_dims egrad s d n l RD HL) as [LA FA]. destruct (condition_dims egrad s d n l RD HL) as [LB FB].
    destruct (lin_spec egrad s d n l RD HL) as [_ [_ [EB [LV _]]]].
    assert (LBB : length (l_bbt l) = (3 * n)%nat) by (rewrite EB, !mm_length; exact LB).
    assert (FBB : Forall (fun r => length r = (3 * n)%nat) (l_bbt l)) by (rewrite EB; apply mm_rows).
    destruct (deltas_spec solve (columns (a_est d)) w (3 * n) (l_design l) (l_bbt l) x CS LBB FBB LA FA LW HD) as [_ [_ K]].
    set (u := repeat 1 (columns (a_est d))). destruct (K u (repeat_length _ _)) as [z [LZ MZ]].
    assert (Zu : mv (l_design l) u = repeat 0 (3 * n)).
    { rewrite <- MZ, EB. rewrite (mm_mv (3 * n)).
      - rewrite (mm_mv (n * num_obs_per_epoch (a_est d))).
        + rewrite diagonal_mv by (rewrite mv_length, transpose_length; lia). rewrite Z, LV.
          rewrite zero_products by (rewrite mv_length, transpose_length; reflexivity). rewrite mv_zeros, LB. reflexivity.
        + destruct (diagonal_weights (a_var d)) as [_ [F _]]; [rewrite Z; apply Forall_forall; intros y I; apply repeat_spec in I; lra | rewrite <- LV; exact F].
        + destruct (diagonal_weights (a_var d)) as [F _]; [rewrite Z; apply Forall_forall; intros y I; apply repeat_spec in I; lra | rewrite F, LV; exact FB].
        + rewrite mv_length, transpose_length. reflexivity.
      - rewrite <- LB. apply transpose_rows.
      - rewrite transpose_length. apply mm_rows.
      - exact LZ. }
    assert (D := DT (expand (lq_parameter_filter (a_est d)) u) (expand_allowed s d n RD u)).
    rewrite expand_length, lq_filter_length in D.
    refine (expand_ones (lq_parameter_filter (a_est d)) (columns_pos _ AD) _). rewrite lq_filter_length. apply D.
    intros r Hr. rewrite <- (design_product egrad CE s d n l RD HL Jp JP) by (apply repeat_length || exact Hr). rewrite Zu. apply nth_zeros.
  Qed.

  Lemma singular_adjustment ths s d n out Jp : ready s d n -> a_var d = repeat 0 (length (a_var d)) -> all_lq_disabled (a_est d) = false ->
    jacobian (fun q => misclosures (a_est d) (params_of q) n (a_obs d)) (values s) (3 * n) Jp -> determined s n Jp ->
    adjustment G ths s d = Ok out -> False.
  Proof.
    intros RD Z AD JP DT H. unfold adjustment, G in H.
    set (d0 := with_vector d Res (repeat 0 (length (a_obs d)))) in *.
    assert (E0 : est_obs_vector d0 = a_obs d) by (rewrite est_vector_plus; cbn; apply vplus_zeros; reflexivity).
    assert (RD0 : ready s d0 n) by (destruct RD as [R1 R2 R3 R4]; constructor; cbn; try assumption; apply repeat_length).
    apply bind_ok in H as [w [HW H]]. change (ghm_evaluate s d0 = Ok w) in HW.
    apply (evaluate_spec s d0 n w RD0) in HW.
    apply bind_ok in H as [o [HI H]].
    destruct (any_exceeds (repeat Inf 11) ths) eqn:EX0.
    2: { rewrite iterate_stop in HI by exact EX0. injection HI as <-. discriminate H. }
    change 16%nat with (S 15) in HI. rewrite iterate_more in HI by exact EX0.
    apply bind_ok in HI as [l [HL HI]]. apply bind_ok in HI as [dl [HD HI]].
    apply (singular_deltas s d0 n l w dl Jp RD0 Z AD); try assumption; [rewrite E0; exact JP|].
    rewrite HW. apply misclosures_length.
  Qed.

  (** With estimation of the variances, data without any contradiction leave no weights for the second adjustment. *)
  Theorem exact_with_variances ths s d n r Jp Jl : init (a_est d) (a_obs d) = Ok s -> all_lq_disabled (a_est d) = false ->
    ready s d n -> Forall (fun x => 0 < x) (a_var d) -> Forall (fun t => 0 <= t) ths ->
    misclosures (a_est d) (params_of (values s)) n (a_obs d) = repeat 0 (3 * n) ->
    jacobian (fun q => misclosures (a_est d) (params_of q) n (a_obs d)) (values s) (3 * n) Jp ->
    jacobian (misclosures (a_est d) (params_of (values s)) n) (a_obs d) (3 * n) Jl -> determined s n Jp ->
    (3 * n <> num_enabled s)%nat -> estimate G ths true d <> Ok r.
  Proof.
    intros HI AD RD PV FT EX JP JL DT NR H. unfold estimate in H. change (init_parameters G) with init in H. rewrite HI in H. cbn [bind] in H. rewrite AD in H.
    apply bind_ok in H as [out [HR H]]. cbn [recompute] in HR. apply bind_ok in HR as [[[[p1 d1] c1] tr] [HA HR]].
    apply bind_ok in HR as [f [HF HR]]. cbn [negb] in HR.
    destruct (exact_adjustment solve egrad CS CE pinv init ths s d n p1 d1 c1 tr Jp Jl RD PV FT EX JP JL DT HA) as [-> [V [F [-> _]]]].
    change (ghm_variance_factor solve p1 (with_vector d Res (repeat 0 (length (a_obs d)))) = Ok f) in HF.
    assert (LV : length (a_obs d) = length (a_var d)).
    { clear - HA RD CE CS. unfold adjustment, G in HA. apply bind_ok in HA as [w [_ HA]]. apply bind_ok in HA as [o [HI HA]].
      destruct (any_exceeds (repeat Inf 11) ths) eqn:EX0.
      2: { rewrite iterate_stop in HI by exact EX0. injection HI as <-. discriminate HA. }
      change 16%nat with (S 15) in HI. rewrite iterate_more in HI by exact EX0.
      apply bind_ok in HI as [l [HL HI]]. destruct RD as [R1 R2 R3 R4].
      assert (RD0 : ready s (with_vector d Res (repeat 0 (length (a_obs d)))) n) by (constructor; cbn; try assumption; apply repeat_length).
      destruct (lin_spec egrad s _ n l RD0 HL) as [_ [_ [_ [L _]]]]. cbn in L. rewrite R3, L. reflexivity. }
    apply (variance_factor_spec solve p1) in HF; [|exact CS | exact PV | cbn; rewrite repeat_length; exact LV].
    assert (NZ : redundancy p1 (with_vector d Res (repeat 0 (length (a_obs d)))) <> 0%Z).
    { unfold redundancy. cbn [a_est a_obs with_vector]. destruct RD as [_ _ R3 _]. rewrite (epochs_count _ _ n R3), !enabled_count, F, <- enabled_count. lia. }
    destruct HF as [[_ HF]|[HF _]]; [|contradiction]. cbn [a_var a_res with_vector] in HF.
    assert (W0 : forall k var, weighted var (repeat 0 k) = 0).
    { induction k as [|k IH]; intros [|y var]; cbn; try reflexivity. rewrite IH. unfold Rdiv. ring. }
    rewrite W0 in HF. replace (0 / IZR _) with 0 in HF by (unfold Rdiv; ring). subst f.
    assert (OO : off_one (Fin 0) = true).
    { unfold off_one. apply Rltb_true. replace (0 - 1) with (-(1)) by ring. rewrite Rabs_Ropp, Rabs_R1. lra. }
    rewrite OO in HR. apply bind_ok in HR as [o2 [HR _]]. apply bind_ok in HR as [o3 [HA2 _]].
    change (scale_variances G) with (ghm_scale_variances) in HA2. cbn [ghm_scale_variances] in HA2.
    refine (singular_adjustment ths p1 _ n o3 Jp _ _ _ _ _ HA2).
    - destruct RD as [R1 R2 R3 R4]. constructor; cbn; try assumption.
      + assert (L : length (values p1) = length (values s)) by congruence. rewrite !values_all, !map_length in L. congruence.
      + congruence.
      + apply repeat_length.
    - cbn. rewrite map_length. generalize (a_var d). intro u. induction u as [|y u IH]; [reflexivity|]. cbn. rewrite <- IH. f_equal. ring.
    - exact AD.
    - cbn. rewrite V. exact JP.
    - intros dp [A1 A2]. apply DT. split.
      + rewrite A1. assert (L : length (values p1) = length (values s)) by congruence. rewrite !values_all, !map_length in L. exact L.
      + intros j q E1 E2.
        assert (B : nth_error (enabled_bool_list p1) j = Some false) by (rewrite F; unfold enabled_bool_list; rewrite nth_error_map, E1; cbn; congruence).
        unfold enabled_bool_list in B. rewrite nth_error_map in B. destruct (nth_error (ps_params p1) j) as [q'|] eqn:E'; [|discriminate].
        cbn in B. injection B as B. exact (A2 j q' E' B).
  Qed.
End Singular.
