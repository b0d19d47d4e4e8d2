(** Proofs about the covariance of the estimated parameters. *)
From Coq Require Import Ranalysis1.
From Verif Require Import Base BaseFacts NumpyModel NumpyFacts TrajModel ParamModel ParamSpec ParamFacts ParamFacts2 ParamProps DataModel DataFacts EstModel GeomModel
  JacModel JacSpec JacFacts JacFacts2 LsqModel LsqSpec LsqFacts SolveSpec SolveFacts GhmModel GhmSpec GhmFacts GhmFacts2 GhmFacts3 GhmFacts4 GhmFacts5 GhmFacts6 CovSpec.

(** ** Unit vectors *)
Definition unit (n i : nat) : list R := map (fun j => if (j =? i)%nat then 1 else 0) (seq 0 n).
Lemma unit_length n i : length (unit n i) = n.
Proof. unfold unit. rewrite map_length. apply seq_length. Qed.
Lemma nth_unit n i j : (j < n)%nat -> nth j (unit n i) 0 = if (j =? i)%nat then 1 else 0.
Proof.
  intro H. unfold unit. set (f := fun j => if (j =? i)%nat then 1 else 0).
  rewrite (nth_indep _ 0 (f 0%nat)) by (rewrite map_length, seq_length; exact H). rewrite map_nth, seq_nth by exact H. reflexivity.
Qed.
Lemma dot_unit n i u : (i < n)%nat -> length u = n -> dot u (unit n i) = nth i u 0.
Proof.
  intros Hi LU. rewrite <- sum_to_dot by (rewrite unit_length; exact LU). rewrite unit_length.
  rewrite (sum_to_single n _ i Hi); [rewrite nth_unit, Nat.eqb_refl by exact Hi; ring|].
  intros j Hj Dj. rewrite nth_unit by exact Hj. destruct (Nat.eqb_spec j i); [contradiction | ring].
Qed.

(** ** The inverse of the normal matrix propagates the variances *)
Section Propagation.
  Variable solve : list (list R) -> list R -> result (list R).
  Hypothesis CS : solve_contract solve.
  Variables (m n N : nat) (A B : list (list R)) (var : list R).
  Hypothesis LA : length A = m. Hypothesis FA : Forall (fun r => length r = n) A.
  Hypothesis LB : length B = m. Hypothesis FB : Forall (fun r => length r = N) B.
  Hypothesis LV : length var = N. Hypothesis PV : Forall (fun s => 0 < s) var.
  Let bbt := mm m (mm N B (diagonal var)) (transpose N B).
  Variable sols : list (list R).
  Hypothesis LS : length sols = m. Hypothesis FS : Forall (fun r => length r = n) sols.
  Hypothesis KS : forall u, length u = n -> mv bbt (mv sols u) = mv A u.
  Let NM := mm n (transpose n A) sols.
  Hypothesis RN : regular n NM.
  Variable C : list (list R).
  Hypothesis SC : square n C.
  Hypothesis HC : forall x, length x = n -> mv C (mv NM x) = x.

  Lemma normal_mv x : length x = n -> mv NM x = mv (transpose n A) (mv sols x).
  Proof. intro LX. apply mm_mv; [exact FS | rewrite LS, <- LA; apply transpose_rows | exact LX]. Qed.

  Lemma normal_onto i : (i < n)%nat -> exists u, length u = n /\ mv NM u = unit n i.
  Proof.
    intro Hi. destruct (gauss_complete n NM (unit n i) RN (unit_length n i)) as [u E].
    destruct (gauss_contract _ _ _ E) as [LU MU]. exists u. rewrite unit_length in LU. split; assumption.
  Qed.

  Lemma adjoint x y : length x = n -> length y = m -> dot (mv (transpose n A) y) x = dot (mv A x) y.
  Proof. intros LX LY. rewrite dot_comm. apply transpose_adjoint; [exact FA | exact LX | exact (eq_trans LY (eq_sym LA))]. Qed.
  Lemma adjoint_b x y : length x = N -> length y = m -> dot (mv (transpose N B) y) x = dot (mv B x) y.
  Proof. intros LX LY. rewrite dot_comm. apply transpose_adjoint; [exact FB | exact LX | exact (eq_trans LY (eq_sym LB))]. Qed.

  Lemma inverse_entry i j u : (i < n)%nat -> (j < n)%nat -> length u = n -> mv NM u = unit n j -> nth j (nth i C []) 0 = nth i u 0.
  Proof.
    intros Hi Hj LU MU. destruct SC as [LC FC]. assert (E := HC u LU). rewrite MU in E.
    rewrite <- E. rewrite nth_mv by (rewrite LC; exact Hi). symmetry. apply dot_unit; [exact Hj|]. rewrite Forall_forall in FC. apply FC, nth_In. rewrite LC. exact Hi.
  Qed.

  Lemma delta_component i u w delta : (i < n)%nat -> length u = n -> mv NM u = unit n i -> length w = m ->
    parameter_deltas solve n w A bbt = Ok delta -> nth i delta 0 = - dot (mv sols u) w.
  Proof.
    intros Hi LU MU LW HD. destruct (bbt_shape m N B var LB) as [L F]. fold bbt in L, F.
    destruct (deltas_spec solve n w m A bbt delta CS L F LA FA LW HD) as [LD [[y [LY [MY OY]]] _]].
    rewrite <- (dot_unit n i delta Hi LD), <- MU, normal_mv by exact LU. rewrite dot_comm.
    assert (LZ : length (mv sols u) = m) by (rewrite mv_length; exact LS).
    rewrite adjoint by (exact LD || exact LZ).
    assert (E : dot (mv sols u) (mv bbt y) = 0).
    { unfold bbt. rewrite (bbt_symmetric m N A B var w LA LB FB LV PV LW) by assumption. fold bbt. rewrite KS by exact LU. rewrite dot_comm. apply OY, LU. }
    rewrite MY, dot_plus_r in E by (rewrite mv_length; lia). rewrite dot_comm. lra.
  Qed.

  Lemma weighted_sum_dot (x y : list R) : length x = N -> length y = N -> sum_to N (fun c => nth c var 0 * nth c x 0 * nth c y 0) = dot x (mv (diagonal var) y).
  Proof.
    intros LX LY. rewrite diagonal_mv by lia.
    assert (LM : length (map (fun p => fst p * snd p) (combine var y)) = N) by (rewrite map_length, combine_length; lia).
    rewrite <- sum_to_dot by lia. rewrite LM. apply sum_to_ext. intros c Hc.
    replace (nth c (map (fun p : R * R => fst p * snd p) (combine var y)) 0) with (nth c var 0 * nth c y 0); [ring|].
    set (f := fun p : R * R => fst p * snd p) in *. rewrite (nth_indep (map f (combine var y)) 0 (f (0, 0))) by lia. rewrite map_nth, combine_nth by lia. reflexivity.
  Qed.

  Theorem propagated g i j : (i < n)%nat -> (j < n)%nat ->
    (forall c, (c < N)%nat -> parameter_deltas solve n (column_of B c) A bbt = Ok (g c)) ->
    nth j (nth i C []) 0 = sum_to N (fun c => nth c var 0 * nth i (g c) 0 * nth j (g c) 0).
  Proof.
    intros Hi Hj HG. destruct (normal_onto i Hi) as [u [LU MU]]. destruct (normal_onto j Hj) as [v [Lv MV]].
    rewrite (inverse_entry i j v Hi Hj Lv MV).
    assert (LZ : forall x, length (mv sols x) = m) by (intro; rewrite mv_length; exact LS).
    assert (LC : forall c, length (column_of B c) = m) by (intro; unfold column_of; rewrite map_length; exact LB).
    rewrite (sum_to_ext _ _ (fun c => nth c var 0 * nth c (mv (transpose N B) (mv sols u)) 0 * nth c (mv (transpose N B) (mv sols v)) 0)).
    - rewrite weighted_sum_dot by apply bt_length.
      assert (LD := diag_shape N var LV PV). destruct LD as [LD FD].
      rewrite adjoint_b by (rewrite ?mv_length; lia). rewrite <- (bbt_mv m N B var LB FB LV PV) by apply LZ. fold bbt.
      rewrite KS by exact Lv. rewrite <- adjoint by (exact Lv || apply LZ). rewrite <- normal_mv by exact LU. rewrite MU, dot_comm.
      symmetry. apply dot_unit; assumption.
    - intros c Hc. rewrite (delta_component i u _ _ Hi LU MU (LC c) (HG c Hc)), (delta_component j v _ _ Hj Lv MV (LC c) (HG c Hc)).
      rewrite !nth_mv by (rewrite transpose_length; exact Hc). rewrite !transpose_nth by exact Hc. rewrite !(dot_comm (column_of B c)). ring.
  Qed.
End Propagation.

(** ** The stored covariance *)
Section Covariance.
  Variable solve : list (list R) -> list R -> result (list R).
  Variable egrad : (list R -> R) -> nat -> list R -> R.
  Variable pinv : list (list R) -> list (list R).
  Hypothesis CS : solve_contract solve.
  Hypothesis CC : solve_complete solve.
  Hypothesis CE : egrad_contract egrad.
  Hypothesis CP : pinv_contract pinv.
  Variables (s : pset) (d : adata) (n : nat) (l : lin).
  Hypothesis RD : ready s d n.
  Hypothesis HL : ghm_linearise egrad s d = Ok l.
  Hypothesis PV : Forall (fun x => 0 < x) (a_var d).
  Variables (Jp Jl : nat -> nat -> R).
  Hypothesis HP : jacobian (fun q => misclosures (a_est d) (params_of q) n (est_obs_vector d)) (values s) (3 * n) Jp.
  Hypothesis HJ : jacobian (misclosures (a_est d) (params_of (values s)) n) (est_obs_vector d) (3 * n) Jl.
  Hypothesis DT : determined s n Jp.
  Let K := columns (a_est d).
  Let N := (n * num_obs_per_epoch (a_est d))%nat.

  Lemma columns_enabled s1 : enabled_bool_list s1 = enabled_bool_list s -> num_enabled s1 = K.
  Proof. intro E. rewrite enabled_count, E. destruct RD as [_ -> _ _]. reflexivity. Qed.

  Lemma normal_regular sols : solve_columns solve K (l_bbt l) (l_design l) = Ok sols -> regular K (mm K (transpose K (l_design l)) sols).
  Proof.
    intro ESC. destruct (design_dims egrad s d n l RD HL) as [LA FA]. destruct (bbt_regular egrad s d n l RD HL PV) as [[LB FB] _].
    destruct (solve_columns_spec solve _ _ (3 * n) (l_design l) sols CS LB FB LA FA ESC) as [LS [FS KS]].
    split; [split; [rewrite mm_length; apply transpose_length | apply mm_rows]|].
    intros x LX H. assert (RT : Forall (fun r => length r = length sols) (transpose K (l_design l))) by (rewrite LS, <- LA; apply transpose_rows).
    rewrite (mm_mv K _ sols x FS RT LX) in H.
    assert (Z : dot x (mv (transpose K (l_design l)) (mv sols x)) = 0) by (rewrite H; apply dot_zeros_r).
    rewrite (transpose_adjoint K _ x (mv sols x) FA LX) in Z by (rewrite mv_length; lia).
    rewrite <- (KS x LX), dot_comm in Z. apply (bbt_zero egrad s d n l RD HL PV) in Z; [|rewrite mv_length; exact LS].
    rewrite <- LX. apply (design_injective egrad CE s d n l RD HL Jp HP DT); [exact LX|]. rewrite <- (KS x LX), Z, mv_zeros, LB. reflexivity.
  Qed.

  Lemma columns_solved : exists sols, solve_columns solve K (l_bbt l) (l_design l) = Ok sols.
  Proof.
    assert (RB := bbt_regular egrad s d n l RD HL PV). destruct (design_dims egrad s d n l RD HL) as [LA _].
    unfold solve_columns. destruct (mapM_solve solve CC _ _ (transpose K (l_design l)) RB) as [xs ->].
    { rewrite <- LA. apply transpose_rows. }
    cbn. eexists; reflexivity.
  Qed.

  (** The matrix handed to [set_covariance_matrix] is the inverse of the normal matrix. *)
  Lemma stored_inverse s1 s2 : enabled_bool_list s1 = enabled_bool_list s -> ghm_store_variances solve pinv s1 l = Ok s2 ->
    exists sols C, solve_columns solve K (l_bbt l) (l_design l) = Ok sols /\ square K C /\
      (forall x, length x = K -> mv C (mv (mm K (transpose K (l_design l)) sols) x) = x) /\ set_covariance_matrix s1 (as_mat K C) = Ok s2.
  Proof.
    intros EF H. destruct columns_solved as [sols ES]. exists sols. unfold ghm_store_variances in H.
    change (length (values_enabled s1)) with (num_enabled s1) in H. rewrite (columns_enabled s1 EF) in H.
    destruct (Nat.eqb_spec K 1) as [K1|K1].
    - apply bind_ok in H as [sa [ESA H]]. exists [[/ dot (column_of (l_design l) 0) sa]]. split; [exact ES|].
      rewrite K1. split; [split; [reflexivity | repeat constructor]|]. split; [|exact H].
      destruct (design_dims egrad s d n l RD HL) as [LA FA]. assert (RB := bbt_regular egrad s d n l RD HL PV). destruct RB as [[LB FB] IB].
      fold K in FA. destruct (solve_columns_spec solve _ _ (3 * n) (l_design l) sols CS LB FB LA FA ES) as [LS [FS KS]]. rewrite K1 in KS, FS, FA.
      destruct (CS _ _ _ ESA) as [LSA MSA]. unfold column_of in LSA. rewrite map_length, LA in LSA. fold (column_of (l_design l) 0) in *.
      set (a := column_of (l_design l) 0) in *.
      assert (E1 : mv sols [1] = sa).
      { assert (Z : vminus (mv sols [1]) sa = repeat 0 (3 * n)).
        { apply IB; [rewrite vminus_length; rewrite mv_length; lia|]. rewrite (mv_minus (3 * n)) by (rewrite ?mv_length; assumption).
          rewrite KS by reflexivity. rewrite MSA, single_column by exact FA. rewrite vtimes_one. fold a. rewrite vminus_self. unfold a, column_of. rewrite map_length, LA. reflexivity. }
        apply vminus_zero; [rewrite mv_length; lia|]. rewrite Z. clear. induction (3 * n)%nat; cbn; constructor; auto. }
      assert (Z : dot a sa <> 0).
      { intro Z. rewrite <- MSA in Z. rewrite dot_comm in Z. apply (bbt_zero egrad s d n l RD HL PV) in Z; [|exact LSA].
        assert (ZA : mv (l_design l) [1] = repeat 0 (3 * n)).
        { rewrite single_column by exact FA. rewrite vtimes_one. fold a. rewrite <- MSA, Z, mv_zeros, LB. reflexivity. }
        apply (design_injective egrad CE s d n l RD HL Jp HP DT) in ZA; [|fold K; rewrite K1; reflexivity]. cbn in ZA. injection ZA as ZA. lra. }
      intros x LX. destruct x as [|t [|]]; try discriminate LX.
      rewrite (mm_mv 1 _ sols [t] FS) by (reflexivity || (rewrite LS, <- LA; apply transpose_rows)).
      replace [t] with (vtimes t [1]) at 1 by (cbn; f_equal; ring). rewrite mv_times, E1. unfold transpose. cbn [seq map mv]. fold a.
      rewrite dot_times_r. cbn [dot map]. unfold mv. cbn [map]. f_equal. unfold dot. cbn. field. exact Z.
    - apply bind_ok in H as [sols' [ES' H]]. rewrite ES in ES'. injection ES' as <-.
      destruct (CP K _ (normal_regular sols ES)) as [SQ IV].
      exists (pinv (mm K (transpose K (l_design l)) sols)). split; [exact ES|]. split; [exact SQ|]. split; [exact IV | exact H].
  Qed.
End Covariance.

Section Stored.
  Variable solve : list (list R) -> list R -> result (list R).
  Variable egrad : (list R -> R) -> nat -> list R -> R.
  Variable pinv : list (list R) -> list (list R).
  Hypothesis CS : solve_contract solve.
  Hypothesis CC : solve_complete solve.
  Hypothesis CE : egrad_contract egrad.
  Hypothesis CP : pinv_contract pinv.

  Lemma response_column s d n l Jl c : ready s d n -> ghm_linearise egrad s d = Ok l ->
    jacobian (misclosures (a_est d) (params_of (values s)) n) (est_obs_vector d) (3 * n) Jl -> (c < length (a_obs d))%nat ->
    response (3 * n) Jl c = column_of (l_condition l) c.
  Proof.
    intros RD HL HJ Hc. destruct (condition_dims egrad s d n l RD HL) as [LB _]. assert (LE := est_vector_length s d n RD).
    assert (LO : length (a_obs d) = (n * num_obs_per_epoch (a_est d))%nat) by apply RD. rewrite LO in Hc.
    apply nth_error_ext. intro r. unfold response, column_of. rewrite !nth_error_map.
    destruct (Nat.lt_ge_cases r (3 * n)) as [Hr|Hr].
    - destruct (nth_error_lt_Some (l_condition l) r ltac:(lia)) as [row E]. rewrite E.
      rewrite (nth_error_nth' _ 0%nat) by (rewrite seq_length; exact Hr). rewrite seq_nth by exact Hr. cbn [option_map plus]. f_equal.
      apply (nth_error_nth _ _ []) in E. rewrite <- E. destruct (lin_spec egrad s d n l RD HL) as [_ [-> _]]. rewrite dense_nth by assumption.
      assert (P1 := condition_partial egrad (a_est d) (params_of (values s)) (est_obs_vector d) n r c CE LE Hr ltac:(rewrite LE; exact Hc)).
      assert (P2 := HJ r c Hr ltac:(rewrite LE; exact Hc)). exact (uniqueness_limite _ _ _ _ P2 P1).
    - rewrite (proj2 (nth_error_None (seq 0 (3 * n)) r)) by (rewrite seq_length; exact Hr).
      rewrite (proj2 (nth_error_None (l_condition l) r)) by lia. reflexivity.
  Qed.

  Lemma as_mat_at k m i j : m_at (as_mat k m) i j = nth j (nth i m []) 0.
  Proof. reflexivity. Qed.

  Section One.
    Variables (s : pset) (d : adata) (n : nat) (l : lin) (s1 s2 : pset).
    Hypothesis RD : ready s d n.
    Hypothesis HL : ghm_linearise egrad s d = Ok l.
    Hypothesis PV : Forall (fun x => 0 < x) (a_var d).
    Variables (Jp : nat -> nat -> R).
    Hypothesis HP : jacobian (fun q => misclosures (a_est d) (params_of q) n (est_obs_vector d)) (values s) (3 * n) Jp.
    Hypothesis DT : determined s n Jp.
    Hypothesis EF : enabled_bool_list s1 = enabled_bool_list s.
    Hypothesis HS : ghm_store_variances solve pinv s1 l = Ok s2.
    Let K := columns (a_est d).

    Lemma stored_matrix : exists m sols C, get_covariance s2 true = Ok m /\ square_of K m /\ variances_enabled s2 = np_diag (as_mat K C) /\
      (forall i j, (i < K)%nat -> (j < K)%nat -> m_at m i j = nth j (nth i C []) 0) /\
      solve_columns solve K (l_bbt l) (l_design l) = Ok sols /\ square K C /\
      (forall x, length x = K -> mv C (mv (mm K (transpose K (l_design l)) sols) x) = x).
    Proof.
      destruct (stored_inverse solve egrad pinv CS CC CE CP s d n l RD HL PV Jp HP DT s1 s2 EF HS) as (sols & C & ES & SQ & IV & SC).
      fold K in ES, SQ, IV, SC. assert (NE := columns_enabled s d n RD s1 EF). fold K in NE.
      destruct (proj1 (C36_covariance s1 (as_mat K C))) as (s2' & E & (m & G & (M1 & M2 & M3)) & V & _); [rewrite NE; split; reflexivity|].
      rewrite E in SC. injection SC as ->. exists m, sols, C. cbn [m_rows m_cols as_mat] in M1, M2.
      split; [exact G|]. split; [split; assumption|]. split; [exact V|]. split; [|split; [exact ES|split; [exact SQ|exact IV]]].
      intros i j Hi Hj. rewrite M3 by lia. reflexivity.
    Qed.

    Theorem stored_propagated Jl : jacobian (misclosures (a_est d) (params_of (values s)) n) (est_obs_vector d) (3 * n) Jl ->
      exists g m, (forall c, (c < length (a_obs d))%nat -> ghm_deltas solve l d (response (3 * n) Jl c) = Ok (map Fin (g c)) /\ length (g c) = num_enabled s) /\
        get_covariance s2 true = Ok m /\ square_of (num_enabled s) m /\
        forall i j, (i < num_enabled s)%nat -> (j < num_enabled s)%nat ->
          m_at m i j = sum_to (length (a_obs d)) (fun c => nth c (a_var d) 0 * nth i (g c) 0 * nth j (g c) 0).
    Proof.
      intro HJ. destruct stored_matrix as (m & sols & C & G & SQ & _ & ME & ES & SC & IV).
      assert (NE := columns_enabled s d n RD s eq_refl). fold K in NE. rewrite NE.
      assert (LO : length (a_obs d) = (n * num_obs_per_epoch (a_est d))%nat) by apply RD.
      assert (DL : forall w, length w = (3 * n)%nat -> exists x, ghm_deltas solve l d w = Ok (map Fin x) /\ length x = K)
        by (intros w LW; exact (deltas_ok solve egrad CS CC CE s d n l RD HL PV Jp HP DT w LW)).
      assert (LR : forall c, length (response (3 * n) Jl c) = (3 * n)%nat) by (intro; unfold response; rewrite map_length; apply seq_length).
      exists (fun c => match parameter_deltas solve K (response (3 * n) Jl c) (l_design l) (l_bbt l) with Ok x => x | Err _ => [] end), m.
      assert (DX : forall c, exists x, parameter_deltas solve K (response (3 * n) Jl c) (l_design l) (l_bbt l) = Ok x /\ length x = K).
      { intro c. destruct (DL _ (LR c)) as (x & E & LX). unfold ghm_deltas in E. apply bind_ok in E as [y [Y E]]. fold K in Y. exists y. split; [exact Y|].
        injection E as E. assert (length (map Fin y) = length (map Fin x)) by congruence. rewrite !map_length in H. congruence. }
      split; [|split; [exact G|split; [exact SQ|]]].
      - intros c _. destruct (DX c) as (x & E & LX). rewrite E. split; [|exact LX]. unfold ghm_deltas. fold K. rewrite E. reflexivity.
      - intros i j Hi Hj. rewrite ME by assumption. rewrite LO.
        destruct (design_dims egrad s d n l RD HL) as [LA FA]. destruct (condition_dims egrad s d n l RD HL) as [LB FB].
        destruct (lin_spec egrad s d n l RD HL) as [_ [_ [EB [LV _]]]]. fold K in FA.
        destruct (bbt_regular egrad s d n l RD HL PV) as [[LBB FBB] _].
        destruct (solve_columns_spec solve _ _ (3 * n) (l_design l) sols CS LBB FBB LA FA ES) as [LS [FS KS]].
        assert (RN := normal_regular solve egrad CS CE s d n l RD HL PV Jp HP DT sols ES). fold K in RN.
        rewrite EB in KS.
        refine (propagated solve CS (3 * n) K _ (l_design l) (l_condition l) (a_var d) LA FA LB FB LV PV sols LS FS KS RN C SC IV _ i j Hi Hj _).
        intros c Hc. rewrite (response_column s d n l Jl c RD HL HJ) by (rewrite LO; exact Hc).
        destruct (DX c) as (x & E & LX). rewrite (response_column s d n l Jl c RD HL HJ) in E by (rewrite LO; exact Hc).
        rewrite E. rewrite EB in E. exact E.
    Qed.

    (** Every linear combination of the parameters has a positive variance. *)
    Theorem stored_positive : exists m, get_covariance s2 true = Ok m /\ variances_enabled s2 = map (fun i => m_at m i i) (seq 0 (num_enabled s)) /\
      (forall i j, (i < num_enabled s)%nat -> (j < num_enabled s)%nat -> m_at m i j = m_at m j i) /\
      forall x, length x = num_enabled s -> x <> repeat 0 (num_enabled s) ->
        0 < sum_to (num_enabled s) (fun i => nth i x 0 * sum_to (num_enabled s) (fun j => m_at m i j * nth j x 0)).
    Proof.
      destruct stored_matrix as (m & sols & C & G & [SQ1 SQ2] & V & ME & ES & SC & IV).
      assert (NE := columns_enabled s d n RD s eq_refl). fold K in NE. rewrite NE.
      exists m. split; [exact G|]. split.
      { rewrite V. unfold np_diag. cbn [m_rows m_cols as_mat]. rewrite Nat.min_id. apply map_ext_in. intros i I. apply in_seq in I. rewrite ME by lia. reflexivity. }
      destruct (design_dims egrad s d n l RD HL) as [LA FA]. fold K in FA.
      destruct (bbt_regular egrad s d n l RD HL PV) as [[LBB FBB] _].
      destruct (solve_columns_spec solve _ _ (3 * n) (l_design l) sols CS LBB FBB LA FA ES) as [LS [FS KS]].
      assert (RN := normal_regular solve egrad CS CE s d n l RD HL PV Jp HP DT sols ES). fold K in RN.
      destruct (condition_dims egrad s d n l RD HL) as [LB FB]. destruct (lin_spec egrad s d n l RD HL) as [_ [_ [EB [LV _]]]].
      assert (LZ : forall x, length (mv sols x) = (3 * n)%nat) by (intro; rewrite mv_length; exact LS).
      assert (NP : forall x y, length x = K -> length y = K -> dot (mv (mm K (transpose K (l_design l)) sols) x) y = dot (mv sols x) (mv (l_bbt l) (mv sols y))).
      { intros x y LX LY. rewrite (normal_mv (3 * n) K (l_design l) LA sols LS FS) by exact LX. rewrite (adjoint (3 * n) K (l_design l) LA FA) by (exact LY || apply LZ).
        rewrite <- KS by exact LY. apply dot_comm. }
      split.
      - intros i j Hi Hj. rewrite !ME by assumption.
        destruct (normal_onto K (l_design l) sols RN i Hi) as (u & LU & MU). destruct (normal_onto K (l_design l) sols RN j Hj) as (v & Lv & MV).
        rewrite (inverse_entry K (l_design l) sols C SC IV i j v Hi Hj Lv MV), (inverse_entry K (l_design l) sols C SC IV j i u Hj Hi LU MU).
        rewrite <- (dot_unit K i v Hi Lv), <- (dot_unit K j u Hj LU), <- MU, <- MV. rewrite (dot_comm v), (dot_comm u), !NP by assumption.
        rewrite EB. apply (bbt_symmetric (3 * n) _ (l_design l) (l_condition l) (a_var d) (repeat 0 (3 * n)) LA LB FB LV PV (repeat_length _ _)); apply LZ.
      - intros x LX NZ.
        assert (EX : sum_to K (fun i => nth i x 0 * sum_to K (fun j => m_at m i j * nth j x 0)) = dot x (mv C x)).
        { destruct SC as [LC FC]. rewrite dot_comm. rewrite <- sum_to_dot by (rewrite mv_length; lia). rewrite LX. apply sum_to_ext. intros i Hi.
          rewrite nth_mv by lia. assert (LRo : length (nth i C []) = K) by (rewrite Forall_forall in FC; apply FC, nth_In; lia).
          rewrite <- sum_to_dot by lia. rewrite LX, Rmult_comm. f_equal. apply sum_to_ext. intros j Hj. rewrite ME by assumption. reflexivity. }
        rewrite EX. destruct (gauss_complete K _ x RN LX) as [y EY]. destruct (gauss_contract _ _ _ EY) as [LY MY]. rewrite LX in LY.
        rewrite <- MY, IV by exact LY. rewrite NP by exact LY.
        assert (NN : 0 <= dot (mv sols y) (mv (l_bbt l) (mv sols y))).
        { rewrite (bbt_product egrad s d n l RD HL PV) by apply LZ. rewrite <- weighted_product_self. apply weighted_nonneg, PV. }
        destruct NN as [NN|Z]; [exact NN|exfalso]. symmetry in Z. apply (bbt_zero egrad s d n l RD HL PV) in Z; [|apply LZ].
        apply NZ. rewrite <- MY, (normal_mv (3 * n) K (l_design l) LA sols LS FS) by exact LY. rewrite Z, mv_zeros, transpose_length. reflexivity.
    Qed.
  End One.
End Stored.

(** ** A matrix inverse that meets the contract *)
Definition gauss_pinv (N : mat) : mat :=
  match solve_columns gauss (length N) N (diagonal (repeat 1 (length N))) with Ok P => P | Err _ => [] end.
Lemma gauss_pinv_contract : pinv_contract gauss_pinv.
Proof.
  intros n N RN. destruct RN as [[LN FN] IN]. assert (RN : regular n N) by (split; [split|]; assumption). unfold gauss_pinv. rewrite LN.
  destruct (diagonal_weights (repeat 1 n)) as [LD [FD _]].
  { apply Forall_forall. intros x I. apply repeat_spec in I. lra. }
  rewrite repeat_length in LD, FD.
  assert (E : exists P, solve_columns gauss n N (diagonal (repeat 1 n)) = Ok P).
  { unfold solve_columns. destruct (mapM_solve gauss gauss_complete n N (transpose n (diagonal (repeat 1 n))) RN) as [xs ->].
    - assert (F := transpose_rows n (diagonal (repeat 1 n))). rewrite LD in F. exact F.
    - cbn. eexists; reflexivity. }
  destruct E as [P E]. rewrite E.
  destruct (solve_columns_spec gauss n N n _ P gauss_contract LN FN LD FD E) as [LP [FP KP]].
  split; [split; assumption|]. intros x LX.
  assert (LNx : length (mv N x) = n) by (rewrite mv_length; exact LN).
  assert (LPx : length (mv P (mv N x)) = n) by (rewrite mv_length; exact LP).
  assert (Z : vminus (mv P (mv N x)) x = repeat 0 n).
  { apply IN; [rewrite vminus_length; lia|]. rewrite (mv_minus n) by assumption. rewrite KP by exact LNx. rewrite diagonal_ones by exact LNx.
    rewrite vminus_self, LNx. reflexivity. }
  apply vminus_zero; [lia|]. rewrite Z. clear. induction n; cbn; constructor; auto.
Qed.

(** ** Other variances *)
Section Rescaled.
  Variable solve : list (list R) -> list R -> result (list R).
  Variable egrad : (list R -> R) -> nat -> list R -> R.
  Variable pinv : list (list R) -> list (list R).
  Hypothesis CS : solve_contract solve.
  Hypothesis CC : solve_complete solve.
  Hypothesis CE : egrad_contract egrad.
  Hypothesis CP : pinv_contract pinv.

  Lemma diagonal_scaled c var x : length var = length x -> mv (diagonal (map (fun v => v * c) var)) x = vtimes c (mv (diagonal var) x).
  Proof.
    intro L. rewrite !diagonal_mv by (rewrite ?map_length; exact L). unfold vtimes. rewrite map_map. revert x L.
    induction var as [|v var IH]; intros [|y x] L; cbn in *; try discriminate; [reflexivity|]. rewrite IH by lia. f_equal. ring.
  Qed.

  Theorem stored_rescaled s d n c l l' s1 s2 s2' Jp : ready s d n -> 0 < c -> Forall (fun x => 0 < x) (a_var d) ->
    jacobian (fun q => misclosures (a_est d) (params_of q) n (est_obs_vector d)) (values s) (3 * n) Jp -> determined s n Jp ->
    ghm_linearise egrad s d = Ok l -> ghm_linearise egrad s (rescaled c d) = Ok l' -> enabled_bool_list s1 = enabled_bool_list s ->
    ghm_store_variances solve pinv s1 l = Ok s2 -> ghm_store_variances solve pinv s1 l' = Ok s2' ->
    exists m m', get_covariance s2 true = Ok m /\ get_covariance s2' true = Ok m' /\ square_of (num_enabled s) m /\ square_of (num_enabled s) m' /\
      forall i j, (i < num_enabled s)%nat -> (j < num_enabled s)%nat -> m_at m' i j = c * m_at m i j.
  Proof.
    intros RD Hc PV HP DT HL HL' EF HS HS'.
    assert (RD' : ready s (rescaled c d) n) by (destruct RD; constructor; assumption).
    assert (PV' : Forall (fun x => 0 < x) (a_var (rescaled c d))) by (apply rescaled_pos; assumption).
    destruct (stored_matrix solve egrad pinv CS CC CE CP s d n l s1 s2 RD HL PV Jp HP DT EF HS) as (m & sols & C & G & SQ & _ & ME & ES & SC & IV).
    destruct (stored_matrix solve egrad pinv CS CC CE CP s (rescaled c d) n l' s1 s2' RD' HL' PV' Jp HP DT EF HS') as (m' & sols' & C' & G' & SQ' & _ & ME' & ES' & SC' & IV').
    change (a_est (rescaled c d)) with (a_est d) in *. set (K := columns (a_est d)) in *.
    assert (NE := columns_enabled s d n RD s eq_refl). fold K in NE. rewrite NE.
    exists m, m'. split; [exact G|]. split; [exact G'|]. split; [exact SQ|]. split; [exact SQ'|]. intros i j Hi Hj. rewrite ME, ME' by assumption.
    destruct (lin_spec egrad s d n l RD HL) as [EA [EC [EB [LV _]]]]. destruct (lin_spec egrad s (rescaled c d) n l' RD' HL') as [EA' [EC' [EB' [LV' _]]]].
    change (a_est (rescaled c d)) with (a_est d) in *. change (est_obs_vector (rescaled c d)) with (est_obs_vector d) in *.
    assert (AA : l_design l' = l_design l) by congruence. assert (BB : l_condition l' = l_condition l) by congruence. rewrite AA in ES', IV'. clear EA EA' EC EC'.
    destruct (design_dims egrad s d n l RD HL) as [LA FA]. destruct (condition_dims egrad s d n l RD HL) as [LB FB]. fold K in FA.
    destruct (bbt_regular egrad s d n l RD HL PV) as [[LBB FBB] IB]. destruct (bbt_regular egrad s (rescaled c d) n l' RD' HL' PV') as [[LBB' FBB'] _].
    destruct (solve_columns_spec solve _ _ (3 * n) (l_design l) sols CS LBB FBB LA FA ES) as [LS [FS KS]].
    destruct (solve_columns_spec solve _ _ (3 * n) (l_design l) sols' CS LBB' FBB' LA FA ES') as [LS' [FS' KS']].
    assert (RN := normal_regular solve egrad CS CE s d n l RD HL PV Jp HP DT sols ES). fold K in RN.
    assert (BV : forall y, length y = (3 * n)%nat -> mv (l_bbt l') y = vtimes c (mv (l_bbt l) y)).
    { intros y LY. rewrite EB', EB, BB. rewrite (bbt_mv (3 * n) _ (l_condition l) _ LB FB LV' PV') by exact LY. rewrite (bbt_mv (3 * n) _ (l_condition l) _ LB FB LV PV) by exact LY.
      change (a_var (rescaled c d)) with (map (fun x => x * c) (a_var d)). rewrite diagonal_scaled by (rewrite bt_length; exact LV). apply mv_times. }
    assert (SV : forall u, length u = K -> mv sols u = vtimes c (mv sols' u)).
    { intros u LU. apply vminus_zero; [rewrite vtimes_length, !mv_length; lia|].
      assert (Z : vminus (mv sols u) (vtimes c (mv sols' u)) = repeat 0 (3 * n)).
      { apply IB; [rewrite vminus_length; rewrite ?vtimes_length, !mv_length; lia|]. rewrite (mv_minus (3 * n)) by (rewrite ?vtimes_length, ?mv_length; assumption).
        rewrite KS, mv_times, <- BV, KS', vminus_self, mv_length, LA by (exact LU || (rewrite mv_length; exact LS')). reflexivity. }
      rewrite Z. clear. induction (3 * n)%nat; cbn; constructor; auto. }
    destruct (normal_onto K (l_design l) sols RN j Hj) as (u & LU & MU).
    rewrite (inverse_entry K (l_design l) sols C SC IV i j u Hi Hj LU MU).
    assert (MU' : mv (mm K (transpose K (l_design l)) sols') (vtimes c u) = unit K j).
    { rewrite <- MU. rewrite (normal_mv (3 * n) K (l_design l) LA sols LS FS) by exact LU.
      rewrite (normal_mv (3 * n) K (l_design l) LA sols' LS' FS') by (rewrite vtimes_length; exact LU).
      rewrite SV by exact LU. rewrite mv_times. reflexivity. }
    rewrite (inverse_entry K (l_design l) sols' C' SC' IV' i j (vtimes c u) Hi Hj ltac:(rewrite vtimes_length; exact LU) MU').
    unfold vtimes. rewrite (nth_indep _ 0 (c * 0)) by (rewrite map_length; lia). rewrite (map_nth (fun x => c * x)). reflexivity.
  Qed.
End Rescaled.

(** ** A whole adjustment *)
Section Run.
  Variable solve : list (list R) -> list R -> result (list R).
  Variable egrad : (list R -> R) -> nat -> list R -> R.
  Variable pinv : list (list R) -> list (list R).
  Variable init : est_settings -> list R -> result pset.
  Hypothesis CS : solve_contract solve.
  Let G := ghm solve egrad pinv init.

  Lemma ready_next s d n l w dl v s' d' : ready s d n -> ghm_linearise egrad s d = Ok l -> ghm_deltas solve l d w = Ok dl -> ghm_residuals solve l d dl w = Ok v ->
    set_res d v = Ok d' -> ghm_add_deltas s dl = Ok s' ->
    ready s' d' n /\ a_est d' = a_est d /\ a_obs d' = a_obs d /\ a_var d' = a_var d /\ enabled_bool_list s' = enabled_bool_list s /\
    exists x, dl = map Fin x /\ values s' = vplus (values s) (expand (enabled_bool_list s) x).
  Proof.
    intros RD HL HD HR HS HA. unfold ghm_deltas in HD. apply bind_ok in HD as [x [X HD]]. injection HD as <-.
    destruct (add_deltas_spec s x s' HA) as [V [F LX]]. unfold set_res in HS. destruct (divisible _ _); [|discriminate]. injection HS as <-.
    assert (LP : length (ps_params s') = length (ps_params s)).
    { assert (E : length (enabled_bool_list s') = length (enabled_bool_list s)) by congruence. unfold enabled_bool_list in E. rewrite !map_length in E. exact E. }
    destruct (lin_spec egrad s d n l RD HL) as [_ [_ [_ [LV _]]]].
    split; [|split; [reflexivity|split; [reflexivity|split; [reflexivity|split; [exact F|exists x; split; [reflexivity|exact V]]]]]].
    destruct RD as [R1 R2 R3 R4]. constructor; cbn [with_vector a_est a_obs a_res].
    - congruence.
    - congruence.
    - exact R3.
    - unfold ghm_residuals in HR. rewrite finite_map in HR. cbn [bind] in HR. apply bind_ok in HR as [k [_ HR]]. injection HR as <-.
      rewrite mv_length, mm_length. assert (LD : length (diagonal (a_var d)) = length (a_var d)).
      { unfold diagonal, enumerate. rewrite map_length, combine_length, seq_length. apply Nat.min_id. }
      rewrite LD, LV, R3. reflexivity.
  Qed.

  Lemma iterate_last ths left : forall s d w dl li n s' d' conv l tr, ready s d n -> iterate G ths left s d w dl li = Ok (s', d', conv, Some l, tr) ->
    (s' = s /\ d' = d /\ li = Some l /\ tr = []) \/
    exists s0 d0 x, ready s0 d0 n /\ a_est d0 = a_est d /\ a_obs d0 = a_obs d /\ a_var d0 = a_var d /\ enabled_bool_list s0 = enabled_bool_list s /\
      ghm_linearise egrad s0 d0 = Ok l /\ last tr [] = map Fin x /\ tr <> [] /\
      values s' = vplus (values s0) (expand (enabled_bool_list s) x) /\ enabled_bool_list s' = enabled_bool_list s /\ a_var d' = a_var d.
  Proof.
    induction left as [|left IH]; intros s d w dl li n s' d' conv l tr RD H.
    - cbn [iterate] in H. destruct (any_exceeds dl ths); injection H as <- <- <- -> <-; left; auto.
    - destruct (any_exceeds dl ths) eqn:E.
      2: { rewrite (iterate_stop solve egrad pinv init) in H by exact E. injection H as <- <- <- -> <-. left; auto. }
      rewrite (iterate_more solve egrad pinv init) in H by exact E. right.
      apply bind_ok in H as [l1 [HL H]]. apply bind_ok in H as [dl1 [HD H]]. apply bind_ok in H as [v [HR H]].
      apply bind_ok in H as [d1 [HS H]]. apply bind_ok in H as [s1 [HA H]]. apply bind_ok in H as [f [HF H]].
      apply bind_ok in H as [w1 [HC H]]. apply bind_ok in H as [[[[[s2 d2] c2] l2] tr2] [HI HO]]. cbn [fst snd] in HO. injection HO as <- <- <- -> <-.
      destruct (ready_next s d n l1 w dl1 v s1 d1 RD HL HD HR HS HA) as (RD1 & E1 & E2 & E3 & E4 & x & EX & V).
      destruct (IH _ _ _ _ _ _ _ _ _ _ _ RD1 HI) as [(-> & -> & EL & ->)|(s0 & d0 & y & A1 & A2 & A3 & A4 & A5 & A6 & A7 & A8 & A9 & A10 & A11)].
      + injection EL as <-. exists s, d, x. split; [exact RD|]. repeat (split; [reflexivity|]). split; [exact HL|]. split; [cbn; exact EX|].
        split; [discriminate|]. split; [exact V|]. split; [exact E4 | exact E3].
      + exists s0, d0, y. split; [exact A1|]. split; [congruence|]. split; [congruence|]. split; [congruence|]. split; [congruence|]. split; [exact A6|].
        split; [destruct tr2; [contradiction|exact A7]|]. split; [discriminate|]. split; [rewrite <- E4; exact A9|]. split; congruence.
  Qed.

  Theorem run_last ths s d n s' d' conv tr : ready s d n -> adjustment G ths s d = Ok (s', d', conv, tr) ->
    exists s0 d0 x l s1, ready s0 d0 n /\ a_est d0 = a_est d /\ a_obs d0 = a_obs d /\ a_var d0 = a_var d /\ enabled_bool_list s0 = enabled_bool_list s /\
      ghm_linearise egrad s0 d0 = Ok l /\ last tr [] = map Fin x /\ values s' = vplus (values s0) (expand (enabled_bool_list s) x) /\
      enabled_bool_list s1 = enabled_bool_list s0 /\ ghm_store_variances solve pinv s1 l = Ok s' /\ enabled_bool_list s' = enabled_bool_list s.
  Proof.
    intros RD H. unfold adjustment in H. set (d0 := with_vector d Res (repeat 0 (length (a_obs d)))) in *.
    assert (RD0 : ready s d0 n) by (destruct RD as [R1 R2 R3 R4]; constructor; cbn; try assumption; apply repeat_length).
    apply bind_ok in H as [w [HW H]]. apply bind_ok in H as [[[[[p1 d1] c1] [l|]] tr1] [HI H]]; [|discriminate].
    apply bind_ok in H as [p2 [HV H]]. injection H as <- <- <- <-. change (ghm_store_variances solve pinv p1 l = Ok p2) in HV.
    destruct (store_values solve pinv p1 l p2 HV) as [V2 F2].
    destruct (iterate_last _ _ _ _ _ _ _ _ _ _ _ _ _ RD0 HI) as [(_ & _ & EL & _)|(s0 & d2 & x & A1 & A2 & A3 & A4 & A5 & A6 & A7 & A8 & A9 & A10 & A11)]; [discriminate|].
    exists s0, d2, x, l, p1. split; [exact A1|]. split; [exact A2|]. split; [exact A3|]. split; [exact A4|]. split; [exact A5|]. split; [exact A6|]. split; [exact A7|].
    split; [congruence|]. split; [congruence|]. split; [exact HV | congruence].
  Qed.

  Lemma iterate_ready ths left : forall s d w dl li n s' d' conv l tr, ready s d n -> iterate G ths left s d w dl li = Ok (s', d', conv, l, tr) ->
    ready s' d' n /\ a_est d' = a_est d /\ a_obs d' = a_obs d /\ a_var d' = a_var d /\ enabled_bool_list s' = enabled_bool_list s.
  Proof.
    induction left as [|left IH]; intros s d w dl li n s' d' conv l tr RD H.
    - cbn [iterate] in H. destruct (any_exceeds dl ths); injection H as <- <- <- <- <-; auto.
    - destruct (any_exceeds dl ths) eqn:E.
      2: { rewrite (iterate_stop solve egrad pinv init) in H by exact E. injection H as <- <- <- <- <-. auto. }
      rewrite (iterate_more solve egrad pinv init) in H by exact E.
      apply bind_ok in H as [l1 [HL H]]. apply bind_ok in H as [dl1 [HD H]]. apply bind_ok in H as [v [HR H]].
      apply bind_ok in H as [d1 [HS H]]. apply bind_ok in H as [s1 [HA H]]. apply bind_ok in H as [f [HF H]].
      apply bind_ok in H as [w1 [HC H]]. apply bind_ok in H as [[[[[s2 d2] c2] l2] tr2] [HI HO]]. cbn [fst snd] in HO. injection HO as <- <- <- <- <-.
      destruct (ready_next s d n l1 w dl1 v s1 d1 RD HL HD HR HS HA) as (RD1 & E1 & E2 & E3 & E4 & _).
      destruct (IH _ _ _ _ _ _ _ _ _ _ _ RD1 HI) as (A1 & A2 & A3 & A4 & A5). split; [exact A1|]. repeat split; congruence.
  Qed.

  Lemma run_ready ths s d n s' d' conv tr : ready s d n -> adjustment G ths s d = Ok (s', d', conv, tr) ->
    ready s' d' n /\ a_est d' = a_est d /\ a_obs d' = a_obs d /\ a_var d' = a_var d /\ enabled_bool_list s' = enabled_bool_list s.
  Proof.
    intros RD H. unfold adjustment in H. set (d0 := with_vector d Res (repeat 0 (length (a_obs d)))) in *.
    assert (RD0 : ready s d0 n) by (destruct RD as [R1 R2 R3 R4]; constructor; cbn; try assumption; apply repeat_length).
    apply bind_ok in H as [w [HW H]]. apply bind_ok in H as [[[[[p1 d1] c1] [l|]] tr1] [HI H]]; [|discriminate].
    apply bind_ok in H as [p2 [HV H]]. injection H as <- <- <- <-. change (ghm_store_variances solve pinv p1 l = Ok p2) in HV.
    destruct (store_values solve pinv p1 l p2 HV) as [V2 F2].
    destruct (iterate_ready _ _ _ _ _ _ _ _ _ _ _ _ _ RD0 HI) as ([R1 R2 R3 R4] & A2 & A3 & A4 & A5).
    assert (LP : length (ps_params p2) = length (ps_params p1)).
    { assert (E : length (enabled_bool_list p2) = length (enabled_bool_list p1)) by congruence. unfold enabled_bool_list in E. rewrite !map_length in E. exact E. }
    split; [constructor; [rewrite LP; exact R1|rewrite F2; exact R2|exact R3|exact R4]|]. split; [exact A2|]. split; [exact A3|]. split; [exact A4|]. rewrite F2. exact A5.
  Qed.

  (** The last run of the loop over variances: it starts from variances multiplied by a common factor. *)
  Lemma recompute_last ths ve left : forall s d n conv p d' conv' runs, ready s d n -> recompute G ths ve left s d conv = Ok (p, d', conv', runs) -> (0 < left)%nat ->
    exists f s1 d1 d2 tr, ready s1 d1 n /\ a_est d1 = a_est d /\ a_obs d1 = a_obs d /\ a_var d1 = map (fun v => v * f) (a_var d) /\ enabled_bool_list s1 = enabled_bool_list s /\
      adjustment G ths s1 d1 = Ok (p, d2, conv', tr) /\ last runs [] = tr /\ (ve = false -> f = 1) /\ ((length runs <= 1)%nat -> f = 1).
  Proof.
    induction left as [|left IH]; intros s d n conv p d' conv' runs RD H L; [lia|].
    cbn [recompute] in H. apply bind_ok in H as [[[[p1 d1] c1] tr] [HA H]]. apply bind_ok in H as [f [HF H]].
    assert (ONE : map (fun v => v * 1) (a_var d) = a_var d) by (rewrite <- (map_id (a_var d)) at 2; apply map_ext; intro v; ring).
    destruct ve; cbn [negb] in H.
    2: { injection H as <- <- <- <-. exists 1, s, d, d1, tr. rewrite ONE. split; [exact RD|]. repeat (split; [reflexivity|]). split; [exact HA|]. repeat split. }
    destruct (off_one f) eqn:O.
    2: { injection H as <- <- <- <-. exists 1, s, d, d1, tr. rewrite ONE. split; [exact RD|]. repeat (split; [reflexivity|]). split; [exact HA|]. repeat split. }
    apply bind_ok in H as [[[[p2 d2] c2] trs] [HR H]]. cbn [fst snd] in H. injection H as <- <- <- <-.
    destruct (run_ready ths s d n p1 d1 c1 tr RD HA) as (RD1 & E1 & E2 & E3 & E4).
    destruct left as [|left].
    - cbn [recompute] in HR. injection HR as <- <- <- <-. exists 1, s, d, d1, tr. rewrite ONE. split; [exact RD|]. repeat (split; [reflexivity|]). split; [exact HA|]. repeat split.
    - set (dn := with_vector d1 Var _) in HR. assert (RDn : ready p1 dn n) by (destruct RD1; constructor; assumption).
      destruct (IH p1 dn n c1 p2 d2 c2 trs RDn HR ltac:(lia)) as (f' & s1 & d3 & d4 & tr' & A1 & A2 & A3 & A4 & A5 & A6 & A7 & _ & _).
      assert (FF : exists g, a_var dn = map (fun v => v * g) (a_var d)).
      { unfold dn. cbn [with_vector a_var]. change (scale_variances G) with ghm_scale_variances. destruct f as [r| |]; cbn [ghm_scale_variances]; rewrite E3; [exists r; reflexivity|exists 1; symmetry; exact ONE|exists 1; symmetry; exact ONE]. }
      destruct FF as (g & FF). exists (g * f'), s1, d3, d4, tr'. split; [exact A1|]. split; [rewrite A2; exact E1|]. split; [rewrite A3; exact E2|]. split; [rewrite A4, FF, map_map; apply map_ext; intro v; ring|].
      split; [congruence|]. split; [exact A6|]. 
      assert (NT : trs <> []). { cbn [recompute] in HR. apply bind_ok in HR as [[[[? ?] ?] ?] [_ HR]]. apply bind_ok in HR as [? [_ HR]]. cbn [negb] in HR. match type of HR with (if ?c then _ else _) = _ => destruct c end; [apply bind_ok in HR as [[[[? ?] ?] ?] [_ HR]]|]; cbn [fst snd] in HR; intro Z; subst trs; discriminate HR. }
      split; [destruct trs; [contradiction|exact A7]|]. split; [discriminate|]. destruct trs; [contradiction|cbn [length]; lia].
  Qed.
End Run.
