(** Proofs about the Gauss-Helmert iteration: it does not fail if the data determine the parameters. *)
From Coq Require Import Ranalysis1.
From Verif Require Import Base BaseFacts NumpyModel NumpyFacts TrajModel ParamModel ParamSpec ParamFacts DataModel DataFacts EstModel GeomModel
  JacModel JacSpec JacFacts JacFacts2 LsqModel LsqSpec LsqFacts SolveSpec GhmModel GhmSpec GhmFacts GhmFacts2 GhmFacts3 GhmFacts4.

Lemma sum_to_single n f k : (k < n)%nat -> (forall i, (i < n)%nat -> i <> k -> f i = 0) -> sum_to n f = f k.
Proof.
  induction n as [|n IH]; intros Hk H; [lia|]. cbn. destruct (Nat.eq_dec k n) as [->|D].
  - rewrite (sum_to_zero n) by (intros i Hi; apply H; lia). ring.
  - rewrite IH by (lia || (intros i Hi Di; apply H; lia)). rewrite (H n) by lia. ring.
Qed.

Lemma transpose_nth N A c : (c < N)%nat -> nth c (transpose N A) [] = column_of A c.
Proof.
  intro H. unfold transpose. rewrite (nth_indep _ [] (column_of A 0)) by (rewrite map_length, seq_length; exact H).
  rewrite (map_nth (column_of A) (seq 0 N) 0%nat c), seq_nth by exact H. reflexivity.
Qed.
Lemma column_nth A c r : (r < length A)%nat -> nth r (column_of A c) 0 = nth c (nth r A []) 0.
Proof.
  intro H. unfold column_of. rewrite (nth_indep _ 0 (nth c [] 0)) by (rewrite map_length; exact H). apply (map_nth (fun r => nth c r 0)).
Qed.

Lemma scaled_zero var y r : Forall (fun x => 0 < x) var -> length y = length var -> (r < length y)%nat ->
  nth r (map (fun p : R * R => fst p * snd p) (combine var y)) 0 = 0 -> nth r y 0 = 0.
Proof.
  intro F. revert y r. induction F as [|v var Hv F IH]; intros [|z y] r L Hr Hn; cbn in *; try lia.
  destruct r as [|r].
  - apply Rmult_integral in Hn as [Hn|Hn]; lra.
  - apply (IH y r); (lia || exact Hn).
Qed.

Section Total.
  Variable solve : list (list R) -> list R -> result (list R).
  Variable egrad : (list R -> R) -> nat -> list R -> R.
  Hypothesis CS : solve_contract solve.
  Hypothesis CC : solve_complete solve.
  Hypothesis CE : egrad_contract egrad.

  Lemma mask_ok (rows : list (list R)) bs : Forall (fun r => length r = length bs) rows -> exists A, mapM (fun row => np_mask row bs) rows = Ok A.
  Proof.
    induction 1 as [|r rows L F [A IH]]; cbn; [eexists; reflexivity|]. unfold np_mask at 1. rewrite <- L, Nat.eqb_refl. cbn. rewrite IH. cbn. eexists; reflexivity.
  Qed.

  Lemma linearise_ok s d n : ready s d n -> (0 < n)%nat -> length (a_var d) = length (a_obs d) -> exists l, ghm_linearise egrad s d = Ok l.
  Proof.
    intros RD Hn LV. assert (LE := est_vector_length s d n RD). unfold ghm_linearise.
    assert (LO : length (est_epochs (a_est d) (est_obs_vector d)) = n) by (unfold est_epochs; rewrite map_length, seq_length; apply epochs_count; exact LE).
    rewrite LO. destruct (design_shape egrad (a_est d) (named (values s)) (est_obs_vector d) n LE) as [_ F].
    destruct (mask_ok (design_matrix egrad (named (values s)) (est_epochs (a_est d) (est_obs_vector d))) (lq_parameter_filter (a_est d))) as [A ->].
    { rewrite lq_filter_length. exact F. }
    cbn [bind]. destruct (Nat.eqb_spec n 0); [lia|]. destruct RD as [_ _ R3 _]. rewrite LV, R3, Nat.eqb_refl. cbn [negb]. eexists; reflexivity.
  Qed.

  Section One.
    Variables (s : pset) (d : adata) (n : nat) (l : lin).
    Hypothesis RD : ready s d n.
    Hypothesis HL : ghm_linearise egrad s d = Ok l.
    Hypothesis PV : Forall (fun x => 0 < x) (a_var d).
    Let K := num_obs_per_epoch (a_est d).
    Let N := (n * K)%nat.

    (** The derivatives with respect to the target positions are minus one. *)
    Lemma target_column i a r : (i < n)%nat -> (a < 3)%nat -> (r < 3 * n)%nat ->
      nth (i * K + (3 + a)) (nth r (l_condition l) []) 0 = if (r =? 3 * i + a)%nat then -1 else 0.
    Proof.
      intros Hi Ha Hr. destruct (lin_spec egrad s d n l RD HL) as [_ [-> _]].
      assert (K6 : (6 <= K)%nat) by (unfold K, num_obs_per_epoch; lia).
      assert (LE := est_vector_length s d n RD).
      rewrite dense_nth by (try exact Hr; assert (B := index_bound i n K (3 + a)); lia).
      set (i' := (r / 3)%nat). set (a' := (r mod 3)%nat).
      assert (Er : r = (3 * i' + a')%nat) by (apply Nat.div_mod; lia). assert (Ha' : (a' < 3)%nat) by (apply Nat.mod_upper_bound; lia).
      rewrite Er. rewrite (condition_entry egrad _ (a_est d) (est_obs_vector d) n i' a' _ LE) by lia. fold K.
      destruct (Nat.eq_dec i' i) as [Ei|Di].
      - rewrite Ei. replace ((i * K <=? i * K + (3 + a)) && (i * K + (3 + a) <? i * K + K))%nat%bool with true
          by (symmetry; apply Bool.andb_true_iff; split; [apply Nat.leb_le; lia | apply Nat.ltb_lt; lia]).
        replace (i * K + (3 + a) - i * K)%nat with (3 + a)%nat by lia.
        destruct (Nat.eqb_spec (3 * i + a') (3 * i + a)) as [E|E].
        + assert (a' = a) as -> by lia. unfold epoch_row. destruct a as [|[|[|a]]]; [reflexivity..|lia].
        + assert (Na : a' <> a) by lia. unfold epoch_row. destruct a as [|[|[|a]]]; [| | |lia]; (destruct a' as [|[|[|a']]]; [| | |lia]); cbn; try lia; reflexivity.
      - destruct (Nat.eqb_spec (3 * i' + a') (3 * i + a)) as [E|E]; [exfalso; lia|].
        destruct ((i' * K <=? i * K + (3 + a)) && (i * K + (3 + a) <? i' * K + K))%nat%bool eqn:B; [|reflexivity].
        exfalso. apply Bool.andb_true_iff in B as [B1 B2]. apply Nat.leb_le in B1. apply Nat.ltb_lt in B2.
        destruct (Nat.lt_trichotomy i' i) as [T|[T|T]]; [|contradiction|].
        + assert ((i' + 1) * K <= i * K)%nat by (apply Nat.mul_le_mono_r; lia). lia.
        + assert ((i + 1) * K <= i' * K)%nat by (apply Nat.mul_le_mono_r; lia). lia.
    Qed.

    Lemma transposed_zero x : length x = (3 * n)%nat -> mv (transpose N (l_condition l)) x = repeat 0 N -> x = repeat 0 (3 * n).
    Proof.
      intros LX H. rewrite <- LX. apply list_zeros. intros r Hr. rewrite LX in Hr.
      destruct (condition_dims egrad s d n l RD HL) as [LB FB].
      set (i := (r / 3)%nat). set (a := (r mod 3)%nat).
      assert (Er : r = (3 * i + a)%nat) by (apply Nat.div_mod; lia). assert (Ha : (a < 3)%nat) by (apply Nat.mod_upper_bound; lia).
      assert (K6 : (6 <= K)%nat) by (unfold K, num_obs_per_epoch; lia).
      assert (Hc : (i * K + (3 + a) < N)%nat) by (assert (B := index_bound i n K (3 + a)); unfold N; lia).
      assert (Z : nth (i * K + (3 + a)) (mv (transpose N (l_condition l)) x) 0 = 0) by (rewrite H; apply nth_zeros).
      rewrite nth_mv in Z by (rewrite transpose_length; exact Hc). rewrite transpose_nth in Z by exact Hc.
      rewrite <- sum_to_dot in Z by (unfold column_of; rewrite map_length; lia). rewrite LX in Z.
      rewrite (sum_to_single _ _ r) in Z; [| exact Hr |].
      - rewrite column_nth, target_column in Z by lia. rewrite Er, Nat.eqb_refl in Z. rewrite Er. lra.
      - intros j Hj Dj. rewrite column_nth, target_column by lia. destruct (Nat.eqb_spec j (3 * i + a)); [lia | ring].
    Qed.

    Lemma bbt_product x : length x = (3 * n)%nat ->
      dot x (mv (l_bbt l) x) = weighted_product (a_var d) (mv (diagonal (a_var d)) (mv (transpose N (l_condition l)) x)) (mv (diagonal (a_var d)) (mv (transpose N (l_condition l)) x)).
    Proof.
      intro LX. destruct (condition_dims egrad s d n l RD HL) as [LB FB]. destruct (lin_spec egrad s d n l RD HL) as [_ [_ [EB [LV _]]]].
      fold K in EB, LV, FB. fold N in EB, LV, FB.
      destruct (diagonal_weights (a_var d)) as [LD [FD _]]; [revert PV; apply Forall_impl; intros; lra|].
      set (y := mv (transpose N (l_condition l)) x). assert (Ly : length y = N) by (unfold y; rewrite mv_length; apply transpose_length).
      rewrite weighted_diagonal by (rewrite ?mv_length, ?LD; try exact PV; lia).
      rewrite EB. rewrite (mm_mv (3 * n)).
      - rewrite (mm_mv N); [| rewrite <- LV; exact FD | rewrite LD, LV; exact FB | exact Ly].
        fold y. rewrite dot_comm. rewrite <- (transpose_adjoint N (l_condition l) _ x FB) by (rewrite ?mv_length; lia). fold y. apply dot_comm.
      - rewrite <- LB. apply transpose_rows.
      - rewrite transpose_length. apply mm_rows.
      - exact LX.
    Qed.

    Lemma bbt_zero x : length x = (3 * n)%nat -> dot x (mv (l_bbt l) x) = 0 -> x = repeat 0 (3 * n).
    Proof.
      intros LX H. rewrite (bbt_product x LX) in H. rewrite <- weighted_product_self in H.
      destruct (lin_spec egrad s d n l RD HL) as [_ [_ [_ [LV _]]]]. fold K in LV. fold N in LV.
      destruct (diagonal_weights (a_var d)) as [LD _]; [revert PV; apply Forall_impl; intros; lra|].
      apply weighted_zero in H; [| exact PV | rewrite mv_length; exact LD].
      apply transposed_zero; [exact LX|].
      set (y := mv (transpose N (l_condition l)) x) in *. assert (Ly : length y = N) by (unfold y; rewrite mv_length; apply transpose_length).
      rewrite diagonal_mv in H by lia. rewrite LV in H. rewrite <- Ly. apply list_zeros. intros r Hr.
      assert (Hn : nth r (map (fun p : R * R => fst p * snd p) (combine (a_var d) y)) 0 = 0) by (rewrite H; apply nth_zeros).
      refine (scaled_zero (a_var d) y r PV _ _ Hn); lia.
    Qed.

    Lemma bbt_regular : regular (3 * n) (l_bbt l).
    Proof.
      destruct (condition_dims egrad s d n l RD HL) as [LB FB]. destruct (lin_spec egrad s d n l RD HL) as [_ [_ [EB _]]].
      split; [split; [rewrite EB, !mm_length; exact LB | rewrite EB; apply mm_rows]|].
      intros x LX H. apply bbt_zero; [exact LX|]. rewrite H. apply dot_zeros_r.
    Qed.

    Variable Jp : nat -> nat -> R.
    Hypothesis HP : jacobian (fun q => misclosures (a_est d) (params_of q) n (est_obs_vector d)) (values s) (3 * n) Jp.
    Hypothesis DT : determined s n Jp.

    Lemma design_injective x : length x = columns (a_est d) -> mv (l_design l) x = repeat 0 (3 * n) -> x = repeat 0 (length x).
    Proof.
      intros LX H. apply (expand_zero (lq_parameter_filter (a_est d))); [exact LX|].
      assert (D := DT (expand (lq_parameter_filter (a_est d)) x) (expand_allowed s d n RD x)).
      rewrite expand_length in D. apply D. intros r Hr. rewrite lq_filter_length.
      rewrite <- (design_product egrad CE s d n l RD HL Jp HP) by assumption. rewrite H. apply nth_zeros.
    Qed.

    Lemma deltas_ok w : length w = (3 * n)%nat -> exists x, ghm_deltas solve l d w = Ok (map Fin x) /\ length x = columns (a_est d).
    Proof.
      intro LW. destruct (design_dims egrad s d n l RD HL) as [LA FA]. destruct bbt_regular as [[LB FB] _]. assert (RB := bbt_regular).
      assert (X : exists x, parameter_deltas solve (columns (a_est d)) w (l_design l) (l_bbt l) = Ok x).
      { unfold parameter_deltas. destruct (CC _ _ w RB LW) as [sw ESW].
        destruct (Nat.eqb_spec (columns (a_est d)) 1) as [C1|C1].
        - rewrite ESW. cbn [bind]. assert (LC : length (column_of (l_design l) 0) = (3 * n)%nat) by (unfold column_of; rewrite map_length; exact LA).
          destruct (CC _ _ (column_of (l_design l) 0) RB LC) as [sa ESA]. rewrite ESA. cbn [bind].
          destruct (Reqb (dot (column_of (l_design l) 0) sa) 0) eqn:Z; [exfalso|eexists; reflexivity].
          apply Reqb_true in Z. destruct (CS _ _ _ ESA) as [LS MS]. rewrite <- MS in Z. rewrite dot_comm in Z.
          apply bbt_zero in Z; [|congruence]. 
          assert (ZA : mv (l_design l) [1] = repeat 0 (3 * n)).
          { rewrite single_column by (rewrite <- C1; exact FA). rewrite vtimes_one, <- MS, Z, mv_zeros, LB. reflexivity. }
          apply design_injective in ZA; [|cbn; lia]. cbn in ZA. injection ZA as ZA. lra.
        - assert (SC : exists sols, solve_columns solve (columns (a_est d)) (l_bbt l) (l_design l) = Ok sols).
          { unfold solve_columns. assert (M : exists cols, mapM (solve (l_bbt l)) (transpose (columns (a_est d)) (l_design l)) = Ok cols).
            { assert (F := transpose_rows (columns (a_est d)) (l_design l)). rewrite LA in F. induction F as [|c cs Hc F [cols IH]]; cbn; [eexists; reflexivity|].
              destruct (CC _ _ c RB Hc) as [y ->]. cbn. rewrite IH. cbn. eexists; reflexivity. }
            destruct M as [cols ->]. cbn. eexists; reflexivity. }
          destruct SC as [sols ESC]. rewrite ESC. cbn [bind]. rewrite ESW. cbn [bind].
          destruct (solve_columns_spec solve _ _ (3 * n) (l_design l) sols CS LB FB LA FA ESC) as [LS [FS KS]].
          assert (RN : regular (columns (a_est d)) (mm (columns (a_est d)) (transpose (columns (a_est d)) (l_design l)) sols)).
          { split; [split; [rewrite mm_length; apply transpose_length | apply mm_rows]|].
            intros x LX H. assert (RT : Forall (fun r => length r = length sols) (transpose (columns (a_est d)) (l_design l))) by (rewrite LS, <- LA; apply transpose_rows).
            rewrite (mm_mv _ _ sols x FS RT LX) in H.
            assert (Z : dot x (mv (transpose (columns (a_est d)) (l_design l)) (mv sols x)) = 0) by (rewrite H; apply dot_zeros_r).
            rewrite (transpose_adjoint _ _ x (mv sols x) FA LX) in Z by (rewrite mv_length; lia).
            rewrite <- (KS x LX), dot_comm in Z. apply bbt_zero in Z; [|rewrite mv_length; exact LS].
            rewrite <- LX. apply design_injective; [exact LX|]. rewrite <- (KS x LX), Z, mv_zeros, LB. reflexivity. }
          destruct (CC _ _ (mv (transpose (columns (a_est d)) (l_design l)) sw) RN) as [x ->]; [rewrite mv_length; apply transpose_length|].
          cbn. eexists; reflexivity. }
      destruct X as [x EX]. exists x. unfold ghm_deltas. rewrite EX. cbn [bind]. split; [reflexivity|].
      destruct (deltas_spec solve _ w (3 * n) (l_design l) (l_bbt l) x CS LB FB LA FA LW EX) as [LX _]. exact LX.
    Qed.

    Lemma residuals_ok x w : length w = (3 * n)%nat -> length x = columns (a_est d) -> exists v, ghm_residuals solve l d (map Fin x) w = Ok v.
    Proof.
      intros LW LX. destruct (design_dims egrad s d n l RD HL) as [LA FA]. unfold ghm_residuals. rewrite finite_map. cbn [bind]. unfold correlates.
      destruct (CC _ _ (vplus (mv (l_design l) x) w) bbt_regular) as [k ->]; [rewrite vplus_length; rewrite mv_length; lia|]. cbn. eexists; reflexivity.
    Qed.

    Lemma set_loop_ok (ps : list param) vals : length vals = length (filter p_enabled ps) -> exists ps', set_loop KValue true ps vals = Ok ps'.
    Proof.
      revert vals. induction ps as [|p ps IH]; intros vals L; cbn in *; [eexists; reflexivity|]. destruct (p_enabled p); cbn [negb andb].
      - cbn in L. destruct vals as [|v vals]; [discriminate|]. cbn in L. destruct (IH vals ltac:(lia)) as [ps' ->]. cbn. eexists; reflexivity.
      - destruct (IH vals L) as [ps' ->]. cbn. eexists; reflexivity.
    Qed.

    Lemma add_ok x : length x = columns (a_est d) -> exists s', ghm_add_deltas s (map Fin x) = Ok s'.
    Proof.
      intro LX. assert (NE : num_enabled s = columns (a_est d)) by (rewrite enabled_count; destruct RD as [_ -> _ _]; reflexivity).
      unfold ghm_add_deltas. rewrite finite_map. cbn [bind]. rewrite LX, NE, Nat.eqb_refl.
      assert (LV : length (values_enabled s) = columns (a_est d)) by exact NE.
      unfold set_values_enabled, ps_set. rewrite vplus_length by lia. rewrite NE, LV, Nat.eqb_refl. cbn [negb andb]. rewrite Bool.andb_false_r.
      destruct (set_loop_ok (ps_params s) (vplus (values_enabled s) x)) as [ps' ->]; [rewrite vplus_length by lia; rewrite LV, <- NE; apply num_enabled_filter|].
      cbn. eexists; reflexivity.
    Qed.
  End One.

  (** An iteration does not fail. *)
  Theorem iteration_ok s d n w Jp : ready s d n -> (0 < n)%nat -> length (a_var d) = length (a_obs d) -> Forall (fun x => 0 < x) (a_var d) ->
    length w = (3 * n)%nat ->
    jacobian (fun q => misclosures (a_est d) (params_of q) n (est_obs_vector d)) (values s) (3 * n) Jp -> determined s n Jp ->
    exists l dl v s', ghm_linearise egrad s d = Ok l /\ ghm_deltas solve l d w = Ok dl /\ ghm_residuals solve l d dl w = Ok v /\
      ghm_add_deltas s dl = Ok s'.
  Proof.
    intros RD Hn LV PV LW JP DT. destruct (linearise_ok s d n RD Hn LV) as [l HL].
    destruct (deltas_ok s d n l RD HL PV Jp JP DT w LW) as [x [HD LX]].
    destruct (residuals_ok s d n l RD HL PV x w LW LX) as [v HR]. destruct (add_ok s d n RD x LX) as [s' HA].
    exists l, (map Fin x), v, s'. repeat split; assumption.
  Qed.
End Total.
