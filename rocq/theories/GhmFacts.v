(** Proofs about the Gauss-Helmert iteration: linear algebra. *)
From Verif Require Import Base BaseFacts NumpyModel NumpyFacts LsqModel LsqSpec LsqFacts GhmModel GhmSpec.

Lemma negate_times u : negate u = vtimes (-1) u.
Proof. apply map_ext. intro x. ring. Qed.
Lemma vtimes_length s u : length (vtimes s u) = length u.
Proof. apply map_length. Qed.

Lemma mv_plus n A x y : Forall (fun r => length r = n) A -> length x = n -> length y = n ->
  mv A (vplus x y) = vplus (mv A x) (mv A y).
Proof.
  intros F LX LY. induction F as [|r A L F IH]; cbn; [reflexivity|]. rewrite dot_plus_r by lia. f_equal. exact IH.
Qed.
Lemma mv_times A s x : mv A (vtimes s x) = vtimes s (mv A x).
Proof. unfold mv, vtimes. rewrite map_map. apply map_ext. intro r. apply dot_times_r. Qed.

Lemma vplus_comm u v : vplus u v = vplus v u.
Proof. revert v. induction u as [|x u IH]; intros [|y v]; cbn; try reflexivity. rewrite IH, Rplus_comm. reflexivity. Qed.
Lemma vplus_assoc u v w : vplus (vplus u v) w = vplus u (vplus v w).
Proof. revert v w. induction u as [|x u IH]; intros [|y v] [|z w]; cbn; try reflexivity. rewrite IH, Rplus_assoc. reflexivity. Qed.
Lemma vplus_zeros u n : length u = n -> vplus u (repeat 0 n) = u.
Proof. intros <-. induction u as [|x u IH]; cbn; [reflexivity|]. rewrite IH, Rplus_0_r. reflexivity. Qed.
Lemma vplus_opposite u : vplus u (vtimes (-1) u) = repeat 0 (length u).
Proof. induction u as [|x u IH]; cbn; [reflexivity|]. unfold vtimes in IH. rewrite IH. f_equal. ring. Qed.
Lemma vtimes_plus s u v : vtimes s (vplus u v) = vplus (vtimes s u) (vtimes s v).
Proof. revert v. induction u as [|x u IH]; intros [|y v]; cbn; try reflexivity. unfold vtimes in IH. rewrite IH. f_equal. ring. Qed.
Lemma vtimes_vtimes s t u : vtimes s (vtimes t u) = vtimes (s * t) u.
Proof. unfold vtimes. rewrite map_map. apply map_ext. intro. ring. Qed.
Lemma vtimes_one u : vtimes 1 u = u.
Proof. unfold vtimes. rewrite (map_ext _ (fun x => x)) by (intro; ring). apply map_id. Qed.

Lemma nth_self_map {A} (l : list A) d : map (fun j => nth j l d) (seq 0 (length l)) = l.
Proof.
  induction l as [|x l IH]; [reflexivity|]. cbn [length seq map nth]. f_equal. rewrite <- seq_shift, map_map. exact IH.
Qed.

Lemma transpose_twice m n A : length A = m -> Forall (fun r => length r = n) A -> transpose m (transpose n A) = A.
Proof.
  intros L F. unfold transpose at 1.
  transitivity (map (fun i => nth i A []) (seq 0 m)).
  - apply map_ext_in. intros i Hi. apply in_seq in Hi. unfold column_of at 1, transpose. rewrite map_map.
    assert (LR : length (nth i A []) = n) by (rewrite Forall_forall in F; apply F, nth_In; lia).
    rewrite <- (nth_self_map (nth i A []) 0), LR. apply map_ext. intro j. unfold column_of.
    rewrite (nth_indep _ 0 (nth j [] 0)) by (rewrite map_length; lia).
    apply (map_nth (fun r => nth j r 0)).
  - subst m. apply nth_self_map.
Qed.

(** ** Solving for the columns of a matrix *)
Lemma columns_spec solve N m cs ss : solve_contract solve -> length N = m -> Forall (fun r => length r = m) N ->
  Forall (fun c => length c = m) cs -> mapM (solve N) cs = Ok ss ->
  length ss = length cs /\ Forall (fun s => length s = m) ss /\
  forall u, length u = length cs -> mv N (mv (transpose m ss) u) = mv (transpose m cs) u.
Proof.
  intros C LN FN F. revert ss. induction F as [|c cs LC F IH]; intros ss H; cbn in H.
  - injection H as <-. split; [reflexivity|]. split; [constructor|]. intros u Hu. destruct u; [|discriminate Hu].
    rewrite !transpose_nil.
    assert (Z : forall (l : list (list R)), map (fun r => dot r (repeat 0 m)) l = repeat 0 (length l))
      by (intro l; induction l; cbn; [reflexivity|]; rewrite dot_zeros_r; f_equal; assumption).
    unfold mv. rewrite Z, LN. reflexivity.
  - destruct (solve N c) as [s|] eqn:E; [|discriminate]. cbn in H. destruct (mapM (solve N) cs) as [ss'|] eqn:E'; [|discriminate].
    cbn in H. injection H as <-. destruct (IH ss' eq_refl) as [L' [F' K]]. destruct (C N c s E) as [LS MS].
    split; [cbn; congruence|]. split; [constructor; [congruence | exact F']|].
    intros [|t u] Hu; [discriminate Hu|]. cbn in Hu.
    rewrite !transpose_cons by congruence.
    rewrite (mv_plus m).
    + rewrite mv_times, MS, K by lia. reflexivity.
    + exact FN.
    + rewrite vtimes_length. congruence.
    + rewrite mv_length, transpose_length. reflexivity.
Qed.

Lemma solve_columns_spec solve n N m A sols : solve_contract solve -> length N = m -> Forall (fun r => length r = m) N ->
  length A = m -> Forall (fun r => length r = n) A -> solve_columns solve n N A = Ok sols ->
  length sols = m /\ Forall (fun r => length r = n) sols /\ forall u, length u = n -> mv N (mv sols u) = mv A u.
Proof.
  intros C LN FN LA FA H. unfold solve_columns in H. destruct (mapM (solve N) (transpose n A)) as [cols|] eqn:E; [|discriminate].
  cbn in H. injection H as <-.
  assert (FC : Forall (fun c => length c = m) (transpose n A)) by (rewrite <- LA; apply transpose_rows).
  destruct (columns_spec solve N m _ cols C LN FN FC E) as [LC [_ K]]. rewrite transpose_length in LC.
  rewrite LA. split; [apply transpose_length|]. split.
  - rewrite <- LC. apply transpose_rows.
  - intros u Hu. rewrite K by (rewrite transpose_length; exact Hu). rewrite (transpose_twice m n A LA FA). reflexivity.
Qed.

(** ** The updates of the parameters *)
Lemma single_column A t : Forall (fun r => length r = 1%nat) A -> mv A [t] = vtimes t (column_of A 0).
Proof.
  intro F. unfold mv, vtimes, column_of. rewrite map_map. apply map_ext_in. intros r I. rewrite Forall_forall in F.
  specialize (F r I). destruct r as [|x [|]]; try discriminate F. cbn. ring.
Qed.

Lemma deltas_spec solve n w m A bbt delta : solve_contract solve -> length bbt = m -> Forall (fun r => length r = m) bbt ->
  length A = m -> Forall (fun r => length r = n) A -> length w = m ->
  parameter_deltas solve n w A bbt = Ok delta ->
  length delta = n /\
  (exists y, length y = m /\ mv bbt y = vplus (mv A delta) w /\ forall u, length u = n -> dot (mv A u) y = 0) /\
  (forall u, length u = n -> exists z, length z = m /\ mv bbt z = mv A u).
Proof.
  intros C LN FN LA FA LW H. unfold parameter_deltas in H. destruct (Nat.eqb_spec n 1) as [->|N1].
  - destruct (solve bbt w) as [sw|] eqn:E1; [|discriminate]. cbn in H.
    destruct (solve bbt (column_of A 0)) as [sa|] eqn:E2; [|discriminate]. cbn in H.
    destruct (Reqb (dot (column_of A 0) sa) 0) eqn:Z; [discriminate|]. injection H as <-. apply Reqb_false in Z.
    destruct (C _ _ _ E1) as [L1 M1]. destruct (C _ _ _ E2) as [L2 M2].
    assert (LC : length (column_of A 0) = m) by (unfold column_of; rewrite map_length; exact LA).
    set (a := column_of A 0) in *. set (t := - dot a sw / dot a sa).
    split; [reflexivity|]. split.
    + exists (vplus (vtimes t sa) sw). split; [rewrite vplus_length; rewrite vtimes_length; lia|]. split.
      * rewrite (mv_plus m) by (try rewrite vtimes_length; lia || exact FN). rewrite mv_times, M1, M2, single_column by exact FA. reflexivity.
      * intros [|x [|]] Hu; try discriminate Hu. rewrite single_column by exact FA. fold a.
        rewrite dot_times_l, dot_plus_r by (rewrite vtimes_length; lia). rewrite dot_times_r. unfold t. field. exact Z.
    + intros [|x [|]] Hu; try discriminate Hu. exists (vtimes x sa). split; [rewrite vtimes_length; lia|].
      rewrite mv_times, M2, single_column by exact FA. reflexivity.
  - destruct (solve_columns solve n bbt A) as [sols|] eqn:E1; [|discriminate]. cbn in H.
    destruct (solve bbt w) as [sw|] eqn:E2; [|discriminate]. cbn in H.
    destruct (solve (mm n (transpose n A) sols) (mv (transpose n A) sw)) as [x|] eqn:E3; [|discriminate]. cbn in H. injection H as <-.
    destruct (solve_columns_spec solve n bbt m A sols C LN FN LA FA E1) as [LS [FS K]].
    destruct (C _ _ _ E2) as [L2 M2]. destruct (C _ _ _ E3) as [L3 M3]. rewrite mv_length, transpose_length in L3.
    assert (RT : Forall (fun r => length r = length sols) (transpose n A)) by (rewrite LS, <- LA; apply transpose_rows).
    rewrite (mm_mv n _ sols x FS RT L3) in M3.
    rewrite negate_times. split; [rewrite vtimes_length; exact L3|]. split.
    + exists (vplus (mv sols (vtimes (-1) x)) sw). split; [rewrite vplus_length; rewrite mv_length; lia|]. split.
      * rewrite (mv_plus m) by (try rewrite mv_length; lia || exact FN). rewrite K, M2 by (rewrite vtimes_length; exact L3). reflexivity.
      * intros u Hu. rewrite dot_plus_r by (rewrite mv_length; lia). rewrite mv_times, dot_times_r.
        rewrite <- (transpose_adjoint n A u (mv sols x) FA Hu) by (rewrite mv_length; lia).
        rewrite <- (transpose_adjoint n A u sw FA Hu) by lia. rewrite M3. ring.
    + intros u Hu. exists (mv sols u). split; [rewrite mv_length; exact LS | apply K, Hu].
Qed.

(** ** Weighted sums of squares *)
Lemma weighted_product_self var v : weighted var v = weighted_product var v v.
Proof. revert v. induction var as [|s var IH]; intros [|x v]; cbn; try reflexivity. rewrite IH. unfold Rdiv. ring. Qed.

Lemma weighted_sum var u v : length u = length var -> length v = length var ->
  weighted var (vplus u v) = weighted var u + 2 * weighted_product var u v + weighted var v.
Proof.
  revert u v. induction var as [|s var IH]; intros [|x u] [|y v] LU LV; cbn in *; try lia; [ring|].
  rewrite IH by lia. unfold Rdiv. ring.
Qed.

Lemma weighted_nonneg var v : Forall (fun s => 0 < s) var -> 0 <= weighted var v.
Proof.
  intro F. revert v. induction F as [|s var H F IH]; intros [|x v]; cbn; try lra. specialize (IH v).
  assert (0 <= x * (x * 1) / s) by (apply Rmult_le_pos; [nra | left; apply Rinv_0_lt_compat, H]). lra.
Qed.

Lemma weighted_zero var v : Forall (fun s => 0 < s) var -> length v = length var -> weighted var v = 0 -> v = repeat 0 (length var).
Proof.
  intro F. revert v. induction F as [|s var H F IH]; intros [|x v] L E; cbn in *; try lia; [reflexivity|].
  assert (P := weighted_nonneg var v F).
  assert (Q : 0 <= x * (x * 1) / s) by (apply Rmult_le_pos; [nra | left; apply Rinv_0_lt_compat, H]).
  f_equal; [|apply IH; [lia | lra]].
  assert (E' : x * (x * 1) / s = 0) by lra. assert (I := Rinv_0_lt_compat s H). unfold Rdiv in E'.
  apply Rmult_integral in E' as [E'|E']; nra.
Qed.

Lemma weighted_diagonal var x v : Forall (fun s => 0 < s) var -> length x = length var -> length v = length var ->
  weighted_product var (mv (diagonal var) x) v = dot x v.
Proof.
  intros F LX LV. rewrite diagonal_mv by lia. revert x v LX LV.
  induction F as [|s var H F IH]; intros [|a x] [|b v] LX LV; cbn in *; try lia; [reflexivity|].
  rewrite IH by lia. field. lra.
Qed.

Lemma dot_nonzero_all u : (forall v, length v = length u -> dot u v = 0) -> u = repeat 0 (length u).
Proof.
  intro H. specialize (H u eq_refl). apply dot_self_zero in H. induction H as [|x u -> H IH]; cbn; [reflexivity|]. rewrite <- IH. reflexivity.
Qed.

(** ** One iteration *)
Section Step.
  Variable solve : list (list R) -> list R -> result (list R).
  Hypothesis C : solve_contract solve.
  Variables (m n N : nat) (A B : list (list R)) (var w : list R).
  Hypothesis LA : length A = m. Hypothesis FA : Forall (fun r => length r = n) A.
  Hypothesis LB : length B = m. Hypothesis FB : Forall (fun r => length r = N) B.
  Hypothesis LV : length var = N. Hypothesis PV : Forall (fun s => 0 < s) var.
  Hypothesis LW : length w = m.
  Let bbt := mm m (mm N B (diagonal var)) (transpose N B).

  Lemma diag_shape : length (diagonal var) = N /\ Forall (fun r => length r = N) (diagonal var).
  Proof.
    assert (W := diagonal_weights var). destruct W as [L [F _]].
    - apply (Forall_impl _ (fun s (H : 0 < s) => Rlt_le _ _ H) PV).
    - rewrite LV in *. split; assumption.
  Qed.

  Lemma bbt_mv u : length u = m -> mv bbt u = mv B (mv (diagonal var) (mv (transpose N B) u)).
  Proof.
    intro Hu. destruct diag_shape as [LD FD]. unfold bbt.
    rewrite (mm_mv m _ (transpose N B)).
    - apply mm_mv; [exact FD | rewrite LD; exact FB | rewrite mv_length, transpose_length; reflexivity].
    - rewrite <- LB. apply transpose_rows.
    - rewrite transpose_length. apply mm_rows.
    - exact Hu.
  Qed.

  Lemma bbt_shape : length bbt = m /\ Forall (fun r => length r = m) bbt.
  Proof. unfold bbt. split; [rewrite !mm_length; exact LB | apply mm_rows]. Qed.

  Lemma diag_symmetric u v : length u = N -> length v = N -> dot u (mv (diagonal var) v) = dot v (mv (diagonal var) u).
  Proof.
    intros Hu Hv. destruct (diagonal_weights var) as [_ [_ [Sy _]]].
    - apply (Forall_impl _ (fun s (H : 0 < s) => Rlt_le _ _ H) PV).
    - apply Sy; congruence.
  Qed.

  Lemma bt_length u : length (mv (transpose N B) u) = N.
  Proof. rewrite mv_length. apply transpose_length. Qed.

  Lemma bbt_symmetric u v : length u = m -> length v = m -> dot u (mv bbt v) = dot v (mv bbt u).
  Proof.
    intros Hu Hv. rewrite !bbt_mv by assumption. destruct diag_shape as [LD FD].
    assert (E : forall a x, length a = m -> length x = N -> dot a (mv B x) = dot (mv (transpose N B) a) x).
    { intros a x Ha Hx. rewrite (dot_comm a), (dot_comm _ x). symmetry. apply transpose_adjoint; [exact FB | exact Hx | lia]. }
    rewrite !E by (try rewrite mv_length; assumption). apply diag_symmetric; apply bt_length.
  Qed.

  Variable delta k v : list R.
  Hypothesis HD : parameter_deltas solve n w A bbt = Ok delta.
  Hypothesis HK : solve bbt (vplus (mv A delta) w) = Ok k.
  Hypothesis HV : v = mv (mm m (diagonal var) (transpose N B)) (negate k).

  Lemma v_eq : v = mv (diagonal var) (mv (transpose N B) (vtimes (-1) k)) /\ length k = m.
  Proof.
    destruct (C _ _ _ HK) as [LK _]. rewrite vplus_length in LK by (rewrite mv_length; lia). rewrite mv_length, LA in LK.
    split; [|exact LK]. rewrite HV, negate_times. destruct diag_shape as [LD FD]. apply mm_mv.
    - rewrite <- LB. apply transpose_rows.
    - rewrite transpose_length. exact FD.
    - rewrite vtimes_length. exact LK.
  Qed.
  Lemma v_length : length v = N.
  Proof. destruct v_eq as [-> _]. rewrite mv_length. apply diag_shape. Qed.
  Lemma delta_length : length delta = n.
  Proof. destruct bbt_shape as [L F]. apply (deltas_spec solve n w m A bbt delta C L F LA FA LW HD). Qed.

  Lemma step_closes : vplus (vplus (mv A delta) (mv B v)) w = repeat 0 m.
  Proof.
    destruct v_eq as [E LK]. destruct (C _ _ _ HK) as [_ MK].
    assert (EB : mv B v = vtimes (-1) (vplus (mv A delta) w)).
    { rewrite E, <- bbt_mv by (rewrite vtimes_length; exact LK). rewrite mv_times, MK. reflexivity. }
    rewrite EB, (vplus_comm (mv A delta)), vplus_assoc, vplus_comm, vplus_opposite.
    rewrite vplus_length by (rewrite mv_length; lia). rewrite mv_length, LA. reflexivity.
  Qed.

  (** The correlates are orthogonal to the design matrix. *)
  Lemma step_orthogonal u : length u = n -> dot (mv A u) k = 0.
  Proof.
    intro Hu. destruct v_eq as [_ LK]. destruct (C _ _ _ HK) as [_ MK]. destruct bbt_shape as [L F].
    destruct (deltas_spec solve n w m A bbt delta C L F LA FA LW HD) as [_ [[y [LY [MY OY]]] Z]].
    destruct (Z u Hu) as [z [LZ MZ]].
    assert (E : dot (mv A u) k = dot (mv A u) y).
    { rewrite <- MZ, !(dot_comm (mv bbt z)). rewrite !(bbt_symmetric _ z) by assumption. rewrite MK, MY. reflexivity. }
    rewrite E. apply OY, Hu.
  Qed.

  (** Residuals and tangential changes are orthogonal. *)
  Lemma step_tangent u dv : length u = n -> length dv = N -> vplus (mv A u) (mv B dv) = repeat 0 m -> weighted_product var v dv = 0.
  Proof.
    intros Hu Hdv H. destruct v_eq as [E LK]. rewrite E.
    rewrite weighted_diagonal by (try exact PV; rewrite ?bt_length; lia).
    rewrite (dot_comm _ dv). rewrite (transpose_adjoint N B dv _ FB Hdv) by (rewrite vtimes_length; lia).
    rewrite dot_times_r.
    assert (O := step_orthogonal u Hu).
    assert (P : dot (vplus (mv A u) (mv B dv)) k = 0) by (rewrite H; rewrite dot_comm; apply dot_zeros_r).
    rewrite dot_plus_l in P by (rewrite !mv_length; lia). lra.
  Qed.

  Lemma step_optimal delta' v' : length delta' = n -> length v' = N -> vplus (vplus (mv A delta') (mv B v')) w = repeat 0 m ->
    weighted var v <= weighted var v' /\ (weighted var v' <= weighted var v -> v' = v).
  Proof.
    intros Hd Hv H. assert (LVv := v_length). assert (LD := delta_length). assert (S := step_closes).
    set (u := vplus delta' (vtimes (-1) delta)). set (dv := vplus v' (vtimes (-1) v)).
    assert (Lu : length u = n) by (unfold u; rewrite vplus_length; rewrite ?vtimes_length; lia).
    assert (Ldv : length dv = N) by (unfold dv; rewrite vplus_length; rewrite ?vtimes_length; lia).
    assert (T : vplus (mv A u) (mv B dv) = repeat 0 m).
    { unfold u, dv. rewrite (mv_plus n) by (rewrite ?vtimes_length; assumption). rewrite (mv_plus N B) by (rewrite ?vtimes_length; assumption).
      rewrite !mv_times.
      assert (G : forall a b c d x z, vplus (vplus a b) x = z -> vplus (vplus c d) x = z -> length a = m -> length b = m -> length c = m -> length d = m ->
         length x = m -> vplus (vplus a (vtimes (-1) c)) (vplus b (vtimes (-1) d)) = repeat 0 m).
      { clear. intros a b c d x z <-. revert b c d x m. induction a as [|a0 a IH]; intros [|b0 b] [|c0 c] [|d0 d] [|x0 x] m H L1 L2 L3 L4 L5; cbn in *;
          subst m; try discriminate; [reflexivity|].
        injection H as E H. injection L2 as L2. injection L3 as L3. injection L4 as L4. injection L5 as L5.
        cbn [repeat]. f_equal; [lra|]. apply (IH b c d x); congruence. }
      apply (G _ _ _ _ w (repeat 0 m)); try assumption; rewrite ?mv_length; assumption. }
    assert (O := step_tangent u dv Lu Ldv T).
    assert (E : v' = vplus v dv).
    { unfold dv. rewrite (vplus_comm v'), <- vplus_assoc, vplus_opposite, vplus_comm, vplus_zeros; [reflexivity | congruence]. }
    assert (X := weighted_sum var v dv ltac:(congruence) ltac:(congruence)). rewrite <- E, O in X.
    assert (P := weighted_nonneg var dv PV). split; [lra|].
    intro Le. assert (Z : weighted var dv = 0) by lra. apply weighted_zero in Z; [|exact PV | congruence].
    rewrite E, Z, LV. apply vplus_zeros. exact LVv.
  Qed.
End Step.
