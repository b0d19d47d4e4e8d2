(** Proofs about the Gauss-Helmert iteration: the matrices of the adjustment. *)
From Coq Require Import Ranalysis1.
From Verif Require Import Base BaseFacts NumpyModel NumpyFacts TrajModel ParamModel DataModel DataFacts EstModel GeomModel
  JacModel JacSpec JacFacts JacFacts2 LsqModel LsqSpec LsqFacts GhmModel GhmSpec GhmFacts.

(** ** Sums *)
Lemma sum_to_seq n f : sum_to n f = np_sum (map f (seq 0 n)).
Proof.
  induction n as [|n IH]; [reflexivity|]. cbn [sum_to]. rewrite IH, seq_S, map_app, np_sum_app. cbn [map]. unfold np_sum at 3. cbn. ring.
Qed.
Lemma sum_to_ext n f g : (forall i, (i < n)%nat -> f i = g i) -> sum_to n f = sum_to n g.
Proof. induction n as [|n IH]; intro H; [reflexivity|]. cbn. rewrite IH by (intros; apply H; lia). rewrite H by lia. reflexivity. Qed.
Lemma sum_to_dot row x : length row = length x -> sum_to (length x) (fun j => nth j row 0 * nth j x 0) = dot row x.
Proof. intro L. rewrite sum_to_seq, (nth_dot row x L). reflexivity. Qed.

(** ** Selecting columns *)
Definition masked {A} (row : list A) (bs : list bool) : list A := map fst (filter snd (combine row bs)).
Fixpoint expand (bs : list bool) (x : list R) : list R :=
  match bs with
  | [] => []
  | true :: b => match x with y :: x' => y :: expand b x' | [] => 0 :: expand b [] end
  | false :: b => 0 :: expand b x
  end.
Lemma expand_length bs x : length (expand bs x) = length bs.
Proof. revert x. induction bs as [|[] bs IH]; intro x; [reflexivity| |]; [destruct x|]; cbn; rewrite IH; reflexivity. Qed.
Lemma masked_length {A} (row : list A) bs : length row = length bs -> length (masked row bs) = count (fun b => b) bs.
Proof.
  unfold masked, count. revert row. induction bs as [|b bs IH]; intros [|x row] L; cbn in *; try lia.
  injection L as L. specialize (IH row L). destruct b; cbn; rewrite IH; reflexivity.
Qed.
Lemma masked_dot bs row x : length row = length bs -> length x = count (fun b => b) bs -> dot (masked row bs) x = dot row (expand bs x).
Proof.
  unfold masked, count. revert row x. induction bs as [|[] bs IH]; intros [|r row] x L LX; cbn in *; try lia.
  - destruct x; reflexivity.
  - destruct x as [|y x]; cbn in *; [lia|]. rewrite IH by lia. reflexivity.
  - rewrite IH by lia. ring.
Qed.
Lemma expand_masked bs dp : length dp = length bs -> (forall j, nth_error bs j = Some false -> nth j dp 0 = 0) -> expand bs (masked dp bs) = dp.
Proof.
  unfold masked. revert dp. induction bs as [|b bs IH]; intros [|x dp] L H; cbn in *; try lia; [reflexivity|].
  assert (E := IH dp ltac:(lia) (fun j Hj => H (S j) Hj)). destruct b; cbn [filter snd map fst]; [rewrite E; reflexivity|].
  cbn. rewrite E. assert (Z := H 0%nat eq_refl). cbn in Z. rewrite Z. reflexivity.
Qed.
Lemma expand_disabled bs x j : nth_error bs j = Some false -> nth j (expand bs x) 0 = 0.
Proof.
  revert x j. induction bs as [|b bs IH]; intros x [|j] H; cbn in H; try discriminate.
  - injection H as ->. reflexivity.
  - destruct b; [destruct x|]; cbn; apply IH, H.
Qed.

Lemma mask_rows (rows : list (list R)) bs A : Forall (fun r => length r = length bs) rows ->
  mapM (fun row => np_mask row bs) rows = Ok A -> A = map (fun r => masked r bs) rows.
Proof.
  intro F. revert A. induction F as [|r rows L F IH]; intros A H; cbn in H.
  - injection H as <-. reflexivity.
  - unfold np_mask in H at 1. rewrite <- L, Nat.eqb_refl in H. cbn in H.
    destruct (mapM _ rows) as [A'|] eqn:E; [|discriminate]. cbn in H. injection H as <-. cbn. rewrite (IH A' eq_refl). reflexivity.
Qed.

(** ** Updating the enabled parameters *)
Lemma filter_enabled l b : filter (fun p => negb (negb (p_enabled p) && b))%bool l = if b then filter p_enabled l else l.
Proof.
  destruct b.
  - apply filter_ext. intro p. destruct (p_enabled p); reflexivity.
  - induction l as [|p l IH]; [reflexivity|]. cbn. rewrite Bool.andb_false_r. cbn. rewrite IH. reflexivity.
Qed.
Lemma values_all s : values s = map p_value (ps_params s).
Proof. unfold values, ps_get. rewrite filter_enabled. reflexivity. Qed.
Lemma values_enabled_all s : values_enabled s = map p_value (filter p_enabled (ps_params s)).
Proof. unfold values_enabled, ps_get. rewrite filter_enabled. reflexivity. Qed.

Lemma set_loop_update l l' x : length x = length (filter p_enabled l) ->
  set_loop KValue true l (vplus (map p_value (filter p_enabled l)) x) = Ok l' ->
  map p_value l' = vplus (map p_value l) (expand (map p_enabled l) x) /\ map p_enabled l' = map p_enabled l.
Proof.
  revert l' x. induction l as [|p l IH]; intros l' x L H; cbn in *.
  - injection H as <-. split; reflexivity.
  - destruct (p_enabled p) eqn:E; cbn [negb andb] in H.
    + cbn in H, L. destruct x as [|y x]; [cbn in L; lia|]. cbn in H. cbn in L. injection L as L.
      destruct (set_loop _ _ _ _) as [r'|] eqn:E'; [|discriminate]. cbn in H. injection H as <-.
      destruct (IH r' x L E') as [V F]. cbn. rewrite V, F. split; [|rewrite E; reflexivity]. f_equal. unfold p_value. cbn. rewrite E. reflexivity.
    + destruct (set_loop _ _ _ _) as [r'|] eqn:E'; [|discriminate]. cbn in H. injection H as <-.
      destruct (IH r' x L E') as [V F]. cbn. rewrite V, F, E. split; [|reflexivity]. f_equal. ring.
Qed.

Lemma finite_map x : finite (map Fin x) = Ok x.
Proof. unfold finite. induction x as [|y x IH]; [reflexivity|]. cbn. rewrite IH. reflexivity. Qed.

Lemma num_enabled_filter s : num_enabled s = length (filter p_enabled (ps_params s)).
Proof. unfold num_enabled. rewrite values_enabled_all. apply map_length. Qed.

Lemma add_deltas_spec s x s' : ghm_add_deltas s (map Fin x) = Ok s' ->
  values s' = vplus (values s) (expand (enabled_bool_list s) x) /\ enabled_bool_list s' = enabled_bool_list s /\ length x = num_enabled s.
Proof.
  unfold ghm_add_deltas. rewrite finite_map. cbn [bind]. destruct (Nat.eqb_spec (length x) (num_enabled s)) as [L|]; [|discriminate].
  unfold set_values_enabled, ps_set. rewrite vplus_length by (unfold num_enabled in L; lia). fold (num_enabled s). rewrite Nat.eqb_refl. cbn [negb andb].
  rewrite Bool.andb_false_r. intro H.
  destruct (set_loop _ _ _ _) as [l'|] eqn:E; [|discriminate]. cbn in H. injection H as <-.
  rewrite num_enabled_filter in L. rewrite values_enabled_all in E. destruct (set_loop_update _ _ _ L E) as [V F].
  rewrite !values_all. unfold enabled_bool_list. cbn. rewrite V, F. split; [reflexivity|]. split; [reflexivity|]. rewrite num_enabled_filter. exact L.
Qed.

Lemma enabled_count s : num_enabled s = count (fun b => b) (enabled_bool_list s).
Proof.
  rewrite num_enabled_filter. unfold enabled_bool_list, count. induction (ps_params s) as [|p l IH]; [reflexivity|]. cbn.
  destruct (p_enabled p); cbn; rewrite IH; reflexivity.
Qed.

(** ** The matrices *)
Lemma dense_nth m n t r c : (r < m)%nat -> (c < n)%nat -> nth c (nth r (dense m n t) []) 0 = sparse_entry t r c.
Proof.
  intros Hr Hc. unfold dense. rewrite (nth_indep _ [] (map (sparse_entry t 0) (seq 0 n))) by (rewrite map_length, seq_length; exact Hr).
  rewrite (map_nth (fun r => map (sparse_entry t r) (seq 0 n)) (seq 0 m) 0%nat r), seq_nth by exact Hr. cbn [Nat.add].
  rewrite (nth_indep _ 0 (sparse_entry t r 0)) by (rewrite map_length, seq_length; exact Hc).
  rewrite (map_nth (sparse_entry t r) (seq 0 n) 0%nat c), seq_nth by exact Hc. reflexivity.
Qed.
Lemma dense_shape m n t : length (dense m n t) = m /\ Forall (fun r => length r = n) (dense m n t).
Proof.
  unfold dense. split; [rewrite map_length; apply seq_length|]. apply Forall_forall. intros r I. apply in_map_iff in I as [i [<- _]].
  rewrite map_length. apply seq_length.
Qed.
Lemma nth_mv A x r : (r < length A)%nat -> nth r (mv A x) 0 = dot (nth r A []) x.
Proof.
  intro H. unfold mv. rewrite (nth_indep _ 0 (dot [] x)) by (rewrite map_length; exact H). apply (map_nth (fun r => dot r x)).
Qed.
Lemma nth_vplus u v r : length u = length v -> nth r (vplus u v) 0 = nth r u 0 + nth r v 0.
Proof.
  revert v r. induction u as [|x u IH]; intros [|y v] [|r] L; cbn in *; try lia; try ring. apply IH. lia.
Qed.
Lemma list_zeros l : (forall r, (r < length l)%nat -> nth r l 0 = 0) -> l = repeat 0 (length l).
Proof.
  induction l as [|x l IH]; intro H; [reflexivity|]. cbn. f_equal; [exact (H 0%nat ltac:(cbn; lia))|]. apply IH. intros r Hr. exact (H (S r) ltac:(cbn; lia)).
Qed.

Lemma est_vector_plus d : est_obs_vector d = vplus (a_obs d) (a_res d).
Proof.
  unfold est_obs_vector. generalize (a_res d). induction (a_obs d) as [|x l IH]; intros [|y r]; cbn; try reflexivity. rewrite IH. reflexivity.
Qed.
Lemma est_vector_length s d n : ready s d n -> length (est_obs_vector d) = (n * num_obs_per_epoch (a_est d))%nat.
Proof. intros [_ _ LO LR]. rewrite est_vector_plus, vplus_length by lia. exact LO. Qed.

Lemma lq_filter_length e : length (lq_parameter_filter e) = 11%nat.
Proof. unfold lq_parameter_filter, helmert_filter, leverarm_filter. destruct (helmert_enabled e), (leverarm_enabled e); reflexivity. Qed.

Section Iteration.
  Variable solve : list (list R) -> list R -> result (list R).
  Variable egrad : (list R -> R) -> nat -> list R -> R.
  Hypothesis CS : solve_contract solve.
  Hypothesis CE : egrad_contract egrad.
  Variables (s : pset) (d : adata) (n : nat) (l : lin).
  Hypothesis RD : ready s d n.
  Hypothesis HL : ghm_linearise egrad s d = Ok l.
  Let e := a_est d.
  Let p := params_of (values s).
  Let est := est_obs_vector d.
  Let N := (n * num_obs_per_epoch e)%nat.

  Lemma lin_spec :
    l_design l = map (fun r => masked r (lq_parameter_filter e)) (design_matrix egrad p (est_epochs e est)) /\
    l_condition l = dense (3 * n) N (condition_matrix egrad p e (est_epochs e est)) /\
    l_bbt l = mm (3 * n) (mm N (l_condition l) (diagonal (a_var d))) (transpose N (l_condition l)) /\
    length (a_var d) = N /\ (0 < n)%nat.
  Proof.
    assert (LE := est_vector_length s d n RD). fold e est N in LE.
    assert (HL' := HL). unfold ghm_linearise in HL'. fold e est in HL'. change (named (values s)) with p in HL'.
    assert (LO : length (est_epochs e est) = n) by (unfold est_epochs; rewrite map_length, seq_length; apply epochs_count; exact LE).
    rewrite LO in HL'.
    destruct (mapM _ _) as [A|] eqn:EA; [|discriminate]. cbn [bind] in HL'.
    destruct (Nat.eqb_spec n 0) as [|N0]; [discriminate|].
    change (n * num_obs_per_epoch e)%nat with N in HL'.
    destruct (Nat.eqb_spec (length (a_var d)) N) as [LVA|]; [|discriminate]. cbn [negb] in HL'. injection HL' as <-. cbn [l_design l_condition l_bbt].
    replace (3 * n)%nat with (n * 3)%nat by lia.
    split; [|split; [reflexivity|split; [reflexivity|split; [exact LVA | lia]]]].
    apply (mask_rows _ _ _) in EA; [exact EA|].
    rewrite lq_filter_length. apply (design_shape egrad e p est n LE).
  Qed.

  Lemma design_dims : length (l_design l) = (3 * n)%nat /\ Forall (fun r => length r = columns e) (l_design l).
  Proof.
    destruct lin_spec as [-> _]. destruct (design_shape egrad e p est n (est_vector_length s d n RD)) as [L F]. split.
    - rewrite map_length. exact L.
    - apply Forall_forall. intros r I. apply in_map_iff in I as [r0 [<- I]]. rewrite Forall_forall in F. apply masked_length.
      rewrite lq_filter_length. apply F, I.
  Qed.
  Lemma condition_dims : length (l_condition l) = (3 * n)%nat /\ Forall (fun r => length r = N) (l_condition l).
  Proof. destruct lin_spec as [_ [-> _]]. apply dense_shape. Qed.

  Lemma values_list : params_list p = values s /\ length (values s) = 11%nat.
  Proof.
    assert (L : length (values s) = 11%nat) by (rewrite values_all, map_length; apply RD). split; [|exact L]. unfold p.
    revert L. generalize (values s). intros q L. do 11 (destruct q as [|? q]; [discriminate L|]). destruct q; [|discriminate L]. reflexivity.
  Qed.

  Variables (Jp Jl : nat -> nat -> R).
  Hypothesis HP : jacobian (fun q => misclosures e (params_of q) n est) (values s) (3 * n) Jp.
  Hypothesis HJ : jacobian (misclosures e p n) est (3 * n) Jl.

  Lemma design_product x r : length x = columns e -> (r < 3 * n)%nat ->
    nth r (mv (l_design l) x) 0 = sum_to 11 (fun j => Jp r j * nth j (expand (lq_parameter_filter e) x) 0).
  Proof.
    intros LX Hr. destruct design_dims as [LD _]. rewrite nth_mv by lia.
    destruct lin_spec as [-> _]. destruct (design_shape egrad e p est n (est_vector_length s d n RD)) as [L F].
    set (D := design_matrix egrad p (est_epochs e est)) in *.
    rewrite (nth_indep _ [] (masked [] (lq_parameter_filter e))) by (rewrite map_length; lia).
    rewrite (map_nth (fun r => masked r (lq_parameter_filter e)) D [] r).
    assert (LR : length (nth r D []) = 11%nat) by (rewrite Forall_forall in F; apply F, nth_In; lia).
    rewrite masked_dot by (rewrite ?lq_filter_length; assumption).
    rewrite <- sum_to_dot by (rewrite expand_length, lq_filter_length; exact LR). rewrite expand_length, lq_filter_length.
    apply sum_to_ext. intros j Hj. f_equal. destruct values_list as [VL V11].
    assert (P1 := design_partial egrad e p est n r j CE (est_vector_length s d n RD) Hr Hj). rewrite VL in P1.
    assert (P2 := HP r j Hr ltac:(lia)). fold D in P1. exact (uniqueness_limite _ _ _ _ P1 P2).
  Qed.

  Lemma condition_product x r : length x = N -> (r < 3 * n)%nat ->
    nth r (mv (l_condition l) x) 0 = sum_to N (fun c => Jl r c * nth c x 0).
  Proof.
    intros LX Hr. destruct condition_dims as [LD FD]. rewrite nth_mv by lia.
    assert (LR : length (nth r (l_condition l) []) = N) by (rewrite Forall_forall in FD; apply FD, nth_In; lia).
    rewrite <- sum_to_dot by congruence. rewrite LX. apply sum_to_ext. intros c Hc. f_equal.
    destruct lin_spec as [_ [-> _]]. rewrite dense_nth by assumption.
    assert (LE := est_vector_length s d n RD). fold e est in LE.
    assert (P1 := condition_partial egrad e p est n r c CE LE Hr ltac:(rewrite LE; exact Hc)).
    assert (P2 := HJ r c Hr ltac:(rewrite LE; exact Hc)). exact (uniqueness_limite _ _ _ _ P1 P2).
  Qed.

  (** The equations in terms of the derivatives are those in terms of the matrices. *)
  Lemma closes_iff w x dv : length w = (3 * n)%nat -> length x = columns e -> length dv = N ->
    closes (3 * n) Jp Jl w (expand (lq_parameter_filter e) x) dv <->
    vplus (vplus (mv (l_design l) x) (mv (l_condition l) dv)) w = repeat 0 (3 * n).
  Proof.
    intros LW LX LDV. destruct design_dims as [L1 _]. destruct condition_dims as [L2 _].
    assert (LL : length (vplus (vplus (mv (l_design l) x) (mv (l_condition l) dv)) w) = (3 * n)%nat)
      by (rewrite !vplus_length; rewrite ?vplus_length, ?mv_length; rewrite ?mv_length; lia).
    assert (K : forall r, (r < 3 * n)%nat -> nth r (vplus (vplus (mv (l_design l) x) (mv (l_condition l) dv)) w) 0
       = sum_to (length (expand (lq_parameter_filter e) x)) (fun j => Jp r j * nth j (expand (lq_parameter_filter e) x) 0)
         + sum_to (length dv) (fun c => Jl r c * nth c dv 0) + nth r w 0).
    { intros r Hr. rewrite !nth_vplus by (rewrite ?vplus_length, ?mv_length; rewrite ?mv_length; lia).
      rewrite design_product, condition_product by assumption. rewrite expand_length, lq_filter_length, LDV. reflexivity. }
    split.
    - intro H. rewrite <- LL. apply list_zeros. intros r Hr. rewrite LL in Hr. rewrite K by exact Hr. apply H, Hr.
    - intros H r Hr. rewrite <- K by exact Hr. rewrite H. apply nth_zeros.
  Qed.

  Lemma allowed_expand dp : allowed s dp -> exists x, length x = columns e /\ dp = expand (lq_parameter_filter e) x.
  Proof.
    intros [L H]. exists (masked dp (lq_parameter_filter e)). destruct RD as [R1 R2 _ _]. split.
    - apply masked_length. rewrite lq_filter_length. congruence.
    - symmetry. apply expand_masked; [rewrite lq_filter_length; congruence|].
      intros j Hj. unfold e in Hj. rewrite <- R2 in Hj. unfold enabled_bool_list in Hj. rewrite nth_error_map in Hj.
      destruct (nth_error (ps_params s) j) as [q|] eqn:E; [|discriminate]. cbn in Hj. injection Hj as Hj. exact (H j q E Hj).
  Qed.
  Lemma expand_allowed x : allowed s (expand (lq_parameter_filter e) x).
  Proof.
    destruct RD as [R1 R2 _ _]. split; [rewrite expand_length, lq_filter_length; congruence|].
    intros j q E F. apply expand_disabled. unfold e. rewrite <- R2. unfold enabled_bool_list. rewrite nth_error_map, E. cbn. rewrite F. reflexivity.
  Qed.

  Variables (w : list R) (dl : list num) (v : list R) (s' : pset).
  Hypothesis LW : length w = (3 * n)%nat.
  Hypothesis PV : Forall (fun x => 0 < x) (a_var d).
  Hypothesis HD : ghm_deltas solve l d w = Ok dl.
  Hypothesis HR : ghm_residuals solve l d dl w = Ok v.

  Lemma step_parts : exists delta k, dl = map Fin delta /\ parameter_deltas solve (columns e) w (l_design l) (l_bbt l) = Ok delta /\
    solve (l_bbt l) (vplus (mv (l_design l) delta) w) = Ok k /\
    v = mv (mm (3 * n) (diagonal (a_var d)) (transpose N (l_condition l))) (negate k).
  Proof.
    unfold ghm_deltas in HD. fold e in HD. destruct (parameter_deltas _ _ _ _ _) as [delta|] eqn:E; [|discriminate]. cbn in HD. injection HD as <-.
    unfold ghm_residuals in HR. rewrite finite_map in HR. cbn [bind] in HR. unfold correlates in HR.
    destruct (solve _ _) as [k|] eqn:E2; [|discriminate]. cbn [bind] in HR. injection HR as <-.
    exists delta, k. destruct lin_spec as [_ [_ [_ [-> _]]]]. destruct condition_dims as [-> _]. repeat split; assumption.
  Qed.

  Hypothesis HA : ghm_add_deltas s dl = Ok s'.

  Theorem iteration_optimal :
    allowed s (vminus (values s') (values s)) /\ length v = length (a_obs d) /\
    closes (3 * n) Jp Jl w (vminus (values s') (values s)) v /\
    forall dp dv, allowed s dp -> length dv = length (a_obs d) -> closes (3 * n) Jp Jl w dp dv ->
      weighted (a_var d) v <= weighted (a_var d) dv /\ (weighted (a_var d) dv <= weighted (a_var d) v -> dv = v).
  Proof.
    destruct step_parts as [delta [k [-> [E1 [E2 E3]]]]].
    destruct (add_deltas_spec s delta s' HA) as [V [F LX]].
    destruct RD as [R1 R2 R3 R4]. rewrite R2 in V. fold e in V, R3. fold N in R3.
    assert (LX' : length delta = columns e) by (rewrite LX, enabled_count, R2; reflexivity).
    assert (EV : vminus (values s') (values s) = expand (lq_parameter_filter e) delta).
    { rewrite V. assert (G : forall a b, length a = length b -> vminus (vplus a b) a = b).
      { induction a as [|x a IH]; intros [|y b] L; cbn in *; try lia; [reflexivity|]. rewrite IH by lia. f_equal. ring. }
      apply G. rewrite values_all, map_length, expand_length, lq_filter_length. exact R1. }
    rewrite EV, R3.
    destruct design_dims as [LA FA]. destruct condition_dims as [LB FB]. destruct lin_spec as [_ [_ [EB [LVar _]]]].
    rewrite EB in E1, E2.
    assert (LV := v_length solve CS (3 * n) N (l_design l) (l_condition l) (a_var d) w LA LB LVar PV LW delta k v E2 E3).
    split; [apply expand_allowed|]. split; [exact LV|].
    split.
    - apply closes_iff; try assumption.
      exact (step_closes solve CS (3 * n) N (l_design l) (l_condition l) (a_var d) w LA LB FB LVar PV LW delta k v E2 E3).
    - intros dp dv AL LDV CL. destruct (allowed_expand dp AL) as [x [Lx ->]]. apply (closes_iff w x dv LW Lx LDV) in CL.
      exact (step_optimal solve CS (3 * n) (columns e) N (l_design l) (l_condition l) (a_var d) w LA FA LB FB LVar PV LW delta k v E1 E2 E3 x dv Lx LDV CL).
  Qed.

  Lemma iteration_tangent dp dv : allowed s dp -> length dv = length (a_obs d) -> closes (3 * n) Jp Jl (repeat 0 (3 * n)) dp dv ->
    weighted_product (a_var d) v dv = 0.
  Proof.
    intros AL LDV CL. destruct step_parts as [delta [k [-> [E1 [E2 E3]]]]]. destruct RD as [R1 R2 R3 R4]. fold e in R3. fold N in R3. rewrite R3 in LDV.
    destruct design_dims as [LA FA]. destruct condition_dims as [LB FB]. destruct lin_spec as [_ [_ [EB [LVar _]]]].
    rewrite EB in E1, E2. destruct (allowed_expand dp AL) as [x [Lx ->]].
    apply (closes_iff _ x dv (repeat_length 0 _) Lx LDV) in CL.
    apply (step_tangent solve CS (3 * n) (columns e) N (l_design l) (l_condition l) (a_var d) w LA FA LB FB LVar PV LW delta k v E1 E2 E3 x dv Lx LDV).
    rewrite vplus_zeros in CL; [exact CL|]. rewrite vplus_length; rewrite !mv_length; lia.
  Qed.
End Iteration.
