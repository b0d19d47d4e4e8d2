(** Proofs about the initial values: the data the estimation reads, and the whole estimation with exact data. *)
From Coq Require Import Ranalysis1.
From Verif Require Import Base BaseFacts NumpyModel NumpyFacts TrajModel EvalModel ParamModel ParamFacts DataModel DataSpec DataFacts EstModel GeomModel GeomSpec GeomFacts LsqModel LsqSpec LsqFacts SolveSpec InitSpec
  DirectModel DirectSpec DirectFacts DirectFacts2 DirectFacts3 DirectProps DirectProps2 DirectProps3
  JacModel JacSpec JacFacts JacFacts2 GhmModel GhmSpec GhmFacts GhmFacts2 GhmFacts3 GhmFacts4 GhmFacts5 GhmFacts6 InitModel InitFacts InitFacts2 InitFacts3 InitFacts4.

(** ** The data *)
Lemma map_nth_seq {A} (l : list A) d : map (fun i => nth i l d) (seq 0 (length l)) = l.
Proof.
  apply (nth_ext _ _ d d); [rewrite map_length; apply seq_length|]. intros i Hi. rewrite map_length, seq_length in Hi.
  rewrite (nth_indep _ d (nth 0 l d)) by (rewrite map_length, seq_length; exact Hi).
  rewrite (map_nth (fun i => nth i l d) (seq 0 (length l)) 0%nat i), seq_nth by exact Hi. reflexivity.
Qed.

Record data_of (e : est_settings) (st : stochastics) (from to rpy speed : list V3) (d : adata) : Prop := mkDataOf {
  do_est : a_est d = e;
  do_to : length to = length from;
  do_rpy : leverarm_enabled e = true -> length rpy = length from;
  do_speed : time_shift_enabled e = true -> length speed = length from;
  do_obs : length (a_obs d) = (length from * num_obs_per_epoch e)%nat;
  do_var : length (a_var d) = length (a_obs d);
  do_res : length (a_res d) = length (a_obs d);
  do_epoch : forall i, (i < length from)%nat -> observed_epoch e (a_obs d) i =
    mkEpoch (nth i from vzero) (nth i to vzero) (if leverarm_enabled e then nth i rpy vzero else vzero) (if time_shift_enabled e then nth i speed vzero else vzero);
  do_vars : forall q, observed e q -> strided (a_var d) (place e q) (num_obs_per_epoch e) = repeat (std_of st q ^ 2) (length from)
}.

Lemma row_entries e a b c d o j v : (forall i, (i < num_obs_per_epoch e)%nat -> nth (j * num_obs_per_epoch e + i) v 0 = nth i (DataFacts.epoch_row e a b c d) 0) ->
  o = observed_epoch e v j -> o = mkEpoch a b (if leverarm_enabled e then c else vzero) (if time_shift_enabled e then d else vzero).
Proof.
  intros H ->. unfold observed_epoch. unfold num_obs_per_epoch in H at 1. unfold DataFacts.epoch_row in H.
  destruct a as [a1 a2 a3], b as [b1 b2 b3], c as [c1 c2 c3], d as [d1 d2 d3].
  destruct (leverarm_enabled e), (time_shift_enabled e); cbn [Nat.add] in *; rewrite !H by lia; reflexivity.
Qed.

Lemma nth_error_nth_eq {A} (l : list A) i d : (i < length l)%nat -> nth_error l i = Some (nth i l d).
Proof. intro H. apply nth_error_nth', H. Qed.

Lemma made e st from to rpy speed d : make_data e st from to rpy speed = Ok d -> data_of e st from to (angles_or (length from) rpy) speed d.
Proof.
  intro H. assert (H0 := H). unfold make_data in H0. apply bind_ok in H0 as [obs [HB _]].
  destruct (build_ok _ _ _ _ _ _ HB) as [F [r' [s' [Lr [Ls [Er [Es EO]]]]]]].
  destruct (make_total e st from to rpy speed _ F) as [obs' [var [EM [EB [LO [LV NV]]]]]].
  rewrite HB in EB. injection EB as <-. rewrite H in EM. injection EM as ->. destruct F as [_ [LT [FL FT]]].
  constructor; cbn [a_est a_obs a_var a_res]; try reflexivity; try assumption.
  - intro L. destruct (FL L) as [r [-> E]]. exact E.
  - unfold build_res_vector. apply repeat_length.
  - intros i Hi. set (rows := map (fun x => match x with (a, b, c, d) => DataFacts.epoch_row e a b c d end) (zip4 from to r' s')) in *.
    assert (HR : Forall (fun r => length r = num_obs_per_epoch e) rows).
    { unfold rows. apply Forall_forall. intros x Hx. apply in_map_iff in Hx as [[[[a' b'] c'] d'] [<- _]]. apply DataFacts.epoch_row_length. }
    destruct (concat_rows rows _ HR) as [LC N].
    assert (NR : nth_error rows i = Some (DataFacts.epoch_row e (nth i from vzero) (nth i to vzero) (nth i r' vzero) (nth i s' vzero))).
    { unfold rows. rewrite nth_error_map', (zip4_nth _ _ _ _ i (nth i from vzero) (nth i to vzero) (nth i r' vzero) (nth i s' vzero)); [reflexivity|..]; apply nth_error_nth_eq; lia. }
    assert (L1 : (if leverarm_enabled e then nth i r' vzero else vzero) = (if leverarm_enabled e then nth i (angles_or (length from) rpy) vzero else vzero)).
    { destruct (leverarm_enabled e); [|reflexivity]. rewrite (Er eq_refl). reflexivity. }
    assert (L2 : (if time_shift_enabled e then nth i s' vzero else vzero) = (if time_shift_enabled e then nth i speed vzero else vzero)).
    { destruct (time_shift_enabled e); [|reflexivity]. rewrite (Es eq_refl). reflexivity. }
    rewrite <- L1, <- L2. apply (row_entries e _ _ _ _ _ i obs); [|reflexivity]. intros c Hc. rewrite EO.
    specialize (N c i Hc). rewrite NR in N. rewrite (Nat.add_comm _ c), (Nat.mul_comm i).
    rewrite (nth_error_nth_eq (DataFacts.epoch_row _ _ _ _ _) c 0) in N by (rewrite DataFacts.epoch_row_length; exact Hc). apply nth_error_nth with (d := 0) in N. exact N.
Qed.

Section Data.
  Context {e : est_settings} {st : stochastics} {from to rpy speed : list V3} {d : adata}.
  Hypothesis D : data_of e st from to rpy speed d.
  Let n := length from.
  Let obs := a_obs d.

  Lemma epochs_are : est_epochs e obs = map (observed_epoch e obs) (seq 0 n).
  Proof. apply est_epochs_observed. apply D. Qed.
  Lemma from_are : map e_from (est_epochs e obs) = from.
  Proof.
    rewrite epochs_are, map_map. etransitivity; [|apply (map_nth_seq from vzero)]. apply map_ext_in. intros i Hi. apply in_seq in Hi.
    unfold obs. rewrite (do_epoch _ _ _ _ _ _ _ D) by (unfold n in Hi; lia). reflexivity.
  Qed.
  Lemma to_are : map e_to (est_epochs e obs) = to.
  Proof.
    rewrite epochs_are, map_map. etransitivity; [|apply (map_nth_seq to vzero)]. rewrite (do_to _ _ _ _ _ _ _ D). apply map_ext_in. intros i Hi. apply in_seq in Hi.
    unfold obs. rewrite (do_epoch _ _ _ _ _ _ _ D) by (unfold n in Hi; lia). reflexivity.
  Qed.
  Lemma rpy_are : leverarm_enabled e = true -> map e_rpy (est_epochs e obs) = rpy.
  Proof.
    intro L. rewrite epochs_are, map_map. etransitivity; [|apply (map_nth_seq rpy vzero)]. rewrite (do_rpy _ _ _ _ _ _ _ D L). apply map_ext_in. intros i Hi. apply in_seq in Hi.
    unfold obs. rewrite (do_epoch _ _ _ _ _ _ _ D) by (unfold n in Hi; lia). rewrite L. reflexivity.
  Qed.
  Lemma speed_are : time_shift_enabled e = true -> map e_speed (est_epochs e obs) = speed.
  Proof.
    intro L. rewrite epochs_are, map_map. etransitivity; [|apply (map_nth_seq speed vzero)]. rewrite (do_speed _ _ _ _ _ _ _ D L). apply map_ext_in. intros i Hi. apply in_seq in Hi.
    unfold obs. rewrite (do_epoch _ _ _ _ _ _ _ D) by (unfold n in Hi; lia). rewrite L. reflexivity.
  Qed.

  Lemma places c : (c < num_obs_per_epoch e)%nat -> exists q, observed e q /\ place e q = c.
  Proof.
    unfold num_obs_per_epoch, observed, place. intro H. destruct (leverarm_enabled e), (time_shift_enabled e); cbn [Nat.add] in H.
    - destruct c as [|[|[|[|[|[|[|[|[|[|[|[|c]]]]]]]]]]]]; try lia; [exists FromX|exists FromY|exists FromZ|exists ToX|exists ToY|exists ToZ|exists Roll|exists Pitch|exists Yaw|exists SpeedX|exists SpeedY|exists SpeedZ]; auto.
    - destruct c as [|[|[|[|[|[|[|[|[|c]]]]]]]]]; try lia; [exists FromX|exists FromY|exists FromZ|exists ToX|exists ToY|exists ToZ|exists Roll|exists Pitch|exists Yaw]; auto.
    - destruct c as [|[|[|[|[|[|[|[|[|c]]]]]]]]]; try lia; [exists FromX|exists FromY|exists FromZ|exists ToX|exists ToY|exists ToZ|exists SpeedX|exists SpeedY|exists SpeedZ]; auto.
    - destruct c as [|[|[|[|[|[|c]]]]]]; try lia; [exists FromX|exists FromY|exists FromZ|exists ToX|exists ToY|exists ToZ]; auto.
  Qed.

  Lemma variances_positive : (forall q, observed e q -> std_of st q <> 0) -> Forall (fun x => 0 < x) (a_var d).
  Proof.
    intro NZ. apply Forall_forall. intros x Hx. apply (In_nth _ _ 0) in Hx as [k [Hk <-]].
    assert (K := k_pos e). assert (LV := do_var _ _ _ _ _ _ _ D). assert (LO := do_obs _ _ _ _ _ _ _ D). rewrite LV, LO in Hk.
    set (m := num_obs_per_epoch e) in *.
    destruct (places (k mod m)) as [q [Hq Pq]]; [apply Nat.mod_upper_bound; unfold m; lia|].
    destruct (strided_spec (a_var d) (length from) m (place e q)) as [SL SN]; [apply place_lt, Hq|lia|].
    assert (Hj : (k / m < length from)%nat) by (apply Nat.div_lt_upper_bound; lia). specialize (SN (k / m)%nat Hj).
    assert (DV := do_vars _ _ _ _ _ _ _ D q Hq). fold m in DV. rewrite DV, Pq in SN.
    clearbody m. replace (k mod m + m * (k / m))%nat with k in SN by (rewrite Nat.add_comm; apply Nat.div_mod; lia).
    assert (X : nth_error (repeat (std_of st q ^ 2) (length from)) (k / m) = Some (std_of st q ^ 2)).
    { rewrite (nth_error_nth_eq _ _ (std_of st q ^ 2)) by (rewrite repeat_length; exact Hj). rewrite nth_repeat. reflexivity. }
    rewrite X in SN. symmetry in SN. apply nth_error_nth with (d := 0) in SN. rewrite SN. cbn.
    assert (Z := NZ q Hq). assert (0 < std_of st q * std_of st q) by (apply Rsqr_pos_lt; exact Z). lra.
  Qed.
End Data.

(** ** The parameters before the first iteration *)
Definition started (e : est_settings) (t rot : V3) (s dt : R) (l : V3) : pset :=
  apply_settings (mkPset (initial_params t rot s dt l) (np_zeros 11) true) e.

Lemma started_ready e t rot s dt l d n : a_est d = e -> length (a_obs d) = (n * num_obs_per_epoch e)%nat -> length (a_res d) = length (a_obs d) ->
  ready (started e t rot s dt l) d n.
Proof.
  intros E LO LR. constructor; [reflexivity| |rewrite E; exact LO|exact LR]. rewrite E. cbv [started apply_settings ps_set_params set_flags initial_params enabled_bool_list ps_params map p_set_enabled p_enabled].
  unfold lq_parameter_filter, helmert_filter, leverarm_filter.
  destruct (helmert_enabled e), (leverarm_enabled e); cbn; rewrite ?andb_true_r, ?andb_false_r; reflexivity.
Qed.

Lemma started_values e t rot s dt l :
  unless (trans_x e && helmert_enabled e) (vx t) 0 -> unless (trans_y e && helmert_enabled e) (vy t) 0 -> unless (trans_z e && helmert_enabled e) (vz t) 0 ->
  unless (rot_x e && helmert_enabled e) (vx rot) 0 -> unless (rot_y e && helmert_enabled e) (vy rot) 0 -> unless (rot_z e && helmert_enabled e) (vz rot) 0 ->
  unless (scale e && helmert_enabled e) s 1 -> unless (time_shift_enabled e) dt 0 ->
  unless (lever_x e && leverarm_enabled e) (vx l) 0 -> unless (lever_y e && leverarm_enabled e) (vy l) 0 -> unless (lever_z e && leverarm_enabled e) (vz l) 0 ->
  values (started e t rot s dt l) = params_list (mkAlign t rot s dt l).
Proof.
  intros H1 H2 H3 H4 H5 H6 H7 H8 H9 H10 H11. rewrite values_all. unfold params_list. cbn [sim_trans sim_rot sim_scale time_shift lever].
  assert (K : forall b x y, unless b x y -> (if b then x else y) = x) by (intros [] x y U; [reflexivity|symmetry; apply U; reflexivity]).
  apply K in H1, H2, H3, H4, H5, H6, H7, H8, H9, H10, H11.
  transitivity [if (trans_x e && helmert_enabled e)%bool then vx t else 0; if (trans_y e && helmert_enabled e)%bool then vy t else 0; if (trans_z e && helmert_enabled e)%bool then vz t else 0;
    if (rot_x e && helmert_enabled e)%bool then vx rot else 0; if (rot_y e && helmert_enabled e)%bool then vy rot else 0; if (rot_z e && helmert_enabled e)%bool then vz rot else 0;
    if (scale e && helmert_enabled e)%bool then s else 1; if time_shift_enabled e then dt else 0;
    if (lever_x e && leverarm_enabled e)%bool then vx l else 0; if (lever_y e && leverarm_enabled e)%bool then vy l else 0; if (lever_z e && leverarm_enabled e)%bool then vz l else 0].
  - reflexivity.
  - rewrite H1, H2, H3, H4, H5, H6, H7, H8, H9, H10, H11. reflexivity.
Qed.

Lemma params_listed p : params_of (params_list p) = p.
Proof. destruct p as [[? ? ?] [? ? ?] ? ? [? ? ?]]. reflexivity. Qed.

(** ** The estimation *)
Section Whole.
  Variable solve : list (list R) -> list R -> result (list R).
  Variable egrad : (list R -> R) -> nat -> list R -> R.
  Hypothesis CS : solve_contract solve.
  Hypothesis CC : solve_complete solve.
  Hypothesis CE : egrad_contract egrad.
  Variable pinv : list (list R) -> list (list R).
  Variable svd : M3 -> result (M3 * V3 * M3).
  Context {Q : Type} (ops : rot_ops Q).
  Hypothesis CR : rot_contract ops.
  Hypothesis CV : svd_contract svd.

  Context {e : est_settings} {st : stochastics} {from to rpy speed : list V3} {d : adata}.
  Hypothesis D : data_of e st from to rpy speed d.
  Hypothesis NZ : forall q, observed e q -> std_of st q <> 0.
  Hypothesis EN : all_lq_disabled e = false.
  Variable ths : list R.
  Hypothesis FT : Forall (fun t => 0 <= t) ths.
  Hypothesis NT : ths <> [].
  Let n := length from.

  Lemma whole s p : init_values svd ops solve e (a_obs d) = Ok s -> ready s d n -> values s = params_list p -> (0 < n)%nat ->
    (forall i, (i < n)%nat -> misclosed p (observed_epoch e (a_obs d) i) = vzero) ->
    (forall Jp, jacobian (fun q => misclosures (a_est d) (params_of q) n (a_obs d)) (values s) (3 * n) Jp -> determined s n Jp) ->
    exists p' runs, estimate (ghm solve egrad pinv (init_values svd ops solve)) ths false d = Ok (p', true, runs) /\ values p' = params_list p.
  Proof.
    intros HI RD V Hn EX DT. assert (EE := do_est _ _ _ _ _ _ _ D). assert (LO := do_obs _ _ _ _ _ _ _ D).
    assert (JP : jacobian (fun q => misclosures (a_est d) (params_of q) n (a_obs d)) (values s) (3 * n)
                 (fun r j => nth j (nth r (design_matrix egrad p (est_epochs e (a_obs d))) []) 0)).
    { intros r c Hr Hc. rewrite V in *. rewrite EE. apply design_partial; [exact CE|exact LO|exact Hr|exact Hc]. }
    assert (JL : jacobian (misclosures (a_est d) (params_of (values s)) n) (a_obs d) (3 * n) (sparse_entry (condition_matrix egrad p e (est_epochs e (a_obs d))))).
    { intros r c Hr Hc. rewrite V, params_listed, EE. apply condition_partial; assumption. }
    rewrite <- V. eapply estimate_ok; try eassumption.
    - rewrite EE. exact HI.
    - rewrite EE. exact EN.
    - exact (do_var _ _ _ _ _ _ _ D).
    - exact (variances_positive D NZ).
    - rewrite V, params_listed, EE. unfold misclosures. clear - EX. revert EX.
      assert (G : forall k m, (forall i, (i < k + m)%nat -> misclosed p (observed_epoch e (a_obs d) i) = vzero) ->
        flat_map (fun i => coords (misclosed p (observed_epoch e (a_obs d) i))) (seq k m) = repeat 0 (3 * m)).
      { intros k m. revert k. induction m as [|m IH]; intros k H; [reflexivity|]. cbn [seq flat_map]. rewrite H by lia.
        rewrite (IH (S k)) by (intros i Hi; apply H; lia). replace (3 * S m)%nat with (3 + 3 * m)%nat by lia. rewrite repeat_app. reflexivity. }
      intro H. apply (G 0%nat n). exact H.
    - apply DT, JP.
  Qed.
End Whole.
