(** Property C155: standard deviations of groups of observations and the test of the adjustment. *)
From Verif Require Import Base BaseFacts NumpyModel TrajModel EvalModel EvalStats ParamModel DataModel DataSpec DataFacts DataFacts2 DataProps EstModel GeomModel
  JacModel JacSpec JacFacts2 JacProps LsqModel LsqSpec LsqFacts GhmModel GhmSpec GhmFacts GhmFacts2 GhmFacts3 GhmFacts4 GhmCase GhmFacts5 GhmFacts6 GhmProps InitProps SolveSpec SolveFacts CovSpec CovFacts CovProps StdModel StdSpec.
Local Arguments leverarm_enabled : simpl never.
Local Arguments time_shift_enabled : simpl never.
Local Arguments num_obs_per_epoch : simpl never.

Lemma groups_available e g : In g (variance_groups e) -> available e g.
Proof.
  unfold variance_groups. intros H q Hq. apply in_app_iff in H as [H|H].
  { cbn in H. destruct H as [<-|[<-|[<-|[<-|[]]]]]; cbn in Hq; intuition (subst; exact I). }
  apply in_app_iff in H as [H|H].
  - destruct (leverarm_enabled e) eqn:E; [|destruct H]. destruct H as [<-|[<-|[]]]; cbn in Hq; intuition (subst; exact E).
  - destruct (time_shift_enabled e) eqn:E; [|destruct H]. destruct H as [<-|[]]; cbn in Hq; intuition (subst; exact E).
Qed.

Lemma sum_repeat x n : np_sum (repeat x n) = INR n * x.
Proof. induction n as [|n IH]; [cbn; ring|]. rewrite S_INR. cbn [repeat]. change (np_sum (x :: repeat x n)) with (x + np_sum (repeat x n)). rewrite IH. ring. Qed.

Lemma roots_of_squares x n : (0 < n)%nat -> mean_of_roots (repeat (x ^ 2) n) = Fin (Rabs x).
Proof.
  intro Hn. unfold mean_of_roots.
  replace (existsb (fun y => Rltb y 0) (repeat (x ^ 2) n)) with false.
  2: { symmetry. clear Hn. induction n as [|n IH]; [reflexivity|]. cbn [repeat existsb]. rewrite IH, Bool.orb_false_r. apply Rltb_false. nra. }
  replace (map sqrt (repeat (x ^ 2) n)) with (repeat (Rabs x) n).
  2: { clear Hn. induction n as [|n IH]; [reflexivity|]. cbn [repeat map]. rewrite <- IH. f_equal. replace (x ^ 2) with (Rsqr x) by (unfold Rsqr; ring). symmetry. apply sqrt_Rsqr_abs. }
  unfold np_mean. destruct n as [|n]; [lia|]. change (Fin (np_sum (repeat (Rabs x) (S n)) / INR (length (repeat (Rabs x) (S n)))) = Fin (Rabs x)). f_equal.
  rewrite sum_repeat, repeat_length. field. apply not_0_INR. lia.
Qed.

Lemma concat_same {A B} (f : A -> B) n x (l : list A) : (forall a, In a l -> f a = x) ->
  concat (map (fun a => repeat (f a) n) l) = repeat x (length l * n).
Proof.
  induction l as [|a l IH]; intro H; [reflexivity|]. cbn. rewrite (H a (or_introl eq_refl)), IH, <- repeat_app; [reflexivity|]. intros b Hb. apply H. now right.
Qed.

(** The standard deviations of new data are the configured ones (without their signs): one entry for each group that is observed. *)
Theorem C155_configured : forall e s from to rpy speed d, make_data e s from to rpy speed = Ok d -> from <> [] ->
  exists l, group_stds d = Ok l /\
    map fst l = [XY_FROM; Z_FROM; XY_TO; Z_TO] ++ (if leverarm_enabled e then [ROLL_PITCH; YAW] else []) ++ (if time_shift_enabled e then [SPEED] else []) /\
    forall g v q, In (g, v) l -> In q (parts g) -> v = Fin (Rabs (std_of s q)).
Proof.
  intros e s from to rpy speed d H NE. destruct (C42_variances _ _ _ _ _ _ _ H) as [_ [_ [_ [_ VG]]]].
  assert (EE : a_est d = e).
  { unfold make_data in H. apply bind_ok in H as [o [_ H]]. destruct (negb _); [discriminate|]. apply bind_ok in H as [v [_ H]].
    destruct (negb _); [discriminate|]. destruct (negb _); [discriminate|]. now injection H as <-. }
  assert (N : (0 < length from)%nat) by (destruct from; [contradiction|cbn; lia]).
  set (dev := fun g => match parts g with q :: _ => Rabs (std_of s q) | [] => 0 end).
  assert (ONE : forall g q, In q (parts g) -> In g (variance_groups e) -> dev g = Rabs (std_of s q)).
  { intros g q Hq Hg. unfold dev. unfold variance_groups in Hg. rewrite !in_app_iff in Hg.
    assert (C : In g [XY_FROM; Z_FROM; XY_TO; Z_TO; ROLL_PITCH; YAW; SPEED]).
    { destruct Hg as [Hg|[Hg|Hg]]; [cbn in *; tauto| |];
        [destruct (leverarm_enabled e)|destruct (time_shift_enabled e)]; cbn in *; tauto. }
    cbn in C. destruct C as [<-|[<-|[<-|[<-|[<-|[<-|[<-|[]]]]]]]]; cbn in Hq |- *; intuition (subst; reflexivity). }
  exists (map (fun g => (g, Fin (dev g))) (variance_groups e)). split; [|split].
  - unfold group_stds. rewrite EE. erewrite mapM_ok_map; [reflexivity|]. intros g Hg. cbv beta.
    rewrite VG by (now apply groups_available). cbn.
    rewrite (concat_same (fun q => std_of s q ^ 2) (length from) (dev g ^ 2)).
    2: { intros q Hq. rewrite (ONE g q Hq Hg). now rewrite pow2_abs. }
    rewrite roots_of_squares.
    + rewrite (Rabs_right (dev g)); [reflexivity|]. apply Rle_ge. unfold dev. destruct (parts g); [apply Rle_refl|apply Rabs_pos].
    + destruct g; cbn; lia.
  - rewrite map_map. cbn [fst]. apply map_id.
  - intros g v q Hg Hq. apply in_map_iff in Hg as [g' [E Hg]]. injection E as <- <-. f_equal. now apply ONE.
Qed.
Print Assumptions C155_configured.

Lemma sum_scaled c l : np_sum (map (Rmult c) l) = c * np_sum l.
Proof. induction l as [|x l IH]; [cbn; ring|]. cbn [map]. change (np_sum (c * x :: map (Rmult c) l)) with (c * x + np_sum (map (Rmult c) l)). rewrite IH. change (np_sum (x :: l)) with (x + np_sum l). ring. Qed.

Lemma roots_scaled c l : 0 <= c -> Forall (fun x => 0 <= x) l ->
  mean_of_roots (map (fun x => x * c) l) = match mean_of_roots l with Fin x => Fin (sqrt c * x) | n => n end.
Proof.
  intros Hc HF. unfold mean_of_roots.
  assert (Z : forall k : list R, Forall (fun x => 0 <= x) k -> existsb (fun x => Rltb x 0) k = false).
  { intros k Hk. induction Hk as [|x k Hx Hk IH]; [reflexivity|]. cbn. rewrite IH, Bool.orb_false_r. apply Rltb_false. lra. }
  rewrite (Z l HF), (Z (map _ l)).
  2: { apply Forall_map. revert HF. apply Forall_impl. intros x Hx. now apply Rmult_le_pos. }
  assert (E : map sqrt (map (fun x => x * c) l) = map (Rmult (sqrt c)) (map sqrt l)).
  { rewrite !map_map. apply map_ext_in. intros x Hx. rewrite Forall_forall in HF. rewrite sqrt_mult by auto. ring. }
  rewrite E. unfold np_mean. rewrite map_length. destruct (map sqrt l) as [|y k] eqn:EK; [reflexivity|].
  rewrite <- EK. destruct (map (Rmult (sqrt c)) (map sqrt l)) eqn:EM; [rewrite EK in EM; discriminate|]. rewrite <- EM, sum_scaled. f_equal. unfold Rdiv. ring.
Qed.

Lemma strided_map {A B} (f : A -> B) l i k : strided (map f l) i k = map f (strided l i k).
Proof.
  unfold strided. rewrite map_length. generalize (seq 0 (stride_count (length l) i k)). intro s. induction s as [|j s IH]; [reflexivity|].
  cbn [flat_map]. rewrite map_app, IH. f_equal. rewrite nth_error_map'. destruct (nth_error l (i + k * j)); reflexivity.
Qed.

Lemma stds_scaled c d : 0 <= c -> Forall (fun x => 0 <= x) (a_var d) -> forall d' l, a_est d' = a_est d ->
  a_var d' = map (fun x => x * c) (a_var d) -> group_stds d = Ok l -> group_stds d' = Ok (stretched (sqrt c) l).
Proof.
  intros Hc HF d' l EE EV H. unfold group_stds, get_group in *. cbn [the_vector] in *. rewrite EE.
  assert (IN : forall g, In g (variance_groups (a_est d)) -> available (a_est d) g) by apply groups_available.
  revert l H IN. generalize (variance_groups (a_est d)). intro gs. induction gs as [|g gs IH]; intros l H IN.
  - cbn in *. injection H as <-. reflexivity.
  - cbn [mapM] in *. rewrite extract_spec in * by (apply IN; now left). cbn [bind] in *.
    apply bind_ok in H as [l' [HL H]]. injection H as <-. rewrite (IH _ HL) by (intros g' Hg'; apply IN; now right). cbn [bind].
    unfold stretched. cbn [map fst snd]. do 3 f_equal. rewrite <- roots_scaled; [|exact Hc|].
    + f_equal. rewrite concat_map, map_map. f_equal. apply map_ext. intro q. rewrite EV. apply strided_map.
    + apply Forall_forall. intros x Hx. apply in_concat in Hx as [col [Hcol Hx]]. apply in_map_iff in Hcol as [q [<- _]].
      unfold strided in Hx. apply in_flat_map in Hx as [j [_ Hx]]. destruct (nth_error (a_var d) _) eqn:E; [|destruct Hx].
      destruct Hx as [<-|[]]. apply nth_error_In in E. rewrite Forall_forall in HF. now apply HF.
Qed.

Lemma div_nonneg a b : 0 <= a -> 0 < b -> 0 <= a / b.
Proof. intros. apply Rmult_le_pos; [assumption|]. left. now apply Rinv_0_lt_compat. Qed.

Section Loop.
  Variable solve : list (list R) -> list R -> result (list R).
  Variable egrad : (list R -> R) -> nat -> list R -> R.
  Variable pinv : list (list R) -> list (list R).
  Variable init : est_settings -> list R -> result pset.
  Hypothesis CS : solve_contract solve.
  Let G := ghm solve egrad pinv init.

  Lemma factor_sign s d n f : ready s d n -> Forall (fun x => 0 < x) (a_var d) -> length (a_var d) = length (a_obs d) ->
    (num_enabled s < 3 * n)%nat -> ghm_variance_factor solve s d = Ok f -> exists r, f = Fin r /\ 0 <= r.
  Proof.
    intros [R1 R2 R3 R4] PV LV LT H.
    assert (ER : redundancy s d = (Z.of_nat (3 * n) - Z.of_nat (num_enabled s))%Z).
    { unfold redundancy. rewrite (epochs_count _ _ n R3). lia. }
    destruct (variance_factor_spec solve s d f CS PV ltac:(congruence) H) as [[_ ->]|[Z _]]; [|lia].
    eexists. split; [reflexivity|].
    assert (W : 0 <= weighted (a_var d) (a_res d)).
    { clear - PV. generalize (a_res d). induction PV as [|s0 v Hs PV IH]; intros [|x r]; cbn; try lra. specialize (IH r).
      assert (0 <= x ^ 2 / s0) by (apply div_nonneg; [nra|assumption]). cbn in *. lra. }
    assert (0 < IZR (redundancy s d)) by (apply IZR_lt; lia).
    apply div_nonneg; assumption.
  Qed.

  Lemma recompute_scaled ths ve left : forall s d n c v0 conv p d' conv' runs, ready s d n -> length (a_var d) = length (a_obs d) ->
    0 <= c -> Forall (fun x => 0 < x) v0 -> a_var d = map (fun x => x * c) v0 -> (num_enabled s < 3 * n)%nat ->
    recompute G ths ve left s d conv = Ok (p, d', conv', runs) ->
    exists c', 0 <= c' /\ a_var d' = map (fun x => x * c') v0 /\ a_est d' = a_est d /\ a_obs d' = a_obs d /\ (ve = false -> c' = c).
  Proof.
    induction left as [|left IH]; intros s d n c v0 conv p d' conv' runs RD LV Hc PV EV LT H.
    - cbn in H. injection H as <- <- <- <-. exists c. auto.
    - cbn [recompute] in H. apply bind_ok in H as [[[[p1 d1] c1] tr] [HA H]]. apply bind_ok in H as [f [HF H]].
      destruct (run_ready solve egrad pinv init ths s d n p1 d1 c1 tr RD HA) as (RD1 & E1 & E2 & E3 & E4).
      destruct ve; cbn [negb] in H.
      2: { injection H as <- <- <- <-. exists c. split; [exact Hc|]. split; [congruence|]. auto. }
      assert (LT1 : (num_enabled p1 < 3 * n)%nat) by (rewrite enabled_count in *; rewrite E4; exact LT).
      assert (ST : exists c1, 0 <= c1 /\ scale_variances G (a_var d1) f = map (fun x => x * c1) v0).
      { change (scale_variances G) with ghm_scale_variances. change (variance_factor G p1 d1) with (ghm_variance_factor solve p1 d1) in HF. rewrite E3, EV.
        destruct (Rle_lt_or_eq_dec 0 c Hc) as [Pc|<-].
        - assert (PD : Forall (fun x => 0 < x) (a_var d1)) by (rewrite E3, EV; now apply rescaled_pos).
          destruct (factor_sign p1 d1 n f RD1 PD ltac:(congruence) LT1 HF) as [r [-> Hr]].
          exists (c * r). split; [now apply Rmult_le_pos|]. cbn. rewrite map_map. apply map_ext. intro x. ring.
        - exists 0. split; [lra|]. destruct f as [r| |]; cbn; [rewrite map_map|reflexivity|reflexivity]. apply map_ext. intro x. ring. }
      destruct ST as [cc [Hcc ST]].
      destruct (off_one f).
      + apply bind_ok in H as [[[[p2 d2] c2] trs] [HR H]]. cbn [fst snd] in H. injection H as <- <- <- <-.
        set (dn := with_vector d1 Var _) in HR.
        assert (RDn : ready p1 dn n) by (destruct RD1; constructor; assumption).
        destruct (IH p1 dn n cc v0 c1 p2 d2 c2 trs RDn) as (c' & A1 & A2 & A3 & A4 & _); try assumption.
        { unfold dn. cbn [with_vector a_var a_obs]. rewrite ST, map_length. rewrite E2, <- LV, EV. now rewrite map_length. }
        exists c'. split; [exact A1|]. split; [exact A2|]. split; [rewrite A3; exact E1|]. split; [rewrite A4; exact E2|discriminate].
      + injection H as <- <- <- <-. exists cc. split; [exact Hcc|]. split; [exact ST|]. split; [exact E1|]. split; [exact E2|discriminate].
  Qed.
End Loop.

(** However often variances are estimated again, the standard deviations of all groups are multiplied by one and the same number: what was
    twice as precise stays twice as precise.  Without variance estimation they stay as they are. *)
Theorem C155_ratios : forall solve egrad pinv init ths ve left s d n conv p d' conv' runs l,
  solve_contract solve -> ready s d n -> length (a_var d) = length (a_obs d) -> Forall (fun x => 0 < x) (a_var d) -> (num_enabled s < 3 * n)%nat ->
  group_stds d = Ok l -> recompute (ghm solve egrad pinv init) ths ve left s d conv = Ok (p, d', conv', runs) ->
  exists c, 0 <= c /\ group_stds d' = Ok (stretched c l) /\ (ve = false -> c = 1) /\ a_obs d' = a_obs d.
Proof.
  intros solve egrad pinv init ths ve left s d n conv p d' conv' runs l CS RD LV PV LT HG H.
  assert (ONE : a_var d = map (fun x => x * 1) (a_var d)) by (rewrite <- (map_id (a_var d)) at 1; apply map_ext; intro; ring).
  destruct (recompute_scaled solve egrad pinv init CS ths ve left s d n 1 (a_var d) conv p d' conv' runs RD LV ltac:(lra) PV ONE LT H)
    as (c & Hc & EV & EE & EO & E1).
  exists (sqrt c). split; [apply sqrt_pos|]. split; [|split; [|exact EO]].
  - apply (stds_scaled c d); try assumption. revert PV. apply Forall_impl. intros; lra.
  - intro V. rewrite (E1 V). apply sqrt_1.
Qed.
Print Assumptions C155_ratios.

(** The adjustment passes its test exactly when the squared residuals, each divided by its variance, sum up to at most the quantile. *)
Theorem C155_test : forall solve ppf prob s d n factor, solve_contract solve -> ready s d n -> Forall (fun x => 0 < x) (a_var d) ->
  length (a_var d) = length (a_obs d) -> (num_enabled s < 3 * n)%nat -> ghm_variance_factor solve s d = Ok factor ->
  (global_test ppf prob factor (redundancy s d) = true <->
   exists q, ppf (1 - prob) (Z.of_nat (3 * n) - Z.of_nat (length (filter p_enabled (ps_params s))))%Z = Some q /\ weighted (a_var d) (a_res d) <= q).
Proof.
  intros solve ppf prob s d n factor CS RD PV LV LT H. destruct RD as [R1 R2 R3 R4].
  assert (ER : redundancy s d = (Z.of_nat (3 * n) - Z.of_nat (num_enabled s))%Z).
  { unfold redundancy. rewrite (epochs_count _ _ n R3). lia. }
  rewrite <- num_enabled_filter, <- ER.
  destruct (variance_factor_spec solve s d factor CS PV ltac:(congruence) H) as [[_ ->]|[Z _]]; [|lia].
  assert (NZ : IZR (redundancy s d) <> 0) by (apply not_0_IZR; lia).
  unfold global_test. destruct (ppf (1 - prob) (redundancy s d)) as [q|].
  - replace (weighted (a_var d) (a_res d) / IZR (redundancy s d) * IZR (redundancy s d)) with (weighted (a_var d) (a_res d)) by (field; exact NZ).
    rewrite Rleb_true. split; [intro L; exists q; auto|]. intros [q' [E L]]. injection E as <-. exact L.
  - split; [discriminate|]. intros [q [E _]]. discriminate E.
Qed.
Print Assumptions C155_test.

(** An adjustment that passes the test passes it with every smaller probability of error. *)
Theorem C155_smaller_error : forall ppf a b factor k, quantiles ppf -> 0 < a <= b -> b <= 1 -> (0 < k)%Z ->
  global_test ppf b factor k = true -> global_test ppf a factor k = true.
Proof.
  intros ppf a b factor k Q Hab Hb Hk H. unfold global_test in *. destruct factor as [f| |]; try discriminate.
  destruct (Q (1 - b) (1 - a) k ltac:(lra) ltac:(lra) Hk) as (x & y & E1 & E2 & L). rewrite E1 in H. rewrite E2.
  rewrite Rleb_true in *. lra.
Qed.
Print Assumptions C155_smaller_error.

(** ** Cases *)
Example C155_case_configured : make_data lever_and_time (mkStoch 1 2 3 4 5 6 7) [mkV3 1 2 3; mkV3 4 5 6] [mkV3 7 8 9; mkV3 10 11 12]
    (Some [mkV3 13 14 15; mkV3 16 17 18]) [mkV3 19 20 21; mkV3 22 23 24] = Ok two_epochs_data.
Proof. exact two_epochs_ok. Qed.
Example C155_case_quantiles : quantiles (fun p k => Some (p * IZR k)).
Proof.
  intros a b k H Hb Hk. do 2 eexists. split; [reflexivity|]. split; [reflexivity|].
  apply Rmult_le_compat_r; [apply IZR_le; lia|lra].
Qed.
(** Only a translation in x is estimated, from one exact observation. *)
Example C155_case_ratios : exists p d' conv' runs l,
  ready (shifted_x 3) seen_exactly 1 /\ length (a_var seen_exactly) = length (a_obs seen_exactly) /\ Forall (fun x => 0 < x) (a_var seen_exactly) /\
  (num_enabled (shifted_x 3) < 3 * 1)%nat /\ group_stds seen_exactly = Ok l /\
  recompute (ghm gauss derive_egrad gauss_pinv start_at_3) [1 / 1000] false 5 (shifted_x 3) seen_exactly false = Ok (p, d', conv', runs).
Proof.
  destruct C84_case as (RD & AD & EX & JP & JL & DT & _).
  destruct (C84_total gauss derive_egrad gauss_pinv start_at_3 [1 / 1000] (shifted_x 3) seen_exactly 1 (case_jacobian 3 (a_obs seen_exactly)) case_jl
    gauss_contract gauss_complete derive_egrad_contract eq_refl AD RD) as (p & runs & E & _); try assumption;
    [lia|reflexivity|cbn; repeat constructor; lra|repeat constructor; lra|discriminate|].
  unfold estimate in E. change (init_parameters (ghm gauss derive_egrad gauss_pinv start_at_3) (a_est seen_exactly) (a_obs seen_exactly)) with (Ok (shifted_x 3)) in E.
  cbn [bind] in E. rewrite AD in E. apply bind_ok in E as [[[[p1 d1] c1] tr] [E _]].
  exists p1, d1, c1, tr. eexists. split; [exact RD|]. split; [reflexivity|]. split; [cbn; repeat constructor; lra|]. split; [apply Nat.ltb_lt; reflexivity|].
  split; [|exact E]. reflexivity.
Qed.
