(** Property C45: the adjustment terminates and reports convergence. *)
From Verif Require Import Base BaseFacts NumpyModel ParamModel DataModel EstModel EstSpec EstFacts.
Local Arguments all_lq_disabled : simpl never.

(** Whatever the solver returns there are one to five adjustments (one without variance estimation) of one
    to sixteen updates each. *)
Theorem C45_bounded : forall (P L : Type) (s : solver P L) metric time dist ve d p ok runs,
  estimate s (thresholds metric time dist) ve d = Ok (p, ok, runs) -> all_lq_disabled (a_est d) = false ->
  (1 <= length runs <= 5)%nat /\ (ve = false -> length runs = 1%nat) /\ Forall (fun updates => 1 <= length updates <= 16)%nat runs.
Proof.
  intros P L s m t di ve d p ok runs H D. unfold estimate in H. apply bind_ok in H as [p0 [_ H]]. rewrite D in H.
  apply bind_ok in H as [[[[p1 d1] c1] trs] [X H]]. apply recompute_spec in X as [_ [X1 [X2 [X3 _]]]]; [|discriminate].
  assert (trs = runs) as <-.
  { destruct (negb c1); [apply bind_ok in H as [p2 [_ H]]|]; now injection H. }
  tauto.
Qed.
Print Assumptions C45_bounded.

(** Convergence is reported exactly if the last update of the last adjustment has nothing beyond the
    threshold at its place; until then, and for all sixteen updates without convergence, some update was
    beyond. *)
Theorem C45_reported : forall (P L : Type) (s : solver P L) metric time dist ve d p ok runs,
  estimate s (thresholds metric time dist) ve d = Ok (p, ok, runs) -> all_lq_disabled (a_est d) = false ->
  let ths := thresholds metric time dist in
  exists updates final, last_of runs updates /\ last_of updates final /\
    (ok = true <-> settled ths final) /\
    (ok = false -> length updates = 16%nat /\ Forall (fun u => ~ settled ths u) updates) /\
    (forall i u, nth_error updates i = Some u -> (S i < length updates)%nat -> ~ settled ths u).
Proof.
  intros P L s m t di ve d p ok runs H D ths. unfold estimate in H. apply bind_ok in H as [p0 [_ H]]. rewrite D in H.
  apply bind_ok in H as [[[[p1 d1] c1] trs] [X H]].
  apply recompute_spec in X as [_ [_ [_ [_ [before [tr [front [final [B [T [F [C1 C2]]]]]]]]]]]]; [|discriminate].
  assert (trs = runs /\ c1 = ok) as [<- <-].
  { destruct c1; cbn [negb] in H; [|apply bind_ok in H as [p2 [_ H]]]; injection H as _ <- <-; auto. }
  exists tr, final. split; [now exists before|]. split; [now exists front|]. split; [exact C1|]. split.
  - intro E. split; [auto|]. subst tr. apply Forall_app. split; [exact F|]. constructor; [|constructor].
    intro S. apply C1 in S. congruence.
  - intros i u Hu Hi. subst tr. rewrite app_length in Hi. cbn in Hi. rewrite nth_error_app1 in Hu by lia.
    rewrite Forall_forall in F. apply F. eapply nth_error_In; eauto.
Qed.
Print Assumptions C45_reported.

(** Without convergence the parameters the estimation started from are returned: those computed directly
    from the observations. *)
Theorem C45_initial : forall (P L : Type) (s : solver P L) metric time dist ve d p runs,
  estimate s (thresholds metric time dist) ve d = Ok (p, false, runs) -> all_lq_disabled (a_est d) = false ->
  init_parameters s (a_est d) (a_obs d) = Ok p.
Proof.
  intros P L s m t di ve d p runs H D. unfold estimate in H. apply bind_ok in H as [p0 [I H]]. rewrite D in H.
  apply bind_ok in H as [[[[p1 d1] c1] trs] [X H]]. apply recompute_spec in X as [[K1 K2] _]; [|discriminate].
  destruct c1; cbn [negb] in H; [discriminate|]. apply bind_ok in H as [p2 [E H]]. injection H as <- _. now rewrite K1, K2 in E.
Qed.
Print Assumptions C45_initial.

(** If nothing is to be estimated nothing is done: the default parameters, not converged. *)
Theorem C45_nothing : forall (P L : Type) (s : solver P L) ths ve d p ok runs,
  estimate s ths ve d = Ok (p, ok, runs) -> all_lq_disabled (a_est d) = true ->
  p = default_parameters s /\ ok = false /\ runs = [].
Proof.
  intros P L s ths ve d p ok runs H D. unfold estimate in H. apply bind_ok in H as [p0 [_ H]]. rewrite D in H.
  injection H as <- <- <-. auto.
Qed.
Print Assumptions C45_nothing.

(** The parameter updated by the k-th entry is the k-th estimated one; if no earlier parameter is left out
    (its place among the eleven is k) its update was within its own threshold, or not a number. *)
Theorem C45_own_threshold_partial : forall (P L : Type) (s : solver P L) metric time dist ve d p runs,
  estimate s (thresholds metric time dist) ve d = Ok (p, true, runs) -> all_lq_disabled (a_est d) = false ->
  exists updates final, last_of runs updates /\ last_of updates final /\
    forall k u, nth_error final k = Some u -> nth_error (positions (lq_parameter_filter (a_est d))) k = Some k ->
      exists th, nth_error (thresholds metric time dist) k = Some th /\ not_beyond u th.
Proof.
  intros P L s m t di ve d p runs H D. destruct (C45_reported _ _ _ _ _ _ _ _ _ _ _ H D) as [up [final [L1 [L2 [C _]]]]].
  exists up, final. split; [exact L1|]. split; [exact L2|]. intros k u Hu Hk.
  assert (k < 11)%nat as Lk.
  { apply nth_error_In in Hk. unfold positions in Hk. apply in_map_iff in Hk as [[i b] [E Hk]]. cbn in E. subst i. apply filter_In in Hk as [Hk _].
    apply In_nth_error in Hk as [j Hj]. assert (Lj := nth_error_Some_lt _ _ _ Hj). rewrite enumerate_nth in Hj. rewrite enumerate_length in Lj.
    assert (length (lq_parameter_filter (a_est d)) = 11%nat) as LL.
    { unfold lq_parameter_filter, helmert_filter, leverarm_filter. destruct (helmert_enabled _), (leverarm_enabled _); reflexivity. }
    destruct (nth_error (lq_parameter_filter (a_est d)) j); [|discriminate]. injection Hj as <- _. lia. }
  destruct (nth_error_lt_Some (thresholds m t di) k Lk) as [th Ht]. exists th. split; [exact Ht|].
  apply (proj1 C eq_refl k u th Hu Ht).
Qed.
Print Assumptions C45_own_threshold_partial.

(** ** Refutations *)
(** A solver with one update. *)
Definition one_update (u : list num) : solver unit unit :=
  mkSolver unit unit (fun _ _ => Ok tt) tt (fun _ _ => Ok []) (fun _ _ => Ok tt) (fun _ _ _ => Ok u)
           (fun _ d _ _ => Ok (a_res d)) (fun _ _ => Ok tt) (fun _ _ _ => Ok []) (fun _ _ => Ok tt) (fun _ _ => Ok (Fin 1)) (fun v _ => v).
Lemma one_update_settles u ths n d w delta lin : any_exceeds delta ths = true -> any_exceeds u ths = false -> divisible (a_est d) (a_res d) = true ->
  iterate (one_update u) ths (S n) tt d w delta lin = Ok (tt, with_vector d Res (a_res d), true, Some tt, [u]).
Proof.
  intros E1 E2 D. cbn [iterate]. rewrite E1. cbn [bind one_update linearise deltas residuals add_deltas evaluate contradictions].
  unfold set_res. rewrite D. cbn [bind]. destruct n; cbn [iterate]; rewrite E2; reflexivity.
Qed.
Lemma one_update_estimate u ths d : any_exceeds (repeat Inf 11) ths = true -> any_exceeds u ths = false ->
  divisible (a_est d) (repeat 0 (length (a_obs d))) = true -> all_lq_disabled (a_est d) = false ->
  estimate (one_update u) ths false d = Ok (tt, true, [[u]]).
Proof.
  intros E1 E2 D A. unfold estimate. cbn [bind one_update init_parameters]. rewrite A. cbn [recompute]. unfold adjustment. cbn [bind one_update evaluate].
  rewrite one_update_settles by assumption. reflexivity.
Qed.
(** Only the time shift is estimated. *)
Definition shift_only : est_settings := from_components false true false false false.
Definition nine_observations : adata := mkData shift_only (repeat 0 9) (repeat 1 9) (repeat 0 9).

(** If the shift changes by one second in the only iteration, and the time threshold is half a second, the
    estimation is reported as converged as soon as the metric threshold is larger. *)
Theorem C45_own_threshold_refuted :
  ~ (forall (P L : Type) (s : solver P L) metric time dist ve d p runs,
       estimate s (thresholds metric time dist) ve d = Ok (p, true, runs) -> all_lq_disabled (a_est d) = false ->
       forall updates final, last_of runs updates -> last_of updates final ->
       forall k r j th, nth_error final k = Some (Fin r) -> nth_error (positions (lq_parameter_filter (a_est d))) k = Some j ->
         nth_error (thresholds metric time dist) j = Some th -> Rabs r <= th).
Proof.
  intro H. assert (E : any_exceeds [Fin 1] (thresholds 2 (1 / 2) 1) = false) by (cbn; rewrite Rabs_R1; now rb).
  assert (X := one_update_estimate [Fin 1] (thresholds 2 (1 / 2) 1) nine_observations eq_refl E eq_refl eq_refl).
  specialize (H _ _ _ _ _ _ _ _ _ _ X eq_refl [[Fin 1]] [Fin 1]). specialize (H (ex_intro _ [] eq_refl) (ex_intro _ [] eq_refl) 0%nat 1 7%nat (1 / 2) eq_refl eq_refl eq_refl).
  rewrite Rabs_R1 in H. lra.
Qed.
Print Assumptions C45_own_threshold_refuted.

(** Updates that are not a number (a singular system) count as converged. *)
Theorem C45_nan_refuted :
  ~ (forall (P L : Type) (s : solver P L) metric time dist ve d p runs,
       estimate s (thresholds metric time dist) ve d = Ok (p, true, runs) -> all_lq_disabled (a_est d) = false ->
       forall updates final, last_of runs updates -> last_of updates final -> ~ In NaN final).
Proof.
  intro H.
  assert (X := one_update_estimate [NaN] (thresholds 2 (1 / 2) 1) nine_observations eq_refl eq_refl eq_refl eq_refl).
  apply (H _ _ _ _ _ _ _ _ _ _ X eq_refl [[NaN]] [NaN]); [now exists []|now exists []|now left].
Qed.
Print Assumptions C45_nan_refuted.

(** Cases: a converging and a never converging solver. *)
Lemma one_update_diverges u ths : forall n d w delta lin, any_exceeds delta ths = true -> any_exceeds u ths = true -> divisible (a_est d) (a_res d) = true ->
  iterate (one_update u) ths n tt d w delta lin = Ok (tt, d, false, match n with O => lin | S _ => Some tt end, repeat u n).
Proof.
  induction n as [|n IH]; intros d w delta lin E1 E2 D; cbn [iterate]; rewrite E1; [reflexivity|].
  cbn [bind one_update linearise deltas residuals add_deltas evaluate contradictions]. unfold set_res. rewrite D. cbn [bind].
  assert (with_vector d Res (a_res d) = d) as -> by now destruct d. rewrite IH by assumption. now destruct n.
Qed.
Example C45_case_diverging : estimate (one_update [Inf]) (thresholds 2 (1 / 2) 1) false nine_observations = Ok (tt, false, [repeat [Inf] 16]).
Proof.
  unfold estimate. cbn [bind one_update init_parameters]. change (all_lq_disabled (a_est nine_observations)) with false. cbn [recompute].
  unfold adjustment. cbn [bind one_update evaluate]. rewrite one_update_diverges by reflexivity. reflexivity.
Qed.
Example C45_case_converging : exists runs, estimate (one_update [Fin 0]) (thresholds 2 (1 / 2) 1) false nine_observations = Ok (tt, true, runs).
Proof. eexists. apply one_update_estimate; try reflexivity. cbn. rewrite Rabs_R0. now rb. Qed.
Example C45_case_all : nth_error (positions (lq_parameter_filter (est_all true true))) 7 = Some 7%nat.
Proof. reflexivity. Qed.
