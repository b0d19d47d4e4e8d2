(** Properties C96 and C97: curves and colour bars of deviations. *)
From Verif Require Import Base BaseFacts GeomFacts2 NumpyModel NumpyFacts TrajModel EvalModel EvalSpec EvalStats PlotModel PlotSpec PlotFacts.

(** * C96 The curve of the cumulative probability *)

(** The curve visits every deviation once, in increasing order; its height at the i-th smallest of n is i/n (counting from 0),
    which is at least the fraction of deviations below and at most that of deviations not above, less one deviation. *)
Theorem C96_partial : forall devs, Permutation (map fst (edf_points devs)) devs /\ StronglySorted Rle (map fst (edf_points devs)) /\
  forall i x y, nth_error (edf_points devs) i = Some (x, y) ->
    y = INR i / INR (length devs) /\ fraction_below devs x <= y /\ y + 1 / INR (length devs) <= fraction_upto devs x.
Proof.
  intro devs. assert (F : map fst (edf_points devs) = np_sort devs).
  { apply nth_error_ext_len; [unfold edf_points; rewrite map_length, combine_length, map_length, seq_length; lia|]. intros i Hi.
    rewrite nth_error_map'. destruct (nth_error (edf_points devs) i) as [[x y]|] eqn:E.
    - cbn. destruct (edf_nth _ _ _ _ E) as [-> _]. reflexivity.
    - apply nth_error_None in E. unfold edf_points in E. rewrite combine_length, map_length, seq_length in E. lia. }
  rewrite F. split; [apply np_sort_perm|]. split; [apply np_sort_sorted|]. intros i x y H. destruct (edf_nth _ _ _ _ H) as (S & -> & L).
  destruct (sorted_counts _ _ _ S) as [A B]. assert (P : 0 < INR (length devs)) by (apply lt_0_INR; lia). split; [reflexivity|]. unfold fraction_below, fraction_upto, Rdiv. split.
  - apply Rmult_le_compat_r; [left; apply Rinv_0_lt_compat, P|]. apply le_INR, A.
  - rewrite <- Rmult_plus_distr_r. apply Rmult_le_compat_r; [left; apply Rinv_0_lt_compat, P|]. change 1 with (INR 1). rewrite <- plus_INR. apply le_INR. lia.
Qed.
Print Assumptions C96_partial.

(** So at no deviation does the curve show the fraction of deviations up to it, and it never reaches one. *)
Theorem C96_refuted : forall devs x y, In (x, y) (edf_points devs) -> y <> fraction_upto devs x /\ y < 1.
Proof.
  intros devs x y H. apply In_nth_error in H as [i H]. destruct (C96_partial devs) as (_ & _ & K). destruct (K i x y H) as (E & _ & U). destruct (edf_nth _ _ _ _ H) as (_ & _ & L).
  assert (P : 0 < INR (length devs)) by (apply lt_0_INR; lia). assert (0 < 1 / INR (length devs)) by (apply Rdiv_lt_0_compat; lra). split; [lra|]. subst y.
  apply (Rmult_lt_reg_r (INR (length devs))); [exact P|]. unfold Rdiv. rewrite Rmult_assoc, Rinv_l, Rmult_1_r, Rmult_1_l by lra. apply lt_INR, L.
Qed.
Print Assumptions C96_refuted.

(** The largest of four deviations is drawn at three quarters, although all deviations are at most that large. *)
Example C96_case : edf_points [3; 1; 2; 4] = [(1, 0 / 4); (2, 1 / 4); (3, 2 / 4); (4, 3 / 4)] /\ fraction_upto [3; 1; 2; 4] 4 = 1.
Proof.
  split; [unfold edf_points, np_sort; cbn; rb; cbn; repeat f_equal; cbn; lra|].
  unfold fraction_upto, count. cbn. rb. cbn. lra.
Qed.

(** * C97 Colour bars *)

(** The bounds are ordered, every colour lies between them and is the value itself unless that is outside, every tick lies
    between the bounds and is labelled with its own value, and both bounds have a tick unless zero is shown. *)
Theorem C97 : forall s shown c, c <> [] -> (0 < scatter_cbar_steps s)%nat -> 0 <= scatter_sigma_factor s ->
  exists b, setup_cbar s shown c = Ok b /\ cb_lower b <= cb_upper b /\ length (cb_values b) = length c /\
    (forall i x, nth_error c i = Some x -> exists v, nth_error (cb_values b) i = Some v /\ cb_lower b <= v <= cb_upper b /\
       (cb_lower b <= x <= cb_upper b -> v = x) /\ (x < cb_lower b -> v = cb_lower b) /\ (cb_upper b < x -> v = cb_upper b)) /\
    (scatter_sigma_factor s = 0 -> cb_values b = c) /\
    (forall k v, In (k, v) (cb_ticks b) -> cb_lower b <= k <= cb_upper b /\
       ((exists mark, In mark ["$\leq$"; "$\geq$"; ""]%string /\ v = (mark ++ shown k)%string) \/ (k = 0 /\ v = "0"%string))) /\
    (scatter_cbar_show_zero s = false -> (exists v, In (cb_lower b, v) (cb_ticks b)) /\ (exists v, In (cb_upper b, v) (cb_ticks b))).
Proof.
  intros s shown c NE N SP. destruct (np_min_spec c NE) as (lo & E1 & L1 & L2). destruct (np_max_spec c NE) as (hi & E2 & H1 & H2).
  destruct (std_some c NE) as (m & d & q & EM & ED & _ & DP & _). assert (MB := mean_bound c lo hi m NE (fun y I => conj (L2 y I) (H2 y I)) EM).
  assert (FD : 0 <= scatter_sigma_factor s * d) by (apply Rmult_le_pos; assumption).
  assert (B : exists l u, cbar_bounds s c = Ok (l, u) /\ l <= u /\ (scatter_sigma_factor s = 0 -> l = lo /\ u = hi)).
  { unfold cbar_bounds. rewrite E1, E2. cbn [bind]. destruct (Reqb (scatter_sigma_factor s) 0) eqn:Z.
    - exists lo, hi. repeat split; [|auto..]. lra.
    - apply Reqb_false in Z. rewrite EM, ED. eexists _, _. split; [reflexivity|]. split; [|intro K; contradiction]. apply Rmax_lub; apply Rmin_glb; lra. }
  destruct B as (l & u & EB & LU & SZ). unfold setup_cbar. rewrite EB. cbn [bind]. unfold all_ticks. rewrite (proj2 (Nat.eqb_neq _ _)) by lia. cbn [bind].
  assert (RA : Rabs (u - l) = u - l) by (apply Rabs_right; lra). rewrite RA. eexists. split; [reflexivity|]. cbn [cb_lower cb_upper cb_values cb_ticks].
  split; [exact LU|]. split; [apply map_length|]. split; [|split; [|split]].
  - intros i x X. exists (clip l u x). split; [apply map_nth_error, X|]. split; [apply clip_in, LU|]. split; [apply clip_id|].
    unfold clip, Rmin, Rmax. split; intro K; repeat destruct Rle_dec; lra.
  - intro Z. destruct (SZ Z) as [-> ->]. rewrite <- map_id. apply map_ext_in. intros x I. apply clip_id. split; [apply L2, I|apply H2, I].
  - intros k v I. set (ticks := fold_left _ _ _) in I.
    assert (T : forall k v, In (k, v) ticks -> l <= k <= u /\ exists mark, In mark ["$\leq$"; "$\geq$"; ""]%string /\ v = (mark ++ shown k)%string).
    { intros k0 v0 I0. apply ticks_in in I0 as [I0|(i & J & -> & ->)]; [destruct I0|]. apply in_seq in J. split.
      - assert (K := tick_between s l (u - l) i N ltac:(lia) ltac:(lra)). lra.
      - exists (tick_mark s i). split; [|reflexivity]. unfold tick_mark. destruct (Reqb _ _); [cbn; auto|]. destruct (i =? scatter_cbar_steps s)%nat; [cbn; auto|]. destruct (i =? 0)%nat; cbn; auto. }
    destruct (Rltb l 0 && Rltb 0 u && scatter_cbar_show_zero s)%bool eqn:Z.
    + apply tick_set_in in I as [I|[-> ->]].
      * apply filter_In in I as [I _]. destruct (T _ _ I) as [A B]. split; [exact A|left; exact B].
      * apply andb_prop in Z as [Z _]. apply andb_prop in Z as [Z1 Z2]. apply Rltb_true in Z1, Z2. split; [lra|right; auto].
    + destruct (T _ _ I) as [A B]. split; [exact A|left; exact B].
  - intro Z. rewrite Z, andb_false_r. assert (NN : INR (scatter_cbar_steps s) <> 0) by (apply not_0_INR; lia). split.
    + destruct (ticks_have s shown l (u - l) (seq 0 (scatter_cbar_steps s + 1)) [] 0) as [v I]; [apply in_seq; lia|]. exists v.
      replace (cbar_tick s l (u - l) 0) with l in I by (unfold cbar_tick; cbn [INR]; field; exact NN). exact I.
    + destruct (ticks_have s shown l (u - l) (seq 0 (scatter_cbar_steps s + 1)) [] (scatter_cbar_steps s)) as [v I]; [apply in_seq; lia|]. exists v.
      replace (cbar_tick s l (u - l) (scatter_cbar_steps s)) with u in I by (unfold cbar_tick; field; exact NN). exact I.
Qed.
Print Assumptions C97.
Example C97_case : exists b, setup_cbar (mkCbar 0 4 true) (fun _ => ""%string) [-1; 3] = Ok b /\ cb_lower b = -1 /\ cb_upper b = 3.
Proof.
  destruct (C97 (mkCbar 0 4 true) (fun _ => ""%string) [-1; 3]) as (b & E & _); [discriminate|cbn; lia|cbn; lra|]. exists b. split; [exact E|].
  unfold setup_cbar, cbar_bounds in E. cbn [np_min np_max fold_left bind scatter_sigma_factor] in E. rewrite Reqb_refl, Rmin_left, Rmax_right in E by lra. cbn [bind] in E.
  destruct (all_ticks _ _ _ _) in E; [|discriminate]. cbn [bind] in E. injection E as <-. auto.
Qed.
