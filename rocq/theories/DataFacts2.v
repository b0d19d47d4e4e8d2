(** Lemmas about preprocessing and the variance estimation subset. *)
From Verif Require Import Base BaseFacts NumpyModel NumpyFacts TrajModel TrajSpec TrajFacts TrajFacts3 ParamModel DataModel DataSpec DataFacts.
Local Arguments Nat.ltb : simpl never.
Local Arguments Nat.leb : simpl never.

Section Pre.
  Context {Q : Type}.
  Implicit Types t : traj Q.

  Definition fast (m : R) (p : pose Q) : bool := Rleb m (pose_speed p).

  Lemma speed_filter_spec m t : consistent t ->
    exists t', speed_filter m t = Ok t' /\ consistent t' /\ same_meta t t' /\ poses t' = filter (fast m) (poses t).
  Proof.
    intro Hc. destruct (poses_components t Hc) as [_ [_ [_ [_ E5]]]].
    assert (Hix : np_index (poses t) (IMask (map (fun v => Rleb m (vnorm v)) (speed t))) = Ok (filter (fast m) (poses t))).
    { rewrite <- E5, map_map. apply (np_index_mask_filter (fast m)). }
    destruct (apply_index_total t _ _ Hc Hix) as [t' [Ht' Hp]]. exists t'. split; [exact Ht'|].
    destruct (apply_index_ok t _ t' Hc Ht') as [Hc' [Hm _]]. auto.
  Qed.

  Lemma same_meta_trans t1 t2 t3 : same_meta t1 t2 -> same_meta t2 t3 -> same_meta t1 t3.
  Proof. unfold same_meta. intuition congruence. Qed.

  Lemma first_fast m (l : list (pose Q)) q0 r : filter (fast m) l = q0 :: r ->
    exists pre post, l = pre ++ q0 :: post /\ m <= pose_speed q0 /\ Forall (fun q => pose_speed q < m) pre.
  Proof.
    induction l as [|q l IH]; cbn; [discriminate|]. destruct (fast m q) eqn:F.
    - intros [= <- _]. exists [], l. split; [reflexivity|]. split; [now apply Rleb_true|constructor].
    - intro H. destruct (IH H) as [pre [post [-> [H1 H2]]]]. exists (q :: pre), post. split; [reflexivity|]. split; [exact H1|].
      constructor; [now apply Rleb_false|exact H2].
  Qed.

  Definition windowed (p : preprocessing) : bool := (negb (Reqb (time_start p) 0) || negb (Reqb (time_end p) 0))%bool.
  Lemma windowed_false p : windowed p = false <-> time_start p = 0 /\ time_end p = 0.
  Proof. unfold windowed. rewrite orb_false_iff, !negb_false_iff, !Reqb_true. tauto. Qed.
  Lemma windowed_true p : windowed p = true <-> time_start p <> 0 \/ time_end p <> 0.
  Proof.
    destruct (windowed p) eqn:E.
    - unfold windowed in E. rewrite orb_true_iff, !negb_true_iff, !Reqb_false in E. tauto.
    - apply windowed_false in E as [E1 E2]. split; [discriminate|tauto].
  Qed.

  Lemma tlen_poses t : consistent t -> (tlen t =? 0)%nat = match poses t with [] => true | _ => false end.
  Proof. intro C. rewrite <- (poses_length t C). destruct (poses t); reflexivity. Qed.

  (** The poses left by both filters. *)
  Definition left_over (p : preprocessing) (t0 : R) (q : pose Q) : bool :=
    (fast (min_speed p) q && in_span (t0 + time_start p) (t0 + time_end p) false q)%bool.

  Lemma preprocess_plain p from to : consistent from -> consistent to -> windowed p = false ->
    exists from' to', consistent from' /\ consistent to' /\ same_meta from from' /\ same_meta to to' /\
      poses from' = filter (fast (min_speed p)) (poses from) /\ poses to' = filter (fast (min_speed p)) (poses to) /\
      preprocess p from to = match poses from', poses to' with _ :: _, _ :: _ => Ok (from', to') | _, _ => Err ValueError end.
  Proof.
    intros Cf Ct W. destruct (speed_filter_spec (min_speed p) from Cf) as [f [Ef [Cf' [Mf Pf]]]].
    destruct (speed_filter_spec (min_speed p) to Ct) as [t [Et [Ct' [Mt Pt]]]].
    exists f, t. do 6 (split; [assumption|]). unfold preprocess. rewrite Et. cbn [bind]. rewrite Ef. cbn [bind].
    fold (windowed p). rewrite W. cbn [bind fst snd]. rewrite (tlen_poses f Cf'), (tlen_poses t Ct').
    destruct (poses f), (poses t); reflexivity.
  Qed.

  Lemma preprocess_window p from to : consistent from -> consistent to -> windowed p = true ->
    match filter (fast (min_speed p)) (poses from) with
    | [] => preprocess p from to = Err IndexError
    | q0 :: _ =>
        exists from' to', consistent from' /\ consistent to' /\ same_meta from from' /\ same_meta to to' /\
          poses from' = filter (left_over p (p_t q0)) (poses from) /\ poses to' = filter (left_over p (p_t q0)) (poses to) /\
          preprocess p from to = match poses from', poses to' with _ :: _, _ :: _ => Ok (from', to') | _, _ => Err ValueError end
    end.
  Proof.
    intros Cf Ct W. destruct (speed_filter_spec (min_speed p) from Cf) as [f [Ef [Cf' [Mf Pf]]]].
    destruct (speed_filter_spec (min_speed p) to Ct) as [t [Et [Ct' [Mt Pt]]]].
    destruct (poses_components f Cf') as [E1 _]. unfold preprocess. rewrite Et. cbn [bind]. rewrite Ef. cbn [bind].
    fold (windowed p). rewrite W. rewrite <- E1, Pf.
    destruct (filter (fast (min_speed p)) (poses from)) as [|q0 r] eqn:F; [reflexivity|].
    replace (np_get (map p_t (q0 :: r)) 0) with (Ok (p_t q0)) by reflexivity. cbn [bind].
    destruct (crop_spec t (p_t q0 + time_start p) (p_t q0 + time_end p) false Ct') as [t2 [Ec [Ct2 [Mt2 Pt2]]]].
    destruct (crop_spec f (p_t q0 + time_start p) (p_t q0 + time_end p) false Cf') as [f2 [Ed [Cf2 [Mf2 Pf2]]]].
    rewrite Ec. cbn [bind]. rewrite Ed. cbn [bind fst snd]. exists f2, t2.
    split; [assumption|]. split; [assumption|]. split; [eapply same_meta_trans; eassumption|]. split; [eapply same_meta_trans; eassumption|].
    split; [rewrite Pf2, Pf, <- F, filter_filter; apply filter_ext; intro q; reflexivity|].
    split; [rewrite Pt2, Pt, filter_filter; apply filter_ext; intro q; reflexivity|].
    rewrite (tlen_poses f2 Cf2), (tlen_poses t2 Ct2). destruct (poses f2), (poses t2); reflexivity.
  Qed.

  Lemma left_over_true p (t0 : R) q : left_over p t0 q = true <->
    min_speed p <= pose_speed q /\ t0 + time_start p <= p_t q <= t0 + time_end p.
  Proof. unfold left_over, fast. rewrite andb_true_iff, in_span_true, Rleb_true. tauto. Qed.
End Pre.

(** ** Largest entry *)
Lemma idxmax_from_spec l : forall i best,
  match idxmax_from i best l with
  | None => best = None /\ Forall (fun o => o = None) l
  | Some m => exists y,
      (best = Some (m, y) \/ ((i <= m)%nat /\ nth_error l (m - i) = Some (Some y))) /\
      (forall j z, best = Some (j, z) -> z <= y) /\ (forall z, In (Some z) l -> z <= y)
  end.
Proof.
  induction l as [|o l IH]; intros i best.
  - cbn. destruct best as [[m y]|]; cbn.
    + exists y. split; [now left|]. split; [intros j z [= -> ->]; lra|intros z []].
    + auto.
  - destruct o as [x|]; cbn [idxmax_from].
    + set (best' := match best with None => _ | Some _ => _ end). specialize (IH (S i) best').
      destruct (idxmax_from (S i) best' l) as [m|].
      * destruct IH as [y [H1 [H2 H3]]].
        assert (Hx : x <= y /\ forall j z, best = Some (j, z) -> z <= y).
        { unfold best' in H2. destruct best as [[j z]|].
          - destruct (Rltb z x) eqn:T.
            + apply Rltb_true in T. specialize (H2 i x eq_refl). split; [exact H2|]. intros j' z' [= -> ->]. lra.
            + apply Rltb_false in T. specialize (H2 j z eq_refl). split; [lra|]. intros j' z' [= -> ->]. lra.
          - specialize (H2 i x eq_refl). split; [exact H2|discriminate]. }
        exists y. split; [|split].
        { destruct H1 as [H1|[H1 H1']].
          - unfold best' in H1. destruct best as [[j z]|].
            + destruct (Rltb z x); injection H1 as -> ->; [right; split; [lia|]; now rewrite Nat.sub_diag|now left].
            + injection H1 as -> ->. right. split; [lia|]. now rewrite Nat.sub_diag.
          - right. split; [lia|]. replace (m - i)%nat with (S (m - S i)) by lia. exact H1'. }
        { apply Hx. }
        { intros z [[= ->]|Hz]; [apply Hx|auto]. }
      * destruct IH as [H _]. unfold best' in H. destruct best as [[j z]|]; [destruct (Rltb z x)|]; discriminate.
    + specialize (IH (S i) best). destruct (idxmax_from (S i) best l) as [m|].
      * destruct IH as [y [H1 [H2 H3]]]. exists y. split; [|split].
        { destruct H1 as [H1|[H1 H1']]; [now left|]. right. split; [lia|]. replace (m - i)%nat with (S (m - S i)) by lia. exact H1'. }
        { exact H2. }
        { intros z [H|Hz]; [discriminate|auto]. }
      * destruct IH as [H1 H2]. split; [exact H1|]. constructor; auto.
Qed.

Lemma rolling_nth w l i : (i < length l)%nat ->
  nth_error (rolling_std w l) i = Some (if (S i <? w)%nat then None else Some (window_std (firstn w (skipn (S i - w) l)))).
Proof.
  intro H. unfold rolling_std. rewrite nth_error_map', nth_error_seq. apply Nat.ltb_lt in H. now rewrite H.
Qed.

(** The window of w values ending at i. *)
Definition window_at (w : nat) (l : list R) (i : nat) : list R := firstn w (skipn (S i - w) l).

Lemma idxmax_rolling w l : (0 < w)%nat -> (w <= length l)%nat ->
  exists m, idxmax (rolling_std w l) = Some m /\ (w <= S m)%nat /\ (m < length l)%nat /\
    forall i, (w <= S i)%nat -> (i < length l)%nat -> window_std (window_at w l i) <= window_std (window_at w l m).
Proof.
  intros Hw HL. unfold idxmax. assert (H := idxmax_from_spec (rolling_std w l) 0 None).
  destruct (idxmax_from 0 None (rolling_std w l)) as [m|].
  - destruct H as [y [[H|[_ H]] [_ H3]]]; [discriminate|]. rewrite Nat.sub_0_r in H. exists m. split; [reflexivity|].
    assert (Hm : (m < length l)%nat).
    { apply nth_error_Some_lt in H. unfold rolling_std in H. now rewrite map_length, seq_length in H. }
    rewrite rolling_nth in H by exact Hm. destruct (Nat.ltb_spec (S m) w) as [|Hge]; [discriminate|].
    assert (Hy : window_std (window_at w l m) = y) by (unfold window_at; congruence).
    split; [exact Hge|]. split; [exact Hm|]. intros i Hi Hil. rewrite Hy. apply H3. unfold window_at.
    apply (nth_error_In _ i). rewrite rolling_nth by exact Hil. destruct (Nat.ltb_spec (S i) w); [lia|reflexivity].
  - exfalso. destruct H as [_ H]. rewrite Forall_forall in H.
    assert (X : nth_error (rolling_std w l) (w - 1) = Some None).
    { rewrite rolling_nth by lia. destruct (Nat.ltb_spec (S (w - 1)) w) as [|]; [reflexivity|].
      rewrite (H (Some (window_std (firstn w (skipn (S (w - 1) - w) l))))); [reflexivity|].
      apply (nth_error_In _ (w - 1)). rewrite rolling_nth by lia. destruct (Nat.ltb_spec (S (w - 1)) w); [lia|reflexivity]. }
    rewrite rolling_nth in X by lia. destruct (Nat.ltb_spec (S (w - 1)) w); [lia|discriminate].
Qed.

Lemma row_norms_length k obs : length (row_norms k obs) = (length obs / k)%nat.
Proof. unfold row_norms. now rewrite map_length, seq_length. Qed.

(** ** A jump at the start *)
Lemma sum_repeat0 n : np_sum (repeat 0 n) = 0.
Proof. induction n as [|n IH]; [reflexivity|]. change (0 + np_sum (repeat 0 n) = 0). rewrite IH. lra. Qed.
Lemma sum_squares_nonneg l : 0 <= np_sum (map (fun x => x ^ 2) l).
Proof.
  induction l as [|x l IH]; [cbn; lra|]. change (0 <= x ^ 2 + np_sum (map (fun x => x ^ 2) l)). pose proof (pow2_ge_0 x). lra.
Qed.
Lemma map_repeat {A B} (f : A -> B) x n : map f (repeat x n) = repeat (f x) n.
Proof. induction n; cbn; congruence. Qed.
Lemma std_zeros w : window_std (repeat 0 w) = 0.
Proof.
  unfold window_std. cbv zeta. rewrite map_repeat, sum_repeat0. replace (0 / INR (length (repeat 0 w))) with 0 by (unfold Rdiv; ring).
  replace ((0 - 0) ^ 2) with 0 by ring. rewrite sum_repeat0. unfold Rdiv. rewrite Rmult_0_l. apply sqrt_0.
Qed.
Lemma std_jump w : (2 <= w)%nat -> 0 < window_std (1 :: repeat 0 (w - 1)).
Proof.
  intro H. unfold window_std. cbv zeta. set (m := np_sum (1 :: repeat 0 (w - 1)) / INR _). 
  assert (LW : length (1 :: repeat 0 (w - 1)) = w) by (cbn [length]; rewrite repeat_length; lia). rewrite LW.
  cbn [map np_sum fold_right]. apply le_INR in H as HR. cbn in HR.
  assert (Hm : m = / INR w).
  { unfold m. rewrite LW. change (np_sum (1 :: repeat 0 (w - 1))) with (1 + np_sum (repeat 0 (w - 1))). rewrite sum_repeat0.
    field. lra. }
  assert (0 < m < 1). { rewrite Hm. split; [apply Rinv_0_lt_compat; lra|]. rewrite <- Rinv_1. apply Rinv_lt_contravar; lra. }
  apply sqrt_lt_R0. apply Rdiv_lt_0_compat; [|lra].
  assert (0 <= fold_right Rplus 0 (map (fun x => (x - m) ^ 2) (repeat 0 (w - 1)))).
  { rewrite <- (map_map (fun x => x - m) (fun x => x ^ 2)). apply sum_squares_nonneg. }
  assert (0 < (1 - m) ^ 2) by (apply pow_lt; lra). lra.
Qed.

Lemma skipn_repeat {A} (x : A) n m : skipn n (repeat x m) = repeat x (m - n).
Proof. revert n; induction m as [|m IH]; intros [|n]; cbn; try reflexivity. apply IH. Qed.
Lemma firstn_repeat {A} (x : A) n m : firstn n (repeat x m) = repeat x (Nat.min n m).
Proof. revert n; induction m as [|m IH]; intros [|n]; cbn; try reflexivity. f_equal. apply IH. Qed.

Lemma norms_jump w : row_norms 6 (1 :: repeat 0 (6 * w + 5)) = 1 :: repeat 0 w.
Proof.
  unfold row_norms. change (length (1 :: repeat 0 (6 * w + 5))) with (S (length (repeat 0 (6 * w + 5)))). rewrite repeat_length.
  replace (S (6 * w + 5)) with ((w + 1) * 6)%nat by lia. rewrite Nat.div_mul by lia. rewrite Nat.add_1_r. cbn [seq map]. f_equal.
  - rewrite Nat.mul_0_l. replace (6 * w + 5)%nat with (5 + 6 * w)%nat by lia. cbn [repeat Nat.add skipn firstn map np_sum fold_right].
    replace (1 ^ 2 + _) with 1 by ring. apply sqrt_1.
  - replace (repeat 0 w) with (map (fun _ : nat => 0) (seq 1 w)).
    + apply map_ext_in. intros i Hi. apply in_seq in Hi. replace (i * 6)%nat with (S (i * 6 - 1)) by lia. cbn [skipn].
      rewrite skipn_repeat, firstn_repeat, map_repeat. replace (0 ^ 2) with 0 by ring. rewrite sum_repeat0. apply sqrt_0.
    + generalize 1%nat as s. induction w as [|w IH]; intro s; cbn; [reflexivity|]. now rewrite IH.
Qed.

Lemma subset_jump e w : (2 <= w)%nat -> num_obs_per_epoch e = 6%nat ->
  exists idx, subset_index e (1 :: repeat 0 (6 * w + 5)) w = Some idx /\ consecutive (-1) w idx.
Proof.
  intros Hw HK. unfold subset_index. rewrite HK.
  change (length (1 :: repeat 0 (6 * w + 5))) with (S (length (repeat 0 (6 * w + 5)))). rewrite repeat_length.
  replace (S (6 * w + 5)) with ((w + 1) * 6)%nat by lia. rewrite Nat.div_mul by lia.
  destruct (Nat.leb_spec (w + 1) w); [lia|]. rewrite norms_jump.
  destruct (idxmax_rolling w (1 :: repeat 0 w)) as [m [E [M1 [M2 M3]]]]; [lia|cbn; rewrite repeat_length; lia|].
  rewrite E. cbn [length] in M2, M3. rewrite repeat_length in M2, M3.
  assert (m = w - 1)%nat as ->.
  { destruct (Nat.eq_dec m w) as [->|]; [exfalso|lia].
    specialize (M3 (w - 1)%nat ltac:(lia) ltac:(lia)). unfold window_at in M3.
    replace (S (w - 1) - w)%nat with 0%nat in M3 by lia. replace (S w - w)%nat with 1%nat in M3 by lia. cbn [skipn] in M3.
    rewrite firstn_repeat, Nat.min_id, std_zeros in M3.
    replace (firstn w (1 :: repeat 0 w)) with (1 :: repeat 0 (w - 1)) in M3.
    - pose proof (std_jump w Hw). lra.
    - destruct w as [|w]; [lia|]. cbn [firstn]. rewrite firstn_repeat. do 2 f_equal. lia. }
  eexists. split; [reflexivity|]. split; [now rewrite map_length, seq_length|].
  intros i z Hz. rewrite nth_error_map', nth_error_seq in Hz. destruct (Nat.ltb_spec i w); [|discriminate]. cbn in Hz. injection Hz as <-. lia.
Qed.

Lemma subset_spec e obs n idx : (0 < n)%nat -> subset_index e obs n = Some idx ->
  (n < number_of_epochs e obs)%nat /\
  exists m, (n <= S m)%nat /\ (m < number_of_epochs e obs)%nat /\ consecutive (Z.of_nat m - Z.of_nat n) n idx /\
    forall i, (n <= S i)%nat -> (i < number_of_epochs e obs)%nat ->
      window_std (window_at n (row_norms (num_obs_per_epoch e) obs) i) <= window_std (window_at n (row_norms (num_obs_per_epoch e) obs) m).
Proof.
  intro Hn. unfold subset_index, number_of_epochs. destruct (Nat.leb_spec (length obs / num_obs_per_epoch e) n) as [|HL]; [discriminate|].
  intro H. split; [exact HL|].
  destruct (idxmax_rolling n (row_norms (num_obs_per_epoch e) obs)) as [m [E [M1 [M2 M3]]]]; [exact Hn|rewrite row_norms_length; lia|].
  rewrite E in H. injection H as <-. rewrite row_norms_length in M2, M3. exists m. split; [exact M1|]. split; [exact M2|]. split.
  - split; [now rewrite map_length, seq_length|]. intros i z Hz. rewrite nth_error_map', nth_error_seq in Hz.
    destruct (Nat.ltb_spec i n); [|discriminate]. cbn in Hz. injection Hz as <-. lia.
  - exact M3.
Qed.
Lemma subset_all e obs n : (0 < n)%nat -> (subset_index e obs n = None <-> (number_of_epochs e obs <= n)%nat).
Proof.
  intro Hn. unfold subset_index, number_of_epochs. destruct (Nat.leb_spec (length obs / num_obs_per_epoch e) n) as [|HL]; [tauto|].
  destruct (idxmax_rolling n (row_norms (num_obs_per_epoch e) obs)) as [m [E _]]; [exact Hn|rewrite row_norms_length; lia|].
  rewrite E. split; [discriminate|lia].
Qed.

Lemma concat_zeros n : concat (repeat [0; 0; 0; 0; 0; 0] n) = repeat 0 (6 * n).
Proof. induction n; [reflexivity|]. replace (6 * S n)%nat with (6 + 6 * n)%nat by lia. cbn. now rewrite IHn. Qed.
Lemma build_jump e w s : leverarm_enabled e = false -> time_shift_enabled e = false ->
  build_obs_vector e (mkV3 1 0 0 :: repeat vzero w) (repeat vzero (S w)) None s = Ok (1 :: repeat 0 (6 * w + 5)).
Proof.
  intros H1 H2. unfold build_obs_vector. rewrite H1, H2. rewrite hstack_total by (cbn; rewrite !map_length, !repeat_length; reflexivity).
  cbn [bind]. f_equal. cbn [map repeat combine concat app fst snd coords vx vy vz vzero].
  replace (6 * w + 5)%nat with (5 + 6 * w)%nat by lia. cbn [repeat Nat.add]. do 6 f_equal.
  rewrite <- concat_zeros. f_equal. rewrite !map_repeat. induction w as [|w IH]; [reflexivity|]. cbn. f_equal. exact IH.
Qed.
