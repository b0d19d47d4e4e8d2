(** Properties C42, C43, C44 and C70: the observation data of the alignment. *)
From Verif Require Import Base BaseFacts NumpyModel NumpyFacts TrajModel TrajSpec TrajFacts TrajFacts3 ParamModel DataModel DataSpec DataFacts DataFacts2.
Local Arguments leverarm_enabled : simpl never.
Local Arguments time_shift_enabled : simpl never.
Local Arguments num_obs_per_epoch : simpl never.

(** ** C42: observation vector layout *)
(** The vector can be built exactly when there is a row of everything observed for every epoch. *)
Theorem C42_build : forall e s from to rpy speed,
  ((exists d, make_data e s from to rpy speed = Ok d) <-> exists n, fitting e from to rpy speed n) /\
  (forall er, make_data e s from to rpy speed = Err er -> er = ValueError).
Proof.
  intros e s f t rpy sp.
  assert (B : forall obs, build_obs_vector e f t rpy sp = Ok obs -> exists n, fitting e f t rpy sp n).
  { intros obs E. exists (length f). now apply (build_ok e f t rpy sp obs). }
  split.
  - split.
    + intros [d H]. unfold make_data in H. apply bind_ok in H as [obs [E _]]. eauto.
    + intros [n F]. destruct (make_total e s f t rpy sp n F) as [obs [var [E _]]]. eauto.
  - intros er H. destruct (build_obs_vector e f t rpy sp) as [obs|x] eqn:E.
    + destruct (B obs eq_refl) as [n F]. destruct (make_total e s f t rpy sp n F) as [obs' [var [E' _]]]. congruence.
    + unfold make_data in H. rewrite E in H. cbn in H. injection H as <-. eapply build_error; eauto.
Qed.
Print Assumptions C42_build.

(** Epochs follow each other; within an epoch: source position, target position, angles if a lever arm is
    estimated, speed if a time shift is estimated. *)
Theorem C42_epochs : forall e s from to rpy speed d, make_data e s from to rpy speed = Ok d ->
  let k := (6 + (if leverarm_enabled e then 3 else 0) + (if time_shift_enabled e then 3 else 0))%nat in
  length (a_obs d) = (length from * k)%nat /\
  forall j f t, nth_error from j = Some f -> nth_error to j = Some t ->
    exists r v, (leverarm_enabled e = true -> exists l, rpy = Some l /\ nth_error l j = Some r) /\
      (time_shift_enabled e = true -> nth_error speed j = Some v) /\
      firstn k (skipn (j * k) (a_obs d)) =
        [vx f; vy f; vz f; vx t; vy t; vz t] ++ (if leverarm_enabled e then [vx r; vy r; vz r] else [])
          ++ (if time_shift_enabled e then [vx v; vy v; vz v] else []).
Proof.
  intros e s f t rpy sp d H k. destruct (proj1 (proj1 (C42_build e s f t rpy sp))) as [n F]; [eauto|].
  destruct (make_total e s f t rpy sp n F) as [obs [var [E [EB [L _]]]]]. rewrite H in E. injection E as ->. cbn [a_obs].
  split; [destruct F as [-> _]; exact L|]. intros j a b Ha Hb. exact (build_epoch e f t rpy sp obs j a b EB Ha Hb).
Qed.
Print Assumptions C42_epochs.

(** Reading a group gives one column per quantity of the group, with the values of that quantity for all
    epochs; a group that is not observed raises ValueError. *)
Theorem C42_groups : forall e s from to rpy speed d, make_data e s from to rpy speed = Ok d ->
  forall g, (available e g -> get_group d Obs g = Ok (map (measured from to (angles_or (length from) rpy) speed) (parts g))) /\
            (~ available e g -> get_group d Obs g = Err ValueError).
Proof.
  intros e s f t rpy sp d H g. destruct (proj1 (proj1 (C42_build e s f t rpy sp))) as [n F]; [eauto|].
  destruct (make_total e s f t rpy sp n F) as [obs [var [E [EB [L _]]]]]. rewrite H in E. injection E as ->. unfold get_group. cbn [a_est the_vector a_obs].
  split; [apply (build_layout e f t rpy sp obs EB)|apply extract_none].
Qed.
Print Assumptions C42_groups.

(** Every observation starts with the configured variance of its quantity and a residual of zero. *)
Theorem C42_variances : forall e s from to rpy speed d, make_data e s from to rpy speed = Ok d ->
  length (a_var d) = length (a_obs d) /\ length (a_res d) = length (a_obs d) /\
  (forall x, In x (a_res d) -> x = 0) /\ est_obs_vector d = a_obs d /\
  forall g, available e g -> get_group d Var g = Ok (map (fun q => repeat (std_of s q ^ 2) (length from)) (parts g)).
Proof.
  intros e s f t rpy sp d H. destruct (proj1 (proj1 (C42_build e s f t rpy sp))) as [n F]; [eauto|].
  destruct (make_total e s f t rpy sp n F) as [obs [var [E [EB [L [LV NV]]]]]]. rewrite H in E. injection E as ->. cbn [a_obs a_var a_res].
  destruct F as [Lf _]. rewrite Lf. split; [exact LV|]. split; [apply repeat_length|]. split; [intros x; apply repeat_spec|]. split.
  - unfold est_obs_vector. cbn [a_obs a_res]. unfold build_res_vector. clear. induction obs as [|x l IH]; [reflexivity|]. cbn. f_equal; [lra|exact IH].
  - intros g A. unfold get_group. cbn [a_est the_vector a_var]. rewrite extract_spec by exact A. f_equal. apply map_ext_in.
    intros q Hq. apply NV. now apply A.
Qed.
Print Assumptions C42_variances.

(** Writing a group and reading any group afterwards: the columns of the quantities written are the ones
    written, all other columns are what they were; other vectors and the length are untouched. *)
Theorem C42_write_read : forall d v g cols d' m,
  length (the_vector d v) = (m * num_obs_per_epoch (a_est d))%nat -> Forall (fun c => length c = m) cols ->
  set_group d v g cols = Ok d' ->
  a_est d' = a_est d /\ length (the_vector d' v) = length (the_vector d v) /\ (forall v', v' <> v -> the_vector d' v' = the_vector d v') /\
  length cols = length (parts g) /\
  forall g' c q, available (a_est d) g' -> nth_error (parts g') c = Some q ->
    exists new old, get_group d' v g' = Ok new /\ get_group d v g' = Ok old /\
      (forall i, nth_error (parts g) i = Some q -> nth_error new c = nth_error cols i) /\
      (~ In q (parts g) -> nth_error new c = nth_error old c).
Proof.
  intros d v g cols d' m HL HF HS. unfold set_group in HS. apply bind_ok in HS as [l [E HS]]. injection HS as <-.
  destruct (read_after_write (a_est d) (the_vector d v) l g cols m HL HF E) as [LL RR].
  split; [destruct v; reflexivity|]. split; [destruct v; exact LL|]. split; [intros v' NE; destruct v, v'; congruence || reflexivity|]. split.
  - destruct (Nat.eq_dec (length cols) (length (parts g))) as [|NE]; [assumption|]. rewrite set_err in E by (now right). discriminate.
  - intros g' c q A Hc. destruct (RR g' c q A Hc) as [new [old H]]. exists new, old. unfold get_group. destruct v; exact H.
Qed.
Print Assumptions C42_write_read.

(** In particular the group itself reads back as written. *)
Theorem C42_read_back : forall d v g cols d' m,
  length (the_vector d v) = (m * num_obs_per_epoch (a_est d))%nat -> Forall (fun c => length c = m) cols ->
  set_group d v g cols = Ok d' -> get_group d' v g = Ok cols.
Proof.
  intros d v g cols d' m HL HF HS. destruct (C42_write_read d v g cols d' m HL HF HS) as [_ [_ [_ [LC RR]]]].
  destruct (available_dec (a_est d) g) as [A|A].
  - assert (exists q0, nth_error (parts g) 0 = Some q0) as [q0 P] by (destruct g; eexists; reflexivity).
    destruct (RR g 0%nat q0 A P) as [new [old [E1 [E2 _]]]]. rewrite E1. f_equal.
    assert (LN : length new = length (parts g)).
    { assert (a_est d' = a_est d) as EE by (unfold set_group in HS; apply bind_ok in HS as [l [_ HS]]; injection HS as <-; now destruct v).
      unfold get_group in E1. rewrite EE, extract_spec in E1 by exact A. injection E1 as <-. now rewrite map_length. }
    apply nth_error_ext. intro i. destruct (nth_error (parts g) i) as [q|] eqn:Q.
    + destruct (RR g i q A Q) as [new' [old' [E1' [_ [H _]]]]]. rewrite E1 in E1'. injection E1' as <-. now apply H.
    + apply nth_error_None in Q. rewrite !(proj2 (nth_error_None _ _)); [reflexivity|lia|lia].
  - exfalso. unfold set_group in HS. rewrite set_err in HS by (now left). discriminate.
Qed.
Print Assumptions C42_read_back.

(** A write is refused, with ValueError, when the group is not observed or the number of columns is wrong. *)
Theorem C42_write_refused : forall d v g cols, ~ available (a_est d) g \/ length cols <> length (parts g) ->
  set_group d v g cols = Err ValueError.
Proof. intros d v g cols H. unfold set_group. now rewrite set_err. Qed.
Print Assumptions C42_write_refused.

(** Estimated observations are observations plus residuals, group by group. *)
Theorem C42_estimated : forall d g m obs res est,
  length (a_obs d) = (m * num_obs_per_epoch (a_est d))%nat -> length (a_res d) = length (a_obs d) ->
  get_group d Obs g = Ok obs -> get_group d Res g = Ok res -> get_est_obs_group d g = Ok est ->
  forall c a b j x y, nth_error obs c = Some a -> nth_error res c = Some b -> nth_error a j = Some x -> nth_error b j = Some y ->
    exists z, nth_error est c = Some z /\ nth_error z j = Some (x + y).
Proof.
  intros d g m obs res est HL HR E1 E2 E3 c a b j x y Ha Hb Hx Hy.
  unfold get_group, get_est_obs_group in *. cbn [the_vector] in *.
  destruct (available_dec (a_est d) g) as [A|A]; [|rewrite extract_none in E1 by exact A; discriminate].
  rewrite extract_spec in E1, E2, E3 by exact A. injection E1 as <-. injection E2 as <-. injection E3 as <-.
  rewrite nth_error_map' in *. destruct (nth_error (parts g) c) as [q|] eqn:Q; [|discriminate]. cbn [option_map] in *.
  injection Ha as <-. injection Hb as <-. eexists. split; [reflexivity|].
  assert (Oq : observed (a_est d) q) by (apply A; eapply nth_error_In; eauto). apply place_lt in Oq.
  assert (LE : length (est_obs_vector d) = (m * num_obs_per_epoch (a_est d))%nat) by (unfold est_obs_vector; rewrite map_length, combine_length; lia).
  destruct (strided_spec (a_obs d) m _ _ Oq HL) as [S1 S2]. destruct (strided_spec (a_res d) m _ _ Oq ltac:(lia)) as [S3 S4].
  destruct (strided_spec (est_obs_vector d) m _ _ Oq LE) as [S5 S6].
  assert (Hj := nth_error_Some_lt _ _ _ Hx). rewrite S1 in Hj. rewrite S2 in Hx by exact Hj. rewrite S4 in Hy by exact Hj.
  rewrite S6 by exact Hj. unfold est_obs_vector. rewrite nth_error_map', nth_error_combine, Hx, Hy. reflexivity.
Qed.
Print Assumptions C42_estimated.

(** Whatever groups are written and vectors assigned, every vector holds whole epochs. *)
Theorem C42_history : forall d calls, whole_epochs d ->
  (forall v g values, In (CSet v g values) calls -> forall c c', In c values -> In c' values -> length c = length c') ->
  whole_epochs (fold_left data_step calls d).
Proof.
  intros d calls; revert d. induction calls as [|c cs IH]; intros d W HC; [exact W|]. cbn. apply IH.
  2: { intros v g values H. apply (HC v g values). now right. }
  assert (EW : forall v l, a_est (with_vector d v l) = a_est d) by (intros [] l; reflexivity).
  assert (SP : forall v l, (exists m, length l = (m * num_obs_per_epoch (a_est d))%nat) -> whole_epochs (with_vector d v l)).
  { intros v l Hl v'. rewrite EW. destruct v, v'; cbn [with_vector the_vector a_obs a_var a_res]; (exact Hl || exact (W Obs) || exact (W Var) || exact (W Res)). }
  destruct c as [v g values|v values]; cbn [data_step].
  - destruct (set_group d v g values) as [d'|] eqn:E; [|exact W]. unfold set_group in E. apply bind_ok in E as [l [E H]]. injection H as <-.
    apply SP. destruct (W v) as [m Hm]. exists m. rewrite <- Hm. clear - E.
    (* strided assignment never changes the length *)
    assert (ST : forall l0 i k vals l1, set_strided (A:=R) l0 i k vals = Ok l1 -> length l1 = length l0).
    { intros l0 i k vals l1. unfold set_strided. destruct (_ =? _)%nat.
      - intros [= <-]. now rewrite map_length, enumerate_length.
      - destruct vals as [|x [|y r]]; try discriminate. intros [= <-]. now rewrite map_length, enumerate_length. }
    assert (SC : forall cols l0 k i l1, set_columns k l0 i cols = Ok l1 -> length l1 = length l0).
    { induction cols as [|c r IHr]; intros l0 k i l1; cbn; [now intros [= <-]|]. intro H. apply bind_ok in H as [x [X H]].
      rewrite (IHr _ _ _ _ H). eapply ST; eauto. }
    unfold set_vector_components in E. destruct (observation_group (a_est d) g) as [[a b]|]; [|discriminate].
    destruct (negb _); [discriminate|]. eapply SC; eauto.
  - destruct (divisible (a_est d) values) eqn:D; [|exact W]. apply SP. now apply divisible_iff.
Qed.
Print Assumptions C42_history.

Definition lever_and_time : est_settings :=
  mkEst true true true true true true false true true false true true false false false false.
Local Notation two_epochs :=
  (make_data lever_and_time (mkStoch 1 2 3 4 5 6 7) [mkV3 1 2 3; mkV3 4 5 6] [mkV3 7 8 9; mkV3 10 11 12]
    (Some [mkV3 13 14 15; mkV3 16 17 18]) [mkV3 19 20 21; mkV3 22 23 24]).
Definition two_epochs_data : adata :=
  mkData lever_and_time
    [1; 2; 3; 7; 8; 9; 13; 14; 15; 19; 20; 21; 4; 5; 6; 10; 11; 12; 16; 17; 18; 22; 23; 24]
    [1 ^ 2; 1 ^ 2; 2 ^ 2; 3 ^ 2; 3 ^ 2; 4 ^ 2; 5 ^ 2; 5 ^ 2; 6 ^ 2; 7 ^ 2; 7 ^ 2; 7 ^ 2;
     1 ^ 2; 1 ^ 2; 2 ^ 2; 3 ^ 2; 3 ^ 2; 4 ^ 2; 5 ^ 2; 5 ^ 2; 6 ^ 2; 7 ^ 2; 7 ^ 2; 7 ^ 2]
    (repeat 0 24).
Lemma two_epochs_ok : two_epochs = Ok two_epochs_data.
Proof. reflexivity. Qed.
Example C42_case : two_epochs = Ok two_epochs_data /\ whole_epochs two_epochs_data /\
  get_group two_epochs_data Obs YAW = Ok [[15; 18]] /\
  get_group two_epochs_data Obs SPEED = Ok [[19; 22]; [20; 23]; [21; 24]] /\
  rmap (fun d => get_group d Obs RPY) (set_group two_epochs_data Obs YAW [[0; 1]]) = Ok (Ok [[13; 16]; [14; 17]; [0; 1]]).
Proof.
  split; [exact two_epochs_ok|]. split; [intros []; exists 2%nat; reflexivity|].
  split; [reflexivity|]. split; reflexivity.
Qed.
Example C42_case_fitting : fitting lever_and_time [mkV3 1 2 3; mkV3 4 5 6] [mkV3 7 8 9; mkV3 10 11 12]
    (Some [mkV3 13 14 15; mkV3 16 17 18]) [mkV3 19 20 21; mkV3 22 23 24] 2 /\ available lever_and_time SPEED.
Proof.
  split; [split; [reflexivity|split; [reflexivity|split; [intros _; eexists; split; reflexivity|reflexivity]]]|].
  intros q Hq. cbn in Hq. intuition (subst; reflexivity).
Qed.
Example C42_case_missing : make_data lever_and_time (mkStoch 1 2 3 4 5 6 7) [mkV3 1 2 3] [mkV3 7 8 9] None [mkV3 19 20 21] = Err ValueError.
Proof. reflexivity. Qed.

(** ** C43: unused speed axes do not take part *)
(** Refuted: the switched-off axis is observed like the others. *)
Theorem C43_unused_axis_refuted :
  ~ (forall e s from to rpy speed d, make_data e s from to rpy speed = Ok d -> use_y_speed e = false ->
       forall cols, get_group d Obs SPEED = Ok cols -> forall c, nth_error cols 1 = Some c -> forall x, In x c -> x = 0).
Proof.
  intro H. destruct C42_case as [E [_ [_ [G _]]]]. assert (X := H _ _ _ _ _ _ _ E eq_refl _ G _ eq_refl 20 (or_introl eq_refl)). lra.
Qed.
Print Assumptions C43_unused_axis_refuted.

(** What is true: if all three are switched off no speed is observed at all, and otherwise all three
    components of the speed are observed, whatever the switches say. *)
Theorem C43_speed_partial : forall e s from to rpy speed d, make_data e s from to rpy speed = Ok d ->
  (time_shift e = false \/ (use_x_speed e = false /\ use_y_speed e = false /\ use_z_speed e = false) -> get_group d Obs SPEED = Err ValueError) /\
  (time_shift e = true -> use_x_speed e = true \/ use_y_speed e = true \/ use_z_speed e = true ->
     get_group d Obs SPEED = Ok [map vx speed; map vy speed; map vz speed]).
Proof.
  intros e s f t rpy sp d H. destruct (C42_groups e s f t rpy sp d H SPEED) as [A B]. split.
  - intro C. apply B. intro X. specialize (X SpeedX (or_introl eq_refl)). cbn in X. unfold time_shift_enabled, time_shift_filter in X.
    destruct C as [C|[C1 [C2 C3]]].
    + rewrite C in X. discriminate.
    + rewrite C1, C2, C3 in X. destruct (time_shift e); discriminate.
  - intros C1 C2. apply A. intros q Hq. cbn in Hq.
    assert (time_shift_enabled e = true) as TE.
    { unfold time_shift_enabled, time_shift_filter. rewrite C1. cbn. destruct C2 as [-> | [-> | ->]]; cbn; rewrite ?orb_true_r; reflexivity. }
    intuition (subst; exact TE).
Qed.
Print Assumptions C43_speed_partial.

(** ** C44: the variance estimation subset *)
(** Refuted, for every subset size: if the observations vary most at the start, the subset begins with
    the last pose. *)
Theorem C44_window_refuted : forall n, (2 <= n)%nat ->
  exists e from to speed obs idx,
    build_obs_vector e from to None speed = Ok obs /\ number_of_epochs e obs = S n /\
    subset_index e obs n = Some idx /\ nth_error idx 0 = Some (-1)%Z /\
    forall (Q : Type) (t t' : traj Q), consistent t -> tlen t = S n -> apply_index t (IInt idx) = Ok t' ->
      pose_at t' 0 = pose_at t n.
Proof.
  intros n Hn. set (e := mkEst true true true true true true false false true true true false false false false false).
  exists e, (mkV3 1 0 0 :: repeat vzero n), (repeat vzero (S n)), [], (1 :: repeat 0 (6 * n + 5)).
  destruct (subset_jump e n Hn eq_refl) as [idx [E C]]. exists idx.
  assert (I0 : nth_error idx 0 = Some (-1)%Z).
  { destruct C as [CL CN]. destruct (nth_error_lt_Some idx 0) as [z Hz]; [lia|]. rewrite Hz. f_equal. rewrite (CN 0%nat z Hz). reflexivity. }
  split; [now apply build_jump|]. split.
  { unfold number_of_epochs. change (num_obs_per_epoch e) with 6%nat. cbn [length]. rewrite repeat_length.
    replace (S (6 * n + 5)) with (S n * 6)%nat by lia. apply Nat.div_mul. lia. }
  split; [exact E|]. split; [exact I0|]. intros Q t t' Ct Lt H.
  destruct (apply_index_int_spec t idx t' Ct H) as [_ [_ [_ N]]]. destruct (N 0%nat _ I0) as [k [Hk [Hz [HP _]]]].
  rewrite HP. f_equal. lia.
Qed.
Print Assumptions C44_window_refuted.

(** What is true: with at most n epochs everything is used.  Otherwise the subset consists of n
    consecutive epochs, from the one before the n-epoch window with the largest standard deviation, so
    it lies inside the data unless that window is the first one. *)
Theorem C44_window_partial : forall e obs n, (0 < n)%nat ->
  (subset_index e obs n = None <-> (number_of_epochs e obs <= n)%nat) /\
  (forall idx, subset_index e obs n = Some idx ->
     exists best, (best + n <= number_of_epochs e obs)%nat /\ consecutive (Z.of_nat best - 1) n idx /\
       (forall i, (i + n <= number_of_epochs e obs)%nat ->
          window_std (firstn n (skipn i (row_norms (num_obs_per_epoch e) obs))) <=
          window_std (firstn n (skipn best (row_norms (num_obs_per_epoch e) obs)))) /\
       ((0 < best)%nat -> forall z, In z idx -> (0 <= z < Z.of_nat (number_of_epochs e obs))%Z)).
Proof.
  intros e obs n Hn. split; [now apply subset_all|]. intros idx H. destruct (subset_spec e obs n idx Hn H) as [HL [m [M1 [M2 [C M3]]]]].
  exists (S m - n)%nat. split; [lia|]. split.
  { replace (Z.of_nat (S m - n) - 1)%Z with (Z.of_nat m - Z.of_nat n)%Z by lia. exact C. }
  split.
  - intros i Hi. specialize (M3 (i + n - 1)%nat ltac:(lia) ltac:(lia)). unfold window_at in M3.
    replace (S (i + n - 1) - n)%nat with i in M3 by lia. exact M3.
  - intros Hb z Hz. destruct C as [CL CN]. apply In_nth_error in Hz as [i Hi]. rewrite (CN i z Hi).
    apply nth_error_Some_lt in Hi. lia.
Qed.
Print Assumptions C44_window_partial.

Example C44_case : exists e obs, (3 < number_of_epochs e obs)%nat /\ exists idx, subset_index e obs 3 = Some idx.
Proof.
  exists (from_components true false false false false), (repeat 0 24). split; [apply Nat.ltb_lt; reflexivity|].
  destruct (subset_index (from_components true false false false false) (repeat 0 24) 3) as [idx|] eqn:E; [eauto|].
  exfalso. assert (X := proj1 (proj1 (C44_window_partial _ (repeat 0 24) 3 ltac:(lia))) E). apply Nat.leb_le in X. discriminate.
Qed.

(** ** C70: preprocessing keeps exactly the requested poses *)
Theorem C70_preprocess : forall (Q : Type) p (from to from' to' : traj Q), consistent from -> consistent to ->
  preprocess p from to = Ok (from', to') ->
  poses from' <> [] /\ poses to' <> [] /\ consistent from' /\ consistent to' /\ same_meta from from' /\ same_meta to to' /\
  ((time_start p = 0 /\ time_end p = 0 /\
    kept (fun q => min_speed p <= pose_speed q) (poses from) (poses from') /\
    kept (fun q => min_speed p <= pose_speed q) (poses to) (poses to'))
   \/
   ((time_start p <> 0 \/ time_end p <> 0) /\
    exists q0 pre post, poses from = pre ++ q0 :: post /\ min_speed p <= pose_speed q0 /\ Forall (fun q => pose_speed q < min_speed p) pre /\
      kept (fun q => min_speed p <= pose_speed q /\ p_t q0 + time_start p <= p_t q <= p_t q0 + time_end p) (poses from) (poses from') /\
      kept (fun q => min_speed p <= pose_speed q /\ p_t q0 + time_start p <= p_t q <= p_t q0 + time_end p) (poses to) (poses to'))).
Proof.
  intros Q p from to from' to' Cf Ct H. destruct (windowed p) eqn:W.
  - assert (P := preprocess_window p from to Cf Ct W). destruct (filter (fast (min_speed p)) (poses from)) as [|q0 r] eqn:F; [congruence|].
    destruct P as [f [t [C1 [C2 [M1 [M2 [P1 [P2 E]]]]]]]]. rewrite H in E.
    destruct (first_fast _ _ _ _ F) as [pre [post [X1 [X2 X3]]]].
    destruct (poses f) as [|a l] eqn:PF; [discriminate|]. destruct (poses t) as [|b l'] eqn:PT; [discriminate|]. injection E as -> ->.
    split; [congruence|]. split; [congruence|]. do 4 (split; [assumption|]). right. split; [now apply windowed_true|].
    exists q0, pre, post. do 3 (split; [assumption|]).
    split; [rewrite PF, P1|rewrite PT, P2]; apply kept_filter; intros q _; apply left_over_true.
  - destruct (preprocess_plain p from to Cf Ct W) as [f [t [C1 [C2 [M1 [M2 [P1 [P2 E]]]]]]]]. rewrite H in E.
    destruct (poses f) as [|a l] eqn:PF; [discriminate|]. destruct (poses t) as [|b l'] eqn:PT; [discriminate|]. injection E as -> ->.
    split; [congruence|]. split; [congruence|]. do 4 (split; [assumption|]). left. apply windowed_false in W as [W1 W2].
    do 2 (split; [assumption|]). split; [rewrite PF, P1|rewrite PT, P2]; apply kept_filter; intros q _; apply Rleb_true.
Qed.
Print Assumptions C70_preprocess.

(** It fails exactly when nothing is left: with ValueError, except that a time window without a single
    fast enough source pose is an IndexError. *)
Theorem C70_failure : forall (Q : Type) p (from to : traj Q) e, consistent from -> consistent to ->
  preprocess p from to = Err e ->
  (e = IndexError /\ (time_start p <> 0 \/ time_end p <> 0) /\ Forall (fun q => pose_speed q < min_speed p) (poses from)) \/
  (e = ValueError /\
   ((time_start p = 0 /\ time_end p = 0 /\
     (Forall (fun q => pose_speed q < min_speed p) (poses from) \/ Forall (fun q => pose_speed q < min_speed p) (poses to)))
    \/ exists q0, In q0 (poses from) /\
        let out q := ~ (min_speed p <= pose_speed q /\ p_t q0 + time_start p <= p_t q <= p_t q0 + time_end p) in
        Forall out (poses from) \/ Forall out (poses to))).
Proof.
  intros Q p from to e Cf Ct H.
  assert (NF : forall (f : pose Q -> bool) P l, (forall q, f q = true <-> P q) -> filter f l = [] -> Forall (fun q => ~ P q) l).
  { intros f P l HP E. apply Forall_forall. intros q Hq Pq. apply HP in Pq. assert (In q (filter f l)) as X by (apply filter_In; auto). rewrite E in X. destruct X. }
  assert (SLOW : forall l, Forall (fun q : pose Q => ~ (min_speed p <= pose_speed q)) l -> Forall (fun q => pose_speed q < min_speed p) l).
  { intros l F. eapply Forall_impl; [|exact F]. cbn. intros; lra. }
  destruct (windowed p) eqn:W.
  - assert (P := preprocess_window p from to Cf Ct W). destruct (filter (fast (min_speed p)) (poses from)) as [|q0 r] eqn:F.
    + left. rewrite H in P. injection P as ->. split; [reflexivity|]. split; [now apply windowed_true|]. apply SLOW.
      apply (NF (fast (min_speed p)) (fun q => min_speed p <= pose_speed q)); [intro q; apply Rleb_true|exact F].
    + destruct P as [f [t [C1 [C2 [M1 [M2 [P1 [P2 E]]]]]]]]. rewrite H in E. right.
      assert (IQ : In q0 (poses from)) by (apply (filter_In (fast (min_speed p))); rewrite F; now left).
      assert (LO := fun q : pose Q => left_over_true p (p_t q0) q).
      destruct (poses f) as [|a l] eqn:PF.
      * injection E as ->. split; [reflexivity|]. right. exists q0. split; [exact IQ|]. left. eapply NF; [apply LO|symmetry; exact P1].
      * destruct (poses t) as [|b l'] eqn:PT; [|discriminate]. injection E as ->. split; [reflexivity|]. right. exists q0. split; [exact IQ|].
        right. eapply NF; [apply LO|symmetry; exact P2].
  - destruct (preprocess_plain p from to Cf Ct W) as [f [t [C1 [C2 [M1 [M2 [P1 [P2 E]]]]]]]]. rewrite H in E. right. apply windowed_false in W as [W1 W2].
    assert (FT := fun q : pose Q => Rleb_true (min_speed p) (pose_speed q)).
    destruct (poses f) as [|a l] eqn:PF.
    + injection E as ->. split; [reflexivity|]. left. do 2 (split; [assumption|]). left. apply SLOW. eapply NF; [apply FT|symmetry; exact P1].
    + destruct (poses t) as [|b l'] eqn:PT; [|discriminate]. injection E as ->. split; [reflexivity|]. left. do 2 (split; [assumption|]).
      right. apply SLOW. eapply NF; [apply FT|symmetry; exact P2].
Qed.
Print Assumptions C70_failure.

(** Refuted: giving only a start time (the end time defaults to zero) does not use the rest of the
    trajectory but always fails. *)
Theorem C70_start_only_refuted : forall (Q : Type) p (from to : traj Q), consistent from -> consistent to ->
  0 < time_start p -> time_end p = 0 -> exists e, preprocess p from to = Err e.
Proof.
  intros Q p from to Cf Ct HS HE. destruct (preprocess p from to) as [[f t]|e] eqn:E; [|eauto]. exfalso.
  destruct (C70_preprocess Q p from to f t Cf Ct E) as [NE [_ [_ [_ [_ [_ [[X _]|[_ [q0 [pre [post [_ [_ [_ [K _]]]]]]]]]]]]]]]; [lra|].
  destruct (poses f) as [|q l] eqn:PF; [congruence|]. clear - K HS HE.
  remember (q :: l) as m eqn:Hm. induction K; try discriminate; try (now apply IHK). injection Hm as -> ->. lra.
Qed.
Print Assumptions C70_start_only_refuted.

Definition demo_from : traj nat :=
  mkTraj [0; 1; 3] [mkV3 0 0 0; mkV3 3 4 0; mkV3 3 4 2] (Some [10; 11; 12]%nat) [0; 5; 7]
         [mkV3 1 0 0; mkV3 0 0 1; vzero] SortTime "demo" 0.
Lemma norm_x1 : vnorm (mkV3 1 0 0) = 1.
Proof. unfold vnorm, vdot; cbn. replace (1 * 1 + 0 * 0 + 0 * 0) with 1 by ring. apply sqrt_1. Qed.
Lemma norm_z1 : vnorm (mkV3 0 0 1) = 1.
Proof. unfold vnorm, vdot; cbn. replace (0 * 0 + 0 * 0 + 1 * 1) with 1 by ring. apply sqrt_1. Qed.
Lemma norm_0 : vnorm vzero = 0.
Proof. unfold vnorm, vdot; cbn. replace (0 * 0 + 0 * 0 + 0 * 0) with 0 by ring. apply sqrt_0. Qed.
Example C70_case : consistent demo_from /\
  exists f t, preprocess (mkPre (1 / 2) 0 2) demo_from demo_from = Ok (f, t) /\ tstamps f = [0; 1].
Proof.
  split; [repeat split|]. unfold preprocess, speed_filter. cbn [min_speed time_start time_end demo_from speed map].
  rewrite norm_x1, norm_z1, norm_0. rb. do 2 eexists. split; reflexivity.
Qed.
