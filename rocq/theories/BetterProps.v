(** C164: a trajectory that is closer to the reference everywhere gets better numbers. *)
From Coq Require Import Permutation Sorting.
From Verif Require Import Base BaseFacts VecFacts NumpyModel NumpyFacts TrajModel TrajSpec TrajFacts GeomModel GeomSpec GeomFacts EvalModel EvalStats EvalSpec EvalFacts4 EvalProps StabFacts PlotModel PlotSpec BetterSpec.

Definition below (l m : list R) : Prop := Forall2 Rle l m.
Lemma below_length l m : below l m -> length l = length m.
Proof. induction 1; cbn; congruence. Qed.
Lemma below_sum l m : below l m -> np_sum l <= np_sum m.
Proof. induction 1 as [|a b l m H F IH]; [lra|]. rewrite !np_sum_cons. lra. Qed.
Lemma below_count l m x : below l m -> (count (fun y => Rleb y x) m <= count (fun y => Rleb y x) l)%nat.
Proof.
  induction 1 as [|a b l m H F IH]; [cbn; lia|]. unfold count in *. cbn [filter]. destruct (Rleb_spec b x) as [A|A].
  - destruct (Rleb_spec a x) as [B|B]; [cbn; lia|lra].
  - destruct (Rleb a x); cbn; lia.
Qed.
Lemma below_sorted l m k x y : below l m -> nth_error (np_sort l) k = Some x -> nth_error (np_sort m) k = Some y -> x <= y.
Proof.
  intros W X Y. destruct (Rle_lt_dec x y) as [|L]; [assumption|]. exfalso.
  assert (A : (k + 1 <= count (fun z => Rleb z y) (np_sort m))%nat).
  { apply count_prefix_ge; [apply nth_error_Some_lt in Y; lia|]. intros i z I Z. apply Rleb_true.
    destruct (Nat.eq_dec i k) as [->|NE]; [replace z with y by congruence; lra|]. apply (proj1 (StronglySorted_nth Rle (np_sort m)) (np_sort_sorted m) i k); [lia|exact Z|exact Y]. }
  rewrite (count_perm _ _ _ (np_sort_perm m)) in A. assert (B := below_count l m y W).
  rewrite <- (count_perm _ _ _ (np_sort_perm l)) in B. assert (D := count_below (np_sort l) k x (np_sort_sorted l) X y L). lia.
Qed.
Lemma below_median l m x y : below l m -> np_median l = Some x -> np_median m = Some y -> x <= y.
Proof.
  unfold np_median. intros W X Y. rewrite <- (below_length l m W) in Y.
  destruct (nth_error (np_sort l) ((length l - 1) / 2)) as [a|] eqn:A, (nth_error (np_sort l) (length l / 2)) as [b|] eqn:B; try discriminate X.
  destruct (nth_error (np_sort m) ((length l - 1) / 2)) as [c|] eqn:C, (nth_error (np_sort m) (length l / 2)) as [d|] eqn:D; try discriminate Y.
  injection X as <-. injection Y as <-. assert (P := below_sorted _ _ _ _ _ W A C). assert (P2 := below_sorted _ _ _ _ _ W B D). lra.
Qed.
Lemma below_In_l l m a : below l m -> In a l -> exists b, In b m /\ a <= b.
Proof. induction 1 as [|x y l m H F IH]; intro I; [destruct I|]. destruct I as [<- |I]; [exists y; split; [left; reflexivity|exact H]|]. destruct (IH I) as (b & J & K). exists b. split; [right; exact J|exact K]. Qed.
Lemma below_In_r l m b : below l m -> In b m -> exists a, In a l /\ a <= b.
Proof. induction 1 as [|x y l m H F IH]; intro I; [destruct I|]. destruct I as [<- |I]; [exists x; split; [left; reflexivity|exact H]|]. destruct (IH I) as (a & J & K). exists a. split; [right; exact J|exact K]. Qed.
Lemma below_squares l m : (forall x, In x l -> 0 <= x) -> below l m -> below (map (fun x => x * x) l) (map (fun x => x * x) m).
Proof.
  intros P F. induction F as [|a b l m H F IH]; [constructor|]. assert (0 <= a) by (apply P; left; reflexivity). cbn. constructor; [nra|]. apply IH. intros x I. apply P. right. exact I.
Qed.

Lemma deviations_below {Q} (ops : rot_ops Q) ref test test2 r r2 : consistent test -> consistent test2 -> consistent ref -> tlen test = tlen ref -> tlen test2 = tlen ref ->
  compare_absolute ops test ref = Ok r -> compare_absolute ops test2 ref = Ok r2 -> length (pos_dev r) = tlen ref /\ (closer ref test test2 -> below (pos_dev_comb r) (pos_dev_comb r2)).
Proof.
  intros C1 C2 CR L1 L2 E1 E2. destruct (compare_absolute_ok ops test ref C1 CR L1) as (r' & E' & _ & _ & LP & _ & N & _). rewrite E1 in E'. injection E' as <-.
  destruct (compare_absolute_ok ops test2 ref C2 CR L2) as (r' & E' & _ & _ & LP2 & _ & N2 & _). rewrite E2 in E'. injection E' as <-. split; [exact LP|]. intro CL.
  assert (G : forall i a b, nth_error (pos_dev r) i = Some a -> nth_error (pos_dev r2) i = Some b -> vnorm a <= vnorm b).
  { intros i a b A B. assert (I := nth_error_Some_lt _ _ _ A). rewrite LP in I. unfold tlen in *. destruct (nth_error_lt_Some (xyz ref) i I) as [p P].
    destruct (nth_error_lt_Some (xyz test) i) as [u U]; [lia|]. destruct (nth_error_lt_Some (xyz test2) i) as [v V]; [lia|].
    rewrite (N i p u P U) in A. rewrite (N2 i p v P V) in B. injection A as <-. injection B as <-. exact (CL i p u v P U V). }
  unfold pos_dev_comb, below. assert (LL : length (pos_dev r) = length (pos_dev r2)) by congruence. clear - G LL. revert LL G. generalize (pos_dev r) (pos_dev r2). induction l as [|a l IH]; intros [|b m] LL G; cbn in LL; try lia; constructor.
  - exact (G 0%nat a b eq_refl eq_refl).
  - apply IH; [lia|]. intros i. exact (G (S i)).
Qed.

(** Smallest, largest, mean, median and root mean square error are not larger, and for every limit at least as many poses are within it. *)
Theorem C164_better : forall (Q : Type) (ops : rot_ops Q) (ref test test2 : traj Q), consistent test -> consistent test2 -> consistent ref ->
  tlen test = tlen ref -> tlen test2 = tlen ref -> tlen ref <> 0%nat -> closer ref test test2 ->
  exists r r2 lo hi mean med q lo2 hi2 mean2 med2 q2, compare_absolute ops test ref = Ok r /\ compare_absolute ops test2 ref = Ok r2 /\
    pos_dev_min r = Ok lo /\ pos_dev_max r = Ok hi /\ pos_ate r = Some mean /\ pos_dev_median r = Some med /\ pos_dev_rms r = Some q /\
    pos_dev_min r2 = Ok lo2 /\ pos_dev_max r2 = Ok hi2 /\ pos_ate r2 = Some mean2 /\ pos_dev_median r2 = Some med2 /\ pos_dev_rms r2 = Some q2 /\
    lo <= lo2 /\ hi <= hi2 /\ mean <= mean2 /\ med <= med2 /\ q <= q2 /\ forall x, fraction_upto (pos_dev_comb r2) x <= fraction_upto (pos_dev_comb r) x.
Proof.
  intros Q ops ref test test2 C1 C2 CR L1 L2 NE CL. destruct (compare_absolute_ok ops test ref C1 CR L1) as (r & E1 & _). destruct (compare_absolute_ok ops test2 ref C2 CR L2) as (r2 & E2 & _).
  destruct (deviations_below ops ref test test2 r r2 C1 C2 CR L1 L2 E1 E2) as [LP B]. specialize (B CL). set (l := pos_dev_comb r) in *. set (m := pos_dev_comb r2) in *.
  assert (LL := below_length l m B). assert (LN : length l = tlen ref) by (unfold l, pos_dev_comb; rewrite map_length; exact LP).
  assert (Nl : l <> []) by (intro Z; rewrite Z in LN; cbn in LN; lia). assert (Nm : m <> []) by (intro Z; rewrite Z in LL; cbn in LL; lia).
  assert (NN : forall x, In x l -> 0 <= x) by (intros x I; unfold l, pos_dev_comb in I; apply in_map_iff in I as (v & <- & _); apply vnorm_nonneg).
  assert (POS : 0 < INR (length l)) by (apply lt_0_INR; lia). assert (INVP := Rinv_0_lt_compat _ POS).
  destruct (np_min_spec l Nl) as (lo & MI & [I1 I2]). destruct (np_min_spec m Nm) as (lo2 & MI2 & [J1 J2]). destruct (np_max_spec l Nl) as (hi & MA & [K1 K2]). destruct (np_max_spec m Nm) as (hi2 & MA2 & [M1 M2]).
  destruct (median_spec l Nl) as (med & ME & _). destruct (median_spec m Nm) as (med2 & ME2 & _).
  assert (SN : forall k : list R, k <> [] -> map (fun x => x * x) k <> []) by (intros [|a k] N; [congruence|discriminate]).
  assert (RM : forall k, k <> [] -> rms k = Some (sqrt (np_sum (map (fun x => x * x) k) / INR (length k)))) by (intros k N; unfold rms; rewrite (np_mean_some _ (SN k N)), map_length; reflexivity).
  exists r, r2, lo, hi, (np_sum l / INR (length l)), med, (sqrt (np_sum (map (fun x => x * x) l) / INR (length l))), lo2, hi2, (np_sum m / INR (length m)), med2, (sqrt (np_sum (map (fun x => x * x) m) / INR (length m))).
  split; [exact E1|]. split; [exact E2|]. split; [exact MI|]. split; [exact MA|]. split; [apply np_mean_some, Nl|]. split; [exact ME|]. split; [apply RM, Nl|].
  split; [exact MI2|]. split; [exact MA2|]. split; [apply np_mean_some, Nm|]. split; [exact ME2|]. split; [apply RM, Nm|].
  split; [destruct (below_In_r l m lo2 B J1) as (a & A & LE); specialize (I2 a A); lra|].
  split; [destruct (below_In_l l m hi B K1) as (b & A & LE); specialize (M2 b A); lra|]. rewrite <- LL.
  split; [unfold Rdiv; apply Rmult_le_compat_r; [lra|apply below_sum, B]|]. split; [exact (below_median l m med med2 B ME ME2)|].
  split; [apply sqrt_le_1_alt; unfold Rdiv; apply Rmult_le_compat_r; [lra|apply below_sum, below_squares; assumption]|].
  intro x. unfold fraction_upto. fold l m. rewrite <- LL. unfold Rdiv. apply Rmult_le_compat_r; [lra|]. apply le_INR, below_count, B.
Qed.
Print Assumptions C164_better.

(** One pose that is really closer makes the mean and the root mean square error really smaller. *)
Theorem C164_strict : forall (Q : Type) (ops : rot_ops Q) (ref test test2 : traj Q) i p a b, consistent test -> consistent test2 -> consistent ref ->
  tlen test = tlen ref -> tlen test2 = tlen ref -> closer ref test test2 ->
  nth_error (xyz ref) i = Some p -> nth_error (xyz test) i = Some a -> nth_error (xyz test2) i = Some b -> vdist p a < vdist p b ->
  exists r r2 mean q mean2 q2, compare_absolute ops test ref = Ok r /\ compare_absolute ops test2 ref = Ok r2 /\
    pos_ate r = Some mean /\ pos_ate r2 = Some mean2 /\ pos_dev_rms r = Some q /\ pos_dev_rms r2 = Some q2 /\ mean < mean2 /\ q < q2.
Proof.
  intros Q ops ref test test2 i p a b C1 C2 CR L1 L2 CL P A B LT.
  destruct (compare_absolute_ok ops test ref C1 CR L1) as (r & E1 & _ & _ & LP & _ & N & _). destruct (compare_absolute_ok ops test2 ref C2 CR L2) as (r2 & E2 & _ & _ & LP2 & _ & N2 & _).
  destruct (deviations_below ops ref test test2 r r2 C1 C2 CR L1 L2 E1 E2) as [_ BB]. specialize (BB CL). assert (Hi := N i p a P A). assert (Hi2 := N2 i p b P B).
  assert (X : nth_error (pos_dev_comb r) i = Some (vdist p a)) by (unfold pos_dev_comb; rewrite nth_error_map', Hi; reflexivity).
  assert (Y : nth_error (pos_dev_comb r2) i = Some (vdist p b)) by (unfold pos_dev_comb; rewrite nth_error_map', Hi2; reflexivity).
  set (l := pos_dev_comb r) in *. set (m := pos_dev_comb r2) in *.
  assert (NN : forall x, In x l -> 0 <= x) by (intros x I; unfold l, pos_dev_comb in I; apply in_map_iff in I as (v & <- & _); apply vnorm_nonneg).
  assert (LL := below_length l m BB). assert (Nl : l <> []) by (intro Z; rewrite Z in X; destruct i; discriminate). assert (Nm : m <> []) by (intro Z; rewrite Z in Y; destruct i; discriminate).
  assert (ST : forall u v k x y, below u v -> nth_error u k = Some x -> nth_error v k = Some y -> x < y -> np_sum u < np_sum v).
  { clear. intros u v k x y F. revert k. induction F as [|c d u v H F IH]; intros [|k] U V LT; cbn in U, V; try discriminate; rewrite !np_sum_cons.
    - injection U as ->. injection V as ->. pose proof (below_sum u v F). lra.
    - pose proof (IH k U V LT). lra. }
  assert (POS : 0 < INR (length l)) by (apply lt_0_INR; destruct l; [congruence|cbn; lia]). assert (INVP := Rinv_0_lt_compat _ POS).
  assert (SN : forall k : list R, k <> [] -> map (fun x => x * x) k <> []) by (intros [|z k] K; [congruence|discriminate]).
  assert (RM : forall k, k <> [] -> rms k = Some (sqrt (np_sum (map (fun x => x * x) k) / INR (length k)))) by (intros k K; unfold rms; rewrite (np_mean_some _ (SN k K)), map_length; reflexivity).
  exists r, r2, (np_sum l / INR (length l)), (sqrt (np_sum (map (fun x => x * x) l) / INR (length l))), (np_sum m / INR (length m)), (sqrt (np_sum (map (fun x => x * x) m) / INR (length m))).
  split; [exact E1|]. split; [exact E2|]. split; [apply np_mean_some, Nl|]. split; [apply np_mean_some, Nm|]. split; [apply RM, Nl|]. split; [apply RM, Nm|]. rewrite <- LL. split.
  - unfold Rdiv. apply Rmult_lt_compat_r; [exact INVP|]. exact (ST l m i _ _ BB X Y LT).
  - apply sqrt_lt_1_alt. split.
    + unfold Rdiv. apply Rmult_le_pos; [|lra]. apply np_sum_nonneg. intros y I. apply in_map_iff in I as (z & <- & _). nra.
    + unfold Rdiv. apply Rmult_lt_compat_r; [exact INVP|]. refine (ST _ _ i (vdist p a * vdist p a) (vdist p b * vdist p b) (below_squares l m NN BB) _ _ _).
      * rewrite nth_error_map', X. reflexivity.
      * rewrite nth_error_map', Y. reflexivity.
      * assert (0 <= vdist p a) by apply vdist_nonneg. nra.
Qed.
Print Assumptions C164_strict.

(** The standard deviation is no such measure: a trajectory with the first position on the reference and the second one metre off is closer than
    one that is a metre off everywhere, and has the larger standard deviation. *)
Definition at_x (a b : R) : traj RotM := mkTraj [0; 1] [mkV3 a 0 0; mkV3 b 0 0] None [0; 1] [vzero; vzero] SortTime EmptyString 0%Z.
Lemma off a b : compare_absolute rot_impl (at_x a b) (at_x 0 0) <> Err ValueError /\ exists r, compare_absolute rot_impl (at_x a b) (at_x 0 0) = Ok r /\ pos_dev_comb r = [Rabs a; Rabs b].
Proof.
  destruct (compare_absolute_ok rot_impl (at_x a b) (at_x 0 0)) as (r & E & _ & _ & LP & _ & N & _); [repeat split|repeat split|reflexivity|]. split; [rewrite E; discriminate|]. exists r. split; [exact E|].
  assert (A := N 0%nat _ _ eq_refl eq_refl). assert (B := N 1%nat _ _ eq_refl eq_refl). unfold pos_dev_comb. change (tlen (at_x 0 0)) with 2%nat in LP.
  destruct (pos_dev r) as [|u [|v [|]]]; cbn in LP; try lia. cbn in A, B. injection A as ->. injection B as ->.
  assert (V : forall x, vnorm (vsub (mkV3 0 0 0) (mkV3 x 0 0)) = Rabs x).
  { intro x. unfold vnorm. rewrite <- sqrt_Rsqr_abs. f_equal. unfold vdot, vsub, Rsqr. cbn. ring. }
  cbn [map]. rewrite !V. reflexivity.
Qed.
Theorem C164_spread : exists r r2 s s2, closer (at_x 0 0) (at_x 0 1) (at_x 1 1) /\ compare_absolute rot_impl (at_x 0 1) (at_x 0 0) = Ok r /\ compare_absolute rot_impl (at_x 1 1) (at_x 0 0) = Ok r2 /\
  pos_dev_std r = Some s /\ pos_dev_std r2 = Some s2 /\ s2 < s.
Proof.
  destruct (off 0 1) as [_ (r & E & D)]. destruct (off 1 1) as [_ (r2 & E2 & D2)]. rewrite Rabs_R0, Rabs_R1 in D. rewrite Rabs_R1 in D2.
  exists r, r2, (sqrt (1 / 4)), 0. split.
  - intros [|[|[|i]]] p a b P A B; cbn in P, A, B; try discriminate; injection P as <-; injection A as <-; injection B as <-; [|lra]. rewrite vdist_refl. apply vdist_nonneg.
  - split; [exact E|]. split; [exact E2|]. unfold pos_dev_std, np_std, np_mean, np_sum. rewrite D, D2. cbn. split; [do 2 f_equal; lra|]. split; [|apply sqrt_lt_R0; lra].
    f_equal. transitivity (sqrt 0); [f_equal; lra|apply sqrt_0].
Qed.
Print Assumptions C164_spread.
Example C164_case : consistent (at_x 0 1) /\ consistent (at_x 1 1) /\ tlen (at_x 0 1) = tlen (at_x 0 0) /\ closer (at_x 0 0) (at_x 0 1) (at_x 1 1) /\ vdist (mkV3 0 0 0) (mkV3 0 0 0) < vdist (mkV3 0 0 0) (mkV3 1 0 0).
Proof.
  split; [repeat split|]. split; [repeat split|]. split; [reflexivity|]. destruct C164_spread as (r & r2 & s & s2 & C & _). split; [exact C|].
  rewrite vdist_refl. unfold vdist, vnorm. apply sqrt_lt_R0. unfold vdot, vsub. cbn. lra.
Qed.
