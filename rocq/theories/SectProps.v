(** C169: the errors of a whole trajectory and of two parts of it. *)
From Coq Require Import Permutation Sorting.
From Verif Require Import Base BaseFacts VecFacts NumpyModel NumpyFacts TrajModel TrajSpec TrajFacts GeomModel GeomSpec GeomFacts EvalModel EvalStats EvalSpec EvalFacts4 EvalProps StabFacts PlotModel PlotSpec SwapProps.

Lemma mask_parts {A} (l l1 l2 : list A) b : np_index l (IMask b) = Ok l1 -> np_index l (IMask (map negb b)) = Ok l2 -> l1 <> [] -> Permutation l (l1 ++ l2).
Proof.
  intros E1 E2 N. destruct b as [|x b]; [cbn in E1; congruence|]. unfold np_index in E1, E2. cbn [map] in E2. set (m := x :: b) in *. change (negb x :: map negb b) with (map negb m) in E2. clearbody m. clear x b N.
  unfold np_mask in E1, E2. rewrite map_length in E2. destruct (Nat.eqb_spec (length m) (length l)) as [L|L]; [|discriminate]. injection E1 as <-. injection E2 as <-.
  revert m L. induction l as [|a l IH]; intros [|x m] L; cbn in L; try lia; [constructor|]. specialize (IH m ltac:(lia)). destruct x; cbn.
  - constructor. exact IH.
  - apply Permutation_cons_app. exact IH.
Qed.

Lemma count_app {A} (p : A -> bool) l m : count p (l ++ m) = (count p l + count p m)%nat.
Proof. unfold count. rewrite filter_app, app_length. reflexivity. Qed.
(** Values in sorted order and numbers of smaller values *)
Lemma kth_le l k x : nth_error (np_sort l) k = Some x -> (k + 1 <= count (fun z => Rleb z x) l)%nat.
Proof.
  intro X. rewrite <- (count_perm _ _ _ (np_sort_perm l)). apply count_prefix_ge; [apply nth_error_Some_lt in X; lia|]. intros i z I Z. apply Rleb_true.
  destruct (Nat.eq_dec i k) as [->|NE]; [replace z with x by congruence; lra|]. apply (proj1 (StronglySorted_nth Rle (np_sort l)) (np_sort_sorted l) i k); [lia|exact Z|exact X].
Qed.
Lemma kth_lt l k x : nth_error (np_sort l) k = Some x -> (count (fun z => Rltb z x) l <= k)%nat.
Proof.
  intro X. rewrite <- (count_perm _ _ _ (np_sort_perm l)). generalize (np_sort_sorted l) X. generalize (np_sort l). clear X. intros s S. revert k x. induction S as [|a s S IH F]; intros k x X; [destruct k; discriminate|].
  unfold count in *. cbn [filter]. destruct k as [|k]; cbn in X.
  - injection X as <-. destruct (Rltb_spec a a); [lra|]. assert (filter (fun z => Rltb z a) s = []) as ->; [|cbn; lia]. clear - F. induction F as [|b s H F IH]; [reflexivity|]. cbn. destruct (Rltb_spec b a); [lra|exact IH].
  - specialize (IH k x X). destruct (Rltb a x); cbn; lia.
Qed.
Lemma kth_at_most l k x y : nth_error (np_sort l) k = Some x -> (k + 1 <= count (fun z => Rleb z y) l)%nat -> x <= y.
Proof.
  intros X C. destruct (Rle_lt_dec x y) as [|L]; [assumption|]. exfalso. assert (D := count_below (np_sort l) k x (np_sort_sorted l) X y L). rewrite (count_perm _ _ _ (np_sort_perm l)) in D. lia.
Qed.
Lemma kth_at_least l k x y : nth_error (np_sort l) k = Some x -> (count (fun z => Rltb z y) l <= k)%nat -> y <= x.
Proof.
  intros X C. destruct (Rle_lt_dec y x) as [|L]; [assumption|]. exfalso. apply kth_le in X.
  assert (D : (count (fun z => Rleb z x) l <= count (fun z => Rltb z y) l)%nat); [|lia]. clear - L. unfold count. induction l as [|a l IH]; cbn; [lia|]. destruct (Rleb_spec a x), (Rltb_spec a y); cbn; try lia. lra.
Qed.
Lemma count_le_mono l x y : x <= y -> (count (fun z => Rleb z x) l <= count (fun z => Rleb z y) l)%nat.
Proof. intro L. unfold count. induction l as [|a l IH]; cbn; [lia|]. destruct (Rleb_spec a x), (Rleb_spec a y); cbn; try lia. lra. Qed.
Lemma count_lt_mono l x y : x <= y -> (count (fun z => Rltb z x) l <= count (fun z => Rltb z y) l)%nat.
Proof. intro L. unfold count. induction l as [|a l IH]; cbn; [lia|]. destruct (Rltb_spec a x), (Rltb_spec a y); cbn; try lia. lra. Qed.

Lemma kth_order l i j x y : (i <= j)%nat -> nth_error (np_sort l) i = Some x -> nth_error (np_sort l) j = Some y -> x <= y.
Proof.
  intros I X Y. destruct (Nat.eq_dec i j) as [->|NE]; [replace y with x by congruence; lra|]. apply (proj1 (StronglySorted_nth Rle (np_sort l)) (np_sort_sorted l) i j); [lia|exact X|exact Y].
Qed.
Lemma median_inv l m : np_median l = Some m -> exists a b, nth_error (np_sort l) ((length l - 1) / 2) = Some a /\ nth_error (np_sort l) (length l / 2) = Some b /\ a <= b /\ m = (a + b) / 2.
Proof.
  unfold np_median. destruct (nth_error (np_sort l) ((length l - 1) / 2)) as [a|] eqn:A; [|discriminate]. destruct (nth_error (np_sort l) (length l / 2)) as [b|] eqn:B; [|discriminate]. intro H. injection H as <-. exists a, b.
  split; [reflexivity|]. split; [reflexivity|]. split; [|reflexivity]. apply (kth_order l ((length l - 1) / 2) (length l / 2)); [apply Nat.div_le_mono; lia|exact A|exact B].
Qed.
Lemma halves n1 n2 : (0 < n1)%nat -> (0 < n2)%nat ->
  ((n1 + n2) / 2 + 1 <= (n1 / 2 + 1) + ((n2 - 1) / 2 + 1) /\ (n1 + n2 - 1) / 2 + 1 <= ((n1 - 1) / 2 + 1) + ((n2 - 1) / 2 + 1) /\ n1 / 2 + n2 / 2 <= (n1 + n2) / 2 /\ (n1 - 1) / 2 + n2 / 2 <= (n1 + n2 - 1) / 2)%nat.
Proof.
  intros P1 P2. assert (H := Nat.div_mod n1 2 ltac:(lia)). assert (H2 := Nat.div_mod n2 2 ltac:(lia)). assert (H3 := Nat.div_mod (n1 - 1) 2 ltac:(lia)). assert (H4 := Nat.div_mod (n2 - 1) 2 ltac:(lia)). assert (H5 := Nat.div_mod (n1 + n2) 2 ltac:(lia)). assert (H6 := Nat.div_mod (n1 + n2 - 1) 2 ltac:(lia)).
  assert (M1 := Nat.mod_upper_bound n1 2 ltac:(lia)). assert (M2 := Nat.mod_upper_bound n2 2 ltac:(lia)). assert (M3 := Nat.mod_upper_bound (n1 - 1) 2 ltac:(lia)). assert (M4 := Nat.mod_upper_bound (n2 - 1) 2 ltac:(lia)). assert (M5 := Nat.mod_upper_bound (n1 + n2) 2 ltac:(lia)). assert (M6 := Nat.mod_upper_bound (n1 + n2 - 1) 2 ltac:(lia)). lia.
Qed.
Lemma median_between_aux l l1 l2 m m1 m2 : l1 <> [] -> l2 <> [] -> Permutation l (l1 ++ l2) -> np_median l = Some m -> np_median l1 = Some m1 -> np_median l2 = Some m2 -> m <= Rmax m1 m2 /\ Rmin m1 m2 <= m.
Proof.
  intros N1 N2 P M M1 M2. destruct (median_inv _ _ M) as (a & b & A & B & AB & ->). destruct (median_inv _ _ M1) as (a1 & b1 & A1 & B1 & AB1 & ->). destruct (median_inv _ _ M2) as (a2 & b2 & A2 & B2 & AB2 & ->).
  assert (L := Permutation_length P). rewrite app_length in L. rewrite L in A, B.
  assert (P1 : (0 < length l1)%nat) by (destruct l1; [congruence|cbn; lia]). assert (P2 : (0 < length l2)%nat) by (destruct l2; [congruence|cbn; lia]).
  destruct (halves _ _ P1 P2) as (H1 & H2 & H3 & H4). destruct (halves _ _ P2 P1) as (G1 & G2 & G3 & G4). rewrite (Nat.add_comm (length l2)) in G1, G2, G3, G4.
  assert (CL : forall y, count (fun z => Rleb z y) l = (count (fun z => Rleb z y) l1 + count (fun z => Rleb z y) l2)%nat) by (intro y; rewrite (count_perm _ _ _ P), count_app; reflexivity).
  assert (CT : forall y, count (fun z => Rltb z y) l = (count (fun z => Rltb z y) l1 + count (fun z => Rltb z y) l2)%nat) by (intro y; rewrite (count_perm _ _ _ P), count_app; reflexivity).
  assert (UP : forall y, a1 <= y -> b1 <= y -> a2 <= y -> b <= y).
  { intros y Y1 Y2 Y3. apply (kth_at_most _ _ _ _ B). rewrite CL. assert (T1 := kth_le _ _ _ B1). assert (T2 := kth_le _ _ _ A2). assert (T3 := count_le_mono l1 b1 y Y2). assert (T4 := count_le_mono l2 a2 y Y3). lia. }
  assert (UP' : forall y, b2 <= y -> a1 <= y -> b <= y).
  { intros y Y1 Y2. apply (kth_at_most _ _ _ _ B). rewrite CL. assert (T1 := kth_le _ _ _ B2). assert (T2 := kth_le _ _ _ A1). assert (T3 := count_le_mono l2 b2 y Y1). assert (T4 := count_le_mono l1 a1 y Y2). lia. }
  assert (LO : forall y, a1 <= y -> a2 <= y -> a <= y).
  { intros y Y1 Y2. apply (kth_at_most _ _ _ _ A). rewrite CL. assert (T1 := kth_le _ _ _ A1). assert (T2 := kth_le _ _ _ A2). assert (T3 := count_le_mono l1 a1 y Y1). assert (T4 := count_le_mono l2 a2 y Y2). lia. }
  assert (UG : forall y, y <= b1 -> y <= b2 -> y <= b).
  { intros y Y1 Y2. apply (kth_at_least _ _ _ _ B). rewrite CT. assert (T1 := kth_lt _ _ _ B1). assert (T2 := kth_lt _ _ _ B2). assert (T3 := count_lt_mono l1 y b1 Y1). assert (T4 := count_lt_mono l2 y b2 Y2). lia. }
  assert (LG : forall y, y <= a1 -> y <= b2 -> y <= a).
  { intros y Y1 Y2. apply (kth_at_least _ _ _ _ A). rewrite CT. assert (T1 := kth_lt _ _ _ A1). assert (T2 := kth_lt _ _ _ B2). assert (T3 := count_lt_mono l1 y a1 Y1). assert (T4 := count_lt_mono l2 y b2 Y2). lia. }
  assert (LG' : forall y, y <= a2 -> y <= b1 -> y <= a).
  { intros y Y1 Y2. apply (kth_at_least _ _ _ _ A). rewrite CT. assert (T1 := kth_lt _ _ _ A2). assert (T2 := kth_lt _ _ _ B1). assert (T3 := count_lt_mono l2 y a2 Y1). assert (T4 := count_lt_mono l1 y b1 Y2). lia. }
  split.
  - destruct (Rle_lt_dec a1 a2) as [D|D].
    + assert (X := LO a2 D (Rle_refl _)). assert (Y := UP' b2 (Rle_refl _) ltac:(lra)). assert (Z := Rmax_r ((a1 + b1) / 2) ((a2 + b2) / 2)). lra.
    + assert (X := LO a1 (Rle_refl _) ltac:(lra)). assert (Y := UP b1 AB1 (Rle_refl _) ltac:(lra)). assert (Z := Rmax_l ((a1 + b1) / 2) ((a2 + b2) / 2)). lra.
  - destruct (Rle_lt_dec b1 b2) as [D|D].
    + assert (X := UG b1 (Rle_refl _) D). assert (Y := LG a1 (Rle_refl _) ltac:(lra)). assert (Z := Rmin_l ((a1 + b1) / 2) ((a2 + b2) / 2)). lra.
    + assert (X := UG b2 ltac:(lra) (Rle_refl _)). assert (Y := LG' a2 (Rle_refl _) ltac:(lra)). assert (Z := Rmin_r ((a1 + b1) / 2) ((a2 + b2) / 2)). lra.
Qed.

Lemma np_sum_perm l m : Permutation l m -> np_sum l = np_sum m.
Proof. unfold np_sum. induction 1; cbn; try lra; congruence. Qed.
Lemma np_sum_app l m : np_sum (l ++ m) = np_sum l + np_sum m.
Proof. unfold np_sum. induction l as [|a l IH]; cbn; [ring|]. rewrite IH. ring. Qed.
Lemma squares_about l c : np_sum (map (fun x => (x - c) * (x - c)) l) = np_sum (map (fun x => x * x) l) - 2 * c * np_sum l + INR (length l) * (c * c).
Proof. unfold np_sum. induction l as [|a l IH]; [cbn; ring|]. cbn [map fold_right length]. rewrite IH, S_INR. ring. Qed.
Lemma squares_nonneg l : 0 <= np_sum (map (fun x => x * x) l).
Proof. unfold np_sum. induction l as [|a l IH]; cbn; [lra|]. assert (X := Rle_0_sqr a). unfold Rsqr in X. lra. Qed.
Lemma squares_nonneg_about l c : 0 <= np_sum (map (fun x => (x - c) * (x - c)) l).
Proof. unfold np_sum. induction l as [|a l IH]; cbn; [lra|]. assert (X := Rle_0_sqr (a - c)). unfold Rsqr in X. lra. Qed.
Lemma length_pos {A} (l : list A) : l <> [] -> 0 < INR (length l).
Proof. intro N. apply lt_0_INR. destruct l; [congruence|cbn; lia]. Qed.
Lemma mean_sum l m : np_mean l = Some m -> l <> [] /\ np_sum l = INR (length l) * m.
Proof. intro H. assert (N : l <> []) by (intros ->; discriminate). split; [exact N|]. assert (P := length_pos l N). rewrite np_mean_some in H by exact N. assert (E : m = np_sum l / INR (length l)) by congruence. rewrite E. field. lra. Qed.
Lemma rms_sum l q : rms l = Some q -> np_sum (map (fun x => x * x) l) = INR (length l) * q ^ 2.
Proof.
  unfold rms. destruct (np_mean (map (fun x => x * x) l)) as [m|] eqn:M; [|discriminate]. intro H. injection H as <-. apply mean_sum in M as [N M]. rewrite map_length in M.
  assert (N' : l <> []) by (intros ->; apply N; reflexivity). assert (P := length_pos l N'). assert (S := squares_nonneg l). rewrite M in S. rewrite pow2_sqrt; [exact M|]. apply Rmult_le_reg_l with (INR (length l)); [exact P|lra].
Qed.
Lemma std_sum l m s : np_mean l = Some m -> np_std l = Some s -> np_sum (map (fun x => (x - m) * (x - m)) l) = INR (length l) * s ^ 2.
Proof.
  intros M H. unfold np_std in H. rewrite M in H. destruct (np_mean (map (fun x => (x - m) * (x - m)) l)) as [v|] eqn:V; [|discriminate]. injection H as <-. apply mean_sum in V as [N V]. rewrite map_length in V. apply mean_sum in M as [N' _]. assert (P := length_pos l N').
  assert (S := squares_nonneg_about l m). rewrite V in S. rewrite pow2_sqrt; [exact V|]. apply Rmult_le_reg_l with (INR (length l)); [exact P|lra].
Qed.

(** * C169 *)
(** The poses of a compared pair of trajectories are divided into two parts: by a mask and by its complement.  Mean and mean square are those of the
    parts, weighted with the numbers of poses; the extremes are the extremes of the parts; the median lies between the medians of the parts; the
    share within a limit is the weighted share; and the squared standard deviation grows by the difference of the means. *)
Theorem C169_sections : forall (Q : Type) (ops : rot_ops Q) (test ref test1 ref1 test2 ref2 : traj Q) b, consistent test -> consistent ref -> tlen test = tlen ref ->
  apply_index test (IMask b) = Ok test1 -> apply_index ref (IMask b) = Ok ref1 -> apply_index test (IMask (map negb b)) = Ok test2 -> apply_index ref (IMask (map negb b)) = Ok ref2 ->
  tlen ref1 <> 0%nat -> tlen ref2 <> 0%nat ->
  exists r r1 r2, compare_absolute ops test ref = Ok r /\ compare_absolute ops test1 ref1 = Ok r1 /\ compare_absolute ops test2 ref2 = Ok r2 /\
  exists lo lo1 lo2 hi hi1 hi2 mean mean1 mean2 med med1 med2 q q1 q2 s s1 s2,
    (pos_dev_min r = Ok lo /\ pos_dev_min r1 = Ok lo1 /\ pos_dev_min r2 = Ok lo2 /\ lo = Rmin lo1 lo2) /\
    (pos_dev_max r = Ok hi /\ pos_dev_max r1 = Ok hi1 /\ pos_dev_max r2 = Ok hi2 /\ hi = Rmax hi1 hi2) /\
    (pos_ate r = Some mean /\ pos_ate r1 = Some mean1 /\ pos_ate r2 = Some mean2 /\ INR (tlen ref) * mean = INR (tlen ref1) * mean1 + INR (tlen ref2) * mean2) /\
    (pos_dev_median r = Some med /\ pos_dev_median r1 = Some med1 /\ pos_dev_median r2 = Some med2 /\ Rmin med1 med2 <= med <= Rmax med1 med2) /\
    (pos_dev_rms r = Some q /\ pos_dev_rms r1 = Some q1 /\ pos_dev_rms r2 = Some q2 /\ INR (tlen ref) * q ^ 2 = INR (tlen ref1) * q1 ^ 2 + INR (tlen ref2) * q2 ^ 2) /\
    (pos_dev_std r = Some s /\ pos_dev_std r1 = Some s1 /\ pos_dev_std r2 = Some s2 /\
     INR (tlen ref) * s ^ 2 = INR (tlen ref1) * s1 ^ 2 + INR (tlen ref2) * s2 ^ 2 + INR (tlen ref1) * INR (tlen ref2) / INR (tlen ref) * (mean1 - mean2) ^ 2) /\
    forall x, INR (tlen ref) * fraction_upto (pos_dev_comb r) x = INR (tlen ref1) * fraction_upto (pos_dev_comb r1) x + INR (tlen ref2) * fraction_upto (pos_dev_comb r2) x.
Proof.
  intros Q ops test ref test1 ref1 test2 ref2 b Ct Cr L T1 R1 T2 R2 N1 N2.
  destruct (C138_selected Q ops test ref test1 ref1 _ Ct Cr L T1 R1) as (r & r1 & E & E1 & D1 & _). destruct (C138_selected Q ops test ref test2 ref2 _ Ct Cr L T2 R2) as (r' & r2 & E' & E2 & D2 & _). rewrite E in E'. injection E' as <-.
  assert (LR : length (pos_dev r) = tlen ref) by (destruct (compare_absolute_ok ops test ref Ct Cr L) as (x & X & _ & _ & LP & _); rewrite E in X; injection X as <-; exact LP).
  assert (SZ : forall (u v : traj Q) ix k, apply_index test ix = Ok u -> apply_index ref ix = Ok v -> compare_absolute ops u v = Ok k -> length (pos_dev k) = tlen v).
  { intros u v ix k U V K. destruct (apply_index_ok test ix u Ct U) as (Cu & _ & Pu). destruct (apply_index_ok ref ix v Cr V) as (Cv & _ & Pv).
    assert (LL : tlen u = tlen v) by (destruct (index_parts _ _ _ U) as [XU _]; destruct (index_parts _ _ _ V) as [XV _]; unfold tlen; exact (np_index_length _ _ _ _ _ L XU XV)).
    destruct (compare_absolute_ok ops u v Cu Cv LL) as (x & X & _ & _ & LP & _). rewrite K in X. injection X as <-. exact LP. }
  assert (LR1 := SZ _ _ _ _ T1 R1 E1). assert (LR2 := SZ _ _ _ _ T2 R2 E2).
  assert (NV1 : pos_dev r1 <> []) by (intro Z; rewrite Z in LR1; cbn in LR1; congruence). assert (NV2 : pos_dev r2 <> []) by (intro Z; rewrite Z in LR2; cbn in LR2; congruence).
  assert (PV := mask_parts _ _ _ _ D1 D2 NV1). apply (Permutation_map vnorm) in PV. rewrite map_app in PV. fold (pos_dev_comb r) (pos_dev_comb r1) (pos_dev_comb r2) in PV.
  assert (Nl1 : pos_dev_comb r1 <> []) by (intro Z; apply NV1; unfold pos_dev_comb in Z; apply map_eq_nil in Z; exact Z). assert (Nl2 : pos_dev_comb r2 <> []) by (intro Z; apply NV2; unfold pos_dev_comb in Z; apply map_eq_nil in Z; exact Z).
  exists r, r1, r2. split; [exact E|]. split; [exact E1|]. split; [exact E2|].
  assert (Ll : length (pos_dev_comb r) = tlen ref) by (unfold pos_dev_comb; rewrite map_length; exact LR). assert (Ll1 : length (pos_dev_comb r1) = tlen ref1) by (unfold pos_dev_comb; rewrite map_length; exact LR1). assert (Ll2 : length (pos_dev_comb r2) = tlen ref2) by (unfold pos_dev_comb; rewrite map_length; exact LR2).
  unfold pos_dev_min, pos_dev_max, pos_ate, pos_dev_median, pos_dev_rms, pos_dev_std. rewrite <- Ll, <- Ll1, <- Ll2. revert PV Nl1 Nl2. generalize (pos_dev_comb r) (pos_dev_comb r1) (pos_dev_comb r2). clear. intros l l1 l2 P N1 N2.
  assert (N : l <> []) by (intros ->; apply Permutation_nil, app_eq_nil in P as [P _]; contradiction).
  destruct (np_min_spec l N) as (lo & MI & [I1 I2]). destruct (np_min_spec l1 N1) as (lo1 & MI1 & [J1 J2]). destruct (np_min_spec l2 N2) as (lo2 & MI2 & [K1 K2]).
  destruct (np_max_spec l N) as (hi & MA & [A1 A2]). destruct (np_max_spec l1 N1) as (hi1 & MA1 & [B1 B2]). destruct (np_max_spec l2 N2) as (hi2 & MA2 & [C1 C2]).
  destruct (median_spec l N) as (med & ME & _). destruct (median_spec l1 N1) as (med1 & ME1 & _). destruct (median_spec l2 N2) as (med2 & ME2 & _).
  assert (SN : forall k : list R, k <> [] -> exists m q s, np_mean k = Some m /\ rms k = Some q /\ np_std k = Some s).
  { intros [|a k] NK; [congruence|]. eexists. eexists. eexists. split; [reflexivity|]. split; reflexivity. }
  destruct (SN l N) as (m & q & s & M & RQ & S). destruct (SN l1 N1) as (m1 & q1 & s1 & M1 & RQ1 & S1). destruct (SN l2 N2) as (m2 & q2 & s2 & M2 & RQ2 & S2).
  exists lo, lo1, lo2, hi, hi1, hi2, m, m1, m2, med, med1, med2, q, q1, q2, s, s1, s2.
  assert (IN : forall x, In x l <-> In x l1 \/ In x l2) by (intro x; rewrite <- in_app_iff; split; apply Permutation_in; [exact P|apply Permutation_sym, P]).
  assert (LEN : INR (length l) = INR (length l1) + INR (length l2)) by (rewrite (Permutation_length P), app_length, plus_INR; reflexivity).
  assert (Q1 := length_pos l1 N1). assert (Q2 := length_pos l2 N2).
  destruct (mean_sum _ _ M) as [_ SM]. destruct (mean_sum _ _ M1) as [_ SM1]. destruct (mean_sum _ _ M2) as [_ SM2].
  assert (SUM : np_sum l = np_sum l1 + np_sum l2) by (rewrite (np_sum_perm _ _ P); apply np_sum_app).
  assert (SQ : np_sum (map (fun x => x * x) l) = np_sum (map (fun x => x * x) l1) + np_sum (map (fun x => x * x) l2)) by (rewrite (np_sum_perm _ _ (Permutation_map (fun x => x * x) P)), map_app; apply np_sum_app).
  assert (MM : INR (length l) * m = INR (length l1) * m1 + INR (length l2) * m2) by lra.
  split; [|split; [|split; [|split; [|split; [|split]]]]].
  - repeat (split; [assumption|]). apply Rle_antisym.
    + apply Rmin_glb; apply I2, IN; [left|right]; assumption.
    + apply IN in I1 as [I1|I1]; [eapply Rle_trans; [apply Rmin_l|apply J2, I1]|eapply Rle_trans; [apply Rmin_r|apply K2, I1]].
  - repeat (split; [assumption|]). apply Rle_antisym.
    + apply IN in A1 as [A1|A1]; [eapply Rle_trans; [apply B2, A1|apply Rmax_l]|eapply Rle_trans; [apply C2, A1|apply Rmax_r]].
    + apply Rmax_lub; apply A2, IN; [left|right]; assumption.
  - repeat (split; [assumption|]). exact MM.
  - repeat (split; [assumption|]). destruct (median_between_aux l l1 l2 med med1 med2 N1 N2 P ME ME1 ME2). split; assumption.
  - repeat (split; [assumption|]). rewrite <- (rms_sum _ _ RQ), <- (rms_sum _ _ RQ1), <- (rms_sum _ _ RQ2). exact SQ.
  - repeat (split; [assumption|]). rewrite <- (std_sum _ _ _ M S), <- (std_sum _ _ _ M1 S1), <- (std_sum _ _ _ M2 S2), !squares_about, SQ, SM, SM1, SM2, LEN. rewrite LEN in MM.
    assert (EM : m = (INR (length l1) * m1 + INR (length l2) * m2) / (INR (length l1) + INR (length l2))) by (rewrite <- MM; field; lra). rewrite EM. field. lra.
  - intro x. unfold fraction_upto. rewrite (count_perm _ _ _ P), count_app, plus_INR. assert (INR (length l) <> 0) by lra. field. lra.
Qed.
Print Assumptions C169_sections.

(** Three poses with the errors 1, 0 and 2: the first two are one part, the last the other. *)
Definition row3t (a b c : R) : traj nat := mkTraj [0; 1; 2] [mkV3 a 0 0; mkV3 b 0 0; mkV3 c 0 0] None [0; 1; 2] [vzero; vzero; vzero] SortTime "row" 0.
Example C169_case : let test := row3t 1 1 4 in let ref := row3t 0 1 2 in let b := [true; true; false] in
  consistent test /\ consistent ref /\ tlen test = tlen ref /\
  exists test1 ref1 test2 ref2, apply_index test (IMask b) = Ok test1 /\ apply_index ref (IMask b) = Ok ref1 /\ apply_index test (IMask (map negb b)) = Ok test2 /\ apply_index ref (IMask (map negb b)) = Ok ref2 /\
    tlen ref1 = 2%nat /\ tlen ref2 = 1%nat.
Proof.
  cbv zeta. split; [repeat split|]. split; [repeat split|]. split; [reflexivity|]. do 4 eexists. split; [reflexivity|]. split; [reflexivity|]. split; [reflexivity|]. split; [reflexivity|]. split; reflexivity.
Qed.
