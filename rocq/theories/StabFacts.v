(** Proofs about small changes of positions. *)
From Verif Require Import Base BaseFacts VecFacts NumpyModel NumpyFacts TrajModel TrajSpec TrajFacts TrajFacts2 TrajFacts3 EvalModel EvalSpec EvalStats StabSpec.

(** ** Statistics *)
Lemma within_nonempty e l m : within e l m -> l <> [] -> m <> [].
Proof. intros [|] N; [contradiction|discriminate]. Qed.
Lemma within_sym e l m : within e l m -> within e m l.
Proof. induction 1; constructor; [rewrite Rabs_minus_sym; assumption|assumption]. Qed.
Lemma within_length e l m : within e l m -> length l = length m.
Proof. induction 1; cbn; congruence. Qed.
Lemma within_left e l m x : within e l m -> In x l -> exists y, In y m /\ Rabs (x - y) <= e.
Proof.
  induction 1 as [|a b l m H F IH]; intros [].
  - subst. exists b. split; [left; reflexivity|exact H].
  - destruct IH as (y & I & D); [assumption|]. exists y. split; [right; exact I|exact D].
Qed.

Lemma within_sum e l m : within e l m -> Rabs (np_sum l - np_sum m) <= INR (length l) * e.
Proof.
  induction 1 as [|a b l m H F IH]; [cbn; rewrite Rminus_0_r, Rabs_R0; lra|]. cbn [length]. rewrite !np_sum_cons, S_INR.
  replace (a + np_sum l - (b + np_sum m)) with ((a - b) + (np_sum l - np_sum m)) by ring. eapply Rle_trans; [apply Rabs_triang|]. lra.
Qed.
Lemma within_mean e l m x y : within e l m -> np_mean l = Some x -> np_mean m = Some y -> Rabs (x - y) <= e.
Proof.
  intros W X Y. assert (N : l <> []) by (intros ->; discriminate). assert (P := len_pos l N). assert (S := within_sum e l m W).
  rewrite (np_mean_some l N) in X. rewrite (np_mean_some m (within_nonempty e l m W N)), <- (within_length e l m W) in Y. injection X as <-. injection Y as <-.
  replace (np_sum l / INR (length l) - np_sum m / INR (length l)) with ((np_sum l - np_sum m) * / INR (length l)) by (field; lra).
  rewrite Rabs_mult, (Rabs_pos_eq (/ _)) by (apply Rlt_le, Rinv_0_lt_compat; exact P).
  apply (Rmult_le_reg_r (INR (length l))); [exact P|]. rewrite Rmult_assoc, Rinv_l by lra. lra.
Qed.

Lemma within_max e l m x y : within e l m -> np_max l = Ok x -> np_max m = Ok y -> Rabs (x - y) <= e.
Proof.
  intros W X Y. assert (N : l <> []) by (intros ->; discriminate).
  destruct (np_max_spec l N) as (x' & X' & [I G]). rewrite X in X'. injection X' as <-.
  destruct (np_max_spec m (within_nonempty e l m W N)) as (y' & Y' & [J K]). rewrite Y in Y'. injection Y' as <-.
  destruct (within_left e l m x W I) as (b & B & D). destruct (within_left e m l y (within_sym e l m W) J) as (a & A & D2).
  specialize (K b B). specialize (G a A). unfold Rabs in *. repeat destruct (Rcase_abs _); lra.
Qed.
Lemma within_min e l m x y : within e l m -> np_min l = Ok x -> np_min m = Ok y -> Rabs (x - y) <= e.
Proof.
  intros W X Y. assert (N : l <> []) by (intros ->; discriminate).
  destruct (np_min_spec l N) as (x' & X' & [I G]). rewrite X in X'. injection X' as <-.
  destruct (np_min_spec m (within_nonempty e l m W N)) as (y' & Y' & [J K]). rewrite Y in Y'. injection Y' as <-.
  destruct (within_left e l m x W I) as (b & B & D). destruct (within_left e m l y (within_sym e l m W) J) as (a & A & D2).
  specialize (K b B). specialize (G a A). unfold Rabs in *. repeat destruct (Rcase_abs _); lra.
Qed.

(** Sorted values differ no more than the values. *)
Lemma count_within e l m x : within e l m -> (count (fun y => Rleb y x) l <= count (fun y => Rleb y (x + e)) m)%nat.
Proof.
  induction 1 as [|a b l m H F IH]; [cbn; lia|]. unfold count in *. cbn [filter]. destruct (Rleb_spec a x) as [A|A].
  - destruct (Rleb_spec b (x + e)) as [B|B]; [cbn; lia|]. exfalso. unfold Rabs in H. destruct (Rcase_abs _); lra.
  - destruct (Rleb b (x + e)); cbn; lia.
Qed.
Lemma count_below s k x : StronglySorted Rle s -> nth_error s k = Some x -> forall y, y < x -> (count (fun z => Rleb z y) s <= k)%nat.
Proof.
  intros S. revert k x. induction S as [|a l S IH F]; intros k x E y L; [destruct k; discriminate|]. unfold count in *. cbn [filter].
  destruct k as [|k]; cbn in E.
  - injection E as ->. destruct (Rleb_spec x y) as [|_]; [lra|]. rewrite filter_none; [cbn; lia|].
    intros z I. rewrite Forall_forall in F. specialize (F z I). destruct (Rleb_spec z y); [lra|reflexivity].
  - specialize (IH k x E y L). destruct (Rleb a y); cbn; lia.
Qed.
Lemma sort_one_side e l m k x y : within e l m -> nth_error (np_sort l) k = Some x -> nth_error (np_sort m) k = Some y -> y <= x + e.
Proof.
  intros W X Y. destruct (Rle_lt_dec y (x + e)) as [|L]; [assumption|]. exfalso.
  assert (A : (k + 1 <= count (fun z => Rleb z x) (np_sort l))%nat).
  { apply count_prefix_ge; [apply nth_error_Some_lt in X; lia|]. intros i z I Z. apply Rleb_true.
    destruct (Nat.eq_dec i k) as [->|NE]; [replace z with x by congruence; lra|]. apply (proj1 (StronglySorted_nth Rle (np_sort l)) (np_sort_sorted l) i k); [lia|exact Z|exact X]. }
  rewrite (count_perm _ _ _ (np_sort_perm l)) in A. assert (B := count_within e l m x W).
  rewrite <- (count_perm _ _ _ (np_sort_perm m)) in B. assert (D := count_below (np_sort m) k y (np_sort_sorted m) Y (x + e) L). lia.
Qed.
Lemma within_sort e l m : within e l m -> within e (np_sort l) (np_sort m).
Proof.
  intro W. assert (L : length (np_sort l) = length (np_sort m)) by (rewrite !np_sort_length; apply (within_length e), W).
  assert (H : forall i a b, nth_error (np_sort l) i = Some a -> nth_error (np_sort m) i = Some b -> Rabs (a - b) <= e).
  { intros i a b A B. assert (P := sort_one_side e l m i a b W A B). assert (P2 := sort_one_side e m l i b a (within_sym e l m W) B A).
    unfold Rabs. destruct (Rcase_abs _); lra. }
  revert L H. generalize (np_sort l) (np_sort m). induction l0 as [|a l0 IH]; intros [|b m0] L H; try discriminate L; constructor.
  - exact (H 0%nat a b eq_refl eq_refl).
  - apply IH; [injection L as L; exact L|]. intros i. exact (H (S i)).
Qed.
Lemma within_nth e l m i a b : within e l m -> nth_error l i = Some a -> nth_error m i = Some b -> Rabs (a - b) <= e.
Proof.
  intro W. revert i. induction W as [|x y l m H F IH]; intros i A B; [destruct i; discriminate|]. destruct i as [|i]; cbn in A, B.
  - injection A as ->. injection B as ->. exact H.
  - exact (IH i A B).
Qed.
Lemma within_median e l m x y : within e l m -> np_median l = Some x -> np_median m = Some y -> Rabs (x - y) <= e.
Proof.
  unfold np_median. intros W X Y. rewrite <- (within_length e l m W) in Y. assert (S := within_sort e l m W).
  destruct (nth_error (np_sort l) ((length l - 1) / 2)) as [a|] eqn:A, (nth_error (np_sort l) (length l / 2)) as [b|] eqn:B; try discriminate X.
  destruct (nth_error (np_sort m) ((length l - 1) / 2)) as [c|] eqn:C, (nth_error (np_sort m) (length l / 2)) as [d|] eqn:D; try discriminate Y.
  injection X as <-. injection Y as <-. assert (P := within_nth _ _ _ _ _ _ S A C). assert (P2 := within_nth _ _ _ _ _ _ S B D).
  unfold Rabs in *. repeat destruct (Rcase_abs _); lra.
Qed.

Lemma sum_abs_sq e l m : within e l m -> 0 <= e ->
  np_sum (map (fun x => x * x) m) <= np_sum (map (fun x => x * x) l) + 2 * e * np_sum (map Rabs l) + INR (length l) * (e * e).
Proof.
  intros W E. induction W as [|a b l m H F IH]; [cbn; lra|]. cbn [map length]. rewrite !np_sum_cons, S_INR.
  assert (B : Rabs b <= Rabs a + e). { replace b with (a + (b - a)) by ring. eapply Rle_trans; [apply Rabs_triang|]. rewrite (Rabs_minus_sym b a). lra. }
  assert (S : b * b <= (Rabs a + e) * (Rabs a + e)).
  { rewrite <- (Rabs_pos_eq (b * b)) by apply Rle_0_sqr. rewrite Rabs_mult. apply Rmult_le_compat; auto using Rabs_pos. }
  assert (A2 : Rabs a * Rabs a = a * a) by (rewrite <- Rabs_mult; apply Rabs_pos_eq, Rle_0_sqr). lra.
Qed.
Lemma mean_abs_rms l q : l <> [] -> rms l = Some q -> 0 <= q /\ np_sum (map Rabs l) <= INR (length l) * q.
Proof.
  intros N Q. assert (N2 := map_nonempty Rabs l N). destruct (std_some _ N2) as (m & s & q' & M & _ & RQ & S0 & Q0 & E).
  assert (SQ : map (fun x => x * x) (map Rabs l) = map (fun x => x * x) l).
  { rewrite map_map. apply map_ext. intro a. rewrite <- Rabs_mult. apply Rabs_pos_eq, Rle_0_sqr. }
  assert (q' = q) as -> by (unfold rms in RQ, Q; rewrite SQ in RQ; congruence). split; [exact Q0|].
  assert (MQ : m <= q) by (apply Rle_sq; [exact Q0|]; assert (A := Rle_0_sqr s); unfold Rsqr in A; lra).
  rewrite (np_mean_some _ N2), map_length in M. injection M as <-. assert (P := len_pos l N).
  apply (Rmult_le_compat_l (INR (length l))) in MQ; [|lra]. unfold Rdiv in MQ. rewrite (Rmult_comm (np_sum _)), <- Rmult_assoc, Rinv_r in MQ by lra. lra.
Qed.
Lemma rms_one_side e l m q r : 0 <= e -> within e l m -> rms l = Some q -> rms m = Some r -> r <= q + e.
Proof.
  intros E W Q RR. assert (N : l <> []) by (intros ->; discriminate). assert (P := len_pos l N). destruct (mean_abs_rms l q N Q) as [Q0 A].
  destruct (rms_some l N) as (q2 & _ & Q2 & P2 & D2). rewrite Q in Q2. injection Q2 as ->.
  destruct (rms_some m (within_nonempty e l m W N)) as (r2 & _ & R2 & P3 & D3). rewrite RR in R2. injection R2 as ->.
  assert (S := sum_abs_sq e l m W E). rewrite <- (within_length e l m W) in D3.
  apply Rle_sq; [lra|]. rewrite sqrt_sqrt by exact P3. replace ((sqrt q2 + e) * (sqrt q2 + e)) with (sqrt q2 * sqrt q2 + 2 * e * sqrt q2 + e * e) by ring.
  rewrite sqrt_sqrt by exact P2. apply (Rmult_le_reg_l (INR (length l))); [exact P|].
  assert (E2 : INR (length l) * q2 = np_sum (map (fun x => x * x) l)) by (rewrite D2; field; lra).
  assert (E3 : INR (length l) * r2 = np_sum (map (fun x => x * x) m)) by (rewrite D3; field; lra).
  assert (E4 : 2 * e * np_sum (map Rabs l) <= 2 * e * (INR (length l) * sqrt q2)) by (apply Rmult_le_compat_l; lra). lra.
Qed.
Lemma within_rms e l m q r : 0 <= e -> within e l m -> rms l = Some q -> rms m = Some r -> Rabs (q - r) <= e.
Proof.
  intros E W Q RR. assert (A := rms_one_side e l m q r E W Q RR). assert (B := rms_one_side e m l r q E (within_sym e l m W) RR Q).
  unfold Rabs. destruct (Rcase_abs _); lra.
Qed.

(** The standard deviation is the smallest root mean square about any centre. *)
Lemma std_about l c s q : np_std l = Some s -> rms (map (fun x => x - c) l) = Some q -> s <= q.
Proof.
  intros S Q. assert (N : l <> []) by (intros ->; discriminate). assert (P := len_pos l N). assert (M := np_mean_some l N). set (mm := np_sum l / INR (length l)) in *.
  unfold np_std in S. rewrite M in S. unfold rms in Q. rewrite map_map in Q.
  rewrite (np_mean_some _ (map_nonempty _ l N)) in S. rewrite (np_mean_some _ (map_nonempty _ l N)) in Q. rewrite map_length in S, Q. injection S as <-. injection Q as <-.
  apply sqrt_le_1_alt. apply Rmult_le_compat_r; [apply Rlt_le, Rinv_0_lt_compat, P|]. rewrite !sum_sq_shift.
  assert (E : np_sum l = INR (length l) * mm) by (unfold mm; field; lra). rewrite E.
  assert (K : 0 <= INR (length l) * ((c - mm) * (c - mm))) by (apply Rmult_le_pos; [lra|apply Rle_0_sqr]). lra.
Qed.
Lemma std_is_rms l mm s : np_mean l = Some mm -> np_std l = Some s -> rms (map (fun x => x - mm) l) = Some s.
Proof. intros M S. unfold np_std in S. rewrite M in S. unfold rms. rewrite map_map. exact S. Qed.
Lemma within_shift e l m c : within e l m -> within e (map (fun x => x - c) l) (map (fun x => x - c) m).
Proof. induction 1; cbn [map]; constructor; [|assumption]. replace (x - c - (y - c)) with (x - y) by ring. assumption. Qed.
Lemma std_one_side e l m s r : 0 <= e -> within e l m -> np_std l = Some s -> np_std m = Some r -> r <= s + e.
Proof.
  intros E W S RR. assert (N : l <> []) by (intros ->; discriminate). assert (M := np_mean_some l N).
  assert (Q := std_is_rms l _ s M S). set (mm := np_sum l / INR (length l)) in *.
  destruct (rms_some (map (fun x => x - mm) m) (map_nonempty _ m (within_nonempty e l m W N))) as (q & _ & Q2 & _).
  assert (A := std_about m mm r _ RR Q2). assert (B := rms_one_side e _ _ _ _ E (within_shift e l m mm W) Q Q2). lra.
Qed.
Lemma within_std e l m s r : 0 <= e -> within e l m -> np_std l = Some s -> np_std m = Some r -> Rabs (s - r) <= e.
Proof.
  intros E W S RR. assert (A := std_one_side e l m s r E W S RR). assert (B := std_one_side e m l r s E (within_sym e l m W) RR S).
  unfold Rabs. destruct (Rcase_abs _); lra.
Qed.
