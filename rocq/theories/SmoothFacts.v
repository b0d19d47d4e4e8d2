(** Proofs about the smoothing of deviations. *)
From Verif Require Import Base BaseFacts NumpyModel NumpyFacts TrajModel EvalModel GeomModel SmoothModel SmoothSpec.

Lemma sum_app a b : np_sum (a ++ b) = np_sum a + np_sum b.
Proof. unfold np_sum. induction a as [|x a IH]; cbn; [lra|]. rewrite IH. lra. Qed.

Lemma skipn_step {A} (l : list A) (n : nat) (d : A) : (n < length l)%nat -> skipn n l = nth n l d :: skipn (S n) l.
Proof. revert n. induction l as [|x l IH]; intros [|n] H; cbn in *; try lia; [reflexivity|]. apply IH. lia. Qed.

Lemma nth_firstn {A} (l : list A) (n m : nat) (d : A) : (n < m)%nat -> nth n (firstn m l) d = nth n l d.
Proof. revert n m. induction l as [|x l IH]; intros [|n] [|m] H; cbn; try lia; try reflexivity. apply IH. lia. Qed.

Lemma padded_sum a k w : np_sum (map (fun t => padded a (Z.of_nat k - Z.of_nat t)) (seq 0 w)) = np_sum (skipn (k + 1 - w) (firstn (k + 1) a)).
Proof.
  induction w as [|w IH].
  - rewrite skipn_all2; [reflexivity|]. rewrite firstn_length. lia.
  - rewrite seq_S, map_app, sum_app, IH. cbn [map np_sum fold_right plus]. unfold padded.
    destruct (0 <=? Z.of_nat k - Z.of_nat w)%Z eqn:E.
    + apply Z.leb_le in E. replace (Z.to_nat (Z.of_nat k - Z.of_nat w)) with (k - w)%nat by lia.
      destruct (Nat.lt_ge_cases (k - w) (length a)) as [L|L].
      * rewrite (skipn_step (firstn (k + 1) a) (k + 1 - S w) 0) by (rewrite firstn_length; lia).
        replace (S (k + 1 - S w)) with (k + 1 - w)%nat by lia. rewrite nth_firstn by lia.
        replace (k + 1 - S w)%nat with (k - w)%nat by lia. unfold np_sum. cbn [fold_right]. lra.
      * rewrite nth_overflow by lia. rewrite !skipn_all2 by (rewrite firstn_length; lia). cbn. lra.
    + apply Z.leb_gt in E. replace (k + 1 - S w)%nat with (k + 1 - w)%nat by lia. lra.
Qed.

Lemma sum_scaled {A} c (f : A -> R) l : np_sum (map (fun a => c * f a) l) = c * np_sum (map f l).
Proof. unfold np_sum. induction l as [|x l IH]; cbn; [lra|]. rewrite IH. lra. Qed.

Lemma nth_repeat_lt {A} (c d : A) w t : (t < w)%nat -> nth t (repeat c w) d = c.
Proof. revert t. induction w as [|w IH]; intros [|t] H; cbn; try lia; [reflexivity|]. apply IH. lia. Qed.

Lemma smoothed_spec data w : (0 < w <= length data)%nat ->
  exists s, convolve_same data (repeat (1 / INR w) w) = Ok s /\ length s = length data /\
    forall i, (i < length data)%nat -> nth_error s i = Some (np_sum (window w data i) / INR w).
Proof.
  intros H. unfold convolve_same. rewrite repeat_length.
  replace (length data <? w)%nat with false by (symmetry; apply Nat.ltb_ge; lia). rewrite repeat_length.
  replace (w =? 0)%nat with false by (symmetry; apply Nat.eqb_neq; lia).
  eexists. split; [reflexivity|]. split; [rewrite map_length, seq_length; reflexivity|].
  intros i Hi. erewrite map_nth_error.
  2:{ rewrite (nth_error_nth' _ 0%nat) by (rewrite seq_length; exact Hi). rewrite seq_nth by exact Hi. reflexivity. }
  f_equal. cbn [plus].
  rewrite (map_ext_in _ (fun t => 1 / INR w * padded data (Z.of_nat (i + (w - 1) / 2) - Z.of_nat t))).
  - rewrite sum_scaled, padded_sum. unfold window, Rdiv. lra.
  - intros t Ht. apply in_seq in Ht. rewrite nth_repeat_lt by lia. do 2 f_equal. lia.
Qed.

Lemma half_split w : (0 < w)%nat -> (w / 2 + (w - 1) / 2 + 1 = w)%nat.
Proof.
  intro H. pose proof (Nat.div_mod w 2 ltac:(lia)). pose proof (Nat.div_mod (w - 1) 2 ltac:(lia)).
  pose proof (Nat.mod_upper_bound w 2 ltac:(lia)). pose proof (Nat.mod_upper_bound (w - 1) 2 ltac:(lia)). lia.
Qed.

Lemma window_length w data i : (0 < w)%nat -> interior w (length data) i -> length (window w data i) = w.
Proof. intros H [A B]. unfold window. rewrite skipn_length, firstn_length. pose proof (half_split w H). lia. Qed.

Lemma row_eqb_true a : forall b, row_eqb a b = true <-> a = b.
Proof.
  induction a as [|x a IH]; intros [|y b]; cbn; split; intro H; try discriminate; try reflexivity.
  - apply Bool.andb_true_iff in H as [E F]. apply Reqb_true in E. apply IH in F. congruence.
  - injection H as -> ->. apply Bool.andb_true_iff. split; [apply Reqb_true; reflexivity|]. apply IH. reflexivity.
Qed.

Lemma first_rows_in rows i : In i (first_rows rows) <-> (i < length rows)%nat /\ forall j, (j < i)%nat -> nth j rows [] <> nth i rows [].
Proof.
  unfold first_rows. rewrite filter_In, in_seq, Bool.negb_true_iff. split.
  - intros [A B]. split; [lia|]. intros j Hj E. apply Bool.not_true_iff_false in B. apply B.
    apply existsb_exists. exists j. split; [apply in_seq; lia|]. apply row_eqb_true. exact E.
  - intros [A B]. split; [lia|]. apply Bool.not_true_iff_false. intro E. apply existsb_exists in E as [j [Hj E]].
    apply in_seq in Hj. apply row_eqb_true in E. apply (B j); [lia|exact E].
Qed.

Lemma first_rows_cover rows : forall i, (i < length rows)%nat -> exists k, In k (first_rows rows) /\ (k <= i)%nat /\ nth k rows [] = nth i rows [].
Proof.
  induction i as [i IH] using (well_founded_induction lt_wf). intro H.
  destruct (existsb (fun j => row_eqb (nth j rows []) (nth i rows [])) (seq 0 i)) eqn:E.
  - apply existsb_exists in E as [j [Hj E]]. apply in_seq in Hj. apply row_eqb_true in E.
    destruct (IH j ltac:(lia) ltac:(lia)) as [k [K [L M]]]. exists k. split; [exact K|]. split; [lia|]. congruence.
  - exists i. split; [|split; [lia|reflexivity]]. unfold first_rows. apply filter_In. split; [apply in_seq; lia|]. rewrite E. reflexivity.
Qed.

Lemma seq_lt n : forall k, StronglySorted lt (seq k n).
Proof. induction n as [|n IH]; intro k; cbn; constructor; [apply IH|]. apply Forall_forall. intros x Hx. apply in_seq in Hx. lia. Qed.

Lemma first_rows_sorted rows : StronglySorted lt (first_rows rows).
Proof. apply StronglySorted_filter, seq_lt. Qed.

Definition keyed (rint : R -> R) (res : R) (fo : list (list R)) (s : list R) : list (list R) :=
  map (fun p => fst p ++ [snd p]) (combine fo (map (fun x => rint (x / res) * res) s)).

Lemma keyed_length rint res fo s : length fo = length s -> length (keyed rint res fo s) = length s.
Proof. intro H. unfold keyed. rewrite map_length, combine_length, map_length. lia. Qed.

Lemma keyed_nth rint res fo s i f x : length fo = length s -> nth_error fo i = Some f -> nth_error s i = Some x ->
  nth i (keyed rint res fo s) [] = f ++ [rint (x / res) * res].
Proof.
  intros L F X. apply nth_error_nth. unfold keyed. revert s i L F X. induction fo as [|g fo IH]; intros [|y s] [|i] L F X; cbn in *; try discriminate.
  - congruence.
  - apply (IH s); [lia|assumption|assumption].
Qed.

Lemma round_spec rint fo data res w : length fo = length data -> (0 < w <= length data)%nat ->
  exists s f d, convolve_same data (repeat (1 / INR w) w) = Ok s /\ round_to_precision rint fo data res w = Ok (f, d) /\
    length s = length data /\ (forall i, (i < length data)%nat -> nth_error s i = Some (np_sum (window w data i) / INR w)) /\
    entries_at fo s (first_rows (keyed rint res fo s)) f d.
Proof.
  intros L W. destruct (smoothed_spec data w W) as [s [C [Ls Sp]]].
  assert (B : Forall (fun i => (i < length s)%nat) (first_rows (keyed rint res fo s))).
  { apply Forall_forall. intros i Hi. apply first_rows_in in Hi as [Hi _]. rewrite keyed_length in Hi by congruence. exact Hi. }
  destruct (np_take_nat s _ B) as [d [D Dn]].
  assert (B' : Forall (fun i => (i < length fo)%nat) (first_rows (keyed rint res fo s))) by (rewrite L, <- Ls; exact B).
  destruct (np_take_nat fo _ B') as [f [F Fn]].
  exists s, f, d. split; [exact C|]. split.
  - unfold round_to_precision. replace (w =? 0)%nat with false by (symmetry; apply Nat.eqb_neq; lia). rewrite C. cbn [bind].
    rewrite map_length, Ls, L, Nat.eqb_refl. fold (keyed rint res fo s). rewrite F. cbn [bind]. rewrite D. reflexivity.
  - split; [exact Ls|]. split; [exact Sp|]. intro p. split; [apply Fn|apply Dn].
Qed.

Lemma mapply_ext (a b : M3) : (forall y, mapply a y = mapply b y) -> a = b.
Proof.
  intro H. pose proof (H (mkV3 1 0 0)) as H1. pose proof (H (mkV3 0 1 0)) as H2. pose proof (H (mkV3 0 0 1)) as H3.
  destruct a as [[] [] []], b as [[] [] []]. unfold mapply, vdot in H1, H2, H3. cbn in H1, H2, H3.
  injection H1; injection H2; injection H3; intros. f_equal; f_equal; lra.
Qed.
