(** Facts about pairings with different limits. *)
From Verif Require Import Base BaseFacts NumpyModel TrajModel TrajSpec GeomModel MatchModel MatchSpec MatchFacts LawSpec LooseSpec.

Fixpoint position (l : list nat) (j : nat) : nat := match l with [] => 0 | a :: r => if (a =? j)%nat then 0 else S (position r j) end.
Lemma position_nth l j : In j l -> nth_error l (position l j) = Some j.
Proof. induction l as [|a l IH]; [intros []|]. intro H. cbn. destruct (Nat.eqb_spec a j) as [->|N]; [reflexivity|]. destruct H as [H|H]; [contradiction|]. apply IH, H. Qed.
Lemma sorted_inj l a b j : StronglySorted lt l -> nth_error l a = Some j -> nth_error l b = Some j -> a = b.
Proof.
  intros H A B. rewrite StronglySorted_nth in H. destruct (Nat.lt_trichotomy a b) as [L|[L|L]]; [|exact L|].
  - specialize (H a b _ _ L A B). lia.
  - specialize (H b a _ _ L B A). lia.
Qed.

Section Loose.
  Context {P : Type} (dist : P -> P -> R) (query : list P -> option R -> nat -> P -> list (option (nat * R))).
  Hypothesis KC : knn_contract dist query.
  Variables (ref test : list P).
  Hypothesis U : untied dist ref test.

  Lemma nearest_unique max max' p i j : In p test -> nearest dist ref max p i -> nearest dist ref max' p j -> i = j.
  Proof.
    intros Ip (r & R1 & R2 & _) (s & S1 & S2 & _). destruct (Nat.eq_dec i j) as [|N]; [assumption|]. exfalso. apply (U p i j r s Ip R1 S1 N).
    apply Rle_antisym; [apply R2, (nth_error_In _ _ S1)|apply S2, (nth_error_In _ _ R1)].
  Qed.
  Lemma nearest_reported max p j : 0 <= max -> In p test -> nearest dist ref max p j -> reported query ref max p j.
  Proof.
    intros HM Ip N. destruct (query1_single dist query KC ref max p HM) as (row & _ & E). destruct row as [[i d]|].
    - assert (Rp : reported query ref max p i) by (exists d; exact E). rewrite (nearest_unique max max p j i Ip N); [exact Rp|]. apply (reported_nearest dist query KC); assumption.
    - exfalso. destruct N as (r & R1 & _ & R3). destruct (not_reported dist query KC ref max p HM) with (r := r) as [Z L].
      + intros i [d D]. congruence.
      + apply (nth_error_In _ _ R1).
      + specialize (R3 Z). lra.
  Qed.
  Lemma nearest_looser max max' p j : looser max max' -> nearest dist ref max p j -> nearest dist ref max' p j.
  Proof. intros [->|[N L]] (r & R1 & R2 & R3); exists r; (split; [exact R1|]); (split; [exact R2|]); intro Z; [congruence|]. specialize (R3 N). lra. Qed.
  Lemma reported_looser max max' p j : 0 <= max -> 0 <= max' -> looser max max' -> In p test -> reported query ref max p j -> reported query ref max' p j.
  Proof. intros H1 H2 L Ip Rp. apply nearest_reported; [exact H2|exact Ip|]. apply (nearest_looser max max' p j L), (reported_nearest dist query KC); assumption. Qed.

  Lemma loosened_pairs max max' js is js' is' : 0 <= max -> 0 <= max' -> looser max max' ->
    pairing dist query ref test max js is -> pairing dist query ref test max' js' is' ->
    incl js js' /\
    (forall m m' j i i', nth_error js m = Some j -> nth_error is m = Some i -> nth_error js' m' = Some j -> nth_error is' m' = Some i' ->
       i' = i \/ exists r p, nth_error ref j = Some r /\ nth_error test i' = Some p /\ max <> 0 /\ max <= dist r p) /\
    (forall m' i j r p, nth_error js' m' = Some j -> nth_error is' m' = Some i -> nth_error ref j = Some r -> nth_error test i = Some p ->
       (max <> 0 -> dist r p < max) -> exists m, nth_error js m = Some j /\ nth_error is m = Some i).
  Proof.
    intros H1 H2 L (P1 & P2 & P3 & P4 & P5) (R1 & R2 & R3 & R4 & R5).
    assert (Near : forall i j r p, nth_error ref j = Some r -> nth_error test i = Some p -> reported query ref max' p j -> (max <> 0 -> dist r p < max) -> reported query ref max p j).
    { intros i j r p A B C D. apply nearest_reported; [exact H1|exact (nth_error_In _ _ B)|]. apply (reported_nearest dist query KC) in C; [|exact H2].
      destruct C as (s & S1 & S2 & _). rewrite A in S1. injection S1 as <-. exists r. auto. }
    split; [|split].
    - intros j Ij. apply In_nth_error in Ij as [m Hj]. destruct (nth_error_lt_Some is m) as [i Hi]; [rewrite <- P1; apply (nth_error_Some_lt _ _ _ Hj)|].
      destruct (P4 m i j Hi Hj) as (p & Hp & _ & Rp & _). assert (Ip := nth_error_In _ _ Hp). apply (R5 p j Ip), (reported_looser max max'); assumption.
    - intros m m' j i i' A B C D. destruct (P4 m i j B A) as (p & Hp & _ & Rp & Fp). destruct (R4 m' i' j D C) as (p' & Hp' & (r & Hr & _ & _) & Rp' & Fp').
      destruct (Nat.lt_trichotomy i' i) as [K|[K|K]]; [|left; exact K|].
      + right. exists r, p'. split; [exact Hr|]. split; [exact Hp'|]. destruct (Req_dec max 0) as [Z|Z].
        { exfalso. apply (Fp i' p' K Hp'). apply (Near i' j r p' Hr Hp' Rp'). intro; contradiction. }
        split; [exact Z|]. destruct (Rle_or_lt max (dist r p')) as [M|M]; [exact M|]. exfalso. apply (Fp i' p' K Hp'). apply (Near i' j r p' Hr Hp' Rp'). intro; exact M.
      + exfalso. apply (Fp' i p K Hp). apply (reported_looser max max'); try assumption. apply (nth_error_In _ _ Hp).
    - intros m' i j r p A B Hr Hp D. destruct (R4 m' i j B A) as (p' & Hp' & _ & Rp & Fp). rewrite Hp in Hp'. injection Hp' as <-.
      assert (Rm := Near i j r p Hr Hp Rp D). assert (Ij := P5 p j (nth_error_In _ _ Hp) Rm). apply In_nth_error in Ij as [m Hj]. exists m. split; [exact Hj|].
      destruct (nth_error_lt_Some is m) as [i0 Hi]; [rewrite <- P1; apply (nth_error_Some_lt _ _ _ Hj)|]. rewrite Hi. f_equal.
      destruct (P4 m i0 j Hi Hj) as (p0 & Hp0 & _ & Rp0 & Fp0). destruct (Nat.lt_trichotomy i0 i) as [K|[K|K]]; [|exact K|].
      + exfalso. apply (Fp i0 p0 K Hp0). apply (reported_looser max max'); try assumption. apply (nth_error_In _ _ Hp0).
      + exfalso. apply (Fp0 i p K Hp Rm).
  Qed.
End Loose.

Lemma loosened_trajs {Q P} (dist : P -> P -> R) query (proj : traj Q -> list P) (pp : pose Q -> P) max max' js is js' is' (test ref test1 ref1 test2 ref2 : traj Q) :
  knn_contract dist query -> untied dist (proj ref) (proj test) -> 0 <= max -> 0 <= max' -> looser max max' ->
  (forall (t : traj Q) i po, pose_at t i = Some po -> nth_error (proj t) i = Some (pp po)) ->
  pairing dist query (proj ref) (proj test) max js is -> selected test is test1 -> selected ref js ref1 ->
  pairing dist query (proj ref) (proj test) max' js' is' -> selected test is' test2 -> selected ref js' ref2 ->
  loosened (fun a b => dist (pp a) (pp b)) max test1 ref1 test2 ref2.
Proof.
  intros KC U H1 H2 L HP Pa (Ct1 & _ & L1 & S1) (Cr1 & _ & L2 & S2) Pb (Ct2 & _ & L3 & S3) (Cr2 & _ & L4 & S4).
  assert (LP := loosened_pairs dist query KC (proj ref) (proj test) U max max' js is js' is' H1 H2 L Pa Pb). destruct LP as (Inc & K1 & K2).
  destruct Pa as (P1 & P2 & P3 & P4 & P5). destruct Pb as (R1 & R2 & R3 & R4 & R5).
  pose (f := fun m => match nth_error js m with Some j => position js' j | None => 0%nat end).
  assert (F : forall m j, nth_error js m = Some j -> nth_error js' (f m) = Some j).
  { intros m j H. unfold f. rewrite H. apply position_nth, Inc, (nth_error_In _ _ H). }
  assert (At : forall (t : traj Q) idx t' m po, consistent t' -> tlen t' = length idx -> (forall m i, nth_error idx m = Some i -> pose_at t' m = pose_at t i /\ pose_at t i <> None) ->
    pose_at t' m = Some po -> exists i, nth_error idx m = Some i /\ pose_at t i = Some po).
  { intros t idx t' m po C Le H A. destruct (nth_error idx m) as [i|] eqn:E.
    - exists i. split; [reflexivity|]. destruct (H m i E) as [B _]. congruence.
    - exfalso. apply nth_error_None in E. unfold pose_at in A. destruct (nth_error (xyz t') m) eqn:X; [apply nth_error_Some_lt in X; unfold tlen in Le; lia|].
      destruct (nth_error (tstamps t') m); discriminate. }
  exists f. split; [|split].
  - intros a b [Hab Hb]. rewrite L2 in Hb. destruct (nth_error_lt_Some js a) as [x X]; [lia|]. destruct (nth_error_lt_Some js b) as [y Y]; [lia|].
    assert (Fx := F a x X). assert (Fy := F b y Y). split; [|rewrite L4; apply (nth_error_Some_lt _ _ _ Fy)].
    rewrite StronglySorted_nth in P3. assert (LT := P3 a b x y Hab X Y). rewrite StronglySorted_nth in R3.
    destruct (Nat.lt_trichotomy (f a) (f b)) as [K|[K|K]]; [exact K| |].
    + rewrite K in Fx. rewrite Fx in Fy. injection Fy as ->. lia.
    + specialize (R3 _ _ _ _ K Fy Fx). lia.
  - intros m r p A B. destruct (At ref js ref1 m r Cr1 L2 S2 A) as (j & J1 & J2). destruct (At test is test1 m p Ct1 L1 S1 B) as (i & I1 & I2).
    assert (Fj := F m j J1). split; [destruct (S4 _ _ Fj) as [E _]; congruence|].
    destruct (nth_error_lt_Some is' (f m)) as [i' I']; [rewrite <- R1; apply (nth_error_Some_lt _ _ _ Fj)|].
    destruct (S3 _ _ I') as [E N]. destruct (pose_at test i') as [p'|] eqn:Ep; [|congruence]. exists p'. split; [exact E|].
    destruct (K1 m (f m) j i i' J1 I1 Fj I') as [->|(rr & pp' & A1 & A2 & A3 & A4)]; [left; congruence|]. right. split; [exact A3|].
    rewrite (HP ref j r J2) in A1. rewrite (HP test i' p' Ep) in A2. injection A1 as <-. injection A2 as <-. exact A4.
  - intros m' r p A B D. destruct (At ref js' ref2 m' r Cr2 L4 S4 A) as (j & J1 & J2). destruct (At test is' test2 m' p Ct2 L3 S3 B) as (i & I1 & I2).
    destruct (K2 m' i j (pp r) (pp p) J1 I1 (HP _ _ _ J2) (HP _ _ _ I2) D) as (m & M1 & M2). exists m. split; [|split].
    + apply (sorted_inj js' m' (f m) j R3 J1 (F m j M1)).
    + destruct (S2 _ _ M1) as [E _]. congruence.
    + destruct (S1 _ _ M2) as [E _]. congruence.
Qed.
