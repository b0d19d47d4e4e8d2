(** C161: temporal matching of recordings whose clocks differ. *)
From Verif Require Import Base BaseFacts VecFacts NumpyModel NumpyFacts TrajModel TrajSpec TrajFacts TrajFacts2 TrajFacts3
  GeomModel GeomSpec GeomFacts GeomFacts2 GeomProps MatchModel MatchSpec MatchFacts MatchFacts2 MatchProps RematchProps
  EvalModel EvalSpec EvalStats EvalProps BiasProps MotionProps JitterSpec.

Lemma far_apart g l : StronglySorted Rlt l -> apart_by g l -> forall i j x y, (i < j)%nat -> nth_error l i = Some x -> nth_error l j = Some y -> g < y - x.
Proof.
  intros SO A i j x y L X Y. destruct (nth_error_lt_Some l (S i)) as [z Z]; [apply nth_error_Some_lt in Y; lia|].
  assert (G := A x z (next_neighbours l i x z SO X Z)). destruct (Nat.eq_dec j (S i)) as [->|N]; [assert (y = z) by congruence; subst; exact G|].
  assert (B := proj1 (StronglySorted_nth Rlt l) SO (S i) j z y ltac:(lia) Z Y). lra.
Qed.

Lemma selected_run {Q} (t t' : traj Q) a b : consistent t -> (a + b <= tlen t)%nat -> selected t (seq a b) t' -> poses t' = firstn b (skipn a (poses t)).
Proof.
  intros C L (C' & _ & LT & H). rewrite seq_length in LT.
  assert (N : forall A (l : list A) n i, nth_error (skipn n l) i = nth_error l (n + i)).
  { intros A l n. revert l. induction n as [|n IH]; intros [|c l] i; try reflexivity; [destruct i; reflexivity|apply IH]. }
  assert (F : forall A (l : list A) n i, (i < n)%nat -> nth_error (firstn n l) i = nth_error l i).
  { intros A l n. revert l. induction n as [|n IH]; intros [|c l] [|i] I; try reflexivity; try lia. cbn. apply IH. lia. }
  apply nth_error_ext. intro i. destruct (Nat.lt_ge_cases i b) as [I|I].
  - rewrite F by exact I. rewrite N, (poses_nth t' i C'), (poses_nth t _ C). apply (H i (a + i)%nat).
    rewrite (nth_error_nth' _ 0%nat) by (rewrite seq_length; exact I). rewrite seq_nth by exact I. reflexivity.
  - rewrite (proj2 (nth_error_None _ _)) by (rewrite poses_length by exact C'; lia). symmetry. apply nth_error_None. rewrite firstn_length. lia.
Qed.

Section Jitter.
  Context {Q : Type} (query2 : list (R * R) -> option R -> nat -> R * R -> list (option (nat * R))).
  Hypothesis KC : knn_contract dist2 query2.

  (** A strictly nearest entry is the one that is reported. *)
  Lemma reported_iff ref max x j y : 0 <= max -> nth_error ref j = Some y -> (forall i z, i <> j -> nth_error ref i = Some z -> Rabs (y - x) < Rabs (z - x)) ->
    forall i, reported query2 (map stamp ref) max (stamp x) i <-> i = j /\ (max <> 0 -> Rabs (y - x) < max).
  Proof.
    intros HM Y ST i. assert (U : reported query2 (map stamp ref) max (stamp x) i -> i = j /\ (max <> 0 -> Rabs (y - x) < max)).
    { intro H. destruct (reported_nearest dist2 query2 KC _ _ _ _ HM H) as (r & Hr & Near & W). rewrite nth_error_map' in Hr.
      destruct (nth_error ref i) as [z|] eqn:Z; [|discriminate]. injection Hr as <-.
      destruct (Nat.eq_dec i j) as [->|N]; [assert (z = y) by congruence; subst; rewrite dist2_stamp in W; auto|]. exfalso.
      assert (A := Near (stamp y) (in_map stamp _ _ (nth_error_In _ _ Y))). rewrite !dist2_stamp in A. assert (B := ST i z N Z). lra. }
    split; [exact U|]. intros [-> W]. destruct (query1_single dist2 query2 KC (map stamp ref) max (stamp x) HM) as (row & _ & E).
    destruct row as [[k d]|].
    - assert (K : reported query2 (map stamp ref) max (stamp x) k) by (exists d; exact E).
      destruct (reported_nearest dist2 query2 KC _ _ _ _ HM K) as (r & Hr & Near & _). rewrite nth_error_map' in Hr.
      destruct (nth_error ref k) as [z|] eqn:Z; [|discriminate]. injection Hr as <-.
      destruct (Nat.eq_dec k j) as [->|N]; [exact K|]. exfalso.
      assert (A := Near (stamp y) (in_map stamp _ _ (nth_error_In _ _ Y))). rewrite !dist2_stamp in A. assert (B := ST k z N Z). lra.
    - exfalso. destruct (not_reported dist2 query2 KC (map stamp ref) max (stamp x) HM) with (r := stamp y) as [NZ LE].
      + intros k [d F]. congruence.
      + apply in_map, (nth_error_In _ _ Y).
      + rewrite dist2_stamp in LE. specialize (W NZ). lra.
  Qed.

  Implicit Types test ref : traj Q.

  (** The estimate is late by [k] samples. *)
  Lemma late_pairs max k e test ref : consistent test -> consistent ref -> tlen test = tlen ref -> (k < tlen ref)%nat ->
    strictly_time_sorted test -> strictly_time_sorted ref -> lagging k e (tstamps test) (tstamps ref) -> apart_by (2 * e) (tstamps ref) -> 0 <= max -> (max <> 0 -> e < max) ->
    exists test' ref', match_temporal query2 max test ref = Ok (test', ref') /\
      selected test (seq 0 (tlen ref - k)) test' /\ selected ref (seq k (tlen ref - k)) ref'.
  Proof.
    intros Ct Cr L K St Sr LG AP HM ME. set (n := tlen ref) in *.
    assert (Lt : length (tstamps test) = n) by (rewrite (proj1 Ct); exact L). assert (Lr : length (tstamps ref) = n) by (exact (proj1 Cr)).
    assert (NT : tstamps test <> []) by (intro Z; rewrite Z in Lt; cbn in Lt; lia).
    assert (FA := far_apart (2 * e) (tstamps ref) Sr AP).
    (* the nearest entries *)
    assert (RP : forall i x, nth_error (tstamps test) i = Some x -> forall j, reported query2 (map stamp (tstamps ref)) max (stamp x) j ->
      j = Nat.min (i + k) (n - 1)).
    { intros i x X j. destruct (Nat.lt_ge_cases (i + k) n) as [I|I].
      - destruct (nth_error_lt_Some (tstamps ref) (i + k)) as [y Y]; [lia|]. rewrite (reported_iff (tstamps ref) max x (i + k) y HM Y); [intros [-> _]; lia|].
        intros m z N Z. assert (D := LG i x y X Y). destruct (Nat.lt_gt_cases m (i + k)) as [[M|M] _]; [exact N| |].
        + assert (G := FA m (i + k)%nat z y M Z Y). revert D. unfold Rabs. repeat destruct Rcase_abs; lra.
        + assert (G := FA (i + k)%nat m y z M Y Z). revert D. unfold Rabs. repeat destruct Rcase_abs; lra.
      - destruct (nth_error_lt_Some (tstamps ref) (n - 1)) as [y Y]; [lia|]. rewrite (reported_iff (tstamps ref) max x (n - 1) y HM Y); [intros [-> _]; lia|].
        intros m z N Z. assert (M : (m < n - 1)%nat) by (apply nth_error_Some_lt in Z; lia). assert (G := FA m (n - 1)%nat z y M Z Y).
        destruct (nth_error_lt_Some (tstamps test) (n - 1 - k)) as [w W]; [lia|]. assert (D := LG (n - 1 - k)%nat w y W ltac:(replace (n - 1 - k + k)%nat with (n - 1)%nat by lia; exact Y)).
        assert (XW : w < x). { apply (proj1 (StronglySorted_nth Rlt (tstamps test)) St (n - 1 - k)%nat i w x); [lia|exact W|exact X]. }
        revert D. unfold Rabs. repeat destruct Rcase_abs; lra. }
    assert (OK : forall i x, (i + k < n)%nat -> nth_error (tstamps test) i = Some x -> reported query2 (map stamp (tstamps ref)) max (stamp x) (i + k)).
    { intros i x I X. destruct (nth_error_lt_Some (tstamps ref) (i + k)) as [y Y]; [lia|]. assert (D := LG i x y X Y).
      apply (reported_iff (tstamps ref) max x (i + k) y HM Y).
      - intros m z N Z. destruct (Nat.lt_gt_cases m (i + k)) as [[M|M] _]; [exact N| |].
        + assert (G := FA m (i + k)%nat z y M Z Y). revert D. unfold Rabs. repeat destruct Rcase_abs; lra.
        + assert (G := FA (i + k)%nat m y z M Y Z). revert D. unfold Rabs. repeat destruct Rcase_abs; lra.
      - split; [reflexivity|]. intro NZ. rewrite Rabs_minus_sym. specialize (ME NZ). lra. }
    destruct (C19_temporal Q query2 max test ref KC Ct Cr HM NT) as [(t' & r' & is & js & E & (P1 & P2 & P3 & P4 & P5) & S1 & S2)|[_ F]].
    2:{ exfalso. destruct (nth_error_lt_Some (tstamps test) 0) as [x X]; [lia|]. destruct (nth_error_lt_Some (tstamps ref) k) as [y Y]; [lia|].
        destruct (F x y (nth_error_In _ _ X) (nth_error_In _ _ Y)) as [NZ LE]. assert (D := LG 0%nat x y X Y). rewrite Rabs_minus_sym in LE. specialize (ME NZ). lra. }
    exists t', r'. split; [exact E|].
    assert (PR : forall m i j, nth_error is m = Some i -> nth_error js m = Some j -> (j = i + k)%nat /\ (j < n)%nat).
    { intros m i j Hi Hj. destruct (P4 m i j Hi Hj) as (p & Hp & _ & Rp & First). change (fun x => (x, 0)) with stamp in *. rewrite nth_error_map' in Hp.
      destruct (nth_error (tstamps test) i) as [x|] eqn:X; [|discriminate]. injection Hp as <-. assert (J := RP i x X j Rp).
      destruct (Nat.lt_ge_cases (i + k) n) as [I|I]; [lia|]. exfalso.
      destruct (nth_error_lt_Some (tstamps test) (n - 1 - k)) as [w W]; [lia|]. apply (First (n - 1 - k)%nat (stamp w)); [lia|rewrite nth_error_map', W; reflexivity|].
      assert (R0 := OK (n - 1 - k)%nat w ltac:(lia) W). replace (n - 1 - k + k)%nat with j in R0 by lia. exact R0. }
    assert (J : js = seq k (n - k)).
    { assert (JJ : map (fun j => (j - k)%nat) js = seq 0 (n - k)).
      { assert (GE : forall j, In j js -> (k <= j < n)%nat).
        { intros j I. apply In_nth_error in I as [m Hm]. destruct (nth_error_lt_Some is m) as [i Hi]; [rewrite <- P1; apply nth_error_Some_lt in Hm; exact Hm|]. assert (Z := PR m i j Hi Hm). lia. }
        apply ascending_all.
        - clear -P3 GE. induction P3 as [|a l SS IH F]; [constructor|]. cbn. constructor; [apply IH; intros j I; apply GE; right; exact I|].
          rewrite Forall_forall in *. intros z Z. apply in_map_iff in Z as (b & <- & B). specialize (F b B). assert (A1 := GE a (or_introl eq_refl)). assert (B1 := GE b (or_intror B)). lia.
        - intro i. split.
          + intro I. apply in_map_iff in I as (j & <- & I). specialize (GE j I). lia.
          + intro I. destruct (nth_error_lt_Some (tstamps test) i) as [x X]; [lia|]. apply in_map_iff. exists (i + k)%nat. split; [lia|].
            apply (P5 (stamp x)); [apply in_map, (nth_error_In _ _ X)|]. apply OK; [lia|exact X]. }
      assert (GE : forall j, In j js -> (k <= j)%nat).
      { intros j I. apply In_nth_error in I as [m Hm]. destruct (nth_error_lt_Some is m) as [i Hi]; [rewrite <- P1; apply nth_error_Some_lt in Hm; exact Hm|]. assert (Z := PR m i j Hi Hm). lia. }
      assert (B : js = map (fun i => (i + k)%nat) (map (fun j => (j - k)%nat) js)).
      { rewrite map_map. rewrite <- (map_id js) at 1. apply map_ext_in. intros j I. specialize (GE j I). lia. }
      rewrite B, JJ. clear. generalize (n - k)%nat. intro c. apply nth_error_ext. intro i. rewrite nth_error_map', !nth_error_seq. destruct (i <? c)%nat; [|reflexivity]. cbn. f_equal. lia. }
    assert (I : is = seq 0 (n - k)).
    { apply nth_error_ext. intro m. rewrite nth_error_seq. destruct (nth_error is m) as [i|] eqn:Hi.
      - destruct (nth_error_lt_Some js m) as [j Hj]; [rewrite P1; apply nth_error_Some_lt in Hi; exact Hi|]. destruct (PR m i j Hi Hj) as [Z _].
        rewrite J, nth_error_seq in Hj. destruct (m <? n - k)%nat; [|discriminate]. f_equal. injection Hj as Hj. lia.
      - apply nth_error_None in Hi. rewrite <- P1, J, seq_length in Hi. destruct (Nat.ltb_spec m (n - k)); [lia|reflexivity]. }
    rewrite <- J. rewrite <- I. split; [exact S1|exact S2].
  Qed.
End Jitter.

(** Time stamps that agree up to less than half the sampling interval: temporal matching pairs every pose with its counterpart. *)
Theorem C161_jitter : forall (Q : Type) query2 max e (test ref : traj Q), knn_contract dist2 query2 -> consistent test -> consistent ref -> tlen test = tlen ref -> (0 < tlen ref)%nat ->
  strictly_time_sorted test -> strictly_time_sorted ref -> lagging 0 e (tstamps test) (tstamps ref) -> apart_by (2 * e) (tstamps ref) -> 0 <= max -> (max <> 0 -> e < max) ->
  match_temporal query2 max test ref = Ok (test, ref).
Proof.
  intros Q query2 max e test ref KC Ct Cr L N St Sr LG AP HM ME. destruct (late_pairs query2 KC max 0 e test ref Ct Cr L N St Sr LG AP HM ME) as (t' & r' & E & S1 & S2).
  rewrite Nat.sub_0_r in S1, S2. rewrite E. rewrite <- L in S1. f_equal. f_equal; apply selected_all; assumption.
Qed.
Print Assumptions C161_jitter.

(** A clock that is late by [k] samples (and less than half a sample): every pose of the estimate is compared with the pose of the
    reference [k] samples later; the last [k] poses of the estimate and the first [k] of the reference are dropped. *)
Theorem C161_late : forall (Q : Type) query2 max k e (test ref : traj Q), knn_contract dist2 query2 -> consistent test -> consistent ref -> tlen test = tlen ref -> (k < tlen ref)%nat ->
  strictly_time_sorted test -> strictly_time_sorted ref -> lagging k e (tstamps test) (tstamps ref) -> apart_by (2 * e) (tstamps ref) -> 0 <= max -> (max <> 0 -> e < max) ->
  exists test' ref', match_temporal query2 max test ref = Ok (test', ref') /\ consistent test' /\ consistent ref' /\
    poses test' = firstn (tlen ref - k) (poses test) /\ poses ref' = skipn k (poses ref).
Proof.
  intros Q query2 max k e test ref KC Ct Cr L N St Sr LG AP HM ME. destruct (late_pairs query2 KC max k e test ref Ct Cr L N St Sr LG AP HM ME) as (t' & r' & E & S1 & S2).
  exists t', r'. split; [exact E|]. split; [exact (proj1 S1)|]. split; [exact (proj1 S2)|]. split.
  - rewrite (selected_run test t' 0 (tlen ref - k) Ct ltac:(lia) S1). reflexivity.
  - rewrite (selected_run ref r' k (tlen ref - k) Cr ltac:(lia) S2). apply firstn_all2. rewrite skipn_length, poses_length by exact Cr. lia.
Qed.
Print Assumptions C161_late.

(** So temporal matching hides a clock offset of less than half the sampling interval: a recording whose clock is off by that much is
    reported as free of errors. *)
Theorem C161_hidden : forall (Q : Type) (ops : rot_ops Q) query2 max d (ref : traj Q), rot_contract ops -> knn_contract dist2 query2 -> consistent ref -> (0 < tlen ref)%nat ->
  strictly_time_sorted ref -> apart_by (2 * Rabs d) (tstamps ref) -> 0 <= max -> (max <> 0 -> Rabs d < max) ->
  let test := mkTraj (map (fun x => x + d) (tstamps ref)) (xyz ref) (rot ref) (arc ref) (speed ref) (srt ref) (name ref) (epsg ref) in
  match_temporal query2 max test ref = Ok (test, ref) /\
  exists r, compare_absolute ops test ref = Ok r /\ Forall (eq vzero) (pos_dev r) /\ pos_ate r = Some 0 /\ pos_dev_max r = Ok 0.
Proof.
  intros Q ops query2 max d ref RC KC Cr N Sr AP HM ME test.
  assert (Ct : consistent test) by (destruct Cr as (A & B & C & D); split; [cbn; rewrite map_length; exact A|]; split; [exact B|]; split; [exact C|exact D]).
  assert (St : strictly_time_sorted test).
  { unfold strictly_time_sorted in *. cbn. induction Sr as [|a l SS IH F]; cbn; constructor; [|rewrite Forall_forall in *; intros z Z; apply in_map_iff in Z as (b & <- & B); specialize (F b B); lra].
    clear -SS. induction SS as [|a l SS IH F]; cbn; constructor; [exact IH|rewrite Forall_forall in *; intros z Z; apply in_map_iff in Z as (b & <- & B); specialize (F b B); lra]. }
  assert (LG : lagging 0 (Rabs d) (tstamps test) (tstamps ref)).
  { intros i x y X Y. cbn in X. rewrite Nat.add_0_r in Y. rewrite nth_error_map', Y in X. injection X as <-. replace (y + d - y) with d by ring. apply Rle_refl. }
  split; [apply (C161_jitter Q query2 max (Rabs d) test ref KC Ct Cr eq_refl N St Sr LG AP HM ME)|].
  destruct (C33_deviations Q ops test ref RC Ct Cr eq_refl) as (r & E & _ & _ & LP & _ & D & _). exists r. split; [exact E|].
  assert (Z : Forall (eq vzero) (pos_dev r)).
  { apply Forall_forall. intros v I. apply In_nth_error in I as [i I]. destruct (nth_error_lt_Some (xyz ref) i) as [a A]; [unfold tlen in LP; rewrite <- LP; exact (nth_error_Some_lt _ _ _ I)|].
    rewrite (D i a a A A) in I. injection I as <-. destruct a. apply V3_eq; munf; ring. }
  split; [exact Z|]. assert (C : pos_dev_comb r = repeat 0 (tlen ref)).
  { unfold pos_dev_comb. rewrite <- LP. clear -Z. induction Z as [|v l <- F IH]; [reflexivity|]. cbn [map length repeat]. rewrite IH. f_equal. apply vnorm_zero_iff. reflexivity. }
  split.
  - unfold pos_ate. rewrite C. rewrite <- (map_id (repeat 0 (tlen ref))). rewrite mean_map by (destruct (tlen ref); [lia|discriminate]). f_equal.
    rewrite (MatchFacts2.np_sum_ext (fun x => x) (fun _ => 0)) by (intros u U; apply repeat_spec in U; exact U). rewrite MatchFacts2.np_sum_const. unfold Rdiv. ring.
  - destruct (np_max_spec (pos_dev_comb r)) as (m & M & I & _); [rewrite C; destruct (tlen ref); [lia|discriminate]|]. rewrite C in I. apply repeat_spec in I. subst m. exact M.
Qed.
Print Assumptions C161_hidden.

(** The other way round it fails: if the clock of the estimate is early by a sample, its first pose is paired with the first pose of the
    reference, although the second one has exactly that time stamp (the first of several candidates wins, see C20). *)
Definition three (ts : list R) : traj nat := mkTraj ts [mkV3 0 0 0; mkV3 1 0 0; mkV3 2 0 0] None [0; 1; 2] [vzero; vzero; vzero] SortTime "three" 0.
Theorem C161_equal_stamps_refuted : forall query2 max, knn_contract dist2 query2 -> max = 0 \/ 1 < max ->
  exists test' ref', match_temporal query2 max (three [-1; 0; 1]) (three [0; 1; 2]) = Ok (test', ref') /\ tstamps test' = [-1; 1] /\ tstamps ref' = [0; 1].
Proof.
  intros query2 max KC M. assert (HM : 0 <= max) by lra. assert (Ct : consistent (three [-1; 0; 1])) by (repeat split). assert (Cr : consistent (three [0; 1; 2])) by (repeat split).
  assert (ST : forall x j y, nth_error [0; 1; 2] j = Some y -> (forall i z, i <> j -> nth_error [0; 1; 2] i = Some z -> Rabs (y - x) < Rabs (z - x)) -> Rabs (y - x) <= 1 ->
    forall i, reported query2 (map stamp [0; 1; 2]) max (stamp x) i <-> i = j).
  { intros x j y Y A B i. rewrite (reported_iff query2 KC [0; 1; 2] max x j y HM Y A). split; [tauto|]. intros ->. split; [reflexivity|]. intro NZ. lra. }
  assert (R0 : forall i, reported query2 (map stamp [0; 1; 2]) max (stamp (-1)) i <-> i = 0%nat).
  { apply (ST (-1) 0%nat 0 eq_refl); [|unfold Rabs; destruct Rcase_abs; lra]. intros [|[|[|i]]] z N Z; cbn in Z; try congruence; [..|destruct i; discriminate]; injection Z as <-; unfold Rabs; repeat destruct Rcase_abs; lra. }
  assert (R1 : forall i, reported query2 (map stamp [0; 1; 2]) max (stamp 0) i <-> i = 0%nat).
  { apply (ST 0 0%nat 0 eq_refl); [|unfold Rabs; destruct Rcase_abs; lra]. intros [|[|[|i]]] z N Z; cbn in Z; try congruence; [..|destruct i; discriminate]; injection Z as <-; unfold Rabs; repeat destruct Rcase_abs; lra. }
  assert (R2 : forall i, reported query2 (map stamp [0; 1; 2]) max (stamp 1) i <-> i = 1%nat).
  { apply (ST 1 1%nat 1 eq_refl); [|unfold Rabs; destruct Rcase_abs; lra]. intros [|[|[|i]]] z N Z; cbn in Z; try congruence; [..|destruct i; discriminate]; injection Z as <-; unfold Rabs; repeat destruct Rcase_abs; lra. }
  destruct (C19_temporal nat query2 max _ _ KC Ct Cr HM ltac:(discriminate)) as [(t' & r' & is & js & E & (P1 & P2 & P3 & P4 & P5) & S1 & S2)|[_ F]].
  2:{ exfalso. destruct (F 0 0) as [NZ LE]; [right; left; reflexivity|left; reflexivity|]. rewrite Rminus_0_r, Rabs_R0 in LE. lra. }
  exists t', r'. split; [exact E|]. change (fun x => (x, 0)) with stamp in *. cbn [tstamps three] in *.
  assert (PR : forall m i j, nth_error is m = Some i -> nth_error js m = Some j -> (j = 0 /\ i = 0 \/ j = 1 /\ i = 2)%nat).
  { intros m i j Hi Hj. destruct (P4 m i j Hi Hj) as (p & Hp & _ & Rp & First). destruct i as [|[|[|i]]]; cbn in Hp; try (destruct i; discriminate); injection Hp as <-.
    - left. apply R0 in Rp. auto.
    - exfalso. apply R1 in Rp. subst j. apply (First 0%nat (stamp (-1))); [lia|reflexivity|]. apply R0. reflexivity.
    - right. apply R2 in Rp. auto. }
  assert (J : js = seq 0 2).
  { apply ascending_all; [exact P3|]. intro j. split.
    - intro I. apply In_nth_error in I as [m Hm]. destruct (nth_error_lt_Some is m) as [i Hi]; [rewrite <- P1; exact (nth_error_Some_lt _ _ _ Hm)|]. assert (Z := PR m i j Hi Hm). lia.
    - intro I. destruct j as [|[|j]]; [apply (P5 (stamp 0)); [right; left; reflexivity|apply R1; reflexivity]|apply (P5 (stamp 1)); [right; right; left; reflexivity|apply R2; reflexivity]|lia]. }
  assert (I : is = [0; 2]%nat).
  { rewrite J in *. destruct is as [|a [|b [|]]]; try discriminate P1. assert (A := PR 0%nat a 0%nat eq_refl eq_refl). assert (B := PR 1%nat b 1%nat eq_refl eq_refl). f_equal; [lia|f_equal; lia]. }
  subst is js. split.
  - apply nth_error_ext. intro m. destruct m as [|[|m]].
    + destruct (selected_tstamps _ _ _ 0%nat 0%nat Ct S1 eq_refl) as (x & X & Y). cbn in Y. rewrite X, <- Y. reflexivity.
    + destruct (selected_tstamps _ _ _ 1%nat 2%nat Ct S1 eq_refl) as (x & X & Y). cbn in Y. rewrite X, <- Y. reflexivity.
    + destruct S1 as (C1 & _ & L1 & _). unfold tlen in L1. cbn [length] in L1. rewrite (proj2 (nth_error_None _ _)) by (rewrite (proj1 C1), L1; lia). destruct m; reflexivity.
  - apply nth_error_ext. intro m. destruct m as [|[|m]].
    + destruct (selected_tstamps _ _ _ 0%nat 0%nat Cr S2 eq_refl) as (x & X & Y). cbn in Y. rewrite X, <- Y. reflexivity.
    + destruct (selected_tstamps _ _ _ 1%nat 1%nat Cr S2 eq_refl) as (x & X & Y). cbn in Y. rewrite X, <- Y. reflexivity.
    + destruct S2 as (C2 & _ & L2 & _). unfold tlen in L2. rewrite seq_length in L2. rewrite (proj2 (nth_error_None _ _)) by (rewrite (proj1 C2), L2; lia). destruct m; reflexivity.
Qed.
Print Assumptions C161_equal_stamps_refuted.

Example C161_case :
  (* stamps off by a quarter of a sample; late by one sample and a quarter *)
  consistent (three [1/4; 3/4; 9/4]) /\ strictly_time_sorted (three [1/4; 3/4; 9/4]) /\ consistent (three [0; 1; 2]) /\ strictly_time_sorted (three [0; 1; 2]) /\
  apart_by (2 * (1/4)) [0; 1; 2] /\ lagging 0 (1/4) [1/4; 3/4; 9/4] [0; 1; 2] /\
  strictly_time_sorted (three [5/4; 9/4; 13/4]) /\ lagging 1 (1/4) [5/4; 9/4; 13/4] [0; 1; 2] /\
  match_temporal (brute dist2) (1/2) (three [1/4; 3/4; 9/4]) (three [0; 1; 2]) = Ok (three [1/4; 3/4; 9/4], three [0; 1; 2]).
Proof.
  assert (C : forall a b c, consistent (three [a; b; c])) by (intros; repeat split).
  assert (SO : forall a b c, a < b -> b < c -> strictly_time_sorted (three [a; b; c])) by (intros; unfold strictly_time_sorted; cbn; repeat constructor; lra).
  assert (AP : apart_by (2 * (1/4)) [0; 1; 2]).
  { intros a b (A & B & O & _). destruct A as [<-|[<-|[<-|[]]]], B as [<-|[<-|[<-|[]]]]; lra. }
  assert (LG : lagging 0 (1/4) [1/4; 3/4; 9/4] [0; 1; 2]).
  { intros [|[|[|i]]] x y X Y; cbn in X, Y; try (destruct i; discriminate); injection X as <-; injection Y as <-; unfold Rabs; destruct Rcase_abs; lra. }
  assert (L1 : lagging 1 (1/4) [5/4; 9/4; 13/4] [0; 1; 2]).
  { intros [|[|[|i]]] x y X Y; cbn in X, Y; try (destruct i; discriminate); try discriminate; injection X as <-; injection Y as <-; unfold Rabs; destruct Rcase_abs; lra. }
  split; [apply C|]. split; [apply SO; lra|]. split; [apply C|]. split; [apply SO; lra|]. split; [exact AP|]. split; [exact LG|]. split; [apply SO; lra|]. split; [exact L1|].
  apply (C161_jitter nat (brute dist2) (1/2) (1/4)); [apply brute_contract|apply C|apply C|reflexivity|cbn; lia|apply SO; lra|apply SO; lra|exact LG|exact AP|lra|intros; lra].
Qed.
