(** C167: several estimates and one reference. *)
From Coq Require Import Sorting.
From Verif Require Import Base BaseFacts VecFacts NumpyModel NumpyFacts TrajModel TrajSpec TrajFacts TrajFacts2 GeomModel MatchModel MatchSpec MatchFacts MatchFacts2 MatchProps JitterSpec JitterProps SeriesModel SeriesSpec.

Lemma part_all {A} (l : list A) : part l l.
Proof. induction l; constructor; assumption. Qed.
Lemma part_none {A} (l : list A) : part [] l.
Proof. induction l; constructor; assumption. Qed.
Lemma part_trans {A} (a b c : list A) : part a b -> part b c -> part a c.
Proof.
  intros AB BC. revert a AB. induction BC as [|x b c BC IH|x b c BC IH]; intros a AB; [exact AB| |].
  - inversion AB; subst; [apply part_take, IH; assumption|apply part_leave, IH; assumption].
  - apply part_leave, IH, AB.
Qed.
Lemma part_length {A} (a b : list A) : part a b -> (length a <= length b)%nat.
Proof. induction 1; cbn; lia. Qed.
Lemma kept_part {A} (P : A -> Prop) l l' : kept P l l' -> part l' l.
Proof. induction 1; constructor; assumption. Qed.
Lemma indexed_part {A} (l l' : list A) js : StronglySorted lt js -> length l' = length js -> (forall m i, nth_error js m = Some i -> nth_error l' m = nth_error l i /\ nth_error l i <> None) -> part l' l.
Proof.
  revert l' js. induction l as [|a l IH]; intros l' js S L H.
  - destruct js as [|j js]; [destruct l'; [constructor|discriminate]|]. destruct (H 0%nat j eq_refl) as [_ N]. destruct j; cbn in N; congruence.
  - assert (SH : forall ks, StronglySorted lt ks -> Forall (fun k => (0 < k)%nat) ks -> StronglySorted lt (map pred ks)).
    { clear. induction 1 as [|k ks S IH F]; intro P; cbn; constructor; inversion P; subst; [apply IH; assumption|]. apply Forall_forall. intros x I. apply in_map_iff in I as (y & <- & I). rewrite Forall_forall in F. specialize (F y I). lia. }
    assert (GO : forall k' ks, StronglySorted lt ks -> Forall (fun k => (0 < k)%nat) ks -> length k' = length ks -> (forall m i, nth_error ks m = Some i -> nth_error k' m = nth_error (a :: l) i /\ nth_error (a :: l) i <> None) -> part k' l).
    { intros k' ks Sk P Lk Hk. apply (IH k' (map pred ks)); [apply SH; assumption|rewrite map_length; exact Lk|]. intros m i I. rewrite nth_error_map' in I. destruct (nth_error ks m) as [k|] eqn:K; [|discriminate]. injection I as <-.
      rewrite Forall_forall in P. specialize (P k (nth_error_In _ _ K)). specialize (Hk m k K). destruct k; [lia|]. exact Hk. }
    destruct js as [|j js]; [destruct l'; [apply part_none|discriminate]|]. inversion S as [|? ? S1 F]; subst. destruct j as [|j].
    + destruct l' as [|b l']; [discriminate|]. destruct (H 0%nat 0%nat eq_refl) as [E _]. cbn in E. injection E as ->. apply part_take. apply (GO l' js S1).
      * eapply Forall_impl; [|exact F]. cbn. intros. lia.
      * cbn in L. lia.
      * intros m i I. exact (H (Datatypes.S m) i I).
    + apply part_leave. apply (GO l' (Datatypes.S j :: js) S); [|exact L|exact H]. constructor; [lia|]. eapply Forall_impl; [|exact F]. cbn. intros. lia.
Qed.
Lemma selected_part {Q} (t t' : traj Q) js : consistent t -> selected t js t' -> StronglySorted lt js -> part (poses t') (poses t).
Proof.
  intros C (C' & _ & L & H) S. apply (indexed_part _ _ js S); [rewrite poses_length by exact C'; exact L|]. intros m i I. destruct (H m i I) as [E N]. rewrite (poses_nth t' m C'), (poses_nth t i C). split; assumption.
Qed.

Section One.
  Context {Q : Type} (query2 : list (R * R) -> option R -> nat -> R * R -> list (option (nat * R))) (query3 : list V3 -> option R -> nat -> V3 -> list (option (nat * R))) (seg : Q -> Q -> R -> Q) (eigh : M3 -> V3) (loc : list V3 -> list V3).
  Context (K2 : knn_contract dist2 query2) (K3 : knn_contract vdist query3).
  (** What one call leaves of the reference *)
  Lemma one_call s (gt est est' gt' : traj Q) : consistent gt -> consistent est -> 0 <= max_time_diff s -> 0 <= max_distance s -> (m_method s = Interpolation -> time_sorted gt /\ time_sorted est) ->
    compared_by_metrics query2 query3 seg eigh loc s gt est = Ok (est', gt') -> consistent gt' /\ (m_method s = Interpolation -> time_sorted gt') /\ part (poses gt') (poses gt).
  Proof.
    intros Cg Ce HT HD ST H. unfold compared_by_metrics, match_trajectories in H. destruct (m_method s) eqn:M.
    all: try (apply bind_ok in H as (m & MM & H); injection H as H).
    - destruct (match_spatial query3 (max_distance s) est gt) as [[a b]|e] eqn:E; [|discriminate]. injection MM as <-. injection H as <- <-.
      assert (N : xyz est <> []). { intro Z. rewrite (proj1 (C19_no_test_poses Q query2 query3 (max_distance s) est gt Ce Z)) in E. discriminate. }
      destruct (C19_spatial Q query3 (max_distance s) est gt K3 Ce Cg HD N) as [(t' & r' & is & js & E' & Hp & S1 & S2)|[E' _]]; [|congruence]. rewrite E in E'. injection E' as <- <-.
      split; [exact (proj1 S2)|]. split; [discriminate|]. exact (selected_part gt b js Cg S2 (proj1 (proj2 (proj2 Hp)))).
    - destruct (match_temporal query2 (max_time_diff s) est gt) as [[a b]|e] eqn:E; [|discriminate]. injection MM as <-. injection H as <- <-.
      assert (N : tstamps est <> []). { intro Z. assert (Zx : xyz est = []) by (destruct Ce as (L & _); rewrite Z in L; destruct (xyz est); [reflexivity|discriminate]). rewrite (proj2 (C19_no_test_poses Q query2 query3 (max_time_diff s) est gt Ce Zx)) in E. discriminate. }
      destruct (C19_temporal Q query2 (max_time_diff s) est gt K2 Ce Cg HT N) as [(t' & r' & is & js & E' & Hp & S1 & S2)|[E' _]]; [|congruence]. rewrite E in E'. injection E' as <- <-.
      split; [exact (proj1 S2)|]. split; [discriminate|]. exact (selected_part gt b js Cg S2 (proj1 (proj2 (proj2 Hp)))).
    - destruct (match_interpolation seg est gt) as [[a b]|e] eqn:E; [|discriminate]. injection MM as <-. injection H as <- <-. destruct (ST eq_refl) as [Sg Se].
      destruct (C22_interpolation_sampling Q seg est gt a b Ce Cg Se Sg E) as (_ & _ & Cb & Sb & (K & KP)). split; [exact Cb|]. split; [intros _; exact Sb|]. exact (kept_part K _ _ KP).
    - destruct (match_spatial_interpolation _ _ _ _ _ _ _) as [x|e]; [|discriminate]. injection MM as <-. injection H as <- <-. split; [exact Cg|]. split; [discriminate|]. apply part_all.
    - discriminate.
  Qed.
End One.

(** * C167 *)
(** When several estimates are evaluated one after the other against one reference object, each is compared with poses of the original
    reference, in their order; the reference only ever loses poses, and what is left in the end occurs in every comparison. *)
Theorem C167_reference : forall (Q : Type) query2 query3 seg eigh loc s (gt : traj Q) ests pairs gt', knn_contract dist2 query2 -> knn_contract vdist query3 ->
  consistent gt -> Forall consistent ests -> 0 <= max_time_diff s -> 0 <= max_distance s ->
  (m_method s = Interpolation -> time_sorted gt /\ Forall time_sorted ests) ->
  compared_in_turn query2 query3 seg eigh loc s gt ests = Ok (pairs, gt') ->
  length pairs = length ests /\ part (poses gt') (poses gt) /\
  Forall (fun p => part (poses (snd p)) (poses gt) /\ part (poses gt') (poses (snd p))) pairs /\
  ForallOrdPairs (fun earlier later => part (poses (snd later)) (poses (snd earlier))) pairs.
Proof.
  intros Q query2 query3 seg eigh loc s gt ests pairs gt' K2 K3 Cg Ce HT HD ST H. revert gt pairs Cg ST H. induction ests as [|est ests IH]; intros gt pairs Cg ST H; cbn in H.
  - injection H as <- <-. split; [reflexivity|]. split; [apply part_all|]. split; constructor.
  - apply bind_ok in H as ([est' g] & E & H). apply bind_ok in H as ([q g'] & F & H). cbn [fst snd] in H. injection H as <- ->. cbn [snd] in F. inversion Ce as [|? ? C1 C2]; subst.
    destruct (one_call query2 query3 seg eigh loc K2 K3 s gt est est' g Cg C1 HT HD) as (Cg1 & S1 & P1); [intro M; destruct (ST M) as [A B]; inversion B; subst; split; assumption|exact E|].
    destruct (IH C2 g q Cg1) as (L & P & FA & FO); [intro M; split; [exact (S1 M)|]; destruct (ST M) as [_ B]; inversion B; assumption|exact F|].
    split; [cbn; rewrite L; reflexivity|]. split; [exact (part_trans _ _ _ P P1)|]. split.
    + constructor; [split; [exact P1|exact P]|]. eapply Forall_impl; [|exact FA]. cbn. intros p [A B]. split; [exact (part_trans _ _ _ A P1)|exact B].
    + constructor; [|exact FO]. eapply Forall_impl; [|exact FA]. cbn. intros p [A _]. exact A.
Qed.
Print Assumptions C167_reference.

(** If the time stamps of every estimate are those of the reference up to less than half a sampling interval (and less than the limit),
    temporal matching changes nothing and every estimate is compared with the whole reference, whatever was evaluated before. *)
Theorem C167_same_rate : forall (Q : Type) query2 query3 seg eigh loc s e (gt : traj Q) ests, knn_contract dist2 query2 -> m_method s = NearestTemporal ->
  consistent gt -> (0 < tlen gt)%nat -> strictly_time_sorted gt -> apart_by (2 * e) (tstamps gt) -> 0 <= max_time_diff s -> (max_time_diff s <> 0 -> e < max_time_diff s) ->
  Forall (fun est => consistent est /\ tlen est = tlen gt /\ strictly_time_sorted est /\ lagging 0 e (tstamps est) (tstamps gt)) ests ->
  compared_in_turn query2 query3 seg eigh loc s gt ests = Ok (map (fun est => (est, gt)) ests, gt).
Proof.
  intros Q query2 query3 seg eigh loc s e gt ests K2 M Cg N Sg AP HT LT F. induction F as [|est ests (Ce & L & Se & LG) F IH]; [reflexivity|]. cbn [compared_in_turn map].
  assert (E : compared_by_metrics query2 query3 seg eigh loc s gt est = Ok (est, gt)).
  { unfold compared_by_metrics, match_trajectories. rewrite M, (C161_jitter Q query2 (max_time_diff s) e est gt K2 Ce Cg L N Se Sg LG AP HT LT). reflexivity. }
  rewrite E. cbn [bind snd]. rewrite IH. reflexivity.
Qed.
Print Assumptions C167_same_rate.

(** In general the earlier evaluations matter: an estimate of the first half of a drive takes the second half of the reference away, and
    an estimate of the second half, which can be evaluated alone, then has no partner left; whatever the KD tree does. *)
Definition four : traj nat := mkTraj [0; 1; 2; 3] [mkV3 0 0 0; mkV3 1 0 0; mkV3 2 0 0; mkV3 3 0 0] None [0; 1; 2; 3] [vzero; vzero; vzero; vzero] SortTime "reference" 0.
Definition half (a b : R) : traj nat := mkTraj [a; b] [mkV3 a 1 0; mkV3 b 1 0] None [0; 1] [vzero; vzero] SortTime "half" 0.
Definition timely : matching_settings := mkMatching NearestTemporal (1/2) 0 2.
Lemma timely_pair query2 query3 seg eigh loc (test ref t' r' : traj nat) : knn_contract dist2 query2 -> consistent test -> consistent ref -> tstamps test <> [] ->
  compared_by_metrics query2 query3 seg eigh loc timely ref test = Ok (t', r') ->
  consistent r' /\ tstamps r' <> [] /\ forall y, In y (tstamps r') -> In y (tstamps ref) /\ exists x, In x (tstamps test) /\ Rabs (y - x) < 1/2.
Proof.
  intros K2 Ct Cr N H. unfold compared_by_metrics, match_trajectories in H. cbn [m_method timely max_time_diff] in H.
  destruct (C19_temporal nat query2 (1/2) test ref K2 Ct Cr ltac:(lra) N) as [(a & b & is & js & E & (P1 & P2 & P3 & P4 & _) & S1 & S2)|[E _]]; rewrite E in H; [|discriminate]. injection H as <- <-.
  split; [exact (proj1 S2)|]. split.
  - intro Z. destruct S2 as (C2 & _ & L2 & _). destruct C2 as (T & _). unfold tlen in L2. rewrite Z in T. cbn in T. destruct js; [congruence|cbn in L2; lia].
  - intros y Y. apply In_nth_error in Y as [m Y]. destruct (selected_index ref js b m y Cr S2 Y) as (j & J & Y').
    destruct (nth_error_lt_Some is m) as [i I]; [rewrite <- P1; exact (nth_error_Some_lt _ _ _ J)|]. destruct (P4 m i j I J) as (p & Pp & (r & Rr & _ & D) & _).
    rewrite nth_error_map' in Pp, Rr. rewrite Y' in Rr. destruct (nth_error (tstamps test) i) as [x|] eqn:X; [|discriminate]. injection Pp as <-. injection Rr as <-.
    split; [exact (nth_error_In _ _ Y')|]. exists x. split; [exact (nth_error_In _ _ X)|]. specialize (D ltac:(lra)). change (x, 0) with (stamp x) in D; change (y, 0) with (stamp y) in D; rewrite dist2_stamp in D. exact D.
Qed.
Theorem C167_alone_refuted : forall query2 query3 seg eigh loc, knn_contract dist2 query2 ->
  (exists p, compared_by_metrics query2 query3 seg eigh loc timely four (half 0 1) = Ok p) /\
  (exists p, compared_by_metrics query2 query3 seg eigh loc timely four (half 2 3) = Ok p) /\
  compared_in_turn query2 query3 seg eigh loc timely four [half 0 1; half 2 3] = Err ValueError.
Proof.
  intros query2 query3 seg eigh loc K2. assert (Cf : consistent four) by (repeat split). assert (Ch : forall a b, consistent (half a b)) by (intros; repeat split).
  assert (G : forall a b, In a (tstamps four) -> exists t r, compared_by_metrics query2 query3 seg eigh loc timely four (half a b) = Ok (t, r)).
  { intros a b A. unfold compared_by_metrics, match_trajectories. cbn [m_method timely max_time_diff].
    destruct (C19_temporal nat query2 (1/2) (half a b) four K2 (Ch a b) Cf ltac:(lra) ltac:(discriminate)) as [(t' & r' & _ & _ & E & _)|[_ F]]; [rewrite E; exists t', r'; reflexivity|].
    exfalso. destruct (F a a) as [_ L]; [left; reflexivity|exact A|]. rewrite Rminus_eq_0, Rabs_R0 in L. lra. }
  destruct (G 0 1) as (t1 & r1 & E1); [left; reflexivity|]. destruct (G 2 3) as (t2 & r2 & E2); [right; right; left; reflexivity|].
  split; [eexists; exact E1|]. split; [eexists; exact E2|]. cbn [compared_in_turn]. rewrite E1. cbn [bind snd].
  destruct (timely_pair query2 query3 seg eigh loc (half 0 1) four t1 r1 K2 (Ch 0 1) Cf ltac:(discriminate) E1) as (C1 & _ & T1).
  unfold compared_by_metrics, match_trajectories. cbn [m_method timely max_time_diff].
  destruct (C19_temporal nat query2 (1/2) (half 2 3) r1 K2 (Ch 2 3) C1 ltac:(lra) ltac:(discriminate)) as [(t' & r' & is & js & E & _)|[E _]]; rewrite E; [|reflexivity]. exfalso.
  destruct (timely_pair query2 query3 seg eigh loc (half 2 3) r1 t' r' K2 (Ch 2 3) C1 ltac:(discriminate)) as (_ & NE & T2).
  { unfold compared_by_metrics, match_trajectories. cbn [m_method timely max_time_diff]. rewrite E. reflexivity. }
  destruct (tstamps r') as [|y l]; [congruence|]. destruct (T2 y (or_introl eq_refl)) as (Y & x2 & X2 & D2). destruct (T1 y Y) as (_ & x1 & X1 & D1).
  apply Rabs_def2 in D1, D2. cbn in X1, X2. destruct X1 as [<-|[<-|[]]], X2 as [<-|[<-|[]]]; lra.
Qed.
Print Assumptions C167_alone_refuted.

Example C167_case : knn_contract dist2 (brute dist2) /\ knn_contract vdist (brute vdist) /\ consistent four /\ consistent (half 0 1) /\
  (* an evaluation that leaves a shorter reference *)
  (exists pairs gt', compared_in_turn (brute dist2) (brute vdist) (fun a _ _ => a) (fun _ => vzero) (fun l => l) timely four [half 0 1] = Ok (pairs, gt') /\ (length (poses gt') < length (poses four))%nat) /\
  (* two estimates with the rate of the reference *)
  compared_in_turn (brute dist2) (brute vdist) (fun a _ _ => a) (fun _ => vzero) (fun l => l) timely (three [0; 1; 2]) [three [1/4; 3/4; 9/4]; three [0; 1; 2]] =
    Ok ([(three [1/4; 3/4; 9/4], three [0; 1; 2]); (three [0; 1; 2], three [0; 1; 2])], three [0; 1; 2]).
Proof.
  split; [apply brute_contract|]. split; [apply brute_contract|]. assert (Cf : consistent four) by (repeat split). assert (Ch : consistent (half 0 1)) by (repeat split). split; [exact Cf|]. split; [exact Ch|]. split.
  - destruct (C167_alone_refuted (brute dist2) (brute vdist) (fun a _ _ => a) (fun _ => vzero) (fun l => l) (brute_contract dist2)) as ((p & E) & _). cbn [compared_in_turn]. rewrite E. destruct p as [t r]. cbn [bind fst snd]. exists [(t, r)], r. split; [reflexivity|].
    destruct (timely_pair _ _ _ _ _ (half 0 1) four t r (brute_contract dist2) Ch Cf ltac:(discriminate) E) as (Cr & _ & T).
    destruct (one_call (brute dist2) (brute vdist) (fun a _ _ => a) (fun _ => vzero) (fun l => l) (brute_contract dist2) (brute_contract vdist) timely four (half 0 1) t r Cf Ch ltac:(cbn; lra) ltac:(cbn; lra) ltac:(discriminate) E) as (_ & _ & P).
    assert (L := part_length _ _ P). destruct (Nat.eq_dec (length (poses r)) (length (poses four))) as [Q|Q]; [|lia]. exfalso.
    assert (EQ : poses r = poses four). { clear - P Q. induction P as [|a l l' P IH|a l l' P IH]; [reflexivity|f_equal; apply IH; cbn in Q; lia|]. apply part_length in P. cbn in Q. lia. }
    assert (X := poses_nth r 3 Cr). rewrite EQ in X. cbn in X. unfold pose_at in X. destruct (nth_error (tstamps r) 3) as [y|] eqn:Y; [|discriminate].
    destruct (T y (nth_error_In _ _ Y)) as (_ & x & X1 & D). destruct (nth_error (xyz r) 3), (nth_error (arc r) 3), (nth_error (speed r) 3); try discriminate.
    assert (y = 3) as ->. { destruct (rot r) as [q|]; [destruct (nth_error q 3); [|discriminate]|]; congruence. }
    apply Rabs_def2 in D. cbn in X1. destruct X1 as [<-|[<-|[]]]; lra.
  - assert (C : forall a b c, consistent (three [a; b; c])) by (intros; repeat split).
    assert (SO : forall a b c, a < b -> b < c -> strictly_time_sorted (three [a; b; c])) by (intros; unfold strictly_time_sorted; cbn; repeat constructor; lra).
    apply (C167_same_rate nat (brute dist2) (brute vdist) _ _ _ timely (1/4)); try solve [apply brute_contract|reflexivity|apply C|cbn; lia|apply SO; lra|cbn; lra].
    + intros a b (A & B & O & _). destruct A as [<-|[<-|[<-|[]]]], B as [<-|[<-|[<-|[]]]]; lra.
    + constructor; [|constructor; [|constructor]]; (split; [apply C|split; [reflexivity|split; [apply SO; lra|]]]); intros [|[|[|i]]] x y X Y; cbn in X, Y; try (destruct i; discriminate); injection X as <-; injection Y as <-; unfold Rabs; destruct Rcase_abs; lra.
Qed.
