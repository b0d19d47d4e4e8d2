(** Properties C129 and C130: repeating and combining operations. *)
From Verif Require Import Base BaseFacts NumpyModel NumpyFacts TrajModel TrajSpec TrajFacts TrajFacts2 TrajFacts3 TrajProps
  MergeModel MergeSpec MergeFacts MergeProps LawSpec.

(** * C129 *)
(** Cropping twice is cropping to the common part of the spans, in any order. *)
Theorem C129_crop : forall Q (t : traj Q) a b c d t1, consistent t -> crop t a b false = Ok t1 ->
  crop t1 c d false = crop t (Rmax a c) (Rmin b d) false /\
  exists t2, crop t c d false = Ok t2 /\ crop t2 a b false = crop t1 c d false.
Proof.
  intros Q. assert (K : forall (t : traj Q) a b c d t1, consistent t -> crop t a b false = Ok t1 -> crop t1 c d false = crop t (Rmax a c) (Rmin b d) false).
  { intros t a b c d t1 H E. destruct (crop_spec t a b false H) as [u [E1 [C1 [M1 P1]]]]. rewrite E in E1. injection E1 as <-.
    destruct (crop_spec t1 c d false C1) as [u [E2 [C2 [M2 P2]]]]. destruct (crop_spec t (Rmax a c) (Rmin b d) false H) as [w [E3 [C3 [M3 P3]]]].
    rewrite E2, E3. f_equal. apply traj_ext; [exact C2|exact C3| |].
    - rewrite P2, P3, P1, filter_filter. apply filter_ext. intro p. apply eq_true_iff_eq. rewrite andb_true_iff, !in_span_true.
      unfold Rmax, Rmin. destruct (Rle_dec a c), (Rle_dec b d); lra.
    - unfold same_meta in *. intuition congruence. }
  intros t a b c d t1 H E. split; [apply K; assumption|].
  destruct (crop_spec t c d false H) as [t2 [E2 _]]. exists t2. split; [exact E2|].
  rewrite (K t c d a b t2 H E2), (K t a b c d t1 H E). rewrite Rmax_comm, Rmin_comm. reflexivity.
Qed.
Print Assumptions C129_crop.

Lemma strict_same (l l' : list R) : StronglySorted Rlt l -> StronglySorted Rlt l' -> (forall x, In x l <-> In x l') -> l = l'.
Proof.
  revert l'. induction l as [|a l IH]; intros [|b l'] S1 S2 H; [reflexivity|exfalso; apply (H b); left; reflexivity|exfalso; apply (H a); left; reflexivity|].
  inversion S1 as [|x y S1' F1]; inversion S2 as [|x' y' S2' F2]; subst. rewrite Forall_forall in F1, F2.
  assert (a = b).
  { destruct (proj1 (H a) (or_introl eq_refl)) as [<-|I]; [reflexivity|]. destruct (proj2 (H b) (or_introl eq_refl)) as [->|J]; [reflexivity|].
    specialize (F1 b J). specialize (F2 a I). lra. }
  subst b. f_equal. apply IH; [assumption|assumption|]. intro x. split; intro I.
  - destruct (proj1 (H x) (or_intror I)) as [<-|J]; [|exact J]. specialize (F1 a I). lra.
  - destruct (proj2 (H x) (or_intror I)) as [<-|J]; [|exact J]. specialize (F2 a I). lra.
Qed.

Lemma strict_position (l : list R) i j x : StronglySorted Rlt l -> nth_error l i = Some x -> nth_error l j = Some x -> i = j.
Proof.
  intros S I J. rewrite StronglySorted_nth in S. destruct (Nat.lt_trichotomy i j) as [L|[L|L]]; [|exact L|].
  - specialize (S i j x x L I J). lra.
  - specialize (S j i x x L J I). lra.
Qed.

(** Keeping the common time stamps a second time changes nothing, and two trajectories reduced to each other's time stamps
    have the same time stamps. *)
Theorem C129_match : forall Q (t u : traj Q) t' u', consistent t -> consistent u ->
  match_timestamps t (tstamps u) = Ok t' -> match_timestamps u (tstamps t) = Ok u' ->
  tstamps t' = tstamps u' /\ match_timestamps t' (tstamps u') = Ok t' /\ match_timestamps t' (tstamps u) = Ok t'.
Proof.
  intros Q t u t' u' Ht Hu Et Eu.
  destruct (match_timestamps_spec t (tstamps u) Ht) as [x [E [Ct [Mt [St [It Pt]]]]]]. rewrite Et in E. injection E as <-.
  destruct (match_timestamps_spec u (tstamps t) Hu) as [x [E [Cu [Mu [Su [Iu Pu]]]]]]. rewrite Eu in E. injection E as <-.
  assert (T : tstamps t' = tstamps u').
  { apply strict_same; [exact St|exact Su|]. intro x. rewrite It, Iu. tauto. }
  assert (K : forall ts, (forall x, In x (tstamps t') -> In x ts) -> match_timestamps t' ts = Ok t').
  { intros ts I. destruct (match_timestamps_spec t' ts Ct) as [w [E [Cw [Mw [Sw [Iw Pw]]]]]]. rewrite E. f_equal.
    assert (TW : tstamps w = tstamps t') by (apply strict_same; [exact Sw|exact St|]; intro x; rewrite Iw; specialize (I x); tauto).
    symmetry. apply traj_ext; [exact Ct|exact Cw| |exact Mw]. apply nth_error_ext. intro i.
    destruct (poses_components w Cw) as [TC _]. destruct (poses_components t' Ct) as [TC' _].
    destruct (nth_error (poses w) i) as [p|] eqn:P.
    - destruct (Pw p (nth_error_In _ _ P)) as [k [A B]]. rewrite <- (poses_nth t' k Ct) in A. rewrite <- A. f_equal.
      apply (strict_position (tstamps t') i k (p_t p) St).
      + rewrite <- TW, <- TC, nth_error_map', P. reflexivity.
      + rewrite <- TC', nth_error_map', A. reflexivity.
    - apply nth_error_None. apply nth_error_None in P. rewrite <- (map_length p_t), TC' , <- TW, <- TC, map_length. exact P. }
  split; [exact T|]. split; apply K.
  - intros x I. rewrite <- T. exact I.
  - intros x I. apply It in I. tauto.
Qed.
Print Assumptions C129_match.

Lemma kept_all {A} (P : A -> Prop) (l l' : list A) : kept P l l' -> (forall a, In a l -> P a) -> l' = l.
Proof. induction 1 as [|a l l' Pa K IH|a l l' Pa K IH]; intro H; [reflexivity| |]. - f_equal. apply IH. intros; apply H; right; assumption. - exfalso. apply Pa, H. left. reflexivity. Qed.
Lemma kept_in {A} (P : A -> Prop) (l l' : list A) : kept P l l' -> forall a, In a l' <-> In a l /\ P a.
Proof. induction 1 as [|a l l' Pa K IH|a l l' Pa K IH]; intro x; cbn; [tauto| |]; rewrite IH; intuition (subst; tauto). Qed.

Lemma bounds_exist (l : list R) : l <> [] -> exists a b, is_min l a /\ is_max l b.
Proof.
  induction l as [|x l IH]; [congruence|]. intros _. destruct l as [|y l].
  - exists x, x. split; split; [left; reflexivity| |left; reflexivity|]; intros z [<-|[]]; lra.
  - destruct IH as [a [b [[A1 A2] [B1 B2]]]]; [discriminate|]. exists (Rmin x a), (Rmax x b). split; split.
    + unfold Rmin. destruct (Rle_dec x a); [left; reflexivity|right; exact A1].
    + intros z [<-|I]; [apply Rmin_l|]. apply Rle_trans with a; [apply Rmin_r|apply A2, I].
    + unfold Rmax. destruct (Rle_dec x b); [right; exact B1|left; reflexivity].
    + intros z [<-|I]; [apply Rmax_l|]. apply Rle_trans with b; [apply B2, I|apply Rmax_r].
Qed.

(** Intersecting a second time changes nothing if a pose is left.  What is missing: nothing left ([C129_refuted]). *)
Theorem C129_intersect_partial : forall Q (t : traj Q) ts gap t', consistent t -> intersect t ts gap = Ok t' -> tstamps t' <> [] ->
  intersect t' ts gap = Ok t'.
Proof.
  intros Q t ts gap t' C E N.
  assert (N1 : ts <> []) by (intros ->; rewrite C06_intersect_empty in E; [discriminate|left; reflexivity]).
  assert (N2 : tstamps t <> []) by (intro Z; rewrite C06_intersect_empty in E; [discriminate|right; exact Z]).
  destruct (bounds_exist ts N1) as [a0 [a1 [A0 A1]]]. destruct (bounds_exist (tstamps t) N2) as [b0 [b1 [B0 B1]]].
  destruct (C06_intersect Q t ts gap a0 a1 b0 b1 C A0 A1 B0 B1) as [F1 [F2 _]].
  destruct (Rle_or_lt (Rmax a0 b0) (Rmin a1 b1)) as [L|L]; [|apply F2 in L; congruence].
  destruct (F1 L) as [w [E' [C' [M' K]]]]. rewrite E in E'. injection E' as <-.
  destruct (bounds_exist (tstamps t') N) as [c0 [c1 [D0 D1]]].
  assert (B : forall x, In x (tstamps t') -> Rmax a0 b0 <= x <= Rmin a1 b1 /\ supported ts gap x).
  { intros x I. rewrite <- (proj1 (poses_components t' C')) in I. apply in_map_iff in I as [p [<- I]]. apply (kept_in _ _ _ K) in I. apply I. }
  destruct (C06_intersect Q t' ts gap a0 a1 c0 c1 C' A0 A1 D0 D1) as [G1 _].
  assert (L' : Rmax a0 c0 <= Rmin a1 c1).
  { assert (X := proj1 (B c0 (proj1 D0))). assert (Y := proj1 (B c1 (proj1 D1))). assert (Z := proj2 D0 c1 (proj1 D1)).
    revert X Y. unfold Rmax, Rmin. destruct (Rle_dec a0 b0), (Rle_dec a1 b1), (Rle_dec a0 c0), (Rle_dec a1 c1); lra. }
  destruct (G1 L') as [w [E2 [C2 [M2 K2]]]]. rewrite E2. f_equal. symmetry. apply traj_ext; [exact C'|exact C2| |exact M2].
  symmetry. apply (kept_all _ _ _ K2). intros p I. assert (J : In (p_t p) (tstamps t')) by (rewrite <- (proj1 (poses_components t' C')); apply in_map, I).
  destruct (B _ J) as [X Y]. split; [|exact Y]. assert (Z0 := proj2 D0 _ J). assert (Z1 := proj2 D1 _ J).
  revert X. unfold Rmax, Rmin. destruct (Rle_dec a0 b0), (Rle_dec a1 b1), (Rle_dec a0 c0), (Rle_dec a1 c1); lra.
Qed.
Print Assumptions C129_intersect_partial.

(** REFUTED: if nothing is left, intersecting again raises an exception. *)
Theorem C129_refuted : exists (t t' : traj nat) ts, consistent t /\ intersect t ts 2 = Ok t' /\ intersect t' ts 2 = Err IndexError.
Proof.
  pose (t := mkTraj [1] [vzero] (Some [5%nat]) [0] [vzero] SortTime "alone" 0).
  assert (C : consistent t) by (repeat split).
  assert (A0 : is_min [0; 10] 0) by (split; [left; reflexivity|intros y [<-|[<-|[]]]; lra]).
  assert (A1 : is_max [0; 10] 10) by (split; [right; left; reflexivity|intros y [<-|[<-|[]]]; lra]).
  assert (B0 : is_min (tstamps t) 1) by (split; [left; reflexivity|intros y [<-|[]]; lra]).
  assert (B1 : is_max (tstamps t) 1) by (split; [left; reflexivity|intros y [<-|[]]; lra]).
  destruct (proj1 (C06_intersect nat t [0; 10] 2 0 10 1 1 C A0 A1 B0 B1)) as [t' [E [C' [M K]]]].
  { unfold Rmax, Rmin. destruct (Rle_dec 0 1), (Rle_dec 10 1); lra. }
  exists t, t', [0; 10]. split; [exact C|]. split; [exact E|]. apply C06_intersect_empty. right.
  destruct (tstamps t') as [|x l] eqn:T; [reflexivity|]. exfalso.
  assert (I : In x (tstamps t')) by (rewrite T; left; reflexivity).
  rewrite <- (proj1 (poses_components t' C')) in I. apply in_map_iff in I as [p [<- I]]. apply (kept_in _ _ _ K) in I as [I [_ S]].
  destruct I as [<-|[]]. cbn in S. destruct S as [[S|[S|[]]]|[a [b [[A [B [L _]]] [X Y]]]]]; [lra|lra|].
  destruct A as [<-|[<-|[]]], B as [<-|[<-|[]]]; lra.
Qed.
Print Assumptions C129_refuted.

Lemma slerp_knot {Q} (seg : Q -> Q -> R -> Q) ts r i x q : hits_ends seg -> StronglySorted Rlt ts -> length r = length ts -> (2 <= length ts)%nat ->
  nth_error ts i = Some x -> nth_error r i = Some q -> slerp_at seg (combine ts r) x = Ok q.
Proof.
  intros H SS L N X Y.
  assert (F : map fst (combine ts r) = ts) by (apply map_fst_combine; lia).
  destruct i as [|i].
  - destruct (nth_error_lt_Some ts 1) as [b B]; [lia|]. destruct (nth_error_lt_Some r 1) as [q' Q']; [lia|].
    rewrite (slerp_at_segment seg (combine ts r) x 0 x q b q').
    + unfold Rdiv. rewrite Rminus_diag_eq by reflexivity. rewrite Rmult_0_l. f_equal. apply H.
    + rewrite F. exact SS.
    + rewrite nth_error_combine, X, Y. reflexivity.
    + rewrite nth_error_combine, B, Q'. reflexivity.
    + right. split; reflexivity.
  - assert (I : (Datatypes.S i < length ts)%nat) by (apply nth_error_Some; congruence).
    destruct (nth_error_lt_Some ts i) as [a A]; [lia|]. destruct (nth_error_lt_Some r i) as [q' Q']; [lia|].
    assert (LT : a < x) by (rewrite StronglySorted_nth in SS; apply (SS i (Datatypes.S i)); [lia|exact A|exact X]).
    rewrite (slerp_at_segment seg (combine ts r) x i a q' x q).
    + unfold Rdiv. rewrite Rinv_r by lra. f_equal. apply H.
    + rewrite F. exact SS.
    + rewrite nth_error_combine, A, Q'. reflexivity.
    + rewrite nth_error_combine, X, Y. reflexivity.
    + left. lra.
Qed.

(** Time stamps that the trajectory has keep their poses. *)
Lemma knots {Q} (seg : Q -> Q -> R -> Q) (t t' : traj Q) req : hits_ends seg -> consistent t -> strictly_time_sorted t -> (rot t = None \/ (2 <= tlen t)%nat) ->
  interpolate seg t req = Ok t' -> forall i k x, nth_error (tstamps t') i = Some x -> nth_error (tstamps t) k = Some x ->
  nth_error (xyz t') i = nth_error (xyz t) k /\ nth_error (arc t') i = nth_error (arc t) k /\
  match rot t, rot t' with None, None => True | Some r, Some r' => nth_error r' i = nth_error r k | _, _ => False end.
Proof.
  intros H C SS O E i k x I K. assert (P : (0 < tlen t)%nat). { unfold tlen. rewrite <- (proj1 C). apply nth_error_Some_lt in K. lia. }
  destruct (interpolate_ok seg t req C SS P O) as (lo & hi & u & _ & _ & E' & T & X & A & _ & _ & _ & _ & RO). rewrite E in E'. injection E' as <-.
  destruct C as [C1 [C2 [C3 C4]]]. assert (KL := nth_error_Some_lt _ _ _ K).
  destruct (nth_error_lt_Some (xyz t) k) as [p Hp]; [lia|]. destruct (nth_error_lt_Some (arc t) k) as [l Hl]; [lia|].
  split; [|split].
  - rewrite X, nth_error_map', I, Hp. cbn. f_equal.
    apply V3_eq; cbn; (apply (interp_value_knot _ _ k); [exact SS|rewrite map_length; exact C1|exact K|rewrite nth_error_map', Hp; reflexivity]).
  - rewrite A, nth_error_map', I, Hl. cbn. f_equal. apply (interp_value_knot _ _ k); [exact SS|lia|exact K|exact Hl].
  - destruct (rot t) as [r|]; [|rewrite RO; exact Logic.I]. destruct RO as [[Z _]|[q [-> M]]]; [rewrite Z in I; destruct i; discriminate|].
    destruct (nth_error_lt_Some r k) as [v Hv]; [lia|]. assert (Hn := mapM_nth_error _ _ _ i M). rewrite I in Hn. destruct Hn as [y [Y ->]].
    rewrite (slerp_knot seg (tstamps t) r k x v H SS) in Y; [congruence|lia| |exact K|exact Hv].
    destruct O as [O|O]; [discriminate|unfold tlen in O; lia].
Qed.

Lemma strict_weak (l : list R) : StronglySorted Rlt l -> StronglySorted Rle l.
Proof. induction 1 as [|a l S IH F]; constructor; [exact IH|]. rewrite Forall_forall in *. intros x I. apply Rlt_le, F, I. Qed.

Lemma sorted_ends (l : list R) lo hi : StronglySorted Rle l -> np_get l 0 = Ok lo -> np_get l (-1) = Ok hi -> forall x, In x l -> lo <= x <= hi.
Proof.
  intros SS A B x I. destruct l as [|y l]; [destruct I|].
  destruct (nth_error_lt_Some (y :: l) (length (y :: l) - 1)) as [z Z]; [cbn; lia|].
  rewrite (np_get_last (y :: l) z) in B; [injection B as <-|discriminate|exact Z]. rewrite (np_get_head (y :: l) y eq_refl) in A. injection A as <-.
  apply In_nth_error in I as [i I]. rewrite StronglySorted_nth in SS. split.
  - destruct i; [injection I as ->; lra|]. apply (SS 0%nat (Datatypes.S i)); [lia|reflexivity|exact I].
  - assert (L := nth_error_Some_lt _ _ _ I). destruct (Nat.eq_dec i (length (y :: l) - 1)) as [->|N]; [rewrite Z in I; injection I as ->; lra|].
    apply (SS i (length (y :: l) - 1)%nat); [lia|exact I|exact Z].
Qed.

(** Interpolating at the own time stamps changes neither times, positions, arc lengths nor orientations. *)
Theorem C129_interpolate : forall Q (seg : Q -> Q -> R -> Q) (t : traj Q), hits_ends seg -> consistent t -> strictly_time_sorted t ->
  (0 < tlen t)%nat -> (rot t = None \/ (2 <= tlen t)%nat) ->
  exists t', interpolate seg t (tstamps t) = Ok t' /\ tstamps t' = tstamps t /\ xyz t' = xyz t /\ rot t' = rot t /\ arc t' = arc t /\ same_meta t t'.
Proof.
  intros Q seg t H C SS P O. destruct (interpolate_ok seg t (tstamps t) C SS P O) as (lo & hi & t' & L & U & E & T & X & A & _ & M1 & M2 & M3 & RO).
  assert (T' : tstamps t' = tstamps t).
  { rewrite T, np_sort_id by (apply strict_weak, SS). apply filter_true. intros x I. unfold in_range.
    destruct (sorted_ends _ lo hi (strict_weak _ SS) L U x I) as [A1 A2]. apply andb_true_iff. split; apply Rleb_true; assumption. }
  assert (K := knots seg t t' (tstamps t) H C SS O E). assert (CC := C). destruct C as [C1 [C2 [C3 C4]]].
  assert (N : tstamps t' <> []) by (rewrite T'; unfold tlen in P; destruct (tstamps t); [cbn in C1; lia|discriminate]).
  destruct (C09_interpolate_consistent_partial Q seg t (tstamps t) t' E N) as [D1 [D2 [D3 D4]]].
  assert (G : forall A (l' l : list A), length l' = length (tstamps t) -> length l = length (tstamps t) ->
    (forall i x, nth_error (tstamps t) i = Some x -> nth_error l' i = nth_error l i) -> l' = l).
  { intros B l' l L1 L2 Y. apply nth_error_ext. intro i. destruct (nth_error (tstamps t) i) as [x|] eqn:Z; [apply (Y i x Z)|].
    apply nth_error_None in Z. rewrite (proj2 (nth_error_None l' i)), (proj2 (nth_error_None l i)) by lia. reflexivity. }
  exists t'. split; [exact E|]. split; [exact T'|]. rewrite T' in *.
  split; [apply G; [lia|lia|intros i x I; apply (K i i x I I)]|]. split.
  - destruct (rot t) as [r|] eqn:R0.
    + destruct (rot t') as [r'|] eqn:R1.
      * f_equal. apply G; [lia|lia|]. intros i x I. destruct (K i i x I I) as [_ [_ Z]]. exact Z.
      * exfalso. destruct (tstamps t) as [|x l]; [congruence|]. destruct (K 0%nat 0%nat x eq_refl eq_refl) as [_ [_ Z]]. exact Z.
    + exact RO.
  - split; [apply G; [lia|lia|intros i x I; apply (K i i x I I)]|].
    split; [exact M1|]. split; [exact M2|]. split; [exact M3|]. destruct (rot t); [|tauto].
    destruct RO as [[_ ->]|[q [-> _]]]; split; discriminate.
Qed.
Print Assumptions C129_interpolate.

Lemma nodup_strict (l : list R) : StronglySorted Rle l -> NoDup l -> StronglySorted Rlt l.
Proof.
  induction 1 as [|a l S IH F]; intro N; constructor; inversion N; subst; [apply IH; assumption|]. rewrite Forall_forall in *.
  intros x I. destruct (F x I) as [L|E]; [exact L|subst; contradiction].
Qed.
Lemma np_get_In {A} (l : list A) z a : np_get l z = Ok a -> In a l.
Proof. intro H. apply np_get_ok in H as [k [_ K]]. apply (nth_error_In _ _ K). Qed.

(** Interpolating at more time stamps first makes no difference. *)
Theorem C129_steps : forall Q (seg : Q -> Q -> R -> Q) (t t1 : traj Q) more fewer, hits_ends seg -> consistent t -> strictly_time_sorted t ->
  (rot t = None \/ (2 <= tlen t)%nat) -> NoDup more -> (forall x, In x fewer -> In x more) ->
  interpolate seg t more = Ok t1 -> (2 <= tlen t1)%nat ->
  exists t2 t3, interpolate seg t1 fewer = Ok t2 /\ interpolate seg t fewer = Ok t3 /\
  tstamps t2 = tstamps t3 /\ xyz t2 = xyz t3 /\ arc t2 = arc t3 /\ speed t2 = speed t3 /\ (tstamps t2 <> [] -> rot t2 = rot t3) /\ same_meta t2 t3.
Proof.
  intros Q seg t t1 more fewer H C SS O N I E1 P1.
  assert (P : (0 < tlen t)%nat).
  { destruct (tlen t) eqn:Z; [|lia]. exfalso. unfold tlen in Z. assert (Z' : tstamps t = []) by (apply length_zero_iff_nil; rewrite (proj1 C); exact Z).
    unfold interpolate in E1. apply bind_ok in E1 as (ts & F & E1). destruct (np_sort more) as [|x l] eqn:SM.
    - cbn in F. injection F as <-. apply bind_ok in E1 as (u & F & E1). unfold interpolate_positions in F. rewrite Z' in F. cbn in F.
      unfold tlen in P1. destruct (map vx (xyz t)); cbn in F; try discriminate;
      repeat (apply bind_ok in F as (? & ? & F)); try discriminate.
      all: try (apply length_zero_iff_nil in Z; rewrite Z in *; cbn in *; discriminate).
    - rewrite Z' in F. cbn in F. discriminate. }
  destruct (interpolate_ok seg t more C SS P O) as (lo & hi & u & L & U & E & T & X & A & G & M1 & M2 & M3 & RO). rewrite E1 in E. injection E as <-.
  assert (NE1 : tstamps t1 <> []).
  { intro Z. rewrite Z in X. cbn in X. unfold tlen in P1. rewrite X in P1. cbn in P1. lia. }
  assert (C1 := C09_interpolate_consistent_partial Q seg t more t1 E1 NE1).
  assert (S1 : strictly_time_sorted t1).
  { unfold strictly_time_sorted. rewrite T. apply nodup_strict; [apply StronglySorted_filter, np_sort_sorted|].
    apply NoDup_filter, (Permutation_NoDup (Permutation_sym (np_sort_perm more))), N. }
  destruct (interpolate_ok seg t1 fewer C1 S1 ltac:(lia) (or_intror P1)) as (lo1 & hi1 & t2 & L1 & U1 & E2 & T2 & X2 & A2 & G2 & N1 & N2 & N3 & RO2).
  destruct (interpolate_ok seg t fewer C SS P O) as (lo' & hi' & t3 & L' & U' & E3 & T3 & X3 & A3 & G3 & K1 & K2 & K3 & RO3).
  rewrite L in L'. injection L' as <-. rewrite U in U'. injection U' as <-.
  assert (IN : forall x, In x (tstamps t1) <-> In x more /\ in_range lo hi x = true) by (intro x; rewrite T, filter_In, In_np_sort; tauto).
  assert (EN := sorted_ends _ lo1 hi1 (strict_weak _ S1) L1 U1).
  assert (LO : In lo1 (tstamps t1)) by (eapply np_get_In; exact L1).
  assert (HI : In hi1 (tstamps t1)) by (eapply np_get_In; exact U1).
  assert (T23 : tstamps t2 = tstamps t3).
  { rewrite T2, T3. apply filter_ext_in. intros x J. apply (proj1 (In_np_sort x fewer)) in J. apply eq_true_iff_eq. split; intro Y.
    - apply IN in LO, HI. destruct LO as [_ LO], HI as [_ HI]. unfold in_range in *. rewrite andb_true_iff, !Rleb_true in *. lra.
    - unfold in_range. rewrite andb_true_iff, !Rleb_true. apply EN, IN. split; [apply I, J|exact Y]. }
  assert (MEM : forall x, In x (tstamps t2) -> exists k, nth_error (tstamps t1) k = Some x).
  { intros x J. apply In_nth_error. apply IN. rewrite T23, T3, filter_In, In_np_sort in J. destruct J as [J Y]. split; [apply I, J|exact Y]. }
  assert (KN := knots seg t1 t2 fewer H C1 S1 (or_intror P1) E2).
  assert (XX : xyz t2 = xyz t3).
  { apply nth_error_ext. intro i. rewrite X3, <- T23, nth_error_map'. destruct (nth_error (tstamps t2) i) as [x|] eqn:J.
    - destruct (MEM x (nth_error_In _ _ J)) as [k K]. rewrite (proj1 (KN i k x J K)), X, nth_error_map', K. reflexivity.
    - rewrite X2, nth_error_map', J. reflexivity. }
  assert (AA : arc t2 = arc t3).
  { apply nth_error_ext. intro i. rewrite A3, <- T23, nth_error_map'. destruct (nth_error (tstamps t2) i) as [x|] eqn:J.
    - destruct (MEM x (nth_error_In _ _ J)) as [k K]. rewrite (proj1 (proj2 (KN i k x J K))), A, nth_error_map', K. reflexivity.
    - rewrite A2, nth_error_map', J. reflexivity. }
  exists t2, t3. split; [exact E2|]. split; [exact E3|]. split; [exact T23|]. split; [exact XX|]. split; [exact AA|].
  split; [rewrite XX, T23 in G2; congruence|].
  assert (RR : tstamps t2 <> [] -> rot t2 = rot t3).
  { intro NE2. assert (NE3 : tstamps t3 <> []) by (rewrite <- T23; exact NE2).
    destruct (rot t) as [r|] eqn:R0; [|rewrite RO in RO2; congruence].
    destruct RO as [[Z _]|[q1 [R1 Q1]]]; [contradiction|]. rewrite R1 in *.
    destruct RO2 as [[Z _]|[q2 [R2 Q2]]]; [contradiction|]. destruct RO3 as [[Z _]|[q3 [R3 Q3]]]; [contradiction|].
    rewrite R2, R3. f_equal. rewrite R2 in KN. apply nth_error_ext. intro i.
    assert (Y3 := mapM_nth_error _ _ _ i Q3). rewrite <- T23 in Y3. assert (Y2 := mapM_nth_error _ _ _ i Q2).
    destruct (nth_error (tstamps t2) i) as [x|] eqn:J; [|congruence].
    destruct Y3 as [y3 [Z3 ->]]. destruct (MEM x (nth_error_In _ _ J)) as [k K]. rewrite (proj2 (proj2 (KN i k x J K))).
    assert (Y1 := mapM_nth_error _ _ _ k Q1). rewrite K in Y1. destruct Y1 as [y1 [Z1 ->]]. congruence. }
  split; [exact RR|]. unfold same_meta. split; [congruence|]. split; [congruence|]. split; [congruence|].
  destruct (rot t) as [r|] eqn:R0.
  - destruct RO as [[Z _]|[q1 [R1 Q1]]]; [contradiction|]. rewrite R1 in *.
    destruct RO2 as [[_ ->]|[q2 [-> _]]], RO3 as [[_ ->]|[q3 [-> _]]]; split; discriminate.
  - rewrite RO in RO2. rewrite RO2, RO3. tauto.
Qed.
Print Assumptions C129_steps.

Definition halfway (a b : nat) (w : R) : nat := if Rleb w (1/2) then a else b.
Lemma halfway_ends : hits_ends halfway.
Proof. intros p q. unfold halfway. split; [rewrite (proj2 (Rleb_true 0 (1/2))) by lra|rewrite (proj2 (Rleb_false 1 (1/2))) by lra]; reflexivity. Qed.

(** The trajectory [demo] meets the hypotheses: interpolated at three time stamps, then at one of them. *)
Example C129_case : hits_ends halfway /\ consistent demo /\ strictly_time_sorted demo /\ NoDup [2; 1; 5] /\
  (exists t1, interpolate halfway demo [2; 1; 5] = Ok t1 /\ (2 <= tlen t1)%nat) /\
  exists t1, crop demo 0 2 false = Ok t1 /\ tstamps t1 <> [] /\ exists t', intersect demo [0; 1] 2 = Ok t' /\ tstamps t' <> [].
Proof.
  split; [exact halfway_ends|]. split; [apply demo_consistent|]. split; [apply demo_consistent|].
  split; [repeat constructor; cbn; intuition lra|]. split.
  - unfold interpolate, crop_request, np_sort. cbn. rb. cbn. rb. cbn. rb. cbn. eexists. split; [reflexivity|]. cbn. lia.
  - destruct (crop_kept demo 0 2 ) as (t1 & t2 & E1 & _ & C1 & _ & _ & _ & K & _); [apply demo_consistent|].
    exists t1. split; [exact E1|]. split.
    + rewrite <- (proj1 (poses_components t1 C1)). intro Z. assert (I : In 0 (map p_t (poses t1))); [|rewrite Z in I; destruct I].
      apply in_map_iff. eexists. split; [|apply (kept_in _ _ _ K); split; [left; reflexivity|cbn; lra]]. reflexivity.
    + assert (A0 : is_min [0; 1] 0) by (split; [left; reflexivity|intros y [<-|[<-|[]]]; lra]).
      assert (A1 : is_max [0; 1] 1) by (split; [right; left; reflexivity|intros y [<-|[<-|[]]]; lra]).
      assert (B0 : is_min (tstamps demo) 0) by (split; [left; reflexivity|intros y [<-|[<-|[<-|[]]]]; lra]).
      assert (B1 : is_max (tstamps demo) 3) by (split; [right; right; left; reflexivity|intros y [<-|[<-|[<-|[]]]]; lra]).
      destruct (proj1 (C06_intersect nat demo [0; 1] 2 0 1 0 3 (proj1 demo_consistent) A0 A1 B0 B1)) as [t' [E [C' [M K']]]].
      { unfold Rmax, Rmin. destruct (Rle_dec 0 0), (Rle_dec 1 3); lra. }
      exists t'. split; [exact E|]. rewrite <- (proj1 (poses_components t' C')). intro Z. assert (I : In 0 (map p_t (poses t'))); [|rewrite Z in I; destruct I].
      apply in_map_iff. eexists. split; [|apply (kept_in _ _ _ K'); split; [left; reflexivity|]]; [reflexivity|]. cbn. split; [|left; left; reflexivity].
      unfold Rmax, Rmin. destruct (Rle_dec 0 0), (Rle_dec 1 3); lra.
Qed.

(** * C130 *)
Lemma sorted_keys {A} (key : A -> R) (l l' : list A) : StronglySorted Rlt (map key l) -> StronglySorted Rlt (map key l') -> Permutation l l' -> l = l'.
Proof.
  revert l'. induction l as [|a l IH]; intros l' S1 S2 P; [apply Permutation_nil in P; symmetry; exact P|].
  destruct l' as [|b l']; [symmetry in P; apply Permutation_nil in P; discriminate|].
  cbn in S1, S2. inversion S1 as [|x y S1' F1]; inversion S2 as [|x' y' S2' F2]; subst. rewrite Forall_forall in F1, F2.
  assert (a = b).
  { destruct (Permutation_in a P (or_introl eq_refl)) as [E|I]; [symmetry; exact E|].
    destruct (Permutation_in b (Permutation_sym P) (or_introl eq_refl)) as [E|J]; [exact E|].
    assert (X := F1 _ (in_map key _ _ J)). assert (Y := F2 _ (in_map key _ _ I)). lra. }
  subst b. f_equal. apply IH; [assumption|assumption|]. apply (Permutation_cons_inv P).
Qed.

Lemma flat_map_map' {A B C} (f : A -> list B) (g : B -> C) l : map g (flat_map f l) = flat_map (fun x => map g (f x)) l.
Proof. induction l as [|a l IH]; [reflexivity|]. cbn. rewrite map_app, IH. reflexivity. Qed.
Lemma flat_map_ext_in' {A B} (f g : A -> list B) l : (forall a, In a l -> f a = g a) -> flat_map f l = flat_map g l.
Proof. induction l as [|a l IH]; intro H; [reflexivity|]. cbn. rewrite (H a (or_introl eq_refl)), IH; [reflexivity|]. intros b I. apply H. right. exact I. Qed.
Lemma NoDup_left {A} (l r : list A) : NoDup (l ++ r) -> NoDup l.
Proof. induction l as [|a l IH]; intro H; [constructor|]. inversion H; subst. constructor; [|apply IH; assumption]. intro I. apply H2, in_or_app. left. exact I. Qed.
Lemma flat_map_perm {A B} (f : A -> list B) l l' : Permutation l l' -> Permutation (flat_map f l) (flat_map f l').
Proof. apply Permutation_flat_map. Qed.

Lemma stamps_flat {Q} (l : list (traj Q)) : Forall consistent l -> flat_map (fun t => map p_t (poses t)) l = concat (map tstamps l).
Proof.
  induction 1 as [|t l C F IH]; [reflexivity|]. cbn. rewrite IH. f_equal. apply (proj1 (poses_components t C)).
Qed.

(** What merging determines *)
Lemma merged_rows {Q} argsort loc (qid : Q) pop (l : list (traj Q)) m :
  argsort_contract argsort -> (forall p, length (loc p) = length p) -> (forall s, s <> [] -> In (pop s) s) ->
  Forall consistent l -> l <> [] -> NoDup (concat (map tstamps l)) -> merge_trajectories argsort loc qid pop l = Ok m ->
  consistent m /\ strictly_time_sorted m /\ Permutation (tstamps m) (concat (map tstamps l)) /\
  ((exists t, In t l /\ oriented t) -> Permutation (map entry (poses m)) (flat_map (fun t => map (oriented_entry qid) (poses t)) l)) /\
  ((forall t, In t l -> ~ oriented t) -> rot m = None /\ Permutation (map (fun p => (p_t p, p_xyz p)) (poses m)) (flat_map (fun t => map (fun p => (p_t p, p_xyz p)) (poses t)) l)).
Proof.
  intros Ha Hl Hp F N D E. destruct (C25_merge Q argsort loc qid pop l Ha Hl Hp F N) as (m' & E' & C & S1 & P1 & P2 & _). rewrite E in E'. injection E' as <-.
  assert (TP : Permutation (tstamps m) (concat (map tstamps l))).
  { rewrite <- (proj1 (poses_components m C)), <- (stamps_flat l F). destruct (existsb has_orientation l) eqn:X.
    - apply existsb_exists in X as (t & I & O). apply oriented_bool in O. specialize (P1 (ex_intro _ t (conj I O))).
      apply (Permutation_map (fun e => fst (fst e))) in P1. rewrite map_map, flat_map_map' in P1. cbn in P1.
      erewrite (flat_map_ext _ (fun t => map p_t (poses t))) in P1; [exact P1|]. intro u. rewrite map_map. reflexivity.
    - destruct P2 as [_ P2]. { intros t I O. apply oriented_bool in O. assert (Y : existsb has_orientation l = true) by (apply existsb_exists; exists t; split; assumption). congruence. }
      apply (Permutation_map fst) in P2. rewrite map_map, flat_map_map' in P2. cbn in P2.
      erewrite (flat_map_ext _ (fun t => map p_t (poses t))) in P2; [exact P2|]. intro u. rewrite map_map. reflexivity. }
  split; [exact C|]. split; [|split; [exact TP|split; assumption]].
  apply nodup_strict; [exact S1|]. apply (Permutation_NoDup (Permutation_sym TP)), D.
Qed.

(** Two merged trajectories with the same rows are the same. *)
Lemma same_rows {Q} (m m' : traj Q) (rows : list (R * V3 * option Q)) : consistent m -> consistent m' -> strictly_time_sorted m -> strictly_time_sorted m' ->
  (forall r, In r rows -> snd r <> None) -> rows <> [] -> Permutation (map entry (poses m)) rows -> Permutation (map entry (poses m')) rows -> same_contents m m'.
Proof.
  intros C C' S1 S2 RS NE P P'.
  destruct (poses_components m C) as [T [X [RO _]]]. destruct (poses_components m' C') as [T' [X' [RO' _]]].
  assert (K : forall u : traj Q, map (fun e : R * V3 * option Q => fst (fst e)) (map entry (poses u)) = map p_t (poses u)) by (intro u; rewrite map_map; reflexivity).
  assert (E : map entry (poses m) = map entry (poses m')).
  { apply (sorted_keys (fun e => fst (fst e))).
    - rewrite K, T. exact S1.
    - rewrite K, T'. exact S2.
    - rewrite P, P'. reflexivity. }
  split; [|split].
  - rewrite <- T, <- T', <- K, E, K. reflexivity.
  - rewrite <- X, <- X'. assert (Y := f_equal (map (fun e => snd (fst e))) E). rewrite !map_map in Y. exact Y.
  - assert (Y := f_equal (map snd) E). rewrite !map_map in Y. cbn in Y.
    change (map (fun x : pose Q => p_rot x)) with (map (@p_rot Q)) in Y. rewrite RO, RO' in Y. unfold rots_of in Y.
    assert (SOME : forall u : traj Q, consistent u -> Permutation (map entry (poses u)) rows -> exists q, rot u = Some q).
    { intros u Cu Pu. destruct (rot u) as [q|] eqn:Z; [eexists; reflexivity|]. exfalso. destruct rows as [|r rows]; [congruence|].
      apply (RS r (or_introl eq_refl)).
      assert (I : In r (map entry (poses u))) by (apply (Permutation_in r (Permutation_sym Pu)); left; reflexivity).
      apply in_map_iff in I as (p & <- & I). cbn. assert (J : In (p_rot p) (map p_rot (poses u))) by (apply in_map, I).
      rewrite (proj1 (proj2 (proj2 (poses_components u Cu)))) in J. unfold rots_of in J. rewrite Z in J. apply in_map_iff in J as (_ & <- & _). reflexivity. }
    destruct (SOME m C P) as [q Z], (SOME m' C' P') as [q' Z']. rewrite Z, Z' in *. f_equal. apply map_Some_inj, Y.
Qed.

Lemma same_pairs {Q} (m m' : traj Q) rows : consistent m -> consistent m' -> strictly_time_sorted m -> strictly_time_sorted m' ->
  rot m = None -> rot m' = None -> Permutation (map (fun p => (p_t p, p_xyz p)) (poses m)) rows -> Permutation (map (fun p => (p_t p, p_xyz p)) (poses m')) rows -> same_contents m m'.
Proof.
  intros C C' S1 S2 R1 R2 P P'. destruct (poses_components m C) as [T [X _]]. destruct (poses_components m' C') as [T' [X' _]].
  assert (E : map (fun p => (p_t p, p_xyz p)) (poses m) = map (fun p => (p_t p, p_xyz p)) (poses m')).
  { apply (sorted_keys fst).
    - rewrite map_map. cbn. change (map (fun x : pose Q => p_t x)) with (map (@p_t Q)). rewrite T. exact S1.
    - rewrite map_map. cbn. change (map (fun x : pose Q => p_t x)) with (map (@p_t Q)). rewrite T'. exact S2.
    - rewrite P, P'. reflexivity. }
  split; [|split; [|congruence]].
  - assert (Y := f_equal (map fst) E). rewrite !map_map in Y. cbn in Y. rewrite <- T, <- T'. exact Y.
  - assert (Y := f_equal (map snd) E). rewrite !map_map in Y. cbn in Y. rewrite <- X, <- X'. exact Y.
Qed.

Lemma oriented_rows {Q} (qid : Q) (l : list (traj Q)) : Forall consistent l -> (exists t, In t l /\ oriented t) ->
  (forall r, In r (flat_map (fun t => map (oriented_entry qid) (poses t)) l) -> snd r <> None) /\ flat_map (fun t => map (oriented_entry qid) (poses t)) l <> [].
Proof.
  intros F (t & I & q & r & O). split.
  - intros e J. apply in_flat_map in J as (u & _ & J). apply in_map_iff in J as (p & <- & _). unfold oriented_entry. cbn. destruct (p_rot p); discriminate.
  - intro Z. rewrite Forall_forall in F. assert (L := poses_length t (F t I)). destruct (F t I) as [_ [L2 _]]. rewrite O in L2. cbn in L2.
    destruct (poses t) as [|p ps] eqn:P; [unfold tlen in L; cbn in L; lia|].
    assert (J : In (oriented_entry qid p) (flat_map (fun t => map (oriented_entry qid) (poses t)) l)) by (apply in_flat_map; exists t; split; [exact I|rewrite P; left; reflexivity]).
    rewrite Z in J. destruct J.
Qed.

(** Merging does not depend on the order of the trajectories. *)
Theorem C130_order_partial : forall Q argsort loc (qid : Q) pop (l l' : list (traj Q)),
  argsort_contract argsort -> (forall p, length (loc p) = length p) -> (forall s, s <> [] -> In (pop s) s) ->
  Forall consistent l -> l <> [] -> NoDup (concat (map tstamps l)) -> Permutation l l' ->
  exists m m', merge_trajectories argsort loc qid pop l = Ok m /\ merge_trajectories argsort loc qid pop l' = Ok m' /\
    same_contents m m' /\ name m = name m' /\ srt m = srt m' /\ (forall e, (forall t, In t l -> epsg t = e) -> epsg m = e /\ epsg m' = e).
Proof.
  intros Q argsort loc qid pop l l' Ha Hl Hp F N D P.
  assert (F' : Forall consistent l') by (rewrite Forall_forall in *; intros t I; apply F, (Permutation_in t (Permutation_sym P)), I).
  assert (N' : l' <> []) by (intros ->; symmetry in P; apply Permutation_nil in P; contradiction).
  assert (D' : NoDup (concat (map tstamps l'))).
  { rewrite <- flat_map_concat_map in *. apply (Permutation_NoDup (flat_map_perm _ _ _ P) D). }
  destruct (C25_merge Q argsort loc qid pop l Ha Hl Hp F N) as (m & E & _ & _ & _ & _ & N1 & (te & I1 & G1) & M1).
  destruct (C25_merge Q argsort loc qid pop l' Ha Hl Hp F' N') as (m' & E' & _ & _ & _ & _ & N2 & (te' & I2 & G2) & M2).
  exists m, m'. split; [exact E|]. split; [exact E'|]. split; [|split; [congruence|]; split; [congruence|]].
  - destruct (merged_rows argsort loc qid pop l m Ha Hl Hp F N D E) as (C & S1 & _ & P1 & P2).
    destruct (merged_rows argsort loc qid pop l' m' Ha Hl Hp F' N' D' E') as (C' & S2 & _ & P1' & P2').
    destruct (existsb has_orientation l) eqn:X.
    + apply existsb_exists in X as (t & I & O). apply oriented_bool in O.
      assert (O1 : exists t, In t l /\ oriented t) by (exists t; split; assumption).
      assert (O2 : exists t, In t l' /\ oriented t) by (exists t; split; [apply (Permutation_in t P), I|exact O]).
      destruct (oriented_rows qid l F O1) as [RS NE]. apply (same_rows m m' (flat_map (fun t => map (oriented_entry qid) (poses t)) l)); try assumption; [apply P1, O1|].
      rewrite (P1' O2). apply flat_map_perm, Permutation_sym, P.
    + assert (O1 : forall t, In t l -> ~ oriented t).
      { intros t I O. apply oriented_bool in O. assert (Y : existsb has_orientation l = true) by (apply existsb_exists; exists t; split; assumption). congruence. }
      assert (O2 : forall t, In t l' -> ~ oriented t) by (intros t I; apply O1, (Permutation_in t (Permutation_sym P)), I).
      destruct (P2 O1) as [R1 Q1], (P2' O2) as [R2 Q2]. eapply same_pairs; try eassumption. rewrite Q2. apply flat_map_perm, Permutation_sym, P.
  - intros e A. split; [rewrite G1; apply A, I1|rewrite G2; apply A, (Permutation_in te' (Permutation_sym P)), I2].
Qed.
Print Assumptions C130_order_partial.

(** Merging in steps gives the same as merging all at once. *)
Theorem C130_steps_partial : forall Q argsort loc (qid : Q) pop (l r : list (traj Q)) m1,
  argsort_contract argsort -> (forall p, length (loc p) = length p) -> (forall s, s <> [] -> In (pop s) s) ->
  Forall consistent (l ++ r) -> l <> [] -> NoDup (concat (map tstamps (l ++ r))) -> merge_trajectories argsort loc qid pop l = Ok m1 ->
  exists m m', merge_trajectories argsort loc qid pop (m1 :: r) = Ok m /\ merge_trajectories argsort loc qid pop (l ++ r) = Ok m' /\ same_contents m m' /\ name m = name m'.
Proof.
  intros Q argsort loc qid pop l r m1 Ha Hl Hp F N D E1.
  assert (Fl : Forall consistent l /\ Forall consistent r) by (apply Forall_app, F). destruct Fl as [Fl Fr].
  assert (N' : l ++ r <> []) by (destruct l; [congruence|discriminate]).
  assert (Dl : NoDup (concat (map tstamps l))).
  { rewrite map_app, concat_app in D. apply NoDup_left in D. exact D. }
  destruct (merged_rows argsort loc qid pop l m1 Ha Hl Hp Fl N Dl E1) as (C1 & S1 & T1 & P1 & P2).
  assert (F1 : Forall consistent (m1 :: r)) by (constructor; assumption).
  assert (D1 : NoDup (concat (map tstamps (m1 :: r)))).
  { cbn. apply (Permutation_NoDup (l := concat (map tstamps (l ++ r)))); [|exact D]. rewrite map_app, concat_app. apply Permutation_app_tail, Permutation_sym, T1. }
  destruct (C25_merge Q argsort loc qid pop (m1 :: r) Ha Hl Hp F1 ltac:(discriminate)) as (m & E & _ & _ & _ & _ & N1 & _).
  destruct (C25_merge Q argsort loc qid pop (l ++ r) Ha Hl Hp F N') as (m' & E' & _ & _ & _ & _ & N2 & _).
  exists m, m'. split; [exact E|]. split; [exact E'|]. split; [|congruence].
  destruct (merged_rows argsort loc qid pop _ m Ha Hl Hp F1 ltac:(discriminate) D1 E) as (C & Sm & _ & A1 & A2).
  destruct (merged_rows argsort loc qid pop _ m' Ha Hl Hp F N' D E') as (C' & Sm' & _ & B1 & B2).
  destruct (existsb has_orientation (l ++ r)) eqn:X.
  - apply existsb_exists in X as (t & I & O). apply oriented_bool in O.
    assert (O1 : exists t, In t (l ++ r) /\ oriented t) by (exists t; split; assumption).
    destruct (oriented_rows qid _ F O1) as [RS NE].
    apply (same_rows m m' (flat_map (fun t => map (oriented_entry qid) (poses t)) (l ++ r))); try assumption; [|apply B1, O1].
    (* the rows of the merged first part, with unit rotations where there are none *)
    assert (G : Permutation (map (oriented_entry qid) (poses m1)) (flat_map (fun t => map (oriented_entry qid) (poses t)) l)).
    { destruct (existsb has_orientation l) eqn:Y.
      - apply existsb_exists in Y as (t' & I' & O'). apply oriented_bool in O'. assert (O2 : exists t, In t l /\ oriented t) by (exists t'; split; assumption).
        destruct (oriented_rows qid l Fl O2) as [RS' _]. specialize (P1 O2).
        replace (map (oriented_entry qid) (poses m1)) with (map entry (poses m1)); [exact P1|].
        apply map_ext_in. intros p J. assert (Z : snd (entry p) <> None).
        { apply RS', (Permutation_in _ P1), in_map, J. }
        unfold entry, oriented_entry in *. cbn in Z. destruct (p_rot p); [reflexivity|congruence].
      - assert (O2 : forall t, In t l -> ~ oriented t).
        { intros u J O2. apply oriented_bool in O2. assert (W : existsb has_orientation l = true) by (apply existsb_exists; exists u; split; assumption). congruence. }
        destruct (P2 O2) as [R1 Q1]. apply (Permutation_map (fun x => (fst x, snd x, Some qid))) in Q1. rewrite map_map, flat_map_map' in Q1. cbn in Q1.
        assert (NR : forall (u : traj Q) (p : pose Q), consistent u -> ~ oriented u -> In p (poses u) -> p_rot p = None).
        { intros u p Cu Ou J. assert (K : In (p_rot p) (map p_rot (poses u))) by (apply in_map, J). rewrite (proj1 (proj2 (proj2 (poses_components u Cu)))) in K.
          unfold rots_of in K. destruct (rot u) as [[|q0 q1]|] eqn:Z.
          - destruct K.
          - exfalso. apply Ou. exists q0, q1. exact Z.
          - apply in_map_iff in K as (_ & <- & _). reflexivity. }
        replace (map (oriented_entry qid) (poses m1)) with (map (fun x : pose Q => (p_t x, p_xyz x, Some qid)) (poses m1)).
        + rewrite Q1. erewrite flat_map_ext_in'; [reflexivity|]. intros u J. rewrite map_map. cbn. apply map_ext_in. intros p K.
          unfold oriented_entry. rewrite (NR u p); [reflexivity| |apply O2, J|exact K]. rewrite Forall_forall in Fl. apply Fl, J.
        + apply map_ext_in. intros p J. unfold oriented_entry. rewrite (NR m1 p C1); [reflexivity| |exact J]. intros (q0 & q1 & Z). congruence. }
    destruct (existsb has_orientation (m1 :: r)) eqn:Y.
    + apply existsb_exists in Y as (t' & I' & O'). apply oriented_bool in O'. rewrite (A1 (ex_intro _ t' (conj I' O'))). cbn. rewrite flat_map_app. apply Permutation_app_tail, G.
    + exfalso. assert (W : forall u, In u (m1 :: r) -> ~ oriented u).
      { intros u J O2. apply oriented_bool in O2. assert (W : existsb has_orientation (m1 :: r) = true) by (apply existsb_exists; exists u; split; assumption). congruence. }
      apply in_app_or in I as [I|I]; [|apply (W t); [right; exact I|exact O]].
      apply (W m1 (or_introl eq_refl)). assert (O2 : exists t, In t l /\ oriented t) by (exists t; split; assumption).
      destruct (oriented_rows qid l Fl O2) as [RS' NE']. specialize (P1 O2).
      destruct (rot m1) as [[|q0 q1]|] eqn:Z; [|eexists; eexists; exact Z|].
      * assert (L := C1). destruct L as [L1 [L2 _]]. rewrite Z in L2. cbn in L2. assert (L := poses_length m1 C1). unfold tlen in L. rewrite <- L2 in L.
        destruct (poses m1); [|discriminate]. cbn in P1. apply Permutation_nil in P1. contradiction.
      * destruct (poses m1) as [|p ps] eqn:PS; [cbn in P1; apply Permutation_nil in P1; contradiction|].
        exfalso. apply (RS' (entry p)); [apply (Permutation_in _ P1); left; reflexivity|]. cbn.
        assert (K : In (p_rot p) (map p_rot (poses m1))) by (rewrite PS; left; reflexivity). rewrite (proj1 (proj2 (proj2 (poses_components m1 C1)))) in K.
        unfold rots_of in K. rewrite Z in K. apply in_map_iff in K as (_ & <- & _). reflexivity.
  - assert (O : forall t, In t (l ++ r) -> ~ oriented t).
    { intros u J O2. apply oriented_bool in O2. assert (W : existsb has_orientation (l ++ r) = true) by (apply existsb_exists; exists u; split; assumption). congruence. }
    destruct (P2 (fun t J => O t (in_or_app _ _ _ (or_introl J)))) as [R1 Q1].
    destruct (B2 O) as [R2 Q2].
    assert (O1 : forall t, In t (m1 :: r) -> ~ oriented t).
    { intros u [<-|J]; [intros (q0 & q1 & Z); congruence|apply O, in_or_app; right; exact J]. }
    destruct (A2 O1) as [R3 Q3]. apply (same_pairs m m' (flat_map (fun t => map (fun p => (p_t p, p_xyz p)) (poses t)) (l ++ r))); try assumption. rewrite Q3. cbn. rewrite flat_map_app. apply Permutation_app_tail, Q1.
Qed.
Print Assumptions C130_steps_partial.

(** The arc lengths do depend on the order, see C26. *)
Theorem C130_refuted : forall argsort (pop : list Z -> Z), argsort_contract argsort ->
  exists m m', merge_trajectories argsort (fun p => p) 0%nat pop [turn1; turn2] = Ok m /\ merge_trajectories argsort (fun p => p) 0%nat pop [turn2; turn1] = Ok m' /\
    arc m = [0; 10; 1] /\ arc m' = [10; 0; 11].
Proof.
  intros argsort pop Ha. destruct (C26_arc_lengths_refuted argsort pop Ha) as (m & E & _ & AR & _). exists m.
  assert (X : forall a b, vnorm (vsub (mkV3 a 0 0) (mkV3 b 0 0)) = Rabs (a - b)).
  { intros a b. unfold vnorm, vdot, vsub; cbn. replace ((a - b) * (a - b) + (0 - 0) * (0 - 0) + (0 - 0) * (0 - 0)) with (Rsqr (a - b)) by (unfold Rsqr; ring).
    apply sqrt_Rsqr_abs. }
  assert (A : argsort [1; 0; 2] = [1; 0; 2]%nat).
  { destruct (Ha [1; 0; 2]) as [P S]. cbn in P.
    assert (L : length (argsort [1; 0; 2]) = 3%nat) by (rewrite (argsort_length argsort _ Ha); reflexivity).
    destruct (np_take_nat [1; 0; 2] (argsort [1; 0; 2])) as (k & _ & Nk).
    { exact (argsort_range argsort [1; 0; 2] Ha). }
    assert (K := argsort_take_sorted argsort [1; 0; 2] k Ha Nk). rewrite StronglySorted_nth in K.
    destruct (argsort [1; 0; 2]) as [|a [|b [|c [|]]]]; try discriminate.
    assert (V : forall z, In z [a; b; c] -> z = 0%nat \/ z = 1%nat \/ z = 2%nat).
    { intros z Hz. apply (Permutation_in _ P) in Hz. cbn in Hz. intuition. }
    assert (D : NoDup [a; b; c]) by (apply (Permutation_NoDup (Permutation_sym P)); repeat constructor; cbn; intuition discriminate).
    inversion D as [|? ? D1 D2]; subst. inversion D2 as [|? ? D3 _]; subst. cbn in D1, D3.
    assert (K01 := fun x y => K 0%nat 1%nat x y ltac:(lia)). assert (K12 := fun x y => K 1%nat 2%nat x y ltac:(lia)).
    rewrite !Nk in K01. rewrite !Nk in K12. cbn in K01, K12.
    destruct (V a) as [Ea|[Ea|Ea]]; [cbn; tauto|subst a..]; (destruct (V b) as [Eb|[Eb|Eb]]; [cbn; tauto|subst b..]); (destruct (V c) as [Ec|[Ec|Ec]]; [cbn; tauto|subst c..]);
      try reflexivity; exfalso; try tauto; cbn in K01, K12;
      specialize (K01 _ _ eq_refl eq_refl); specialize (K12 _ _ eq_refl eq_refl); lra. }
  eexists. split; [exact E|]. unfold merge_trajectories. cbn [map concat app tstamps xyz turn1 turn2].
  unfold new_traj. cbn -[vnorm INR]. rewrite A. cbn -[vnorm].
  split; [reflexivity|]. split; [exact AR|]. cbn -[vnorm]. unfold lengths_from_xyz, np_cumsum. cbn -[vnorm]. rewrite !X.
  unfold Rabs. repeat destruct Rcase_abs; try lra. repeat f_equal; lra.
Qed.
Print Assumptions C130_refuted.

Example C130_case : Forall consistent [turn1; turn2] /\ NoDup (concat (map tstamps [turn1; turn2])) /\ argsort_contract stable_argsort /\
  (exists m, merge_trajectories stable_argsort (fun p => p) 0%nat (fun s => hd 0%Z s) [turn1; turn2] = Ok m).
Proof.
  assert (F : Forall consistent [turn1; turn2]) by (repeat constructor).
  split; [exact F|]. split; [cbn; repeat constructor; cbn; intuition lra|]. split; [exact stable_argsort_contract|].
  destruct (C25_merge nat stable_argsort (fun p => p) 0%nat (fun s => hd 0%Z s) [turn1; turn2] stable_argsort_contract (fun p => eq_refl)) as (m & E & _); [|exact F|discriminate|exists m; exact E].
  intros [|a s] H; [congruence|left; reflexivity].
Qed.
Print Assumptions C130_case.

(** * C08 *)
(** Interpolated rotations, at the first timestamp too. *)
Theorem C08_interpolate_all_rotations :
  forall (Q : Type) (slerp_seg : Q -> Q -> R -> Q) (t : traj Q) req t' r i x k a b p q,
    consistent t -> strictly_time_sorted t -> rot t = Some r -> interpolate slerp_seg t req = Ok t' ->
    nth_error (tstamps t') i = Some x ->
    nth_error (tstamps t) k = Some a -> nth_error (tstamps t) (Datatypes.S k) = Some b -> a < x <= b \/ (k = 0%nat /\ x = a) ->
    nth_error r k = Some p -> nth_error r (Datatypes.S k) = Some q ->
    exists r', rot t' = Some r' /\ nth_error r' i = Some (slerp_seg p q ((x - a) / (b - a))).
Proof.
  intros Q seg t req t' r i x k a b p q Hc Hs Hr H Hi Ha Hb Hx Hp Hq. assert (Hc' := Hc). destruct Hc as [H1 [H2 [H3 H4]]].
  rewrite Hr in H2.
  assert (Hpos : (2 <= tlen t)%nat) by (apply nth_error_Some_lt in Hb; unfold tlen; lia).
  destruct (interpolate_ok seg t req Hc' Hs ltac:(lia) (or_intror Hpos))
    as [lo [hi [t2 [_ [_ [E [_ [_ [_ [_ [_ [_ [_ Ex]]]]]]]]]]]]].
  rewrite H in E; injection E as <-. rewrite Hr in Ex.
  destruct Ex as [[E _]|[r' [Er' Hm]]]; [rewrite E in Hi; destruct i; discriminate|].
  exists r'. split; [exact Er'|].
  assert (Hn := mapM_nth_error _ _ _ i Hm). rewrite Hi in Hn.
  assert (Hseg : slerp_at seg (combine (tstamps t) r) x = Ok (seg p q ((x - a) / (b - a)))).
  { apply (slerp_at_segment seg _ x k a p b q); auto.
    - rewrite map_fst_combine by lia. exact Hs.
    - rewrite nth_error_combine, Ha, Hp; reflexivity.
    - rewrite nth_error_combine, Hb, Hq; reflexivity. }
  destruct Hn as [y [Hy ->]]. congruence.
Qed.
Print Assumptions C08_interpolate_all_rotations.
