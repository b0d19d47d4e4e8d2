(** Proofs about matched trajectories and fitted lines. *)
From Verif Require Import Base BaseFacts VecFacts NumpyModel NumpyFacts TrajModel TrajSpec TrajFacts TrajFacts2 TrajFacts3
  GeomModel GeomSpec GeomFacts MatchModel MatchSpec MatchFacts.

Section Match.
  Context {Q : Type}.
  Implicit Types (t test ref : traj Q).

  Lemma apply_index_selected t idx :
    consistent t -> Forall (fun i => (i < tlen t)%nat) idx ->
    exists t', apply_index t (nat_index idx) = Ok t' /\ selected t idx t'.
  Proof.
    intros Hc Hr. destruct (np_take_nat (poses t) idx) as (ps & E & _).
    { rewrite (poses_length t Hc). exact Hr. }
    destruct (apply_index_total t (nat_index idx) ps Hc E) as (t' & Ht & _). exists t'. split; [exact Ht|].
    destruct (apply_index_int_spec t _ t' Hc Ht) as (Hc' & Hm & Hl & Hp).
    split; [exact Hc'|]. split; [exact Hm|]. split; [rewrite Hl; apply map_length|].
    intros m i Hi. destruct (Hp m (Z.of_nat i)) as (k & Hk & [E1|E1] & Hpk & Hn).
    - rewrite nth_error_map', Hi. reflexivity.
    - apply Nat2Z.inj in E1. subst k. auto.
    - lia.
  Qed.

  Lemma index_match {P} (dist : P -> P -> R) query (C : knn_contract dist query)
      (pt pr : list P) max test ref :
    consistent test -> consistent ref -> length pt = tlen test -> length pr = tlen ref -> 0 <= max -> pt <> [] ->
    let r := let! ij := kd_matcher query pr pt max in
             let! test' := apply_index test (nat_index (snd ij)) in
             let! ref' := apply_index ref (nat_index (fst ij)) in
             Ok (test', ref') in
    (exists test' ref' is js, r = Ok (test', ref') /\ pairing dist query pr pt max js is /\
       selected test is test' /\ selected ref js ref') \/
    (r = Err ValueError /\ forall p q, In p pt -> In q pr -> max <> 0 /\ max <= dist q p).
  Proof.
    intros Ct Cr Lt Lr Hm Hne. cbv zeta.
    destruct (kd_matcher_spec dist query C pr pt max Hm Hne) as [(js & is & E & Hp)|[E F]]; [left | right; rewrite E; auto].
    rewrite E. cbn [bind fst snd]. destruct Hp as (P1 & P2 & P3 & P4 & P5).
    assert (Gj : forall m j, nth_error js m = Some j -> exists i p, nth_error is m = Some i /\ nth_error pt i = Some p /\ nearest dist pr max p j).
    { intros m j Hj. assert (L : (m < length is)%nat) by (rewrite <- P1; eapply nth_error_Some_lt, Hj).
      apply nth_error_lt_Some in L as [i Hi]. destruct (P4 m i j Hi Hj) as (p & Hp & Hn & _). eauto. }
    assert (Ri : Forall (fun i => (i < tlen test)%nat) is).
    { apply Forall_forall. intros i Hi. apply In_nth_error in Hi as [m Hi].
      assert (L : (m < length js)%nat) by (rewrite P1; eapply nth_error_Some_lt, Hi). apply nth_error_lt_Some in L as [j Hj].
      destruct (P4 m i j Hi Hj) as (p & Hp & _). rewrite <- Lt. eapply nth_error_Some_lt, Hp. }
    assert (Rj : Forall (fun j => (j < tlen ref)%nat) js).
    { apply Forall_forall. intros j Hj. apply In_nth_error in Hj as [m Hj]. destruct (Gj m j Hj) as (i & p & _ & _ & r & Hr & _).
      rewrite <- Lr. eapply nth_error_Some_lt, Hr. }
    destruct (apply_index_selected test is Ct Ri) as (test' & -> & St).
    destruct (apply_index_selected ref js Cr Rj) as (ref' & Er & Sr). cbn [bind]. rewrite Er. cbn [bind].
    exists test', ref', is, js. split; [reflexivity|]. split; [|auto]. repeat split; assumption.
  Qed.

  (** ** Temporal matching *)
  Definition stamp (x : R) : R * R := (x, 0).
  Lemma dist2_stamp x y : dist2 (stamp x) (stamp y) = Rabs (x - y).
  Proof.
    unfold dist2, stamp; cbn. replace ((x - y) * (x - y) + (0 - 0) * (0 - 0)) with (Rsqr (x - y)) by (unfold Rsqr; ring). apply sqrt_Rsqr_abs.
  Qed.

  Lemma nearest_order (ref : list R) max x y j k :
    nearest dist2 (map stamp ref) max (stamp x) j -> nearest dist2 (map stamp ref) max (stamp y) k ->
    StronglySorted Rlt ref -> (j < k)%nat -> x <= y.
  Proof.
    intros (a & Ha & Hna & _) (b & Hb & Hnb & _) S Hjk.
    assert (Ka := Hna b (nth_error_In _ _ Hb)). assert (Kb := Hnb a (nth_error_In _ _ Ha)).
    rewrite nth_error_map' in Ha, Hb.
    destruct (nth_error ref j) as [a'|] eqn:Ea; [|discriminate]. destruct (nth_error ref k) as [b'|] eqn:Eb; [|discriminate].
    injection Ha as <-. injection Hb as <-. rewrite StronglySorted_nth in S. specialize (S j k _ _ Hjk Ea Eb).
    rewrite !dist2_stamp in *. unfold Rabs in *. repeat destruct Rcase_abs; lra.
  Qed.

  Lemma pose_at_tstamp t i p : pose_at t i = Some p -> nth_error (tstamps t) i = Some (p_t p) /\ nth_error (xyz t) i = Some (p_xyz p).
  Proof.
    unfold pose_at. destruct (nth_error (tstamps t) i); [|discriminate]. destruct (nth_error (xyz t) i); [|discriminate].
    destruct (nth_error (arc t) i); [|discriminate]. destruct (nth_error (speed t) i); [|discriminate].
    destruct (rot t) as [q|]; [destruct (nth_error q i); [|discriminate]|]; intros [= <-]; auto.
  Qed.

  Lemma selected_tstamps t idx t' m i : consistent t -> selected t idx t' -> nth_error idx m = Some i ->
    exists x, nth_error (tstamps t') m = Some x /\ nth_error (tstamps t) i = Some x.
  Proof.
    intros Hc (Hc' & _ & _ & H) Hi. destruct (H m i Hi) as [E N]. destruct (pose_at t i) as [p|] eqn:Ep; [|congruence].
    destruct (pose_at_tstamp _ _ _ E) as [A _]. destruct (pose_at_tstamp _ _ _ Ep) as [B _]. eauto.
  Qed.

  Lemma selected_index t idx t' m x : consistent t -> selected t idx t' -> nth_error (tstamps t') m = Some x ->
    exists i, nth_error idx m = Some i /\ nth_error (tstamps t) i = Some x.
  Proof.
    intros Hc S Hx. assert (L : (m < length idx)%nat).
    { destruct S as ((L1 & _) & _ & L2 & _). unfold tlen in L2. rewrite <- L2, <- L1. eapply nth_error_Some_lt, Hx. }
    apply nth_error_lt_Some in L as [i Hi]. exists i. split; [exact Hi|].
    destruct (selected_tstamps t idx t' m i Hc S Hi) as (y & Hy & Hi'). congruence.
  Qed.

  Lemma temporal_sorted query2 (C : knn_contract dist2 query2) max test ref test' ref' js is :
    consistent test -> consistent ref -> strictly_time_sorted test -> strictly_time_sorted ref ->
    pairing dist2 query2 (map stamp (tstamps ref)) (map stamp (tstamps test)) max js is ->
    selected test is test' -> selected ref js ref' ->
    strictly_time_sorted test' /\ strictly_time_sorted ref' /\
    (forall m x y, nth_error (tstamps test') m = Some x -> nth_error (tstamps ref') m = Some y -> max <> 0 -> Rabs (y - x) < max).
  Proof.
    intros Ct Cr St Sr (P1 & P2 & P3 & P4 & P5) Hs Hr.
    assert (K : forall m x, nth_error (tstamps test') m = Some x -> exists i j y, nth_error is m = Some i /\ nth_error js m = Some j /\
        nth_error (tstamps ref') m = Some y /\ nth_error (tstamps ref) j = Some y /\ nth_error (tstamps test) i = Some x /\
        nearest dist2 (map stamp (tstamps ref)) max (stamp x) j).
    { intros m x Hx. destruct (selected_index test is test' m x Ct Hs Hx) as (i & Hi & Hix).
      assert (L : (m < length js)%nat) by (rewrite P1; eapply nth_error_Some_lt, Hi). apply nth_error_lt_Some in L as [j Hj].
      destruct (selected_tstamps ref js ref' m j Cr Hr Hj) as (y & Hy & Hjy). destruct (P4 m i j Hi Hj) as (p & Hp & Hn & _).
      rewrite nth_error_map', Hix in Hp. injection Hp as <-. exists i, j, y. auto 10. }
    split; [|split].
    - unfold strictly_time_sorted. apply StronglySorted_nth. intros a b x y Hab Ha Hb.
      destruct (K a x Ha) as (i & j & r & Hi & Hj & _ & _ & Hx & Hn). destruct (K b y Hb) as (i' & j' & r' & Hi' & Hj' & _ & _ & Hy & Hn').
      rewrite StronglySorted_nth in P3. specialize (P3 a b j j' Hab Hj Hj').
      assert (L := nearest_order _ _ _ _ _ _ Hn Hn' Sr P3).
      destruct (Req_dec x y) as [->|N]; [|lra]. exfalso.
      assert (i = i').
      { unfold strictly_time_sorted in St. rewrite StronglySorted_nth in St. destruct (Nat.lt_trichotomy i i') as [H|[H|H]]; [|exact H|].
        - specialize (St _ _ _ _ H Hx Hy). lra.
        - specialize (St _ _ _ _ H Hy Hx). lra. }
      subst i'. destruct (P4 a i j Hi Hj) as (p & Hp & _ & [d Hd] & _). destruct (P4 b i j' Hi' Hj') as (p' & Hp' & _ & [d' Hd'] & _).
      rewrite Hp in Hp'. injection Hp' as <-. rewrite Hd in Hd'. injection Hd' as -> _. lia.
    - unfold strictly_time_sorted. apply StronglySorted_nth. intros a b x y Hab Ha Hb.
      destruct (selected_index ref js ref' a x Cr Hr Ha) as (j & Hj & Hx). destruct (selected_index ref js ref' b y Cr Hr Hb) as (k & Hk & Hy).
      rewrite StronglySorted_nth in P3. specialize (P3 a b j k Hab Hj Hk).
      unfold strictly_time_sorted in Sr. rewrite StronglySorted_nth in Sr. apply (Sr _ _ _ _ P3 Hx Hy).
    - intros m x y Hx Hy Hm. destruct (K m x Hx) as (i & j & y' & _ & Hj & Hy' & Hjy & _ & (r & Hr' & _ & Hd)).
      rewrite Hy in Hy'. injection Hy' as <-. rewrite nth_error_map', Hjy in Hr'. injection Hr' as <-.
      specialize (Hd Hm). rewrite dist2_stamp in Hd. exact Hd.
  Qed.

  (** ** Interpolation matching *)
  Lemma interpolation_match seg test ref test' ref' :
    consistent test -> consistent ref -> time_sorted test -> time_sorted ref ->
    match_interpolation seg test ref = Ok (test', ref') ->
    tstamps test' = tstamps ref' /\ arc test' = arc ref' /\ consistent ref' /\ time_sorted ref' /\
    (exists K, kept K (poses ref) (poses ref')) /\
    exists mid, consistent mid /\ time_sorted mid /\ (exists K, kept K (poses test) (poses mid)) /\ same_meta test mid /\
      exists test2, interpolate seg mid (tstamps ref') = Ok test2 /\ test' = set_arc (arc ref') test2 /\
      (exists lo hi, is_min (tstamps mid) lo /\ is_max (tstamps mid) hi /\ Forall (fun x => lo <= x <= hi) (tstamps ref')).
  Proof.
    intros Ct Cr St Sr H. unfold match_interpolation in H.
    apply bind_ok in H as [t1 [E1 H]]. apply bind_ok in H as [r1 [E2 H]]. apply bind_ok in H as [t2 [E3 H]].
    injection H as <- <-.
    assert (G : forall t ts t', consistent t -> time_sorted t -> intersect t ts 2 = Ok t' ->
      consistent t' /\ time_sorted t' /\ same_meta t t' /\ (exists K, kept K (poses t) (poses t')) /\
      exists lo hi, is_min ts lo /\ is_max ts hi /\ Forall (fun x => lo <= x <= hi) (tstamps t')).
    { intros t ts t' Hc Hs E.
      assert (N1 : ts <> []) by (intros ->; rewrite (intersect_empty t [] 2) in E by auto; discriminate).
      assert (N2 : tstamps t <> []) by (intro Z; rewrite (intersect_empty t ts 2) in E by auto; discriminate).
      destruct (min_exists ts N1) as [a0 A0]. destruct (max_exists ts N1) as [a1 A1].
      destruct (min_exists _ N2) as [b0 B0]. destruct (max_exists _ N2) as [b1 B1].
      destruct (Rle_or_lt (Rmax a0 b0) (Rmin a1 b1)) as [L|L].
      2:{ rewrite (intersect_no_overlap t ts 2 a0 a1 b0 b1 A0 A1 B0 B1 L) in E. discriminate. }
      destruct (intersect_spec t ts 2 a0 a1 b0 b1 Hc A0 A1 B0 B1 L) as (u & keep & E' & Cu & Mu & Pu & Ku).
      rewrite E in E'. injection E' as <-. split; [exact Cu|]. split.
      - apply (poses_sorted t' Cu). rewrite Pu. apply StronglySorted_filter. apply (poses_sorted t Hc), Hs.
      - split; [exact Mu|]. split; [exists (fun p => keep p = true); rewrite Pu; apply kept_filter; reflexivity|].
        exists a0, a1. split; [exact A0|]. split; [exact A1|]. apply Forall_forall. intros x Hx.
        destruct (poses_components t' Cu) as (T & _). rewrite <- T in Hx. apply in_map_iff in Hx as [p [<- Hp]].
        rewrite Pu in Hp. apply filter_In in Hp as [Hp Kp]. apply (Ku p Hp) in Kp as [[K1 K2] _].
        unfold Rmax, Rmin in *. repeat destruct Rle_dec; lra. }
    destruct (G test (tstamps ref) t1 Ct St E1) as (C1 & S1 & M1 & I1 & _).
    destruct (G ref (tstamps t1) r1 Cr Sr E2) as (C2 & S2 & _ & I2 & lo & hi & Lo & Hi & F).
    assert (Et : tstamps t2 = tstamps r1).
    { unfold interpolate in E3. apply bind_ok in E3 as [tc [Ec E3]]. apply bind_ok in E3 as [a [Ea E3]].
      apply bind_ok in E3 as [b [Eb E3]]. apply bind_ok in E3 as [s [Es E3]]. apply bind_ok in E3 as [l [El E3]].
      injection E3 as <-. cbn [set_tstamps tstamps].
      rewrite (np_sort_id _ S2) in Ec.
      assert (N : tstamps t1 <> []) by (intro Z; rewrite Z in Lo; destruct Lo as [[] _]).
      assert (G01 : np_get (tstamps t1) 0 = Ok lo /\ np_get (tstamps t1) (-1) = Ok hi).
      { destruct (sorted_ends _ N) as (x0 & x1 & G0 & G1 & X0 & X1). rewrite (np_sort_id _ S1) in G0, G1.
        rewrite (is_min_unique _ _ _ Lo X0), (is_max_unique _ _ _ Hi X1). auto. }
      destruct G01 as [G0 G1]. pose proof (crop_request_ok (tstamps t1) (tstamps r1) lo hi G0 G1) as Ec'.
      rewrite Ec in Ec'. injection Ec' as ->. apply filter_true. rewrite Forall_forall in F. intros x Hx. specialize (F x Hx).
        unfold in_range. rb. reflexivity. }
    split; [exact Et|]. split; [reflexivity|]. split; [exact C2|]. split; [exact S2|]. split; [exact I2|].
    exists t1. split; [exact C1|]. split; [exact S1|]. split; [exact I1|]. split; [exact M1|].
    exists t2. split; [exact E3|]. split; [reflexivity|]. exists lo, hi. auto.
  Qed.

  Lemma kept_in {A} (P : A -> Prop) l l' : kept P l l' -> forall a, In a l' <-> In a l /\ P a.
  Proof.
    induction 1 as [|a l l' Pa H IH|a l l' Pa H IH]; intro x; cbn; [tauto| |].
    - rewrite IH. split; [intros [->|[]]; auto | intros [[->|] ]; auto].
    - rewrite IH. split; [tauto | intros [[->|] ]; tauto].
  Qed.

  Lemma kept_sorted {A} (P : A -> Prop) (Rel : A -> A -> Prop) l l' : kept P l l' -> StronglySorted Rel l -> StronglySorted Rel l'.
  Proof.
    induction 1 as [|a l l' Pa H IH|a l l' Pa H IH]; intro S; [constructor| |]; inversion S as [|? ? S' F]; subst; [|auto].
    constructor; [auto|]. rewrite Forall_forall in *. intros x Hx. apply F. apply (kept_in P l l' H) in Hx. tauto.
  Qed.

  Lemma poses_strict t : consistent t -> (strictly_time_sorted t <-> StronglySorted (fun p q => p_t p < p_t q) (poses t)).
  Proof.
    intro Hc. destruct (poses_components t Hc) as [E _]. unfold strictly_time_sorted. rewrite <- E. clear.
    induction (poses t) as [|p l IH]; cbn; [split; constructor|]. split; intro H; inversion H as [|? ? Hs Hf]; subst.
    - constructor; [apply IH, Hs|]. rewrite Forall_map in Hf. exact Hf.
    - constructor; [apply IH, Hs|]. rewrite Forall_map. exact Hf.
  Qed.

  Lemma interpolate_needs_two seg t req t' q :
    consistent t -> rot t = Some q -> interpolate seg t req = Ok t' -> tstamps t' <> [] -> (2 <= tlen t)%nat.
  Proof.
    intros (_ & L & _) E H N. unfold interpolate in H. apply bind_ok in H as [tc [Ec H]]. apply bind_ok in H as [a [Ea H]].
    apply bind_ok in H as [b [Eb H]]. apply bind_ok in H as [s [Es H]]. apply bind_ok in H as [l [El H]]. injection H as <-.
    cbn [set_tstamps tstamps] in N. unfold interpolate_positions in Ea. apply bind_ok in Ea as [x [_ Ea]].
    apply bind_ok in Ea as [y [_ Ea]]. apply bind_ok in Ea as [z [_ Ea]]. injection Ea as <-.
    unfold interpolate_rotations in Eb. cbn [set_xyz rot tstamps] in Eb. rewrite E in *.
    destruct (length tc =? 0)%nat eqn:Z; [apply Nat.eqb_eq, length_zero_iff_nil in Z; congruence|].
    apply bind_ok in Eb as [q' [Eq _]]. unfold slerp in Eq. destruct (length q <=? 1)%nat eqn:Lq; [discriminate|].
    apply Nat.leb_gt in Lq. unfold tlen. lia.
  Qed.

  Lemma interpolation_positions seg test ref test' ref' i x :
    consistent test -> consistent ref -> strictly_time_sorted test -> time_sorted ref ->
    match_interpolation seg test ref = Ok (test', ref') ->
    nth_error (tstamps test') i = Some x ->
    (exists p, In p (poses test) /\ p_t p = x /\ nth_error (xyz test') i = Some (p_xyz p)) \/
    (exists p q, In p (poses test) /\ In q (poses test) /\ p_t p < x < p_t q /\
       nth_error (xyz test') i = Some (lerp (p_xyz p) (p_xyz q) ((x - p_t p) / (p_t q - p_t p)))).
  Proof.
    intros Ct Cr St Sr H Hx.
    destruct (interpolation_match seg test ref test' ref' Ct Cr (strictly_sorted_sorted _ St) Sr H)
      as (Et & _ & _ & _ & _ & mid & Cm & _ & (K & HK) & Mm & t2 & E2 & -> & _).
    assert (Sm : strictly_time_sorted mid).
    { apply (poses_strict mid Cm). apply (kept_sorted K _ _ _ HK). apply (poses_strict test Ct), St. }
    change (tstamps (set_arc (arc ref') t2)) with (tstamps t2) in *. change (xyz (set_arc (arc ref') t2)) with (xyz t2).
    assert (G : rot mid = None \/ (2 <= tlen mid)%nat).
    { destruct (rot mid) as [q|] eqn:Eq; [right | left; reflexivity].
      apply (interpolate_needs_two seg mid (tstamps ref') t2 q Cm Eq E2). intro Z. rewrite Z in Hx. destruct i; discriminate. }
    assert (PP : forall k a p, nth_error (tstamps mid) k = Some a -> nth_error (xyz mid) k = Some p ->
      exists po, In po (poses test) /\ p_t po = a /\ p_xyz po = p).
    { intros k a p Ha Hp. destruct (poses_components mid Cm) as (T1 & T2 & _).
      rewrite <- T1, nth_error_map' in Ha. rewrite <- T2, nth_error_map' in Hp.
      destruct (nth_error (poses mid) k) as [po|] eqn:E; [|discriminate]. exists po.
      apply nth_error_In in E. apply (kept_in K _ _ HK) in E. cbn in Ha, Hp. split; [tauto|]. split; congruence. }
    destruct (interpolate_positions_spec seg mid (tstamps ref') t2 i x Cm Sm G E2 Hx)
      as [(k & p & A & B & D)|(k & a & b & p & q & A & B & L & D & E & F)].
    - left. destruct (PP k x p A B) as (po & P1 & P2 & P3). exists po. rewrite P3. auto.
    - right. destruct (PP k a p A D) as (po & P1 & P2 & P3). destruct (PP (S k) b q B E) as (qo & Q1 & Q2 & Q3).
      exists po, qo. rewrite P2, P3, Q2, Q3. auto.
  Qed.
End Match.

(** ** Lines *)
Lemma evaluate_at_eq l p : evaluate_at l p = vadd (l_mean l) (vscale (vdot (vsub p (l_mean l)) (l_dir l)) (l_dir l)).
Proof. destruct l as [[] []], p. unfold evaluate_at, vdot, vadd, vscale, vsub; cbn. f_equal; ring. Qed.

Lemma sq_vdist a b : vdist a b * vdist a b = vdot (vsub a b) (vsub a b).
Proof. apply vnorm_sq. Qed.

Lemma sq_le x y : 0 <= x -> 0 <= y -> x * x <= y * y -> x <= y.
Proof. intros. apply Rsqr_incr_0_var; unfold Rsqr; lra. Qed.

(** residual of a point against a point of the line *)
Lemma residual_bound m u s p : vdot u u = 1 ->
  vdot (vsub p m) (vsub p m) - vdot (vsub p m) u * vdot (vsub p m) u <=
  vdot (vsub p (vadd m (vscale s u))) (vsub p (vadd m (vscale s u))).
Proof.
  intro U. assert (E : vdot (vsub p (vadd m (vscale s u))) (vsub p (vadd m (vscale s u))) =
    vdot (vsub p m) (vsub p m) - 2 * s * vdot (vsub p m) u + s * s * vdot u u).
  { destruct p, m, u. unfold vdot, vsub, vadd, vscale; cbn. ring. }
  rewrite E, U. pose proof (Rle_0_sqr (s - vdot (vsub p m) u)). unfold Rsqr in *. lra.
Qed.

Lemma evaluate_residual l p : vdot (l_dir l) (l_dir l) = 1 ->
  vdot (vsub p (evaluate_at l p)) (vsub p (evaluate_at l p)) =
  vdot (vsub p (l_mean l)) (vsub p (l_mean l)) - vdot (vsub p (l_mean l)) (l_dir l) * vdot (vsub p (l_mean l)) (l_dir l).
Proof.
  intro U. rewrite evaluate_at_eq. set (m := l_mean l) in *. set (u := l_dir l) in *. set (s := vdot (vsub p m) u).
  assert (E : vdot (vsub p (vadd m (vscale s u))) (vsub p (vadd m (vscale s u))) =
    vdot (vsub p m) (vsub p m) - 2 * s * vdot (vsub p m) u + s * s * vdot u u).
  { destruct p, m, u. unfold vdot, vsub, vadd, vscale; cbn. ring. }
  rewrite E, U. unfold s. ring.
Qed.

Lemma projection l p : vdot (l_dir l) (l_dir l) = 1 ->
  on_line l (evaluate_at l p) /\
  vdot (vsub p (evaluate_at l p)) (l_dir l) = 0 /\
  (forall q, on_line l q -> vdist p (evaluate_at l p) <= vdist p q) /\
  evaluate_at l (evaluate_at l p) = evaluate_at l p /\
  (on_line l p -> evaluate_at l p = p).
Proof.
  intro U. assert (O : forall q, on_line l q -> evaluate_at l q = q).
  { intros q [s ->]. rewrite evaluate_at_eq. f_equal. f_equal.
    transitivity (s * vdot (l_dir l) (l_dir l)); [|rewrite U; ring].
    destruct (l_dir l), (l_mean l). unfold vdot, vsub, vadd, vscale; cbn. ring. }
  assert (L : on_line l (evaluate_at l p)) by (rewrite evaluate_at_eq; eexists; reflexivity).
  split; [exact L|]. split.
  { rewrite evaluate_at_eq. transitivity (vdot (vsub p (l_mean l)) (l_dir l) * (1 - vdot (l_dir l) (l_dir l))); [|rewrite U; ring].
    destruct p, (l_dir l), (l_mean l). unfold vdot, vsub, vadd, vscale; cbn. ring. }
  split; [|split; [apply O, L | apply O]].
  intros q [s ->]. apply sq_le; try apply vdist_nonneg. rewrite !sq_vdist, evaluate_residual by exact U.
  apply residual_bound, U.
Qed.

(** sums over the points *)
Lemma np_sum_cons x l : np_sum (x :: l) = x + np_sum l.
Proof. reflexivity. Qed.

Lemma vsum_cons x l : vsum (x :: l) = vadd x (vsum l).
Proof. reflexivity. Qed.

Lemma centred_sum (m u : V3) (l : list V3) :
  np_sum (map (fun p => vdot (vsub p m) u) l) = vdot (vsum l) u - INR (length l) * vdot m u.
Proof.
  induction l as [|p l IH]; [cbn; destruct u; unfold vdot; cbn; ring|].
  cbn [map length]. rewrite np_sum_cons, IH, vsum_cons, S_INR. destruct p, m, u, (vsum l). unfold vdot, vsub, vadd; cbn. ring.
Qed.

Lemma mean_centred (l : list V3) u : l <> [] -> np_sum (map (fun p => vdot (vsub p (vmean l)) u) l) = 0.
Proof.
  intro N. rewrite centred_sum. unfold vmean. assert (K : INR (length l) <> 0) by (destruct l; [congruence|]; cbn [length]; apply not_0_INR; lia).
  destruct u, (vsum l). unfold vdot, vscale; cbn. field. exact K.
Qed.

Lemma quad_msum (u : V3) (m : V3) (l : list V3) :
  vdot u (mapply (msum (map (fun p => outer (vsub p m) (vsub p m)) l)) u) =
  np_sum (map (fun p => vdot (vsub p m) u * vdot (vsub p m) u) l).
Proof.
  induction l as [|p l IH].
  - cbn. destruct u. unfold msum. cbn [fold_right]. munf. cbn. ring.
  - cbn [map]. rewrite np_sum_cons, <- IH. unfold msum. cbn [fold_right map].
    generalize (fold_right madd (mscale 0 mident) (map (fun p0 : V3 => outer (vsub p0 m) (vsub p0 m)) l)).
    intros [[] [] []]. destruct u, p, m. munf. cbn. ring.
Qed.

Lemma quad_mscale s C u : vdot u (mapply (mscale s C) u) = s * vdot u (mapply C u).
Proof. destruct C as [[] [] []], u. munf. cbn. ring. Qed.

Lemma np_sum_le {A} (f g : A -> R) l : (forall a, In a l -> f a <= g a) -> np_sum (map f l) <= np_sum (map g l).
Proof.
  induction l as [|a l IH]; intro H; [cbn; lra|]. cbn [map]. rewrite !np_sum_cons.
  pose proof (H a (or_introl eq_refl)). assert (np_sum (map f l) <= np_sum (map g l)) by (apply IH; intros; apply H; right; assumption). lra.
Qed.

Lemma np_sum_plus {A} (f g : A -> R) l : np_sum (map (fun a => f a + g a) l) = np_sum (map f l) + np_sum (map g l).
Proof. induction l as [|a l IH]; [cbn; ring|]. cbn [map]. rewrite !np_sum_cons, IH. ring. Qed.
Lemma np_sum_scale {A} c (f : A -> R) l : np_sum (map (fun a => c * f a) l) = c * np_sum (map f l).
Proof. induction l as [|a l IH]; [cbn; ring|]. cbn [map]. rewrite !np_sum_cons, IH. ring. Qed.
Lemma np_sum_const {A} c (l : list A) : np_sum (map (fun _ => c) l) = INR (length l) * c.
Proof. induction l as [|a l IH]; [cbn; ring|]. cbn [map length]. rewrite np_sum_cons, IH, S_INR. ring. Qed.
Lemma np_sum_ext {A} (f g : A -> R) l : (forall a, In a l -> f a = g a) -> np_sum (map f l) = np_sum (map g l).
Proof. intro H. f_equal. apply map_ext_in, H. Qed.

(** Sum of squared distances of the points from the line through [m] with direction [u]. *)
Definition residuals (m u : V3) (l : list V3) : R :=
  np_sum (map (fun p => vdot (vsub p m) (vsub p m) - vdot (vsub p m) u * vdot (vsub p m) u) l).

Lemma residuals_mean_best (l : list V3) m u : l <> [] -> vdot u u = 1 -> residuals (vmean l) u l <= residuals m u l.
Proof.
  intros N U. set (c := vmean l). set (w := vsub c m).
  assert (E : residuals m u l = residuals c u l + INR (length l) * (vdot w w - vdot w u * vdot w u)).
  { unfold residuals. rewrite <- np_sum_const.
    transitivity (np_sum (map (fun p => (vdot (vsub p c) (vsub p c) - vdot (vsub p c) u * vdot (vsub p c) u +
       (vdot w w - vdot w u * vdot w u)) + vdot (vsub p c) (vadd (vscale 2 w) (vscale (- 2 * vdot w u) u))) l)).
    - apply np_sum_ext. intros p _. unfold w. destruct p, m, c, u. unfold vdot, vsub, vadd, vscale; cbn. ring.
    - rewrite !np_sum_plus. unfold c. rewrite mean_centred by exact N. ring. }
  rewrite E. assert (0 <= INR (length l)) by apply pos_INR.
  assert (0 <= vdot w w - vdot w u * vdot w u) by (pose proof (cauchy_schwarz_sq w u); rewrite U in *; lra).
  pose proof (Rmult_le_pos _ _ H H0). lra.
Qed.

Lemma residuals_direction_best (l : list V3) d u :
  (2 <= length l)%nat -> top_direction (covariance l) d -> vdot u u = 1 ->
  residuals (vmean l) d l <= residuals (vmean l) u l.
Proof.
  intros N [D T] U. specialize (T u U). unfold covariance in T. rewrite !quad_mscale, !quad_msum in T.
  assert (P : 0 < INR (length l) - 1) by (apply le_INR in N; cbn in N; lra).
  apply Rmult_le_reg_l in T; [|apply Rinv_0_lt_compat, P].
  unfold residuals. unfold Rminus. rewrite !np_sum_plus.
  rewrite !(np_sum_ext (fun p => - _) (fun p => -1 * (vdot (vsub p (vmean l)) d * vdot (vsub p (vmean l)) d)) l),
          !(np_sum_ext (fun p => - _) (fun p => -1 * (vdot (vsub p (vmean l)) u * vdot (vsub p (vmean l)) u)) l) by (intros; ring).
  rewrite !np_sum_scale. lra.
Qed.

Lemma fitted_line_best (eigh : M3 -> V3) (l : list V3) (other : line3d) (qs : list V3) :
  (2 <= length l)%nat -> top_direction (covariance l) (eigh (covariance l)) ->
  vdot (l_dir other) (l_dir other) = 1 -> length qs = length l -> Forall (on_line other) qs ->
  squared_distances (combine l (map (evaluate_at (from_points eigh l)) l)) <= squared_distances (combine l qs).
Proof.
  intros N T U L F. set (f := from_points eigh l).
  assert (D : vdot (l_dir f) (l_dir f) = 1) by apply T.
  assert (A : squared_distances (combine l (map (evaluate_at f) l)) = residuals (vmean l) (l_dir f) l).
  { unfold squared_distances, residuals. clear -D. change (vmean l) with (l_mean f). generalize f D. clear. intros f D.
    induction l as [|p l IH]; [reflexivity|]. cbn [map combine]. rewrite !np_sum_cons, IH. cbn [fst snd].
    rewrite sq_vdist, evaluate_residual by exact D. reflexivity. }
  assert (B : residuals (l_mean other) (l_dir other) l <= squared_distances (combine l qs)).
  { unfold squared_distances, residuals. clear -U L F. revert qs L F. induction l as [|p l IH]; intros [|q qs] L F; try discriminate.
    - cbn. lra.
    - inversion F as [|? ? [s ->] F']; subst. cbn [map combine]. rewrite !np_sum_cons. cbn [fst snd]. rewrite sq_vdist.
      pose proof (residual_bound (l_mean other) (l_dir other) s p U). specialize (IH qs ltac:(cbn in L; lia) F'). lra. }
  rewrite A. assert (l <> []) by (intros ->; cbn in N; lia).
  pose proof (residuals_direction_best l (l_dir f) (l_dir other) N T U).
  pose proof (residuals_mean_best l (l_mean other) (l_dir other) H U). lra.
Qed.

(** ** Spatial interpolation matching *)
Section SpatialInterpolation.
  Context {Q : Type}.
  Variable query3 : list V3 -> option R -> nat -> V3 -> list (option (nat * R)).
  Variable eigh : M3 -> V3.
  Variable loc : list V3 -> list V3.

  Lemma all_some_spec {A} (l : list (option A)) l' : all_some l = Some l' <-> l = map Some l'.
  Proof.
    revert l'; induction l as [|[a|] l IH]; intro l'; cbn.
    - split; [intros [= <-]; reflexivity | destruct l'; [reflexivity | discriminate]].
    - destruct (all_some l) as [m|]; cbn.
      + split.
        * intros [= <-]. cbn. f_equal. apply IH. reflexivity.
        * destruct l' as [|b l']; [discriminate|]. cbn. intros [= -> E]. apply IH in E. congruence.
      + split; [discriminate|]. destruct l' as [|b l']; [discriminate|]. cbn. intros [= _ E]. apply IH in E. discriminate.
    - split; [discriminate|]. destruct l'; discriminate.
  Qed.

  Definition complete (ref : list V3) (ub : option R) (k : nat) (p : V3) : Prop :=
    exists row, query3 ref ub k p = map Some row.

  (** the line fitted to the reported neighbours of [p] *)
  Definition line_of (ref : list V3) (ub : option R) (k : nat) (p : V3) (l : line3d) : Prop :=
    exists row pts, query3 ref ub k p = map Some row /\
      length pts = length row /\ (forall m i d, nth_error row m = Some (i, d) -> nth_error pts m = nth_error ref i /\ nth_error ref i <> None) /\
      l = from_points eigh pts.

  Lemma line_matches_spec ref ub k (test : list V3) :
    knn_contract vdist query3 -> valid_bound ub ->
    exists m, line_matches eigh ref (map (fun p => (p, query3 ref ub k p)) test) = Ok m /\
      kept (complete ref ub k) test (map fst m) /\
      Forall (fun pq => exists l, line_of ref ub k (fst pq) l /\ snd pq = evaluate_at l (fst pq)) m.
  Proof.
    intros C V. induction test as [|p test (m & E & K & F)]; [exists []; repeat constructor|].
    cbn [map line_matches]. destruct (all_some (query3 ref ub k p)) as [row|] eqn:A.
    - apply all_some_spec in A.
      assert (Rg : Forall (fun i => (i < length ref)%nat) (map fst row)).
      { apply Forall_forall. intros i Hi. apply in_map_iff in Hi as [[i' d] [<- Hi]].
        destruct (knn_sound _ _ C ref ub k p i' d V) as (r & Hr & _); [rewrite A; apply in_map, Hi|]. eapply nth_error_Some_lt, Hr. }
      destruct (np_take_nat ref (map fst row) Rg) as (pts & Ep & Np).
      unfold neighbour_line. rewrite Ep. cbn [bind]. rewrite E. cbn [bind].
      exists ((p, evaluate_at (from_points eigh pts) p) :: m). split; [reflexivity|]. split.
      + cbn [map fst]. constructor; [|exact K]. exists row. exact A.
      + constructor; [|exact F]. cbn [fst snd]. exists (from_points eigh pts). split; [|reflexivity].
        exists row, pts. split; [exact A|]. split; [apply np_take_length in Ep; rewrite !map_length in Ep; exact Ep|].
        split; [|reflexivity]. intros n i d Hn. rewrite Np, nth_error_map', Hn. cbn. split; [reflexivity|].
        apply nth_error_Some. rewrite Forall_forall in Rg. apply Rg. apply nth_error_In in Hn. apply (in_map fst) in Hn. exact Hn.
    - exists m. split; [exact E|]. split; [|exact F]. cbn [map fst]. constructor; [|exact K].
      intros [row Hr]. apply all_some_spec in Hr. congruence.
  Qed.

  Lemma spatial_interpolation_spec max k (test ref test' ref' : traj Q) :
    knn_contract vdist query3 -> 0 <= max ->
    match_spatial_interpolation query3 eigh loc max k test ref = Ok (test', ref') ->
    kept (complete (xyz ref) (bound max) k) (xyz test) (xyz test') /\
    length (xyz ref') = length (xyz test') /\ xyz test' <> [] /\
    (forall m p q, nth_error (xyz test') m = Some p -> nth_error (xyz ref') m = Some q ->
       exists l, line_of (xyz ref) (bound max) k p l /\ q = evaluate_at l p).
  Proof.
    intros C Hm H. unfold match_spatial_interpolation in H.
    destruct (forallb _ _); [discriminate|]. destruct (k =? 1)%nat; [discriminate|].
    destruct (line_matches_spec (xyz ref) (bound max) k (xyz test) C (bound_valid max Hm)) as (m & E & K & F).
    rewrite E in H. cbn [bind] in H. destruct m as [|x m]; [discriminate|]. set (pq := x :: m) in *.
    apply bind_ok in H as [t' [H1 H]]. apply bind_ok in H as [r' [H2 H]]. injection H as <- <-.
    assert (G : forall pos nm (t : traj Q), new_traj loc pos 0 None None nm None None SortTime = Ok t -> xyz t = pos).
    { intros pos nm t Ht. unfold new_traj in Ht. cbn in Ht. apply bind_ok in Ht as [v [_ Ht]]. injection Ht as <-. reflexivity. }
    rewrite (G _ _ _ H1), (G _ _ _ H2). split; [exact K|]. split; [rewrite !map_length; reflexivity|].
    split; [unfold pq; discriminate|]. intros i p q Hp Hq. rewrite nth_error_map' in Hp, Hq.
    destruct (nth_error pq i) as [[a b]|] eqn:Ei; [|discriminate]. injection Hp as <-. injection Hq as <-.
    rewrite Forall_forall in F. apply (F (a, b)). eapply nth_error_In, Ei.
  Qed.

  Definition named (rows : list (option (nat * R))) : list nat :=
    flat_map (fun r => match r with Some (i, _) => [i] | None => [] end) rows.

  Lemma named_in rows i : In i (named rows) <-> exists d, In (Some (i, d)) rows.
  Proof.
    unfold named. rewrite in_flat_map. split.
    - intros [[[j d]|] [H1 H2]]; [|destruct H2]. destruct H2 as [->|[]]. eauto.
    - intros [d H]. exists (Some (i, d)). split; [exact H | left; reflexivity].
  Qed.

  Lemma named_length rows : (length (named rows) <= length rows)%nat /\ (In None rows -> (length (named rows) < length rows)%nat).
  Proof.
    unfold named. induction rows as [|[[j d]|] rows [IH1 IH2]]; cbn [flat_map app length In]; [split; [lia | intros []]| |].
    - split; [lia|]. intros [H|H]; [discriminate|]. apply IH2 in H. lia.
    - split; [lia | intros _; lia].
  Qed.

  Lemma rows_all_some (rows : list (option (nat * R))) : ~ In None rows -> exists row, rows = map Some row.
  Proof.
    induction rows as [|[x|] rows IH]; intro H; [exists []; reflexivity| |].
    - destruct IH as [row ->]; [intro K; apply H; right; exact K|]. exists (x :: row). reflexivity.
    - exfalso. apply H. left. reflexivity.
  Qed.

  Lemma no_limit_complete ref k p :
    knn_contract vdist query3 -> (k <= length ref)%nat -> complete ref None k p.
  Proof.
    intros C L. unfold complete. apply rows_all_some. intro N.
    assert (I : incl (seq 0 (length ref)) (named (query3 ref None k p))).
    { intros i Hi. apply in_seq in Hi. destruct (in_dec Nat.eq_dec i (named (query3 ref None k p))) as [H|H]; [exact H|]. exfalso.
      destruct (nth_error_lt_Some ref i) as [r Hr]; [lia|].
      destruct (knn_nearest _ _ C ref None k p i r I Hr I) with (row := @None (nat * R)) as (j & d & E & _); [|exact N|discriminate].
      intros d Hd. apply H. apply named_in. eauto. }
    apply NoDup_incl_length in I; [|apply seq_NoDup]. rewrite seq_length in I.
    destruct (named_length (query3 ref None k p)) as [_ K]. specialize (K N). rewrite (knn_length _ _ C ref None k p Logic.I) in K. lia.
  Qed.

  Lemma few_incomplete ref ub k p :
    knn_contract vdist query3 -> valid_bound ub -> (length ref < k)%nat -> ~ complete ref ub k p.
  Proof.
    intros C V L [row E].
    assert (Lr : length row = k) by (rewrite <- (knn_length _ _ C ref ub k p V), E, map_length; reflexivity).
    assert (ND : NoDup (map fst row)).
    { apply NoDup_nth_error. intros a b Ha Hab. rewrite !nth_error_map' in Hab. rewrite map_length in Ha.
      apply nth_error_lt_Some in Ha as [[i d] Ha]. rewrite Ha in Hab. cbn in Hab.
      destruct (nth_error row b) as [[j e]|] eqn:Hb; [|discriminate]. cbn in Hab. injection Hab as <-.
      apply (knn_distinct _ _ C ref ub k p a b i d e V); rewrite E, nth_error_map'; [rewrite Ha | rewrite Hb]; reflexivity. }
    assert (In' : incl (map fst row) (seq 0 (length ref))).
    { intros i Hi. apply in_map_iff in Hi as [[j d] [<- Hi]].
      destruct (knn_sound _ _ C ref ub k p j d V) as (r & Hr & _); [rewrite E; apply in_map, Hi|].
      apply in_seq. apply nth_error_Some_lt in Hr. cbn. lia. }
    apply NoDup_incl_length in In'; [|exact ND]. rewrite seq_length, map_length in In'. lia.
  Qed.

  Lemma kept_all {A} (P : A -> Prop) l l' : kept P l l' -> (forall a, In a l -> P a) -> l' = l.
  Proof.
    induction 1 as [|a l l' Pa H IH|a l l' Pa H IH]; intro F; [reflexivity| |].
    - f_equal. apply IH. intros x Hx. apply F. right. exact Hx.
    - exfalso. apply Pa, F. left. reflexivity.
  Qed.

  Lemma kept_nothing {A} (P : A -> Prop) l l' : kept P l l' -> (forall a, In a l -> ~ P a) -> l' = [].
  Proof.
    induction 1 as [|a l l' Pa H IH|a l l' Pa H IH]; intro F; [reflexivity| |].
    - exfalso. apply (F a (or_introl eq_refl) Pa).
    - apply IH. intros x Hx. apply F. right. exact Hx.
  Qed.

  Lemma spatial_interpolation_no_limit k (test ref : traj Q) :
    knn_contract vdist query3 -> (forall l, length (loc l) = length l) ->
    (2 <= k <= length (xyz ref))%nat -> xyz test <> [] ->
    exists test' ref', match_spatial_interpolation query3 eigh loc 0 k test ref = Ok (test', ref') /\
      xyz test' = xyz test /\ length (xyz ref') = length (xyz test).
  Proof.
    intros C Hl Hk Ht.
    destruct (line_matches_spec (xyz ref) (bound 0) k (xyz test) C (bound_valid 0 (Rle_refl 0))) as (m & E & K & F).
    assert (B : bound 0 = None) by (unfold bound; rewrite Reqb_refl; reflexivity). rewrite B in *.
    assert (Em : map fst m = xyz test) by (apply (kept_all _ _ _ K); intros p _; apply no_limit_complete; [exact C | lia]).
    assert (N : forallb (fun r : V3 * list (option (nat * R)) => forallb (fun o => match o with None => true | Some _ => false end) (snd r))
                  (map (fun p => (p, query3 (xyz ref) None k p)) (xyz test)) = false).
    { destruct (xyz test) as [|p ps]; [congruence|]. cbn [map forallb snd].
      destruct (no_limit_complete (xyz ref) k p C) as [row Er]; [lia|].
      pose proof (knn_length _ _ C (xyz ref) None k p I) as L. rewrite Er in *. destruct row as [|x row]; [cbn in L; lia|]. reflexivity. }
    assert (G : forall pos nm, exists t : traj Q, new_traj loc pos 0 None None nm None None SortTime = Ok t /\ xyz t = pos).
    { intros pos nm. unfold new_traj. cbn.
      destruct (gradient_ok (loc pos) (map INR (seq 0 (length pos)))) as [g Hg]; [rewrite Hl, map_length, seq_length; reflexivity|].
      rewrite Hg. cbn. eexists. split; reflexivity. }
    unfold match_spatial_interpolation. rewrite B, N, E. cbn [bind].
    assert (Nat.eqb k 1 = false) as -> by (apply Nat.eqb_neq; lia).
    destruct m as [|x m]; [cbn in Em; congruence|]. set (pq := x :: m) in *.
    destruct (G (map fst pq) (name test)) as (t' & E1 & X1). destruct (G (map snd pq) (name ref)) as (r' & E2 & X2).
    rewrite E1. cbn [bind]. rewrite E2. cbn [bind]. exists t', r'. split; [reflexivity|]. rewrite X1, X2, <- Em, !map_length. auto.
  Qed.

  Lemma spatial_interpolation_few max k (test ref : traj Q) r :
    knn_contract vdist query3 -> 0 <= max -> (length (xyz ref) < k)%nat ->
    match_spatial_interpolation query3 eigh loc max k test ref <> Ok r.
  Proof.
    intros C Hm L H. destruct r as [test' ref'].
    destruct (spatial_interpolation_spec max k test ref test' ref' C Hm H) as (K & _ & N & _).
    apply N. apply (kept_nothing _ _ _ K). intros p _. apply few_incomplete; [exact C | apply bound_valid, Hm | exact L].
  Qed.
End SpatialInterpolation.
