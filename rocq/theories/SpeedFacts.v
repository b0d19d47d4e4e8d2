(** Proofs about speeds. *)
From Verif Require Import Base BaseFacts VecFacts NumpyModel NumpyFacts TrajModel TrajSpec TrajFacts TrajFacts2 TrajFacts3 EvalStats InfoSpec InfoModel InfoFacts SpeedSpec.

(** ** Computed speeds *)
Lemma gradient_nth ps ts g i v : length ps = length ts -> gradient_3d ps ts = Ok g -> nth_error g i = Some v ->
  (i = (length ps - 1)%nat /\ v = vzero) \/
  (exists p q a b, nth_error ps i = Some p /\ nth_error ps (S i) = Some q /\ nth_error ts i = Some a /\ nth_error ts (S i) = Some b /\ v = vdiv (vsub q p) (b - a)).
Proof.
  intros L H N. unfold gradient_3d in H. inv_bind H. injection H as <-. rename a into g. unfold broadcast in Ha.
  assert (E : (length (map (fun ab : V3 * V3 => vsub (snd ab) (fst ab)) (pairs ps)) =? length (np_diff ts))%nat = true).
  { apply Nat.eqb_eq. unfold np_diff. rewrite !map_length, !pairs_length. lia. }
  rewrite E in Ha. injection Ha as <-. apply Nat.eqb_eq in E. rewrite map_length, pairs_length in E.
  set (g := map _ _) in *. assert (LG : length g = (length ps - 1)%nat) by (unfold g; rewrite map_length, combine_length, map_length, pairs_length, <- E; lia).
  destruct (lt_dec i (length g)) as [LT|GE].
  - right. rewrite nth_error_app1 in N by exact LT. unfold g in N. apply map_nth_error_Some in N as ([d e] & N & <-). rewrite nth_error_combine in N.
    destruct (nth_error (map (fun ab => vsub (snd ab) (fst ab)) (pairs ps)) i) as [d'|] eqn:D; [|discriminate]. destruct (nth_error (np_diff ts) i) as [e'|] eqn:E'; [|discriminate]. injection N as <- <-.
    apply map_nth_error_Some in D as ([p q] & D & <-). unfold np_diff in E'. apply map_nth_error_Some in E' as ([a b] & E' & <-). rewrite pairs_nth in D. rewrite pairs_nth in E'.
    destruct (nth_error ps i) eqn:P1; [|discriminate]. destruct (nth_error ps (S i)) eqn:P2; [|discriminate]. injection D as -> ->.
    destruct (nth_error ts i) eqn:T1; [|discriminate]. destruct (nth_error ts (S i)) eqn:T2; [|discriminate]. injection E' as -> ->.
    exists p, q, a, b. repeat split; auto.
  - left. rewrite nth_error_app2 in N by lia. destruct (i - length g)%nat as [|k] eqn:K; [|destruct k; discriminate]. injection N as <-. split; [lia|reflexivity].
Qed.

Lemma vdiv_scale v s : vdiv v s = vscale (/ s) v.
Proof. unfold vdiv, vscale, Rdiv. f_equal; ring. Qed.

(** ** The distance allowed by a speed *)
Lemma linear_samples V e s x : StronglySorted (fun a b : R * (V3 * R) => fst a < fst b) (e :: s) -> Forall (fun f => snd (snd f) = V * fst f) (e :: s) ->
  fst e <= x -> (exists f, In f (e :: s) /\ x <= fst f) -> at_a (e :: s) x = V * x.
Proof.
  revert e. induction s as [|f s IH]; intros [t [p a]] S F LO (h & IN & HI).
  - destruct IN as [<-|[]]. apply Forall_inv in F. cbn in F, LO, HI. change (a = V * x). rewrite F. f_equal. lra.
  - apply Forall_inv in F as Fe. apply Forall_inv_tail in F. destruct f as [t' [p' a']]. apply StronglySorted_inv in S as [S G]. apply Forall_inv in G as T. apply Forall_inv in F as Ff. cbn [fst snd] in *.
    rewrite at_a_cons. destruct (Rltb_spec x t') as [B|B].
    + destruct (Rleb_spec x t) as [A|A]; [rewrite Fe; f_equal; lra|]. rewrite Fe, Ff. field. lra.
    + apply IH; [exact S|exact F|cbn; lra|]. destruct IN as [<-|IN]; [cbn in HI; lra|]. exists h. split; assumption.
Qed.

Section Speeds.
  Context {Q : Type} (seg : Q -> Q -> R -> Q).

  Definition timed (V : R) (t : traj Q) : list sample := map (fun p => (p_t p, (p_xyz p, V * p_t p))) (poses t).
  Lemma timed_x V t x : at_x (samples t) x = at_x (timed V t) x.
  Proof. unfold at_x, chan, samples, timed. rewrite !map_map. reflexivity. Qed.
  Lemma timed_forward V t : slower V t -> StronglySorted forward (timed V t) /\ StronglySorted (fun a b : R * (V3 * R) => fst a < fst b) (timed V t).
  Proof.
    unfold slower, timed. induction 1 as [|p l H IH F]; [split; constructor|]. destruct IH as [I1 I2]. cbn [map].
    split; (constructor; [assumption|]); rewrite Forall_forall in F |- *; intros e I; apply in_map_iff in I as (q & <- & I); destruct (F q I) as [A B]; cbn [fst snd].
    - split; cbn [fst snd]; lra.
    - exact A.
  Qed.

  Lemma slower_strict V t : consistent t -> @slower Q V t -> strictly_time_sorted t.
  Proof.
    intros C H. unfold strictly_time_sorted. destruct (poses_components t C) as [T _]. rewrite <- T. unfold slower in H. clear - H.
    induction H as [|p l H IH F]; [constructor|]. cbn [map]. constructor; [exact IH|]. rewrite Forall_forall in F |- *. intros x I. apply in_map_iff in I as (q & <- & I). apply (F q I).
  Qed.

  Lemma slower_filter V t t' f : slower V t -> poses t' = filter f (poses t) -> @slower Q V t'.
  Proof. intros H E. unfold slower. rewrite E. apply StronglySorted_filter, H. Qed.

  Lemma slower_match V (t : traj Q) ts t' : consistent t -> slower V t -> match_timestamps t ts = Ok t' -> slower V t'.
  Proof.
    intros C H E. destruct (match_timestamps_spec t ts C) as (t1 & E1 & C1 & _ & SS & _ & P). rewrite E in E1. injection E1 as <-.
    assert (P' : forall p, In p (poses t') -> In p (poses t)).
    { intros p I. destruct (P p I) as (k & K & _). rewrite <- poses_nth in K by exact C. eapply nth_error_In, K. }
    unfold slower. unfold strictly_time_sorted in SS. destruct (poses_components t' C1) as [T _]. rewrite <- T in SS. clear - H P' SS. revert P' SS. generalize (poses t').
    induction l as [|p l IH]; intros P' SS; [constructor|]. cbn [map] in SS. apply StronglySorted_inv in SS as [SS F]. constructor.
    - apply IH; [intros q I; apply P'; right; exact I|exact SS].
    - rewrite Forall_forall in F |- *. intros q I. assert (LT : p_t p < p_t q) by (apply F, in_map, I).
      destruct (before_or_after _ _ p q H (P' p (or_introl eq_refl)) (P' q (or_intror I))) as [->|[B|[B _]]]; [lra|exact B|lra].
  Qed.

  Lemma slower_of_components V t : consistent t -> strictly_time_sorted t ->
    (forall i j a b x y, (i < j)%nat -> nth_error (tstamps t) i = Some a -> nth_error (tstamps t) j = Some b ->
       nth_error (xyz t) i = Some x -> nth_error (xyz t) j = Some y -> vdist x y <= V * (b - a)) -> @slower Q V t.
  Proof.
    intros C S H. destruct (poses_components t C) as (T & X & _). unfold strictly_time_sorted in S. unfold slower. rewrite <- T in S, H. rewrite <- X in H. clear - S H. revert S H. generalize (poses t).
    induction l as [|p l IH]; intros S H; [constructor|]. cbn [map] in S. apply StronglySorted_inv in S as [S F]. constructor.
    - apply IH; [exact S|]. intros i j a b x y L HA HB HX HY. apply (H (Datatypes.S i) (Datatypes.S j) a b x y); [lia| | | |]; assumption.
    - rewrite Forall_forall in F |- *. intros q I. split; [apply F, in_map, I|]. apply In_nth_error in I as (j & J).
      apply (H 0%nat (Datatypes.S j) (p_t p) (p_t q)); [lia|reflexivity| |reflexivity|]; cbn [map nth_error]; apply map_nth_error, J.
  Qed.

  Lemma np_sort_strict l : NoDup l -> StronglySorted Rlt (np_sort l).
  Proof.
    intro N. assert (N' : NoDup (np_sort l)) by (eapply Permutation_NoDup; [symmetry; apply np_sort_perm|exact N]). assert (S := np_sort_sorted l).
    induction S as [|x s S IH F]; [constructor|]. apply NoDup_cons_iff in N' as [NI N']. constructor; [apply IH, N'|].
    rewrite Forall_forall in F |- *. intros y I. assert (x <= y) by (apply F, I). destruct (Req_dec x y) as [->|]; [contradiction|lra].
  Qed.

  Lemma slower_interpolate V t req t' : consistent t -> slower V t -> NoDup req -> consistent t' -> interpolate seg t req = Ok t' ->
    slower V t' /\ gradient_3d (xyz t') (tstamps t') = Ok (speed t').
  Proof.
    intros C H ND C' E. destruct (interpolate_form seg t req t' C E) as (NE & X & _).
    assert (SP : strictly_time_sorted t' /\ (forall x, In x (tstamps t') -> exists lo hi, nth_error (tstamps t) 0 = Some lo /\ In hi (tstamps t) /\ lo <= x <= hi) /\ gradient_3d (xyz t') (tstamps t') = Ok (speed t')).
    { unfold interpolate in E. inv_bind E. inv_bind E. inv_bind E. inv_bind E. inv_bind E. injection E as <-. unfold strictly_time_sorted. cbn [tstamps xyz speed set_tstamps set_arc set_speed].
      split; [|split; [|exact Ha2]].
      - apply crop_request_inv in Ha as [[_ ->]|[lo [hi [_ [_ ->]]]]]; [constructor|]. apply StronglySorted_filter, np_sort_strict, ND.
      - intros x I. apply crop_request_inv in Ha as [[_ ->]|[lo [hi [G0 [G1 ->]]]]]; [destruct I|]. apply filter_In in I as [_ I]. unfold in_range in I. apply andb_true_iff in I as [I1 I2]. apply Rleb_true in I1, I2.
        exists lo, hi. destruct (nth_error_lt_Some (tstamps t) 0) as [lo' L0]; [destruct (tstamps t); [contradiction|cbn; lia]|]. rewrite (np_get_head _ _ L0) in G0. injection G0 as ->.
        destruct (nth_error_lt_Some (tstamps t) (length (tstamps t) - 1)) as [hi' H0]; [destruct (tstamps t); [contradiction|cbn; lia]|]. rewrite (np_get_last _ _ NE H0) in G1. injection G1 as ->.
        split; [exact L0|]. split; [eapply nth_error_In, H0|lra]. }
    destruct SP as (SS & RG & GR). split; [|exact GR].
    destruct (poses_components t C) as [T _]. destruct (timed_forward V t H) as [F1 F2].
    assert (LIN : forall x, In x (tstamps t') -> at_a (timed V t) x = V * x).
    { intros x I. destruct (RG x I) as (lo & hi & L0 & HI & LE). rewrite <- T in L0, HI. unfold timed in *. apply in_map_iff in HI as (ph & <- & IH). destruct (poses t) as [|p l]; [destruct IH|]. cbn in L0. injection L0 as <-.
      cbn [map] in *. apply linear_samples; [exact F2| |cbn; lra|].
      - change (Forall (fun f : R * (V3 * R) => snd (snd f) = V * fst f) (map (fun p => (p_t p, (p_xyz p, V * p_t p))) (p :: l))). rewrite Forall_forall. intros f J. apply in_map_iff in J as (q & <- & _). reflexivity.
      - exists (p_t ph, (p_xyz ph, V * p_t ph)). split; [|cbn; lra]. change (In (p_t ph, (p_xyz ph, V * p_t ph)) (map (fun p => (p_t p, (p_xyz p, V * p_t p))) (p :: l))). apply (in_map (fun p => (p_t p, (p_xyz p, V * p_t p)))), IH. }
    apply slower_of_components; [exact C'|exact SS|]. intros i j a b x y L TA TB HX HY. rewrite X in HX, HY.
    apply map_nth_error_Some in HX as (a' & A' & <-). apply map_nth_error_Some in HY as (b' & B' & <-). rewrite TA in A'. injection A' as <-. rewrite TB in B'. injection B' as <-.
    rewrite !(timed_x V t). assert (AB : a < b) by (apply (proj1 (StronglySorted_nth Rlt (tstamps t')) SS i j a b L TA TB)).
    assert (TN : timed V t <> []) by (unfold timed; intro Z; apply NE; rewrite <- T; destruct (poses t); [reflexivity|discriminate]).
    assert (B := between (timed V t) a b F1 TN ltac:(lra)). rewrite !LIN in B by (eapply nth_error_In; eassumption). lra.
  Qed.

  Lemma gradient_bounded V ps ts g : 0 <= V -> length ps = length ts -> gradient_3d ps ts = Ok g ->
    (forall i a b x y, nth_error ts i = Some a -> nth_error ts (S i) = Some b -> nth_error ps i = Some x -> nth_error ps (S i) = Some y -> a < b /\ vdist x y <= V * (b - a)) ->
    Forall (fun v => vnorm v <= V) g.
  Proof.
    intros NV L G H. rewrite Forall_forall. intros v I. apply In_nth_error in I as (i & I).
    destruct (gradient_nth ps ts g i v L G I) as [[_ ->]|(p & q & a & b & P & Q' & A & B & ->)]; [assert (Z : vnorm vzero = 0) by (apply vnorm_unique; [lra|unfold vdot; cbn; ring]); rewrite Z; exact NV|].
    destruct (H i a b p q A B P Q') as [AB D]. rewrite vdiv_scale, vnorm_scale. rewrite Rabs_pos_eq by (apply Rlt_le, Rinv_0_lt_compat; lra).
    rewrite vdist_sym in D. unfold vdist in D. apply (Rmult_le_reg_l (b - a)); [lra|]. rewrite <- Rmult_assoc, Rinv_r by lra. lra.
  Qed.

  Definition bounded (V : R) (t : traj Q) : Prop := slower V t /\ Forall (fun v => vnorm v <= V) (speed t).

  Lemma bounded_incl V t t' : consistent t -> consistent t' -> incl (poses t') (poses t) -> Forall (fun v => vnorm v <= V) (speed t) -> Forall (fun v => vnorm v <= V) (@speed Q t').
  Proof.
    intros C C' I H. destruct (poses_components t C) as (_ & _ & _ & _ & A). destruct (poses_components t' C') as (_ & _ & _ & _ & A').
    rewrite <- A in H. rewrite <- A'. rewrite Forall_forall in H |- *. intros a Ia. apply in_map_iff in Ia as (p & <- & Ip). apply H, in_map, I, Ip.
  Qed.

  Lemma op_bounded V t o t' : 0 <= V -> consistent t -> bounded V t -> plain_request o -> apply_op seg t o = Ok t' -> (is_interpolate o -> tstamps t' <> []) ->
    consistent t' /\ bounded V t'.
  Proof.
    intros NV C [H W] PR E NE. assert (C' : consistent t') by (apply (op_consistent seg t o t' C E NE)). split; [exact C'|]. destruct o as [ix|a b inv|ts|ts gap|ts]; cbn in E.
    - destruct PR.
    - destruct (crop_spec t a b inv C) as (t1 & E1 & _ & _ & P). rewrite E in E1. injection E1 as <-.
      split; [eapply slower_filter; [exact H|exact P]|]. apply (bounded_incl V t); auto. intros p I. rewrite P in I. apply filter_In in I. apply I.
    - split; [eapply slower_match; [exact C|exact H|exact E]|]. apply (bounded_incl V t); auto. intros p I.
      destruct (match_timestamps_spec t ts C) as (t1 & E1 & _ & _ & _ & _ & P). rewrite E in E1. injection E1 as <-. destruct (P p I) as (k & K & _). rewrite <- poses_nth in K by exact C. eapply nth_error_In, K.
    - destruct ts as [|x ts]; [rewrite intersect_empty in E by auto; discriminate|].
      destruct (tstamps t) as [|y yt] eqn:Et; [rewrite intersect_empty in E by auto; discriminate|].
      destruct (min_exists (x :: ts)) as [a0 A0]; [discriminate|]. destruct (max_exists (x :: ts)) as [a1 A1]; [discriminate|].
      destruct (min_exists (tstamps t)) as [b0 B0]; [rewrite Et; discriminate|]. destruct (max_exists (tstamps t)) as [b1 B1]; [rewrite Et; discriminate|].
      destruct (Rle_lt_dec (Rmax a0 b0) (Rmin a1 b1)) as [Hov|Hov].
      + destruct (intersect_spec t _ gap a0 a1 b0 b1 C A0 A1 B0 B1 Hov) as (t1 & keep & E1 & _ & _ & P & _). rewrite E in E1. injection E1 as <-.
        split; [eapply slower_filter; [exact H|exact P]|]. apply (bounded_incl V t); auto. intros p I. rewrite P in I. apply filter_In in I. apply I.
      + rewrite (intersect_no_overlap t _ gap a0 a1 b0 b1 A0 A1 B0 B1 Hov) in E. discriminate.
    - destruct (slower_interpolate V t ts t' C H PR C' E) as [H' GR]. split; [exact H'|].
      assert (L : length (xyz t') = length (tstamps t')) by (symmetry; apply C'). apply (gradient_bounded V _ _ _ NV L GR).
      intros i a b x y TA TB HX HY. destruct (poses_components t' C') as (T & X & _). unfold slower in H'. rewrite <- T in TA, TB. rewrite <- X in HX, HY.
      apply map_nth_error_Some in TA as (p & P1 & <-). apply map_nth_error_Some in TB as (q & P2 & <-). apply map_nth_error_Some in HX as (p' & P1' & <-). apply map_nth_error_Some in HY as (q' & P2' & <-).
      rewrite P1 in P1'. injection P1' as <-. rewrite P2 in P2'. injection P2' as <-. exact (proj1 (StronglySorted_nth _ (poses t')) H' i (S i) p q ltac:(lia) P1 P2).
  Qed.

  Lemma history_bounded V t ops t' : 0 <= V -> consistent t -> bounded V t -> Forall plain_request ops -> history seg t ops t' -> consistent t' /\ bounded V t'.
  Proof.
    intros NV C H F HI. revert C H F. induction HI as [t|t o t1 ops t' E NE HI IH]; intros C H F; [auto|].
    apply Forall_inv in F as NI. apply Forall_inv_tail in F as F'. destruct (op_bounded V t o t1 NV C H NI E NE) as (C1 & H1). apply IH; assumption.
  Qed.
End Speeds.
