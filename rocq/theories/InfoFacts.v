(** Proofs about arc lengths through histories of selections and interpolations. *)
From Verif Require Import Base BaseFacts VecFacts NumpyModel NumpyFacts TrajModel TrajSpec TrajFacts TrajFacts2 TrajFacts3 InfoSpec.

(** ** Interpolation along a path *)
Notation sample := (R * (V3 * R))%type.
Definition chan (f : V3 * R -> R) (s : list sample) : list (R * R) := map (fun e => (fst e, f (snd e))) s.
Definition at_x (s : list sample) (x : R) : V3 :=
  mkV3 (interp_at (chan (fun v => vx (fst v)) s) x) (interp_at (chan (fun v => vy (fst v)) s) x) (interp_at (chan (fun v => vz (fst v)) s) x).
Definition at_a (s : list sample) (x : R) : R := interp_at (chan snd s) x.
Definition forward (e f : sample) : Prop := fst e <= fst f /\ vdist (fst (snd e)) (fst (snd f)) <= snd (snd f) - snd (snd e).

Lemma at_x_cons t p a t' p' a' r x :
  at_x ((t, (p, a)) :: (t', (p', a')) :: r) x =
  if Rltb x t' then (if Rleb x t then p else lerp p p' ((x - t) / (t' - t))) else at_x ((t', (p', a')) :: r) x.
Proof.
  unfold at_x, chan. cbn [map fst snd]. rewrite !interp_at_cons. destruct (Rltb x t'); [|reflexivity].
  destruct (Rleb x t); [destruct p; reflexivity|]. unfold lerp, vadd, vscale, vsub. cbn [vx vy vz]. unfold Rdiv. f_equal; ring.
Qed.
Lemma at_a_cons t p a t' p' a' r x :
  at_a ((t, (p, a)) :: (t', (p', a')) :: r) x =
  if Rltb x t' then (if Rleb x t then a else a + (x - t) / (t' - t) * (a' - a)) else at_a ((t', (p', a')) :: r) x.
Proof.
  unfold at_a, chan. cbn [map fst snd]. rewrite !interp_at_cons. destruct (Rltb x t'); [|reflexivity].
  destruct (Rleb x t); [reflexivity|]. unfold Rdiv. ring.
Qed.

Lemma lerp_lerp p q v w : vdist (lerp p q v) (lerp p q w) = Rabs (w - v) * vdist p q.
Proof.
  unfold vdist. rewrite <- vnorm_scale. f_equal.
  unfold lerp, vadd, vscale, vsub. cbn [vx vy vz]. f_equal; ring.
Qed.
Lemma lerp_0 p q : lerp p q 0 = p.
Proof. destruct p as [p1 p2 p3]. unfold lerp, vadd, vscale, vsub. cbn [vx vy vz]. f_equal; ring. Qed.
Lemma lerp_from p q w : 0 <= w -> vdist p (lerp p q w) = w * vdist p q.
Proof. intro W. assert (E := lerp_lerp p q 0 w). rewrite lerp_0, Rminus_0_r, Rabs_pos_eq in E by exact W. exact E. Qed.
Lemma lerp_1 p q : lerp p q 1 = q.
Proof. destruct q as [q1 q2 q3]. unfold lerp, vadd, vscale, vsub. cbn [vx vy vz]. f_equal; ring. Qed.
Lemma lerp_to p q w : w <= 1 -> vdist (lerp p q w) q = (1 - w) * vdist p q.
Proof. intro W. assert (E := lerp_lerp p q w 1). rewrite lerp_1, Rabs_pos_eq in E by lra. exact E. Qed.

Lemma fraction t t' x : t < x -> x < t' -> 0 <= (x - t) / (t' - t) <= 1.
Proof.
  intros A B. split; [apply Rmult_le_pos; [lra|apply Rlt_le, Rinv_0_lt_compat; lra]|].
  apply (Rmult_le_reg_r (t' - t)); [lra|]. unfold Rdiv. rewrite Rmult_assoc, Rinv_l by lra. lra.
Qed.

Lemma at_x_one (e : sample) x : at_x [e] x = fst (snd e).
Proof. destruct e as [t [[p1 p2 p3] a]]. reflexivity. Qed.

Lemma from_start e s x : StronglySorted forward (e :: s) -> vdist (fst (snd e)) (at_x (e :: s) x) <= at_a (e :: s) x - snd (snd e).
Proof.
  revert e. induction s as [|f s IH]; intros [t [p a]] H.
  - rewrite at_x_one. cbn [fst snd]. rewrite vdist_refl. change (0 <= a - a). lra.
  - destruct f as [t' [p' a']]. apply StronglySorted_inv in H as [H F]. apply Forall_inv in F as [T D]. cbn [fst snd] in T, D |- *.
    rewrite at_x_cons, at_a_cons. destruct (Rltb_spec x t') as [B|B].
    + destruct (Rleb_spec x t) as [A|A]; [rewrite vdist_refl; lra|].
      assert (W := fraction t t' x ltac:(lra) B). set (w := (x - t) / (t' - t)) in *.
      rewrite lerp_from by lra.
      assert (w * vdist p p' <= w * (a' - a)) by (apply Rmult_le_compat_l; lra). lra.
    + specialize (IH (t', (p', a')) H). cbn [fst snd] in IH. eapply Rle_trans; [apply (vdist_triangle p p')|]. lra.
Qed.

Lemma between s x y : StronglySorted forward s -> s <> [] -> x <= y -> vdist (at_x s x) (at_x s y) <= at_a s y - at_a s x.
Proof.
  intros H N L. induction s as [|e s IH]; [contradiction|]. destruct e as [t [p a]]. destruct s as [|f s].
  - rewrite !at_x_one, vdist_refl. change (0 <= a - a). lra.
  - destruct f as [t' [p' a']]. apply StronglySorted_inv in H as [H F]. apply Forall_inv in F as [T D]. cbn [fst snd] in T, D.
    specialize (IH H ltac:(discriminate)). rewrite !at_x_cons, !at_a_cons.
    destruct (Rltb_spec x t') as [BX|BX]; destruct (Rltb_spec y t') as [BY|BY]; [| |lra|exact IH].
    + destruct (Rleb_spec x t) as [AX|AX]; destruct (Rleb_spec y t) as [AY|AY]; [rewrite vdist_refl; lra| |lra|].
      * assert (W := fraction t t' y ltac:(lra) BY). set (w := (y - t) / (t' - t)) in *. rewrite lerp_from by lra.
      assert (w * vdist p p' <= w * (a' - a)) by (apply Rmult_le_compat_l; lra). lra.
      * assert (V := fraction t t' x ltac:(lra) BX). assert (W := fraction t t' y ltac:(lra) BY).
        assert (VW : (x - t) / (t' - t) <= (y - t) / (t' - t)).
        { apply Rmult_le_compat_r; [apply Rlt_le, Rinv_0_lt_compat; lra|lra]. }
        set (v := (x - t) / (t' - t)) in *. set (w := (y - t) / (t' - t)) in *. rewrite lerp_lerp, Rabs_pos_eq by lra.
        assert ((w - v) * vdist p p' <= (w - v) * (a' - a)) by (apply Rmult_le_compat_l; lra). lra.
    + assert (S1 := from_start (t', (p', a')) s y H). cbn [fst snd] in S1.
      destruct (Rleb_spec x t) as [AX|AX].
      * eapply Rle_trans; [apply (vdist_triangle p p')|]. lra.
      * assert (W := fraction t t' x ltac:(lra) BX). set (w := (x - t) / (t' - t)) in *.
        eapply Rle_trans; [apply (vdist_triangle (lerp p p' w) p')|]. rewrite lerp_to by lra.
        assert ((1 - w) * vdist p p' <= (1 - w) * (a' - a)) by (apply Rmult_le_compat_l; lra). lra.
Qed.

(** Interpolated arc lengths lie between the first and the last one. *)
Lemma at_a_range s x : StronglySorted forward s -> s <> [] ->
  (exists e, In e s /\ snd (snd e) <= at_a s x) /\ (exists e, In e s /\ at_a s x <= snd (snd e)).
Proof.
  intros H N. induction s as [|e s IH]; [contradiction|]. destruct e as [t [p a]]. destruct s as [|f s].
  - change (at_a [(t, (p, a))] x) with a. split; eexists; (split; [left; reflexivity|]); cbn; lra.
  - destruct f as [t' [p' a']]. apply StronglySorted_inv in H as [H F]. apply Forall_inv in F as [T D]. cbn [fst snd] in T, D.
    assert (DN := vdist_nonneg p p'). destruct (IH H ltac:(discriminate)) as ((e1 & I1 & E1) & (e2 & I2 & E2)). rewrite at_a_cons.
    destruct (Rltb_spec x t') as [B|B].
    + destruct (Rleb_spec x t) as [A|A].
      * split; exists (t, (p, a)); (split; [left; reflexivity|]); cbn; lra.
      * assert (W := fraction t t' x ltac:(lra) B). set (w := (x - t) / (t' - t)) in *.
        split; [exists (t, (p, a))|exists (t', (p', a'))]; (split; [cbn; tauto|]); cbn [snd]; nra.
    + split; [exists e1|exists e2]; (split; [right; assumption|assumption]).
Qed.

(** ** Path lengths *)
Lemma path_below (l : list (V3 * R)) : StronglySorted (fun e f => vdist (fst e) (fst f) <= snd f - snd e) l ->
  forall a, nth_error (map snd l) 0 = Some a -> path_length (map fst l) <= match rev (map snd l) with [] => 0 | b :: _ => b end - a.
Proof.
  induction l as [|e l IH]; intros H a E; [discriminate|]. apply StronglySorted_inv in H as [H F]. cbn in E. injection E as <-.
  destruct l as [|f l]; [cbn; lra|]. specialize (IH H (snd f) eq_refl). apply Forall_inv in F. cbn [map path_length] in *.
  cbn [rev] in *. destruct ((rev (map snd l) ++ [snd f])%list) as [|b r] eqn:E; [destruct (rev (map snd l)); discriminate|]. cbn [app]. lra.
Qed.

Section Histories.
  Context {Q : Type} (seg : Q -> Q -> R -> Q).

  Lemma travelled_sorted (t : traj Q) : consistent t -> travelled t -> time_sorted t.
  Proof.
    intros C H. apply poses_sorted; [exact C|]. unfold travelled in H. induction H as [|p l H IH F]; constructor; [exact IH|].
    eapply Forall_impl; [|exact F]. intros q [A _]. exact A.
  Qed.

  Lemma before_or_after {A} (P : A -> A -> Prop) l x y : StronglySorted P l -> In x l -> In y l -> x = y \/ P x y \/ P y x.
  Proof.
    induction 1 as [|z l H IH F]; intros X Y; [contradiction|]. rewrite Forall_forall in F.
    destruct X as [<-|X]; destruct Y as [<-|Y]; auto.
  Qed.

  Lemma travelled_filter t t' f : travelled t -> poses t' = filter f (poses t) -> @travelled Q t'.
  Proof. intros H E. unfold travelled. rewrite E. apply StronglySorted_filter, H. Qed.

  Lemma travelled_match (t : traj Q) ts t' : consistent t -> travelled t -> match_timestamps t ts = Ok t' -> travelled t'.
  Proof.
    intros C H E. destruct (match_timestamps_spec t ts C) as (t1 & E1 & C1 & _ & SS & _ & P). rewrite E in E1. injection E1 as <-.
    assert (P' : forall p, In p (poses t') -> In p (poses t)).
    { intros p I. destruct (P p I) as (k & K & _). rewrite <- poses_nth in K by exact C. eapply nth_error_In, K. }
    unfold travelled. unfold strictly_time_sorted in SS. destruct (poses_components t' C1) as [T _]. rewrite <- T in SS. clear - H P' SS. revert P' SS. generalize (poses t').
    induction l as [|p l IH]; intros P' SS; [constructor|]. cbn [map] in SS. apply StronglySorted_inv in SS as [SS F]. constructor.
    - apply IH; [intros q I; apply P'; right; exact I|exact SS].
    - rewrite Forall_forall in F |- *. intros q I. assert (LT : p_t p < p_t q) by (apply F, in_map, I).
      destruct (before_or_after _ _ p q H (P' p (or_introl eq_refl)) (P' q (or_intror I))) as [->|[B|[B _]]]; [lra|exact B|lra].
  Qed.

  (** The samples that interpolation uses *)
  Definition samples (t : traj Q) : list sample := map (fun p => (p_t p, (p_xyz p, p_arc p))) (poses t).
  Lemma samples_forward t : travelled t -> StronglySorted forward (samples t).
  Proof.
    unfold travelled, samples. induction 1 as [|p l H IH F]; [constructor|]. cbn [map]. constructor; [exact IH|].
    rewrite Forall_forall in F |- *. intros e I. apply in_map_iff in I as (q & <- & I). destruct (F q I) as [A B]. split; [exact A|exact B].
  Qed.
  Lemma samples_chan t f g : consistent t -> (forall p : pose Q, f (p_xyz p, p_arc p) = g p) -> chan f (samples t) = combine (tstamps t) (map g (poses t)).
  Proof.
    intros C E. destruct (poses_components t C) as [T _]. rewrite <- T. unfold chan, samples. rewrite map_map. clear - E.
    induction (poses t) as [|p l IH]; [reflexivity|]. cbn [map combine]. f_equal; [cbn [fst snd]; rewrite E; reflexivity|exact IH].
  Qed.

  Lemma interpolate_form t req t' : consistent t -> interpolate seg t req = Ok t' ->
    tstamps t <> [] /\ xyz t' = map (at_x (samples t)) (tstamps t') /\ arc t' = map (at_a (samples t)) (tstamps t').
  Proof.
    intros C H. unfold interpolate in H. inv_bind H. rename a into ts. inv_bind H. rename a into t1. inv_bind H. rename a into t2.
    inv_bind H. rename a into sp. inv_bind H. rename a into al. injection H as <-. cbn [tstamps xyz arc set_tstamps set_arc set_speed].
    unfold interpolate_positions in Ha0. inv_bind Ha0. inv_bind Ha0. inv_bind Ha0. injection Ha0 as <-.
    assert (T2 : tstamps t2 = tstamps t /\ arc t2 = arc t /\ xyz t2 = map (fun p : R * R * R => mkV3 (fst (fst p)) (snd (fst p)) (snd p)) (combine (combine a a0) a1)).
    { unfold interpolate_rotations in Ha1. cbn [rot set_xyz] in Ha1. destruct (rot t) as [r|].
      - destruct (length ts =? 0)%nat; [injection Ha1 as <-; auto|]. inv_bind Ha1. injection Ha1 as <-. auto.
      - injection Ha1 as <-. auto. }
    destruct T2 as (T2 & A2 & X2). rewrite T2, A2 in Ha3.
    assert (NP : forall x xp fp l, np_interp x xp fp = Ok l -> xp <> [] /\ l = map (interp_at (combine xp fp)) x).
    { intros x xp fp l E. unfold np_interp in E. destruct (Nat.eqb_spec (length xp) 0) as [|Z]; [discriminate|]. destruct (negb _); [discriminate|]. injection E as <-. split; [intros ->; apply Z; reflexivity|reflexivity]. }
    apply NP in Ha3 as [NE ->]. apply NP in Ha4 as [_ ->]. apply NP in Ha5 as [_ ->]. apply NP in Ha6 as [_ ->].
    destruct (poses_components t C) as (_ & X & _ & A & _).
    split; [exact NE|]. split.
    - rewrite X2. unfold at_x. rewrite (samples_chan t _ (fun p => vx (p_xyz p)) C), (samples_chan t _ (fun p => vy (p_xyz p)) C), (samples_chan t _ (fun p => vz (p_xyz p)) C) by reflexivity.
      rewrite <- X, !map_map. clear. induction ts as [|x l IH]; [reflexivity|]. cbn [map combine fst snd]. rewrite <- IH. reflexivity.
    - unfold at_a. rewrite (samples_chan t _ (fun p => p_arc p) C) by reflexivity. change (map (fun p : pose Q => p_arc p) (poses t)) with (map (@p_arc Q) (poses t)). rewrite A. reflexivity.
  Qed.

  Lemma travelled_of_components t : consistent t -> time_sorted t ->
    (forall i j a b x y, (i <= j)%nat -> nth_error (arc t) i = Some a -> nth_error (arc t) j = Some b ->
       nth_error (xyz t) i = Some x -> nth_error (xyz t) j = Some y -> vdist x y <= b - a) -> @travelled Q t.
  Proof.
    intros C S H. destruct (poses_components t C) as (T & X & _ & A & _). unfold time_sorted in S. unfold travelled. rewrite <- T in S. rewrite <- X, <- A in H. clear - S H. revert S H. generalize (poses t).
    induction l as [|p l IH]; intros S H; [constructor|]. cbn [map] in S. apply StronglySorted_inv in S as [S F]. constructor.
    - apply IH; [exact S|]. intros i j a b x y L HA HB HX HY. apply (H (Datatypes.S i) (Datatypes.S j) a b x y); [lia| | | |]; assumption.
    - rewrite Forall_forall in F |- *. intros q I. split; [apply F, in_map, I|]. apply In_nth_error in I as (j & J).
      apply (H 0%nat (Datatypes.S j) (p_arc p) (p_arc q)); [lia|reflexivity| |reflexivity|]; cbn [map nth_error]; apply map_nth_error, J.
  Qed.

  Lemma travelled_interpolate t req t' : consistent t -> travelled t -> consistent t' -> interpolate seg t req = Ok t' -> travelled t'.
  Proof.
    intros C H C' E. destruct (interpolate_form t req t' C E) as (NE & X & A).
    assert (TS : time_sorted t') by (apply (op_sorted seg t (OpInterpolate req) t' C (travelled_sorted t C H)); [intros []|exact E]).
    assert (SN : samples t <> []).
    { intro Z. apply NE. destruct (poses_components t C) as [T _]. rewrite <- T. unfold samples in Z. destruct (poses t); [reflexivity|discriminate]. }
    apply travelled_of_components; [exact C'|exact TS|]. intros i j a b x y L HA HB HX HY. rewrite A in HA, HB. rewrite X in HX, HY.
    apply map_nth_error_Some in HA as (u & U & <-). apply map_nth_error_Some in HB as (v & V & <-).
    apply map_nth_error_Some in HX as (u' & U' & <-). apply map_nth_error_Some in HY as (v' & V' & <-). rewrite U in U'. injection U' as <-. rewrite V in V'. injection V' as <-.
    apply between; [apply samples_forward, H|exact SN|]. destruct (Nat.eq_dec i j) as [->|ND]; [rewrite U in V; injection V as ->; lra|].
    unfold time_sorted in TS. clear - TS U V L ND. revert i j L ND U V. induction TS as [|z l H IH F]; intros i j L ND U V; [destruct i; discriminate|].
    destruct j as [|j]; [lia|]. destruct i as [|i]; cbn in U, V.
    - injection U as <-. rewrite Forall_forall in F. apply F. eapply nth_error_In, V.
    - apply (IH i j); [lia|lia|exact U|exact V].
  Qed.

  (** Bounds of the arc lengths *)
  Definition arcs_within (lo hi : R) (t : traj Q) : Prop := Forall (fun a => lo <= a <= hi) (arc t).

  Lemma within_incl lo hi t t' : consistent t -> consistent t' -> incl (poses t') (poses t) -> arcs_within lo hi t -> arcs_within lo hi t'.
  Proof.
    intros C C' I H. unfold arcs_within in *. destruct (poses_components t C) as (_ & _ & _ & A & _). destruct (poses_components t' C') as (_ & _ & _ & A' & _).
    rewrite <- A in H. rewrite <- A'. rewrite Forall_forall in H |- *. intros a Ia. apply in_map_iff in Ia as (p & <- & Ip). apply H, in_map, I, Ip.
  Qed.
  Lemma within_interpolate lo hi t req t' : consistent t -> travelled t -> interpolate seg t req = Ok t' -> arcs_within lo hi t -> arcs_within lo hi t'.
  Proof.
    intros C H E W. destruct (interpolate_form t req t' C E) as (NE & _ & A). unfold arcs_within in *. rewrite A.
    assert (SN : samples t <> []).
    { intro Z. apply NE. destruct (poses_components t C) as [T _]. rewrite <- T. unfold samples in Z. destruct (poses t); [reflexivity|discriminate]. }
    assert (IN : forall e, In e (samples t) -> lo <= snd (snd e) <= hi).
    { intros e I. apply in_map_iff in I as (p & <- & I). cbn. rewrite Forall_forall in W. apply W. destruct (poses_components t C) as (_ & _ & _ & B & _). rewrite <- B. apply in_map, I. }
    rewrite Forall_forall. intros a I. apply in_map_iff in I as (x & <- & _).
    destruct (at_a_range (samples t) x (samples_forward t H) SN) as ((e1 & I1 & B1) & (e2 & I2 & B2)). assert (X1 := IN _ I1). assert (X2 := IN _ I2). lra.
  Qed.

  Lemma op_travelled t o t' lo hi : consistent t -> travelled t -> arcs_within lo hi t -> ~ is_index o -> apply_op seg t o = Ok t' -> (is_interpolate o -> tstamps t' <> []) ->
    consistent t' /\ travelled t' /\ arcs_within lo hi t'.
  Proof.
    intros C H W NI E NE. assert (C' : consistent t') by (apply (op_consistent seg t o t' C E NE)). split; [exact C'|]. destruct o as [ix|a b inv|ts|ts gap|ts]; cbn in E.
    - destruct (NI I).
    - destruct (crop_spec t a b inv C) as (t1 & E1 & _ & _ & P). rewrite E in E1. injection E1 as <-.
      split; [eapply travelled_filter; [exact H|exact P]|]. apply (within_incl lo hi t); auto. intros p I. rewrite P in I. apply filter_In in I. apply I.
    - split; [eapply travelled_match; [exact C|exact H|exact E]|]. apply (within_incl lo hi t); auto. intros p I.
      destruct (match_timestamps_spec t ts C) as (t1 & E1 & _ & _ & _ & _ & P). rewrite E in E1. injection E1 as <-. destruct (P p I) as (k & K & _). rewrite <- poses_nth in K by exact C. eapply nth_error_In, K.
    - destruct ts as [|x ts]; [rewrite intersect_empty in E by auto; discriminate|].
      destruct (tstamps t) as [|y yt] eqn:Et; [rewrite intersect_empty in E by auto; discriminate|].
      destruct (min_exists (x :: ts)) as [a0 A0]; [discriminate|]. destruct (max_exists (x :: ts)) as [a1 A1]; [discriminate|].
      destruct (min_exists (tstamps t)) as [b0 B0]; [rewrite Et; discriminate|]. destruct (max_exists (tstamps t)) as [b1 B1]; [rewrite Et; discriminate|].
      destruct (Rle_lt_dec (Rmax a0 b0) (Rmin a1 b1)) as [Hov|Hov].
      + destruct (intersect_spec t _ gap a0 a1 b0 b1 C A0 A1 B0 B1 Hov) as (t1 & keep & E1 & _ & _ & P & _). rewrite E in E1. injection E1 as <-.
        split; [eapply travelled_filter; [exact H|exact P]|]. apply (within_incl lo hi t); auto. intros p I. rewrite P in I. apply filter_In in I. apply I.
      + rewrite (intersect_no_overlap t _ gap a0 a1 b0 b1 A0 A1 B0 B1 Hov) in E. discriminate.
    - split; [apply (travelled_interpolate t ts t' C H C' E)|apply (within_interpolate lo hi t ts t' C H E W)].
  Qed.

  Lemma history_travelled t ops t' lo hi : consistent t -> travelled t -> arcs_within lo hi t -> Forall (fun o => ~ is_index o) ops -> history seg t ops t' ->
    consistent t' /\ travelled t' /\ arcs_within lo hi t'.
  Proof.
    intros C H W F HI. revert C H W F. induction HI as [t|t o t1 ops t' E NE HI IH]; intros C H W F; [auto|].
    apply Forall_inv in F as NI. apply Forall_inv_tail in F as F'.
    destruct (op_travelled t o t1 lo hi C H W NI E NE) as (C1 & H1 & W1). apply IH; assumption.
  Qed.

  Lemma travelled_length t : consistent t -> @travelled Q t -> forall a, nth_error (arc t) 0 = Some a -> path_length (xyz t) <= total_length t - a.
  Proof.
    intros C H a A. destruct (poses_components t C) as (_ & X & _ & AR & _). unfold total_length. rewrite <- AR in A |- *. rewrite <- X.
    assert (P := path_below (map (fun p : pose Q => (p_xyz p, p_arc p)) (poses t))). rewrite !map_map in P. cbn [fst snd] in P. apply P; [|exact A].
    unfold travelled in H. clear - H. induction H as [|p l H IH F]; cbn [map]; constructor; [exact IH|].
    rewrite Forall_forall in F |- *. intros e I. apply in_map_iff in I as (q & <- & I). destruct (F q I) as [_ B]. exact B.
  Qed.
End Histories.

(** ** Time spans of ordered lists *)
Lemma span_prefix {A} (key : A -> R) a b l : StronglySorted (fun x y => key x <= key y) l -> Forall (fun x => a <= key x) l ->
  exists post, l = filter (fun x => Rleb a (key x) && Rleb (key x) b) l ++ post.
Proof.
  induction 1 as [|x l H IH F]; intro G; [exists []; reflexivity|]. apply Forall_inv in G as Gx. apply Forall_inv_tail in G as G'.
  cbn [filter]. destruct (Rleb_spec a (key x)) as [_|]; [|lra]. cbn [andb]. destruct (Rleb_spec (key x) b) as [B|B].
  - destruct (IH G') as [post E]. exists post. cbn [app]. f_equal. exact E.
  - exists (x :: l). rewrite filter_none; [reflexivity|]. rewrite Forall_forall in F. intros y Y. specialize (F y Y).
    cbn. destruct (Rleb_spec (key y) b); [lra|]. apply andb_false_r.
Qed.
Lemma span_block {A} (key : A -> R) a b l : StronglySorted (fun x y => key x <= key y) l ->
  exists pre post, l = pre ++ filter (fun x => Rleb a (key x) && Rleb (key x) b) l ++ post.
Proof.
  induction 1 as [|x l H IH F]; [exists [], []; reflexivity|]. destruct (Rle_lt_dec a (key x)) as [A1|A1].
  - destruct (span_prefix key a b (x :: l)) as [post E]; [constructor; assumption| |exists [], post; exact E].
    constructor; [exact A1|]. eapply Forall_impl; [|exact F]. intros y Y. cbn in Y. lra.
  - destruct IH as (pre & post & E). exists (x :: pre), post. cbn [filter]. destruct (Rleb_spec a (key x)); [lra|]. cbn [andb app]. f_equal. exact E.
Qed.

Lemma exact_path (l : list (V3 * R)) :
  (forall i e f, nth_error l i = Some e -> nth_error l (S i) = Some f -> snd f = snd e + vdist (fst e) (fst f)) ->
  forall a, nth_error (map snd l) 0 = Some a -> match rev (map snd l) with [] => 0 | b :: _ => b end = a + path_length (map fst l).
Proof.
  induction l as [|e l IH]; intros H a E; [discriminate|]. cbn in E. injection E as <-. destruct l as [|f l]; [cbn; ring|].
  assert (G := H 0%nat e f eq_refl eq_refl).
  specialize (IH (fun i => H (S i)) (snd f) eq_refl). cbn [map path_length rev] in *.
  destruct ((rev (map snd l) ++ [snd f])%list) as [|b r] eqn:E; [destruct (rev (map snd l)); discriminate|]. cbn [app]. lra.
Qed.

Section Crops.
  Context {Q : Type}.
  Lemma crop_block (t : traj Q) a b t' : consistent t -> time_sorted t -> crop t a b false = Ok t' ->
    consistent t' /\ exists pre post, poses t = pre ++ poses t' ++ post.
  Proof.
    intros C S E. destruct (crop_spec t a b false C) as (t1 & E1 & C1 & _ & P). rewrite E in E1. injection E1 as <-. split; [exact C1|].
    destruct (span_block (@p_t Q) a b (poses t)) as (pre & post & B); [apply poses_sorted; assumption|]. exists pre, post. rewrite P. exact B.
  Qed.

  Lemma exact_block (t t' : traj Q) pre post : consistent t -> consistent t' -> poses t = pre ++ poses t' ++ post -> arcs_exact t -> arcs_exact t'.
  Proof.
    intros C C' P H i p q X Y. rewrite <- poses_nth in X, Y by exact C'. apply (H (length pre + i)%nat).
    - rewrite <- poses_nth, P by exact C. rewrite nth_error_app2 by lia. replace (length pre + i - length pre)%nat with i by lia. rewrite nth_error_app1; [exact X|eapply nth_error_Some_lt, X].
    - rewrite <- poses_nth, P by exact C. rewrite nth_error_app2 by lia. replace (S (length pre + i) - length pre)%nat with (S i) by lia. rewrite nth_error_app1; [exact Y|eapply nth_error_Some_lt, Y].
  Qed.

  Lemma exact_length (t : traj Q) : consistent t -> arcs_exact t -> forall a, nth_error (arc t) 0 = Some a -> total_length t = a + path_length (xyz t).
  Proof.
    intros C H a A. destruct (poses_components t C) as (_ & X & _ & AR & _). unfold total_length. rewrite <- AR in A |- *. rewrite <- X.
    assert (P := exact_path (map (fun p : pose Q => (p_xyz p, p_arc p)) (poses t))). rewrite !map_map in P. cbn [fst snd] in P. apply P; [|exact A].
    intros i e f I J. apply map_nth_error_Some in I as (p & I & <-). apply map_nth_error_Some in J as (q & J & <-). rewrite poses_nth in I, J by exact C. cbn. apply (H i); assumption.
  Qed.

  Lemma new_exact loc pos ep (r : option (list Q)) ts nm sp so t : loc pos = pos -> pos <> [] -> length ts = length pos ->
    new_traj loc pos ep r (Some ts) nm None sp so = Ok t -> (forall p, length (loc p) = length p) ->
    consistent t /\ tstamps t = ts /\ xyz t = pos /\ arc t = lengths_from_xyz pos.
  Proof.
    intros L NE LT E LL. assert (R : match r with Some q => length q = length pos | None => True end).
    { destruct r as [q|]; [|exact I]. unfold new_traj in E. destruct (Nat.eqb_spec (length q) (length pos)) as [EQ|]; [exact EQ|discriminate]. }
    destruct (new_traj_ok loc pos ep r (Some ts) nm None sp so LL NE R LT) as (t1 & g & E1 & C & X & _ & T & _ & A & _). rewrite E in E1. injection E1 as <-.
    split; [exact C|]. split; [exact T|]. split; [exact X|]. rewrite A, L. reflexivity.
  Qed.
  Lemma lengths_exact (t : traj Q) : consistent t -> arc t = lengths_from_xyz (xyz t) -> arcs_exact t.
  Proof.
    intros C A i p q X Y. rewrite <- poses_nth in X, Y by exact C. destruct (poses_components t C) as (_ & PX & _ & PA & _).
    apply (lengths_step (xyz t) i); rewrite <- ?A, <- ?PX, <- ?PA; apply map_nth_error; assumption.
  Qed.
  Lemma lengths_travelled (t : traj Q) : consistent t -> time_sorted t -> arc t = lengths_from_xyz (xyz t) -> travelled t.
  Proof.
    intros C S A. apply travelled_of_components; [exact C|exact S|]. intros i j a b x y L HA HB HX HY. rewrite A in HA, HB. exact (lengths_chord _ i j a b x y L HA HB HX HY).
  Qed.
  Lemma lengths_within (t : traj Q) : consistent t -> xyz t <> [] -> arc t = lengths_from_xyz (xyz t) -> arcs_within 0 (path_length (xyz t)) t.
  Proof.
    intros C NE A. unfold arcs_within. rewrite A. rewrite <- lengths_last. rewrite Forall_forall. intros a I. apply In_nth_error in I as (i & I).
    split; [exact (lengths_monotone (xyz t) 0 i 0 a (le_0_n i) eq_refl I)|].
    destruct (rev (lengths_from_xyz (xyz t))) as [|b r] eqn:E; [apply (f_equal (@length R)) in E; rewrite rev_length in E; discriminate|].
    apply (f_equal (@rev R)) in E. rewrite rev_involutive in E. cbn [rev] in E.
    assert (LL : length (lengths_from_xyz (xyz t)) = S (length (rev r))) by (rewrite E, app_length; cbn; lia).
    apply (lengths_monotone (xyz t) i (length (rev r))); [apply nth_error_Some_lt in I; lia|exact I|]. rewrite E, nth_error_app2, Nat.sub_diag by lia. reflexivity.
  Qed.
End Crops.

(** ** Data rates *)
Lemma diff_sum l a b : nth_error l 0 = Some a -> nth_error l (length l - 1) = Some b -> np_sum (np_diff l) = b - a.
Proof.
  revert a. induction l as [|x l IH]; intros a A B; [discriminate|]. cbn in A. injection A as <-. destruct l as [|y l]; [cbn in B; injection B as <-; cbn; ring|].
  specialize (IH y eq_refl). cbn [length] in B, IH. replace (S (S (length l)) - 1)%nat with (S (S (length l) - 1)) in B by lia. cbn [nth_error] in B. specialize (IH B).
  change (np_diff (x :: y :: l)) with ((y - x) :: np_diff (y :: l)). change (np_sum ((y - x) :: np_diff (y :: l))) with (y - x + np_sum (np_diff (y :: l))). rewrite IH. ring.
Qed.
Lemma diff_length l : length (np_diff l) = (length l - 1)%nat.
Proof. unfold np_diff. rewrite map_length, pairs_length. reflexivity. Qed.
