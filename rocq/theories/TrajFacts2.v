(** More proofs about trajectories: interpolation, construction, arc lengths, sorted views,
    histories. *)
From Verif Require Import Base BaseFacts VecFacts NumpyModel NumpyFacts TrajModel TrajSpec TrajFacts.

(** ** Linear interpolation *)
Lemma interp_at_cons t v t' v' r x :
  interp_at ((t, v) :: (t', v') :: r) x =
  if Rltb x t' then (if Rleb x t then v else (v' - v) / (t' - t) * (x - t) + v) else interp_at ((t', v') :: r) x.
Proof. reflexivity. Qed.
Lemma slerp_at_cons {Q} (seg : Q -> Q -> R -> Q) t v t' v' r x :
  slerp_at seg ((t, v) :: (t', v') :: r) x =
  if Rltb x t then Err ValueError
  else if Rleb x t' then Ok (seg v v' ((x - t) / (t' - t))) else slerp_at seg ((t', v') :: r) x.
Proof. reflexivity. Qed.

Lemma interp_at_segment pts x i t v t' v' :
  StronglySorted Rlt (map fst pts) ->
  nth_error pts i = Some (t, v) -> nth_error pts (S i) = Some (t', v') -> t <= x <= t' ->
  interp_at pts x = v + (x - t) / (t' - t) * (v' - v).
Proof.
  revert i. induction pts as [|[a w] rest IH]; intros i Hs Hi Hi' Hx; [destruct i; discriminate|].
  cbn [map fst] in Hs. inversion Hs as [|? ? Hs' Hf]; subst.
  destruct i as [|i]; cbn [nth_error] in Hi, Hi'.
  - injection Hi as -> ->. destruct rest as [|[b u] rest']; cbn in Hi'; [discriminate|].
    injection Hi' as -> ->. cbn [map fst] in Hf. inversion Hf as [|? ? Htt _]; subst.
    rewrite interp_at_cons. destruct (Rltb_spec x t').
    + destruct (Rleb_spec x t).
      * replace x with t by lra. field. lra.
      * field; lra.
    + assert (x = t') by lra. subst x.
      assert (E : interp_at ((t', v') :: rest') t' = v').
      { destruct rest' as [|[b2 u2] r2]; [reflexivity|]. rewrite interp_at_cons.
        cbn [map fst] in Hs'. inversion Hs' as [|? ? _ Hf2]; subst. inversion Hf2; subst.
        destruct (Rltb_spec t' b2); [|lra]. destruct (Rleb_spec t' t'); [reflexivity|lra]. }
      rewrite E. field. lra.
  - destruct rest as [|[b u] rest']; [destruct i; discriminate|].
    assert (Hbx : b <= x).
    { destruct i as [|i]; cbn in Hi; [injection Hi as -> ->; lra|].
      cbn [map fst] in Hs'. inversion Hs' as [|? ? _ Hf2]; subst. rewrite Forall_forall in Hf2.
      assert (b < t); [|lra]. apply Hf2. apply (in_map fst) in Hi || idtac.
      change t with (fst (t, v)). apply in_map. eapply nth_error_In; exact Hi. }
    rewrite interp_at_cons. destruct (Rltb_spec x b); [lra|]. apply (IH i); auto.
Qed.

Lemma interp_at_knot pts i t v :
  StronglySorted Rlt (map fst pts) -> nth_error pts i = Some (t, v) -> interp_at pts t = v.
Proof.
  revert i. induction pts as [|[a w] rest IH]; intros i Hs Hi; [destruct i; discriminate|].
  cbn [map fst] in Hs. inversion Hs as [|? ? Hs' Hf]; subst.
  destruct rest as [|[b u] rest'].
  - destruct i as [|i]; [|destruct i; discriminate]. cbn in Hi. injection Hi as -> ->. reflexivity.
  - rewrite interp_at_cons. cbn [map fst] in Hf. inversion Hf as [|? ? Hab _]; subst.
    destruct i as [|i]; cbn [nth_error] in Hi.
    + injection Hi as -> ->. destruct (Rltb_spec t b); [|lra]. destruct (Rleb_spec t t); [reflexivity|lra].
    + destruct (Rltb_spec t b) as [Hlt|].
      * exfalso. destruct i as [|i]; cbn in Hi; [injection Hi as -> ->; lra|].
        cbn [map fst] in Hs'. inversion Hs' as [|? ? _ Hf2]; subst. rewrite Forall_forall in Hf2.
        assert (b < t); [|lra]. apply Hf2. change t with (fst (t, v)). apply in_map. eapply nth_error_In; exact Hi.
      * apply (IH i); auto.
Qed.

(** Every point of the range is a knot or inside a segment. *)
Lemma bracket_exists (l : list R) x lo hi :
  StronglySorted Rlt l -> nth_error l 0 = Some lo -> nth_error l (length l - 1) = Some hi -> lo <= x <= hi ->
  (exists i, nth_error l i = Some x) \/
  (exists i a b, nth_error l i = Some a /\ nth_error l (S i) = Some b /\ a < x < b).
Proof.
  revert lo. induction l as [|a l IH]; intros lo Hs H0 H1 Hx; [discriminate|].
  cbn in H0. injection H0 as ->. inversion Hs as [|? ? Hs' Hf]; subst.
  destruct l as [|b l].
  - cbn in H1. injection H1 as ->. left. exists 0%nat. cbn. f_equal; lra.
  - destruct (Rtotal_order lo x) as [Hlt|[E|]]; [|subst; left; exists 0%nat; reflexivity|lra].
    destruct (Rlt_le_dec x b) as [Hxb|Hbx].
    + right. exists 0%nat, lo, b. cbn; auto.
    + assert (E1 : nth_error (b :: l) (length (b :: l) - 1) = Some hi).
      { cbn [length] in *. replace (S (length l) - 1)%nat with (length l) by lia.
        replace (S (S (length l)) - 1)%nat with (S (length l)) in H1 by lia. exact H1. }
      destruct (IH b Hs' eq_refl E1 ltac:(lra)) as [[i Hi]|[i [u [w [Hu [Hw Huw]]]]]].
      * left. exists (S i). exact Hi.
      * right. exists (S i), u, w. auto.
Qed.

(** ** Slerp *)
Lemma slerp_at_segment {Q} (seg : Q -> Q -> R -> Q) pts x i t v t' v' :
  StronglySorted Rlt (map fst pts) ->
  nth_error pts i = Some (t, v) -> nth_error pts (S i) = Some (t', v') ->
  t < x <= t' \/ (i = 0%nat /\ x = t) ->
  slerp_at seg pts x = Ok (seg v v' ((x - t) / (t' - t))).
Proof.
  revert i. induction pts as [|[a w] rest IH]; intros i Hs Hi Hi' Hx; [destruct i; discriminate|].
  cbn [map fst] in Hs. inversion Hs as [|? ? Hs' Hf]; subst.
  destruct i as [|i]; cbn [nth_error] in Hi, Hi'.
  - injection Hi as -> ->. destruct rest as [|[b u] rest']; cbn in Hi'; [discriminate|].
    injection Hi' as -> ->. cbn [map fst] in Hf. inversion Hf as [|? ? Htt _]; subst.
    rewrite slerp_at_cons. destruct (Rltb_spec x t); [lra|]. destruct (Rleb_spec x t'); [reflexivity|lra].
  - destruct Hx as [Hx|[? _]]; [|lia].
    destruct rest as [|[b u] rest']; [destruct i; discriminate|].
    assert (Hbx : b < x).
    { destruct i as [|i]; cbn in Hi; [injection Hi as -> ->; lra|].
      cbn [map fst] in Hs'. inversion Hs' as [|? ? _ Hf2]; subst. rewrite Forall_forall in Hf2.
      assert (b < t); [|lra]. apply Hf2.
      change t with (fst (t, v)). apply in_map. eapply nth_error_In; exact Hi. }
    cbn [map fst] in Hf. inversion Hf as [|? ? Hab _]; subst.
    rewrite slerp_at_cons. destruct (Rltb_spec x a); [lra|]. destruct (Rleb_spec x b); [lra|].
    apply (IH i); auto.
Qed.

(** Any query in range falls into the segment chosen by Slerp. *)
Lemma slerp_bracket (l : list R) x lo hi :
  (2 <= length l)%nat ->
  StronglySorted Rlt l -> nth_error l 0 = Some lo -> nth_error l (length l - 1) = Some hi -> lo <= x <= hi ->
  exists i a b, nth_error l i = Some a /\ nth_error l (S i) = Some b /\ (a < x <= b \/ (i = 0%nat /\ x = a)).
Proof.
  intros Hl Hs H0 H1 Hx. destruct (bracket_exists l x lo hi Hs H0 H1 Hx) as [[i Hi]|[i [a [b [Ha [Hb Hab]]]]]].
  - destruct i as [|i].
    + destruct (nth_error_lt_Some l 1) as [b Hb]; [lia|]. exists 0%nat, x, b. auto.
    + destruct (nth_error_lt_Some l i) as [a Ha]; [apply nth_error_Some_lt in Hi; lia|].
      exists i, a, x. repeat split; auto. left. rewrite StronglySorted_nth in Hs.
      split; [|lra]. apply (Hs i (S i) a x); auto.
  - exists i, a, b. repeat split; auto. left; lra.
Qed.

Lemma forallb_pairs_sorted l : StronglySorted Rlt l -> forallb (fun p => Rltb (fst p) (snd p)) (pairs l) = true.
Proof.
  intro Hs. apply forallb_forall. intros [a b] Hp. apply In_nth_error in Hp as [i Hi].
  rewrite pairs_nth in Hi. destruct (nth_error l i) eqn:Ea; [|discriminate].
  destruct (nth_error l (S i)) eqn:Eb; [|discriminate]. injection Hi as -> ->.
  apply Rltb_true. rewrite StronglySorted_nth in Hs. cbn. apply (Hs i (S i) a b); auto.
Qed.

Section Facts.
  Context {Q : Type}.
  Variable seg : Q -> Q -> R -> Q.
  Implicit Types t : traj Q.

  Lemma map_fst_combine {A B} (l : list A) (m : list B) : length l = length m -> map fst (combine l m) = l.
  Proof.
    revert m; induction l as [|a l IH]; intros [|b m] H; cbn in *; try discriminate; auto.
    f_equal; auto.
  Qed.
  Lemma map_snd_combine {A B} (l : list A) (m : list B) : length l = length m -> map snd (combine l m) = m.
  Proof.
    revert m; induction l as [|a l IH]; intros [|b m] H; cbn in *; try discriminate; auto.
    f_equal; auto.
  Qed.

  (** ** crop_request *)
  Definition in_range (lo hi x : R) : bool := Rleb lo x && Rleb x hi.

  Lemma filter_combine_map {A} (f : A -> bool) (l : list A) :
    map fst (filter snd (combine l (map f l))) = filter f l.
  Proof. apply mask_filter_eq. Qed.

  Lemma crop_request_ok own req lo hi :
    np_get own 0 = Ok lo -> np_get own (-1) = Ok hi ->
    crop_request own req = Ok (filter (in_range lo hi) req).
  Proof.
    intros H0 H1. unfold crop_request.
    rewrite (mapM_ok_map _ (in_range lo hi)).
    - cbn [bind]. rewrite filter_combine_map. reflexivity.
    - intros x _. rewrite H0; cbn [bind]. unfold in_range. destruct (Rleb lo x); [rewrite H1|]; reflexivity.
  Qed.

  Lemma crop_request_inv own req l :
    crop_request own req = Ok l ->
    (req = [] /\ l = []) \/
    exists lo hi, np_get own 0 = Ok lo /\ np_get own (-1) = Ok hi /\ l = filter (in_range lo hi) req.
  Proof.
    intro H. destruct req as [|x req].
    - left. cbn in H. injection H as <-. auto.
    - right. destruct own as [|o own].
      + exfalso. cbn in H. discriminate.
      + destruct (nth_error_lt_Some (o :: own) 0) as [lo Hlo]; [cbn; lia|].
        destruct (nth_error_lt_Some (o :: own) (length (o :: own) - 1)) as [hi Hhi]; [cbn; lia|].
        assert (H0 : np_get (o :: own) 0 = Ok lo) by (apply np_get_head; exact Hlo).
        assert (H1 : np_get (o :: own) (-1) = Ok hi) by (apply np_get_last; [discriminate|exact Hhi]).
        exists lo, hi. split; [exact H0|]. split; [exact H1|].
        rewrite (crop_request_ok _ _ lo hi H0 H1) in H. congruence.
  Qed.

  (** ** interpolate: lengths *)
  Lemma combine3_length {A B C} (x : list A) (y : list B) (z : list C) n :
    length x = n -> length y = n -> length z = n -> length (combine (combine x y) z) = n.
  Proof. intros. rewrite !combine_length. lia. Qed.

  Lemma gradient_length ps ts g :
    length ps = length ts -> ps <> [] -> gradient_3d ps ts = Ok g -> length g = length ps.
  Proof.
    intros Hl Hne H. unfold gradient_3d in H. inv_bind H. injection H as <-.
    rewrite app_length. cbn. unfold broadcast in Ha.
    assert (El : (length (map (fun ab : V3 * V3 => vsub (snd ab) (fst ab)) (pairs ps)) =? length (np_diff ts))%nat = true).
    { apply Nat.eqb_eq. unfold np_diff. rewrite !map_length, !pairs_length. lia. }
    rewrite El in Ha. injection Ha as <-. rewrite map_length, combine_length. unfold np_diff.
    rewrite !map_length, !pairs_length. destruct ps; [contradiction|]. cbn [length] in *. lia.
  Qed.

  Lemma gradient_ok ps ts : length ps = length ts -> exists g, gradient_3d ps ts = Ok g.
  Proof.
    intro Hl. unfold gradient_3d, broadcast.
    assert (El : (length (map (fun ab : V3 * V3 => vsub (snd ab) (fst ab)) (pairs ps)) =? length (np_diff ts))%nat = true).
    { apply Nat.eqb_eq. unfold np_diff. rewrite !map_length, !pairs_length. lia. }
    rewrite El. cbn. eauto.
  Qed.

  Lemma interpolate_lengths t req t' :
    interpolate seg t req = Ok t' -> tstamps t' <> [] -> consistent t'.
  Proof.
    intros H Hne. unfold interpolate in H.
    inv_bind H. rename a into ts. inv_bind H. rename a into t1. inv_bind H. rename a into t2.
    inv_bind H. rename a into sp. inv_bind H. rename a into al. injection H as <-. cbn in Hne.
    unfold interpolate_positions in Ha0. inv_bind Ha0. inv_bind Ha0. inv_bind Ha0. injection Ha0 as <-.
    apply np_interp_length in Ha4, Ha5, Ha6, Ha3.
    assert (Hr : xyz t2 = map (fun p : R * R * R => mkV3 (fst (fst p)) (snd (fst p)) (snd p)) (combine (combine a a0) a1)
                 /\ match rot t2 with Some q => length q = length ts | None => True end).
    { unfold interpolate_rotations in Ha1. cbn [rot set_xyz] in Ha1. destruct (rot t) as [r|] eqn:Er.
      - destruct ts as [|x ts]; [contradiction|]. cbn [length Nat.eqb] in Ha1.
        inv_bind Ha1. injection Ha1 as <-. cbn. split; [reflexivity|].
        change (length a2 = length (x :: ts)). eapply slerp_length; eassumption.
      - injection Ha1 as <-. cbn. rewrite Er. auto. }
    destruct Hr as [Hx Hr].
    assert (Hlx : length (xyz t2) = length ts).
    { rewrite Hx, map_length. apply combine3_length; auto. }
    split; [|split; [|split]]; cbn.
    - auto.
    - destruct (rot t2); auto. lia.
    - lia.
    - apply (gradient_length _ ts); auto. destruct (xyz t2); [|discriminate]. destruct ts; [contradiction|discriminate].
  Qed.

  (** ** interpolate: values *)
  Lemma nth_error_interp xp fp x i y :
    nth_error (map (interp_at (combine xp fp)) x) i = Some y ->
    exists q, nth_error x i = Some q /\ y = interp_at (combine xp fp) q.
  Proof. intro H. apply map_nth_error_Some in H as [q [Hq <-]]. eauto. Qed.

  Lemma interpolate_ok t req :
    consistent t -> strictly_time_sorted t -> (0 < tlen t)%nat ->
    (rot t = None \/ (2 <= tlen t)%nat) ->
    exists lo hi t', np_get (tstamps t) 0 = Ok lo /\ np_get (tstamps t) (-1) = Ok hi /\
      interpolate seg t req = Ok t' /\
      tstamps t' = filter (in_range lo hi) (np_sort req) /\
      xyz t' = map (fun x => mkV3 (interp_at (combine (tstamps t) (map vx (xyz t))) x)
                                  (interp_at (combine (tstamps t) (map vy (xyz t))) x)
                                  (interp_at (combine (tstamps t) (map vz (xyz t))) x)) (tstamps t') /\
      arc t' = map (interp_at (combine (tstamps t) (arc t))) (tstamps t') /\
      Ok (speed t') = gradient_3d (xyz t') (tstamps t') /\
      srt t' = srt t /\ name t' = name t /\ epsg t' = epsg t /\
      (match rot t with
       | None => rot t' = None
       | Some r => (tstamps t' = [] /\ rot t' = Some r) \/
                   exists q, rot t' = Some q /\ mapM (slerp_at seg (combine (tstamps t) r)) (tstamps t') = Ok q
       end).
  Proof.
    intros Hc Hs Hpos Hrot. unfold tlen in *. destruct Hc as [H1 [H2 [H3 H4]]].
    assert (Hne : tstamps t <> []) by (intro E; rewrite E in H1; cbn in H1; lia).
    destruct (nth_error_lt_Some (tstamps t) 0) as [lo Hlo]; [lia|].
    destruct (nth_error_lt_Some (tstamps t) (length (tstamps t) - 1)) as [hi Hhi]; [lia|].
    assert (G0 := np_get_head _ _ Hlo). assert (G1 := np_get_last _ _ Hne Hhi).
    exists lo, hi. unfold interpolate. rewrite (crop_request_ok _ _ lo hi G0 G1). cbn [bind].
    set (ts := filter (in_range lo hi) (np_sort req)).
    assert (Hint : forall fp, length fp = length (xyz t) ->
              np_interp ts (tstamps t) fp = Ok (map (interp_at (combine (tstamps t) fp)) ts)).
    { intros fp Hf. unfold np_interp. destruct (Nat.eqb_spec (length (tstamps t)) 0); [lia|].
      destruct (Nat.eqb_spec (length (tstamps t)) (length fp)); [reflexivity|lia]. }
    unfold interpolate_positions. rewrite !Hint by (rewrite ?map_length; auto). cbn [bind].
    set (ps := map _ (combine (combine _ _) _)).
    assert (Hps : ps = map (fun x => mkV3 (interp_at (combine (tstamps t) (map vx (xyz t))) x)
                                  (interp_at (combine (tstamps t) (map vy (xyz t))) x)
                                  (interp_at (combine (tstamps t) (map vz (xyz t))) x)) ts).
    { unfold ps. generalize ts. intro l. induction l as [|x l IH]; cbn; [reflexivity|]. f_equal. exact IH. }
    assert (Hin : forall x, In x ts -> lo <= x <= hi).
    { intros x Hx. apply filter_In in Hx as [_ Hx]. unfold in_range in Hx.
      apply andb_true_iff in Hx as [X1 X2]. apply Rleb_true in X1, X2. lra. }
    assert (Hps_len : length ps = length ts) by (rewrite Hps; apply map_length).
    destruct (gradient_ok ps ts Hps_len) as [g Hg].
    unfold interpolate_rotations. cbn [rot set_xyz].
    destruct (rot t) as [r|] eqn:Er.
    - destruct Hrot as [|Hrot]; [discriminate|].
      destruct (Nat.eqb_spec (length ts) 0) as [E0|E0].
      + cbn [bind xyz set_xyz]. rewrite Hg. cbn [bind arc set_xyz tstamps]. rewrite Hint by auto. cbn [bind].
        eexists. split; [exact G0|]. split; [exact G1|]. split; [reflexivity|]. cbn.
        repeat split; auto. left. split; auto. destruct ts; [reflexivity|discriminate].
      + assert (Hsl : exists q, slerp seg (tstamps t) r ts = Ok q /\
                         mapM (slerp_at seg (combine (tstamps t) r)) ts = Ok q).
        { unfold slerp. destruct (Nat.leb_spec (length r) 1); [lia|].
          destruct (Nat.eqb_spec (length (tstamps t)) (length r)); [|lia]. cbn [negb].
          rewrite (forallb_pairs_sorted (tstamps t) Hs). cbn [negb].
          assert (Hall : forall x, In x ts -> exists y, slerp_at seg (combine (tstamps t) r) x = Ok y).
          { intros x Hx. destruct (slerp_bracket (tstamps t) x lo hi) as [i [a [b [Ha [Hb Hab]]]]]; auto; [lia|].
            destruct (nth_error_lt_Some r i) as [qa Hqa]; [apply nth_error_Some_lt in Ha; lia|].
            destruct (nth_error_lt_Some r (S i)) as [qb Hqb]; [apply nth_error_Some_lt in Hb; lia|].
            eexists. eapply (slerp_at_segment seg _ x i a qa b qb); auto.
            - rewrite map_fst_combine by lia. exact Hs.
            - rewrite nth_error_combine, Ha, Hqa; reflexivity.
            - rewrite nth_error_combine, Hb, Hqb; reflexivity. }
          clear - Hall. induction ts as [|x l IH]; [exists []; auto|].
          destruct (Hall x) as [y Hy]; [left; reflexivity|].
          destruct IH as [q [Hq _]]; [intros; apply Hall; right; assumption|].
          exists (y :: q). cbn [mapM]. rewrite Hy, Hq. auto. }
        destruct Hsl as [q [Hq Hm]]. rewrite (eq_refl : tstamps (set_xyz ps t) = tstamps t), Hq. cbn [bind].
        cbn [xyz set_rot set_xyz]. rewrite Hg. cbn [bind arc set_rot set_xyz tstamps]. rewrite Hint by auto. cbn [bind].
        eexists. split; [exact G0|]. split; [exact G1|]. split; [reflexivity|]. cbn.
        repeat split; auto. right. eauto.
    - cbn [bind xyz set_xyz]. rewrite Hg. cbn [bind arc set_xyz tstamps]. rewrite Hint by auto. cbn [bind].
      eexists. split; [exact G0|]. split; [exact G1|]. split; [reflexivity|]. cbn.
      repeat split; auto.
  Qed.

  (** Position, arc length at a requested time: knot and segment form. *)
  Lemma interp_value_segment (ts : list R) (fp : list R) x i a b v v' :
    StronglySorted Rlt ts -> length ts = length fp ->
    nth_error ts i = Some a -> nth_error ts (S i) = Some b -> a <= x <= b ->
    nth_error fp i = Some v -> nth_error fp (S i) = Some v' ->
    interp_at (combine ts fp) x = v + (x - a) / (b - a) * (v' - v).
  Proof.
    intros Hs Hl Ha Hb Hx Hv Hv'. apply (interp_at_segment _ x i a v b v').
    - rewrite map_fst_combine; assumption.
    - rewrite nth_error_combine, Ha, Hv; reflexivity.
    - rewrite nth_error_combine, Hb, Hv'; reflexivity.
    - exact Hx.
  Qed.
  Lemma interp_value_knot (ts : list R) (fp : list R) i a v :
    StronglySorted Rlt ts -> length ts = length fp ->
    nth_error ts i = Some a -> nth_error fp i = Some v -> interp_at (combine ts fp) a = v.
  Proof.
    intros Hs Hl Ha Hv. apply (interp_at_knot _ i a v).
    - rewrite map_fst_combine; assumption.
    - rewrite nth_error_combine, Ha, Hv; reflexivity.
  Qed.

  Lemma interpolate_knot t req t' i x k p :
    consistent t -> strictly_time_sorted t -> interpolate seg t req = Ok t' ->
    nth_error (tstamps t') i = Some x -> nth_error (tstamps t) k = Some x -> nth_error (xyz t) k = Some p ->
    (rot t = None \/ (2 <= tlen t)%nat) ->
    nth_error (xyz t') i = Some p.
  Proof.
    intros Hc Hs H Hi Hk Hp Hr.
    assert (Hpos : (0 < tlen t)%nat) by (apply nth_error_Some_lt in Hp; unfold tlen; lia).
    destruct (interpolate_ok t req Hc Hs Hpos Hr) as [lo [hi [t2 [_ [_ [E [_ [Ex _]]]]]]]].
    rewrite H in E; injection E as <-.
    rewrite Ex, nth_error_map', Hi. cbn. f_equal.
    destruct Hc as [H1 _].
    apply V3_eq; cbn; (apply (interp_value_knot _ _ k); [exact Hs | rewrite map_length; exact H1 | exact Hk |
      rewrite nth_error_map', Hp; reflexivity]).
  Qed.

  Lemma interpolate_segment t req t' i x k a b p q :
    consistent t -> strictly_time_sorted t -> interpolate seg t req = Ok t' ->
    nth_error (tstamps t') i = Some x ->
    nth_error (tstamps t) k = Some a -> nth_error (tstamps t) (S k) = Some b -> a <= x <= b ->
    nth_error (xyz t) k = Some p -> nth_error (xyz t) (S k) = Some q ->
    nth_error (xyz t') i = Some (lerp p q ((x - a) / (b - a))).
  Proof.
    intros Hc Hs H Hi Ha Hb Hx Hp Hq.
    assert (Hpos : (2 <= tlen t)%nat) by (apply nth_error_Some_lt in Hq; unfold tlen; lia).
    destruct (interpolate_ok t req Hc Hs ltac:(lia) (or_intror Hpos)) as [lo [hi [t2 [_ [_ [E [_ [Ex _]]]]]]]].
    rewrite H in E; injection E as <-.
    rewrite Ex, nth_error_map', Hi. cbn. f_equal.
    destruct Hc as [H1 _].
    apply V3_eq; cbn;
     (erewrite (interp_value_segment _ _ x k a b);
       [reflexivity | exact Hs | rewrite map_length; exact H1 | exact Ha | exact Hb | exact Hx
       | rewrite nth_error_map', Hp; reflexivity | rewrite nth_error_map', Hq; reflexivity]).
  Qed.

  Lemma interpolate_arc_segment t req t' i x k a b p q :
    consistent t -> strictly_time_sorted t -> interpolate seg t req = Ok t' ->
    nth_error (tstamps t') i = Some x ->
    nth_error (tstamps t) k = Some a -> nth_error (tstamps t) (S k) = Some b -> a <= x <= b ->
    nth_error (arc t) k = Some p -> nth_error (arc t) (S k) = Some q ->
    nth_error (arc t') i = Some (p + (x - a) / (b - a) * (q - p)).
  Proof.
    intros Hc Hs H Hi Ha Hb Hx Hp Hq. assert (Hc' := Hc). destruct Hc as [H1 [H2 [H3 H4]]].
    assert (Hpos : (2 <= tlen t)%nat) by (apply nth_error_Some_lt in Hb; unfold tlen; lia).
    destruct (interpolate_ok t req Hc' Hs ltac:(lia) (or_intror Hpos)) as [lo [hi [t2 [_ [_ [E [_ [_ [Ex _]]]]]]]]].
    rewrite H in E; injection E as <-.
    rewrite Ex, nth_error_map', Hi. cbn. f_equal.
    apply (interp_value_segment _ _ x k a b); auto. lia.
  Qed.

  Lemma interpolate_rot_segment t req t' r i x k a b p q :
    consistent t -> strictly_time_sorted t -> rot t = Some r -> interpolate seg t req = Ok t' ->
    nth_error (tstamps t') i = Some x ->
    nth_error (tstamps t) k = Some a -> nth_error (tstamps t) (S k) = Some b -> a < x <= b ->
    nth_error r k = Some p -> nth_error r (S k) = Some q ->
    exists r', rot t' = Some r' /\ nth_error r' i = Some (seg p q ((x - a) / (b - a))).
  Proof.
    intros Hc Hs Hr H Hi Ha Hb Hx Hp Hq. assert (Hc' := Hc). destruct Hc as [H1 [H2 [H3 H4]]].
    rewrite Hr in H2.
    assert (Hpos : (2 <= tlen t)%nat) by (apply nth_error_Some_lt in Hb; unfold tlen; lia).
    destruct (interpolate_ok t req Hc' Hs ltac:(lia) (or_intror Hpos))
      as [lo [hi [t2 [_ [_ [E [_ [_ [_ [_ [_ [_ [_ Ex]]]]]]]]]]]]].
    rewrite H in E; injection E as <-. rewrite Hr in Ex.
    destruct Ex as [[E _]|[r' [Er' Hm]]]; [rewrite E in Hi; destruct i; discriminate|].
    exists r'. split; [exact Er'|].
    assert (Hn := mapM_nth_error _ _ _ i Hm). rewrite Hi in Hn.
    assert (Hseg : slerp_at seg (combine (tstamps t) r) x = Ok (seg p q ((x - a) / (b - a)))).
    { apply (slerp_at_segment seg _ x k a p b q); auto.
      - rewrite map_fst_combine by lia. exact Hs.
      - rewrite nth_error_combine, Ha, Hp; reflexivity.
      - rewrite nth_error_combine, Hb, Hq; reflexivity. }
    destruct Hn as [y [Hy ->]]. congruence.
  Qed.
End Facts.
