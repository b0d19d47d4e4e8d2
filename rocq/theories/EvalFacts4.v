(** Absolute comparison of trajectories. *)
From Verif Require Import Base BaseFacts NumpyModel NumpyFacts TrajModel TrajSpec VecFacts TrajFacts
  GeomModel GeomSpec GeomFacts GeomFacts2 EvalModel EvalSpec EvalFacts EvalFacts2 EvalFacts3.

Lemma trace_cyclic a b : mtrace (mmul a b) = mtrace (mmul b a).
Proof. vars; unfold mtrace; munf; ring. Qed.

Lemma trace_conj s a b : is_rot s -> mtrace (mmul (mmul s a) (mmul b (mtrans s))) = mtrace (mmul a b).
Proof.
  intro H. rewrite mmul_assoc, trace_cyclic, !mmul_assoc, (is_rot_left s H), mmul_ident_r. reflexivity.
Qed.

Section Ate.
  Context {Q : Type} (ops : rot_ops Q) (C : rot_contract ops).
  Implicit Types test ref : traj Q.

  Lemma no_rot_total (ref test : list V3) : length ref = length test -> exists l, dev_directions_no_rot ref test = Ok l /\ length l = length test.
  Proof.
    intro L. destruct ref as [|r ref].
    - destruct test; [|discriminate]. exists []. split; reflexivity.
    - destruct (no_rot_ok (r :: ref) test L) as (l & E & Ll & _); [discriminate|]. eauto.
  Qed.

  Lemma compare_absolute_ok test ref :
    consistent test -> consistent ref -> tlen test = tlen ref ->
    exists r, compare_absolute ops test ref = Ok r /\
      ate_name r = (name test ++ " vs. " ++ name ref)%string /\ ate_trajectory r = test /\
      length (pos_dev r) = tlen ref /\ length (directed_pos_dev r) = tlen ref /\
      (forall i a b, nth_error (xyz ref) i = Some a -> nth_error (xyz test) i = Some b -> nth_error (pos_dev r) i = Some (vsub a b)) /\
      (forall q i a b m, either_rot (rot ref) (rot test) = Some q ->
         nth_error (xyz ref) i = Some a -> nth_error (xyz test) i = Some b -> nth_error q i = Some m ->
         nth_error (directed_pos_dev r) i = Some (vmul (vsub b a) (as_matrix ops m))) /\
      (rot ref = None -> rot test = None -> dev_directions_no_rot (xyz ref) (xyz test) = Ok (directed_pos_dev r)) /\
      match rot ref, rot test with
      | Some q, Some q' => exists d, rot_dev r = Some d /\ length d = tlen ref /\
          forall i a b, nth_error q i = Some a -> nth_error q' i = Some b -> nth_error d i = Some (rot_sub ops a b)
      | _, _ => rot_dev r = None
      end.
  Proof.
    intros Ct Cr L. unfold tlen in L. unfold compare_absolute.
    destruct (np_zip_ok vsub (xyz ref) (xyz test) (eq_sym L)) as (pd & -> & Lp & Hp). cbn [bind].
    assert (Lq : forall (t : traj Q) q, consistent t -> rot t = Some q -> length q = length (xyz t)).
    { intros t q (_ & H & _) E. rewrite E in H. exact H. }
    assert (Dir : exists dd, get_directed_deviations ops (xyz ref) (xyz test) (either_rot (rot ref) (rot test)) = Ok dd /\ length dd = length (xyz ref) /\
      (forall q i a b m, either_rot (rot ref) (rot test) = Some q ->
         nth_error (xyz ref) i = Some a -> nth_error (xyz test) i = Some b -> nth_error q i = Some m ->
         nth_error dd i = Some (vmul (vsub b a) (as_matrix ops m)))).
    { destruct (either_rot (rot ref) (rot test)) as [q|] eqn:E; cbn.
      - assert (Lm : length (map (as_matrix ops) q) = length (xyz ref)).
        { rewrite map_length. unfold either_rot in E. destruct (rot ref) as [q'|] eqn:Er.
          - injection E as <-. apply (Lq ref _ Cr Er).
          - rewrite (Lq test _ Ct E). exact L. }
        destruct (with_rot_ok (xyz ref) (xyz test) _ (eq_sym L) Lm) as (l & -> & Ll & Hl). exists l. split; [reflexivity|]. split; [exact Ll|].
        intros q0 i a b m Eq Ha Hb Hm. injection Eq as <-. apply Hl; auto. rewrite nth_error_map', Hm. reflexivity.
      - destruct (no_rot_total (xyz ref) (xyz test) (eq_sym L)) as (l & -> & Ll). exists l. split; [reflexivity|]. split; [lia|]. discriminate. }
    destruct Dir as (dd & Ed & Ld & Hd). rewrite Ed. cbn [bind].
    assert (Nr : rot ref = None -> rot test = None -> dev_directions_no_rot (xyz ref) (xyz test) = Ok dd).
    { intros E1 E2. rewrite E1, E2 in Ed. exact Ed. }
    destruct (rot ref) as [q|] eqn:Er, (rot test) as [q'|] eqn:Et; cbn [bind].
    - destruct (np_zip_ok (rot_sub ops) q q') as (rd & -> & Lr & Hr).
      { rewrite (Lq ref q Cr Er), (Lq test q' Ct Et). symmetry. exact L. }
      cbn [rmap bind]. eexists. split; [reflexivity|]. cbn. repeat (split; [auto|]). exists rd. split; [reflexivity|].
      split; [rewrite Lr; apply (Lq ref q Cr Er) | exact Hr].
    - eexists. split; [reflexivity|]. cbn. repeat (split; [auto|]). reflexivity.
    - eexists. split; [reflexivity|]. cbn. repeat (split; [auto|]). reflexivity.
    - eexists. split; [reflexivity|]. cbn. repeat (split; [auto|]). reflexivity.
  Qed.

  Lemma rot_sub_matrix a b : as_matrix ops (rot_sub ops a b) = mmul (as_matrix ops a) (mtrans (as_matrix ops b)).
  Proof. unfold rot_sub. rewrite (rc_mul ops C), (rc_inv ops C). reflexivity. Qed.

  Lemma Forall_nth {A} (P : A -> Prop) l : (forall i a, nth_error l i = Some a -> P a) -> Forall P l.
  Proof. intro H. apply Forall_forall. intros a Ha. apply In_nth_error in Ha as [i Hi]. eauto. Qed.

  Lemma vsub_self a : vsub a a = vzero.
  Proof. v3; ring. Qed.

  (** Deviations of a point from itself. *)
  Lemma nearest_self_a a b : nearest_point a a b = (a, 0).
  Proof.
    unfold nearest_point. destruct (Reqb _ 0); [reflexivity|]. rewrite vsub_self.
    replace (vdot vzero (vscale (/ vnorm (vsub b a)) (vsub b a))) with 0 by (unfold vdot; cbn; ring). f_equal. v3; ring.
  Qed.

  Lemma vnorm_self a : vnorm (vsub a a) = 0.
  Proof. exact (vdist_refl a). Qed.

  Lemma self_a a b : along_track_dev a a b false = 0 /\ cross_track_dev a a b = (0, 0).
  Proof.
    unfold along_track_dev, cross_track_dev. rewrite nearest_self_a. cbn [negb]. rewrite vnorm_self. split; [ring|].
    rewrite vsub_self. cbn. rewrite Rmult_0_l, Rplus_0_l, sqrt_0. f_equal. ring.
  Qed.

  Lemma self_b a b : along_track_dev b a b true = 0 /\ cross_track_dev b a b = (0, 0).
  Proof.
    assert (N : fst (nearest_point b a b) = b).
    { destruct (Req_dec (vdist b a) 0) as [E|E].
      - apply vdist_zero in E. subst b. rewrite nearest_self_a. reflexivity.
      - assert (Nab : a <> b) by (intros ->; apply E, vdist_refl). destruct (nearest_point_spec b a b Nab) as (u & Hu & Hd & _ & En).
        rewrite En. cbn [fst]. rewrite Hd at 1. 
        replace (vdot (vscale (vdist b a) u) u) with (vdist b a * vdot u u) by (destruct u; unfold vdot, vscale; cbn; ring).
        rewrite (unit_sq u Hu), Rmult_1_r, <- Hd. v3; ring. }
    unfold along_track_dev, cross_track_dev. destruct (nearest_point b a b) as [f t]. cbn [fst] in N. subst f. cbn [negb].
    rewrite vnorm_self, vsub_self. split.
    - destruct (Rltb _ _); ring.
    - cbn. rewrite Rmult_0_l, Rplus_0_l, sqrt_0. f_equal. ring.
  Qed.

  Lemma self_zero xs l : dev_directions_no_rot xs xs = Ok l -> Forall (eq vzero) l.
  Proof.
    intro E. assert (D : xs = [] \/ (exists x, xs = [x]) \/ (2 <= length xs)%nat).
    { destruct xs as [|x [|y xr]]; [auto | right; left; eauto | right; right; cbn; lia]. }
    destruct D as [-> | [[x0 ->] | Hl]].
    - injection E as <-. constructor.
    - destruct (no_rot_ok [x0] [x0] eq_refl) as (l' & E' & Ll & H1 & H2); [discriminate|]. rewrite E in E'. injection E' as <-.
      rewrite (H2 x0 x0 eq_refl eq_refl). destruct (self_b x0 x0) as [-> ->]. repeat constructor.
    - destruct (no_rot_ok xs xs eq_refl) as (l' & E' & Ll & H1 & H2); [intros ->; cbn in Hl; lia|]. rewrite E in E'. injection E' as <-.
      apply Forall_nth. intros i d Hd.
      assert (Li : (i < length xs)%nat) by (rewrite <- Ll; eapply nth_error_Some_lt, Hd).
      destruct (nth_error_lt_Some xs i Li) as [p Hp].
      destruct (Nat.eq_dec (S i) (length xs)) as [Ei|Ei].
      + destruct i as [|j]; [lia|]. destruct (nth_error_lt_Some xs j) as [a Ha]; [lia|].
        rewrite (H1 (S j) p p a p Hp Hp) in Hd; [|right; exists j; auto]. destruct (self_b a p) as [A B].
        replace (S (S j) =? length xs)%nat with true in Hd by (symmetry; apply Nat.eqb_eq, Ei). rewrite A, B in Hd. injection Hd as <-. reflexivity.
      + destruct (nth_error_lt_Some xs (S i)) as [b Hb]; [lia|].
        rewrite (H1 i p p p b Hp Hp) in Hd; [|left; repeat split; auto; lia]. destruct (self_a p b) as [A B].
        replace (S i =? length xs)%nat with false in Hd by (symmetry; apply Nat.eqb_neq, Ei). rewrite A, B in Hd. injection Hd as <-. reflexivity.
  Qed.

  Lemma compare_self t :
    consistent t -> exists r, compare_absolute ops t t = Ok r /\ length (pos_dev r) = tlen t /\
      Forall (eq vzero) (pos_dev r) /\ Forall (eq vzero) (directed_pos_dev r) /\
      match rot t with
      | Some _ => exists d, rot_dev r = Some d /\ length d = tlen t /\ Forall (fun q => as_matrix ops q = mident) d
      | None => rot_dev r = None
      end.
  Proof.
    intro Ct. destruct (compare_absolute_ok t t Ct Ct eq_refl) as (r & E & _ & _ & L1 & L2 & H1 & H2 & H3 & H4).
    exists r. split; [exact E|]. split; [exact L1|]. split.
    { apply Forall_nth. intros i d Hd. destruct (nth_error_lt_Some (xyz t) i) as [p Hp]; [apply nth_error_Some_lt in Hd; unfold tlen in L1; lia|].
      rewrite (H1 i p p Hp Hp) in Hd. injection Hd as <-. symmetry. apply vsub_self. }
    split.
    { destruct (rot t) as [q|] eqn:Eq.
      - assert (Lq : length q = length (xyz t)) by (destruct Ct as (_ & H & _); rewrite Eq in H; exact H).
        apply Forall_nth. intros i d Hd. assert (Li := nth_error_Some_lt _ _ _ Hd). unfold tlen in L2.
        destruct (nth_error_lt_Some (xyz t) i) as [p Hp]; [lia|]. destruct (nth_error_lt_Some q i) as [m Hm]; [lia|].
        rewrite (H2 q i p p m eq_refl Hp Hp Hm) in Hd. injection Hd as <-. rewrite vsub_self, vmul_mapply, mapply_zero. reflexivity.
      - apply (self_zero (xyz t)). apply H3; reflexivity. }
    destruct (rot t) as [q|] eqn:Eq; [|exact H4]. destruct H4 as (d & Ed & Ld & Hd). exists d. split; [exact Ed|]. split; [exact Ld|].
    apply Forall_nth. intros i x Hx. assert (Lq : length q = length (xyz t)) by (destruct Ct as (_ & H & _); rewrite Eq in H; exact H).
    destruct (nth_error_lt_Some q i) as [m Hm]; [apply nth_error_Some_lt in Hx; unfold tlen in *; lia|].
    rewrite (Hd i m m Hm Hm) in Hx. injection Hx as <-. rewrite rot_sub_matrix. apply is_rot_right, (rc_rot ops C).
  Qed.

  Lemma compare_swap test ref :
    consistent test -> consistent ref -> tlen test = tlen ref ->
    exists r r', compare_absolute ops test ref = Ok r /\ compare_absolute ops ref test = Ok r' /\
      pos_dev r' = map (vscale (-1)) (pos_dev r).
  Proof.
    intros Ct Cr L. destruct (compare_absolute_ok test ref Ct Cr L) as (r & E & _ & _ & L1 & _ & H1 & _).
    destruct (compare_absolute_ok ref test Cr Ct (eq_sym L)) as (r' & E' & _ & _ & L1' & _ & H1' & _).
    exists r, r'. split; [exact E|]. split; [exact E'|]. apply nth_error_ext. intro i. rewrite nth_error_map'.
    unfold tlen in *. destruct (Nat.lt_ge_cases i (length (xyz ref))) as [K|K].
    - destruct (nth_error_lt_Some (xyz ref) i K) as [a Ha]. destruct (nth_error_lt_Some (xyz test) i) as [b Hb]; [lia|].
      rewrite (H1 i a b Ha Hb), (H1' i b a Hb Ha). cbn. f_equal. v3; ring.
    - rewrite (proj2 (nth_error_None (pos_dev r) i)) by lia. apply nth_error_None. lia.
  Qed.

  (** Both trajectories moved by the same rigid motion. *)
  Lemma compare_moved T test test' ref ref' :
    rigid T -> consistent test -> consistent ref -> tlen test = tlen ref -> moved ops T test test' -> moved ops T ref ref' ->
    exists r r', compare_absolute ops test ref = Ok r /\ compare_absolute ops test' ref' = Ok r' /\
      pos_dev r' = map (mapply (lin T)) (pos_dev r) /\ pos_dev_comb r' = pos_dev_comb r /\
      (rot ref <> None \/ rot test <> None -> directed_pos_dev r' = directed_pos_dev r) /\
      (forall d, rot_dev r = Some d -> exists d', rot_dev r' = Some d' /\
         map (fun q => mtrace (as_matrix ops q)) d' = map (fun q => mtrace (as_matrix ops q)) d).
  Proof.
    intros HT Ct Cr L Mt Mr. assert (Ct' := moved_consistent ops T test test' Mt Ct). assert (Cr' := moved_consistent ops T ref ref' Mr Cr).
    assert (Et := proj1 (proj2 Mt)). assert (Er := proj1 (proj2 Mr)).
    assert (L' : tlen test' = tlen ref') by (unfold tlen in *; rewrite Et, Er, !map_length; exact L).
    destruct (compare_absolute_ok test ref Ct Cr L) as (r & E & _ & _ & L1 & L2 & H1 & H2 & _ & H4).
    destruct (compare_absolute_ok test' ref' Ct' Cr' L') as (r' & E' & _ & _ & L1' & L2' & H1' & H2' & _ & H4').
    assert (Lr : tlen ref' = tlen ref) by (unfold tlen; rewrite Er, map_length; reflexivity).
    exists r, r'. split; [exact E|]. split; [exact E'|].
    assert (P : pos_dev r' = map (mapply (lin T)) (pos_dev r)).
    { apply nth_error_ext. intro i. rewrite nth_error_map'. unfold tlen in *. destruct (Nat.lt_ge_cases i (length (xyz ref))) as [K|K].
      - destruct (nth_error_lt_Some (xyz ref) i K) as [a Ha]. destruct (nth_error_lt_Some (xyz test) i) as [b Hb]; [lia|].
        rewrite (H1 i a b Ha Hb). rewrite (H1' i (vadd (mapply (lin T) a) (tra T)) (vadd (mapply (lin T) b) (tra T))).
        + cbn. rewrite mapply_sub. f_equal. v3; ring.
        + rewrite Er, nth_error_map', Ha. reflexivity.
        + rewrite Et, nth_error_map', Hb. reflexivity.
      - rewrite (proj2 (nth_error_None (pos_dev r) i)) by lia. apply nth_error_None. lia. }
    split; [exact P|]. split.
    { unfold pos_dev_comb. rewrite P, map_map. apply map_ext. intro v. apply rot_norm, HT. }
    assert (Mx : forall t t' q q' i m, moved ops T t t' -> rot t = Some q -> rot t' = Some q' -> nth_error q i = Some m ->
        exists m', nth_error q' i = Some m' /\ as_matrix ops m' = mmul (lin T) (as_matrix ops m)).
    { intros t t' q q' i m (_ & _ & M) Eq Eq' Hm. rewrite Eq, Eq' in M.
      assert (N : nth_error (map (as_matrix ops) q') i = Some (mmul (lin T) (as_matrix ops m))) by (rewrite M, nth_error_map', Hm; reflexivity).
      rewrite nth_error_map' in N. destruct (nth_error q' i) as [m'|]; [|discriminate]. exists m'. split; [reflexivity|]. injection N as N. exact N. }
    split.
    - intro Ho.
      assert (Hq : exists q q' , either_rot (rot ref) (rot test) = Some q /\ either_rot (rot ref') (rot test') = Some q' /\ length q = tlen ref /\
         (forall i m, nth_error q i = Some m -> exists m', nth_error q' i = Some m' /\ as_matrix ops m' = mmul (lin T) (as_matrix ops m))).
      { assert (Mr' := proj2 (proj2 Mr)). assert (Mt' := proj2 (proj2 Mt)). unfold either_rot.
        destruct (rot ref) as [q|] eqn:Eq, (rot ref') as [q'|] eqn:Eq'; try contradiction.
        - exists q, q'. split; [reflexivity|]. split; [reflexivity|]. split; [destruct Cr as (_ & Hc & _); rewrite Eq in Hc; exact Hc|].
          intros i m Hm. apply (Mx ref ref' q q' i m Mr Eq Eq' Hm).
        - destruct (rot test) as [q|] eqn:Eqt, (rot test') as [q'|] eqn:Eqt'; try contradiction.
          + exists q, q'. split; [reflexivity|]. split; [reflexivity|].
            split; [destruct Ct as (_ & Hc & _); rewrite Eqt in Hc; unfold tlen in *; lia|].
            intros i m Hm. apply (Mx test test' q q' i m Mt Eqt Eqt' Hm).
          + destruct Ho as [Ho|Ho]; contradiction. }
      destruct Hq as (q & q' & Eq & Eq' & Lq & Hq).
      apply nth_error_ext. intro i. unfold tlen in *. destruct (Nat.lt_ge_cases i (length (xyz ref))) as [K|K].
      + destruct (nth_error_lt_Some (xyz ref) i K) as [a Ha]. destruct (nth_error_lt_Some (xyz test) i) as [b Hb]; [lia|].
        destruct (nth_error_lt_Some q i) as [m Hm]; [lia|]. destruct (Hq i m Hm) as (m' & Hm' & Em).
        rewrite (H2 q i a b m Eq Ha Hb Hm). rewrite (H2' q' i (vadd (mapply (lin T) a) (tra T)) (vadd (mapply (lin T) b) (tra T)) m' Eq').
        * f_equal. rewrite Em, !vmul_mapply, mtrans_mmul, mapply_mmul. f_equal.
          replace (vsub (vadd (mapply (lin T) b) (tra T)) (vadd (mapply (lin T) a) (tra T))) with (mapply (lin T) (vsub b a)) by (rewrite mapply_sub; v3; ring).
          rewrite <- mapply_mmul, (is_rot_left (lin T) (proj1 HT)). apply mapply_ident.
        * rewrite Er, nth_error_map', Ha. reflexivity.
        * rewrite Et, nth_error_map', Hb. reflexivity.
        * exact Hm'.
      + rewrite (proj2 (nth_error_None (directed_pos_dev r) i)) by lia. apply nth_error_None. lia.
    - intros d Hd. assert (Mr' := proj2 (proj2 Mr)). assert (Mt' := proj2 (proj2 Mt)).
      destruct (rot ref) as [q|] eqn:Eq; [|congruence]. destruct (rot test) as [p|] eqn:Ep; [|congruence].
      destruct (rot ref') as [q'|] eqn:Eq'; [|contradiction]. destruct (rot test') as [p'|] eqn:Ep'; [|contradiction].
      destruct H4 as (d0 & Ed & Ld & Hd0). destruct H4' as (d' & Ed' & Ld' & Hd'). rewrite Hd in Ed. injection Ed as <-.
      exists d'. split; [exact Ed'|]. apply nth_error_ext. intro i. rewrite !nth_error_map'.
      assert (Lq : length q = tlen ref) by (destruct Cr as (_ & Hc & _); rewrite Eq in Hc; exact Hc).
      assert (Lp : length p = tlen ref) by (destruct Ct as (_ & Hc & _); rewrite Ep in Hc; unfold tlen in *; lia).
      destruct (Nat.lt_ge_cases i (tlen ref)) as [K|K].
      + destruct (nth_error_lt_Some q i) as [a Ha]; [lia|]. destruct (nth_error_lt_Some p i) as [b Hb]; [lia|].
        destruct (Mx ref ref' q q' i a Mr Eq Eq' Ha) as (a' & Ha' & Ea). destruct (Mx test test' p p' i b Mt Ep Ep' Hb) as (b' & Hb' & Eb).
        rewrite (Hd0 i a b Ha Hb), (Hd' i a' b' Ha' Hb'). cbn. f_equal. rewrite !rot_sub_matrix, Ea, Eb, mtrans_mmul.
        apply (trace_conj (lin T)); apply HT.
      + rewrite (proj2 (nth_error_None d i)) by lia. rewrite (proj2 (nth_error_None d' i)) by lia. reflexivity.
  Qed.
End Ate.
