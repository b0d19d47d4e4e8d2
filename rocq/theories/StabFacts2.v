(** Proofs about small changes of positions: interpolation, lengths, comparisons. *)
From Verif Require Import Base BaseFacts VecFacts NumpyModel NumpyFacts TrajModel TrajSpec TrajFacts TrajFacts2 TrajFacts3 GeomModel GeomSpec GeomFacts EvalModel EvalSpec EvalStats EvalFacts EvalFacts2 EvalFacts4 InfoFacts StabSpec StabFacts.

Notation close e := (Forall2 (fun p q : V3 => vdist p q <= e)).

Lemma close_nth e l m i p : close e l m -> nth_error l i = Some p -> exists q, nth_error m i = Some q /\ vdist p q <= e.
Proof.
  intro H. revert i. induction H as [|a b l m D F IH]; intros i E; [destruct i; discriminate|]. destruct i as [|i]; cbn in E |- *.
  - injection E as ->. exists b. auto.
  - exact (IH i E).
Qed.
Lemma close_length e l m : close e l m -> length l = length m.
Proof. induction 1; cbn; congruence. Qed.
Lemma close_of_nth e l m : length l = length m -> (forall i a b, nth_error l i = Some a -> nth_error m i = Some b -> vdist a b <= e) -> close e l m.
Proof.
  revert m. induction l as [|a l IH]; intros [|b m] L H; try discriminate L; constructor.
  - exact (H 0%nat a b eq_refl eq_refl).
  - apply IH; [injection L as L; exact L|]. intros i. exact (H (S i)).
Qed.

(** Differences *)
Lemma norm_diff a b : Rabs (vnorm a - vnorm b) <= vnorm (vsub a b).
Proof.
  assert (A := vdist_triangle a b vzero). assert (B := vdist_triangle b a vzero). rewrite (vdist_sym b a) in B. unfold vdist in *.
  assert (Z : forall v, vsub v vzero = v) by (intros [x y z]; unfold vsub, vzero; cbn; f_equal; ring). rewrite !Z in *. unfold Rabs. destruct (Rcase_abs _); lra.
Qed.
Lemma dist_diff a b c d e f : vdist a c <= e -> vdist b d <= f -> vdist (vsub a b) (vsub c d) <= e + f.
Proof.
  intros A B. unfold vdist in *. replace (vsub (vsub a b) (vsub c d)) with (vadd (vsub a c) (vsub d b)) by (unfold vadd, vsub; cbn; f_equal; ring).
  eapply Rle_trans; [apply vnorm_triangle|]. assert (E := vdist_sym b d). unfold vdist in E. lra.
Qed.

(** ** Lengths *)
Lemma close_path e l m : close e l m -> 0 <= e -> Rabs (path_length l - path_length m) <= 2 * e * INR (length l - 1).
Proof.
  intros H E. induction H as [|a b l m D F IH]; [cbn; rewrite Rminus_0_r, Rabs_R0; lra|].
  destruct F as [|a' b' l m D' F]; [cbn; rewrite Rminus_0_r, Rabs_R0; lra|].
  change (path_length (a :: a' :: l)) with (vdist a a' + path_length (a' :: l)). change (path_length (b :: b' :: m)) with (vdist b b' + path_length (b' :: m)).
  assert (L : INR (length (a :: a' :: l) - 1) = INR (length (a' :: l) - 1) + 1) by (rewrite <- S_INR; f_equal; cbn; lia). rewrite L.
  replace (vdist a a' + path_length (a' :: l) - (vdist b b' + path_length (b' :: m))) with ((vdist a a' - vdist b b') + (path_length (a' :: l) - path_length (b' :: m))) by ring.
  eapply Rle_trans; [apply Rabs_triang|]. assert (K : Rabs (vdist a a' - vdist b b') <= e + e).
  { unfold vdist at 1 2. eapply Rle_trans; [apply norm_diff|]. apply (dist_diff a a' b b' e e D D'). }
  lra.
Qed.

(** ** Interpolation *)
Definition plain_sample (e : R * V3) : R * (V3 * R) := (fst e, (snd e, 0)).
Lemma lerp_close p q p' q' w e : vdist p p' <= e -> vdist q q' <= e -> 0 <= w <= 1 -> vdist (lerp p q w) (lerp p' q' w) <= e.
Proof.
  intros A B W. unfold vdist in *. replace (vsub (lerp p q w) (lerp p' q' w)) with (vadd (vscale (1 - w) (vsub p p')) (vscale w (vsub q q'))) by (unfold lerp, vadd, vscale, vsub; cbn; f_equal; ring).
  eapply Rle_trans; [apply vnorm_triangle|]. rewrite !vnorm_scale, !Rabs_pos_eq by lra.
  assert ((1 - w) * vnorm (vsub p p') <= (1 - w) * e) by (apply Rmult_le_compat_l; lra).
  assert (w * vnorm (vsub q q') <= w * e) by (apply Rmult_le_compat_l; lra). lra.
Qed.
Lemma at_x_close e ts l m x : close e l m -> 0 <= e -> vdist (at_x (map plain_sample (combine ts l)) x) (at_x (map plain_sample (combine ts m)) x) <= e.
Proof.
  intros H E. revert ts. induction H as [|a b l m D F IH]; intros ts; [destruct ts; cbn; rewrite vdist_refl; exact E|].
  destruct ts as [|t [|t' ts]]; [cbn; rewrite vdist_refl; exact E| |].
  - cbn [combine map plain_sample]. rewrite !at_x_one. exact D.
  - destruct F as [|a' b' l m D' F]; [cbn [combine map plain_sample]; rewrite !at_x_one; exact D|].
    specialize (IH (t' :: ts)). cbn [combine map] in IH |- *. unfold plain_sample at 1 2 4 5. unfold plain_sample at 1 3 in IH. cbn [fst snd] in IH |- *. rewrite !at_x_cons. destruct (Rltb_spec x t') as [B|B]; [|exact IH].
    destruct (Rleb_spec x t) as [A|A]; [exact D|]. apply lerp_close; [exact D|exact D'|apply fraction; lra].
Qed.
Lemma at_x_components ts l x :
  mkV3 (interp_at (combine ts (map vx l)) x) (interp_at (combine ts (map vy l)) x) (interp_at (combine ts (map vz l)) x) = at_x (map plain_sample (combine ts l)) x.
Proof.
  assert (K : forall f : V3 -> R, combine ts (map f l) = chan (fun v => f (fst v)) (map plain_sample (combine ts l))).
  { intro f. unfold chan. rewrite map_map. revert l. induction ts as [|t ts IH]; intros [|p l]; try reflexivity. cbn [combine map]. f_equal. apply IH. }
  unfold at_x. rewrite !K. reflexivity.
Qed.

Section Traj.
  Context {Q : Type} (ops : rot_ops Q).

  Lemma interpolate_rot (seg : Q -> Q -> R -> Q) (t u : traj Q) req : interpolate seg t req = Ok u ->
    match rot t with
    | None => rot u = None
    | Some r => if (length (tstamps u) =? 0)%nat then rot u = Some r else exists q, slerp seg (tstamps t) r (tstamps u) = Ok q /\ rot u = Some q
    end.
  Proof.
    intro H. unfold interpolate in H. apply bind_ok in H as (ts & _ & H). apply bind_ok in H as (t1 & P & H). apply bind_ok in H as (t2 & R2 & H). apply bind_ok in H as (sp & _ & H). apply bind_ok in H as (al & _ & H).
    injection H as <-. cbn. unfold interpolate_positions in P. apply bind_ok in P as (x & _ & P). apply bind_ok in P as (y & _ & P). apply bind_ok in P as (z & _ & P). injection P as <-.
    unfold interpolate_rotations in R2. cbn in R2. destruct (rot t) as [r|] eqn:RT; [|injection R2 as <-; exact RT].
    destruct (length ts =? 0)%nat; [injection R2 as <-; exact RT|]. apply bind_ok in R2 as (q & Q1 & R2). injection R2 as <-. exists q. split; [exact Q1|reflexivity].
  Qed.

  Lemma shaken_interpolate (seg : Q -> Q -> R -> Q) e (t t' u : traj Q) req : 0 <= e -> consistent t -> consistent t' -> strictly_time_sorted t -> (0 < tlen t)%nat -> (rot t = None \/ (2 <= tlen t)%nat) ->
    shaken e t t' -> interpolate seg t req = Ok u -> exists u', interpolate seg t' req = Ok u' /\ shaken e u u'.
  Proof.
    intros E C C' ST L RL (X & T & R) U. assert (L' : tlen t' = tlen t) by (symmetry; exact (close_length e _ _ X)).
    destruct (interpolate_ok seg t req C ST L RL) as (lo & hi & v & LO & HI & V & TV & XV & _). rewrite U in V. injection V as <-.
    assert (ST' : strictly_time_sorted t') by (unfold strictly_time_sorted; rewrite T; exact ST).
    destruct (interpolate_ok seg t' req C' ST' ltac:(lia) ltac:(rewrite R, L'; exact RL)) as (lo' & hi' & v' & LO' & HI' & V' & TV' & XV' & _).
    rewrite T, LO in LO'. injection LO' as <-. rewrite T, HI in HI'. injection HI' as <-. rewrite <- TV in TV'.
    exists v'. split; [exact V'|]. split; [|split; [exact TV'|]].
    - rewrite XV, XV', TV', T. clear - X E. induction (tstamps u) as [|x l IH]; cbn [map]; constructor; [|exact IH]. rewrite !at_x_components. apply at_x_close; assumption.
    - assert (A := interpolate_rot seg t u req U). assert (B := interpolate_rot seg t' v' req V'). rewrite R, T, TV' in B. destruct (rot t) as [r|]; [|congruence].
      destruct (length (tstamps u) =? 0)%nat; [congruence|]. destruct A as (q & A & ->), B as (q' & B & ->). congruence.
  Qed.

  (** ** Absolute comparison *)
  Lemma none_within f l m e : (forall l, l <> [] -> exists x, f l = Some x) -> f [] = None -> within e l m ->
    (forall x y, f l = Some x -> f m = Some y -> Rabs (x - y) <= e) -> opt_within e (f l) (f m).
  Proof.
    intros F N W H. destruct W as [|a b l m D W]; [rewrite N; exact I|].
    destruct (F (a :: l) ltac:(discriminate)) as [x X]. destruct (F (b :: m) ltac:(discriminate)) as [y Y]. rewrite X, Y. exact (H x y X Y).
  Qed.
  Lemma mean_within l m e : within e l m -> opt_within e (np_mean l) (np_mean m).
  Proof. intro W. apply none_within; [intros k N; eexists; apply np_mean_some, N|reflexivity|exact W|]. intros x y. apply within_mean, W. Qed.
  Lemma rms_within l m e : 0 <= e -> within e l m -> opt_within e (rms l) (rms m).
  Proof. intros E W. apply none_within; [intros k N; destruct (rms_some k N) as (q & _ & S & _); eexists; exact S|reflexivity|exact W|]. intros x y. apply within_rms; assumption. Qed.
  Lemma std_within l m e : 0 <= e -> within e l m -> opt_within e (np_std l) (np_std m).
  Proof. intros E W. apply none_within; [intros k N; destruct (std_some k N) as (q & s & _ & _ & S & _); eexists; exact S|reflexivity|exact W|]. intros x y. apply within_std; assumption. Qed.
  Lemma median_within l m e : within e l m -> opt_within e (np_median l) (np_median m).
  Proof. intro W. apply none_within; [intros k N; destruct (median_spec k N) as (q & S & _); eexists; exact S|reflexivity|exact W|]. intros x y. apply within_median, W. Qed.
  Lemma close_component (f : V3 -> R) e l m : (forall a b, Rabs (f a - f b) <= vdist a b) -> close e l m -> within e (map f l) (map f m).
  Proof. intros F H. induction H as [|a b l m D H IH]; cbn [map]; constructor; [|exact IH]. eapply Rle_trans; [apply F|exact D]. Qed.
  Lemma coordinate_diff a b : Rabs (vx a - vx b) <= vdist a b /\ Rabs (vy a - vy b) <= vdist a b /\ Rabs (vz a - vz b) <= vdist a b.
  Proof.
    assert (N := vnorm_nonneg (vsub a b)). assert (S := vnorm_sq (vsub a b)). unfold vdot in S. cbn in S. unfold vdist.
    assert (X := Rle_0_sqr (vx a - vx b)). assert (Y := Rle_0_sqr (vy a - vy b)). assert (Z := Rle_0_sqr (vz a - vz b)). unfold Rsqr in *.
    repeat split; apply Rabs_le_of_sq; try exact N; lra.
  Qed.

  Lemma all_within e (r r' : ate_result Q) : 0 <= e -> close e (pos_dev r) (pos_dev r') -> positions_within e r r'.
  Proof.
    intros E K. assert (W : within e (pos_dev_comb r) (pos_dev_comb r')) by (apply close_component; [intros a b; apply norm_diff|exact K]).
    assert (X : within e (map vx (pos_dev r)) (map vx (pos_dev r'))) by (apply close_component; [intros a b; apply coordinate_diff|exact K]).
    assert (Y : within e (map vy (pos_dev r)) (map vy (pos_dev r'))) by (apply close_component; [intros a b; apply coordinate_diff|exact K]).
    assert (Z : within e (map vz (pos_dev r)) (map vz (pos_dev r'))) by (apply close_component; [intros a b; apply coordinate_diff|exact K]).
    split; [exact W|]. split; [apply mean_within, W|]. split; [apply rms_within; assumption|]. split; [apply median_within, W|]. split; [apply std_within; assumption|].
    assert (N : pos_dev_comb r = [] /\ pos_dev_comb r' = [] \/ pos_dev_comb r <> [] /\ pos_dev_comb r' <> []) by (destruct W; [left; auto|right; split; discriminate]).
    split; [|split]; [| |repeat split; try (apply mean_within; assumption); apply rms_within; assumption].
    - unfold res_within, pos_dev_max. destruct N as [[-> ->]|[N1 N2]]; [reflexivity|].
      destruct (np_max_spec _ N1) as (x & MX & _). destruct (np_max_spec _ N2) as (y & MY & _). rewrite MX, MY. exact (within_max _ _ _ _ _ W MX MY).
    - unfold res_within, pos_dev_min. destruct N as [[-> ->]|[N1 N2]]; [reflexivity|].
      destruct (np_min_spec _ N1) as (x & MX & _). destruct (np_min_spec _ N2) as (y & MY & _). rewrite MX, MY. exact (within_min _ _ _ _ _ W MX MY).
  Qed.

  Lemma close_absolute e d (test test' ref ref' : traj Q) r : consistent test -> consistent test' -> consistent ref -> consistent ref' -> tlen test = tlen ref ->
    close e (xyz test) (xyz test') -> close d (xyz ref) (xyz ref') -> compare_absolute ops test ref = Ok r ->
    exists r', compare_absolute ops test' ref' = Ok r' /\ close (d + e) (pos_dev r) (pos_dev r').
  Proof.
    intros C C' D D' L X Y E. assert (LX := close_length e _ _ X). assert (LY := close_length d _ _ Y). unfold tlen in L.
    destruct (compare_absolute_ok ops test ref C D L) as (r0 & E0 & _ & _ & LP & _ & P & _). rewrite E in E0. injection E0 as <-.
    destruct (compare_absolute_ok ops test' ref' C' D' ltac:(unfold tlen; lia)) as (r' & E' & _ & _ & LP' & _ & P' & _). unfold tlen in LP, LP'.
    exists r'. split; [exact E'|]. apply close_of_nth; [lia|]. intros i a b A B. assert (I := nth_error_Some_lt _ _ _ A).
    destruct (nth_error_lt_Some (xyz ref) i ltac:(lia)) as [rp RP]. destruct (nth_error_lt_Some (xyz test) i ltac:(lia)) as [tp TP].
    destruct (close_nth d _ _ i rp Y RP) as (rp' & RP' & DR). destruct (close_nth e _ _ i tp X TP) as (tp' & TP' & DT).
    rewrite (P i rp tp RP TP) in A. injection A as <-. rewrite (P' i rp' tp' RP' TP') in B. injection B as <-. apply dist_diff; assumption.
  Qed.

  (** ** Relative comparison *)
  Lemma delta_form A B r r' : mul4 (se3_inv (pose4 A r)) (pose4 B r') = pose4 (mmul (mtrans A) B) (mapply (mtrans A) (vsub r' r)).
  Proof. unfold pose4, se3_inv. m4; ring. Qed.
  Lemma translation_form A B C D r r' t t' : is_rot A -> is_rot B ->
    translation_error (pose_error (pose4 A r) (pose4 B r') (pose4 C t) (pose4 D t')) = vnorm (vsub (mapply (mtrans C) (vsub t' t)) (mapply (mtrans A) (vsub r' r))).
  Proof.
    intros HA HB. unfold pose_error. rewrite !delta_form, translation_error_norm. unfold pose4. cbn [tra].
    apply rot_norm, is_rot_mtrans, is_rot_mmul; [apply is_rot_mtrans, HA|exact HB].
  Qed.
  Lemma rotation_form A B C D r r' t t' s s' u u' :
    rotation_error (pose_error (pose4 A r) (pose4 B r') (pose4 C t) (pose4 D t')) = rotation_error (pose_error (pose4 A s) (pose4 B s') (pose4 C u) (pose4 D u')).
  Proof. unfold pose_error. rewrite !delta_form. reflexivity. Qed.
  Lemma rel_diff A C r r' t t' s s' u u' d e : is_rot A -> is_rot C -> vdist r s <= d -> vdist r' s' <= d -> vdist t u <= e -> vdist t' u' <= e ->
    Rabs (vnorm (vsub (mapply (mtrans C) (vsub t' t)) (mapply (mtrans A) (vsub r' r))) - vnorm (vsub (mapply (mtrans C) (vsub u' u)) (mapply (mtrans A) (vsub s' s)))) <= 2 * (d + e).
  Proof.
    intros HA HC D1 D2 E1 E2. eapply Rle_trans; [apply norm_diff|]. replace (2 * (d + e)) with ((e + e) + (d + d)) by ring.
    apply dist_diff; unfold vdist; rewrite <- mapply_sub, rot_norm by (apply is_rot_mtrans; assumption); apply dist_diff; assumption.
  Qed.
  Lemma div_within a b x c : Rabs (a - b) <= c -> match np_div a x, np_div b x with Some u, Some v => Rabs (u - v) <= c / Rabs x | None, None => True | _, _ => False end.
  Proof.
    intro H. unfold np_div. destruct (Reqb_spec x 0) as [|N]; [exact I|]. replace (a / x - b / x) with ((a - b) * / x) by (field; exact N).
    rewrite Rabs_mult, Rabs_inv. apply Rmult_le_compat_r; [apply Rlt_le, Rinv_0_lt_compat, Rabs_pos_lt, N|exact H].
  Qed.
  Lemma shaken_pose e (t t' : traj Q) i P : shaken e t t' -> pose_matrix ops t i P ->
    exists r p p', P = pose4 (as_matrix ops r) p /\ pose_matrix ops t' i (pose4 (as_matrix ops r) p') /\ vdist p p' <= e.
  Proof.
    intros (X & _ & R) (q & p & r & RQ & P1 & P2 & ->). destruct (close_nth e _ _ i p X P1) as (p' & P1' & D). exists r, p, p'.
    split; [reflexivity|]. split; [|exact D]. exists q, p', r. rewrite R. auto.
  Qed.
  Lemma shaken_orientation e (t t' : traj Q) : shaken e t t' -> has_orientation t' = has_orientation t.
  Proof. intros (_ & _ & R). unfold has_orientation. rewrite R. reflexivity. Qed.

  Lemma shaken_pair d e (test test' ref ref' : traj Q) ds p en : rot_contract ops -> consistent test -> consistent test' -> consistent ref -> consistent ref' ->
    shaken e test test' -> shaken d ref ref' -> compare_pair ops test ref ds p = Ok en ->
    exists en', compare_pair ops test' ref' ds p = Ok en' /\ entry_within (2 * (d + e)) en en'.
  Proof.
    intros RC C C' D D' ST SR E. destruct p as [i j]. assert (OT := shaken_orientation e test test' ST). assert (OR := shaken_orientation d ref ref' SR).
    destruct (has_orientation ref && has_orientation test)%bool eqn:O.
    - apply andb_true_iff in O as [Or Ot]. destruct (compare_pair_rot ops test ref ds i j en C D Or Ot E) as (di & dj & Pi & Pj & Ti & Tj & Di & Dj & HPi & HPj & HTi & HTj & ->).
      destruct (shaken_pose d ref ref' i Pi SR HPi) as (ra & a & a' & -> & HA & DA). destruct (shaken_pose d ref ref' j Pj SR HPj) as (rb & b & b' & -> & HB & DB).
      destruct (shaken_pose e test test' i Ti ST HTi) as (rc & c & c' & -> & HC & DC). destruct (shaken_pose e test test' j Tj ST HTj) as (rd & f & f' & -> & HD & DD).
      eexists. split.
      + unfold compare_pair. cbn [fst snd]. rewrite (proj2 (np_get_of_nat _ _ _) Dj). cbn [bind]. rewrite (proj2 (np_get_of_nat _ _ _) Di). cbn [bind]. rewrite OR, OT, Or, Ot. cbn [andb].
        apply (se3_nth ops) in HA, HB, HC, HD; try assumption; try congruence.
        rewrite (proj2 (np_get_of_nat _ _ _) HA), (proj2 (np_get_of_nat _ _ _) HB), (proj2 (np_get_of_nat _ _ _) HC), (proj2 (np_get_of_nat _ _ _) HD). cbn [bind]. reflexivity.
      + split; [reflexivity|]. split; [cbn [e_rot]; rewrite (rotation_form _ _ _ _ a' b' c' f' a b c f); reflexivity|]. cbn [e_pos e_dist]. apply div_within.
        rewrite !translation_form by apply (rc_rot ops RC). apply rel_diff; try assumption; apply (rc_rot ops RC).
    - destruct (compare_pair_plain ops test ref ds i j en O E) as (di & dj & ri & rj & ti & tj & Di & Dj & Ri & Rj & Ti & Tj & ->).
      destruct SR as (Y & _ & _), ST as (X & _ & _).
      destruct (close_nth d _ _ i ri Y Ri) as (ri' & Ri' & D1). destruct (close_nth d _ _ j rj Y Rj) as (rj' & Rj' & D2).
      destruct (close_nth e _ _ i ti X Ti) as (ti' & Ti' & D3). destruct (close_nth e _ _ j tj X Tj) as (tj' & Tj' & D4).
      eexists. split.
      + unfold compare_pair. cbn [fst snd]. rewrite (proj2 (np_get_of_nat _ _ _) Dj). cbn [bind]. rewrite (proj2 (np_get_of_nat _ _ _) Di). cbn [bind]. rewrite OR, OT, O.
        rewrite (proj2 (np_get_of_nat _ _ _) Ri'), (proj2 (np_get_of_nat _ _ _) Rj'), (proj2 (np_get_of_nat _ _ _) Ti'), (proj2 (np_get_of_nat _ _ _) Tj'). cbn [bind]. reflexivity.
      + split; [reflexivity|]. split; [reflexivity|]. cbn [e_pos e_dist]. apply div_within. fold (vdist rj' ri') (vdist tj' ti').
        assert (A1 := norm_diff (vsub rj ri) (vsub rj' ri')). assert (A2 := dist_diff rj ri rj' ri' d d D2 D1).
        assert (B1 := norm_diff (vsub tj ti) (vsub tj' ti')). assert (B2 := dist_diff tj ti tj' ti' e e D4 D3). unfold vdist in *.
        set (x := vnorm (vsub rj ri)) in *. set (x' := vnorm (vsub rj' ri')) in *. set (y := vnorm (vsub tj ti)) in *. set (y' := vnorm (vsub tj' ti')) in *.
        eapply Rle_trans; [apply Rabs_triang_inv2|]. replace (x - y - (x' - y')) with ((x - x') + - (y - y')) by ring.
        eapply Rle_trans; [apply Rabs_triang|]. rewrite Rabs_Ropp. lra.
  Qed.

  Lemma mapM_two {A B D} (f : A -> result B) (g : A -> result D) (P : B -> D -> Prop) l r :
    (forall x y, In x l -> f x = Ok y -> exists z, g x = Ok z /\ P y z) -> mapM f l = Ok r -> exists r', mapM g l = Ok r' /\ Forall2 P r r'.
  Proof.
    revert r. induction l as [|x l IH]; intros r H E; cbn in E |- *; [injection E as <-; exists []; split; [reflexivity|constructor]|].
    apply bind_ok in E as (y & Y & E). apply bind_ok in E as (ys & YS & E). injection E as <-.
    destruct (H x y (or_introl eq_refl) Y) as (z & Z & PZ). destruct (IH ys (fun a b I => H a b (or_intror I)) YS) as (zs & ZS & PZS).
    rewrite Z, ZS. cbn [bind]. exists (z :: zs). split; [reflexivity|]. constructor; assumption.
  Qed.

  Lemma shaken_relative d e (test test' ref ref' : traj Q) c r : rot_contract ops -> consistent test -> consistent test' -> consistent ref -> consistent ref' ->
    shaken e test test' -> shaken d ref ref' -> (pair_distance_unit c = U_METER -> arc ref' = arc ref) -> compare_relative ops test ref c = Ok r ->
    exists r', compare_relative ops test' ref' c = Ok r' /\ rpe_unit r' = rpe_unit r /\
      Forall2 (fun b b' => fst b' = fst b /\ Forall2 (entry_within (2 * (d + e))) (snd b) (snd b')) (rpe_pairs r) (rpe_pairs r').
  Proof.
    intros RC C C' D D' ST SR A E. unfold compare_relative in E |- *. destruct (Rltb _ _); [discriminate|]. apply bind_ok in E as (pd & PD & E). rewrite PD. cbn [bind].
    apply bind_ok in E as (bl & BL & E). assert (DS : pair_distances ref' (pair_distance_unit c) = pair_distances ref (pair_distance_unit c)).
    { destruct (pair_distance_unit c); try reflexivity; unfold pair_distances; f_equal; [apply A; reflexivity|apply SR]. }
    match goal with |- context [mapM ?g pd] => assert (G : exists bl', mapM g pd = Ok bl' /\ Forall2 (fun b b' => fst b' = fst b /\ Forall2 (entry_within (2 * (d + e))) (snd b) (snd b')) bl bl') end.
    2:{ destruct G as (bl' & BL' & F). rewrite BL'. cbn [bind]. assert (L : forallb (fun b => (length (snd b) =? 0)%nat) bl' = forallb (fun b : R * list pair_entry => (length (snd b) =? 0)%nat) bl).
      { clear - F. induction F as [|b b' l m [_ H] F IH]; [reflexivity|]. cbn [forallb]. rewrite IH. f_equal. f_equal. clear - H. induction H; cbn; congruence. }
      rewrite L. destruct (forallb _ bl); [discriminate|]. injection E as <-. eexists. split; [reflexivity|]. split; [reflexivity|]. exact F. }
    eapply mapM_two; [|exact BL]. intros x [x' en] _ H. cbn beta in H. rewrite DS. apply bind_ok in H as (ds & DSS & H). rewrite DSS. cbn [bind]. apply bind_ok in H as (pi & PI & H). rewrite PI. cbn [bind]. apply bind_ok in H as (en0 & EN & H). injection H as <- <-.
      destruct (mapM_two (compare_pair ops test ref ds) (compare_pair ops test' ref' ds) (entry_within (2 * (d + e))) pi en0 (fun p y _ H => shaken_pair d e test test' ref ref' ds p y RC C C' D D' ST SR H) EN) as (en' & EN' & F).
      rewrite EN'. cbn [bind]. eexists. split; [reflexivity|]. split; [reflexivity|exact F].
  Qed.
End Traj.
