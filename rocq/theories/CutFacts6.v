(** Absolute results read from files that were cut off: the whole result. *)
From Verif Require Import Base BaseFacts EstModel TextModel TextFacts HeaderModel HeaderFacts NumpyModel TrajModel TrajSpec TrajFacts2 GeomModel GeomSpec IoModel IoSpec IoFacts IoFacts2 EvalModel RpeModel RpeSpec RpeFacts RpeFacts2 RpeFacts3 AteModel AteSpec AteFacts AteFacts2 TornModel TornFacts CutModel CutSpec CutFacts CutFacts2 CutFacts3 CutFacts4 CutFacts5.
Local Open Scope string_scope.

Ltac step H j J V := let x := fresh in let H' := fresh in inversion H as [|? x ? ? (j & J & V) H']; subst; clear H; rename H' into H.

Section Cut6.
  Context {Q : Type} (ops : rot_ops Q) (qops : quat_ops Q) (QC : quat_contract ops qops) (T : text_ops) (show12 : R -> string) (TC : text_contract T) (FC : format12 T show12).
  Context (r : ate_result Q) (CR : complete r) (NE : xyz (ate_trajectory r) <> []).
  Notation t := (ate_trajectory r).
  Notation a := (has_quats (rot t)).
  Notation b := (has_quats (rot_dev r)).
  Notation names := (names2 a b).
  Notation rows := (all_rows qops r).

  Lemma three_valued nms got c1 c2 c3 cols k : frame_columns T nms got [c1; c2; c3] = Ok (Some cols) -> index_of c1 nms = Ok k -> index_of c2 nms = Ok (k + 1)%nat -> index_of c3 nms = Ok (k + 2)%nat ->
    exists x y z, cols = [x; y; z] /\ valued T k got x /\ valued T (k + 1) got y /\ valued T (k + 2) got z.
  Proof.
    intros H I1 I2 I3. apply columns_valued in H. step H j1 J1 V1. step H j2 J2 V2. step H j3 J3 VV3. inversion H; subst.
    assert (j1 = k) as -> by congruence. assert (j2 = k + 1)%nat as -> by congruence. assert (j3 = k + 2)%nat as -> by congruence. eauto 10.
  Qed.
  Lemma four_valued nms got c1 c2 c3 c4 cols k : frame_columns T nms got [c1; c2; c3; c4] = Ok (Some cols) -> index_of c1 nms = Ok k -> index_of c2 nms = Ok (k + 1)%nat -> index_of c3 nms = Ok (k + 2)%nat -> index_of c4 nms = Ok (k + 3)%nat ->
    exists x y z w, cols = [x; y; z; w] /\ valued T k got x /\ valued T (k + 1) got y /\ valued T (k + 2) got z /\ valued T (k + 3) got w.
  Proof.
    intros H I1 I2 I3 I4. apply columns_valued in H. step H j1 J1 V1. step H j2 J2 V2. step H j3 J3 VV3. step H j4 J4 VV4. inversion H; subst.
    assert (j1 = k) as -> by congruence. assert (j2 = k + 1)%nat as -> by congruence. assert (j3 = k + 2)%nat as -> by congruence. assert (j4 = k + 3)%nat as -> by congruence. eauto 12.
  Qed.
  Lemma one_valued nms got c cols k : frame_columns T nms got [c] = Ok (Some cols) -> index_of c nms = Ok k -> exists x, cols = [x] /\ valued T k got x.
  Proof. intros H I1. apply columns_valued in H. step H j1 J1 V1. inversion H; subst. assert (j1 = k) as -> by congruence. eauto. Qed.
  Lemma rotations_valued nms got c1 c2 c3 c4 o k : frame_rotations qops T nms got [c1; c2; c3; c4] = Ok (Some o) -> forallb (fun x => member x nms) [c1; c2; c3; c4] = true ->
    index_of c1 nms = Ok k -> index_of c2 nms = Ok (k + 1)%nat -> index_of c3 nms = Ok (k + 2)%nat -> index_of c4 nms = Ok (k + 3)%nat ->
    exists x y z w l, o = Some l /\ valued T k got x /\ valued T (k + 1) got y /\ valued T (k + 2) got z /\ valued T (k + 3) got w /\
      mapM (fun v => match from_quat qops v with Some q => Ok q | None => Err ValueError end) (v4_of [x; y; z; w]) = Ok l.
  Proof.
    intros H M I1 I2 I3 I4. unfold frame_rotations in H. rewrite M in H. apply bind_ok in H as [[cols|] [C H]]; [|discriminate].
    destruct (four_valued _ _ _ _ _ _ _ _ C I1 I2 I3 I4) as (x & y & z & w & -> & V1 & V2 & V3 & V4).
    destruct (mapM _ _) as [l|] eqn:ML in H; [|discriminate]. cbn in H. injection H as <-. exists x, y, z, w, l. auto 10.
  Qed.

  Ltac names_case := destruct a, b; cbn [off]; first [reflexivity | cbn; lia].
  Lemma names_last : exists k, (length names = k + 4 /\ b = true /\ k = off a + 6 \/ length names = k + 3 /\ b = false /\ k = off a + 3)%nat.
  Proof. destruct a, b; [exists 15%nat|exists 12%nat|exists 11%nat|exists 8%nat]; cbn; auto 10. Qed.

  (** The parts that are read from a table of which the names of the columns are complete *)
  Lemma parts_read got ts al ps ro pd dd rd : begun show12 (length names) rows got ->
    frame_columns T names got ["time"] = Ok (Some [ts]) -> frame_columns T names got ["arc_lengths"] = Ok (Some [al]) ->
    frame_columns T names got ["pos_x"; "pos_y"; "pos_z"] = Ok (Some ps) ->
    frame_rotations qops T names got ["rot_x"; "rot_y"; "rot_z"; "rot_w"] = Ok (Some ro) ->
    frame_columns T names got ["pos_dev_x"; "pos_dev_y"; "pos_dev_z"] = Ok (Some pd) ->
    frame_columns T names got ["pos_dev_along"; "pos_dev_cross_h"; "pos_dev_cross_v"] = Ok (Some dd) ->
    frame_rotations qops T names got ["rot_dev_x"; "rot_dev_y"; "rot_dev_z"; "rot_dev_w"] = Ok (Some rd) ->
    let m := length got in
    (m <= length (xyz t))%nat /\ Forall2 near12 (firstn m (tstamps t)) ts /\ Forall2 near12 (firstn m (arc t)) al /\ Forall2 near12_v3 (firstn m (xyz t)) (v3_of ps) /\
    Forall2 near12_v3 (firstn m (pos_dev r)) (v3_of pd) /\ all_but_last near12_v3 (firstn m (directed_pos_dev r)) (v3_of dd) /\
    (rot_dev r <> None -> Forall2 near12_v3 (firstn m (directed_pos_dev r)) (v3_of dd)) /\
    near12_rots qops (option_map (firstn m) (rot t)) ro /\
    match rot_dev r, rd with
    | None, None => True
    | Some q, Some q' => all_but_last (fun x y => near12_quat (as_quat qops x) (as_quat qops y)) (firstn m q) q'
    | _, _ => False
    end.
  Proof.
    intros B E1 E2 E3 E4 E5 E6 E7 m. pose proof (wide_all qops r) as W.
    destruct (one_valued _ _ _ _ 0 E1 eq_refl) as (x1 & X1 & V1). injection X1 as <-.
    destruct (one_valued _ _ _ _ 1 E2 eq_refl) as (x2 & X2 & V2). injection X2 as <-.
    destruct (three_valued _ _ _ _ _ _ 2 E3 eq_refl eq_refl eq_refl) as (p1 & p2 & p3 & -> & P1 & P2 & P3).
    destruct (three_valued _ _ _ _ _ _ (off a + 0) E5 ltac:(names_case) ltac:(names_case) ltac:(names_case)) as (d1 & d2 & d3 & -> & D1 & D2 & D3).
    destruct (three_valued _ _ _ _ _ _ (off a + 3) E6 ltac:(names_case) ltac:(names_case) ltac:(names_case)) as (g1 & g2 & g3 & -> & G1 & G2 & G3).
    assert (forall q, rot_dev r = Some q -> exists x y z v l, rd = Some l /\ valued T (off a + 6) got x /\ valued T (off a + 6 + 1) got y /\ valued T (off a + 6 + 2) got z /\ valued T (off a + 6 + 3) got v /\
      mapM (fun v => match from_quat qops v with Some q => Ok q | None => Err ValueError end) (v4_of [x; y; z; v]) = Ok l) as RD.
    { intros q EQ. assert (b = true) as H by (rewrite EQ; reflexivity). apply (rotations_valued _ _ _ _ _ _ _ _ E7); rewrite H; destruct a; reflexivity. }
    assert (Forall (fun g => nth (length names - 1) g None <> None) got) as NN.
    { destruct (rot_dev r) as [q|] eqn:EQ.
      - destruct (RD q eq_refl) as (x & y & z & v & l & _ & _ & _ & _ & V & _). replace (length (names2 a (has_quats (Some q))) - 1)%nat with (off a + 6 + 3)%nat by (destruct a; reflexivity). apply (valued_some T _ _ _ V).
      - replace (length (names2 a (has_quats None)) - 1)%nat with (off a + 3 + 2)%nat by (destruct a; reflexivity). apply (valued_some T _ _ _ G3). }
    assert (length rows = length (xyz t)) as LR. { unfold all_rows. rewrite beside_length; [apply (len_left qops r CR)|apply (len_lr qops r CR)]. }
    split; [unfold m; pose proof (got_short show12 _ _ _ B); lia|].
    split; [apply (column_near T show12 FC _ _ _ B W NN 0); [names_case|rewrite <- (col_column (tstamps t)); apply (in_ts qops r CR 0%nat Nat.lt_0_1)|exact V1]|].
    split; [apply (column_near T show12 FC _ _ _ B W NN 1); [names_case|rewrite <- (col_column (arc t)); apply (in_arc qops r CR 0%nat Nat.lt_0_1)|exact V2]|].
    split; [apply (three_near T show12 FC _ _ _ B W NN 2 (xyz t) p1 p2 p3); try assumption; [names_case|apply (in_xyz qops r CR)|names_case]|].
    split; [apply (three_near T show12 FC _ _ _ B W NN (off a + 0) (pos_dev r) d1 d2 d3); try assumption; [names_case|apply (in_pos qops r CR)|names_case]|].
    split; [apply (three_near T show12 FC _ _ _ B W NN (off a + 3) (directed_pos_dev r) g1 g2 g3); try assumption; [names_case|apply (in_dir qops r CR)]|].
    split; [intro HR; apply (three_near T show12 FC _ _ _ B W NN (off a + 3) (directed_pos_dev r) g1 g2 g3); try assumption; [names_case|apply (in_dir qops r CR)|]; destruct (rot_dev r); [destruct a; cbn; lia|congruence]|].
    split.
    - assert (forall o, rot t = o -> near12_rots qops (option_map (firstn m) o) ro) as G; [|apply G; reflexivity]. intros [q|] EQ.
      + assert (a = true) as H by (rewrite EQ; reflexivity).
        destruct (rotations_valued _ _ _ _ _ _ _ 5 E4) as (x & y & z & v & l & -> & U1 & U2 & U3 & U4 & ML); try (rewrite H; destruct b; reflexivity).
        apply (four_near T show12 FC _ _ _ B W NN ops qops QC 5 q x y z v l); try assumption; [rewrite H; destruct b; cbn; lia|apply (in_rot qops r CR), EQ|rewrite H; destruct b; cbn; lia].
      + cbn. unfold frame_rotations in E4. rewrite EQ in E4. cbn [has_quats] in E4.
        assert (forallb (fun x => member x (names2 false b)) ["rot_x"; "rot_y"; "rot_z"; "rot_w"] = false) as F by (destruct b; reflexivity). rewrite F in E4. injection E4 as <-. exact I.
    - destruct (rot_dev r) as [q|] eqn:EQ.
      + destruct (RD q eq_refl) as (x & y & z & v & l & -> & U1 & U2 & U3 & U4 & ML).
        apply (four_near T show12 FC _ _ _ B W NN ops qops QC (off a + 6) q x y z v l); try assumption; [destruct a; cbn; lia|]. apply (in_rdev qops r CR), EQ.
      + unfold frame_rotations in E7. cbn [has_quats] in E7.
        assert (forallb (fun x => member x (names2 a false)) ["rot_dev_x"; "rot_dev_y"; "rot_dev_z"; "rot_dev_w"] = false) as F by (destruct a; reflexivity). rewrite F in E7. injection E7 as <-. exact I.
  Qed.
End Cut6.
