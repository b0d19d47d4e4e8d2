(** Saving and loading repeatedly: proofs. *)
From Verif Require Import Base BaseFacts EstModel TextModel TextFacts HeaderModel NumpyModel TrajModel TrajSpec TrajFacts GeomModel GeomSpec IoModel IoSpec IoFacts IoFacts2 IoFacts3 IoFacts4 IoProps ReadSpec ReadProps CycleSpec.
Local Open Scope string_scope.

Section Cycle.
  Context {Q : Type} (ops : rot_ops Q) (qops : quat_ops Q) (T : text_ops) (TC : text_contract T) (QC : quat_contract ops qops).

  Definition close_quats (a b : option (list Q)) : Prop :=
    match a, b with
    | Some qs, Some qs' => Forall2 (fun q q' => near_quat (as_quat qops q) (as_quat qops q')) qs qs'
    | None, None => True
    | _, _ => False
    end.

  (** Everything but orientations is read as [rd] of what was there. *)
  Lemma read_exact C loc counted (t : traj Q) : consistent t -> xyz t <> [] -> regular (name t) -> name t <> "" ->
    exists text t', to_file qops T "" t = Ok text /\ from_file ops qops T C loc counted text = Ok (Some t') /\ consistent t' /\
      tstamps t' = map (rd T) (tstamps t) /\ xyz t' = map (rd3 T) (xyz t) /\ arc t' = map (rd T) (arc t) /\ speed t' = map (rd3 T) (speed t) /\
      (rot t' = None <-> rot t = None) /\ srt t' = SortTime /\ epsg t' = epsg t /\ name t' = name t /\ close_quats (rot t) (rot t') /\
      read_data T text = Ok (written_header t, Table (width t) (map (shown T) (table_rows qops t))).
  Proof.
    intros CT N RG NN. pose proof (regular_one_line _ RG) as O. exists (lines_text (written_lines qops T t)).
    pose proof (written_one_line qops T TC t O) as WO.
    pose proof (header_handled qops T TC [] t) as HH. rewrite app_nil_r in HH.
    assert (std_header (written_header t) (fields_text t)) as SH.
    { destruct (written_std t []) as [W|[W|W]]; [rewrite app_nil_r in W; exact W|exfalso; apply W; reflexivity|exfalso; apply W; reflexivity]. }
    assert (RD : read_data T (lines_text (written_lines qops T t)) = Ok (written_header t, Table (width t) (map (shown T) (table_rows qops t)))).
    { rewrite (read_data_lines T TC _ (written_header t) (table_rows qops t) (width t) WO HH); [reflexivity|reflexivity|..].
      - apply (data_of_written qops T TC). intros r I. apply table_rows_nonempty with qops t. exact I.
      - apply table_rows_some; assumption.
      - apply width_gt.
      - apply table_rows_width. }
    assert (NM : read_name counted (written_header t) = name t).
    { destruct (file_round_trip ops qops T TC QC C loc counted t CT N O) as [text [t' [A [B [_ [_ [_ [_ [_ K]]]]]]]]].
      assert (E : name t' = read_name counted (written_header t)).
      { rewrite (to_file_lines qops T "") in A by (apply consistent_same_lengths; exact CT).
        assert (A' : text = lines_text (written_lines qops T t)) by (injection A as <-; reflexivity). rewrite A' in B.
        destruct (read_rows ops qops T TC QC C loc counted (written_header t) t CT SH) as [u [R [_ [_ [_ [_ [NU _]]]]]]].
        unfold from_file in B. rewrite RD in B. rewrite R in B. injection B as <-. exact NU. }
      rewrite <- E, K. unfold regular in RG. rewrite RG. apply String.eqb_neq in NN. now rewrite NN. }
    assert (EP : h_epsg (written_header t) = epsg t) by reflexivity.
    pose proof CT as [A1 [A2 [A3 A4]]].
    assert (RR : exists t', from_read ops qops T C loc counted (Ok (written_header t, Table (width t) (map (shown T) (table_rows qops t)))) = Ok (Some t') /\
      consistent t' /\ tstamps t' = map (rd T) (tstamps t) /\ xyz t' = map (rd3 T) (xyz t) /\ arc t' = map (rd T) (arc t) /\ speed t' = map (rd3 T) (speed t) /\
      (rot t' = None <-> rot t = None) /\ srt t' = SortTime /\ epsg t' = epsg t /\ name t' = name t /\ close_quats (rot t) (rot t')).
    { unfold width, table_rows, fields_text in *. destruct (rot t) as [qs|] eqn:E.
      - destruct (read_quats ops qops QC T TC C loc counted (written_header t) (tstamps t) (arc t) (xyz t) qs (speed t) _ SH A1 A3 eq_refl A2 A4) as [qs' [R F]].
        eexists. split; [exact R|]. cbn [srt name epsg rot tstamps xyz arc speed]. split.
        + unfold consistent. cbn [tstamps xyz rot arc speed]. rewrite !map_length, <- (forall2_length _ _ _ F). repeat split; assumption.
        + rewrite NM, EP. repeat split; try discriminate. exact F.
      - rewrite (read_plain ops qops T TC C loc counted (written_header t) _ _ _ _ _ SH A1 A3 eq_refl A4).
        eexists. split; [reflexivity|]. cbn [srt name epsg rot tstamps xyz arc speed]. split.
        + unfold consistent. cbn [tstamps xyz rot arc speed]. rewrite !map_length. repeat split; assumption.
        + rewrite NM, EP. repeat split; reflexivity. }
    destruct RR as [t' [R K]]. exists t'. split; [apply (to_file_lines qops T ""); apply consistent_same_lengths; exact CT|].
    split; [unfold from_file; rewrite RD; exact R|]. repeat (split; [apply K|]). exact RD.
  Qed.

  Context (RP : repeatable T).

  Lemma rd_number x : number T (show9 T x) = Some (Fin (rd T x)).
  Proof. destruct (tc_num T TC x) as [y [E _]]. unfold rd. now rewrite E. Qed.
  Lemma show_rd x : show9 T (rd T x) = show9 T x.
  Proof. apply RP, rd_number. Qed.
  Lemma rd_rd x : rd T (rd T x) = rd T x.
  Proof. unfold rd at 1 3. now rewrite show_rd. Qed.
  Lemma rd3_rd3 v : rd3 T (rd3 T v) = rd3 T v.
  Proof. unfold rd3. cbn. now rewrite !rd_rd. Qed.
  Lemma rds l : map (rd T) (map (rd T) l) = map (rd T) l.
  Proof. rewrite map_map. apply map_ext. exact rd_rd. Qed.
  Lemma rd3s l : map (rd3 T) (map (rd3 T) l) = map (rd3 T) l.
  Proof. rewrite map_map. apply map_ext. exact rd3_rd3. Qed.

  Lemma reload_values C loc counted k : forall (t b : traj Q), consistent t -> xyz t <> [] -> regular (name t) -> name t <> "" ->
    reloaded ops qops T C loc counted (S k) t b ->
    consistent b /\ tstamps b = map (rd T) (tstamps t) /\ xyz b = map (rd3 T) (xyz t) /\ arc b = map (rd T) (arc t) /\ speed b = map (rd3 T) (speed t) /\
    (rot b = None <-> rot t = None) /\ srt b = SortTime /\ epsg b = epsg t /\ name b = name t.
  Proof.
    induction k as [|k IH]; intros t b CT N RG NN H; destruct H as (text & u & W & R & H);
      destruct (read_exact C loc counted t CT N RG NN) as (text' & u' & W' & R' & K1 & K2 & K3 & K4 & K5 & K6 & K7 & K8 & K9 & _ & _);
      rewrite W in W'; injection W' as <-; rewrite R in R'; injection R' as <-.
    - cbn in H. subst b. repeat (split; [assumption|]). assumption.
    - assert (N' : xyz u <> []) by (rewrite K3; destruct (xyz t); [contradiction|discriminate]).
      destruct (IH u b K1 N' ltac:(congruence) ltac:(congruence) H) as (B1 & B2 & B3 & B4 & B5 & B6 & B7 & B8 & B9).
      split; [exact B1|]. split; [rewrite B2, K2; apply rds|]. split; [rewrite B3, K3; apply rd3s|]. split; [rewrite B4, K4; apply rds|].
      split; [rewrite B5, K5; apply rd3s|]. split; [tauto|]. split; [exact B7|]. split; congruence.
  Qed.

  Lemma reload_total C loc counted k : forall (t : traj Q), consistent t -> xyz t <> [] -> regular (name t) -> name t <> "" ->
    exists b, reloaded ops qops T C loc counted k t b.
  Proof.
    induction k as [|k IH]; intros t CT N RG NN; [exists t; reflexivity|].
    destruct (read_exact C loc counted t CT N RG NN) as (text & u & W & R & K1 & _ & K3 & _ & _ & _ & _ & _ & K9 & _ & _).
    destruct (IH u K1) as [b B]; [rewrite K3; destruct (xyz t); [contradiction|discriminate]|congruence|congruence|].
    exists b, text, u. auto.
  Qed.

  Lemma csv_same rows rows' : Forall2 (fun r r' => map (show9 T) r = map (show9 T) r') rows rows' -> csv_text T rows = csv_text T rows'.
  Proof. intro F. induction F as [|r r' rows rows' H F IH]; [reflexivity|]. unfold csv_text in *. cbn [fold_right]. now rewrite H, IH. Qed.

  Lemma rows_same ts al ps vs : Forall2 (fun r r' => map (show9 T) r = map (show9 T) r')
    (rows_of (map (rd T) ts) (map (rd T) al) (map (rd3 T) ps) (map (fun _ => []) (map (rd3 T) ps)) (map (rd3 T) vs))
    (rows_of ts al ps (map (fun _ => []) ps) vs).
  Proof.
    revert al ps vs. induction ts as [|t ts IH]; intros [|a al] [|p ps] [|v vs]; try constructor.
    - cbn. now rewrite !show_rd.
    - apply IH.
  Qed.

  Lemma rewritten C loc counted k (t b : traj Q) : consistent t -> xyz t <> [] -> regular (name t) -> name t <> "" -> rot t = None ->
    reloaded ops qops T C loc counted k t b -> to_file qops T "" b = to_file qops T "" t.
  Proof.
    intros CT N RG NN RN H. destruct k as [|k]; [cbn in H; now subst b|].
    destruct (reload_values C loc counted k t b CT N RG NN H) as (B1 & B2 & B3 & B4 & B5 & B6 & B7 & B8 & B9).
    assert (RB : rot b = None) by tauto.
    unfold to_file. rewrite !consistent_same_lengths by assumption. do 2 f_equal. f_equal.
    - unfold write_header. rewrite B8, B9, RB, RN. reflexivity.
    - unfold table_rows. rewrite RB, RN, B2, B3, B4, B5. apply csv_same, rows_same.
  Qed.

  Lemma drifts C loc counted k : forall (t b : traj Q) qs, consistent t -> xyz t <> [] -> regular (name t) -> name t <> "" -> rot t = Some qs ->
    reloaded ops qops T C loc counted k t b ->
    exists qs', rot b = Some qs' /\ Forall2 (fun q q' => off_by (INR k * (15 / 10 ^ 10)) (as_quat qops q) (as_quat qops q')) qs qs'.
  Proof.
    induction k as [|k IH]; intros t b qs CT N RG NN RT H.
    - cbn in H. subst b. exists qs. split; [exact RT|]. clear. induction qs as [|q qs IH]; constructor; [|exact IH].
      unfold off_by. cbn [INR]. assert (Z : forall x : R, Rabs (x - x) <= 0 * (15 / 10 ^ 10)) by (intro x; replace (x - x) with 0 by ring; rewrite Rabs_R0; lra). repeat split; apply Z.
    - destruct H as (text & u & W & R & H).
      destruct (read_exact C loc counted t CT N RG NN) as (text' & u' & W' & R' & K1 & K2 & K3 & K4 & K5 & K6 & K7 & K8 & K9 & K10 & _).
      rewrite W in W'. injection W' as <-. rewrite R in R'. injection R' as <-.
      assert (N' : xyz u <> []) by (rewrite K3; destruct (xyz t); [contradiction|discriminate]).
      rewrite RT in K10. unfold close_quats in K10. destruct (rot u) as [qu|] eqn:RU; [|contradiction].
      destruct (IH u b qu K1 N' ltac:(congruence) ltac:(congruence) RU H) as (qs' & RB & F).
      exists qs'. split; [exact RB|]. rewrite S_INR. clear -K10 F. revert qs' F. induction K10 as [|q r qs qu A L IHL]; intros qs' F; inversion F as [|? r' ? ? B F']; subst; constructor.
      + destruct A as (A1 & A2 & A3 & A4), B as (B1 & B2 & B3 & B4). set (e := 15 / 10 ^ 10) in *. clearbody e.
        assert (TR : forall x y z, Rabs (y - x) <= e -> Rabs (z - y) <= INR k * e -> Rabs (z - x) <= (INR k + 1) * e).
        { intros x y z X Y. replace (z - x) with ((z - y) + (y - x)) by ring. eapply Rle_trans; [apply Rabs_triang|]. lra. }
        repeat split; eapply TR; eassumption.
      + apply IHL, F'.
  Qed.
End Cycle.

(** ** One pose: the exact orientation that is read *)
Section Pose.
  Context {Q : Type} (ops : rot_ops Q) (qops : quat_ops Q) (T : text_ops) (TC : text_contract T) (QC : quat_contract ops qops).

  Definition rd4 (v : V4) : V4 := mkV4 (rd T (q_x v)) (rd T (q_y v)) (rd T (q_z v)) (rd T (q_w v)).

  Lemma read_one C loc counted (t u : traj Q) text q : consistent t -> regular (name t) -> name t <> "" -> rot t = Some [q] -> length (xyz t) = 1%nat ->
    to_file qops T "" t = Ok text -> from_file ops qops T C loc counted text = Ok (Some u) ->
    exists r, rot u = Some [r] /\ as_quat qops r = qscale (/ qnorm (rd4 (as_quat qops q))) (rd4 (as_quat qops q)).
  Proof.
    intros CT RG NN RT L1 W R. assert (N : xyz t <> []) by (destruct (xyz t); [discriminate|discriminate]).
    destruct (read_exact ops qops T TC QC C loc counted t CT N RG NN) as (text' & u' & W' & R' & _ & _ & _ & _ & _ & _ & _ & _ & _ & _ & RD).
    rewrite W in W'. injection W' as <-.
    assert (FT : h_fields (written_header t) = split_on "," "t,l,px,py,pz,qx,qy,qz,qw,vx,vy,vz").
    { unfold written_header, fields_text. rewrite RT. reflexivity. }
    assert (NF : get_rot_matrix (h_nframe (written_header t)) = Ok mident) by (rewrite <- enu_ident; reflexivity).
    destruct (C154_rotations _ ops qops T C loc counted text u (written_header t) _ _ R RD) as (A & _ & _).
    rewrite FT in A. destruct A as (m & rs & M & RU & LR & A).
    { intros x I. repeat (destruct I as [<-|I]; [vm_compute; tauto|]). destruct I. }
    rewrite NF in M. injection M as <-.
    pose proof CT as [E1 [_ [E3 E4]]]. rewrite L1 in *.
    assert (ROW : exists a l p v, table_rows qops t = [[a; l] ++ v3_values p ++ quat_values (as_quat qops q) ++ v3_values v]%list).
    { unfold table_rows. rewrite RT. destruct (tstamps t) as [|a [|]]; try discriminate. destruct (arc t) as [|l [|]]; try discriminate.
      destruct (xyz t) as [|p [|]]; try discriminate. destruct (speed t) as [|v [|]]; try discriminate. exists a, l, p, v. reflexivity. }
    destruct ROW as (a & l & p & v & ROW). rewrite ROW in *. cbn [map length] in LR.
    destruct rs as [|r [|]]; try discriminate. exists r. split; [exact RU|].
    destruct (A 0%nat r eq_refl) as (w & r0 & FQ & -> & X & Y & Z & O).
    rewrite (qc_ident _ _ QC).
    assert (HV : forall f j x y, holds T (split_on "," "t,l,px,py,pz,qx,qy,qz,qw,vx,vy,vz")
        (map (shown T) [[a; l] ++ v3_values p ++ quat_values (as_quat qops q) ++ v3_values v]%list) f 0 x ->
      first_named (split_on "," "t,l,px,py,pz,qx,qy,qz,qw,vx,vy,vz") f j ->
      nth_error ([a; l] ++ v3_values p ++ quat_values (as_quat qops q) ++ v3_values v)%list j = Some y -> x = rd T y).
    { intros f j x y (j' & row & s & F & RW & CE & NU) F' YY. set (cells := ([a; l] ++ v3_values p ++ quat_values (as_quat qops q) ++ v3_values v)%list) in *. clearbody cells.
      cbn [map nth_error] in RW. injection RW as <-.
      assert (j' = j).
      { destruct F as [F1 F2], F' as [G1 G2]. destruct (lt_eq_lt_dec j j') as [[LT|EQ]|LT]; [exfalso; apply (F2 j LT G1)|congruence|exfalso; apply (G2 j' LT F1)]. }
      subst j'. unfold shown in CE. rewrite nth_error_map', YY in CE. injection CE as <-. unfold rd. now rewrite NU. }
    assert (EW : w = rd4 (as_quat qops q)).
    { destruct w as [wx wy wz ww]. unfold rd4. cbn [q_x q_y q_z q_w] in *.
      rewrite <- (HV "qx" 5%nat _ _ X ltac:(split; [reflexivity|intros i I; destruct i as [|[|[|[|[|]]]]]; try discriminate; lia]) eq_refl).
      rewrite <- (HV "qy" 6%nat _ _ Y ltac:(split; [reflexivity|intros i I; destruct i as [|[|[|[|[|[|]]]]]]; try discriminate; lia]) eq_refl).
      rewrite <- (HV "qz" 7%nat _ _ Z ltac:(split; [reflexivity|intros i I; destruct i as [|[|[|[|[|[|[|]]]]]]]; try discriminate; lia]) eq_refl).
      rewrite <- (HV "qw" 8%nat _ _ O ltac:(split; [reflexivity|intros i I; destruct i as [|[|[|[|[|[|[|[|]]]]]]]]; try discriminate; lia]) eq_refl).
      reflexivity. }
    rewrite <- EW. destruct (Req_EM_T (qnorm w) 0) as [Z0|Z0]; [rewrite (qc_zero _ _ QC) in FQ by exact Z0; discriminate|].
    destruct (qc_from _ _ QC w Z0) as (r1 & F1 & AQ). congruence.
  Qed.
End Pose.
