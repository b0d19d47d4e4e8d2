(** Round trip of trajectory files; navigation frames. *)
From Verif Require Import Base BaseFacts EstModel TextModel TextFacts HeaderModel NumpyModel TrajModel TrajSpec GeomModel GeomSpec IoModel IoSpec HeaderFacts IoFacts IoFacts2.
Local Open Scope string_scope.
Local Arguments Ascii.eqb : simpl never.
Local Opaque newline return_char.

Lemma forall2_combine {A B C D} (P : A -> B -> Prop) (S : C -> D -> Prop) l l' m m' :
  Forall2 P l l' -> Forall2 S m m' -> Forall2 (fun x y => P (fst x) (fst y) /\ S (snd x) (snd y)) (combine l m) (combine l' m').
Proof.
  intro F. revert m m'. induction F as [|a b l l' H F IH]; intros m m' G; [constructor|].
  destruct G as [|c d m m' K G]; constructor; [split; assumption|apply IH; exact G].
Qed.

Section RoundTrip.
  Context {Q : Type} (ops : rot_ops Q) (qops : quat_ops Q).

  Definition near_rot (a b : option Q) : Prop :=
    match a, b with
    | None, None => True
    | Some q, Some r => near_quat (as_quat qops q) (as_quat qops r)
    | _, _ => False
    end.

  Lemma near_poses (t t' : traj Q) :
    Forall2 near (tstamps t) (tstamps t') -> Forall2 near_v3 (xyz t) (xyz t') -> Forall2 near_rot (rots_of t) (rots_of t') ->
    Forall2 near (arc t) (arc t') -> Forall2 near_v3 (speed t) (speed t') ->
    Forall2 (near_pose qops) (poses t) (poses t').
  Proof.
    intros A B C D E. unfold poses.
    pose proof (forall2_combine _ _ _ _ _ _ (forall2_combine _ _ _ _ _ _ (forall2_combine _ _ _ _ _ _ (forall2_combine _ _ _ _ _ _ A B) C) D) E) as F.
    induction F as [|x y l l' H F IH]; [constructor|]. cbn [map]. constructor; [|exact IH].
    destruct x as [[[[a b] c] d] e], y as [[[[a' b'] c'] d'] e']. cbn in H. destruct H as [[[[H1 H2] H3] H4] H5].
    unfold near_pose. cbn [p_t p_xyz p_rot p_arc p_speed]. repeat split; try assumption; try apply H2; try apply H5.
  Qed.

  Context (T : text_ops) (TC : text_contract T).
  Lemma near_map l : Forall2 near l (map (rd T) l).
  Proof. induction l; constructor; [apply rd_near; exact TC|assumption]. Qed.
  Lemma near_map3 l : Forall2 near_v3 l (map (rd3 T) l).
  Proof. induction l; constructor; [repeat split; apply rd_near; exact TC|assumption]. Qed.

  (** The trajectory that stands for the contents of two written trajectories *)
  Definition concat_traj (a b : traj Q) : traj Q :=
    mkTraj (tstamps a ++ tstamps b)%list (xyz a ++ xyz b)%list
      (match rot a, rot b with Some p, Some q => Some (p ++ q)%list | _, _ => None end)
      (arc a ++ arc b)%list (speed a ++ speed b)%list (srt b) (name b) (epsg b).
  Definition same_kind (a b : traj Q) : Prop := rot a = None <-> rot b = None.

  Lemma combine_app {A B} (l l' : list A) (m m' : list B) : length l = length m ->
    combine (l ++ l') (m ++ m') = (combine l m ++ combine l' m')%list.
  Proof. revert m. induction l as [|a l IH]; intros [|b m]; cbn; try discriminate; [reflexivity|]. intro H. rewrite IH by lia. reflexivity. Qed.

  Lemma rots_of_length (t : traj Q) : consistent t -> length (rots_of t) = length (xyz t).
  Proof. intros [_ [B _]]. unfold rots_of. destruct (rot t); rewrite map_length; [exact B|reflexivity]. Qed.

  Lemma concat_consistent a b : consistent a -> consistent b -> same_kind a b -> consistent (concat_traj a b).
  Proof.
    intros [A1 [A2 [A3 A4]]] [B1 [B2 [B3 B4]]] K. unfold consistent, concat_traj. cbn [tstamps xyz rot arc speed].
    rewrite !app_length. repeat split; try congruence.
    destruct (rot a), (rot b); try exact I. rewrite app_length. congruence.
  Qed.

  Lemma poses_concat a b : consistent a -> same_kind a b -> poses (concat_traj a b) = (poses a ++ poses b)%list.
  Proof.
    intros CA K. pose proof (rots_of_length a CA) as LR. destruct CA as [A1 [A2 [A3 A4]]].
    unfold poses. rewrite <- map_app. f_equal.
    assert (rots_of (concat_traj a b) = (rots_of a ++ rots_of b)%list) as ->.
    { unfold rots_of, concat_traj. cbn [rot xyz]. unfold same_kind in K.
      destruct (rot a) as [p|], (rot b) as [q|]; try apply map_app.
      - destruct K as [_ K]. specialize (K eq_refl). discriminate.
      - destruct K as [K _]. specialize (K eq_refl). discriminate. }
    unfold concat_traj. cbn [tstamps xyz arc speed].
    assert (length (combine (tstamps a) (xyz a)) = length (xyz a)) as L1 by (rewrite combine_length; lia).
    assert (length (combine (combine (tstamps a) (xyz a)) (rots_of a)) = length (xyz a)) as L2 by (rewrite combine_length; lia).
    assert (length (combine (combine (combine (tstamps a) (xyz a)) (rots_of a)) (arc a)) = length (xyz a)) as L3 by (rewrite combine_length; lia).
    rewrite (combine_app (tstamps a)) by congruence.
    rewrite (combine_app (combine (tstamps a) (xyz a))) by congruence.
    rewrite (combine_app (combine (combine (tstamps a) (xyz a)) (rots_of a))) by congruence.
    rewrite (combine_app (combine (combine (combine (tstamps a) (xyz a)) (rots_of a)) (arc a))) by congruence. reflexivity.
  Qed.

  Lemma rows_of_app ts al ps qs vs ts' al' ps' qs' vs' : eqlen ts al ps qs vs ->
    rows_of (ts ++ ts')%list (al ++ al')%list (ps ++ ps')%list (qs ++ qs')%list (vs ++ vs')%list = (rows_of ts al ps qs vs ++ rows_of ts' al' ps' qs' vs')%list.
  Proof.
    revert al ps qs vs. induction ts as [|t ts IH]; intros [|a al] [|p ps] [|q qs] [|v vs]; cbn [eqlen]; try contradiction.
    - reflexivity.
    - intro E. cbn [app rows_of]. rewrite IH by exact E. reflexivity.
  Qed.

  Lemma table_rows_concat a b : consistent a -> same_kind a b ->
    table_rows qops (concat_traj a b) = (table_rows qops a ++ table_rows qops b)%list.
  Proof.
    intros [A1 [A2 [A3 A4]]] K. unfold table_rows, concat_traj. cbn [tstamps xyz rot arc speed]. unfold same_kind in K.
    destruct (rot a) as [p|], (rot b) as [q|].
    - rewrite map_app. apply rows_of_app. apply eqlen_of with (length (xyz a)); try congruence. rewrite map_length. exact A2.
    - destruct K as [_ K]. specialize (K eq_refl). discriminate.
    - destruct K as [K _]. specialize (K eq_refl). discriminate.
    - rewrite map_app. apply rows_of_app. apply eqlen_of with (length (xyz a)); try congruence. rewrite map_length. reflexivity.
  Qed.

  Definition width (t : traj Q) : nat := match rot t with None => 8 | Some _ => 12 end.
  Lemma table_rows_width t : Forall (fun r => length r = width t) (table_rows qops t).
  Proof.
    unfold table_rows, width. destruct (rot t) as [q|].
    - apply (rows_of_length 4). apply Forall_forall. intros x I. apply in_map_iff in I as [y [<- _]]. reflexivity.
    - apply (rows_of_length 0). apply Forall_forall. intros x I. apply in_map_iff in I as [y [<- _]]. reflexivity.
  Qed.
  Lemma table_rows_nonempty t r : In r (table_rows qops t) -> r <> [].
  Proof.
    intros I ->. pose proof (table_rows_width t) as F. rewrite Forall_forall in F. specialize (F [] I).
    unfold width in F. cbn in F. destruct (rot t); discriminate.
  Qed.
  Lemma table_rows_some t : consistent t -> xyz t <> [] -> table_rows qops t <> [].
  Proof.
    intros [A1 [A2 [A3 A4]]] N. unfold table_rows.
    destruct (xyz t) as [|p ps]; [congruence|]. cbn in *.
    destruct (tstamps t) as [|x xs]; [discriminate|]. destruct (arc t) as [|y ys]; [discriminate|].
    destruct (speed t) as [|v vs]; [discriminate|].
    destruct (rot t) as [[|q qs]|]; cbn; try discriminate.
  Qed.

  Context (QC : quat_contract ops qops).

  (** Reading the rows of [c] under a header that announces them *)
  Lemma read_rows C loc counted h (c : traj Q) : consistent c -> std_header h (fields_text c) ->
    exists t', from_read ops qops T C loc counted (Ok (h, Table (width c) (map (shown T) (table_rows qops c)))) = Ok (Some t') /\
      Forall2 (near_pose qops) (poses c) (poses t') /\ consistent t' /\ (rot t' = None <-> rot c = None) /\
      srt t' = SortTime /\ name t' = read_name counted h /\ epsg t' = h_epsg h.
  Proof.
    intros CC H. pose proof CC as [A1 [A2 [A3 A4]]]. unfold width, table_rows, fields_text in *. destruct (rot c) as [qs|] eqn:E.
    - destruct (read_quats ops qops QC T TC C loc counted h (tstamps c) (arc c) (xyz c) qs (speed c) _ H A1 A3 eq_refl A2 A4) as [qs' [R F]].
      eexists. split; [exact R|]. cbn [srt name epsg rot]. split; [|split; [|repeat split; try reflexivity; discriminate]].
      + apply near_poses; cbn [tstamps xyz arc speed]; try apply near_map; try apply near_map3.
        unfold rots_of. rewrite E. cbn [rot]. clear -F. induction F; constructor; assumption.
      + unfold consistent. cbn [tstamps xyz rot arc speed]. rewrite !map_length, <- (forall2_length _ _ _ F). repeat split; assumption.
    - rewrite (read_plain ops qops T TC C loc counted h _ _ _ _ _ H A1 A3 eq_refl A4).
      eexists. split; [reflexivity|]. cbn [srt name epsg rot]. split; [|split; [unfold consistent; cbn [tstamps xyz rot arc speed]; rewrite !map_length; repeat split; assumption|repeat split; reflexivity]].
      apply near_poses; cbn [tstamps xyz arc speed]; try apply near_map; try apply near_map3.
      unfold rots_of. rewrite E. cbn [rot xyz]. clear. induction (xyz c) as [|x l IH]; [constructor|]. cbn [map]. constructor; [exact I|exact IH].
  Qed.

  Lemma written_std (t : traj Q) h : std_header (written_header t ++ h)%list (fields_text t) \/ get h "time_format" <> None \/ get h "time_offset" <> None.
  Proof.
    destruct (get h "time_format") as [v|] eqn:E1; [right; left; discriminate|].
    destruct (get h "time_offset") as [v|] eqn:E2; [right; right; discriminate|]. left.
    unfold std_header, h_fields, h_nframe, h_time_format, h_time_offset, get_str, written_header. cbn [app].
    rewrite !get_cons. cbn [String.eqb]. rewrite E1, E2. repeat split; reflexivity.
  Qed.

  Lemma header_of_file ls : Forall one_line ls -> header_from_file T (lines_text ls) = handle_lines T [] ls.
  Proof. intro F. unfold header_from_file. rewrite lines_of_text by exact F. reflexivity. Qed.

  Lemma read_data_lines ls h rows n : Forall one_line ls -> handle_lines T [] ls = Ok h -> h_delimiter h = "," ->
    filter nonblank (map uncomment ls) = map (row_line T) rows -> rows <> [] -> (1 < n)%nat -> Forall (fun r => length r = n) rows ->
    read_data T (lines_text ls) = Ok (h, Table n (map (shown T) rows)).
  Proof.
    intros O H D F N P W. unfold read_data. rewrite header_of_file, H by exact O. cbn [bind]. rewrite D.
    rewrite (read_csv_lines T TC ls rows n O F N ltac:(lia) W). cbn [columns_of].
    destruct (Nat.eqb_spec n 1); [lia|]. reflexivity.
  Qed.

  Lemma width_gt (t : traj Q) : (1 < width t)%nat.
  Proof. unfold width. destruct (rot t); lia. Qed.

  Theorem file_round_trip C loc counted (t : traj Q) : consistent t -> xyz t <> [] -> one_line (name t) ->
    exists text t', to_file qops T "" t = Ok text /\ from_file ops qops T C loc counted text = Ok (Some t') /\
      Forall2 (near_pose qops) (poses t) (poses t') /\ consistent t' /\ (rot t' = None <-> rot t = None) /\
      srt t' = SortTime /\ epsg t' = epsg t /\
      name t' = (if String.eqb (join " " (words (name t))) "" then counted else join " " (words (name t))).
  Proof.
    intros CT N O. exists (lines_text (written_lines qops T t)).
    pose proof (written_one_line qops T TC t O) as WO.
    pose proof (header_handled qops T TC [] t) as HH. rewrite app_nil_r in HH.
    assert (std_header (written_header t) (fields_text t)) as SH.
    { destruct (written_std t []) as [W|[W|W]]; [rewrite app_nil_r in W; exact W|exfalso; apply W; reflexivity|exfalso; apply W; reflexivity]. }
    destruct (read_rows C loc counted (written_header t) t CT SH) as [t' [R [F [CT' [K [S [NM EP]]]]]]].
    exists t'. split; [apply (to_file_lines qops T ""); apply consistent_same_lengths; exact CT|]. split.
    - unfold from_file. rewrite (read_data_lines _ (written_header t) (table_rows qops t) (width t) WO HH); [exact R|reflexivity|..].
      + apply (data_of_written qops T TC). intros r I. apply table_rows_nonempty with t. exact I.
      + apply table_rows_some; assumption.
      + apply width_gt.
      + apply table_rows_width.
    - repeat split; try assumption; try apply K; try apply CT'.
  Qed.

  (** Appending a second trajectory to a file *)
  Theorem file_append C loc counted (a b : traj Q) : consistent a -> consistent b -> same_kind a b -> (xyz a <> [] \/ xyz b <> []) ->
    one_line (name a) -> one_line (name b) ->
    exists text1 text2 t', to_file qops T "" a = Ok text1 /\ to_file qops T text1 b = Ok text2 /\
      from_file ops qops T C loc counted text2 = Ok (Some t') /\
      Forall2 (near_pose qops) (poses a ++ poses b) (poses t') /\ (rot t' = None <-> rot b = None) /\ epsg t' = epsg b /\
      name t' = (if String.eqb (join " " (words (name b))) "" then counted else join " " (words (name b))).
  Proof.
    intros CA CB K N OA OB.
    pose proof (written_one_line qops T TC a OA) as WA. pose proof (written_one_line qops T TC b OB) as WB.
    assert (Forall one_line (written_lines qops T a ++ written_lines qops T b)%list) as WO by (apply Forall_app; split; assumption).
    set (h := (written_header b ++ written_header a)%list).
    assert (handle_lines T [] (written_lines qops T a ++ written_lines qops T b)%list = Ok h) as HH.
    { rewrite handle_lines_app, (header_handled qops T TC). cbn [bind]. rewrite app_nil_r. apply (header_handled qops T TC). }
    assert (fields_text b = fields_text (concat_traj a b)) as FT.
    { unfold fields_text, concat_traj. cbn [rot]. unfold same_kind in K. destruct (rot a), (rot b); try reflexivity.
      destruct K as [K _]. specialize (K eq_refl). discriminate. }
    assert (std_header h (fields_text (concat_traj a b))) as SH.
    { rewrite <- FT. destruct (written_std b (written_header a)) as [W|[W|W]]; [exact W|exfalso; apply W; reflexivity|exfalso; apply W; reflexivity]. }
    assert (consistent (concat_traj a b)) as CC by (apply concat_consistent; assumption).
    destruct (read_rows C loc counted h (concat_traj a b) CC SH) as [t' [R [F [CT' [K' [S [NM EP]]]]]]].
    exists (lines_text (written_lines qops T a)), (lines_text (written_lines qops T a) ++ lines_text (written_lines qops T b)), t'.
    split; [apply (to_file_lines qops T ""); apply consistent_same_lengths; exact CA|].
    split; [apply to_file_lines; apply consistent_same_lengths; exact CB|].
    rewrite <- lines_text_app. split.
    - unfold from_file. rewrite (read_data_lines _ h (table_rows qops (concat_traj a b)) (width (concat_traj a b)) WO HH); [exact R|reflexivity|..].
      + rewrite map_app, filter_app, !(data_of_written qops T TC) by (intros r I; eapply table_rows_nonempty; exact I).
        rewrite table_rows_concat, map_app by assumption. reflexivity.
      + apply table_rows_some; [exact CC|]. unfold concat_traj. cbn [xyz]. intro E. apply app_eq_nil in E as [E1 E2]. tauto.
      + apply width_gt.
      + apply table_rows_width.
    - rewrite <- poses_concat by assumption. split; [exact F|]. split; [|split; [exact EP|exact NM]].
      rewrite K'. unfold concat_traj. cbn [rot]. unfold same_kind in K.
      destruct (rot a), (rot b); [split; discriminate|exfalso; destruct K as [_ K]; specialize (K eq_refl); discriminate
        |exfalso; destruct K as [K _]; specialize (K eq_refl); discriminate|tauto].
  Qed.

  (** A trajectory without poses cannot be read back. *)
  Theorem file_empty C loc counted (t : traj Q) : consistent t -> xyz t = [] -> one_line (name t) ->
    exists text, to_file qops T "" t = Ok text /\ from_file ops qops T C loc counted text = Err IndexError.
  Proof.
    intros CT N O. exists (lines_text (written_lines qops T t)).
    split; [apply (to_file_lines qops T ""); apply consistent_same_lengths; exact CT|].
    pose proof (written_one_line qops T TC t O) as WO.
    pose proof (header_handled qops T TC [] t) as HH. rewrite app_nil_r in HH.
    assert (table_rows qops t = []) as TR.
    { destruct CT as [A1 _]. rewrite N in A1. unfold table_rows. destruct (tstamps t); [reflexivity|discriminate]. }
    assert (data_lines (lines_text (written_lines qops T t)) = []) as DL.
    { rewrite data_lines_lines by exact WO. rewrite (data_of_written qops T TC), TR; [reflexivity|].
      intros r I. eapply table_rows_nonempty. exact I. }
    unfold from_file, read_data. rewrite header_of_file, HH by exact WO. cbn [bind].
    unfold read_csv, read_whitespace, loadtxt. rewrite DL. cbn [map make_table bind]. unfold from_read. cbn [bind].
    destruct (written_std t []) as [W|[W|W]]; [rewrite app_nil_r in W|exfalso; apply W; reflexivity|exfalso; apply W; reflexivity].
    destruct W as [HF [HN [HT HO]]]. unfold extract_timestamps. rewrite HT. cbn [bind]. rewrite HF.
    unfold fields_text. destruct (rot t).
    - replace (length (time_columns (split_on "," "t,l,px,py,pz,qx,qy,qz,qw,vx,vy,vz")) =? 1)%nat with true by (vm_compute; reflexivity).
      replace (index_of "t" (split_on "," "t,l,px,py,pz,qx,qy,qz,qw,vx,vy,vz")) with (Ok 0%nat) by (vm_compute; reflexivity). reflexivity.
    - replace (length (time_columns (split_on "," "t,l,px,py,pz,vx,vy,vz")) =? 1)%nat with true by (vm_compute; reflexivity).
      replace (index_of "t" (split_on "," "t,l,px,py,pz,vx,vy,vz")) with (Ok 0%nat) by (vm_compute; reflexivity). reflexivity.
  Qed.
End RoundTrip.

(** ** Navigation frames *)

Lemma has_char_length3 a b c : forall ch, has_char ch (String a (String b (String c ""))) = true <-> ch = a \/ ch = b \/ ch = c.
Proof.
  intro ch. cbn. rewrite !orb_true_iff, !Ascii.eqb_eq. intuition (congruence || auto).
Qed.

Lemma lower_length s : String.length (lower s) = String.length s.
Proof. induction s; cbn; congruence. Qed.
Lemma replace_length a b s : String.length (replace_char a b s) = String.length s.
Proof. induction s; cbn; congruence. Qed.
Lemma set_entry_ok m i j v : (i < 3)%nat -> (j < 3)%nat -> exists m', set_entry m i j v = Ok m'.
Proof. intros I J. destruct i as [|[|[|i]]]; try lia; destruct j as [|[|[|j]]]; try lia; eexists; reflexivity. Qed.
Lemma set_entry_out m i j v : (3 <= i)%nat -> set_entry m i j v = Err IndexError.
Proof. intro I. destruct i as [|[|[|i]]]; try lia. reflexivity. Qed.
Lemma enu_find_lt c : (enu_find c < 3)%nat.
Proof. unfold enu_find. destruct (Ascii.eqb c "e"); [lia|]. destruct (Ascii.eqb c "n"); lia. Qed.

Lemma fill_rows_long b s : forall m i, (i <= 3)%nat -> (3 < i + String.length s)%nat -> fill_rows b m i s = Err IndexError.
Proof.
  induction s as [|c s IH]; intros m i I L; cbn in L; [lia|]. cbn [fill_rows].
  destruct (Nat.eq_dec i 3) as [->|N]; [reflexivity|].
  destruct (set_entry_ok m i (enu_find c) (if (Ascii.eqb c "u" && b)%bool then -1 else 1)) as [m' E]; [lia|apply enu_find_lt|].
  rewrite E. cbn [bind]. apply IH; lia.
Qed.

Lemma has_char_single ch a : has_char ch (String a "") = true -> ch = a.
Proof. cbn. rewrite orb_false_r. apply Ascii.eqb_eq. Qed.

(** Exactly the twelve names are accepted. *)
Lemma frame_letters a b c :
  has_char "e" (String a (String b (String c ""))) = true -> has_char "n" (String a (String b (String c ""))) = true ->
  (has_char "u" (String a (String b (String c ""))) = true \/ has_char "d" (String a (String b (String c ""))) = true) ->
  In (String a (String b (String c ""))) frame_names.
Proof.
  rewrite !has_char_length3. intros E N U.
  destruct E as [<- | [<- | <-]]; destruct N as [N | [N | N]]; try discriminate; subst;
    destruct U as [[U | [U | U]] | [U | [U | U]]]; try discriminate; subst; cbn; tauto.
Qed.

Lemma frame_accepted s : (exists m, get_rot_matrix s = Ok m) <-> In (lower s) frame_names.
Proof.
  split.
  - intros [m H]. unfold get_rot_matrix in H.
    destruct (has_char "e" (lower s)) eqn:E; cbn in H; [|discriminate].
    destruct (has_char "n" (lower s)) eqn:N; cbn in H; [|discriminate].
    assert (has_char "u" (lower s) = true \/ has_char "d" (lower s) = true) as U.
    { destruct (has_char "u" (lower s)); [left; reflexivity|]. destruct (has_char "d" (lower s)); [right; reflexivity|]. discriminate. }
    assert (fill_rows (has_char "d" (lower s)) mzero 0 (replace_char "d" "u" (lower s)) = Ok m) as H'.
    { destruct U as [U|U]; rewrite U in H; cbn in H; rewrite ?andb_false_r in H; cbn in H; rewrite ?U; exact H. }
    destruct (le_lt_dec (String.length (lower s)) 3) as [L|L].
    2:{ rewrite fill_rows_long in H'; [discriminate|lia|rewrite replace_length; lia]. }
    destruct (lower s) as [|a [|b [|c [|d r]]]] eqn:LS; [discriminate| | | |cbn in L; lia].
    + apply has_char_single in E, N. congruence.
    + exfalso. cbn in E, N. rewrite !orb_true_iff, !Ascii.eqb_eq in E, N.
      assert (forall ch, has_char ch (String a (String b "")) = true -> ch = a \/ ch = b) as HC.
      { intros ch X. cbn in X. rewrite !orb_true_iff, !Ascii.eqb_eq in X. intuition discriminate. }
      assert ("u"%char = a \/ "u"%char = b \/ "d"%char = a \/ "d"%char = b) as UU by (destruct U as [U|U]; apply HC in U; tauto).
      destruct E as [E|[E|E]]; destruct N as [N|[N|N]]; destruct UU as [U1|[U1|[U1|U1]]]; congruence.
    + apply frame_letters; assumption.
  - intro I. unfold get_rot_matrix. destruct (lower s) as [|a r]; [cbn in I; intuition discriminate|].
    cbn in I. repeat destruct I as [I|I]; try contradiction; rewrite <- I; cbn; eexists; reflexivity.
Qed.
