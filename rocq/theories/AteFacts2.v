(** Proofs about the files of absolute comparison results: writing and reading. *)
From Verif Require Import Base BaseFacts EstModel TextModel TextFacts HeaderModel NumpyModel TrajModel TrajSpec TrajFacts2 GeomModel GeomSpec IoModel IoSpec HeaderFacts IoFacts IoFacts2 EvalModel RpeModel RpeSpec RpeFacts AteModel AteSpec AteFacts.
Local Open Scope string_scope.

Definition inside (k w : nat) (m rows : list (list R)) : Prop := forall j, (j < w)%nat -> col (k + j) rows = col j m.
Lemma inside_self w m : inside 0 w m m.
Proof. intros j _. reflexivity. Qed.
Lemma inside_left k w v m a b : length a = length b -> wide v a -> (k + w <= v)%nat -> inside k w m a -> inside k w m (beside a b).
Proof. intros L W K I j J. rewrite (col_left (k + j) v a b L W) by lia. apply I, J. Qed.
Lemma inside_right k w v m a b : length a = length b -> wide v a -> inside k w m b -> inside (v + k) w m (beside a b).
Proof. intros L W I j J. rewrite <- Nat.add_assoc, (col_right (k + j) v a b L W). apply I, J. Qed.

Definition head_names : list string := ["time"; "arc_lengths"; "pos_x"; "pos_y"; "pos_z"].
Definition names2 (a b : bool) : list string :=
  (head_names ++ (if a then ["rot_x"; "rot_y"; "rot_z"; "rot_w"] else []) ++
   ["pos_dev_x"; "pos_dev_y"; "pos_dev_z"; "pos_dev_along"; "pos_dev_cross_h"; "pos_dev_cross_v"] ++
   (if b then ["rot_dev_x"; "rot_dev_y"; "rot_dev_z"; "rot_dev_w"] else []))%list.
Definition off (a : bool) : nat := if a then 9%nat else 5%nat.

Lemma names2_good a b : good_names (names2 a b).
Proof. destruct a, b; repeat split; reflexivity. Qed.
Lemma names2_some a b : names2 a b <> [].
Proof. discriminate. Qed.

Section Write.
  Context {Q : Type} (qops : quat_ops Q).
  Implicit Types r : ate_result Q.

  Definition base_rows (t : traj Q) : list (list R) := beside (beside (as_column (tstamps t)) (as_column (arc t))) (map v3_values (xyz t)).
  Definition left_rows (t : traj Q) : list (list R) := match rot t with Some q => beside (base_rows t) (quat_rows qops q) | None => base_rows t end.
  Definition dev_rows r : list (list R) := beside (map v3_values (pos_dev r)) (map v3_values (directed_pos_dev r)).
  Definition right_rows r : list (list R) := match rot_dev r with Some q => beside (dev_rows r) (quat_rows qops q) | None => dev_rows r end.
  Definition all_rows r : list (list R) := beside (left_rows (ate_trajectory r)) (right_rows r).

  Context (r : ate_result Q) (CR : complete r) (NE : xyz (ate_trajectory r) <> []).
  Notation t := (ate_trajectory r).
  Notation n := (length (xyz (ate_trajectory r))).

  Lemma orientation_is : has_orientation t = has_quats (rot t).
  Proof.
    destruct CR as ((_ & H & _) & _). unfold has_orientation, has_quats. destruct (rot t) as [q|]; [|reflexivity].
    rewrite H. destruct (xyz t); [congruence|reflexivity].
  Qed.
  Lemma columns_names : ate_columns r = names2 (has_quats (rot t)) (has_quats (rot_dev r)).
  Proof. unfold ate_columns. rewrite orientation_is. reflexivity. Qed.

  Lemma len_pair : length (as_column (tstamps t)) = length (as_column (arc t)).
  Proof. destruct CR as ((A & _ & B & _) & _). unfold as_column. rewrite !map_length. congruence. Qed.
  Lemma len_ts : length (as_column (tstamps t)) = n.
  Proof. destruct CR as ((A & _) & _). unfold as_column. rewrite map_length. exact A. Qed.
  Lemma len_beside_ts : length (beside (as_column (tstamps t)) (as_column (arc t))) = n.
  Proof. rewrite beside_length by exact len_pair. apply len_ts. Qed.
  Lemma len_base : length (base_rows t) = n.
  Proof. unfold base_rows. rewrite beside_length; [exact len_beside_ts|]. rewrite map_length. exact len_beside_ts. Qed.
  Lemma len_quats q : length q = n -> length (quat_rows qops q) = n.
  Proof. intro L. unfold quat_rows. rewrite map_length. exact L. Qed.
  Lemma len_left : length (left_rows t) = n.
  Proof.
    pose proof len_base as B. destruct CR as ((_ & H & _) & _). unfold left_rows. destruct (rot t) as [q|]; [|exact B].
    rewrite beside_length; [exact B|]. rewrite B. symmetry. apply len_quats, H.
  Qed.
  Lemma len_dev : length (dev_rows r) = n.
  Proof. destruct CR as (_ & A & B & _). unfold dev_rows. rewrite beside_length; rewrite !map_length; congruence. Qed.
  Lemma len_right : length (right_rows r) = n.
  Proof.
    pose proof len_dev as B. destruct CR as (_ & _ & _ & H). unfold right_rows. destruct (rot_dev r) as [q|]; [|exact B].
    rewrite beside_length; [exact B|]. rewrite B. symmetry. apply len_quats, H.
  Qed.

  Lemma rows_written : ate_rows qops r = Ok (all_rows r).
  Proof.
    unfold ate_rows. rewrite np_c_beside by exact len_pair. cbn [bind].
    rewrite np_c_beside by (rewrite map_length; exact len_beside_ts). cbn [bind]. fold (base_rows t). rewrite orientation_is.
    pose proof len_base as LB. pose proof len_left as LL. pose proof len_right as LR. pose proof len_dev as LD.
    destruct CR as ((_ & HR & _) & A & B & HD).
    assert ((if has_quats (rot t) then match rot t with Some q => np_c (base_rows t) (quat_rows qops q) | None => Err AttributeError end else Ok (base_rows t)) = Ok (left_rows t)) as ->.
    { unfold left_rows. destruct (rot t) as [q|]; [|reflexivity]. cbn [has_quats]. apply np_c_beside. rewrite LB. symmetry. apply len_quats, HR. }
    cbn [bind]. rewrite np_c_beside by (rewrite !map_length; congruence). cbn [bind]. fold (dev_rows r).
    assert (match rot_dev r with Some q => np_c (dev_rows r) (quat_rows qops q) | None => Ok (dev_rows r) end = Ok (right_rows r)) as ->.
    { unfold right_rows. destruct (rot_dev r) as [q|]; [|reflexivity]. apply np_c_beside. rewrite LD. symmetry. apply len_quats, HD. }
    cbn [bind]. apply np_c_beside. congruence.
  Qed.

  Lemma wide_base : wide 5 (base_rows t).
  Proof. apply (wide_beside 2 3); [apply (wide_beside 1 1); apply wide_column|apply wide_v3]. Qed.
  Lemma wide_left : wide (off (has_quats (rot t))) (left_rows t).
  Proof.
    unfold left_rows. destruct (rot t) as [q|]; cbn [has_quats off]; [apply (wide_beside 5 4)|]; try apply wide_base. apply wide_quats.
  Qed.
  Lemma wide_dev : wide 6 (dev_rows r).
  Proof. apply (wide_beside 3 3); apply wide_v3. Qed.
  Lemma wide_right : wide (if has_quats (rot_dev r) then 10 else 6)%nat (right_rows r).
  Proof. unfold right_rows. destruct (rot_dev r) as [q|]; cbn [has_quats]; [apply (wide_beside 6 4)|]; try apply wide_dev. apply wide_quats. Qed.
  Lemma wide_all : wide (length (names2 (has_quats (rot t)) (has_quats (rot_dev r)))) (all_rows r).
  Proof.
    replace (length _) with (off (has_quats (rot t)) + (if has_quats (rot_dev r) then 10 else 6))%nat by (destruct (has_quats (rot t)), (has_quats (rot_dev r)); reflexivity).
    apply wide_beside; [apply wide_left|apply wide_right].
  Qed.
  Lemma len_lr : length (left_rows t) = length (right_rows r).
  Proof. rewrite len_left, len_right. reflexivity. Qed.

  Lemma base_left k w m : (k + w <= 5)%nat -> inside k w m (base_rows t) -> inside k w m (all_rows r).
  Proof.
    intros K I. apply (inside_left k w _ m _ _ len_lr wide_left); [destruct (has_quats (rot t)); cbn [off]; lia|].
    unfold left_rows. destruct (rot t) as [q|] eqn:E; [|exact I]. apply (inside_left k w 5); try assumption; [|apply wide_base].
    rewrite len_base. symmetry. apply len_quats. destruct CR as ((_ & H & _) & _). rewrite E in H. exact H.
  Qed.
  Lemma in_ts : inside 0 1 (as_column (tstamps t)) (all_rows r).
  Proof.
    apply base_left; [lia|]. apply (inside_left 0 1 2); [rewrite map_length; exact len_beside_ts|apply (wide_beside 1 1); apply wide_column|lia|].
    apply (inside_left 0 1 1); [exact len_pair|apply wide_column|lia|apply inside_self].
  Qed.
  Lemma in_arc : inside 1 1 (as_column (arc t)) (all_rows r).
  Proof.
    apply base_left; [lia|]. apply (inside_left 1 1 2); [rewrite map_length; exact len_beside_ts|apply (wide_beside 1 1); apply wide_column|lia|].
    apply (inside_right 0 1 1); [exact len_pair|apply wide_column|apply inside_self].
  Qed.
  Lemma in_xyz : inside 2 3 (map v3_values (xyz t)) (all_rows r).
  Proof.
    apply base_left; [lia|]. apply (inside_right 0 3 2); [rewrite map_length; exact len_beside_ts|apply (wide_beside 1 1); apply wide_column|apply inside_self].
  Qed.
  Lemma in_rot q : rot t = Some q -> inside 5 4 (quat_rows qops q) (all_rows r).
  Proof.
    intro E. apply (inside_left 5 4 _ _ _ _ len_lr wide_left); [rewrite E; cbn; lia|]. unfold left_rows. rewrite E.
    apply (inside_right 0 4 5); [|apply wide_base|apply inside_self]. rewrite len_base. symmetry. apply len_quats. destruct CR as ((_ & H & _) & _). rewrite E in H. exact H.
  Qed.
  Lemma dev_right k w m : (k + w <= 6)%nat -> inside k w m (dev_rows r) -> inside (off (has_quats (rot t)) + k) w m (all_rows r).
  Proof.
    intros K I. apply (inside_right k w _ m _ _ len_lr wide_left). unfold right_rows. destruct (rot_dev r) as [q|] eqn:E; [|exact I].
    apply (inside_left k w 6); try assumption; [|apply wide_dev]. rewrite len_dev. symmetry. apply len_quats. destruct CR as (_ & _ & _ & H). rewrite E in H. exact H.
  Qed.
  Lemma len_pds : length (map v3_values (pos_dev r)) = length (map v3_values (directed_pos_dev r)).
  Proof. destruct CR as (_ & A & B & _). rewrite !map_length. congruence. Qed.
  Lemma in_pos : inside (off (has_quats (rot t)) + 0) 3 (map v3_values (pos_dev r)) (all_rows r).
  Proof. apply dev_right; [lia|]. apply (inside_left 0 3 3); [exact len_pds|apply wide_v3|lia|apply inside_self]. Qed.
  Lemma in_dir : inside (off (has_quats (rot t)) + 3) 3 (map v3_values (directed_pos_dev r)) (all_rows r).
  Proof. apply dev_right; [lia|]. apply (inside_right 0 3 3); [exact len_pds|apply wide_v3|apply inside_self]. Qed.
  Lemma in_rdev q : rot_dev r = Some q -> inside (off (has_quats (rot t)) + 6) 4 (quat_rows qops q) (all_rows r).
  Proof.
    intro E. apply (inside_right 6 4 _ _ _ _ len_lr wide_left). unfold right_rows. rewrite E. apply (inside_right 0 4 6); [|apply wide_dev|apply inside_self].
    rewrite len_dev. symmetry. apply len_quats. destruct CR as (_ & _ & _ & H). rewrite E in H. exact H.
  Qed.

  (** ** Reading the table *)
  Context (T : text_ops) (show12 : R -> string) (TC : text_contract T) (FC : format12 T show12).
  Context (ops : rot_ops Q) (QC : quat_contract ops qops).
  Notation rd := (rd12 T show12).
  Notation names := (names2 (has_quats (rot t)) (has_quats (rot_dev r))).
  Notation frame_rows := (map (cells show12) (all_rows r)).
  Definition rdv (v : V3) : V3 := mkV3 (rd (vx v)) (rd (vy v)) (rd (vz v)).

  Lemma read_ts : frame_columns T names frame_rows ["time"] = Ok (Some [map rd (tstamps t)]).
  Proof.
    apply (frame_cols T show12 FC names (all_rows r) _ ["time"] [tstamps t] wide_all). constructor; [|constructor].
    exists 0%nat. split; [reflexivity|]. split; [destruct (has_quats (rot t)), (has_quats (rot_dev r)); cbn; lia|].
    rewrite <- (col_column (tstamps t)). exact (in_ts 0%nat Nat.lt_0_1).
  Qed.
  Lemma read_arc : frame_columns T names frame_rows ["arc_lengths"] = Ok (Some [map rd (arc t)]).
  Proof.
    apply (frame_cols T show12 FC names (all_rows r) _ ["arc_lengths"] [arc t] wide_all). constructor; [|constructor].
    exists 1%nat. split; [reflexivity|]. split; [destruct (has_quats (rot t)), (has_quats (rot_dev r)); cbn; lia|].
    rewrite <- (col_column (arc t)). exact (in_arc 0%nat Nat.lt_0_1).
  Qed.
  Lemma read_three k a b c l : inside k 3 (map v3_values l) (all_rows r) -> (k + 2 < length names)%nat ->
    index_of a names = Ok k -> index_of b names = Ok (k + 1)%nat -> index_of c names = Ok (k + 2)%nat ->
    exists cols, frame_columns T names frame_rows [a; b; c] = Ok (Some cols) /\ v3_of cols = map rdv l.
  Proof.
    intros I K A B C. destruct (col_v3 l) as (X & Y & Z). eexists. split.
    - apply (frame_cols T show12 FC names (all_rows r) _ [a; b; c] [map vx l; map vy l; map vz l] wide_all).
      repeat constructor; [exists k|exists (k + 1)%nat|exists (k + 2)%nat]; (split; [assumption|]); (split; [lia|]).
      + rewrite <- X, <- (I 0%nat) by lia. f_equal. lia.
      + rewrite <- Y, <- (I 1%nat) by lia. reflexivity.
      + rewrite <- Z, <- (I 2%nat) by lia. reflexivity.
    - apply (v3_read T show12).
  Qed.
  Lemma read_four k a b c d l : inside k 4 (quat_rows qops l) (all_rows r) -> (k + 3 < length names)%nat ->
    index_of a names = Ok k -> index_of b names = Ok (k + 1)%nat -> index_of c names = Ok (k + 2)%nat -> index_of d names = Ok (k + 3)%nat ->
    forallb (fun x => member x names) [a; b; c; d] = true ->
    exists l', frame_rotations qops T names frame_rows [a; b; c; d] = Ok (Some (Some l')) /\ Forall2 (fun x y => near12_quat (as_quat qops x) (as_quat qops y)) l l'.
  Proof.
    intros I K A B C D M. unfold frame_rotations. rewrite M.
    rewrite (frame_cols T show12 FC names (all_rows r) _ [a; b; c; d] (qcols qops l) wide_all).
    - cbn [bind]. rewrite (v4_read qops T show12). destruct (quats12_read ops qops QC T show12 FC l) as (l' & E & F). rewrite E. exists l'. split; [reflexivity|exact F].
    - rewrite <- (col_quats qops l).
      repeat constructor; [exists k|exists (k + 1)%nat|exists (k + 2)%nat|exists (k + 3)%nat]; (split; [assumption|]); (split; [lia|]).
      + rewrite <- (I 0%nat) by lia. f_equal. lia.
      + rewrite <- (I 1%nat) by lia. reflexivity.
      + rewrite <- (I 2%nat) by lia. reflexivity.
      + rewrite <- (I 3%nat) by lia. reflexivity.
  Qed.
  Ltac names_case := destruct (has_quats (rot t)), (has_quats (rot_dev r)); cbn [off]; first [reflexivity | cbn; lia].
  Lemma read_xyz : exists cols, frame_columns T names frame_rows ["pos_x"; "pos_y"; "pos_z"] = Ok (Some cols) /\ v3_of cols = map rdv (xyz t).
  Proof. apply (read_three 2); try apply in_xyz; names_case. Qed.
  Lemma read_pos : exists cols, frame_columns T names frame_rows ["pos_dev_x"; "pos_dev_y"; "pos_dev_z"] = Ok (Some cols) /\ v3_of cols = map rdv (pos_dev r).
  Proof. apply (read_three (off (has_quats (rot t)) + 0)); try apply in_pos; names_case. Qed.
  Lemma read_dir : exists cols, frame_columns T names frame_rows ["pos_dev_along"; "pos_dev_cross_h"; "pos_dev_cross_v"] = Ok (Some cols) /\ v3_of cols = map rdv (directed_pos_dev r).
  Proof. apply (read_three (off (has_quats (rot t)) + 3)); try apply in_dir; names_case. Qed.
  Lemma read_rot : exists o, frame_rotations qops T names frame_rows ["rot_x"; "rot_y"; "rot_z"; "rot_w"] = Ok (Some o) /\ near12_rots qops (rot t) o.
  Proof.
    assert (forall o, rot t = o -> exists o', frame_rotations qops T names frame_rows ["rot_x"; "rot_y"; "rot_z"; "rot_w"] = Ok (Some o') /\ near12_rots qops o o') as G; [|apply G; reflexivity].
    intros [q|] E.
    - assert (has_quats (rot t) = true) as H by (rewrite E; reflexivity).
      destruct (read_four 5 "rot_x" "rot_y" "rot_z" "rot_w" q (in_rot q E)) as (l' & A & B); try (rewrite H; destruct (has_quats (rot_dev r)); first [reflexivity|cbn; lia]).
      exists (Some l'). split; [exact A|exact B].
    - exists None. split; [|exact I]. rewrite E. cbn [has_quats]. destruct (has_quats (rot_dev r)); reflexivity.
  Qed.
  Lemma read_rdev : exists o, frame_rotations qops T names frame_rows ["rot_dev_x"; "rot_dev_y"; "rot_dev_z"; "rot_dev_w"] = Ok (Some o) /\ near12_rots qops (rot_dev r) o.
  Proof.
    assert (forall o, rot_dev r = o -> exists o', frame_rotations qops T names frame_rows ["rot_dev_x"; "rot_dev_y"; "rot_dev_z"; "rot_dev_w"] = Ok (Some o') /\ near12_rots qops o o') as G; [|apply G; reflexivity].
    intros [q|] E.
    - assert (has_quats (rot_dev r) = true) as H by (rewrite E; reflexivity).
      destruct (read_four (off (has_quats (rot t)) + 6) "rot_dev_x" "rot_dev_y" "rot_dev_z" "rot_dev_w" q (in_rdev q E)) as (l' & A & B); try (rewrite H; destruct (has_quats (rot t)); first [reflexivity|cbn; lia]).
      exists (Some l'). split; [exact A|exact B].
    - exists None. split; [|exact I]. rewrite E. cbn [has_quats]. destruct (has_quats (rot t)); reflexivity.
  Qed.

  (** ** The text *)
  Definition ate_head r' : list string := ["#name " ++ ate_name r'; "#epsg " ++ show_int T (epsg (ate_trajectory r'))].
  Definition ate_header r' : header := [("epsg", HInt (epsg (ate_trajectory r'))); ("name", HStr (join " " (words (ate_name r'))))].
  Definition ate_content r' (cs : list string) (rows : list (list R)) : string :=
    ("#name " ++ ate_name r' ++ nl) ++ ("#epsg " ++ show_int T (epsg (ate_trajectory r')) ++ nl) ++ (join "," cs ++ nl) ++
    fold_right (fun row s => (join "," (map show12 row) ++ nl) ++ s) "" rows.

  Lemma written before : ate_to_file qops T show12 before r = Ok (before ++ ate_content r names (all_rows r)).
  Proof. unfold ate_to_file. rewrite rows_written, columns_names. reflexivity. Qed.
End Write.
Arguments ate_head {Q} T r'.
Arguments ate_header {Q} r'.
Arguments ate_content {Q} T show12 r' cs rows.
Arguments rdv T show12 v.

Section Text.
  Context {Q : Type} (T : text_ops) (show12 : R -> string) (TC : text_contract T) (FC : format12 T show12).
  Implicit Types r : ate_result Q.

  Lemma ate_lines r cs rows rest : one_line (ate_name r) -> good_names cs ->
    file_lines (ate_content T show12 r cs rows ++ rest) = (ate_head T r ++ body show12 cs rows ++ file_lines rest)%list.
  Proof.
    intros N G. unfold ate_content, ate_head.
    assert (forall a b s, (a ++ b ++ nl) ++ s = (a ++ b) ++ String newline s) as K.
    { intros a b s. rewrite !append_assoc. reflexivity. }
    rewrite !(append_assoc ("#name " ++ _ ++ _)), K.
    rewrite file_lines_cut by (apply one_line_app; [split; reflexivity|exact N]). cbn [app]. f_equal.
    rewrite !(append_assoc ("#epsg " ++ _ ++ _)), K.
    rewrite file_lines_cut by (apply one_line_app; [split; reflexivity|apply (spaceless_one_line _ (proj2 (tc_int_word T TC _)))]). f_equal.
    rewrite append_assoc. apply (body_lines T show12 FC). exact G.
  Qed.
  Lemma ate_head_handled h r : handle_lines T h (ate_head T r) = Ok (ate_header r ++ h)%list.
  Proof.
    unfold ate_head. cbn [handle_lines].
    assert (forall h, handle_line T h ("#epsg " ++ show_int T (epsg (ate_trajectory r))) = Ok (("epsg", HInt (epsg (ate_trajectory r))) :: h)) as E1.
    { intro h'. change ("#epsg " ++ show_int T (epsg (ate_trajectory r))) with (("#" ++ "epsg") ++ String " "%char (show_int T (epsg (ate_trajectory r)))).
      rewrite handle_tag by reflexivity. change (handler T "epsg") with (integer_line_handler T).
      unfold integer_line_handler. rewrite tagged_words by reflexivity.
      rewrite (words_word _ (tc_int_word T TC _)). cbn [nth_error]. rewrite (tc_int T TC). reflexivity. }
    assert (forall h, handle_line T h ("#name " ++ ate_name r) = Ok (("name", HStr (join " " (words (ate_name r)))) :: h)) as E2.
    { intro h'. change ("#name " ++ ate_name r) with (("#" ++ "name") ++ String " "%char (ate_name r)).
      rewrite handle_tag by reflexivity. change (handler T "name") with default_line_handler.
      unfold default_line_handler. rewrite tagged_words by reflexivity. reflexivity. }
    rewrite E2. cbn [bind]. rewrite E1. reflexivity.
  Qed.
  Lemma ate_head_blank r : filter nonblank (map uncomment (ate_head T r)) = [].
  Proof. reflexivity. Qed.
End Text.
