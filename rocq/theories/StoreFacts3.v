(** Reading files of alignment results. *)
From Verif Require Import Base BaseFacts EstModel TextModel TextFacts HeaderModel NumpyModel NumpyFacts EvalModel ParamModel ParamSpec ParamFacts ParamFacts2 ParamFacts3
  TrajModel GeomModel IoModel IoSpec IoFacts TornModel TornFacts StoreModel StoreSpec StoreFacts StoreFacts2.
Local Open Scope string_scope.
Notation row_text := (join ",").

Lemma header_data T l ls h : (forall x, In x ls -> has_char "#" x = false) -> handle_line T [] l = Ok h -> handle_lines T [] (l :: ls) = Ok h.
Proof.
  intros F E. cbn [handle_lines]. rewrite E. cbn [bind]. clear E. induction ls as [|x ls IH]; [reflexivity|].
  cbn [handle_lines]. assert (handle_line T h x = Ok h) as ->.
  { unfold handle_line. assert (strip_prefix "#" x = None) as ->; [|reflexivity]. specialize (F x (or_introl eq_refl)).
    destruct x as [|c x]; [reflexivity|]. cbn in F |- *. apply orb_false_iff in F as [F _]. rewrite F. reflexivity. }
  cbn [bind]. apply IH. intros y I. apply F. right. exact I.
Qed.
Lemma name_handled T name : handle_line T [] (name_line name) = Ok [("name", HStr (join " " (words name)))].
Proof.
  set (l := name_line name).
  assert (words l = "#name" :: words name) as W by (apply (words_app_space "#name" " "%char name); [split; [discriminate|reflexivity]|reflexivity]).
  unfold handle_line. replace (strip_prefix "#" l) with (Some ("name " ++ name)) by reflexivity. rewrite W.
  change (existsb (String.eqb "name") HEADER_KEYS) with true. cbv iota. change (handler T "name" l) with (default_line_handler l).
  unfold default_line_handler. rewrite W. reflexivity.
Qed.

Section Read.
  Context (T : text_ops) (show15 show : R -> string) (fmt : R -> R) (FC : format15 T show15 show fmt).

  Definition number_cells (row : list R) : list string := map show15 row.
  Definition sensor_cells (p : param) : list string := [show (p_value p); flag_text (p_enabled p)].
  Definition sensor_numbers (p : param) : list R := [p_value p; bool_num (p_enabled p)].

  Lemma good15 x : good (show15 x).
  Proof. split; [apply FC|split; apply FC]. Qed.
  Lemma good_show x : good (show x).
  Proof. split; [apply FC|split; apply FC]. Qed.
  Lemma good_flag b : good (flag_text b).
  Proof. destruct b; (split; [split; [discriminate|reflexivity]|split; reflexivity]). Qed.
  Lemma cell_word s : word s -> cell_num T (Some s) = number T s.
  Proof. intros [N _]. destruct s; [congruence|reflexivity]. Qed.
  Lemma read15 x : cell_num T (Some (show15 x)) = Some (Fin (fmt x)).
  Proof. rewrite cell_word by apply FC. apply FC. Qed.
  Lemma read_flag b : cell_num T (Some (flag_text b)) = Some (Fin (bool_num b)).
  Proof. destruct b; apply FC. Qed.

  Lemma lines_cells name r : result_lines show15 show name r =
    name_line name :: map row_text (map number_cells (param_rows_flags (position_parameters r)) ++ map sensor_cells (ps_params (rotation_parameters r)))%list.
  Proof. unfold result_lines. rewrite map_app, !map_map. reflexivity. Qed.

  Lemma number_rows_good rows : Forall (fun c => c <> []) rows -> Forall (fun c => c <> [] /\ Forall good c) (map number_cells rows).
  Proof.
    induction 1 as [|c rows N F IH]; [constructor|]. constructor; [|exact IH]. split; [destruct c; [congruence|discriminate]|].
    clear N. induction c as [|x c IHc]; [constructor|]. constructor; [apply good15|exact IHc].
  Qed.
  Lemma sensor_rows_good ps : Forall (fun c => c <> [] /\ Forall good c) (map sensor_cells ps).
  Proof.
    induction ps as [|p ps IH]; [constructor|]. constructor; [|exact IH]. split; [discriminate|]. constructor; [apply good_show|]. constructor; [apply good_flag|constructor].
  Qed.
  Lemma flag_rows_filled s : Forall (fun c => c <> []) (param_rows_flags s).
  Proof. apply Forall_forall. intros c H. unfold param_rows_flags in H. apply in_map_iff in H as (x & <- & _). discriminate. Qed.
  Lemma rows_good r : Forall (fun c => c <> [] /\ Forall good c) (map number_cells (param_rows_flags (position_parameters r)) ++ map sensor_cells (ps_params (rotation_parameters r))).
  Proof. apply Forall_app. split; [apply number_rows_good, flag_rows_filled|apply sensor_rows_good]. Qed.

  (** Cells that are read *)
  Lemma pad_read n cells nums : Forall2 (fun s x => cell_num T (Some s) = Some (Fin x)) cells nums ->
    map (read_cell T) (pad n cells) = ParamModel.pad n nums /\ Forall (readable T) (pad n cells).
  Proof.
    intro F. unfold pad, ParamModel.pad.
    assert (length cells = length nums) as L by (induction F; cbn; congruence). rewrite L. split.
    - rewrite map_app. f_equal.
      + clear L. induction F as [|s x cells nums E F IH]; [reflexivity|]. cbn [map]. rewrite IH. unfold read_cell. rewrite E. reflexivity.
      + generalize (n - length nums)%nat as k. induction k as [|k IH]; [reflexivity|]. cbn [repeat map]. rewrite IH. reflexivity.
    - apply Forall_app. split.
      + clear L. induction F as [|s x cells nums E F IH]; [constructor|]. constructor; [unfold readable; rewrite E; discriminate|exact IH].
      + apply Forall_forall. intros c I. apply repeat_spec in I. subst c. unfold readable. discriminate.
  Qed.
  Lemma number_cells_read row : Forall2 (fun s x => cell_num T (Some s) = Some (Fin x)) (number_cells row) (map fmt row).
  Proof. induction row as [|x row IH]; [constructor|]. constructor; [apply read15|exact IH]. Qed.
  Lemma sensor_cells_read p : number T (show (p_value p)) = Some (Fin (p_value p)) -> Forall2 (fun s x => cell_num T (Some s) = Some (Fin x)) (sensor_cells p) (sensor_numbers p).
  Proof. intro E. constructor; [rewrite cell_word by apply FC; exact E|]. constructor; [apply read_flag|constructor]. Qed.

  (** The table of a text that ends with some row [last] *)
  Definition last_row (last : list string) : list entry := map (read_cell T) (pad 13 last).

  Lemma table_last rows last : Forall (fun c => length (fst c) = length (snd c) /\ (length (snd c) <= 13)%nat /\ Forall2 (fun s x => cell_num T (Some s) = Some (Fin x)) (fst c) (snd c)) rows ->
    (length last <= 13)%nat -> Forall (readable T) (pad 13 last) ->
    table_of T 13 (map (pad 13) (map fst rows ++ [last])) = (map (ParamModel.pad 13) (map snd rows) ++ [last_row last])%list.
  Proof.
    intros F L R.
    assert (forall c : list string, (length c <= 13)%nat -> length (pad 13 c) = 13%nat) as PL.
    { intros c H. unfold pad. rewrite app_length, map_length, repeat_length. lia. }
    rewrite table_readable.
    - rewrite !map_app. f_equal. rewrite !map_map. apply map_ext_in. intros c I. rewrite Forall_forall in F. destruct (F c I) as (_ & _ & F2). apply pad_read. exact F2.
    - apply Forall_forall. intros row I. apply in_map_iff in I as (c & <- & I). apply in_app_or in I as [I|[<-|[]]]; [|apply PL, L].
      apply in_map_iff in I as (rc & <- & I). rewrite Forall_forall in F. destruct (F rc I) as (E & B & _). apply PL. rewrite E. exact B.
    - apply Forall_forall. intros row I. apply in_map_iff in I as (c & <- & I). apply in_app_or in I as [I|[<-|[]]]; [|exact R].
      apply in_map_iff in I as (rc & <- & I). rewrite Forall_forall in F. destruct (F rc I) as (_ & _ & F2). apply (pad_read 13 _ _ F2).
  Qed.
End Read.
