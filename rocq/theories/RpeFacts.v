(** Facts about RPE result files. *)
From Verif Require Import Base BaseFacts EstModel TextModel TextFacts HeaderModel NumpyModel GeomModel IoModel IoSpec HeaderFacts IoFacts EvalModel RpeModel RpeSpec.
Local Open Scope string_scope.
Local Arguments Ascii.eqb : simpl never.
Local Opaque newline return_char.

Lemma all_some_map {A} (l : list A) : all_some (map Some l) = Some l.
Proof. induction l as [|x l IH]; [reflexivity|]. cbn. rewrite IH. reflexivity. Qed.

(** ** Rows of the table *)

Definition block_rows (rot : bool) (b : block) : list (list R) :=
  if rot then zip3r (b_dist b) (b_pos b) (b_rot b) else zip2 (b_dist b) (b_pos b).

Lemma zip2_app a b a' b' : length a = length b -> zip2 (a ++ a') (b ++ b') = (zip2 a b ++ zip2 a' b')%list.
Proof. revert b. induction a as [|x a IH]; intros [|y b] L; cbn in L; try lia; [reflexivity|]. cbn. rewrite IH by lia. reflexivity. Qed.
Lemma zip3r_app a b c a' b' c' : length a = length b -> length a = length c ->
  zip3r (a ++ a') (b ++ b') (c ++ c') = (zip3r a b c ++ zip3r a' b' c')%list.
Proof.
  revert b c. induction a as [|x a IH]; intros [|y b] [|z c] L M; cbn in L, M; try lia; [reflexivity|]. cbn. rewrite IH by lia. reflexivity.
Qed.
Lemma zip2_concat bs : Forall (fun b => length (b_pos b) = length (b_dist b)) bs ->
  zip2 (concat (map b_dist bs)) (concat (map b_pos bs)) = concat (map (block_rows false) bs).
Proof. induction 1 as [|b bs L F IH]; [reflexivity|]. cbn [map concat]. rewrite zip2_app by congruence. rewrite IH. reflexivity. Qed.
Lemma zip3r_concat bs : Forall (fun b => length (b_pos b) = length (b_dist b)) bs -> Forall (fun b => length (b_rot b) = length (b_dist b)) bs ->
  zip3r (concat (map b_dist bs)) (concat (map b_pos bs)) (concat (map b_rot bs)) = concat (map (block_rows true) bs).
Proof.
  induction 1 as [|b bs L F IH]; [reflexivity|]. intro M. pose proof (Forall_inv M). pose proof (Forall_inv_tail M).
  cbn [map concat]. rewrite zip3r_app by congruence. rewrite IH by assumption. reflexivity.
Qed.
Lemma concat_length {A} (f g : block -> list A) bs : Forall (fun b => length (f b) = length (g b)) bs ->
  length (concat (map f bs)) = length (concat (map g bs)).
Proof. induction 1 as [|b bs L F IH]; [reflexivity|]. cbn. rewrite !app_length, IH, L. reflexivity. Qed.

Lemma no_rot_false r : Forall (fun b => b_rot b = []) (blocks r) -> has_rot_dev r = false.
Proof. unfold has_rot_dev. induction 1 as [|b bs E F IH]; [reflexivity|]. cbn. rewrite E. exact IH. Qed.

Lemma matching_rot r : matching r -> has_rot_dev r = true -> Forall (fun b => length (b_rot b) = length (b_dist b)) (blocks r).
Proof. intros [_ [M|M]] H; [exact M|]. rewrite (no_rot_false r M) in H. discriminate. Qed.
Lemma matching_no_rot r : matching r -> has_rot_dev r = false -> Forall (fun b => b_rot b = []) (blocks r).
Proof.
  intros _ H. unfold has_rot_dev in H. induction (blocks r) as [|b bs IH]; [constructor|]. cbn in H. apply orb_false_iff in H as [A B].
  constructor; [destruct (b_rot b); [reflexivity|discriminate]|apply IH, B].
Qed.

Lemma matching_rows r : matching r -> rpe_rows r = Ok (concat (map (block_rows (has_rot_dev r)) (blocks r))).
Proof.
  intro M. pose proof M as [MP _]. unfold rpe_rows, all_dist, all_pos, all_rot.
  rewrite (concat_length b_dist b_pos) by (eapply Forall_impl; [|exact MP]; cbn; intros; symmetry; assumption). rewrite Nat.eqb_refl.
  destruct (has_rot_dev r) eqn:H; [|f_equal; apply zip2_concat, MP].
  pose proof (matching_rot r M H) as MR.
  rewrite <- (concat_length b_dist b_pos) by (eapply Forall_impl; [|exact MP]; cbn; intros; symmetry; assumption).
  rewrite (concat_length b_dist b_rot) by (eapply Forall_impl; [|exact MR]; cbn; intros; symmetry; assumption). rewrite Nat.eqb_refl.
  f_equal. apply zip3r_concat; assumption.
Qed.

Lemma block_rows_empty rot b : b_dist b = [] -> block_rows rot b = [].
Proof. intro E. unfold block_rows. rewrite E. destruct rot; reflexivity. Qed.
Lemma used_rows rot bs : concat (map (block_rows rot) bs) = concat (map (block_rows rot) (filter (fun b => filled (b_dist b)) bs)).
Proof.
  induction bs as [|b bs IH]; [reflexivity|]. cbn [map concat filter]. destruct (filled (b_dist b)) eqn:F.
  - cbn [map concat]. rewrite IH. reflexivity.
  - rewrite block_rows_empty by (destruct (b_dist b); [reflexivity|discriminate]). exact IH.
Qed.
Lemma num_pairs_used r : num_pairs r = map (fun b => length (b_dist b)) (used_blocks r).
Proof.
  unfold num_pairs, used_blocks. induction (blocks r) as [|b bs IH]; [reflexivity|]. cbn [map filter].
  destruct (filled (b_dist b)); cbn [map]; rewrite IH; reflexivity.
Qed.

(** ** Lines *)

Lemma file_lines_crlf l s : one_line l -> file_lines (l ++ String return_char (String newline s)) = l :: file_lines s.
Proof.
  intros [A B]. induction l as [|c l IH].
  - cbn [append file_lines]. rewrite (Ascii.eqb_refl return_char), orb_true_r, (Ascii.eqb_refl newline). reflexivity.
  - cbn in A, B. apply orb_false_iff in A as [A1 A2]. apply orb_false_iff in B as [B1 B2].
    change (String c l ++ String return_char (String newline s)) with (String c (l ++ String return_char (String newline s))).
    cbn [file_lines]. rewrite (Ascii.eqb_sym c newline), A1, (Ascii.eqb_sym c return_char), B1. cbn [orb].
    specialize (IH A2 B2). destruct (l ++ String return_char (String newline s)) as [|x y] eqn:E; [destruct l; discriminate|].
    rewrite IH. reflexivity.
Qed.

Section Text.
  Context (T : text_ops) (show12 : R -> string) (TC : text_contract T) (FC : format12 T show12).

  Definition counts_text (r : rpe) : string := join "," (map (fun n => show_int T (Z.of_nat n)) (num_pairs r)).
  Definition cells_line (row : list R) : string := join "," (map show12 row).
  Definition rpe_head (r : rpe) : list string :=
    ["#relative_dist_unit " ++ unit_name (r_unit r); "#name " ++ r_name r; "#num_pairs " ++ counts_text r].
  Definition rpe_body (r : rpe) (rows : list (list R)) : list string := join "," (rpe_columns r) :: map cells_line rows.

  Definition rpe_content (r : rpe) (rows : list (list R)) : string :=
    ("#relative_dist_unit " ++ unit_name (r_unit r) ++ nl) ++ ("#name " ++ r_name r ++ nl) ++
    ("#num_pairs " ++ counts_text r ++ crlf) ++ (join "," (rpe_columns r) ++ nl) ++
    fold_right (fun row s => (cells_line row ++ nl) ++ s) "" rows.

  Lemma to_file_content before r rows : rpe_rows r = Ok rows -> rpe_to_file T show12 before r = Ok (before ++ rpe_content r rows).
  Proof. intro E. unfold rpe_to_file. rewrite E. reflexivity. Qed.

  Lemma cells_line_one row : one_line (cells_line row).
  Proof.
    unfold cells_line. split; (apply has_char_join; [reflexivity|]);
      apply Forall_forall; intros w I; apply in_map_iff in I as [x [<- _]];
      destruct (spaceless_one_line _ (proj2 (f12_word T show12 FC x))) as [A B]; assumption.
  Qed.
  Lemma cells_line_hash row : has_char "#" (cells_line row) = false.
  Proof. unfold cells_line. apply has_char_join; [reflexivity|]. apply Forall_forall. intros w I. apply in_map_iff in I as [x [<- _]]. apply (f12_hash T show12 FC). Qed.
  Lemma columns_one r : one_line (join "," (rpe_columns r)).
  Proof. unfold rpe_columns. destruct (has_rot_dev r); split; reflexivity. Qed.
  Lemma counts_one r : one_line (counts_text r).
  Proof.
    unfold counts_text. split; (apply has_char_join; [reflexivity|]);
      apply Forall_forall; intros w I; apply in_map_iff in I as [x [<- _]];
      destruct (spaceless_one_line _ (proj2 (tc_int_word T TC (Z.of_nat x)))) as [A B]; assumption.
  Qed.

  Lemma content_lines r rows rest : one_line (r_name r) ->
    file_lines (rpe_content r rows ++ rest) = (rpe_head r ++ rpe_body r rows ++ file_lines rest)%list.
  Proof.
    intro N. unfold rpe_content. rewrite !append_assoc.
    assert (forall s, nl ++ s = String newline s) as NL by reflexivity.
    assert (forall s, crlf ++ s = String return_char (String newline s)) as CR by reflexivity. rewrite !NL, CR.
    assert (forall a b s, a ++ b ++ s = (a ++ b) ++ s) as G by (intros; symmetry; apply append_assoc).
    rewrite (G "#relative_dist_unit "), file_lines_cut by (apply one_line_app; [split; reflexivity|destruct (r_unit r); split; reflexivity]).
    unfold rpe_head. cbn [app]. f_equal.
    rewrite (G "#name "), file_lines_cut by (apply one_line_app; [split; reflexivity|exact N]). f_equal.
    rewrite (G "#num_pairs "), file_lines_crlf by (apply one_line_app; [split; reflexivity|apply counts_one]). f_equal.
    rewrite file_lines_cut by apply columns_one. unfold rpe_body. cbn [app]. f_equal.
    induction rows as [|row rows IH]; [reflexivity|]. cbn [fold_right map app]. rewrite !append_assoc, NL.
    rewrite file_lines_cut by apply cells_line_one. f_equal. exact IH.
  Qed.

  (** ** Header *)

  Definition rpe_header (r : rpe) : header :=
    [("num_pairs", HStr (join " " (words (counts_text r)))); ("name", HStr (join " " (words (r_name r)))); ("relative_dist_unit", HStr (unit_name (r_unit r)))].

  Lemma head_handled h r : handle_lines T h (rpe_head r) = Ok (rpe_header r ++ h)%list.
  Proof.
    unfold rpe_head. cbn [handle_lines].
    assert (forall h, handle_line T h ("#relative_dist_unit " ++ unit_name (r_unit r)) = Ok (("relative_dist_unit", HStr (unit_name (r_unit r))) :: h)) as E1.
    { intro h'. change ("#relative_dist_unit " ++ unit_name (r_unit r)) with (("#" ++ "relative_dist_unit") ++ String " "%char (unit_name (r_unit r))).
      rewrite handle_tag by reflexivity. change (handler T "relative_dist_unit") with default_line_handler.
      unfold default_line_handler. rewrite tagged_words by reflexivity.
      rewrite words_word by (destruct (r_unit r); split; (discriminate || reflexivity)). reflexivity. }
    assert (forall h, handle_line T h ("#name " ++ r_name r) = Ok (("name", HStr (join " " (words (r_name r)))) :: h)) as E2.
    { intro h'. change ("#name " ++ r_name r) with (("#" ++ "name") ++ String " "%char (r_name r)).
      rewrite handle_tag by reflexivity. change (handler T "name") with default_line_handler.
      unfold default_line_handler. rewrite tagged_words by reflexivity. reflexivity. }
    assert (forall h, handle_line T h ("#num_pairs " ++ counts_text r) = Ok (("num_pairs", HStr (join " " (words (counts_text r)))) :: h)) as E3.
    { intro h'. change ("#num_pairs " ++ counts_text r) with (("#" ++ "num_pairs") ++ String " "%char (counts_text r)).
      rewrite handle_tag by reflexivity. change (handler T "num_pairs") with default_line_handler.
      unfold default_line_handler. rewrite tagged_words by reflexivity. reflexivity. }
    rewrite E1. cbn [bind]. rewrite E2. cbn [bind]. rewrite E3. reflexivity.
  Qed.

  Lemma body_handled h r rows : handle_lines T h (rpe_body r rows) = Ok h.
  Proof.
    unfold rpe_body. cbn [handle_lines]. rewrite hashless_untouched by (unfold rpe_columns; destruct (has_rot_dev r); reflexivity). cbn [bind].
    induction rows as [|row rows IH]; [reflexivity|]. cbn [map handle_lines]. rewrite hashless_untouched by apply cells_line_hash. exact IH.
  Qed.

  Lemma counts_word r : num_pairs r <> [] -> word (counts_text r).
  Proof.
    unfold counts_text. intro N. destruct (num_pairs r) as [|n ns]; [congruence|]. clear N.
    assert (forall l, l <> [] -> Forall word l -> word (join "," l)) as G.
    { induction l as [|w l IH]; [congruence|]. intros _ F. destruct l as [|w' l']; [apply (Forall_inv F)|].
      specialize (IH ltac:(discriminate) (Forall_inv_tail F)). destruct IH as [_ S]. destruct (Forall_inv F) as [N1 S1].
      change (join "," (w :: w' :: l')) with (w ++ "," ++ join "," (w' :: l')).
      split; [destruct w; [congruence|discriminate]|]. rewrite !spaceless_app, S1, S. reflexivity. }
    apply G; [discriminate|]. apply Forall_forall. intros w I. apply in_map_iff in I as [m [<- _]]. apply (tc_int_word T TC).
  Qed.

  (** Numbers of pairs *)
  Lemma header_counts r h : num_pairs r <> [] ->
    h_num_pairs T (rpe_header r ++ h)%list = Ok (map Z.of_nat (num_pairs r)).
  Proof.
    intros N. unfold h_num_pairs.
    assert (get_str (rpe_header r ++ h)%list "num_pairs" "0" = join " " (words (counts_text r))) as -> by reflexivity.
    rewrite words_word by (apply counts_word, N). change (join " " [counts_text r]) with (counts_text r).
    unfold counts_text. rewrite split_on_join.
    - induction (num_pairs r) as [|n ns IH]; [reflexivity|]. cbn [map mapM]. rewrite (tc_int T TC). cbn [bind].
      destruct ns as [|m ns]; [reflexivity|]. rewrite IH by discriminate. reflexivity.
    - destruct (num_pairs r); [congruence|discriminate].
    - apply Forall_forall. intros w I. apply in_map_iff in I as [m [<- _]]. apply (f12_int_comma T show12 FC).
  Qed.
  Lemma header_name r h : h_name (rpe_header r ++ h)%list = join " " (words (r_name r)).
  Proof. reflexivity. Qed.
  Lemma header_unit r h : r_unit r <> NONE -> h_relative_dist_unit (rpe_header r ++ h)%list = Ok (r_unit r).
  Proof. intro N. unfold h_relative_dist_unit, get_str. cbn. destruct (r_unit r); try reflexivity. congruence. Qed.
  Lemma header_none r h : r_unit r = NONE -> h_relative_dist_unit (rpe_header r ++ h)%list = Err ValueError.
  Proof. intro E. unfold h_relative_dist_unit, get_str. cbn. rewrite E. reflexivity. Qed.

  (** ** Table *)

  Lemma word_nonblank w l : word w -> nonblank (join "," (w :: l)) = true.
  Proof.
    intro W. destruct l as [|y l].
    - change (join "," [w]) with w. rewrite <- (append_nil w). apply nonblank_word_prefix, W.
    - change (join "," (w :: y :: l)) with (w ++ ("," ++ join "," (y :: l))). apply nonblank_word_prefix, W.
  Qed.
  Lemma body_data r rows : Forall (fun x => x <> []) rows -> filter nonblank (map uncomment (rpe_head r ++ rpe_body r rows)%list) = rpe_body r rows.
  Proof.
    intro NE. rewrite map_app, filter_app. assert (filter nonblank (map uncomment (rpe_head r)) = []) as -> by reflexivity. cbn [app].
    unfold rpe_body. cbn [map filter].
    rewrite uncomment_id by (unfold rpe_columns; destruct (has_rot_dev r); reflexivity).
    assert (nonblank (join "," (rpe_columns r)) = true) as -> by (unfold rpe_columns; destruct (has_rot_dev r); reflexivity).
    f_equal. induction NE as [|x rows N F IH]; [reflexivity|]. cbn [map filter]. rewrite uncomment_id by apply cells_line_hash.
    assert (nonblank (cells_line x) = true) as ->.
    { unfold cells_line. destruct x as [|a x]; [congruence|]. cbn [map]. apply word_nonblank, (f12_word T show12 FC). }
    f_equal. exact IH.
  Qed.

  Lemma cells_split row : row <> [] -> split_on "," (cells_line row) = map show12 row.
  Proof.
    intro N. unfold cells_line. apply split_on_join; [destruct row; [congruence|discriminate]|].
    apply Forall_forall. intros w I. apply in_map_iff in I as [x [<- _]]. apply (f12_comma T show12 FC).
  Qed.
  Lemma columns_split r : split_on "," (join "," (rpe_columns r)) = rpe_columns r.
  Proof. unfold rpe_columns. destruct (has_rot_dev r); reflexivity. Qed.
  Lemma body_split r rows : Forall (fun x => x <> []) rows -> map (split_on ",") (rpe_body r rows) = rpe_columns r :: map (map show12) rows.
  Proof.
    intro NE. unfold rpe_body. cbn [map]. rewrite columns_split. f_equal. rewrite map_map. apply map_ext_in. intros x I.
    rewrite Forall_forall in NE. apply cells_split, NE, I.
  Qed.

  (** ** Blocks *)

  Definition rd12 (x : R) : R := match number T (show12 x) with Some (Fin y) => y | _ => 0 end.
  Lemma rd12_near x : number T (show12 x) = Some (Fin (rd12 x)) /\ near12 x (rd12 x).
  Proof. destruct (f12_num T show12 FC x) as [y [E N]]. unfold rd12. rewrite E. split; [reflexivity|exact N]. Qed.
  Lemma to_nums12 (l : list R) : to_nums T (map (fun x => Some (show12 x)) l) = Ok (map (fun x => Fin (rd12 x)) l).
  Proof.
    induction l as [|x l IH]; [reflexivity|]. cbn [map]. unfold to_nums in *. cbn [mapM].
    unfold to_num at 1. rewrite (proj1 (rd12_near x)). cbn [bind]. rewrite IH. reflexivity.
  Qed.
  Definition read_back (b : block) : block := mkBlock (map rd12 (b_dist b)) (map rd12 (b_pos b)) (map rd12 (b_rot b)).
  Definition cells (row : list R) : list cell := map (fun x => Some (show12 x)) row.

  Lemma zip2_col0 a b j : length a = length b -> (j < 2)%nat ->
    map (fun r => nth j r None) (map cells (zip2 a b)) = map (fun x => Some (show12 x)) (if (j =? 0)%nat then a else b).
  Proof.
    revert b. induction a as [|x a IH]; intros [|y b] L J; cbn in L; try lia; [destruct j; reflexivity|].
    cbn [zip2 map]. rewrite IH by lia. destruct j as [|[|j]]; [reflexivity|reflexivity|lia].
  Qed.
  Lemma zip3_col a b c j : length a = length b -> length a = length c -> (j < 3)%nat ->
    map (fun r => nth j r None) (map cells (zip3r a b c)) = map (fun x => Some (show12 x)) (match j with 0%nat => a | 1%nat => b | _ => c end).
  Proof.
    revert b c. induction a as [|x a IH]; intros [|y b] [|z c] L M J; cbn in L, M; try lia; [destruct j as [|[|]]; reflexivity|].
    cbn [zip3r map]. rewrite IH by lia. destruct j as [|[|[|j]]]; [reflexivity|reflexivity|reflexivity|lia].
  Qed.
  Lemma zip2_length a b : length a = length b -> length (zip2 a b) = length a.
  Proof. revert b. induction a as [|x a IH]; intros [|y b] L; cbn in L |- *; try lia. rewrite IH; lia. Qed.
  Lemma zip3r_length a b c : length a = length b -> length a = length c -> length (zip3r a b c) = length a.
  Proof. revert b c. induction a as [|x a IH]; intros [|y b] [|z c] L M; cbn in L, M |- *; try lia. rewrite IH; lia. Qed.

  Definition fits (rot : bool) (b : block) : Prop :=
    length (b_pos b) = length (b_dist b) /\ (if rot then length (b_rot b) = length (b_dist b) else b_rot b = []).
  Definition names_of (rot : bool) : list string := if rot then ["pair_distance"; "pos_dev"; "rot_dev"] else ["pair_distance"; "pos_dev"].

  Lemma block_rows_length rot b : fits rot b -> length (block_rows rot b) = length (b_dist b).
  Proof. intros [P Q]. unfold block_rows. destruct rot; [apply zip3r_length; congruence|apply zip2_length; congruence]. Qed.

  Lemma all_fin12 (l : list R) : all_some (map finite (map (fun x => Fin (rd12 x)) l)) = Some (map rd12 l).
  Proof. rewrite map_map. rewrite (map_ext (fun x => finite (Fin (rd12 x))) (fun x => Some (rd12 x))) by reflexivity. rewrite <- map_map. apply all_some_map. Qed.

  Lemma read_one rot b junk counts d : fits rot b ->
    read_blocks T (names_of rot) (map cells (block_rows rot b) ++ junk)%list (Z.of_nat (length (b_dist b)) :: counts) d =
    read_blocks T (names_of rot) junk counts (put (np_mean (map rd12 (b_dist b))) (read_back b) d).
  Proof.
    intro F. pose proof F as [P Q]. cbn [read_blocks]. rewrite Nat2Z.id.
    assert (length (map cells (block_rows rot b)) = length (b_dist b)) as L by (rewrite map_length; apply block_rows_length, F).
    rewrite firstn_app, <- L, firstn_all, Nat.sub_diag, firstn_O, app_nil_r, skipn_app, skipn_all, Nat.sub_diag, skipn_O. cbn [app].
    unfold frame_column, names_of, block_rows, read_back. destruct rot.
    - cbn [index_of rmap]. change (String.eqb "pair_distance" "pair_distance") with true. change (String.eqb "pair_distance" "pos_dev") with false.
      change (String.eqb "pos_dev" "pos_dev") with true. change (String.eqb "pair_distance" "rot_dev") with false. change (String.eqb "pos_dev" "rot_dev") with false.
      change (String.eqb "rot_dev" "rot_dev") with true. cbv iota. cbn [rmap].
      change (member "rot_dev" ["pair_distance"; "pos_dev"; "rot_dev"]) with true. cbv iota.
      rewrite !zip3_col by (congruence || lia). rewrite !to_nums12. cbn [bind]. rewrite !all_fin12. reflexivity.
    - cbn [index_of rmap]. change (String.eqb "pair_distance" "pair_distance") with true. change (String.eqb "pair_distance" "pos_dev") with false.
      change (String.eqb "pos_dev" "pos_dev") with true. cbv iota. cbn [rmap].
      change (member "rot_dev" ["pair_distance"; "pos_dev"]) with false. cbv iota.
      rewrite !zip2_col0 by (congruence || lia). cbn [Nat.eqb]. rewrite !to_nums12. cbn [bind]. rewrite !all_fin12. rewrite Q. reflexivity.
  Qed.

  Definition put_block (d : list (option R * block)) (b : block) := put (np_mean (map rd12 (b_dist b))) (read_back b) d.
  Lemma read_all rot bs : Forall (fits rot) bs -> forall junk d,
    read_blocks T (names_of rot) (map cells (concat (map (block_rows rot) bs)) ++ junk)%list (map (fun b => Z.of_nat (length (b_dist b))) bs) d =
    Ok (Some (fold_left put_block bs d)).
  Proof.
    induction 1 as [|b bs F FS IH]; intros junk d; [reflexivity|]. cbn [map concat fold_left]. rewrite map_app, <- app_assoc.
    rewrite read_one by exact F. apply IH.
  Qed.
End Text.
