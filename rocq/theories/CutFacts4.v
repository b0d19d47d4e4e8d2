(** Relative results read from files that were cut off. *)
From Verif Require Import Base BaseFacts EstModel TextModel TextFacts HeaderModel HeaderFacts NumpyModel TrajModel GeomModel IoModel IoSpec IoFacts EvalModel RpeModel RpeSpec RpeFacts RpeFacts2 RpeFacts3 AteModel AteSpec AteFacts TornModel TornFacts CutModel CutSpec CutFacts CutFacts2 CutFacts3.
Local Open Scope string_scope.

(** The first [k] pairs of the blocks *)
Definition block_start (k : nat) (b : block) : block := mkBlock (firstn k (b_dist b)) (firstn k (b_pos b)) (firstn k (b_rot b)).
Fixpoint cut_blocks (k : nat) (bs : list block) : list block :=
  match bs with [] => [] | b :: r => block_start k b :: cut_blocks (k - length (b_dist b)) r end.

Lemma zip2_firstn k : forall a b, zip2 (firstn k a) (firstn k b) = firstn k (zip2 a b).
Proof. induction k as [|k IH]; intros [|x a] [|y b]; try reflexivity. cbn. f_equal. apply IH. Qed.
Lemma zip3r_firstn k : forall a b c, zip3r (firstn k a) (firstn k b) (firstn k c) = firstn k (zip3r a b c).
Proof. induction k as [|k IH]; intros [|x a] [|y b] [|z c]; try reflexivity. cbn. f_equal. apply IH. Qed.
Lemma block_start_rows rot k b : block_rows rot (block_start k b) = firstn k (block_rows rot b).
Proof. unfold block_rows, block_start. cbn. destruct rot; [apply zip3r_firstn|apply zip2_firstn]. Qed.
Lemma block_start_fits rot k b : fits rot b -> fits rot (block_start k b).
Proof. unfold fits, block_start. cbn. intros [P R]. split; [rewrite !firstn_length, P; reflexivity|]. destruct rot; [rewrite !firstn_length, R; reflexivity|rewrite R; apply firstn_nil]. Qed.

Lemma take_all a b : take (String.length a) (a ++ b) = a.
Proof. induction a as [|c a IH]; cbn; [destruct b; reflexivity|]. rewrite IH. reflexivity. Qed.

Definition pairs_in (d : list (option R * block)) : nat := list_sum (map (fun e => length (b_dist (snd e))) d).
Lemma put_pairs k b d : (pairs_in (put k b d) <= length (b_dist b) + pairs_in d)%nat.
Proof.
  unfold pairs_in, list_sum. induction d as [|[k' b'] d IH]; [cbn; lia|].
  assert (fold_right Nat.add 0 (map (fun e => length (b_dist (snd e))) ((k', b') :: put k b d)) <= length (b_dist b) + fold_right Nat.add 0 (map (fun e => length (b_dist (snd e))) ((k', b') :: d)))%nat as G by (cbn [map fold_right]; lia).
  cbn [put]. destruct k as [x|]; [|exact G]. destruct k' as [y|]; [|exact G]. destruct (Reqb x y); [|exact G]. cbn. lia.
Qed.

Section Cut4.
  Context (T : text_ops) (show12 : R -> string) (TC : text_contract T) (FC : format12 T show12).

  Lemma read_count names rows z z' counts d : (length rows <= Z.to_nat z)%nat -> (length rows <= Z.to_nat z')%nat -> read_blocks T names rows (z :: counts) d = read_blocks T names rows (z' :: counts) d.
  Proof. intros A B. cbn [read_blocks]. rewrite (firstn_all2 rows A), (firstn_all2 rows B), (skipn_all2 rows A), (skipn_all2 rows B). reflexivity. Qed.

  Lemma read_short rot bs : Forall (fits rot) bs -> forall k d,
    read_blocks T (names_of rot) (map (cells show12) (firstn k (concat (map (block_rows rot) bs)))) (map (fun b => Z.of_nat (length (b_dist b))) bs) d =
    Ok (Some (fold_left (put_block T show12) (cut_blocks k bs) d)).
  Proof.
    induction 1 as [|b bs F FS IH]; intros k d; [reflexivity|]. cbn [map concat cut_blocks fold_left].
    rewrite firstn_app, map_app, (block_rows_length rot b F), <- block_start_rows. pose proof (block_start_fits rot k b F) as F'.
    destruct (Nat.le_gt_cases (length (b_dist b)) k) as [LE|GT].
    - replace (Z.of_nat (length (b_dist b))) with (Z.of_nat (length (b_dist (block_start k b)))) by (cbn; rewrite firstn_length; f_equal; lia).
      rewrite (read_one T show12 FC rot (block_start k b) _ _ _ F'). rewrite IH. reflexivity.
    - replace (k - length (b_dist b))%nat with 0%nat by lia. cbn [firstn map]. 
      rewrite (read_count _ _ _ (Z.of_nat (length (b_dist (block_start k b))))); [|rewrite app_nil_r, map_length, (block_rows_length rot _ F'); cbn; rewrite firstn_length, Nat2Z.id; lia..].
      change (@nil (list cell)) with (map (cells show12) (firstn 0 (concat (map (block_rows rot) bs)))) at 1.
      rewrite (read_one T show12 FC rot (block_start k b) _ _ _ F'). rewrite IH. reflexivity.
  Qed.

  Lemma cut_pairs bs : forall k d, (pairs_in (fold_left (put_block T show12) (cut_blocks k bs) d) <= k + pairs_in d)%nat.
  Proof.
    assert (forall k, (list_sum (map (fun b => length (b_dist b)) (cut_blocks k bs)) <= k)%nat) as C.
    { induction bs as [|b bs IH]; intro k; [cbn; lia|]. cbn [cut_blocks map]. specialize (IH (k - length (b_dist b))%nat). cbn. cbn in IH. rewrite firstn_length. unfold list_sum in IH. lia. }
    assert (forall l d, (pairs_in (fold_left (put_block T show12) l d) <= list_sum (map (fun b => length (b_dist b)) l) + pairs_in d)%nat) as P.
    { unfold list_sum. induction l as [|b l IH]; intro d; [apply Nat.le_refl|]. cbn [fold_left map fold_right]. eapply Nat.le_trans; [apply IH|]. unfold put_block.
      pose proof (put_pairs (np_mean (map (rd12 T show12) (b_dist b))) (read_back T show12 b) d) as H. cbn [read_back b_dist] in H. rewrite map_length in H. lia. }
    intros k d. eapply Nat.le_trans; [apply P|]. apply Nat.add_le_mono_r, C.
  Qed.
  Lemma pairs_len r : rpe_len r = pairs_in (r_blocks r).
  Proof. unfold rpe_len, pairs_in, blocks, list_sum. induction (r_blocks r) as [|e d IH]; [reflexivity|]. cbn. rewrite IH. reflexivity. Qed.

  Lemma columns_good r : good_names (rpe_columns r).
  Proof. unfold rpe_columns. destruct (has_rot_dev r); repeat split; reflexivity. Qed.
  Lemma columns_some r : rpe_columns r <> [].
  Proof. unfold rpe_columns. destruct (has_rot_dev r); discriminate. Qed.
  Lemma content_all r : one_line (r_name r) -> file_lines (rpe_content T show12 r (file_rows r)) = (rpe_head T r ++ body show12 (rpe_columns r) (file_rows r))%list.
  Proof. intro O. rewrite <- (append_nil (rpe_content T show12 r (file_rows r))), (content_lines T show12 TC FC) by exact O. cbn [file_lines]. rewrite app_nil_r. reflexivity. Qed.
  Lemma heads_hash r : Forall (fun l => exists x, l = "#" ++ x) (rpe_head T r).
  Proof. repeat constructor; eexists; reflexivity. Qed.
  Lemma wide_rows r : wide (length (rpe_columns r)) (file_rows r).
  Proof. apply rows_width_all. Qed.

  (** What is read from a beginning of the file of [r] *)
  Lemma cut_read r n r' : matching r -> one_line (r_name r) -> used_blocks r <> [] ->
    rpe_from_file T (take n (rpe_content T show12 r (file_rows r))) = Ok (Some r') ->
    r_name r' = join " " (words (r_name r)) /\ r_unit r' = r_unit r /\ Forall (fun b' => exists b, In b (used_blocks r) /\ first_pairs b b') (blocks r').
  Proof.
    intros M O U H. unfold rpe_from_file in H. apply bind_ok in H as [h [HH H]]. apply bind_ok in H as [fr [HF H]]. apply bind_ok in H as [cs [HC H]]. apply bind_ok in H as [d [HD H]].
    destruct d as [d|]; [|discriminate]. apply bind_ok in H as [u [HU H]]. injection H as <-. cbn [r_name r_unit].
    assert (h = rpe_header T r -> (forall e, In e d -> exists b, In b (used_blocks r) /\ first_pairs b (snd e)) -> h_name h = join " " (words (r_name r)) /\ u = r_unit r /\
      Forall (fun b' => exists b, In b (used_blocks r) /\ first_pairs b b') (blocks (mkRpeResult (h_name h) d u))) as FIN.
    { intros -> BB. split; [reflexivity|]. split.
      - rewrite <- (app_nil_r (rpe_header T r)) in HU. destruct (r_unit r) eqn:UU; try (rewrite (header_unit T r []) in HU by congruence; congruence). rewrite (header_none T r [] UU) in HU. discriminate.
      - unfold blocks. cbn. apply Forall_forall. intros b' I. apply in_map_iff in I as [e [<- I]]. apply (BB e I). }
    destruct (cut_cases show12 _ _ _ _ n (content_all r O) (heads_hash r)) as [D|[(p & q & NP & JP & L)|(i & p & L & B)]].
    - rewrite (no_frame _ D) in HF. discriminate.
    - assert (h = rpe_header T r) as EH.
      { unfold header_from_file in HH. rewrite L, handle_lines_app, (head_handled T) in HH. cbn [bind handle_lines] in HH. rewrite app_nil_r in HH.
        rewrite hashless_untouched in HH; [cbn in HH; congruence|]. apply (has_char_prefix _ p q). rewrite <- JP. apply columns_good. }
      apply (FIN EH). intros e I. destruct fr as [nms got]. pose proof (names_frame _ _ _ _ _ L eq_refl HF) as ->. cbn [fst snd] in HD.
      destruct (nothing_read T _ _ _ _ HD e I) as [[]|E]. rewrite E. destruct (used_blocks r) as [|b bs]; [congruence|]. exists b. split; [left; reflexivity|]. apply nothing_first.
    - assert (h = rpe_header T r) as EH.
      { unfold header_from_file in HH. rewrite L, handle_lines_app, (head_handled T) in HH. cbn [bind handle_lines] in HH. rewrite app_nil_r in HH.
        rewrite hashless_untouched in HH by apply columns_good. cbn [bind] in HH. rewrite (torn_untouched T show12 FC) in HH by exact B. congruence. }
      apply (FIN EH). intros e I. destruct (cut_table T show12 FC _ _ _ _ _ _ L eq_refl (columns_good r) (columns_some r) (wide_rows r) B) as (got & E & BG & _).
      rewrite E in HF. injection HF as <-. cbn [fst snd] in HD. rewrite EH in HC. rewrite <- (app_nil_r (rpe_header T r)), (header_counts T show12 TC FC) in HC by (apply used_num, U). injection HC as <-.
      rewrite num_pairs_used, map_map in HD. rewrite file_rows_used in BG.
      destruct (blocks_read T show12 FC (has_rot_dev r) (used_blocks r) (matching_fits r M) got [] d BG HD e I) as [[]|X]. exact X.
  Qed.

  (** The file cut off after [k] rows *)
  Definition row_point (r : rpe) (k : nat) : nat := String.length (rpe_content T show12 r (firstn k (file_rows r))).
  Lemma content_start r k : exists rest, rpe_content T show12 r (file_rows r) = rpe_content T show12 r (firstn k (file_rows r)) ++ rest.
  Proof.
    exists (fold_right (fun row s => (cells_line show12 row ++ nl) ++ s) "" (skipn k (file_rows r))). unfold rpe_content. rewrite !append_assoc. repeat f_equal.
    rewrite <- (firstn_skipn k (file_rows r)) at 1. generalize (firstn k (file_rows r)), (skipn k (file_rows r)). clear. intros a b. induction a as [|x a IH]; [reflexivity|]. cbn [app fold_right]. rewrite IH, !append_assoc. reflexivity.
  Qed.
  Lemma read_at_row r k : matching r -> one_line (r_name r) -> used_blocks r <> [] -> r_unit r <> NONE ->
    rpe_from_file T (take (row_point r k) (rpe_content T show12 r (file_rows r))) =
    Ok (Some (mkRpeResult (join " " (words (r_name r))) (fold_left (put_block T show12) (cut_blocks k (used_blocks r)) []) (r_unit r))).
  Proof.
    intros M O U N. destruct (content_start r k) as [rest ->]. unfold row_point. rewrite take_all. unfold rpe_from_file, header_from_file.
    assert (file_lines (rpe_content T show12 r (firstn k (file_rows r))) = (rpe_head T r ++ join "," (rpe_columns r) :: torn_lines show12 (file_rows r) k "")%list) as L.
    { rewrite <- (append_nil (rpe_content T show12 r _)), (content_lines T show12 TC FC) by exact O. cbn [file_lines]. rewrite app_nil_r. unfold torn_lines, rpe_body. cbn [rest_line String.eqb]. rewrite app_nil_r. reflexivity. }
    assert (torn_by show12 (file_rows r) k "") as B by (left; reflexivity).
    destruct (cut_table T show12 FC _ _ _ _ _ _ L eq_refl (columns_good r) (columns_some r) (wide_rows r) B) as (got & E & _ & G). rewrite (G eq_refl) in E.
    rewrite L, handle_lines_app, (head_handled T). cbn [bind handle_lines]. rewrite hashless_untouched by apply columns_good. cbn [bind]. rewrite (torn_untouched T show12 FC) by exact B. cbn [bind]. rewrite E. cbn [bind fst snd].
    rewrite (header_counts T show12 TC FC) by (apply used_num, U). cbn [bind]. rewrite num_pairs_used, map_map, file_rows_used.
    change (rpe_columns r) with (names_of (has_rot_dev r)). rewrite (read_short (has_rot_dev r) (used_blocks r) (matching_fits r M) k []). cbn [bind]. rewrite (header_unit T r) by exact N. reflexivity.
  Qed.
End Cut4.
