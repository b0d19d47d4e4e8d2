(** Facts about reading RPE result files. *)
From Verif Require Import Base BaseFacts EstModel TextModel TextFacts HeaderModel NumpyModel GeomModel IoModel IoSpec HeaderFacts IoFacts IoFacts4 EvalModel RpeModel RpeSpec RpeFacts.
Local Open Scope string_scope.

(** ** Keys *)

Lemma put_new (k : R) b d : (forall e, In e d -> fst e <> Some k) -> put (Some k) b d = (d ++ [(Some k, b)])%list.
Proof.
  induction d as [|[k' b'] d IH]; intro H; [reflexivity|]. cbn [put app]. rewrite IH by (intros e I; apply H; right; exact I).
  destruct k' as [y|]; [|reflexivity]. unfold Reqb. destruct (Req_EM_T k y) as [E|]; [|reflexivity].
  exfalso. apply (H (Some y, b') (or_introl eq_refl)). cbn. congruence.
Qed.

Lemma put_old (k : R) b d : (exists e, In e d /\ fst e = Some k) -> length (put (Some k) b d) = length d.
Proof.
  induction d as [|[k' b'] d IH]; intros [e [I E]]; [destruct I|]. cbn [put].
  destruct I as [<-|I].
  - cbn in E. rewrite E. unfold Reqb. destruct (Req_EM_T k k); [reflexivity|congruence].
  - destruct k' as [y|]; [unfold Reqb; destruct (Req_EM_T k y); [reflexivity|]|]; cbn; f_equal; apply IH; exists e; auto.
Qed.

Section Read.
  Context (T : text_ops) (show12 : R -> string) (TC : text_contract T) (FC : format12 T show12).
  Notation rd := (rd12 T show12).

  Definition key_of (b : block) : R := np_sum (map rd (b_dist b)) / INR (length (b_dist b)).
  Lemma key_mean b : b_dist b <> [] -> np_mean (map rd (b_dist b)) = Some (key_of b).
  Proof. unfold np_mean, key_of. destruct (b_dist b); [congruence|]. intros _. cbn [map]. rewrite <- map_cons, map_length. reflexivity. Qed.

  Lemma sum_near l : Rabs (np_sum (map rd l) - np_sum l) <= INR (length l) * (5 / 10 ^ 13).
  Proof.
    induction l as [|x l IH]; [cbn; rewrite Rminus_0_r, Rabs_R0; lra|]. cbn [map length]. rewrite S_INR.
    change (np_sum (rd x :: map rd l)) with (rd x + np_sum (map rd l)). change (np_sum (x :: l)) with (x + np_sum l).
    replace (rd x + np_sum (map rd l) - (x + np_sum l)) with ((rd x - x) + (np_sum (map rd l) - np_sum l)) by ring.
    eapply Rle_trans; [apply Rabs_triang|]. pose proof (proj2 (rd12_near T show12 FC x)) as N. unfold near12 in N. lra.
  Qed.
  Lemma key_near b : b_dist b <> [] -> Rabs (key_of b - mean_distance b) <= 5 / 10 ^ 13.
  Proof.
    intro N. unfold key_of, mean_distance. assert (0 < INR (length (b_dist b))) as P by (apply lt_0_INR; destruct (b_dist b); [congruence|cbn; lia]).
    pose proof (sum_near (b_dist b)) as S. set (n := INR (length (b_dist b))) in *. set (x := np_sum (map rd (b_dist b))) in *. set (y := np_sum (b_dist b)) in *.
    replace (x / n - y / n) with ((x - y) * / n) by (field; lra). rewrite Rabs_mult, (Rabs_pos_eq (/ n)) by (left; apply Rinv_0_lt_compat, P).
    apply Rmult_le_reg_r with n; [exact P|]. rewrite Rmult_assoc, Rinv_l by lra. lra.
  Qed.

  Lemma separated_keys l i j a b : Forall (fun b => b_dist b <> []) l -> separated l ->
    nth_error l i = Some a -> nth_error l j = Some b -> i <> j -> key_of a <> key_of b.
  Proof.
    intros F S A B N E. specialize (S i j a b A B N). rewrite Forall_forall in F.
    pose proof (key_near a (F a (nth_error_In _ _ A))) as KA. pose proof (key_near b (F b (nth_error_In _ _ B))) as KB.
    rewrite E in KA. assert (Rabs (mean_distance a - mean_distance b) <= 1 / 10 ^ 12); [|lra].
    replace (mean_distance a - mean_distance b) with ((key_of b - mean_distance b) - (key_of b - mean_distance a)) by ring.
    unfold Rminus at 1. eapply Rle_trans; [apply Rabs_triang|]. rewrite Rabs_Ropp. lra.
  Qed.

  Lemma fold_put l : Forall (fun b => b_dist b <> []) l -> forall d,
    (forall b e, In b l -> In e d -> fst e <> Some (key_of b)) ->
    (forall i j a b, nth_error l i = Some a -> nth_error l j = Some b -> i <> j -> key_of a <> key_of b) ->
    fold_left (put_block T show12) l d = (d ++ map (fun b => (Some (key_of b), read_back T show12 b)) l)%list.
  Proof.
    induction 1 as [|b l N F IH]; intros d D K; [rewrite app_nil_r; reflexivity|]. cbn [fold_left map].
    unfold put_block at 2. rewrite (key_mean b N), put_new by (intros e I; apply D; [left; reflexivity|exact I]).
    rewrite IH; [rewrite <- app_assoc; reflexivity| |].
    - intros c e C I. apply in_app_iff in I as [I|[<-|[]]]; [apply D; [right; exact C|exact I]|]. cbn. intro E. injection E as E.
      apply In_nth_error in C as [j C]. apply (K 0%nat (S j) b c); [reflexivity|exact C|discriminate|exact E].
    - intros i j a c A C NE. apply (K (S i) (S j) a c A C). congruence.
  Qed.

  (** The number of blocks of a dictionary never exceeds the number of assignments. *)
  Lemma put_length k b d : (length (put k b d) <= S (length d))%nat.
  Proof.
    induction d as [|[k' b'] d IH]; [reflexivity|]. cbn [put]. destruct k as [x|], k' as [y|]; try (cbn; lia).
    destruct (Reqb x y); cbn; lia.
  Qed.
  Lemma put_in k b d : exists e, In e (put (Some k) b d) /\ fst e = Some k.
  Proof.
    induction d as [|[k' b'] d [e [I E]]]; [exists (Some k, b); split; [left|]; reflexivity|]. cbn [put].
    destruct k' as [y|]; [unfold Reqb; destruct (Req_EM_T k y) as [->|]; [exists (Some y, b); split; [left|]; reflexivity|]|];
      (exists e; split; [right; exact I|exact E]).
  Qed.
  Lemma put_keeps k b d e : In e d -> exists e', In e' (put k b d) /\ fst e' = fst e.
  Proof.
    induction d as [|[k' b'] d IH]; [contradiction|]. intros [<-|I].
    - cbn [put]. destruct k as [x|], k' as [y|]; try (eexists; split; [left; reflexivity|reflexivity]).
      destruct (Reqb x y); (eexists; split; [left; reflexivity|reflexivity]).
    - destruct (IH I) as [e' [I' E]]. cbn [put]. destruct k as [x|], k' as [y|]; try (exists e'; split; [right; exact I'|exact E]).
      destruct (Reqb x y); [exists e; split; [right; exact I|reflexivity]|exists e'; split; [right; exact I'|exact E]].
  Qed.
  Lemma fold_keeps l : forall d e, In e d -> exists e', In e' (fold_left (put_block T show12) l d) /\ fst e' = fst e.
  Proof.
    induction l as [|b l IH]; intros d e I; [exists e; auto|]. cbn [fold_left]. unfold put_block at 2.
    destruct (put_keeps (np_mean (map rd (b_dist b))) (read_back T show12 b) d e I) as [e1 [I1 E1]].
    destruct (IH _ e1 I1) as [e2 [I2 E2]]. exists e2. split; [exact I2|congruence].
  Qed.
  Lemma fold_length l : forall d, (length (fold_left (put_block T show12) l d) <= length d + length l)%nat.
  Proof.
    induction l as [|b l IH]; intro d; [cbn; lia|]. cbn [fold_left length]. etransitivity; [apply IH|]. unfold put_block.
    pose proof (put_length (np_mean (map rd (b_dist b))) (read_back T show12 b) d). lia.
  Qed.
  Lemma fold_collision l m n a b : b_dist b <> [] -> b_dist a <> [] -> key_of a = key_of b ->
    (length (fold_left (put_block T show12) (l ++ a :: m ++ b :: n) []) < length (l ++ a :: m ++ b :: n))%nat.
  Proof.
    intros NB NA E. rewrite fold_left_app. cbn [fold_left]. rewrite fold_left_app. cbn [fold_left].
    set (d0 := fold_left (put_block T show12) l []). set (d1 := put_block T show12 d0 a). set (d2 := fold_left (put_block T show12) m d1).
    assert (exists e, In e d1 /\ fst e = Some (key_of a)) as [e [I F]] by (unfold d1, put_block; rewrite (key_mean a NA); apply put_in).
    destruct (fold_keeps m d1 e I) as [e2 [I2 F2]]. fold d2 in I2.
    assert (length (put_block T show12 d2 b) = length d2) as L2.
    { unfold put_block. rewrite (key_mean b NB). apply put_old. exists e2. split; [exact I2|congruence]. }
    pose proof (fold_length n (put_block T show12 d2 b)) as L3. rewrite L2 in L3.
    pose proof (fold_length m d1) as L4. fold d2 in L4. pose proof (put_length (np_mean (map rd (b_dist a))) (read_back T show12 a) d0) as L5.
    change (length d1 <= S (length d0))%nat in L5. pose proof (fold_length l []) as L6. fold d0 in L6. cbn in L6.
    rewrite !app_length. cbn [length]. rewrite app_length. cbn [length]. lia.
  Qed.

  (** ** Files *)

  Lemma rows_width rot b : Forall (fun row => length row = length (names_of rot)) (block_rows rot b).
  Proof.
    unfold block_rows, names_of. destruct rot.
    - generalize (b_pos b), (b_rot b). induction (b_dist b) as [|x a IH]; intros [|y p] [|z q]; cbn; constructor; [reflexivity|apply IH].
    - generalize (b_pos b). induction (b_dist b) as [|x a IH]; intros [|y p]; cbn; constructor; [reflexivity|apply IH].
  Qed.
  Lemma rows_width_all rot bs : Forall (fun row => length row = length (names_of rot)) (concat (map (block_rows rot) bs)).
  Proof. induction bs as [|b bs IH]; [constructor|]. cbn. apply Forall_app. split; [apply rows_width|exact IH]. Qed.
  Lemma width_nonempty rot (rows : list (list R)) : Forall (fun row => length row = length (names_of rot)) rows -> Forall (fun x => x <> []) rows.
  Proof. apply Forall_impl. intros row L ->. destruct rot; discriminate. Qed.

  Lemma pad_full (row : list R) n : length row = n -> pad n (map show12 row) = cells show12 row.
  Proof. intros <-. unfold pad, cells. rewrite map_length, Nat.sub_diag, app_nil_r, map_map. reflexivity. Qed.

  Lemma matching_fits r : matching r -> Forall (fits (has_rot_dev r)) (used_blocks r).
  Proof.
    intro M. pose proof M as [MP _]. assert (Forall (fits (has_rot_dev r)) (blocks r)) as F.
    { destruct (has_rot_dev r) eqn:H.
      - pose proof (matching_rot r M H) as MR. apply Forall_forall. intros b I. rewrite Forall_forall in MP, MR. split; [apply MP|apply MR]; exact I.
      - pose proof (matching_no_rot r M H) as MR. apply Forall_forall. intros b I. rewrite Forall_forall in MP, MR. split; [apply MP|apply MR]; exact I. }
    apply Forall_forall. intros b I. unfold used_blocks in I. apply filter_In in I as [I _]. rewrite Forall_forall in F. apply F, I.
  Qed.
  Lemma used_nonempty r : Forall (fun b => b_dist b <> []) (used_blocks r).
  Proof. apply Forall_forall. intros b I. unfold used_blocks in I. apply filter_In in I as [_ I]. destruct (b_dist b); discriminate. Qed.

  Definition file_rows (r : rpe) : list (list R) := concat (map (block_rows (has_rot_dev r)) (blocks r)).
  Lemma file_rows_used r : file_rows r = concat (map (block_rows (has_rot_dev r)) (used_blocks r)).
  Proof. apply used_rows. Qed.

  Lemma written r before : matching r -> rpe_to_file T show12 before r = Ok (before ++ rpe_content T show12 r (file_rows r)).
  Proof. intro M. apply to_file_content, matching_rows, M. Qed.

  (** Reading a file whose lines are those of [r], perhaps followed by those of a second result *)
  Definition all_lines (r : rpe) : list string := (rpe_head T r ++ rpe_body show12 r (file_rows r))%list.

  Lemma rows_nonempty r : Forall (fun x => x <> []) (file_rows r).
  Proof. eapply width_nonempty, rows_width_all. Qed.

  Lemma frame_one text r : file_lines text = all_lines r -> read_frame text = Ok (rpe_columns r, map (cells show12) (file_rows r)).
  Proof.
    intro L. unfold read_frame, data_lines. rewrite L. unfold all_lines. fold nonblank. rewrite (body_data T show12 FC) by apply rows_nonempty.
    rewrite (body_split T show12 FC) by apply rows_nonempty.
    assert (Forall (fun row => length row = length (rpe_columns r)) (file_rows r)) as W by (apply rows_width_all).
    assert (forallb (fun l => (length l <=? length (rpe_columns r))%nat) (map (map show12) (file_rows r)) = true) as ->.
    { apply forallb_forall. intros l I. apply in_map_iff in I as [row [<- I]]. rewrite Forall_forall in W. rewrite map_length, (W row I). apply Nat.leb_refl. }
    f_equal. f_equal. rewrite map_map. apply map_ext_in. intros row I. rewrite Forall_forall in W. apply pad_full, W, I.
  Qed.

  Lemma frame_two text r s : file_lines text = (all_lines r ++ all_lines s)%list -> implb (has_rot_dev s) (has_rot_dev r) = true ->
    exists junk, read_frame text = Ok (rpe_columns r, map (cells show12) (file_rows r) ++ junk)%list.
  Proof.
    intros L IM. unfold read_frame, data_lines. rewrite L, map_app, filter_app. unfold all_lines.
    fold nonblank. rewrite !(body_data T show12 FC) by apply rows_nonempty. rewrite map_app.
    rewrite !(body_split T show12 FC) by apply rows_nonempty. cbn [app].
    assert (Forall (fun row => length row = length (rpe_columns r)) (file_rows r)) as W by (apply rows_width_all).
    assert (Forall (fun row => length row = length (rpe_columns s)) (file_rows s)) as W2 by (apply rows_width_all).
    assert (length (rpe_columns s) <= length (rpe_columns r))%nat as LE by (unfold rpe_columns; destruct (has_rot_dev r), (has_rot_dev s); cbn in *; try lia; discriminate).
    assert (forallb (fun l => (length l <=? length (rpe_columns r))%nat) (map (map show12) (file_rows r) ++ rpe_columns s :: map (map show12) (file_rows s)) = true) as ->.
    { apply forallb_forall. intros l I. apply Nat.leb_le. apply in_app_iff in I as [I|[<-|I]]; [|exact LE|].
      - apply in_map_iff in I as [row [<- I]]. rewrite Forall_forall in W. rewrite map_length, (W row I). lia.
      - apply in_map_iff in I as [row [<- I]]. rewrite Forall_forall in W2. rewrite map_length, (W2 row I). exact LE. }
    eexists. f_equal. f_equal. rewrite map_app. f_equal. rewrite map_map. apply map_ext_in. intros row I. rewrite Forall_forall in W. apply pad_full, W, I.
  Qed.

  Lemma used_num r : used_blocks r <> [] -> num_pairs r <> [].
  Proof. rewrite num_pairs_used. destruct (used_blocks r); [congruence|discriminate]. Qed.

  Lemma read_one_file r : matching r -> one_line (r_name r) -> used_blocks r <> [] -> r_unit r <> NONE ->
    rpe_from_file T (rpe_content T show12 r (file_rows r)) =
    Ok (Some (mkRpeResult (join " " (words (r_name r))) (fold_left (put_block T show12) (used_blocks r) []) (r_unit r))).
  Proof.
    intros M O U N. unfold rpe_from_file.
    assert (file_lines (rpe_content T show12 r (file_rows r)) = all_lines r) as L.
    { rewrite <- (append_nil (rpe_content T show12 r (file_rows r))), (content_lines T show12 TC FC) by exact O. cbn [file_lines]. rewrite app_nil_r. reflexivity. }
    unfold header_from_file. rewrite L. unfold all_lines. rewrite handle_lines_app, (head_handled T). cbn [bind].
    rewrite (body_handled T show12 FC). cbn [bind]. rewrite (frame_one _ r L). cbn [bind fst snd].
    rewrite (header_counts T show12 TC FC) by (apply used_num, U). cbn [bind].
    rewrite num_pairs_used, map_map, file_rows_used.
    pose proof (read_all T show12 FC (has_rot_dev r) (used_blocks r) (matching_fits r M) [] []) as RA. rewrite app_nil_r in RA.
    change (names_of (has_rot_dev r)) with (rpe_columns r) in RA. rewrite RA. cbn [bind]. rewrite (header_unit T r) by exact N. reflexivity.
  Qed.

  Lemma read_none r : matching r -> one_line (r_name r) -> used_blocks r <> [] -> r_unit r = NONE ->
    rpe_from_file T (rpe_content T show12 r (file_rows r)) = Err ValueError.
  Proof.
    intros M O U N. unfold rpe_from_file.
    assert (file_lines (rpe_content T show12 r (file_rows r)) = all_lines r) as L.
    { rewrite <- (append_nil (rpe_content T show12 r (file_rows r))), (content_lines T show12 TC FC) by exact O. cbn [file_lines]. rewrite app_nil_r. reflexivity. }
    unfold header_from_file. rewrite L. unfold all_lines. rewrite handle_lines_app, (head_handled T). cbn [bind].
    rewrite (body_handled T show12 FC). cbn [bind]. rewrite (frame_one _ r L). cbn [bind fst snd].
    rewrite (header_counts T show12 TC FC) by (apply used_num, U). cbn [bind].
    rewrite num_pairs_used, map_map, file_rows_used.
    pose proof (read_all T show12 FC (has_rot_dev r) (used_blocks r) (matching_fits r M) [] []) as RA. rewrite app_nil_r in RA.
    change (names_of (has_rot_dev r)) with (rpe_columns r) in RA. rewrite RA. cbn [bind]. rewrite (header_none T r) by exact N. reflexivity.
  Qed.

  Lemma read_two_files r s : matching r -> matching s -> one_line (r_name r) -> one_line (r_name s) -> used_blocks s <> [] -> r_unit s <> NONE ->
    num_pairs r = num_pairs s -> implb (has_rot_dev s) (has_rot_dev r) = true ->
    rpe_from_file T (rpe_content T show12 r (file_rows r) ++ rpe_content T show12 s (file_rows s)) =
    Ok (Some (mkRpeResult (join " " (words (r_name s))) (fold_left (put_block T show12) (used_blocks r) []) (r_unit s))).
  Proof.
    intros M M' O O' U N E IM. unfold rpe_from_file.
    assert (file_lines (rpe_content T show12 r (file_rows r) ++ rpe_content T show12 s (file_rows s)) = (all_lines r ++ all_lines s)%list) as L.
    { rewrite (content_lines T show12 TC FC) by exact O. rewrite <- (append_nil (rpe_content T show12 s (file_rows s))), (content_lines T show12 TC FC) by exact O'.
      cbn [file_lines]. rewrite app_nil_r. unfold all_lines. rewrite <- app_assoc. reflexivity. }
    unfold header_from_file. rewrite L. unfold all_lines. rewrite !handle_lines_app, (head_handled T). cbn [bind].
    rewrite (body_handled T show12 FC). cbn [bind]. rewrite !handle_lines_app, (head_handled T). cbn [bind].
    rewrite (body_handled T show12 FC). cbn [bind]. destruct (frame_two _ r s L IM) as [junk ->]. cbn [bind fst snd].
    rewrite (header_counts T show12 TC FC) by (apply used_num, U). cbn [bind]. rewrite <- E.
    rewrite num_pairs_used, map_map, file_rows_used.
    pose proof (read_all T show12 FC (has_rot_dev r) (used_blocks r) (matching_fits r M) junk []) as RA.
    change (names_of (has_rot_dev r)) with (rpe_columns r) in RA. rewrite RA. cbn [bind]. rewrite (header_unit T s) by exact N. reflexivity.
  Qed.

  Lemma near_map (l : list R) : Forall2 near12 l (map rd l).
  Proof. induction l as [|x l IH]; constructor; [apply (rd12_near T show12 FC)|exact IH]. Qed.
  Lemma read_back_near b : near_block b (read_back T show12 b).
  Proof. split; [|split]; apply near_map. Qed.
End Read.
