(** Proofs about the files of absolute comparison results. *)
From Verif Require Import Base BaseFacts EstModel TextModel TextFacts HeaderModel NumpyModel TrajModel TrajSpec TrajFacts2 GeomModel GeomSpec IoModel IoSpec IoFacts IoFacts2 EvalModel RpeModel RpeSpec RpeFacts AteModel AteSpec.
Local Open Scope string_scope.

(** ** Tables *)

Definition col (j : nat) (rows : list (list R)) : list R := map (fun row => nth j row 0) rows.
Definition wide (w : nat) (rows : list (list R)) : Prop := Forall (fun row => length row = w) rows.
Definition beside (a b : list (list R)) : list (list R) := map (fun ab => (fst ab ++ snd ab)%list) (combine a b).

Lemma np_c_beside a b : length a = length b -> np_c a b = Ok (beside a b).
Proof. intro L. unfold np_c. rewrite L, Nat.eqb_refl. reflexivity. Qed.
Lemma beside_length a b : length a = length b -> length (beside a b) = length a.
Proof. intro L. unfold beside. rewrite map_length, combine_length. lia. Qed.
Lemma wide_beside v w a b : wide v a -> wide w b -> wide (v + w) (beside a b).
Proof.
  intro A. revert b. induction A as [|x a L A IH]; intros [|y b] B; try constructor.
  - cbn. rewrite app_length, L. inversion B; subst. lia.
  - apply IH. inversion B; assumption.
Qed.
Lemma col_left j v a b : length a = length b -> wide v a -> (j < v)%nat -> col j (beside a b) = col j a.
Proof.
  intros L A J. revert b L. induction A as [|x a W A IH]; intros [|y b] L; cbn in L; try lia; [reflexivity|].
  cbn. rewrite app_nth1 by lia. f_equal. apply IH. lia.
Qed.
Lemma col_right j v a b : length a = length b -> wide v a -> col (v + j) (beside a b) = col j b.
Proof.
  intros L A. revert b L. induction A as [|x a W A IH]; intros [|y b] L; cbn in L; try lia; [reflexivity|].
  cbn. rewrite app_nth2 by lia. f_equal; [f_equal; lia|]. apply IH. lia.
Qed.
Lemma wide_column l : wide 1 (as_column l).
Proof. apply Forall_forall. intros r I. apply in_map_iff in I as [x [<- _]]. reflexivity. Qed.
Lemma col_column l : col 0 (as_column l) = l.
Proof. unfold col, as_column. rewrite map_map. apply map_id. Qed.
Lemma wide_v3 l : wide 3 (map v3_values l).
Proof. apply Forall_forall. intros r I. apply in_map_iff in I as [x [<- _]]. reflexivity. Qed.
Lemma col_v3 l : col 0 (map v3_values l) = map vx l /\ col 1 (map v3_values l) = map vy l /\ col 2 (map v3_values l) = map vz l.
Proof. unfold col. rewrite !map_map. repeat split. Qed.

Section Table.
  Context (T : text_ops) (show12 : R -> string) (TC : text_contract T) (FC : format12 T show12).
  Notation rd := (rd12 T show12).

  Lemma frame_col names rows name j w : index_of name names = Ok j -> wide w rows -> (j < w)%nat ->
    frame_column T names (map (cells show12) rows) name = Ok (map (fun x => Fin (rd x)) (col j rows)).
  Proof.
    intros I W J. unfold frame_column. rewrite I.
    assert (map (fun r => nth j r None) (map (cells show12) rows) = map (fun x => Some (show12 x)) (col j rows)) as ->.
    { unfold col. rewrite !map_map. apply map_ext_in. intros row H. unfold wide in W. rewrite Forall_forall in W. specialize (W row H).
      unfold cells. rewrite (nth_indep _ None (Some (show12 0))) by (rewrite map_length; lia).
      rewrite (map_nth (fun x => Some (show12 x))). reflexivity. }
    apply (to_nums12 T show12 FC).
  Qed.

  Lemma frame_cols names rows w wanted cs : wide w rows ->
    Forall2 (fun name c => exists j, index_of name names = Ok j /\ (j < w)%nat /\ col j rows = c) wanted cs ->
    frame_columns T names (map (cells show12) rows) wanted = Ok (Some (map (map rd) cs)).
  Proof.
    intros W F. unfold frame_columns.
    assert (mapM (frame_column T names (map (cells show12) rows)) wanted = Ok (map (fun c => map (fun x => Fin (rd x)) c) cs)) as ->.
    { induction F as [|a c l m (j & I & J & E) F IH]; [reflexivity|]. cbn [mapM map]. rewrite (frame_col names rows a j w I W J), E. cbn [bind]. rewrite IH. reflexivity. }
    cbn [bind]. f_equal. rewrite map_map. rewrite (map_ext _ (fun c => Some (map rd c))); [|intro c; apply (all_fin12 T show12)].
    rewrite <- map_map with (f := map rd). apply all_some_map.
  Qed.

  Lemma v3_read l : v3_of (map (map rd) [map vx l; map vy l; map vz l]) = map (fun v => mkV3 (rd (vx v)) (rd (vy v)) (rd (vz v))) l.
  Proof. cbn [map v3_of]. induction l as [|v l IH]; [reflexivity|]. cbn [map combine]. f_equal. exact IH. Qed.
  Lemma v3_near l : Forall2 near12_v3 l (map (fun v => mkV3 (rd (vx v)) (rd (vy v)) (rd (vz v))) l).
  Proof. induction l as [|v l IH]; constructor; [repeat split; apply (rd12_near T show12 FC)|exact IH]. Qed.
  Lemma near_list l : Forall2 near12 l (map rd l).
  Proof. induction l as [|v l IH]; constructor; [apply (rd12_near T show12 FC)|exact IH]. Qed.

  (** ** Reading a table with a header *)
  Definition good_names (names : list string) : Prop :=
    split_on "," (join "," names) = names /\ has_char "#" (join "," names) = false /\ nonblank (join "," names) = true /\ one_line (join "," names).
  Definition body (names : list string) (rows : list (list R)) : list string := join "," names :: map (cells_line show12) rows.

  Lemma body_kept names rows w : good_names names -> wide (S w) rows -> filter nonblank (map uncomment (body names rows)) = body names rows.
  Proof.
    intros (_ & H & N & _) W. unfold body. cbn [map filter]. rewrite uncomment_id by exact H. rewrite N. f_equal.
    induction W as [|x rows L F IH]; [reflexivity|]. cbn [map filter]. rewrite uncomment_id by apply (cells_line_hash T show12 FC).
    assert (nonblank (cells_line show12 x) = true) as ->; [|f_equal; exact IH].
    unfold cells_line. destruct x as [|a x]; [discriminate|]. cbn [map]. apply word_nonblank, (f12_word T show12 FC).
  Qed.
  Lemma body_cells names rows w : good_names names -> wide (S w) rows -> map (split_on ",") (body names rows) = names :: map (map show12) rows.
  Proof.
    intros (S & _) W. unfold body. cbn [map]. rewrite S. f_equal. rewrite map_map. apply map_ext_in. intros x I.
    unfold wide in W. rewrite Forall_forall in W. specialize (W x I). apply (cells_split T show12 FC). destruct x; discriminate.
  Qed.
  Lemma pad_cells (row : list R) n : length row = n -> pad n (map show12 row) = cells show12 row.
  Proof. intros <-. unfold pad, cells. rewrite map_length, Nat.sub_diag, app_nil_r, map_map. reflexivity. Qed.
  Lemma fits_width n w rows : wide w rows -> (w <= n)%nat -> forallb (fun l => (length l <=? n)%nat) (map (map show12) rows) = true.
  Proof.
    intros W L. apply forallb_forall. intros l I. apply in_map_iff in I as [row [<- I]]. unfold wide in W. rewrite Forall_forall in W.
    rewrite map_length, (W row I). apply Nat.leb_le, L.
  Qed.

  Lemma read_table text heads names rows : file_lines text = (heads ++ body names rows)%list ->
    filter nonblank (map uncomment heads) = [] -> good_names names -> names <> [] -> wide (length names) rows ->
    read_frame text = Ok (names, map (cells show12) rows).
  Proof.
    intros L H G N W. unfold read_frame, data_lines. rewrite L, map_app, filter_app. fold nonblank. rewrite H. cbn [app].
    destruct names as [|n0 ns]; [congruence|]. cbn [length] in W. rewrite (body_kept _ rows _ G W), (body_cells _ rows _ G W).
    rewrite (fits_width _ (S (length ns)) rows W) by (cbn; lia). f_equal. f_equal. rewrite map_map. apply map_ext_in. intros row I.
    unfold wide in W. rewrite Forall_forall in W. apply pad_cells, W, I.
  Qed.

  Lemma read_two_tables text heads names rows heads' names' rows' :
    file_lines text = ((heads ++ body names rows) ++ heads' ++ body names' rows')%list ->
    filter nonblank (map uncomment heads) = [] -> filter nonblank (map uncomment heads') = [] ->
    good_names names -> good_names names' -> names <> [] -> names' <> [] -> wide (length names) rows -> wide (length names') rows' ->
    read_frame text = Err ValueError \/
    exists junk, read_frame text = Ok (names, map (cells show12) rows ++ pad (length names) names' :: junk)%list.
  Proof.
    intros L H H' G G' N N' W W'. unfold read_frame, data_lines. rewrite L, !map_app, !filter_app. fold nonblank. rewrite H, H'. cbn [app].
    destruct names as [|n0 ns]; [congruence|]. destruct names' as [|m0 ms]; [congruence|]. cbn [length] in W, W'.
    rewrite (body_kept _ rows _ G W), (body_kept _ rows' _ G' W'), map_app, (body_cells _ rows _ G W), (body_cells _ rows' _ G' W').
    cbn [app]. destruct (forallb _ _) eqn:F; [right|left; reflexivity]. exists (map (pad (length (n0 :: ns))) (map (map show12) rows')).
    rewrite map_app. cbn [map]. f_equal. f_equal. f_equal.
    rewrite map_map. apply map_ext_in. intros row I. unfold wide in W. rewrite Forall_forall in W. apply pad_cells, W, I.
  Qed.

  Lemma body_untouched h names rows : good_names names -> handle_lines T h (body names rows) = Ok h.
  Proof.
    intros (_ & H & _). unfold body. cbn [handle_lines]. rewrite hashless_untouched by exact H. cbn [bind].
    induction rows as [|row rows IH]; [reflexivity|]. cbn [map handle_lines]. rewrite hashless_untouched by apply (cells_line_hash T show12 FC). exact IH.
  Qed.
  Lemma body_lines names rows rest : good_names names ->
    file_lines ((join "," names ++ nl) ++ fold_right (fun row s => (join "," (map show12 row) ++ nl) ++ s) "" rows ++ rest) =
    (body names rows ++ file_lines rest)%list.
  Proof.
    intros (_ & _ & _ & O). assert (forall s, nl ++ s = String newline s) as NL by reflexivity. rewrite !append_assoc, NL, file_lines_cut by exact O.
    unfold body. cbn [app]. f_equal. induction rows as [|row rows IH]; [reflexivity|]. cbn [fold_right map app]. rewrite !append_assoc, NL.
    change (join "," (map show12 row)) with (cells_line show12 row).
    rewrite file_lines_cut by apply (cells_line_one T show12 FC). f_equal. exact IH.
  Qed.
End Table.

(** ** Quaternions with twelve decimals *)
Lemma scaled_component_gen e n x y : 0 <= e -> 0 < n -> Rabs y <= n -> 1 - 2 * e <= n <= 1 + 2 * e ->
  Rabs (y - x) <= e -> Rabs (/ n * y - x) <= 3 * e.
Proof.
  intros E P B N D.
  replace (/ n * y - x) with (/ n * y * (1 - n) + (y - x)) by (field; lra).
  apply Rle_trans with (Rabs (/ n * y * (1 - n)) + Rabs (y - x)); [apply Rabs_triang|].
  rewrite Rabs_mult.
  assert (Rabs (/ n * y) <= 1) as U.
  { rewrite Rabs_mult, Rabs_right by (apply Rle_ge; left; apply Rinv_0_lt_compat; exact P).
    apply Rmult_le_reg_l with n; [exact P|]. rewrite <- Rmult_assoc, Rinv_r, Rmult_1_l, Rmult_1_r by lra. exact B. }
  assert (Rabs (1 - n) <= 2 * e) as W by (apply Rabs_le; lra).
  assert (Rabs (/ n * y) * Rabs (1 - n) <= 1 * (2 * e)) as M by (apply Rmult_le_compat; try apply Rabs_pos; assumption).
  lra.
Qed.

Section Quat12.
  Context {Q : Type} (ops : rot_ops Q) (qops : quat_ops Q) (QC : quat_contract ops qops) (T : text_ops) (show12 : R -> string) (FC : format12 T show12).
  Notation rd := (rd12 T show12).
  Definition rdq (v : V4) : V4 := mkV4 (rd (q_x v)) (rd (q_y v)) (rd (q_z v)) (rd (q_w v)).

  Lemma quat12_read q : exists q', from_quat qops (rdq (as_quat qops q)) = Some q' /\ near12_quat (as_quat qops q) (as_quat qops q').
  Proof.
    set (v := as_quat qops q). assert (qnorm v = 1) as U by apply (qc_unit ops qops QC). set (e := 5 / 10 ^ 13).
    assert (0 <= e < 1 / 4) as E by (unfold e; lra).
    assert (1 - 2 * e <= qnorm (rdq v) <= 1 + 2 * e) as N.
    { apply norm_near with (v := v); [exact U|exact E|..]; cbn [rdq q_x q_y q_z q_w]; apply (rd12_near T show12 FC). }
    assert (0 < qnorm (rdq v)) as P by lra. destruct (qc_from ops qops QC (rdq v)) as [q' [F G]]; [lra|].
    exists q'. split; [exact F|]. rewrite G. unfold near12_quat, qscale. cbn [q_x q_y q_z q_w].
    assert (forall x, In x [q_x (rdq v); q_y (rdq v); q_z (rdq v); q_w (rdq v)] -> Rabs x <= qnorm (rdq v)) as C by (intros x I; apply component_le_norm; exact I).
    replace (15 / 10 ^ 13) with (3 * e) by (unfold e; lra).
    repeat split; apply scaled_component_gen; try apply E; try assumption; try (apply C; cbn; tauto); cbn [rdq q_x q_y q_z q_w]; apply (rd12_near T show12 FC).
  Qed.
  Lemma quats12_read (l : list Q) : exists l',
    mapM (fun v => match from_quat qops v with Some q => Ok q | None => Err ValueError end) (map (fun q => rdq (as_quat qops q)) l) = Ok l' /\
    Forall2 (fun x y => near12_quat (as_quat qops x) (as_quat qops y)) l l'.
  Proof.
    induction l as [|q l (l' & E & F)]; [exists []; split; [reflexivity|constructor]|]. destruct (quat12_read q) as (q' & E' & N). exists (q' :: l').
    split; [cbn [map mapM]; rewrite E'; cbn [bind]; rewrite E; reflexivity|constructor; assumption].
  Qed.

  Lemma wide_quats l : wide 4 (quat_rows qops l).
  Proof. apply Forall_forall. intros r I. apply in_map_iff in I as [x [<- _]]. reflexivity. Qed.
  Definition qcols (l : list Q) : list (list R) :=
    [map (fun q => q_x (as_quat qops q)) l; map (fun q => q_y (as_quat qops q)) l; map (fun q => q_z (as_quat qops q)) l; map (fun q => q_w (as_quat qops q)) l].
  Lemma col_quats l : [col 0 (quat_rows qops l); col 1 (quat_rows qops l); col 2 (quat_rows qops l); col 3 (quat_rows qops l)] = qcols l.
  Proof. unfold col, quat_rows, qcols. rewrite !map_map. reflexivity. Qed.
  Lemma v4_read l : v4_of (map (map rd) (qcols l)) = map (fun q => rdq (as_quat qops q)) l.
  Proof. unfold qcols. cbn [map v4_of]. induction l as [|v l IH]; [reflexivity|]. cbn [map combine]. f_equal. exact IH. Qed.
End Quat12.
