(** Reading tables of numbers from text. *)
From Verif Require Import Base BaseFacts EstModel TextModel TextFacts HeaderModel NumpyModel NumpyFacts EvalModel ParamModel ParamSpec ParamFacts ParamFacts2 ParamFacts3
  TrajModel GeomModel IoModel IoSpec IoFacts TornModel TornFacts StoreModel StoreSpec.
Local Open Scope string_scope.

Lemma nth_all {A} (l : list A) d : map (fun j => nth j l d) (seq 0 (length l)) = l.
Proof.
  apply (nth_ext _ _ d d); [rewrite map_length, seq_length; reflexivity|]. intros i H. rewrite map_length, seq_length in H.
  rewrite (nth_indep _ d (nth 0%nat l d)) by (rewrite map_length, seq_length; exact H).
  rewrite (map_nth (fun j => nth j l d) (seq 0 (length l)) 0%nat i), seq_nth by exact H. reflexivity.
Qed.
Lemma all_some_length {A} (l : list (option A)) : forall r, all_some l = Some r -> length r = length l.
Proof.
  induction l as [|[x|] l IH]; intros r H; cbn in H; [injection H as <-; reflexivity| |discriminate].
  destruct (all_some l) as [s|] eqn:E; [|discriminate]. injection H as <-. cbn. rewrite (IH s eq_refl). reflexivity.
Qed.
Lemma all_some_known {A} (l : list A) : all_some (map Some l) = Some l.
Proof. induction l as [|x l IH]; [reflexivity|]. cbn. rewrite IH. reflexivity. Qed.

(** ** Rows of good cells *)
Definition good (s : string) : Prop := word s /\ has_char "," s = false /\ has_char "#" s = false.
Notation row_text := (join ",").

Lemma good_row cells : cells <> [] -> Forall good cells ->
  spaceless (row_text cells) = true /\ has_char "#" (row_text cells) = false /\ split_on "," (row_text cells) = cells /\ nonblank (row_text cells) = true.
Proof.
  intros N F.
  assert (spaceless (row_text cells) = true) as SP.
  { clear N. induction F as [|w l [W _] F IH]; [reflexivity|]. destruct l as [|w' l]; [exact (proj2 W)|].
    change (row_text (w :: w' :: l)) with (w ++ "," ++ row_text (w' :: l)). rewrite !spaceless_app, (proj2 W), IH. reflexivity. }
  split; [exact SP|]. split; [|split].
  - apply has_char_join; [reflexivity|]. revert F. apply Forall_impl. intros s G. apply G.
  - apply (split_on_join ","); [exact N|]. revert F. apply Forall_impl. intros s G. apply G.
  - destruct cells as [|w l]; [congruence|]. inversion F as [|? ? [W _] F']; subst.
    destruct l as [|w' l]; [unfold nonblank; cbn [join]; rewrite words_word by exact W; reflexivity|].
    apply nonblank_word_prefix. exact W.
Qed.

Lemma kept_rows S : Forall (fun c => c <> [] /\ Forall good c) S -> filter nonblank (map uncomment (map row_text S)) = map row_text S.
Proof.
  induction 1 as [|c S [N G] F IH]; [reflexivity|]. destruct (good_row c N G) as (_ & H & _ & B).
  cbn [map filter]. rewrite uncomment_id by exact H. rewrite B, IH. reflexivity.
Qed.
Lemma split_rows S : Forall (fun c => c <> [] /\ Forall good c) S -> map (split_on ",") (map row_text S) = S.
Proof.
  induction 1 as [|c S [N G] F IH]; [reflexivity|]. destruct (good_row c N G) as (_ & _ & E & _). cbn [map]. rewrite E, IH. reflexivity.
Qed.

Section Typed.
  Context (T : text_ops).

  (** The element for a cell *)
  Definition read_cell (c : cell) : entry := match cell_num T c with Some x => finite x | None => None end.
  Definition readable (c : cell) : Prop := cell_num T c <> None.

  Lemma typed_readable col : Forall readable col -> typed T col = map read_cell col.
  Proof.
    intro F. unfold typed.
    assert (exists l, all_some (map (cell_num T) col) = Some l /\ map finite l = map read_cell col) as (l & -> & E).
    { induction F as [|c col R F (l & E & M)]; [exists []; split; reflexivity|]. unfold readable in R.
      destruct (cell_num T c) as [x|] eqn:C; [|congruence]. exists (x :: l). cbn [map all_some]. rewrite C, E. split; [reflexivity|].
      cbn [map]. rewrite M. unfold read_cell at 2. rewrite C. reflexivity. }
    exact E.
  Qed.
  Lemma typed_text col c : In c col -> cell_num T c = None -> typed T col = map (fun _ => None) col.
  Proof.
    intros I N. unfold typed. destruct (all_some (map (cell_num T) col)) as [l|] eqn:E; [exfalso|reflexivity].
    revert l E. induction col as [|d col IH]; [destruct I|]. intros l E. cbn [map all_some] in E. destruct I as [->|I].
    - rewrite N in E. discriminate.
    - destruct (cell_num T d); [|discriminate]. destruct (all_some (map (cell_num T) col)) eqn:E'; [|discriminate]. exact (IH I _ eq_refl).
  Qed.

  Definition table_of (n : nat) (rows : list (list cell)) : list (list entry) :=
    let cols := map (fun j => typed T (map (fun r => nth j r None) rows)) (seq 0 n) in
    map (fun i => map (fun c => nth i c None) cols) (seq 0 (length rows)).

  Lemma table_length n rows : length (table_of n rows) = length rows.
  Proof. unfold table_of. rewrite map_length, seq_length. reflexivity. Qed.

  Lemma nth_map_lt {A B} (f : A -> B) l i d e : (i < length l)%nat -> nth i (map f l) e = f (nth i l d).
  Proof. intro H. rewrite (nth_indep _ e (f d)) by (rewrite map_length; exact H). apply map_nth. Qed.

  Lemma table_readable n rows : Forall (fun r => length r = n) rows -> Forall (Forall readable) rows -> table_of n rows = map (map read_cell) rows.
  Proof.
    intros L F. rewrite Forall_forall in L, F. unfold table_of.
    transitivity (map (fun i => nth i (map (map read_cell) rows) []) (seq 0 (length rows))).
    2:{ replace (length rows) with (length (map (map read_cell) rows)) by apply map_length. apply nth_all. }
    apply map_ext_in. intros i I. apply in_seq in I.
    assert (In (nth i rows []) rows) as R by (apply nth_In; lia).
    rewrite (nth_map_lt (map read_cell) rows i []) by lia.
    rewrite map_map. rewrite <- (nth_all (nth i rows []) None) at 1. rewrite (L _ R), map_map. apply map_ext_in. intros j J. apply in_seq in J.
    rewrite typed_readable.
    2:{ apply Forall_forall. intros c C. apply in_map_iff in C as (r & <- & C). specialize (F r C). rewrite Forall_forall in F. apply F.
        apply nth_In. pose proof (L r C) as E. unfold cell in *. lia. }
    rewrite map_map. rewrite (nth_map_lt (fun r => read_cell (nth j r None)) rows i []) by exact (proj2 I). reflexivity.
  Qed.

  (** A column with a cell that is not a number *)
  Lemma table_text n rows j r : In r rows -> (j < n)%nat -> cell_num T (nth j r None) = None ->
    forall row, In row (table_of n rows) -> nth_error row j = Some None.
  Proof.
    intros I J N row R. unfold table_of in R. apply in_map_iff in R as (i & <- & R). apply in_seq in R.
    rewrite nth_error_map', nth_error_map', nth_error_seq. replace (j <? n)%nat with true by (symmetry; apply Nat.ltb_lt; exact J). cbn [option_map].
    f_equal. rewrite (typed_text _ (nth j r None)); [|apply in_map_iff; exists r; split; [reflexivity|exact I]|exact N].
    rewrite map_map. rewrite (nth_map_lt (fun _ => None) rows i []) by exact (proj2 R). reflexivity.
  Qed.

  (** The table of a text whose data lines are rows of cells *)
  Lemma table_of_text text S c0 n : data_lines text = map row_text (c0 :: S) -> map (split_on ",") (map row_text (c0 :: S)) = c0 :: S ->
    length c0 = n -> Forall (fun c => (length c <= n)%nat) S ->
    typed_table T text = Ok (table_of n (map (pad n) (c0 :: S))).
  Proof.
    intros D SP L F. unfold typed_table, read_csv. rewrite D, SP. unfold make_table. rewrite L.
    replace (forallb _ _) with true; [reflexivity|].
    symmetry. apply forallb_forall. intros c [<-|I]; apply Nat.leb_le; [lia|]. rewrite Forall_forall in F. exact (F c I).
  Qed.

  (** A text without 14 rows of data is refused. *)
  Lemma short_refused text : length (data_lines text) <> 14%nat -> exists e, result_from_text T text = Err e.
  Proof.
    intro N. unfold result_from_text. destruct (header_from_file T text) as [h|e]; [|eexists; reflexivity]. cbn [bind].
    destruct (typed_table T text) as [t|e] eqn:E; [|eexists; reflexivity]. cbn [bind].
    destruct (position_from t) as [p|e]; [|eexists; reflexivity]. cbn [bind].
    assert (length t <> 14%nat) as L.
    { unfold typed_table, read_csv, make_table in E. destruct (map _ (data_lines text)) as [|c0 S] eqn:M; [discriminate|].
      destruct (forallb _ _); [|discriminate]. apply (f_equal (fun r => match r with Ok t => length t | Err _ => 0%nat end)) in E. cbv beta iota zeta in E. rewrite map_length, seq_length, map_length in E.
      rewrite <- E, <- M, map_length. exact N. }
    unfold sensor_from. apply Nat.eqb_neq in L. rewrite L. cbn [negb bind]. eexists. reflexivity.
  Qed.
End Typed.
