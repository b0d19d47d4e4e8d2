(** From the lines of a file that was cut off to the result that is read. *)
From Verif Require Import Base BaseFacts EstModel TextModel TextFacts HeaderModel HeaderFacts NumpyModel TrajModel GeomModel IoModel IoSpec IoFacts EvalModel RpeModel RpeSpec RpeFacts RpeFacts2 RpeFacts3 AteModel AteSpec AteFacts TornModel TornFacts CutModel CutSpec CutFacts CutFacts2.
Local Open Scope string_scope.

Lemma append_split a : forall p q b, a ++ b = p ++ q -> (exists w', a = p ++ w' /\ q = w' ++ b) \/ (exists c s, p = a ++ String c s /\ b = String c s ++ q).
Proof.
  induction a as [|c a IH]; intros p q b E.
  - destruct p as [|d p]; [left; exists ""; cbn in E; split; [reflexivity|cbn; congruence]|right; exists d, p; split; [reflexivity|exact E]].
  - destruct p as [|d p]; [left; exists (String c a); split; [reflexivity|cbn in *; congruence]|].
    cbn in E. injection E as -> E. destruct (IH p q b E) as [[w' [X Y]]|[e [s [X Y]]]].
    + left. exists w'. split; [cbn; congruence|exact Y].
    + right. exists e, s. split; [cbn; congruence|exact Y].
Qed.
Lemma has_char_prefix c p q : has_char c (p ++ q) = false -> has_char c p = false.
Proof. rewrite has_char_app. intro H. apply orb_false_iff in H. tauto. Qed.
Lemma filter_rest (f : string -> bool) p : filter f (map uncomment (rest_line p)) = if (negb (String.eqb p "") && f (uncomment p))%bool then [uncomment p] else [].
Proof. unfold rest_line. destruct (String.eqb p ""); [reflexivity|]. cbn. destruct (f (uncomment p)); reflexivity. Qed.

Section Cut3.
  Context (T : text_ops) (show12 : R -> string) (TC : text_contract T) (FC : format12 T show12).

  (** The cells of a beginning of a row: all but the last are whole *)
  Lemma cut_row (r : list R) : forall p q, cells_line show12 r = p ++ q -> r <> [] ->
    exists j w, (j < length r)%nat /\ split_on "," p = (map show12 (firstn j r) ++ [w])%list.
  Proof.
    induction r as [|x r IH]; [congruence|]. intros p q E _. destruct r as [|y r].
    - exists O, p. cbn in E |- *. split; [lia|]. apply split_on_none. pose proof (f12_comma T show12 FC x) as H. unfold cells_line in E. cbn in E. rewrite E in H. apply (has_char_prefix _ _ _ H).
    - change (cells_line show12 (x :: y :: r)) with (show12 x ++ String "," (cells_line show12 (y :: r))) in E.
      destruct (append_split _ _ _ _ E) as [[w' [X Y]]|[c [s [X Y]]]].
      + exists O, p. cbn [firstn map app length nth]. split; [lia|]. apply split_on_none. pose proof (f12_comma T show12 FC x) as H. rewrite X in H. apply (has_char_prefix _ _ _ H).
      + cbn in Y. injection Y as <- Y. destruct (IH s q Y ltac:(discriminate)) as [j [w [J S]]].
        exists (Datatypes.S j), w. split; [cbn in *; lia|]. rewrite X, split_on_cut by apply (f12_comma T show12 FC). rewrite S. reflexivity.
  Qed.
  Lemma cut_row_torn (r : list R) w p q : cells_line show12 r = p ++ q -> length r = w -> (0 < w)%nat ->
    (length (split_on "," p) <= w)%nat /\ torn show12 w r (pad w (split_on "," p)).
  Proof.
    intros E L W. assert (r <> []) as N by (destruct r; [cbn in L; lia|discriminate]). destruct (cut_row r p q E N) as (j & x & J & ->).
    assert (length (map show12 (firstn j r) ++ [x])%list = S j) as LL by (rewrite app_length, map_length, firstn_length; cbn; lia).
    split; [lia|]. unfold torn, pad. destruct (Nat.eq_dec (S j) w) as [EQ|NE].
    - right. intros i LI. rewrite app_nth1 by (rewrite map_length; lia). rewrite map_app, app_nth1 by (rewrite !map_length, firstn_length; lia).
      rewrite map_map. rewrite (nth_indep _ None (Some (show12 0))) by (rewrite map_length, firstn_length; lia). rewrite (map_nth (fun x => Some (show12 x))).
      f_equal. f_equal. clear - LI EQ. revert r i LI. assert (forall i (r : list R), (i < j)%nat -> nth i (firstn j r) 0 = nth i r 0) as G.
      { clear. induction j as [|j IH]; intros i r L; [lia|]. destruct r as [|a r]; [destruct i; reflexivity|]. destruct i as [|i]; [reflexivity|]. cbn. apply IH. lia. }
      intros r i LI. apply G. lia.
    - left. rewrite app_nth2 by (rewrite map_length, LL; lia). apply nth_repeat.
  Qed.

  Lemma cells_prefix_hash row p q : cells_line show12 row = p ++ q -> has_char "#" p = false.
  Proof. intro E. apply (has_char_prefix _ p q). rewrite <- E. apply (cells_line_hash T show12 FC). Qed.

  Definition torn_lines (rows : list (list R)) (i : nat) (p : string) : list string := (map (cells_line show12) (firstn i rows) ++ rest_line p)%list.
  Definition torn_by (rows : list (list R)) (i : nat) (p : string) : Prop := beginning_of (map (cells_line show12) rows) i p.

  Lemma rows_data rows : Forall (fun x => x <> []) rows -> filter nonblank (map uncomment (map (cells_line show12) rows)) = map (cells_line show12) rows.
  Proof.
    induction 1 as [|x rows N F IH]; [reflexivity|]. cbn [map filter]. rewrite uncomment_id by apply (cells_line_hash T show12 FC).
    assert (nonblank (cells_line show12 x) = true) as ->.
    { unfold cells_line. destruct x as [|a x]; [congruence|]. cbn [map]. apply word_nonblank, (f12_word T show12 FC). }
    f_equal. exact IH.
  Qed.
  Lemma torn_data rows i p : Forall (fun x => x <> []) rows -> torn_by rows i p ->
    exists more, filter nonblank (map uncomment (torn_lines rows i p)) = (map (cells_line show12) (firstn i rows) ++ more)%list /\
      (more = [] \/ exists row q, more = [p] /\ nth_error rows i = Some row /\ cells_line show12 row = p ++ q).
  Proof.
    intros N B. unfold torn_lines. rewrite map_app, filter_app, rows_data by (apply forall_firstn, N). eexists. split; [reflexivity|]. rewrite filter_rest.
    destruct B as [->|(NP & l & q & E & EL)]; [left; reflexivity|]. rewrite nth_error_map in E. destruct (nth_error rows i) as [row|] eqn:R; [|discriminate]. cbn in E. injection E as E. rewrite EL in E.
    rewrite uncomment_id by apply (cells_prefix_hash row p q E). destruct (_ && _)%bool; [|left; reflexivity]. right. exists row, q. auto.
  Qed.
  Lemma torn_untouched rows i p h : torn_by rows i p -> handle_lines T h (torn_lines rows i p) = Ok h.
  Proof.
    intro B. unfold torn_lines. rewrite handle_lines_app.
    assert (forall h l, handle_lines T h (map (cells_line show12) l) = Ok h) as G.
    { intros h' l. induction l as [|row l IH]; [reflexivity|]. cbn [map handle_lines]. rewrite hashless_untouched by apply (cells_line_hash T show12 FC). exact IH. }
    rewrite G. cbn [bind]. unfold rest_line. destruct (String.eqb p "") eqn:EP; [reflexivity|]. apply String.eqb_neq in EP.
    destruct B as [B|(NP & l & q & E & EL)]; [congruence|]. rewrite nth_error_map in E. destruct (nth_error rows i) as [row|]; [|discriminate]. cbn in E. injection E as E. rewrite EL in E.
    cbn [handle_lines]. rewrite hashless_untouched by apply (cells_prefix_hash row p q E). reflexivity.
  Qed.

  Lemma begun_snoc w full i g : (i < length full)%nat -> (forall f, nth_error full i = Some f -> torn show12 w f g) -> begun show12 w full (map (cells show12) (firstn i full) ++ [g]).
  Proof.
    revert i. induction full as [|f full IH]; intros i L H; [cbn in L; lia|]. destruct i as [|i]; cbn.
    - right. split; [reflexivity|]. apply H. reflexivity.
    - left. split; [reflexivity|]. apply IH; [cbn in L; lia|exact H].
  Qed.

  (** The table of a file of which the header and the names of the columns are complete *)
  Lemma cut_table text heads names rows i p : file_lines text = (heads ++ join "," names :: torn_lines rows i p)%list ->
    filter nonblank (map uncomment heads) = [] -> good_names names -> names <> [] -> wide (length names) rows -> torn_by rows i p ->
    exists got, read_frame text = Ok (names, got) /\ begun show12 (length names) rows got /\ (p = "" -> got = map (cells show12) (firstn i rows)).
  Proof.
    intros L HB (GS & GH & GN & _) NN W B. assert (Forall (fun x => x <> []) rows) as NE.
    { eapply Forall_impl; [|exact W]. intros x LX ->. destruct names; [congruence|discriminate]. }
    destruct (torn_data rows i p NE B) as (more & D & MO).
    assert (0 < length names)%nat as W0 by (destruct names; [congruence|cbn; lia]).
    unfold read_frame, data_lines. fold nonblank. rewrite L, map_app, filter_app, HB. cbn [app map filter]. rewrite uncomment_id by exact GH. rewrite GN.
    rewrite D. cbn [map]. rewrite GS, map_app, !map_map.
    assert (forall x, In x (firstn i rows) -> In x rows) as INC by (intros x I; rewrite <- (firstn_skipn i rows); apply in_or_app; left; exact I).
    unfold wide in W. rewrite Forall_forall in W, NE.
    rewrite (map_ext_in (fun x => split_on "," (cells_line show12 x)) (map show12)) by (intros x I; apply (cells_split T show12 FC), NE, INC, I).
    assert (forallb (fun l => (length l <=? length names)%nat) (map (map show12) (firstn i rows) ++ map (split_on ",") more) = true) as ->.
    { apply forallb_forall. intros l I. apply Nat.leb_le. apply in_app_iff in I as [I|I].
      - apply in_map_iff in I as [row [<- I]]. rewrite map_length, (W row (INC row I)). lia.
      - destruct MO as [->|(row & q & -> & R & E)]; [destruct I|]. cbn in I. destruct I as [<-|[]].
        apply (cut_row_torn row _ p q E); [|exact W0]. apply W. apply nth_error_In in R. exact R. }
    eexists. split; [reflexivity|]. rewrite map_app, !map_map.
    rewrite (map_ext_in (fun x => pad (length names) (map show12 x)) (cells show12)) by (intros x I; apply pad_full, W, INC, I).
    destruct MO as [->|(row & q & -> & R & E)]; cbn [map].
    - rewrite app_nil_r. split; [apply begun_complete|reflexivity].
    - split.
      + apply begun_snoc; [apply nth_error_Some_lt in R; exact R|]. intros f F. rewrite R in F. injection F as <-. apply (cut_row_torn row _ p q E); [|exact W0]. apply W. apply nth_error_In in R. exact R.
      + intros ->. destruct B as [_|(NP & _)]; [|congruence]. exfalso. revert D. unfold torn_lines. rewrite map_app, filter_app, rows_data by (apply forall_firstn, Forall_forall, NE). cbn. intro D. apply app_inv_head in D. discriminate.
  Qed.

  (** What is left of a file: nothing but a beginning of the header, or of the names of the columns, or of the rows *)
  Lemma cut_cases s heads names rows n : file_lines s = (heads ++ body show12 names rows)%list -> Forall (fun l => exists x, l = "#" ++ x) heads ->
    data_lines (take n s) = [] \/
    (exists p q, p <> "" /\ join "," names = p ++ q /\ file_lines (take n s) = (heads ++ [p])%list) \/
    (exists i p, file_lines (take n s) = (heads ++ join "," names :: torn_lines rows i p)%list /\ torn_by rows i p).
  Proof.
    intros L H. destruct (cut_lines s n) as (i & p & E & B). rewrite L in E, B.
    assert (forall l, Forall (fun l => exists x, l = "#" ++ x) l -> filter nonblank (map uncomment l) = []) as BL.
    { clear. induction 1 as [|l ls [x ->] F IH]; [reflexivity|]. cbn [map filter]. rewrite uncomment_hash. exact IH. }
    assert (forall l, beginning_of ((heads ++ body show12 names rows)%list) l p -> (l < length heads)%nat -> filter nonblank (map uncomment (rest_line p)) = []) as BP.
    { intros l [->|(NP & x & q & E1 & E2)] LL; [reflexivity|]. rewrite nth_error_app1 in E1 by exact LL. apply nth_error_In in E1. rewrite Forall_forall in H. destruct (H x E1) as [y EY]. rewrite EY in E2.
      destruct (hash_prefix p q y NP (eq_sym E2)) as [z ->]. rewrite filter_rest. rewrite uncomment_hash. destruct (_ && _)%bool eqn:C; [|reflexivity]. apply andb_true_iff in C as [_ C]. discriminate. }
    destruct (Nat.lt_ge_cases i (length heads)) as [LT|GE].
    - left. unfold data_lines. fold nonblank. rewrite E, map_app, filter_app. rewrite (BP i B LT), app_nil_r, firstn_app.
      replace (i - length heads)%nat with 0%nat by lia. rewrite firstn_O, app_nil_r. apply BL, forall_firstn, H.
    - rewrite firstn_app, firstn_all2 in E by exact GE. unfold beginning_of in B. destruct (i - length heads)%nat as [|j] eqn:J.
      + rewrite firstn_O, app_nil_r in E. assert (i = length heads) as -> by lia. destruct B as [->|(NP & x & q & E1 & E2)].
        * left. unfold data_lines. fold nonblank. rewrite E. cbn [rest_line String.eqb]. rewrite app_nil_r. apply BL, H.
        * right. left. exists p, q. rewrite nth_error_app2, Nat.sub_diag in E1 by lia. cbn in E1. injection E1 as <-. split; [exact NP|]. split; [exact E2|]. rewrite E. unfold rest_line. apply String.eqb_neq in NP. rewrite NP. reflexivity.
      + right. right. exists j, p. unfold body in E. cbn [firstn] in E. rewrite firstn_map, <- app_assoc in E. cbn [app] in E. split; [exact E|].
        destruct B as [->|(NP & x & q & E1 & E2)]; [left; reflexivity|]. right. split; [exact NP|]. exists x, q. split; [|exact E2]. rewrite nth_error_app2, J in E1 by exact GE. exact E1.
  Qed.

  Lemma no_frame text : data_lines text = [] -> read_frame text = Err ValueError.
  Proof. intro E. unfold read_frame. rewrite E. reflexivity. Qed.
  (** Only a beginning of the names of the columns: no rows *)
  Lemma names_frame text heads p names got : file_lines text = (heads ++ [p])%list -> filter nonblank (map uncomment heads) = [] -> read_frame text = Ok (names, got) -> got = [].
  Proof.
    intros L H E. unfold read_frame, data_lines in E. fold nonblank in E. rewrite L, map_app, filter_app, H in E. cbn [map filter app] in E.
    destruct (nonblank (uncomment p)); cbn in E; [|discriminate]. injection E as _ <-. reflexivity.
  Qed.
End Cut3.
