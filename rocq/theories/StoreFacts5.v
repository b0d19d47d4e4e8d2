(** Interrupted writing of files of alignment results. *)
From Verif Require Import Base BaseFacts EstModel TextModel TextFacts HeaderModel NumpyModel NumpyFacts EvalModel ParamModel ParamSpec ParamFacts ParamFacts2 ParamFacts3
  TrajModel GeomModel IoModel IoSpec IoFacts IoFacts3 TornModel TornFacts CutFacts CutFacts3 StoreModel StoreSpec StoreFacts StoreFacts2 StoreFacts3 StoreFacts4.
Local Open Scope string_scope.

Lemma append_nil_r (s : string) : s ++ "" = s.
Proof. induction s as [|c s IH]; [reflexivity|]. cbn. rewrite IH. reflexivity. Qed.
Lemma take_whole s k : (String.length s <= k)%nat -> take k s = s.
Proof. revert k. induction s as [|c s IH]; intros [|k] H; cbn in *; try lia; [reflexivity|reflexivity|]. rewrite IH by lia. reflexivity. Qed.
Lemma take_length s k : (k <= String.length s)%nat -> String.length (take k s) = k.
Proof. revert k. induction s as [|c s IH]; intros [|k] H; cbn in *; try lia. rewrite IH by lia. reflexivity. Qed.

(** Reading depends on the lines only. *)
Lemma same_lines_read T s t : file_lines s = file_lines t -> result_from_text T s = result_from_text T t.
Proof.
  intro E. assert (data_lines s = data_lines t) as D by (unfold data_lines; rewrite E; reflexivity).
  unfold result_from_text, header_from_file, typed_table, read_csv. rewrite E, D. reflexivity.
Qed.

Section Stop.
  Context (T : text_ops) (show15 show : R -> string) (fmt : R -> R) (FC : format15 T show15 show fmt).
  Notation sensor_cells := (sensor_cells show).
  Notation number_cells := (number_cells show15).

  Lemma text_of_lines name r : result_text show15 show name r = lines_text (result_lines show15 show name r).
  Proof. reflexivity. Qed.
  Lemma row_lines_one r : Forall one_line (map row_text (map number_cells (param_rows_flags (position_parameters r)) ++ map sensor_cells (ps_params (rotation_parameters r)))%list).
  Proof.
    pose proof (rows_good T show15 show fmt FC r) as G. apply Forall_forall. intros l I. apply in_map_iff in I as (c & <- & I). rewrite Forall_forall in G. destruct (G c I) as [N GC].
    apply spaceless_one_line. apply (good_row c N GC).
  Qed.
  Lemma lines_one name r : one_line name -> Forall one_line (result_lines show15 show name r).
  Proof.
    intro O. rewrite lines_cells. constructor; [|apply row_lines_one]. unfold name_line. apply one_line_app; [split; reflexivity|exact O].
  Qed.

  (** ** A new file *)
  Section Fresh.
    Context (name : string) (r : align_result) (ON : one_line name) (WR : whole_result r) (SE : shown_exactly T show r).
    Context (a b z : param) (PS : ps_params (rotation_parameters r) = [a; b; z]).
    Notation first_lines := (name_line name :: map row_text (map fst (all_cells show15 show fmt r a b))).

    Lemma lines_last : result_lines show15 show name r = (first_lines ++ [row_text (sensor_cells z)])%list.
    Proof. rewrite lines_cells, PS, cells_fst. cbn [map app]. rewrite !map_app. cbn [map]. rewrite <- app_assoc. reflexivity. Qed.
    Lemma first_one : Forall one_line first_lines /\ one_line (row_text (sensor_cells z)).
    Proof. pose proof (lines_one name r ON) as F. rewrite lines_last in F. apply Forall_app in F as [F L]. split; [exact F|]. inversion L; assumption. Qed.
    Definition before_last : nat := String.length (lines_text first_lines).

    Lemma first_length : length first_lines = 14%nat.
    Proof. destruct (positions_shape r WR) as [L _]. cbn [length]. rewrite !map_length. unfold all_cells. rewrite app_length, map_length, L. reflexivity. Qed.

    Lemma text_split : result_text show15 show name r = lines_text first_lines ++ (row_text (sensor_cells z) ++ String newline "").
    Proof. rewrite text_of_lines, lines_last, lines_text_app. f_equal. change (lines_text [row_text (sensor_cells z)]) with ((row_text (sensor_cells z) ++ String newline "") ++ ""). apply append_nil_r. Qed.

    Lemma filter_length_le {A} (f : A -> bool) l : (length (filter f l) <= length l)%nat.
    Proof. induction l as [|x l IH]; [reflexivity|]. cbn. destruct (f x); cbn; lia. Qed.

    Lemma fresh_refused k : (k <= before_last)%nat -> exists e, result_from_text T (take k (result_text show15 show name r)) = Err e.
    Proof.
      intro K. apply short_refused. rewrite text_split, take_app_short by exact K. unfold data_lines.
      destruct (taken_lines first_lines k (proj1 first_one)) as (i & p & -> & B). fold nonblank. rewrite map_app, filter_app, app_length.
      pose proof first_length as FL.
      destruct i as [|i].
      - cbn [firstn map filter length Nat.add].
        destruct B as [->|(_ & l & q & NE & EQ)]; [discriminate|]. cbn [nth_error] in NE. injection NE as <-. unfold rest_line. destruct (String.eqb p ""); [discriminate|].
        unfold name_line in EQ. destruct p as [|c p]; [discriminate|]. cbn [append] in EQ. injection EQ as <- _. discriminate.
      - cbn [firstn map filter].
        assert (nonblank (uncomment (name_line name)) = false) as -> by reflexivity.
        set (u := filter nonblank (map uncomment (firstn i _))).
        assert (length u <= i)%nat as LU.
        { unfold u. etransitivity; [apply filter_length_le|]. rewrite map_length, firstn_length. lia. }
        assert (length u <= 13)%nat as LU'.
        { unfold u. etransitivity; [apply filter_length_le|]. rewrite map_length, firstn_length. cbn [length] in FL. lia. }
        destruct B as [->|(_ & l & q & NE & _)]; [cbn; lia|].
        assert (S i < 14)%nat as LI by (rewrite <- FL; apply nth_error_Some; rewrite NE; discriminate).
        assert (length (filter nonblank (map uncomment (rest_line p))) <= 1)%nat by (etransitivity; [apply filter_length_le|]; unfold rest_line; destruct (String.eqb p ""); cbn; lia). lia.
    Qed.

    Lemma fresh_last k : (before_last < k)%nat -> exists p q, p <> "" /\ row_text (sensor_cells z) = p ++ q /\
      file_lines (take k (result_text show15 show name r)) = (first_lines ++ [p])%list /\ p = take (k - before_last) (row_text (sensor_cells z)).
    Proof.
      intro K. destruct first_one as [F1 L1]. set (row := row_text (sensor_cells z)) in *.
      assert (row <> "") as RN.
      { intro X. destruct (good_row (sensor_cells z)) as (_ & _ & _ & NB); [discriminate|constructor; [apply (good_show T show15 show fmt FC)|constructor; [apply good_flag|constructor]]|].
        fold row in NB. rewrite X in NB. discriminate. }
      destruct (take_split row (k - before_last)) as [q EQ]. exists (take (k - before_last) row), q.
      assert (take (k - before_last) row <> "") as TN by (destruct row as [|c s]; [congruence|]; destruct (k - before_last)%nat eqn:X; [lia|discriminate]).
      split; [exact TN|]. split; [exact EQ|]. split; [|reflexivity].
      rewrite text_split. fold row. rewrite take_app by (fold before_last; lia). fold before_last.
      destruct (le_lt_dec (String.length row) (k - before_last)) as [Q|Q].
      - rewrite (take_whole row) by exact Q. rewrite take_app by exact Q.
        destruct (k - before_last - String.length row)%nat as [|m].
        + cbn [take]. rewrite append_nil_r. rewrite lines_and_rest by assumption. unfold rest_line. apply String.eqb_neq in RN. rewrite RN. reflexivity.
        + replace (row ++ take (S m) (String newline "")) with (lines_text [row]).
          2:{ unfold lines_text. cbn [fold_right take]. rewrite append_nil_r. destruct m; reflexivity. }
          rewrite <- lines_text_app, lines_of_text; [reflexivity|]. apply Forall_app. split; [exact F1|]. constructor; [exact L1|constructor].
      - rewrite take_app_short by lia. rewrite lines_and_rest; [|exact F1|rewrite EQ in L1; exact (one_line_prefix _ _ L1)].
        unfold rest_line. apply String.eqb_neq in TN. rewrite TN. reflexivity.
    Qed.

    Lemma whole_text_read : exists r', result_from_text T (result_text show15 show name r) = Ok (Some (join " " (words name), r')) /\ read_parts fmt r r' /\
      values (rotation_parameters r') = values (rotation_parameters r) /\ enabled_bool_list (rotation_parameters r') = enabled_bool_list (rotation_parameters r).
    Proof.
      destruct first_one as [F1 L1]. set (row := row_text (sensor_cells z)) in *.
      assert (file_lines (result_text show15 show name r) = (first_lines ++ [row])%list) as FL.
      { rewrite text_of_lines, lines_of_text by (apply lines_one; exact ON). apply lines_last. }
      assert (row <> "") as RN.
      { intro X. destruct (good_row (sensor_cells z)) as (_ & _ & _ & NB); [discriminate|constructor; [apply (good_show T show15 show fmt FC)|constructor; [apply good_flag|constructor]]|].
        fold row in NB. rewrite X in NB. discriminate. }
      assert (forall w, show (p_value z) = row ++ w -> False) as NW.
      { intros w X. unfold row in X. cbn [StoreFacts3.sensor_cells join] in X. apply (f_equal String.length) in X. rewrite !length_append in X. cbn in X. lia. }
      destruct (cut_read T show15 show fmt FC name r WR SE a b z PS (result_text show15 show name r) row "" RN (eq_sym (append_nil_r row)) FL) as [(_ & w & _ & X)|(r' & x & f & E & P & V & B & X & FE)]; [destruct (NW w X)|].
      cbn in FE. subst f. destruct X as [->|(w & _ & X)]; [|destruct (NW w X)].
      exists r'. split; [exact E|]. split; [exact P|].
      destruct (three_parameters (rotation_parameters r)) as (a' & b' & z' & PS' & DV); [apply WR|apply WR|]. rewrite PS in PS'. injection PS' as <- <- <-.
      pose proof (Forall_inv (Forall_inv_tail (Forall_inv_tail DV))) as DZ. cbv beta in DZ. rewrite <- DZ in V.
      split; [rewrite V; unfold values; rewrite ps_get_all, PS; reflexivity|]. rewrite B. unfold enabled_bool_list. rewrite PS. reflexivity.
    Qed.
  End Fresh.

  (** ** An existing file of complete lines *)
  Section Again.
    Context (ls : list string) (O : Forall one_line ls) (name : string) (r : align_result) (ON : one_line name) (LP : ps_len (position_parameters r) = 11%nat).

    Lemma lines_then s : file_lines (lines_text ls ++ s) = (ls ++ file_lines s)%list.
    Proof. rewrite <- lines_text_fold, file_lines_text by exact O. reflexivity. Qed.

    Lemma row_lines_some : exists row rows, result_lines show15 show name r = name_line name :: row :: rows /\ row <> "" /\ word row /\ has_char "#" row = false.
    Proof.
      rewrite lines_cells. pose proof (rows_good T show15 show fmt FC r) as G.
      assert (length (param_rows_flags (position_parameters r)) = 11%nat) as L by (rewrite param_rows_flags_length; exact LP).
      destruct (param_rows_flags (position_parameters r)) as [|c0 cs]; [discriminate|]. cbn [map app] in G |- *. eexists. eexists. split; [reflexivity|].
      inversion G as [|? ? [N GC] _]; subst. destruct (good_row _ N GC) as (SP & H & _ & NB).
      assert (row_text (number_cells c0) <> "") as X by (intro X; rewrite X in NB; discriminate). split; [exact X|]. split; [split; assumption|exact H].
    Qed.

    (** Stopped inside the line of the name *)
    Lemma key_start T' u v h : "#name " ++ v = u -> handle_line T' h u = Ok (("name", HStr (join " " (words v))) :: h).
    Proof.
      intros <-. set (l := "#name " ++ v).
      assert (words l = "#name" :: words v) as W by (apply (words_app_space "#name" " "%char v); [split; [discriminate|reflexivity]|reflexivity]).
      unfold handle_line. replace (strip_prefix "#" l) with (Some ("name " ++ v)) by reflexivity. rewrite W.
      change (existsb (String.eqb "name") HEADER_KEYS) with true. cbv iota. change (handler T' "name" l) with (default_line_handler l).
      unfold default_line_handler. rewrite W. reflexivity.
    Qed.

    Lemma name_start T' p q h : name_line name = p ++ q -> p <> "" ->
      handle_line T' h p = Ok h \/ exists u v, name = u ++ v /\ handle_line T' h p = Ok (("name", HStr (join " " (words u))) :: h).
    Proof.
      intros E N. unfold name_line in E.
      destruct p as [|c1 p]; [congruence|]. cbn in E. injection E as <- E. destruct p as [|c2 p]; [left; reflexivity|].
      cbn in E. injection E as <- E. destruct p as [|c3 p]; [left; reflexivity|]. cbn in E. injection E as <- E. destruct p as [|c4 p]; [left; reflexivity|].
      cbn in E. injection E as <- E. destruct p as [|c5 p]; [left; reflexivity|]. cbn in E. injection E as <- E. destruct p as [|c6 p].
      - right. exists "", name. split; reflexivity.
      - cbn in E. injection E as <- E. right. exists p, q. split; [exact E|]. apply key_start. reflexivity.
    Qed.

    Lemma get_name u h : get_str (("name", HStr u) :: h) "name" "Alignment" = u.
    Proof. reflexivity. Qed.

    Lemma again_name k o : (k <= String.length (text_line (name_line name)))%nat -> result_from_text T (lines_text ls) = Ok o ->
      exists nm, result_from_text T (lines_text ls ++ take k (result_text show15 show name r)) = Ok (option_map (fun x => (nm, snd x)) o) /\
        ((exists x, o = Some x /\ nm = fst x) \/ o = None \/ exists u v, name = u ++ v /\ nm = join " " (words u)).
    Proof.
      intros K E. destruct row_lines_some as (row & rows & RL & RN & _). rewrite text_of_lines, RL.
      change (lines_text (name_line name :: row :: rows)) with ((name_line name ++ String newline "") ++ lines_text (row :: rows)).
      change (text_line (name_line name)) with (name_line name ++ String newline "") in K. rewrite take_app_short by exact K.
      assert (one_line (name_line name)) as ONL by (apply one_line_app; [split; reflexivity|exact ON]).
      assert (exists p q, name_line name = p ++ q /\ file_lines (take k (name_line name ++ String newline "")) = rest_line p) as (p & q & EP & FL).
      { destruct (le_lt_dec k (String.length (name_line name))) as [Q|Q].
        - rewrite take_app_short by exact Q. destruct (take_split (name_line name) k) as [q EQ]. exists (take k (name_line name)), q. split; [exact EQ|].
          unfold rest_line. destruct (String.eqb (take k (name_line name)) "") eqn:X; [apply String.eqb_eq in X; rewrite X; reflexivity|].
          apply file_lines_one; [rewrite EQ in ONL; exact (one_line_prefix _ _ ONL)|apply String.eqb_neq; exact X].
        - exists (name_line name), "". split; [symmetry; apply append_nil_r|]. rewrite take_whole by (rewrite length_append in *; cbn in *; lia).
          rewrite file_lines_cut by exact ONL. reflexivity. }
      assert (data_lines (lines_text ls ++ take k (name_line name ++ String newline "")) = data_lines (lines_text ls)) as DL.
      { unfold data_lines. rewrite lines_then, FL, lines_of_text by exact O. rewrite map_app, filter_app. replace (filter _ (map uncomment (rest_line p))) with (@nil string); [apply app_nil_r|].
        unfold rest_line. destruct (String.eqb p "") eqn:X; [reflexivity|]. destruct p as [|c p]; [discriminate|]. unfold name_line in EP. cbn in EP. injection EP as <- _. reflexivity. }
      assert (typed_table T (lines_text ls ++ take k (name_line name ++ String newline "")) = typed_table T (lines_text ls)) as TT by (unfold typed_table, read_csv; rewrite DL; reflexivity).
      unfold result_from_text in E |- *. rewrite TT. unfold header_from_file in E |- *. rewrite lines_then, FL. rewrite lines_of_text in E by exact O.
      destruct (handle_lines T [] ls) as [h|] eqn:H; [|discriminate]. rewrite handle_lines_app, H. cbn [bind] in E |- *.
      assert (exists h', handle_lines T h (rest_line p) = Ok h' /\ (h' = h \/ exists u v, name = u ++ v /\ get_str h' "name" "Alignment" = join " " (words u))) as (h' & -> & HN).
      { unfold rest_line. destruct (String.eqb p "") eqn:X; [exists h; split; [reflexivity|left; reflexivity]|]. apply String.eqb_neq in X. cbn [handle_lines].
        destruct (name_start T p q h EP X) as [->|(u & v & EN & ->)]; cbn [bind]; eexists; (split; [reflexivity|]); [left; reflexivity|right; exists u, v; split; [exact EN|reflexivity]]. }
      cbn [bind]. destruct (typed_table T (lines_text ls)) as [t|]; [|discriminate]. cbn [bind] in E |- *.
      destruct (position_from t) as [p1|]; [|discriminate]. cbn [bind] in E |- *. destruct (sensor_from t) as [p2|]; [|discriminate]. cbn [bind] in E |- *.
      destruct p1 as [p1|]; [|injection E as <-; exists ""; split; [reflexivity|right; left; reflexivity]].
      destruct p2 as [p2|]; [|injection E as <-; exists ""; split; [reflexivity|right; left; reflexivity]].
      destruct (from_bool_list _) as [es|]; [|discriminate]. cbn [bind] in E |- *. injection E as <-. cbn [option_map snd].
      eexists. split; [reflexivity|]. destruct HN as [->|(u & v & EN & HN)]; [left; eexists; split; reflexivity|].
      right. right. exists u, v. split; [exact EN|exact HN].
    Qed.

    (** Stopped later, or not at all *)
    Lemma again_refused k o : (String.length (text_line (name_line name)) < k)%nat -> result_from_text T (lines_text ls) = Ok o ->
      exists e, result_from_text T (lines_text ls ++ take k (result_text show15 show name r)) = Err e.
    Proof.
      intros K E. apply short_refused.
      assert (length (data_lines (lines_text ls)) = 14%nat) as D14.
      { destruct (Nat.eq_dec (length (data_lines (lines_text ls))) 14) as [D|D]; [exact D|]. destruct (short_refused T _ D) as [e X]. rewrite X in E. discriminate. }
      destruct row_lines_some as (row & rows & RL & RN & RW & RH).
      rewrite text_of_lines, RL.
      change (lines_text (name_line name :: row :: rows)) with ((name_line name ++ String newline "") ++ lines_text (row :: rows)).
      change (text_line (name_line name)) with (name_line name ++ String newline "") in K. rewrite take_app by lia.
      assert (one_line (name_line name)) as ONL by (apply one_line_app; [split; reflexivity|exact ON]).
      set (m := (k - _)%nat). assert (0 < m)%nat as M by (unfold m; lia).
      assert (Forall one_line (row :: rows)) as RO by (pose proof (lines_one name r ON) as F; rewrite RL in F; inversion F; assumption).
      destruct (taken_lines (row :: rows) m RO) as (i & p & FL & B).
      unfold data_lines. rewrite lines_then.
      rewrite append_assoc. change ((String newline "") ++ take m (lines_text (row :: rows))) with (String newline (take m (lines_text (row :: rows)))).
      rewrite file_lines_cut by exact ONL. rewrite FL. fold nonblank. rewrite map_app, filter_app, app_length. rewrite <- (lines_of_text ls O) at 1. unfold data_lines in D14. fold nonblank in D14. rewrite D14.
      cbn [map filter]. replace (nonblank (uncomment (name_line name))) with false by reflexivity. rewrite map_app, filter_app, app_length.
      destruct i as [|i].
      - cbn [firstn map filter length]. destruct B as [->|(PN & l & q & NE & EQ)].
        + exfalso. clear D14.
          assert (take m (lines_text (row :: rows)) <> "") as X.
          { change (lines_text (row :: rows)) with ((row ++ String newline "") ++ lines_text rows). destruct row as [|c row]; [congruence|]. destruct m; [lia|]. discriminate. }
          destruct (take m (lines_text (row :: rows))) as [|c s]; [congruence|]. exact (file_lines_some c s FL).
        + cbn [nth_error] in NE. injection NE as <-. unfold rest_line. apply String.eqb_neq in PN as PE. rewrite PE. cbn [map filter].
          rewrite EQ in RH, RW. rewrite uncomment_id by (exact (has_char_prefix _ _ _ RH)).
          replace (nonblank p) with true; [cbn; lia|]. symmetry. unfold nonblank. rewrite words_word; [reflexivity|]. split; [exact PN|].
          destruct RW as [_ RW]. rewrite spaceless_app in RW. apply andb_prop in RW as [RW _]. exact RW.
      - cbn [firstn map filter]. rewrite uncomment_id by exact RH. replace (nonblank row) with true by (symmetry; unfold nonblank; rewrite words_word by exact RW; reflexivity).
        cbn [length]. lia.
    Qed.
  End Again.
End Stop.
