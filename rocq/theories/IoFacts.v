(** Facts about written trajectory files and reading them back. *)
From Verif Require Import Base BaseFacts EstModel TextModel TextFacts HeaderModel NumpyModel TrajModel TrajSpec GeomModel GeomSpec IoModel IoSpec HeaderFacts.
Local Open Scope string_scope.
Local Arguments Ascii.eqb : simpl never.
Local Opaque newline return_char.

(** ** Lines of a written file *)

Definition lines_text (ls : list string) : string := fold_right (fun l s => (l ++ String newline "") ++ s) "" ls.

Lemma lines_text_fold ls rest : fold_right (fun l s => (l ++ String newline "") ++ s) rest ls = lines_text ls ++ rest.
Proof.
  induction ls as [|l ls IH]; [reflexivity|]. cbn [fold_right]. rewrite IH.
  change (lines_text (l :: ls)) with ((l ++ String newline "") ++ lines_text ls). rewrite !append_assoc. reflexivity.
Qed.
Lemma lines_text_app a b : lines_text (a ++ b)%list = lines_text a ++ lines_text b.
Proof. rewrite <- lines_text_fold. unfold lines_text. rewrite fold_right_app. reflexivity. Qed.
Lemma lines_of_text ls : Forall one_line ls -> file_lines (lines_text ls) = ls.
Proof. intro F. unfold lines_text. rewrite file_lines_text by exact F. apply app_nil_r. Qed.

Section Write.
  Context {Q : Type} (ops : rot_ops Q) (qops : quat_ops Q) (T : text_ops) (TC : text_contract T).

  Definition fields_text (t : traj Q) : string :=
    match rot t with None => "t,l,px,py,pz,vx,vy,vz" | Some _ => "t,l,px,py,pz,qx,qy,qz,qw,vx,vy,vz" end.
  Definition header_lines (t : traj Q) : list string :=
    ["#epsg " ++ show_int T (epsg t); "#name " ++ name t; "#nframe enu"; "#fields " ++ fields_text t].
  Definition row_line (r : list R) : string := join "," (map (show9 T) r).
  Definition written_lines (t : traj Q) : list string := (header_lines t ++ map row_line (table_rows qops t))%list.

  Lemma csv_text_lines rows : csv_text T rows = lines_text (map row_line rows).
  Proof.
    unfold csv_text, lines_text. induction rows as [|r rows IH]; [reflexivity|].
    cbn [fold_right map]. rewrite IH. reflexivity.
  Qed.

  Lemma to_file_lines before t : same_lengths t = true ->
    to_file qops T before t = Ok (before ++ lines_text (written_lines t)).
  Proof.
    intro S. unfold to_file. rewrite S. f_equal. f_equal. unfold written_lines. rewrite lines_text_app, csv_text_lines.
    f_equal. unfold write_header, header_lines, lines_text, line, fields_text. cbn [fold_right].
    rewrite append_nil. reflexivity.
  Qed.

  Lemma consistent_same_lengths (t : traj Q) : consistent t -> same_lengths t = true.
  Proof.
    intros [A [B [C D]]]. unfold same_lengths. rewrite A, C, D, !Nat.eqb_refl.
    destruct (rot t); [rewrite B, Nat.eqb_refl|]; reflexivity.
  Qed.

  Lemma row_line_one r : one_line (row_line r).
  Proof.
    unfold row_line. split; (apply has_char_join; [reflexivity|]);
      apply Forall_forall; intros w I; apply in_map_iff in I as [x [<- _]];
      destruct (spaceless_one_line _ (proj2 (tc_num_word T TC x))) as [A B]; assumption.
  Qed.
  Lemma row_line_hash r : has_char "#" (row_line r) = false.
  Proof.
    unfold row_line. apply has_char_join; [reflexivity|].
    apply Forall_forall; intros w I; apply in_map_iff in I as [x [<- _]]. apply (tc_num_hash T TC).
  Qed.

  Lemma written_one_line t : one_line (name t) -> Forall one_line (written_lines t).
  Proof.
    intro N. unfold written_lines, header_lines. apply Forall_app. split.
    - repeat constructor; try (apply one_line_app; [split; reflexivity|]).
      all: try (unfold fields_text; destruct (rot t); split; reflexivity).
      all: try apply N; try (apply spaceless_one_line; apply (tc_int_word T TC)).
    - apply Forall_forall. intros l I. apply in_map_iff in I as [r [<- _]]. apply row_line_one.
  Qed.

  (** ** Header *)

  Lemma hashless_untouched h l : has_char "#" l = false -> handle_line T h l = Ok h.
  Proof.
    intro H. unfold handle_line. destruct (strip_prefix "#" l) as [r|] eqn:P; [|reflexivity].
    apply strip_prefix_some in P. subst l. cbn in H. rewrite Ascii.eqb_refl in H. discriminate.
  Qed.
  Lemma rows_untouched h rows : handle_lines T h (map row_line rows) = Ok h.
  Proof.
    induction rows as [|r rows IH]; [reflexivity|]. cbn [map handle_lines].
    rewrite hashless_untouched by apply row_line_hash. exact IH.
  Qed.
  Lemma handle_lines_app h a b : handle_lines T h (a ++ b)%list = let! h' := handle_lines T h a in handle_lines T h' b.
  Proof.
    revert h. induction a as [|l a IH]; intro h; [reflexivity|]. cbn [app handle_lines].
    destruct (handle_line T h l) as [h1|e]; [cbn [bind]; apply IH|reflexivity].
  Qed.

  Lemma tagged_words k s : spaceless k = true -> words (("#" ++ k) ++ String " "%char s) = ("#" ++ k) :: words s.
  Proof. intro K. apply words_app_space; [split; [discriminate|cbn; exact K]|reflexivity]. Qed.

  Lemma handle_tag h k s : spaceless k = true -> known k = true ->
    handle_line T h (("#" ++ k) ++ String " "%char s) =
    let! v := handler T k (("#" ++ k) ++ String " "%char s) in Ok ((k, v) :: h).
  Proof.
    intros S K. unfold handle_line. rewrite (tagged_words k s S).
    change (strip_prefix "#" (("#" ++ k) ++ String " "%char s)) with (Some (k ++ String " "%char s)).
    change ("#" ++ k) with (String "#" k) at 1. cbv iota beta. unfold known in K. rewrite K. reflexivity.
  Qed.

  Definition written_header (t : traj Q) : header :=
    [("fields", HStr (fields_text t)); ("nframe", HStr "enu"); ("name", HStr (join " " (words (name t)))); ("epsg", HInt (epsg t))].

  Lemma header_handled h t : handle_lines T h (written_lines t) = Ok (written_header t ++ h)%list.
  Proof.
    unfold written_lines. rewrite handle_lines_app. unfold header_lines.
    cbn [handle_lines].
    assert (forall h, handle_line T h ("#epsg " ++ show_int T (epsg t)) = Ok (("epsg", HInt (epsg t)) :: h)) as E1.
    { intro h'. change ("#epsg " ++ show_int T (epsg t)) with (("#" ++ "epsg") ++ String " "%char (show_int T (epsg t))).
      rewrite handle_tag by reflexivity.
      change (handler T "epsg") with (integer_line_handler T).
      unfold integer_line_handler. rewrite tagged_words by reflexivity.
      rewrite (words_word _ (tc_int_word T TC _)). cbn [nth_error]. rewrite (tc_int T TC). reflexivity. }
    assert (forall h, handle_line T h ("#name " ++ name t) = Ok (("name", HStr (join " " (words (name t)))) :: h)) as E2.
    { intro h'. change ("#name " ++ name t) with (("#" ++ "name") ++ String " "%char (name t)).
      rewrite handle_tag by reflexivity.
      change (handler T "name") with default_line_handler.
      unfold default_line_handler. rewrite tagged_words by reflexivity. reflexivity. }
    assert (forall h, handle_line T h "#nframe enu" = Ok (("nframe", HStr "enu") :: h)) as E3 by reflexivity.
    assert (forall h, handle_line T h ("#fields " ++ fields_text t) = Ok (("fields", HStr (fields_text t)) :: h)) as E4.
    { intro h'. change ("#fields " ++ fields_text t) with (("#" ++ "fields") ++ String " "%char (fields_text t)).
      rewrite handle_tag by reflexivity.
      change (handler T "fields") with default_line_handler.
      unfold default_line_handler. rewrite tagged_words by reflexivity.
      rewrite words_word by (unfold fields_text; destruct (rot t); split; [discriminate|reflexivity|discriminate|reflexivity]).
      reflexivity. }
    rewrite E1. cbn [bind]. rewrite E2. cbn [bind]. rewrite E3. cbn [bind]. rewrite E4. cbn [bind].
    rewrite rows_untouched. reflexivity.
  Qed.

  (** ** Data lines *)

  Lemma uncomment_id s : has_char "#" s = false -> uncomment s = s.
  Proof.
    induction s as [|c s IH]; [reflexivity|]. cbn. intro H. apply orb_false_iff in H as [A B].
    rewrite Ascii.eqb_sym, A, (IH B). reflexivity.
  Qed.
  Definition nonblank (l : string) : bool := negb (length (words l) =? 0)%nat.
  Lemma data_lines_lines ls : Forall one_line ls -> data_lines (lines_text ls) = filter nonblank (map uncomment ls).
  Proof. intro F. unfold data_lines. rewrite lines_of_text by exact F. reflexivity. Qed.

  Lemma nonblank_word_prefix w s : word w -> nonblank (w ++ s) = true.
  Proof.
    intros [N S]. destruct w as [|c w]; [congruence|]. cbn in S. apply andb_prop in S as [A _]. apply negb_true_iff in A.
    unfold nonblank. destruct (words_cons c (w ++ s) A) as [x [ws E]]. cbn [append]. rewrite E. reflexivity.
  Qed.
  Lemma row_line_nonblank r : r <> [] -> nonblank (row_line r) = true.
  Proof.
    destruct r as [|x r]; [congruence|]. intros _. unfold row_line. cbn [map].
    destruct (map (show9 T) r) as [|y l] eqn:E.
    - rewrite <- (append_nil (join "," [show9 T x])). apply nonblank_word_prefix. apply (tc_num_word T TC).
    - change (join "," (show9 T x :: y :: l)) with (show9 T x ++ ("," ++ join "," (y :: l))).
      apply nonblank_word_prefix. apply (tc_num_word T TC).
  Qed.

  Lemma data_of_written t : (forall r, In r (table_rows qops t) -> r <> []) ->
    filter nonblank (map uncomment (written_lines t)) = map row_line (table_rows qops t).
  Proof.
    intro NE. unfold written_lines. rewrite map_app, filter_app.
    assert (filter nonblank (map uncomment (header_lines t)) = []) as -> by reflexivity.
    cbn [app]. induction (table_rows qops t) as [|r rows IH]; [reflexivity|].
    cbn [map filter]. rewrite uncomment_id by apply row_line_hash.
    rewrite row_line_nonblank by (apply NE; left; reflexivity).
    f_equal. apply IH. intros x I. apply NE. right. exact I.
  Qed.

  Lemma row_line_split r : r <> [] -> split_on "," (row_line r) = map (show9 T) r.
  Proof.
    intro N. unfold row_line. apply split_on_join.
    - destruct r; [congruence|discriminate].
    - apply Forall_forall. intros w I. apply in_map_iff in I as [x [<- _]]. apply (tc_num_comma T TC).
  Qed.

  Definition shown (r : list R) : list cell := map (fun x => Some (show9 T x)) r.
  Lemma make_table_rows n rows : rows <> [] -> Forall (fun r => length r = n) rows ->
    make_table (map (map (show9 T)) rows) = Some (Table n (map shown rows)).
  Proof.
    intros N F. destruct rows as [|r rows]; [congruence|]. clear N.
    inversion F as [|? ? E F']; subst. cbn [map make_table]. rewrite map_length.
    assert (forall x, In x (r :: rows) -> length x = length r) as L by (apply Forall_forall; exact F).
    assert (forallb (fun l => length l <=? length r)%nat (map (show9 T) r :: map (map (show9 T)) rows) = true) as ->.
    { apply forallb_forall. intros x I. change (In x (map (map (show9 T)) (r :: rows))) in I.
      apply in_map_iff in I as [y [<- I]]. rewrite map_length, (L y I). apply Nat.leb_refl. }
    f_equal. f_equal. change (map (pad (length r)) (map (map (show9 T)) (r :: rows)) = map shown (r :: rows)).
    rewrite map_map. apply map_ext_in. intros x I. unfold pad, shown.
    rewrite map_length, (L x I), Nat.sub_diag, app_nil_r, map_map. reflexivity.
  Qed.

  Lemma read_csv_lines ls rows n : Forall one_line ls -> filter nonblank (map uncomment ls) = map row_line rows ->
    rows <> [] -> (0 < n)%nat -> Forall (fun r => length r = n) rows ->
    read_csv "," (lines_text ls) = Some (Table n (map shown rows)).
  Proof.
    intros O D N P F. unfold read_csv. rewrite data_lines_lines by exact O. rewrite D, map_map.
    rewrite (map_ext_in _ (map (show9 T))); [apply make_table_rows; assumption|].
    intros r I. apply row_line_split. rewrite Forall_forall in F. specialize (F r I). intros ->. cbn in F. lia.
  Qed.
End Write.

(** ** Values read back *)

Definition rd (T : text_ops) (x : R) : R := match number T (show9 T x) with Some (Fin y) => y | _ => 0 end.
Lemma rd_near T x : text_contract T -> number T (show9 T x) = Some (Fin (rd T x)) /\ near x (rd T x).
Proof. intro TC. destruct (tc_num T TC x) as [y [E N]]. unfold rd. rewrite E. split; [reflexivity|exact N]. Qed.

Lemma to_nums_shown T (l : list R) : text_contract T ->
  to_nums T (map (fun x => Some (show9 T x)) l) = Ok (map (fun x => Fin (rd T x)) l).
Proof.
  intro TC. induction l as [|x l IH]; [reflexivity|]. cbn [map]. unfold to_nums in *. cbn [mapM].
  unfold to_num at 1. rewrite (proj1 (rd_near T x TC)). cbn [bind]. rewrite IH. reflexivity.
Qed.

Lemma column_shown T n rows j : (j < n)%nat -> Forall (fun r => length r = n) rows ->
  column (Table n (map (shown T) rows)) j = Ok (map (fun x => Some (show9 T x)) (map (fun r => nth j r 0) rows)).
Proof.
  intros L F. unfold column. destruct (Nat.ltb_spec j n); [|lia]. f_equal. rewrite !map_map. apply map_ext_in.
  intros r I. rewrite Forall_forall in F. specialize (F r I). unfold shown.
  rewrite (nth_indep _ None (Some (show9 T 0))) by (rewrite map_length; lia).
  apply (map_nth (fun x => Some (show9 T x))).
Qed.

Lemma all_finite_fin (l : list R) : all_finite (map Fin l) = Some l.
Proof. induction l as [|x l IH]; [reflexivity|]. unfold all_finite in *. cbn. rewrite IH. reflexivity. Qed.

Section Rows.
  Context (ts al : list R) (ps : list V3) (qs : list (list R)) (vs : list V3).

  Fixpoint eqlen (ts al : list R) (ps : list V3) (qs : list (list R)) (vs : list V3) : Prop :=
    match ts, al, ps, qs, vs with
    | [], [], [], [], [] => True
    | _ :: a, _ :: b, _ :: c, _ :: d, _ :: e => eqlen a b c d e
    | _, _, _, _, _ => False
    end.
End Rows.

Lemma eqlen_of ts al ps qs vs n : length ts = n -> length al = n -> length ps = n -> length qs = n -> length vs = n ->
  eqlen ts al ps qs vs.
Proof.
  revert al ps qs vs n. induction ts as [|t ts IH]; intros [|a al] [|p ps] [|q qs] [|v vs] n; cbn; try lia.
  intros. destruct n as [|n]; [lia|]. apply (IH _ _ _ _ n); lia.
Qed.

Lemma rows_of_map {A} (f : list R -> A) ts al ps qs vs (g : R -> R -> V3 -> list R -> V3 -> A) :
  eqlen ts al ps qs vs ->
  (forall t a p q v, In q qs -> f ([t; a] ++ v3_values p ++ q ++ v3_values v)%list = g t a p q v) ->
  forall (P : list R -> list R -> list V3 -> list (list R) -> list V3 -> list A),
  P [] [] [] [] [] = [] ->
  (forall t a p q v ts al ps qs vs, P (t :: ts) (a :: al) (p :: ps) (q :: qs) (v :: vs) = g t a p q v :: P ts al ps qs vs) ->
  map f (rows_of ts al ps qs vs) = P ts al ps qs vs.
Proof.
  intros L F P P0 PS. revert al ps qs vs L F.
  induction ts as [|t ts IH]; intros [|a al] [|p ps] [|q qs] [|v vs]; cbn [eqlen]; try contradiction.
  - intros _ _. rewrite P0. reflexivity.
  - intros L F. rewrite PS. cbn [rows_of map]. f_equal; [apply F; left; reflexivity|].
    apply IH; [exact L|]. intros. apply F. right. assumption.
Qed.

Lemma rows_of_length m ts al ps qs vs : Forall (fun q => length q = m) qs ->
  Forall (fun r => length r = (8 + m)%nat) (rows_of ts al ps qs vs).
Proof.
  intro F. revert ts al ps vs. induction F as [|q qs H F IH]; intros [|t ts] [|a al] [|p ps] [|v vs]; cbn [rows_of]; try constructor.
  - rewrite !app_length. cbn. lia.
  - apply IH.
Qed.
