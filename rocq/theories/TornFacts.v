(** Facts about interrupted writing. *)
From Verif Require Import Base BaseFacts EstModel TextModel TextFacts HeaderModel NumpyModel TrajModel TrajSpec GeomModel GeomSpec IoModel IoSpec HeaderFacts IoFacts IoFacts2 IoFacts3 IoFacts4 TornModel TornSpec.
Local Open Scope string_scope.
Local Arguments Ascii.eqb : simpl never.
Local Opaque newline return_char.

(** ** Beginnings of texts *)

Lemma take_app a b : forall k, (String.length a <= k)%nat -> take k (a ++ b) = a ++ take (k - String.length a) b.
Proof.
  induction a as [|c a IH]; intros k H; cbn in *; [rewrite Nat.sub_0_r; reflexivity|].
  destruct k as [|k]; [lia|]. cbn. rewrite IH by lia. reflexivity.
Qed.
Lemma take_app_short a b : forall k, (k <= String.length a)%nat -> take k (a ++ b) = take k a.
Proof.
  induction a as [|c a IH]; intros k H; cbn in *; [assert (k = 0%nat) as -> by lia; destruct b; reflexivity|].
  destruct k as [|k]; [reflexivity|]. cbn. rewrite IH by lia. reflexivity.
Qed.
Lemma take_split s : forall k, exists q, s = take k s ++ q.
Proof.
  induction s as [|c s IH]; intros [|k]; try (exists ""; reflexivity); [exists (String c s); reflexivity|].
  destruct (IH k) as [q E]. exists q. cbn. rewrite <- E. reflexivity.
Qed.
Lemma length_append (a b : string) : String.length (a ++ b) = (String.length a + String.length b)%nat.
Proof. induction a as [|c a IH]; [reflexivity|]. cbn. rewrite IH. reflexivity. Qed.

(** A beginning of lines: complete lines and perhaps a beginning of one more *)
Lemma take_lines ls : forall k, exists i p,
  take k (lines_text ls) = lines_text (firstn i ls) ++ p /\
  (p = "" \/ (p <> "" /\ exists l q, nth_error ls i = Some l /\ l = p ++ q)).
Proof.
  induction ls as [|l ls IH]; intro k.
  - exists O, "". destruct k; split; try reflexivity; left; reflexivity.
  - change (lines_text (l :: ls)) with ((l ++ String newline "") ++ lines_text ls). rewrite append_assoc.
    change (String newline "" ++ lines_text ls) with (String newline (lines_text ls)).
    destruct (Nat.le_gt_cases k (String.length l)) as [K|K].
    + rewrite take_app_short by exact K. exists O, (take k l). split; [reflexivity|].
      destruct (take k l) as [|c p] eqn:E; [left; reflexivity|right]. split; [discriminate|].
      destruct (take_split l k) as [q Q]. exists l, q. split; [reflexivity|]. rewrite <- E. exact Q.
    + rewrite take_app by lia. destruct (k - String.length l)%nat as [|k'] eqn:D; [lia|]. cbn [take].
      destruct (IH k') as [i [p [A B]]]. exists (S i), p. split.
      * rewrite A. cbn [firstn]. change (lines_text (l :: firstn i ls)) with ((l ++ String newline "") ++ lines_text (firstn i ls)).
        rewrite !append_assoc. reflexivity.
      * exact B.
Qed.

Lemma file_lines_one p : one_line p -> p <> "" -> file_lines p = [p].
Proof.
  induction p as [|c p IH]; [congruence|]. intros [A B] _. cbn in A, B. apply orb_false_iff in A as [A1 A2]. apply orb_false_iff in B as [B1 B2].
  cbn [file_lines]. rewrite (Ascii.eqb_sym c newline), A1, (Ascii.eqb_sym c return_char), B1. cbn [orb].
  destruct p as [|d p]; [reflexivity|]. rewrite IH; [reflexivity|split; assumption|discriminate].
Qed.
Definition rest_line (p : string) : list string := if String.eqb p "" then [] else [p].
Lemma lines_and_rest ls p : Forall one_line ls -> one_line p -> file_lines (lines_text ls ++ p) = (ls ++ rest_line p)%list.
Proof.
  intros F O. rewrite <- lines_text_fold, file_lines_text by exact F. f_equal. unfold rest_line.
  destruct (String.eqb_spec p "") as [->|N]; [reflexivity|]. apply file_lines_one; assumption.
Qed.
Lemma one_line_prefix p q : one_line (p ++ q) -> one_line p.
Proof. intros [A B]. rewrite has_char_app in A, B. apply orb_false_iff in A. apply orb_false_iff in B. split; tauto. Qed.
Lemma forall_firstn {A} (P : A -> Prop) i l : Forall P l -> Forall P (firstn i l).
Proof. intro F. revert i. induction F; intros [|i]; cbn; constructor; auto. Qed.

(** The lines on the disk are complete lines and perhaps a beginning of one more. *)
Lemma taken_lines ls k : Forall one_line ls -> exists i p,
  file_lines (take k (lines_text ls)) = (firstn i ls ++ rest_line p)%list /\
  (p = "" \/ (p <> "" /\ exists l q, nth_error ls i = Some l /\ l = p ++ q)).
Proof.
  intro F. destruct (take_lines ls k) as [i [p [A B]]]. exists i, p. split; [|exact B]. rewrite A.
  apply lines_and_rest; [apply forall_firstn; exact F|].
  destruct B as [->|[_ [l [q [N E]]]]]; [split; reflexivity|]. apply one_line_prefix with q. rewrite <- E.
  rewrite Forall_forall in F. apply F. eapply nth_error_In. exact N.
Qed.

(** Reading depends on the lines only. *)
Lemma read_data_same_lines T a b : file_lines a = file_lines b -> read_data T a = read_data T b.
Proof.
  intro E. assert (data_lines a = data_lines b) as D by (unfold data_lines; rewrite E; reflexivity).
  unfold read_data, header_from_file, read_csv, read_whitespace, loadtxt. rewrite E, D. reflexivity.
Qed.

(** ** Stopped before the first pose *)

Lemma uncomment_hash s : uncomment ("#" ++ s) = "".
Proof. reflexivity. Qed.

Lemma hash_prefix p q s : p <> "" -> p ++ q = "#" ++ s -> exists r, p = "#" ++ r.
Proof. destruct p as [|c p]; [congruence|]. intros _ E. cbn in E. injection E as -> _. exists p. reflexivity. Qed.

Section Torn.
  Context {Q : Type} (ops : rot_ops Q) (qops : quat_ops Q) (T : text_ops) (TC : text_contract T).

  Lemma no_data_fails C loc counted text : data_lines text = [] -> exists e, from_file ops qops T C loc counted text = Err e.
  Proof.
    intro D. unfold from_file, read_data. destruct (header_from_file T text) as [h|e]; [|exists e; reflexivity].
    cbn [bind]. unfold read_csv, read_whitespace, loadtxt. rewrite D. cbn [map make_table bind]. apply flat_fails.
  Qed.

  Lemma header_line_hash (t : traj Q) l : In l (header_lines T t) -> exists r, l = "#" ++ r.
  Proof. unfold header_lines. cbn [In]. intros [<-|[<-|[<-|[<-|[]]]]]; eexists; reflexivity. Qed.

  Lemma firstn_header_blank (t : traj Q) i : filter nonblank (map uncomment (firstn i (header_lines T t))) = [].
  Proof. unfold header_lines. do 5 (destruct i as [|i]; [reflexivity|]). reflexivity. Qed.

  Lemma torn_header_blank (t : traj Q) i p :
    (p = "" \/ (p <> "" /\ exists l q, nth_error (header_lines T t) i = Some l /\ l = p ++ q)) ->
    filter nonblank (map uncomment (firstn i (header_lines T t) ++ rest_line p)) = [].
  Proof.
    intro H. rewrite map_app, filter_app, firstn_header_blank. cbn [app].
    destruct H as [->|[N [l [q [E L]]]]]; [reflexivity|]. unfold rest_line.
    destruct (String.eqb_spec p "") as [Z|_]; [congruence|].
    destruct (header_line_hash t l (nth_error_In _ _ E)) as [r R]. rewrite R in L.
    destruct (hash_prefix p q r N (eq_sym L)) as [s ->]. reflexivity.
  Qed.

  (** ** The first poses *)

  Definition first_poses (k : nat) (t : traj Q) : traj Q :=
    mkTraj (firstn k (tstamps t)) (firstn k (xyz t)) (option_map (firstn k) (rot t)) (firstn k (arc t)) (firstn k (speed t))
           (srt t) (name t) (epsg t).

  Lemma first_consistent k t : consistent t -> consistent (first_poses k t).
  Proof.
    intros [A [B [C D]]]. unfold consistent, first_poses. cbn [tstamps xyz rot arc speed]. rewrite !firstn_length, A, C, D.
    repeat split. destruct (rot t); cbn; [rewrite firstn_length, B; reflexivity|exact I].
  Qed.
  Lemma first_kind k t : rot (first_poses k t) = None <-> rot t = None.
  Proof. cbn. destruct (rot t); cbn; split; congruence. Qed.
  Lemma rows_of_firstn k : forall ts al ps qs vs,
    rows_of (firstn k ts) (firstn k al) (firstn k ps) (firstn k qs) (firstn k vs) = firstn k (rows_of ts al ps qs vs).
  Proof.
    induction k as [|k IH]; intros [|a ts] [|b al] [|p ps] [|q qs] [|v vs]; cbn [firstn rows_of]; try reflexivity.
    rewrite IH. reflexivity.
  Qed.
  Lemma first_rows k t : table_rows qops (first_poses k t) = firstn k (table_rows qops t).
  Proof.
    unfold table_rows, first_poses. cbn [tstamps xyz rot arc speed]. destruct (rot t) as [q|]; cbn [option_map];
      rewrite <- firstn_map, rows_of_firstn; reflexivity.
  Qed.
  Lemma combine_firstn {A B} k : forall (l : list A) (m : list B), combine (firstn k l) (firstn k m) = firstn k (combine l m).
  Proof. induction k as [|k IH]; intros [|a l] [|b m]; cbn; try reflexivity. rewrite IH. reflexivity. Qed.
  Lemma first_rots k t : rots_of (first_poses k t) = firstn k (rots_of t).
  Proof. unfold rots_of, first_poses. cbn [rot xyz]. destruct (rot t); cbn [option_map]; rewrite firstn_map; reflexivity. Qed.
  Lemma first_poses_poses k t : poses (first_poses k t) = firstn k (poses t).
  Proof.
    unfold poses. rewrite first_rots. unfold first_poses. cbn [tstamps xyz arc speed].
    rewrite !combine_firstn, firstn_map. reflexivity.
  Qed.
  Lemma first_written k t : written_lines qops T (first_poses k t) = firstn (4 + k) (written_lines qops T t).
  Proof.
    unfold written_lines. rewrite first_rows, <- firstn_map.
    assert (header_lines T (first_poses k t) = header_lines T t) as -> by (unfold header_lines, fields_text, first_poses; cbn; destruct (rot t); reflexivity).
    reflexivity.
  Qed.
  Lemma rows_length t : consistent t -> length (table_rows qops t) = length (xyz t).
  Proof.
    intros [A [B [C D]]]. unfold table_rows.
    assert (forall ts al ps qs vs n, length ts = n -> length al = n -> length ps = n -> length qs = n -> length vs = n ->
      length (rows_of ts al ps qs vs) = n) as L.
    { induction ts as [|a ts IH]; intros [|b al] [|p ps] [|q qs] [|v vs] n; cbn; try lia.
      intros. destruct n as [|n]; [lia|]. f_equal. apply IH; lia. }
    apply L; try congruence; destruct (rot t); rewrite map_length; congruence.
  Qed.

  (** A beginning of a row *)
  Lemma split_prefix (r : list R) : forall p q, row_line T r = p ++ q -> r <> [] ->
    exists j w, (j < length r)%nat /\ split_on "," p = (map (show9 T) (firstn j r) ++ [w])%list /\
      exists w', show9 T (nth j r 0) = w ++ w'.
  Proof.
    assert (forall a p q b, a ++ b = p ++ q -> (exists w', a = p ++ w' /\ q = w' ++ b) \/ (exists c s, p = a ++ String c s /\ b = String c s ++ q)) as PX.
    { induction a as [|c a IH]; intros p q b E.
      - destruct p as [|d p]; [left; exists ""; cbn in E; split; [reflexivity|cbn; congruence]|right; exists d, p; split; [reflexivity|exact E]].
      - destruct p as [|d p]; [left; exists (String c a); split; [reflexivity|cbn in *; congruence]|].
        cbn in E. injection E as -> E. destruct (IH p q b E) as [[w' [X Y]]|[e [s [X Y]]]].
        + left. exists w'. split; [cbn; congruence|exact Y].
        + right. exists e, s. split; [cbn; congruence|exact Y]. }
    induction r as [|x r IH]; [congruence|]. intros p q E _. destruct r as [|y r].
    - exists O, p. cbn in E |- *. split; [lia|]. split; [|exists q; exact E].
      apply split_on_none. pose proof (tc_num_comma T TC x) as H. unfold row_line in E. cbn in E. rewrite E, has_char_app in H.
      apply orb_false_iff in H. tauto.
    - change (row_line T (x :: y :: r)) with (show9 T x ++ String "," (row_line T (y :: r))) in E.
      destruct (PX _ _ _ _ E) as [[w' [X Y]]|[c [s [X Y]]]].
      + exists O, p. cbn [firstn map app length nth]. split; [lia|]. split; [|exists w'; exact X].
        apply split_on_none. pose proof (tc_num_comma T TC x) as H. rewrite X, has_char_app in H. apply orb_false_iff in H. tauto.
      + cbn in Y. injection Y as <- Y. destruct (IH s q Y ltac:(discriminate)) as [j [w [J [S W]]]].
        exists (Datatypes.S j), w. split; [cbn in *; lia|]. split; [|exact W].
        rewrite X, split_on_cut by apply (tc_num_comma T TC). rewrite S. reflexivity.
  Qed.
End Torn.
