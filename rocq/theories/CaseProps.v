(** What the properties C48 (GPS time zone), C49 (navigation frames), C47 (writing) and C141 (reading) say about case and failures, without the
    helpers of the model. *)
From Verif Require Import Base BaseFacts EstModel TextModel HeaderModel NumpyModel TrajModel TrajSpec ParamModel GeomModel IoModel IoSpec IoFacts4 TornModel StoreModel CaseSpec IoProps.
Local Open Scope string_scope.

Definition all_chars : list ascii := map ascii_of_nat (seq 0 256).
Lemma all_chars_in c : In c all_chars.
Proof. unfold all_chars. apply in_map_iff. exists (nat_of_ascii c). split; [apply ascii_nat_embedding|]. apply in_seq. assert (H := nat_ascii_bounded c). lia. Qed.

Definition is_pair (c d : ascii) : bool := existsb (fun p => Ascii.eqb (fst p) c && Ascii.eqb (snd p) d)%bool letters.
Lemma is_pair_in c d : is_pair c d = true <-> In (c, d) letters.
Proof.
  unfold is_pair. rewrite existsb_exists. split.
  - intros ([a b] & I & E). cbn in E. apply andb_true_iff in E as [E1 E2]. apply Ascii.eqb_eq in E1, E2. subst. exact I.
  - intro I. exists (c, d). split; [exact I|]. cbn. rewrite !Ascii.eqb_refl. reflexivity.
Qed.
Definition same_but_case (c d : ascii) : bool := (Ascii.eqb c d || is_pair c d || is_pair d c)%bool.
Lemma same_but_case_in c d : same_but_case c d = true <-> c = d \/ In (c, d) letters \/ In (d, c) letters.
Proof. unfold same_but_case. rewrite !orb_true_iff, Ascii.eqb_eq, !is_pair_in. tauto. Qed.
Definition capital (c : ascii) : bool := existsb (Ascii.eqb c) (map fst letters).
Definition small (c : ascii) : bool := existsb (Ascii.eqb c) (map snd letters).
Lemma eqb_in c l : existsb (Ascii.eqb c) l = true <-> In c l.
Proof. rewrite existsb_exists. split; [intros (d & I & E); apply Ascii.eqb_eq in E; subst; exact I|]. intro I. exists c. split; [exact I|apply Ascii.eqb_refl]. Qed.

Lemma lower_table : forallb (fun c => forallb (fun d => (capital d || Bool.eqb (Ascii.eqb (lower_char c) d) (same_but_case c d))%bool) all_chars) all_chars = true.
Proof. vm_compute. reflexivity. Qed.
Definition upper_char (c : ascii) : ascii := if ((97 <=? nat_of_ascii c) && (nat_of_ascii c <=? 122))%nat%bool then ascii_of_nat (nat_of_ascii c - 32) else c.
Lemma upper_table : forallb (fun c => forallb (fun d => (small d || Bool.eqb (Ascii.eqb (upper_char c) d) (same_but_case c d))%bool) all_chars) all_chars = true.
Proof. vm_compute. reflexivity. Qed.

Lemma table_entry (f : ascii -> ascii) (bad : ascii -> bool) :
  forallb (fun c => forallb (fun d => (bad d || Bool.eqb (Ascii.eqb (f c) d) (same_but_case c d))%bool) all_chars) all_chars = true ->
  forall c d, bad d = false -> (f c = d <-> c = d \/ In (c, d) letters \/ In (d, c) letters).
Proof.
  intros H c d B. rewrite forallb_forall in H. specialize (H c (all_chars_in c)). rewrite forallb_forall in H. specialize (H d (all_chars_in d)).
  rewrite B in H. cbn in H. apply Bool.eqb_prop in H. rewrite <- same_but_case_in, <- H, Ascii.eqb_eq. tauto.
Qed.
Lemma mapped (f : ascii -> ascii) (bad : ascii -> bool) (g : string -> string) : g "" = "" -> (forall c s, g (String c s) = String (f c) (g s)) ->
  (forall c d, bad d = false -> (f c = d <-> c = d \/ In (c, d) letters \/ In (d, c) letters)) ->
  forall t s, Forall (fun d => bad d = false) (list_ascii_of_string t) -> (g s = t <-> ignoring_case s t).
Proof.
  intros G0 G1 T t. induction t as [|d t IH]; intros s F.
  - split; intro H; [|inversion H; exact G0]. destruct s as [|c s]; [constructor|]. rewrite G1 in H. discriminate.
  - cbn in F. inversion F as [|? ? F1 F2]; subst. split; intro H.
    + destruct s as [|c s]; [rewrite G0 in H; discriminate|]. rewrite G1 in H. injection H as H1 H2. constructor; [apply T; assumption|apply IH; assumption].
    + inversion H as [|c d' s' t' Hc Hs]; subst. rewrite G1. f_equal; [apply T; assumption|apply IH; assumption].
Qed.
Lemma lower_iff s t : no_capitals t -> (lower s = t <-> ignoring_case s t).
Proof.
  intro F. apply (mapped lower_char capital lower); [reflexivity|reflexivity|apply (table_entry _ _ lower_table)|].
  unfold no_capitals in F. rewrite Forall_forall in *. intros c I. specialize (F c I). rewrite <- (eqb_in c) in F. unfold capital. destruct (existsb _ _); [contradiction F; reflexivity|reflexivity].
Qed.
Lemma upper_iff s t : no_smalls t -> (upper s = t <-> ignoring_case s t).
Proof.
  intro F. apply (mapped upper_char small upper); [reflexivity|reflexivity|apply (table_entry _ _ upper_table)|].
  unfold no_smalls in F. rewrite Forall_forall in *. intros c I. specialize (F c I). rewrite <- (eqb_in c) in F. unfold small. destruct (existsb _ _); [contradiction F; reflexivity|reflexivity].
Qed.
Ltac plain_text := unfold no_capitals, no_smalls; rewrite Forall_forall; intros c I J; cbn in I, J; repeat (destruct I as [<-|I]; [repeat (destruct J as [J|J]; [discriminate|]); contradiction|]); contradiction.
Lemma gps_plain : no_smalls "GPS".
Proof. plain_text. Qed.
Lemma frames_plain s : In s frame_names -> no_capitals s.
Proof. intro H. unfold frame_names in H. repeat (destruct H as [<-|H]; [plain_text|]). contradiction. Qed.

(** Navigation frames: the twelve names, in any case *)
Theorem C49_any_case : forall s, (exists m, get_rot_matrix s = Ok m) <-> exists f, In f frame_names /\ ignoring_case s f.
Proof.
  intro s. rewrite C49_accepted. split.
  - intro I. exists (lower s). split; [exact I|]. apply lower_iff; [apply frames_plain, I|reflexivity].
  - intros (f & I & E). apply lower_iff in E; [rewrite E; exact I|apply frames_plain, I].
Qed.
Print Assumptions C49_any_case.

Theorem C49_same_matrix : forall s f, In f frame_names -> ignoring_case s f -> get_rot_matrix s = get_rot_matrix f.
Proof.
  intros s f I E. assert (L : lower s = f) by (apply lower_iff; [apply frames_plain, I|exact E]).
  assert (L' : lower f = f). { apply lower_iff; [apply frames_plain, I|]. clear. induction f; constructor; auto. }
  unfold get_rot_matrix. rewrite L, L'. reflexivity.
Qed.
Print Assumptions C49_same_matrix.

(** Dates: the time zone "GPS", in any case, has its 18 s; every other one is passed to the time zone database. *)
Theorem C48_any_case_partial : forall T C h d off j first rest xs, h_time_offset h = Fin off -> h_time_format h = Ok DATETIME ->
  nth_error (h_fields h) j = Some "t" -> count_occ string_dec (h_fields h) "t" = 1%nat ->
  text_cells T d j (first :: rest) -> Forall (fun s => (String.length s <= String.length first)%nat) rest ->
  (~ ignoring_case (h_datetime_timezone h) "GPS" ->
   Forall2 (fun s x => exists y, parse_dt C (h_datetime_format h) s = Some y /\ localize C (h_datetime_timezone h) y = Some x) (first :: rest) xs ->
   extract_timestamps T C h d = Ok (map (fun x => Fin (x + off)) xs)) /\
  (ignoring_case (h_datetime_timezone h) "GPS" -> (forall x, localize C "UTC" x = Some x) ->
   Forall2 (fun s x => parse_dt C (h_datetime_format h) s = Some x) (first :: rest) xs ->
   extract_timestamps T C h d = Ok (map (fun x => Fin (x - 18 + off)) xs)).
Proof.
  intros T C h d off j first rest xs HO F N U TX L. destruct (C48_datetime_partial T C h d off j first rest xs HO F N U TX L) as [A B]. split.
  - intro G. apply A. intro E. apply G. apply (upper_iff _ _ gps_plain), E.
  - intro G. apply B. apply (upper_iff _ _ gps_plain), G.
Qed.
Print Assumptions C48_any_case_partial.

(** Writing succeeds exactly for trajectories whose components have the same length, and raises ValueError otherwise. *)
Theorem C47_writable : forall Q (qops : quat_ops Q) T before (t : traj Q),
  let n := length (tstamps t) in
  let fits := length (arc t) = n /\ length (xyz t) = n /\ length (speed t) = n /\ (forall q, rot t = Some q -> length q = n) in
  (fits -> exists text, to_file qops T before t = Ok (before ++ text)) /\ (~ fits -> to_file qops T before t = Err ValueError).
Proof.
  intros Q qops T before t n fits. assert (E : same_lengths t = true <-> fits).
  { unfold same_lengths, fits, n. rewrite !andb_true_iff, !Nat.eqb_eq. destruct (rot t) as [q|].
    - rewrite Nat.eqb_eq. split; [intros [[[A B] C] D]; repeat split; try assumption; intros q' Hq; injection Hq as <-; exact D|].
      intros (A & B & C & D). repeat split; try assumption. apply D. reflexivity.
    - split; [intros [[[A B] C] D]; repeat split; try assumption; discriminate|]. intros (A & B & C & D). repeat split; assumption. }
  unfold to_file. split; intro H.
  - apply E in H. rewrite H. eexists. reflexivity.
  - destruct (same_lengths t); [exfalso; apply H, E; reflexivity|reflexivity].
Qed.
Print Assumptions C47_writable.

(** A result file whose table has one column is refused with IndexError. *)
Lemma one_column (rows : list (list (option R))) : rows <> [] -> Forall (fun r => length r = 1%nat) rows -> entries rows 1 = Err IndexError.
Proof. intros N F. destruct rows as [|r rows]; [congruence|]. inversion F as [|? ? F1 _]; subst. unfold entries. cbn [mapM]. destruct r as [|a [|]]; try discriminate. reflexivity. Qed.
Lemma first_column (rows : list (list (option R))) : Forall (fun r => length r = 1%nat) rows -> exists l, entries rows 0 = Ok l /\ length l = length rows.
Proof.
  intro F. induction F as [|r rows Hr F (l & E & L)]; [exists []; split; reflexivity|]. destruct r as [|a r]; [discriminate|].
  exists (a :: l). split; [|cbn; congruence]. change ((let! t := entries rows 0 in Ok (a :: t)) = Ok (a :: l)). rewrite E. reflexivity.
Qed.
Theorem C141_one_column : forall T text h rows, header_from_file T text = Ok h -> IoModel.read_csv "," text = Some (Table 1 rows) ->
  (11 <= length rows)%nat -> result_from_text T text = Err IndexError.
Proof.
  intros T text h rows H Rd L. unfold result_from_text. rewrite H. cbn [bind]. unfold typed_table. rewrite Rd. cbn [bind seq map].
  set (t := map _ (seq 0 (length rows))).
  assert (F : Forall (fun r => length r = 1%nat) t) by (apply Forall_forall; intros r I; apply in_map_iff in I as (i & <- & _); reflexivity).
  assert (Lt : length (firstn 11 t) = 11%nat) by (unfold t; rewrite firstn_length, map_length, seq_length; lia).
  assert (F11 : Forall (fun r => length r = 1%nat) (firstn 11 t)).
  { rewrite Forall_forall in *. intros r I. apply F. rewrite <- (firstn_skipn 11 t). apply in_or_app. left. exact I. }
  unfold position_from. destruct (first_column _ F11) as (l & -> & Ll). cbn [bind]. rewrite Ll, Lt. cbn [negb Nat.eqb].
  rewrite (one_column (firstn 11 t)); [reflexivity|intro Z; rewrite Z in Lt; discriminate|exact F11].
Qed.
Print Assumptions C141_one_column.

Example C141_case_column : let text := fold_right (fun _ s => text_line "1" ++ s) "" (seq 0 14) in
  (exists h, header_from_file sample_text text = Ok h) /\ exists rows, IoModel.read_csv "," text = Some (Table 1 rows) /\ length rows = 14%nat.
Proof. cbn zeta. split; [eexists; reflexivity|]. eexists. split; [vm_compute; reflexivity|reflexivity]. Qed.
Print Assumptions C141_case_column.
Example C49_case_any : ignoring_case "NeD" "ned" /\ ~ ignoring_case "ne" "ned".
Proof. split; [repeat constructor; auto; right; left; vm_compute; tauto|]. intro H. inversion H as [|? ? ? ? _ H1]; subst. inversion H1 as [|? ? ? ? _ H2]; subst. inversion H2. Qed.
Print Assumptions C49_case_any.
Example C48_case_any : ignoring_case "gps" "GPS" /\ ~ ignoring_case "UTC" "GPS".
Proof.
  split; [repeat constructor; auto; right; right; vm_compute; tauto|]. intro H. apply (upper_iff _ _ gps_plain) in H. vm_compute in H. discriminate.
Qed.
Print Assumptions C48_case_any.
