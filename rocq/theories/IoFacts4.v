(** Time formats, streams, and witnesses of the contracts. *)
From Coq Require Import DecimalString DecimalZ Decimal.
From Verif Require Import Base BaseFacts EstModel TextModel TextFacts HeaderModel NumpyModel TrajModel TrajSpec GeomModel GeomSpec IoModel IoSpec HeaderFacts IoFacts IoFacts2 IoFacts3.
Local Open Scope string_scope.
Local Arguments Ascii.eqb : simpl never.
Local Opaque newline return_char.

(** ** Time columns *)

Lemma time_columns_from k fields :
  length (filter (fun e => String.eqb (snd e) "t") (combine (seq k (length fields)) fields)) = count_occ string_dec fields "t".
Proof.
  revert k. induction fields as [|f fields IH]; intro k; [reflexivity|]. cbn [length seq combine filter snd].
  cbn [count_occ]. destruct (String.eqb_spec f "t") as [->|N].
  - destruct (string_dec "t" "t"); [|congruence]. cbn [length]. rewrite IH. reflexivity.
  - destruct (string_dec f "t"); [congruence|]. apply IH.
Qed.
Lemma time_columns_count fields : length (time_columns fields) = count_occ string_dec fields "t".
Proof. unfold time_columns, enumerate. rewrite map_length. apply time_columns_from. Qed.

Lemma index_of_unique fields j : nth_error fields j = Some "t" -> count_occ string_dec fields "t" = 1%nat -> index_of "t" fields = Ok j.
Proof.
  revert j. induction fields as [|f fields IH]; intros j N C; [destruct j; discriminate|].
  cbn [count_occ] in C. cbn [index_of]. destruct (string_dec f "t") as [->|NE].
  - rewrite String.eqb_refl. destruct j as [|j]; [reflexivity|]. cbn in N. apply nth_error_In in N.
    apply (count_occ_In string_dec) in N. lia.
  - apply String.eqb_neq in NE. rewrite NE. destruct j as [|j]; cbn in N; [injection N as ->; discriminate|].
    rewrite (IH j N C). reflexivity.
Qed.

Lemma time_columns_unique_from fields : forall j k, nth_error fields j = Some "t" -> count_occ string_dec fields "t" = 1%nat ->
  map fst (filter (fun e => String.eqb (snd e) "t") (combine (seq k (length fields)) fields)) = [(k + j)%nat].
Proof.
  induction fields as [|f fields IH]; intros j k N C; [destruct j; discriminate|].
  cbn [count_occ] in C. cbn [length seq combine filter snd]. destruct (string_dec f "t") as [->|NE].
  - rewrite String.eqb_refl. destruct j as [|j].
    + cbn [map fst]. rewrite Nat.add_0_r. f_equal.
      assert (filter (fun e => String.eqb (snd e) "t") (combine (seq (S k) (length fields)) fields) = []) as ->; [|reflexivity].
      apply length_zero_iff_nil. rewrite time_columns_from. lia.
    + cbn in N. apply nth_error_In in N. apply (count_occ_In string_dec) in N. lia.
  - apply String.eqb_neq in NE. rewrite NE. destruct j as [|j]; cbn in N; [injection N as ->; discriminate|].
    rewrite (IH j (S k) N C). f_equal. lia.
Qed.
Lemma time_columns_unique fields j : nth_error fields j = Some "t" -> count_occ string_dec fields "t" = 1%nat -> time_columns fields = [j].
Proof. intros N C. unfold time_columns, enumerate. rewrite (time_columns_unique_from fields j 0 N C). reflexivity. Qed.

Lemma number_column_read T d j xs : number_column T d j xs ->
  exists c, column d j = Ok c /\ to_nums T c = Ok (map Fin xs) /\ data_length d = length xs.
Proof.
  intros [n [rows [-> [L F]]]]. unfold column. destruct (Nat.ltb_spec j n); [|lia].
  eexists. split; [reflexivity|]. cbn [data_length]. split; [|exact (forall2_length _ _ _ F)].
  clear -F. induction F as [|r x rows xs [s [N V]] F IH]; [reflexivity|].
  unfold to_nums in *. cbn [map mapM].
  rewrite (nth_error_nth r j None N). unfold to_num at 1. rewrite V. cbn [bind]. rewrite IH. reflexivity.
Qed.

Lemma transpose_one {A} (xs : list A) : transpose (length xs) [xs] = map (fun x => [x]) xs.
Proof. induction xs as [|x xs IH]; [reflexivity|]. cbn. cbn in IH. rewrite IH. reflexivity. Qed.
Lemma concat_singletons {A} (xs : list A) : concat (map (fun x => [x]) xs) = xs.
Proof. induction xs as [|x xs IH]; [reflexivity|]. cbn. rewrite IH. reflexivity. Qed.

Lemma flat_map_first_length {A} (cols : list (list A)) n : Forall (fun c => length c = S n) cols ->
  length (flat_map (fun c => firstn 1 c) cols) = length cols.
Proof.
  induction 1 as [|c cols H F IH]; [reflexivity|]. destruct c as [|x c]; [discriminate|]. cbn. cbn in IH. rewrite IH. reflexivity.
Qed.
Lemma transpose_length {A} n : forall (cols : list (list A)), Forall (fun c => length c = n) cols ->
  length (concat (transpose n cols)) = (n * length cols)%nat.
Proof.
  induction n as [|n IH]; intros cols F; [reflexivity|]. cbn [transpose concat]. rewrite app_length.
  rewrite (flat_map_first_length cols n F), IH, map_length; [reflexivity|].
  apply Forall_forall. intros c I. apply in_map_iff in I as [c' [<- I]]. rewrite Forall_forall in F. specialize (F c' I).
  destruct c'; cbn in *; lia.
Qed.

Section Times.
  Context (T : text_ops) (C : clock) (h : header) (d : data) (off : R) (HO : h_time_offset h = Fin off).

  Lemma unix_times j xs : h_time_format h = Ok UNIX -> nth_error (h_fields h) j = Some "t" ->
    count_occ string_dec (h_fields h) "t" = 1%nat -> number_column T d j xs ->
    extract_timestamps T C h d = Ok (map (fun x => Fin (x + off)) xs).
  Proof.
    intros F N U NC. unfold extract_timestamps. rewrite F. cbn [bind]. rewrite time_columns_count, U. cbn [Nat.eqb].
    rewrite (index_of_unique _ j N U). cbn [bind].
    destruct (number_column_read T d j xs NC) as [c [A [B L]]]. rewrite A. cbn [bind]. rewrite B. cbn [rmap].
    rewrite HO, map_map. reflexivity.
  Qed.

  Lemma numbered f : h_time_format h = Ok f -> (count_occ string_dec (h_fields h) "t" = 0%nat \/
      (f = UNIX /\ count_occ string_dec (h_fields h) "t" <> 1%nat)) ->
    extract_timestamps T C h d = Ok (map (fun i => Fin (INR i)) (seq 0 (data_length d))).
  Proof.
    intros F N. unfold extract_timestamps. rewrite F. cbn [bind]. rewrite time_columns_count.
    destruct N as [Z|[-> N]].
    - rewrite Z. destruct f; reflexivity.
    - apply Nat.eqb_neq in N. rewrite N. reflexivity.
  Qed.

  Lemma gps_times j xs : h_time_format h = Ok GPS_SOW -> nth_error (h_fields h) j = Some "t" ->
    count_occ string_dec (h_fields h) "t" = 1%nat -> number_column T d j xs ->
    extract_timestamps T C h d =
    Ok (map (fun x => Fin (x + IZR (h_gps_week (this_week C) h) * 604800 - 18 + week_zero C + off)) xs).
  Proof.
    intros F N U NC. unfold extract_timestamps. rewrite F. cbn [bind].
    rewrite (time_columns_unique _ j N U). cbn [length Nat.eqb negb].
    destruct (number_column_read T d j xs NC) as [c [A [B L]]].
    unfold parse_gps_sow. cbn [mapM]. rewrite A. cbn [bind mapM]. rewrite B. cbn [bind rmap]. rewrite HO.
    rewrite L, <- (map_length Fin xs), transpose_one, concat_singletons, !map_map. reflexivity.
  Qed.

  (** Several time columns give several timestamps per pose. *)
  Lemma gps_count ts : h_time_format h = Ok GPS_SOW -> (0 < count_occ string_dec (h_fields h) "t")%nat ->
    extract_timestamps T C h d = Ok ts ->
    length ts = (data_length d * count_occ string_dec (h_fields h) "t")%nat.
  Proof.
    intros F P H. unfold extract_timestamps in H. rewrite F in H. cbn [bind] in H. rewrite <- time_columns_count in *.
    destruct (length (time_columns (h_fields h)) =? 0)%nat eqn:Z; [apply Nat.eqb_eq in Z; lia|]. cbn [negb] in H.
    destruct (parse_gps_sow T C h d (time_columns (h_fields h))) as [l|e] eqn:G; cbn in H; [|discriminate]. injection H as <-.
    rewrite map_length. unfold parse_gps_sow in G. apply bind_ok in G as [cs [CS G]]. apply bind_ok in G as [xs [XS G]]. injection G as <-.
    rewrite map_length.
    assert (length cs = length (time_columns (h_fields h)) /\ Forall (fun c => length c = data_length d) cs) as [LC FC].
    { clear -CS. revert cs CS. induction (time_columns (h_fields h)) as [|j l IH]; intros cs CS; cbn in CS.
      - injection CS as <-. split; [reflexivity|constructor].
      - apply bind_ok in CS as [c [HC CS]]. apply bind_ok in CS as [cs' [HCS CS]]. injection CS as <-.
        destruct (IH cs' HCS) as [A B]. split; [cbn; congruence|]. constructor; [|exact B].
        unfold column in HC. destruct d as [n rows|]; [|discriminate]. destruct (j <? n)%nat; [|discriminate]. injection HC as <-.
        rewrite map_length. reflexivity. }
    assert (length xs = length cs /\ Forall (fun c => length c = data_length d) xs) as [LX FX].
    { clear -XS FC. revert xs XS. induction FC as [|c cs H FC IH]; intros xs XS; cbn in XS.
      - injection XS as <-. split; [reflexivity|constructor].
      - apply bind_ok in XS as [x [HX XS]]. apply bind_ok in XS as [xs' [HXS XS]]. injection XS as <-.
        destruct (IH xs' HXS) as [A B]. split; [cbn; congruence|]. constructor; [|exact B].
        rewrite <- H. clear -HX. revert x HX. unfold to_nums. induction c as [|y c IH]; intros x HX; cbn in HX.
        + injection HX as <-. reflexivity.
        + apply bind_ok in HX as [z [HZ HX]]. apply bind_ok in HX as [zs [HZS HX]]. injection HX as <-. cbn. rewrite (IH zs HZS). reflexivity. }
    rewrite (transpose_length _ _ FX). congruence.
  Qed.
End Times.

Lemma take_all s n : (String.length s <= n)%nat -> take n s = s.
Proof. revert n. induction s as [|c s IH]; intros [|n]; cbn; try lia; intro L; [reflexivity|reflexivity|]. rewrite IH by lia. reflexivity. Qed.

Lemma text_cells_read T d j ss : text_cells T d j ss ->
  column d j = Ok (map Some ss) /\ text_column T (map Some ss) = true /\ data_length d = length ss.
Proof.
  intros [n [rows [-> [L [F [s [I N]]]]]]]. unfold column. destruct (Nat.ltb_spec j n); [|lia]. cbn [data_length].
  split; [|split; [|exact (forall2_length _ _ _ F)]].
  - f_equal. clear -F. induction F as [|r x rows xs E F IH]; [reflexivity|]. cbn [map]. rewrite (nth_error_nth r j None E), IH. reflexivity.
  - unfold text_column. apply existsb_exists. exists (Some s). split; [apply in_map; exact I|]. rewrite N. reflexivity.
Qed.

Lemma joined_cells ss : mapM joined (map (fun s => [Some s]) ss) = Ok ss.
Proof. induction ss as [|s ss IH]; [reflexivity|]. cbn [map mapM]. unfold joined at 1. cbn. rewrite IH. reflexivity. Qed.

Lemma mapM_forall2 {A B} (f : A -> result B) l m : Forall2 (fun a b => f a = Ok b) l m -> mapM f l = Ok m.
Proof. induction 1 as [|a b l m E F IH]; [reflexivity|]. cbn. rewrite E. cbn. rewrite IH. reflexivity. Qed.

Lemma datetime_times T C h d off j first rest xs : h_time_offset h = Fin off -> h_time_format h = Ok DATETIME ->
  nth_error (h_fields h) j = Some "t" -> count_occ string_dec (h_fields h) "t" = 1%nat ->
  text_cells T d j (first :: rest) -> upper (h_datetime_timezone h) <> "GPS" ->
  Forall2 (fun s x => exists y, parse_dt C (h_datetime_format h) (take (String.length first) s) = Some y /\
                                localize C (h_datetime_timezone h) y = Some x) (first :: rest) xs ->
  extract_timestamps T C h d = Ok (map (fun x => Fin (x + off)) xs).
Proof.
  intros HO F N U TX G P. unfold extract_timestamps. rewrite F. cbn [bind].
  rewrite (time_columns_unique _ j N U). cbn [length Nat.eqb negb].
  destruct (text_cells_read T d j _ TX) as [A [B L]]. unfold parse_datetime. cbn [mapM]. rewrite A. cbn [bind forallb]. rewrite B. cbn [negb andb].
  rewrite L. rewrite <- (map_length Some (first :: rest)), transpose_one, map_map.
  unfold apply_join. rewrite joined_cells. cbn [bind]. apply String.eqb_neq in G. rewrite G.
  assert (exists ys, Forall2 (fun s y => parse_dt C (h_datetime_format h) (take (String.length first) s) = Some y) (first :: rest) ys /\
                     Forall2 (fun y x => localize C (h_datetime_timezone h) y = Some x) ys xs) as [ys [Y1 Y2]].
  { clear -P. induction P as [|s x l m [y [E1 E2]] P [ys [IH1 IH2]]]; [exists []; split; constructor|].
    exists (y :: ys). split; constructor; assumption. }
  set (g := fun s => match parse_dt C (h_datetime_format h) s with Some x => Ok x | None => Err ValueError end).
  assert (mapM g (map (take (String.length first)) (first :: rest)) = Ok ys) as ->.
  { apply mapM_forall2. clear -Y1. induction Y1 as [|s y l m E Y IH]; [constructor|]. cbn [map]. constructor; [unfold g; rewrite E; reflexivity|exact IH]. }
  cbn [bind].
  assert (mapM (fun x => match localize C (h_datetime_timezone h) x with Some y => Ok (Fin y) | None => Err ValueError end) ys = Ok (map Fin xs)) as ->.
  { apply mapM_forall2. clear -Y2. induction Y2 as [|s y l m E Y IH]; [constructor|]. cbn [map]. constructor; [rewrite E; reflexivity|exact IH]. }
  cbn [rmap]. rewrite HO, map_map. reflexivity.
Qed.

Lemma datetime_gps T C h d off j first rest xs : h_time_offset h = Fin off -> h_time_format h = Ok DATETIME ->
  nth_error (h_fields h) j = Some "t" -> count_occ string_dec (h_fields h) "t" = 1%nat ->
  text_cells T d j (first :: rest) -> upper (h_datetime_timezone h) = "GPS" -> (forall x, localize C "UTC" x = Some x) ->
  Forall2 (fun s x => parse_dt C (h_datetime_format h) (take (String.length first) s) = Some x) (first :: rest) xs ->
  extract_timestamps T C h d = Ok (map (fun x => Fin (x - 18 + off)) xs).
Proof.
  intros HO F N U TX G Z P. unfold extract_timestamps. rewrite F. cbn [bind].
  rewrite (time_columns_unique _ j N U). cbn [length Nat.eqb negb].
  destruct (text_cells_read T d j _ TX) as [A [B L]]. unfold parse_datetime. cbn [mapM]. rewrite A. cbn [bind forallb]. rewrite B. cbn [negb andb].
  rewrite L. rewrite <- (map_length Some (first :: rest)), transpose_one, map_map.
  unfold apply_join. rewrite joined_cells. cbn [bind]. rewrite G, String.eqb_refl.
  set (g := fun s => match parse_dt C (h_datetime_format h) s with Some x => Ok x | None => Err ValueError end).
  assert (mapM g (map (take (String.length first)) (first :: rest)) = Ok xs) as ->.
  { apply mapM_forall2. clear -P. induction P as [|s y l m E Y IH]; [constructor|]. cbn [map]. constructor; [unfold g; rewrite E; reflexivity|exact IH]. }
  cbn [bind].
  rewrite (mapM_forall2 _ _ (map (fun x => Fin (x - 18)) xs)).
  - cbn [rmap]. rewrite HO, map_map. reflexivity.
  - clear -Z. unfold GPS_LEAP_SECONDS. induction xs as [|x xs IH]; [constructor|]. cbn [map]. constructor; [rewrite Z; reflexivity|exact IH].
Qed.

(** ** Streams *)

Lemma splitlines_plain : forall n s, (String.length s <= n)%nat -> plain_ends s = true -> splitlines s = file_lines s.
Proof.
  induction n as [|n IH]; intros s L P; [destruct s; [reflexivity|cbn in L; lia]|].
  destruct s as [|c r]; [reflexivity|]. cbn in L. cbn [plain_ends] in P. apply andb_prop in P as [PC P].
  assert (ends_line c = (Ascii.eqb c newline || Ascii.eqb c return_char)%bool) as E.
  { destruct (ends_line c) eqn:EL.
    - cbn in PC. congruence.
    - destruct (Ascii.eqb_spec c newline) as [->|_]; [discriminate EL|].
      destruct (Ascii.eqb_spec c return_char) as [->|_]; [discriminate EL|]. reflexivity. }
  cbn [splitlines file_lines]. rewrite E.
  destruct (Ascii.eqb c newline || Ascii.eqb c return_char)%bool.
  - f_equal. destruct r as [|c' r']; [reflexivity|]. destruct (Ascii.eqb c return_char && Ascii.eqb c' newline)%bool.
    + apply IH; [cbn in L; lia|]. cbn in P. apply andb_prop in P as [_ P]. exact P.
    + apply IH; [lia|exact P].
  - destruct r as [|c' r']; [reflexivity|]. rewrite (IH (String c' r')) by (lia || exact P). reflexivity.
Qed.

Lemma stream_same {Q} (ops : rot_ops Q) qops T C loc counted text : plain_ends text = true -> several_columns T text ->
  from_stream ops qops T C loc counted text = from_file ops qops T C loc counted text.
Proof.
  intros P [h [n [rows [H [D N]]]]]. unfold from_stream, from_file, read_string, read_data.
  assert (header_from_string T text = header_from_file T text) as E.
  { unfold header_from_string, header_from_file. rewrite (splitlines_plain _ text (le_n _) P). reflexivity. }
  rewrite E, H. cbn [bind]. rewrite D. cbn [columns_of]. apply Nat.eqb_neq in N. rewrite N. reflexivity.
Qed.

Lemma flat_fails {Q} (ops : rot_ops Q) qops T C loc counted h : exists e, from_read ops qops T C loc counted (Ok (h, Flat)) = Err e.
Proof.
  unfold from_read. cbn [bind]. destruct (extract_timestamps T C h Flat) as [ts|e]; [|eexists; reflexivity]. cbn [bind].
  unfold extract_pointset, columns.
  destruct (mapM (fun a => index_of a (h_fields h)) ["px"; "py"; "pz"]) as [js|e] eqn:E; [|eexists; reflexivity]. cbn [bind].
  cbn [mapM] in E. apply bind_ok in E as [j [_ E]]. apply bind_ok in E as [l [_ E]]. injection E as <-.
  eexists. reflexivity.
Qed.

Lemma stream_one_column {Q} (ops : rot_ops Q) qops T C loc counted text h :
  header_from_string T text = Ok h ->
  (forall n rows, read_csv (h_delimiter h) text = Some (Table n rows) -> n = 1%nat) ->
  exists e, from_stream ops qops T C loc counted text = Err e.
Proof.
  intros H D. unfold from_stream, read_string. rewrite H. cbn [bind].
  destruct (read_csv (h_delimiter h) text) as [[n rows|]|] eqn:E.
  - rewrite (D n rows eq_refl). apply flat_fails.
  - apply flat_fails.
  - apply flat_fails.
Qed.

(** ** A witness of the text contract *)

Fixpoint digits (s : string) : bool :=
  match s with "" => true | String c r => (member (String c "") ["0"; "1"; "2"; "3"; "4"; "5"; "6"; "7"; "8"; "9"; "-"] && digits r)%bool end.
Lemma digits_spaceless s : digits s = true -> spaceless s = true.
Proof.
  induction s as [|c s IH]; [reflexivity|]. cbn [digits spaceless]. intro H. apply andb_prop in H as [A B]. rewrite (IH B), andb_true_r.
  unfold member in A. apply existsb_exists in A as [x [I E]]. apply String.eqb_eq in E. cbn in I.
  repeat destruct I as [I|I]; try contradiction; rewrite <- I in E; injection E as ->; reflexivity.
Qed.
Lemma digits_char ch s : digits s = true -> digits (String ch "") = false -> has_char ch s = false.
Proof.
  intros D N. induction s as [|c s IH]; [reflexivity|]. cbn [digits has_char] in *. apply andb_prop in D as [A B].
  rewrite (IH B), orb_false_r. apply Ascii.eqb_neq. intros ->. rewrite A in N. discriminate.
Qed.
Lemma digits_uint d : digits (NilEmpty.string_of_uint d) = true.
Proof. induction d; cbn [NilEmpty.string_of_uint digits]; try rewrite IHd; reflexivity. Qed.
Lemma digits_int z : digits (NilZero.string_of_int (Z.to_int z)) = true.
Proof.
  assert (forall d, digits (NilZero.string_of_uint d) = true) as U.
  { intro d. unfold NilZero.string_of_uint. destruct d; try reflexivity; apply digits_uint. }
  destruct (Z.to_int z); cbn [NilZero.string_of_int]; [apply U|]. cbn [digits]. rewrite U. reflexivity.
Qed.
Lemma nonempty_int z : NilZero.string_of_int (Z.to_int z) <> "".
Proof.
  destruct (Z.to_int z) as [d|d]; cbn [NilZero.string_of_int]; [|discriminate]. destruct d; discriminate.
Qed.
Lemma read_shown z : option_map Z.of_int (NilZero.int_of_string (NilZero.string_of_int (Z.to_int z))) = Some z.
Proof.
  rewrite NilZero.isi.
  - cbn. rewrite DecimalZ.of_to. reflexivity.
  - destruct z; cbn; try discriminate. intro H. injection H as H. apply (DecimalPos.Unsigned.to_uint_nonnil p). exact H.
  - destruct z; cbn; try discriminate. intro H. injection H as H. apply (DecimalPos.Unsigned.to_uint_nonnil p). exact H.
Qed.

Definition nanos (x : R) : Z := up (x * 10 ^ 9 - 1 / 2).
(** Numbers written as whole multiples of 1e-9 *)
Definition sample_text : text_ops := mkTextOps
  (fun s => option_map (fun i => Fin (IZR (Z.of_int i) / 10 ^ 9)) (NilZero.int_of_string s))
  (fun s => option_map Z.of_int (NilZero.int_of_string s))
  (fun z => NilZero.string_of_int (Z.to_int z))
  (fun x => NilZero.string_of_int (Z.to_int (nanos x))).

Lemma nanos_near x : Rabs (IZR (nanos x) / 10 ^ 9 - x) <= 5 / 10 ^ 10.
Proof.
  unfold nanos. destruct (archimed (x * 10 ^ 9 - 1 / 2)) as [A B].
  replace (IZR (up (x * 10 ^ 9 - 1 / 2)) / 10 ^ 9 - x) with ((IZR (up (x * 10 ^ 9 - 1 / 2)) - x * 10 ^ 9) / 10 ^ 9) by field.
  set (u := IZR (up (x * 10 ^ 9 - 1 / 2))) in *. set (y := x * 10 ^ 9) in *. apply Rabs_le. lra.
Qed.

Lemma sample_text_contract : text_contract sample_text.
Proof.
  assert (forall z, word (NilZero.string_of_int (Z.to_int z))) as W.
  { intro z. split; [apply nonempty_int|apply digits_spaceless; apply digits_int]. }
  constructor; cbn [integer show_int number show9 sample_text].
  - apply read_shown.
  - exact W.
  - intro x. exists (IZR (nanos x) / 10 ^ 9). split; [|apply nanos_near].
    pose proof (read_shown (nanos x)) as H.
    destruct (NilZero.int_of_string (NilZero.string_of_int (Z.to_int (nanos x)))) as [i|]; [|discriminate].
    cbn in *. injection H as ->. reflexivity.
  - intro x. apply W.
  - intro x. apply digits_char; [apply digits_int|reflexivity].
  - intro x. apply digits_char; [apply digits_int|reflexivity].
Qed.

(** ** A witness of the quaternion contract: unit quaternions with Hamilton's product *)

Definition uquat := {v : V4 | qnorm v = 1}.
Definition qmult (a b : V4) : V4 :=
  mkV4 (q_w a * q_x b + q_x a * q_w b + q_y a * q_z b - q_z a * q_y b)
       (q_w a * q_y b - q_x a * q_z b + q_y a * q_w b + q_z a * q_x b)
       (q_w a * q_z b + q_x a * q_y b - q_y a * q_x b + q_z a * q_w b)
       (q_w a * q_w b - q_x a * q_x b - q_y a * q_y b - q_z a * q_z b).
Definition qsq (v : V4) : R := q_x v * q_x v + q_y v * q_y v + q_z v * q_z v + q_w v * q_w v.
Lemma qsq_nonneg v : 0 <= qsq v.
Proof.
  unfold qsq. pose proof (Rle_0_sqr (q_x v)). pose proof (Rle_0_sqr (q_y v)). pose proof (Rle_0_sqr (q_z v)). pose proof (Rle_0_sqr (q_w v)).
  unfold Rsqr in *. lra.
Qed.
Lemma qmult_unit a b : qnorm a = 1 -> qnorm b = 1 -> qnorm (qmult a b) = 1.
Proof.
  intros A B. unfold qnorm in *. fold (qsq a) in A. fold (qsq b) in B. fold (qsq (qmult a b)).
  assert (qsq (qmult a b) = qsq a * qsq b) as -> by (unfold qsq, qmult; cbn [q_x q_y q_z q_w]; ring).
  rewrite sqrt_mult by apply qsq_nonneg. rewrite A, B. ring.
Qed.
Lemma qident_unit : qnorm (mkV4 0 0 0 1) = 1.
Proof. unfold qnorm. cbn [q_x q_y q_z q_w]. replace (0 * 0 + 0 * 0 + 0 * 0 + 1 * 1) with 1 by ring. apply sqrt_1. Qed.
Lemma qscale_unit v : qnorm v <> 0 -> qnorm (qscale (/ qnorm v) v) = 1.
Proof.
  intro N. assert (0 < qnorm v) as P by (pose proof (sqrt_pos (qsq v)) as X; fold (qnorm v) in X; unfold qnorm in *; fold (qsq v) in *; lra).
  unfold qnorm at 1. fold (qsq (qscale (/ qnorm v) v)).
  assert (qsq (qscale (/ qnorm v) v) = 1) as ->; [|apply sqrt_1].
  transitivity (/ qnorm v * / qnorm v * qsq v); [unfold qsq, qscale; cbn [q_x q_y q_z q_w]; ring|].
  assert (qsq v = qnorm v * qnorm v) as -> by (unfold qnorm; fold (qsq v); rewrite sqrt_sqrt; [reflexivity|apply qsq_nonneg]).
  field. exact N.
Qed.
Definition uident : uquat := exist _ (mkV4 0 0 0 1) qident_unit.
Definition umul (a b : uquat) : uquat := exist _ (qmult (proj1_sig a) (proj1_sig b)) (qmult_unit _ _ (proj2_sig a) (proj2_sig b)).
Definition sample_rot_ops : rot_ops uquat :=
  mkRotOps uquat (fun _ => mident) (fun _ => uident) (fun _ => uident) (fun _ => vzero) umul (fun q => q).
Definition sample_quat_ops : quat_ops uquat := mkQuatOps uquat (fun q => proj1_sig q)
  (fun v => match Req_EM_T (qnorm v) 0 with left _ => None | right N => Some (exist _ (qscale (/ qnorm v) v) (qscale_unit v N)) end).
Lemma sample_quat_contract : quat_contract sample_rot_ops sample_quat_ops.
Proof.
  constructor; cbn.
  - intros [v U]. exact U.
  - intros v Z. destruct (Req_EM_T (qnorm v) 0); [reflexivity|contradiction].
  - intros v N. destruct (Req_EM_T (qnorm v) 0) as [E|E]; [contradiction|]. eexists. split; [reflexivity|]. reflexivity.
  - intros [v U]. cbn. destruct v as [x y z w]. unfold qmult. cbn [q_x q_y q_z q_w]. f_equal; ring.
Qed.
