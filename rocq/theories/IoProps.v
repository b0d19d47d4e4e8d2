(** Properties of trajectory files: headers (C46), round trip (C47), time formats (C48), navigation frames (C49) and
    reading from a stream (C71). *)
From Verif Require Import Base BaseFacts EstModel TextModel TextFacts HeaderModel NumpyModel TrajModel TrajSpec GeomModel GeomSpec IoModel IoSpec HeaderFacts IoFacts IoFacts2 IoFacts3 IoFacts4.
Local Open Scope string_scope.

(** ** C46: header parsing *)

(** The value of every tag is what its last line says, and the default without one. *)
Theorem C46_last_wins : forall T text h, header_from_file T text = Ok h ->
  let lines := file_lines text in
  tag_value lines "id" "" says_text (h_id h) /\
  tag_value lines "name" "Trajectory" says_text (h_name h) /\
  tag_value lines "rot_unit" "rad" says_text (h_rot_unit h) /\
  tag_value lines "datetime_format" "%Y-%m-%d %H:%M:%S.%f" says_text (h_datetime_format h) /\
  tag_value lines "datetime_timezone" "UTC" says_text (h_datetime_timezone h) /\
  tag_value lines "fields" ["t"; "px"; "py"; "pz"; "qx"; "qy"; "qz"; "qw"]
            (fun l => option_map (split_on ",") (says_text l)) (h_fields h) /\
  tag_value lines "nframe" "enu" (fun l => option_map lower (says_text l)) (h_nframe h) /\
  tag_value lines "type" "trajectoryentry" (fun l => option_map lower (says_text l)) (h_type h) /\
  tag_value lines "epsg" 0%Z (says_int T) (h_epsg h) /\
  (forall w, tag_value lines "gps_week" w (says_int T) (h_gps_week w h)) /\
  tag_value lines "time_offset" (Fin 0) (says_num T) (h_time_offset h) /\
  (untagged "delimiter" lines -> h_delimiter h = ",") /\
  (forall l q q' d rest, last_tagged "delimiter" lines l -> l = "#delimiter " ++ String q (String d (String q' rest)) ->
     is_quote q = true -> is_quote q' = true -> h_delimiter h = String d "").
Proof.
  intros T text h H lines. unfold header_from_file in H. fold lines in H.
  assert (forall k d, In k HEADER_KEYS -> k <> "epsg" -> k <> "delimiter" -> k <> "gps_week" -> k <> "time_offset" ->
    tag_value lines k d says_text (get_str h k d)) as TV by (intros; eapply text_value; eassumption).
  repeat (split; [first
    [ apply TV; try discriminate; cbn; tauto
    | apply (tag_value_map lines _ "t,px,py,pz,qx,qy,qz,qw" (split_on ",")); apply TV; try discriminate; cbn; tauto
    | apply (tag_value_map lines _ "enu" lower); apply TV; try discriminate; cbn; tauto
    | apply (tag_value_map lines _ "trajectoryentry" lower); apply TV; try discriminate; cbn; tauto
    | apply (int_value T lines h H "epsg"); cbn; tauto
    | intro w; apply (int_value T lines h H "gps_week"); cbn; tauto
    | apply (offset_value T lines h H)
    | apply (delimiter_value T lines h H) ]|]).
  intros l q q' d rest L -> A B. pose proof (proj2 (delimiter_value T lines h H) _ L) as E. cbv beta in E.
  rewrite search_delimiter_regular in E by assumption. injection E as <-. reflexivity.
Qed.
Print Assumptions C46_last_wins.

Example C46_case : exists h, header_from_file sample_text
    ("#name first" ++ String newline ("#epsg 4326" ++ String newline ("1,2,3" ++ String newline ("#colour red" ++ String newline
     ("#name  my   track" ++ String newline ""))))) = Ok h /\ h_name h = "my track" /\ h_epsg h = 4326%Z /\ h_nframe h = "enu".
Proof. eexists. split; [vm_compute; reflexivity|]. repeat split; reflexivity. Qed.

(** Reading a header fails exactly if an epsg, gps_week or time_offset line has no readable number; all other lines, with
    unknown tags or without, are always accepted. *)
Theorem C46_accepts : forall T text,
  (exists h, header_from_file T text = Ok h) <->
  (forall l, In l (file_lines text) ->
     (tag_line "epsg" l \/ tag_line "gps_week" l -> exists z, says_int T l = Some z) /\
     (tag_line "time_offset" l -> exists x, says_num T l = Some x)).
Proof.
  intros T text. unfold header_from_file. rewrite handle_lines_ok. split.
  - intros H l I. split.
    + intros G. assert (exists k, In k ["epsg"; "gps_week"] /\ tag_line k l) as [k [K Y]] by (destruct G as [G|G]; eexists; (split; [|exact G]); cbn; tauto).
      destruct (H l k I) as [v V]; [cbn in K |- *; intuition auto|exact Y|].
      assert (handler T k l = integer_line_handler T l) as E by (destruct K as [<-|[<-|[]]]; reflexivity).
      rewrite E in V. unfold integer_line_handler in V. unfold says_int.
      destruct (words l) as [|a [|w ws]]; cbn in V; try discriminate.
      destruct (integer T w) as [z|]; [exists z; reflexivity|discriminate].
    + intro Y. destruct (H l "time_offset" I) as [v V]; [cbn; tauto|exact Y|].
      change (handler T "time_offset" l) with (float_line_handler T l) in V. unfold float_line_handler in V. unfold says_num.
      destruct (words l) as [|a [|w ws]]; cbn in V; try discriminate.
      destruct (number T w) as [z|]; [exists z; reflexivity|discriminate].
  - intros H l k I K Y. destruct (H l I) as [H1 H2].
    destruct (string_dec k "epsg") as [->|N1]; [|destruct (string_dec k "gps_week") as [->|N2]];
      [| |destruct (string_dec k "time_offset") as [->|N3]]; [| | |destruct (string_dec k "delimiter") as [->|N4]].
    1,2: destruct (H1 ltac:(tauto)) as [z Z]; unfold says_int in Z; destruct (words l) as [|a [|w ws]] eqn:W; try discriminate;
      exists (HInt z); cbn; unfold integer_line_handler; rewrite W; cbn; rewrite Z; reflexivity.
    + destruct (H2 Y) as [z Z]; unfold says_num in Z; destruct (words l) as [|a [|w ws]] eqn:W; try discriminate;
      exists (HNum z); cbn; unfold float_line_handler; rewrite W; cbn; rewrite Z; reflexivity.
    + eexists. reflexivity.
    + eexists. apply handler_text; assumption.
Qed.
Print Assumptions C46_accepts.

Example C46_accepts_case : header_from_file sample_text ("#epsg" ++ String newline "") = Err IndexError /\
  exists h, header_from_file sample_text ("#" ++ String newline ("#unknown" ++ String newline "# epsg")) = Ok h.
Proof. split; [reflexivity|eexists; reflexivity]. Qed.

Lemma regular_one_line s : regular s -> one_line s.
Proof.
  intro H. rewrite <- H. pose proof (words_words s) as F.
  split; (apply has_char_join; [reflexivity|]); apply Forall_forall; intros w I; rewrite Forall_forall in F;
    destruct (F w I) as [_ S]; apply spaceless_char; try exact S; reflexivity.
Qed.

(** The header written for a trajectory is read back. *)
Theorem C46_written : forall Q (qops : quat_ops Q) T (t : traj Q) text, text_contract T -> regular (name t) ->
  to_file qops T "" t = Ok text ->
  exists h, header_from_file T text = Ok h /\ h_epsg h = epsg t /\ h_name h = name t /\ h_nframe h = "enu" /\
    h_delimiter h = "," /\ h_time_format h = Ok UNIX /\ h_time_offset h = Fin 0 /\
    h_fields h = match rot t with
                 | None => ["t"; "l"; "px"; "py"; "pz"; "vx"; "vy"; "vz"]
                 | Some _ => ["t"; "l"; "px"; "py"; "pz"; "qx"; "qy"; "qz"; "qw"; "vx"; "vy"; "vz"]
                 end.
Proof.
  intros Q qops T t text TC RG W. pose proof (regular_one_line _ RG) as O.
  assert (same_lengths t = true) as S by (unfold to_file in W; destruct (same_lengths t); [reflexivity|discriminate]).
  rewrite (to_file_lines qops T "") in W by exact S.
  change ("" ++ lines_text (written_lines qops T t)) with (lines_text (written_lines qops T t)) in W.
  assert (text = lines_text (written_lines qops T t)) as -> by congruence.
  exists (written_header t). split.
  - rewrite (header_of_file T) by (apply (written_one_line qops T TC); exact O).
    rewrite (header_handled qops T TC [] t), app_nil_r. reflexivity.
  - repeat split; try reflexivity.
    + unfold h_name, get_str. cbn. exact RG.
    + unfold h_fields, get_str. cbn. unfold fields_text. destruct (rot t); reflexivity.
Qed.
Print Assumptions C46_written.

Example C46_written_case : text_contract sample_text /\ regular "my track" /\ ~ regular "my  track".
Proof. split; [exact sample_text_contract|]. split; [reflexivity|]. intro H. discriminate H. Qed.

(** ** C47: round trip *)

(** Part: trajectories with at least one pose and a name on one line.  Positions, times, arc lengths and speeds come back to
    5e-10, quaternion components to 1.5e-9 (they are normalised again); irregular white space in the name is collapsed, and
    the sorting mode is not stored.  Missing: empty trajectories and other names (refuted below), and 5e-10 for quaternions. *)
Theorem C47_round_trip_partial : forall Q (ops : rot_ops Q) (qops : quat_ops Q) T C loc counted (t : traj Q),
  text_contract T -> quat_contract ops qops ->
  consistent t -> xyz t <> [] -> one_line (name t) -> words (name t) <> [] ->
  exists text t', to_file qops T "" t = Ok text /\ from_file ops qops T C loc counted text = Ok (Some t') /\
    Forall2 (near_pose qops) (poses t) (poses t') /\ consistent t' /\ (rot t' = None <-> rot t = None) /\
    srt t' = SortTime /\ epsg t' = epsg t /\ name t' = join " " (words (name t)) /\ (regular (name t) -> name t' = name t).
Proof.
  intros Q ops qops T C loc counted t TC QC CT N O WN.
  destruct (file_round_trip ops qops T TC QC C loc counted t CT N O) as [text [t' [A [B [D [E [F [G [H K]]]]]]]]].
  assert (String.eqb (join " " (words (name t))) "" = false) as NE.
  { apply String.eqb_neq. pose proof (words_words (name t)) as W. destruct (words (name t)) as [|w ws]; [congruence|].
    inversion W as [|? ? [X _] _]; subst. destruct w as [|c w]; [congruence|]. destruct ws; discriminate. }
  rewrite NE in K. exists text, t'. repeat (split; [assumption|]). intro RG. rewrite K. exact RG.
Qed.
Print Assumptions C47_round_trip_partial.

Definition sample_traj : traj uquat :=
  mkTraj [1; 2] [mkV3 1 2 3; mkV3 4 5 6] (Some [uident; uident]) [0; 1] [vzero; vzero] SortArc "my track" 4326.
Example C47_case : text_contract sample_text /\ quat_contract sample_rot_ops sample_quat_ops /\
  consistent sample_traj /\ xyz sample_traj <> [] /\ one_line (name sample_traj) /\ words (name sample_traj) <> [] /\ regular (name sample_traj).
Proof.
  split; [exact sample_text_contract|]. split; [exact sample_quat_contract|].
  repeat split; try reflexivity; discriminate.
Qed.

(** Writing a second trajectory with mode "a" behind one of the same kind: the file reads as both, one after the other,
    with the epsg and the name of the second. *)
Theorem C47_append : forall Q (ops : rot_ops Q) (qops : quat_ops Q) T C loc counted (a b : traj Q),
  text_contract T -> quat_contract ops qops ->
  consistent a -> consistent b -> (rot a = None <-> rot b = None) -> (xyz a <> [] \/ xyz b <> []) ->
  one_line (name a) -> regular (name b) -> name b <> "" ->
  exists text1 text2 t', to_file qops T "" a = Ok text1 /\ to_file qops T text1 b = Ok text2 /\
    from_file ops qops T C loc counted text2 = Ok (Some t') /\
    Forall2 (near_pose qops) (poses a ++ poses b) (poses t') /\ (rot t' = None <-> rot b = None) /\
    epsg t' = epsg b /\ name t' = name b.
Proof.
  intros Q ops qops T C loc counted a b TC QC CA CB K N OA RB NB.
  destruct (file_append ops qops T TC QC C loc counted a b CA CB K N OA (regular_one_line _ RB)) as [t1 [t2 [t' [A [B [D [E [F [G H]]]]]]]]].
  exists t1, t2, t'. repeat (split; [assumption|]).
  unfold regular in RB. rewrite RB in H. apply String.eqb_neq in NB. rewrite NB in H. exact H.
Qed.
Print Assumptions C47_append.
Example C47_append_case : consistent sample_traj /\ (rot sample_traj = None <-> rot sample_traj = None) /\ regular (name sample_traj) /\ name sample_traj <> "".
Proof. repeat split; try reflexivity; try discriminate; tauto. Qed.

(** A trajectory without poses is written but cannot be read. *)
Theorem C47_empty_refuted : forall Q (ops : rot_ops Q) (qops : quat_ops Q) T C loc counted (t : traj Q),
  text_contract T -> consistent t -> xyz t = [] -> one_line (name t) ->
  exists text, to_file qops T "" t = Ok text /\ from_file ops qops T C loc counted text = Err IndexError.
Proof. intros. eapply file_empty; eassumption. Qed.
Print Assumptions C47_empty_refuted.
Example C47_empty_case : consistent (mkTraj [] [] (None : option (list uquat)) [] [] SortTime "empty" 0).
Proof. repeat split. Qed.

(** A name with a line break can change what the file says: here the coordinate system. *)
Theorem C47_name_refuted : exists (t : traj uquat) text h, consistent t /\ xyz t <> [] /\ epsg t = 4326%Z /\
  to_file sample_quat_ops sample_text "" t = Ok text /\ header_from_file sample_text text = Ok h /\ h_epsg h = 25832%Z.
Proof.
  set (t := mkTraj [1] [mkV3 1 2 3] (Some [uident]) [0] [vzero] SortTime ("my" ++ String newline "#epsg 25832") 4326).
  set (ls := ["#epsg 4326"; "#name my"; "#epsg 25832"; "#nframe enu"; "#fields t,l,px,py,pz,qx,qy,qz,qw,vx,vy,vz"]).
  set (rs := map (row_line sample_text) (table_rows sample_quat_ops t)).
  set (h := [("fields", HStr "t,l,px,py,pz,qx,qy,qz,qw,vx,vy,vz"); ("nframe", HStr "enu"); ("epsg", HInt 25832); ("name", HStr "my"); ("epsg", HInt 4326)]).
  exists t, (lines_text (ls ++ rs)%list), h.
  assert (handle_lines sample_text [] ls = Ok h) as HL by (vm_compute; reflexivity).
  assert (Forall one_line (ls ++ rs)%list) as O.
  { apply Forall_app. split; [repeat constructor|]. apply Forall_forall. intros l I. apply in_map_iff in I as [r [<- _]].
    apply (row_line_one sample_text sample_text_contract). }
  split; [repeat split|]. split; [discriminate|]. split; [reflexivity|]. split.
  - rewrite (to_file_lines sample_quat_ops sample_text "") by reflexivity.
    unfold written_lines. rewrite lines_text_app. fold rs. rewrite lines_text_app. reflexivity.
  - rewrite (header_of_file sample_text) by exact O. rewrite handle_lines_app.
    rewrite HL. cbn [bind]. split; [apply (rows_untouched sample_text sample_text_contract)|reflexivity].
Qed.
Print Assumptions C47_name_refuted.

(** ** C48: time formats *)

(** UNIX times: with exactly one t column, its numbers plus the time offset. *)
Theorem C48_unix : forall T C h d off j xs, h_time_offset h = Fin off -> h_time_format h = Ok UNIX ->
  nth_error (h_fields h) j = Some "t" -> count_occ string_dec (h_fields h) "t" = 1%nat -> number_column T d j xs ->
  extract_timestamps T C h d = Ok (map (fun x => Fin (x + off)) xs).
Proof. intros. eapply unix_times; eassumption. Qed.
Print Assumptions C48_unix.

(** Without a t column, or with UNIX times and not exactly one, the poses are numbered (the offset is not added). *)
Theorem C48_numbered : forall T C h d f, h_time_format h = Ok f ->
  (count_occ string_dec (h_fields h) "t" = 0%nat \/ (f = UNIX /\ count_occ string_dec (h_fields h) "t" <> 1%nat)) ->
  extract_timestamps T C h d = Ok (map (fun i => Fin (INR i)) (seq 0 (data_length d))).
Proof. intros. eapply numbered; eassumption. Qed.
Print Assumptions C48_numbered.

(** GPS seconds of week, one t column.  Part: on a machine whose time zone is UTC (the Unix time 315964800 is the GPS epoch
    1980-01-06 00:00 UTC).  Missing: every other time zone, refuted below. *)
Theorem C48_gps_partial : forall T C h d off j xs, h_time_offset h = Fin off -> h_time_format h = Ok GPS_SOW ->
  nth_error (h_fields h) j = Some "t" -> count_occ string_dec (h_fields h) "t" = 1%nat -> number_column T d j xs ->
  week_zero C = 315964800 ->
  extract_timestamps T C h d =
  Ok (map (fun x => Fin (315964800 + IZR (h_gps_week (this_week C) h) * 604800 + x - 18 + off)) xs).
Proof.
  intros T C h d off j xs HO F N U NC Z. rewrite (gps_times T C h d off HO j xs F N U NC). f_equal. apply map_ext. intro x.
  rewrite Z. f_equal. ring.
Qed.
Print Assumptions C48_gps_partial.

Local Notation gps_text := ("#time_format gps_sow" ++ String newline ("#gps_week 2300" ++ String newline
  ("#fields t,px,py,pz" ++ String newline ("5,1,2,3" ++ String newline ("6,1,2,3" ++ String newline ""))))).
Example C48_case : exists h d, read_data sample_text gps_text = Ok (h, d) /\
  h_time_offset h = Fin 0 /\ h_time_format h = Ok GPS_SOW /\ h_gps_week 0 h = 2300%Z /\
  nth_error (h_fields h) 0 = Some "t" /\ count_occ string_dec (h_fields h) "t" = 1%nat /\
  number_column sample_text d 0 [5 / 10 ^ 9; 6 / 10 ^ 9].
Proof.
  eexists. eexists. split; [vm_compute; reflexivity|]. repeat split; try reflexivity.
  exists 4%nat. eexists. split; [reflexivity|]. split; [lia|].
  constructor; [eexists; split; reflexivity|]. constructor; [eexists; split; reflexivity|constructor].
Qed.

(** On a machine one hour ahead of UTC the same file is read with timestamps that are one hour too early. *)
Theorem C48_gps_zone_refuted : forall parse loc wk, exists h d,
  read_data sample_text gps_text = Ok (h, d) /\
  extract_timestamps sample_text (mkClock parse loc wk 315964800) h d =
    Ok (map (fun x => Fin (315964800 + 2300 * 604800 + x - 18)) [5 / 10 ^ 9; 6 / 10 ^ 9]) /\
  extract_timestamps sample_text (mkClock parse loc wk (315964800 - 3600)) h d =
    Ok (map (fun x => Fin (315964800 + 2300 * 604800 + x - 18 - 3600)) [5 / 10 ^ 9; 6 / 10 ^ 9]).
Proof.
  intros parse loc wk. destruct C48_case as [h [d [R [HO [F [GW [N [U NC]]]]]]]].
  exists h, d. split; [exact R|].
  assert (h_gps_week wk h = 2300%Z) as GW'.
  { revert GW. unfold h_gps_week. destruct (get h "gps_week") as [[s|z|x]|]; intro; try discriminate; assumption. }
  split.
  - rewrite (C48_gps_partial sample_text (mkClock parse loc wk 315964800) h d 0 0 _ HO F N U NC eq_refl). cbn [this_week]. rewrite GW'.
    f_equal. apply map_ext. intro x. f_equal. ring.
  - rewrite (gps_times sample_text (mkClock parse loc wk (315964800 - 3600)) h d 0 HO 0 _ F N U NC). cbn [this_week week_zero]. rewrite GW'.
    f_equal. apply map_ext. intro x. f_equal. ring.
Qed.
Print Assumptions C48_gps_zone_refuted.

(** With several t columns every pose gets several GPS timestamps. *)
Theorem C48_gps_count : forall T C h d off ts, h_time_offset h = Fin off -> h_time_format h = Ok GPS_SOW ->
  (0 < count_occ string_dec (h_fields h) "t")%nat -> extract_timestamps T C h d = Ok ts ->
  length ts = (data_length d * count_occ string_dec (h_fields h) "t")%nat.
Proof. intros. eapply gps_count; eassumption. Qed.
Print Assumptions C48_gps_count.

(** Dates in one text column.  Part: no text is longer than the first one.  Each is read with the header's format and time
    zone (GPS: 18 s later than UTC), and the offset is added.  Missing: longer texts, refuted below. *)
Theorem C48_datetime_partial : forall T C h d off j first rest xs, h_time_offset h = Fin off -> h_time_format h = Ok DATETIME ->
  nth_error (h_fields h) j = Some "t" -> count_occ string_dec (h_fields h) "t" = 1%nat ->
  text_cells T d j (first :: rest) ->
  Forall (fun s => (String.length s <= String.length first)%nat) rest ->
  (upper (h_datetime_timezone h) <> "GPS" ->
   Forall2 (fun s x => exists y, parse_dt C (h_datetime_format h) s = Some y /\ localize C (h_datetime_timezone h) y = Some x) (first :: rest) xs ->
   extract_timestamps T C h d = Ok (map (fun x => Fin (x + off)) xs)) /\
  (upper (h_datetime_timezone h) = "GPS" -> (forall x, localize C "UTC" x = Some x) ->
   Forall2 (fun s x => parse_dt C (h_datetime_format h) s = Some x) (first :: rest) xs ->
   extract_timestamps T C h d = Ok (map (fun x => Fin (x - 18 + off)) xs)).
Proof.
  intros T C h d off j first rest xs HO F N U TX L.
  assert (forall s, In s (first :: rest) -> take (String.length first) s = s) as TK.
  { intros s [<-|I]; apply take_all; [lia|]. rewrite Forall_forall in L. apply L. exact I. }
  split.
  - intros G P. eapply datetime_times; try eassumption.
    revert TK P. generalize (first :: rest). intros l TK P. induction P as [|s x l m [y [E1 E2]] P IH]; constructor.
    + exists y. rewrite (TK s) by (left; reflexivity). split; assumption.
    + apply IH. intros z I. apply TK. right. exact I.
  - intros G Z P. eapply datetime_gps; try eassumption.
    revert TK P. generalize (first :: rest). intros l TK P. induction P as [|s x l m E P IH]; constructor.
    + rewrite (TK s) by (left; reflexivity). assumption.
    + apply IH. intros z I. apply TK. right. exact I.
Qed.
Print Assumptions C48_datetime_partial.

Local Notation date_text := ("#time_format datetime" ++ String newline ("#fields t,px,py,pz" ++ String newline
  ("2024-01-01 10:00:01.5,1,2,3" ++ String newline ("2024-01-01 10:00:02.25,1,2,3" ++ String newline "")))).
Example C48_datetime_case : exists h d, read_data sample_text date_text = Ok (h, d) /\ h_time_format h = Ok DATETIME /\
  text_cells sample_text d 0 ["2024-01-01 10:00:01.5"; "2024-01-01 10:00:02.25"].
Proof.
  eexists. eexists. split; [vm_compute; reflexivity|]. split; [reflexivity|].
  exists 4%nat. eexists. split; [reflexivity|]. split; [lia|]. split; [repeat constructor|].
  eexists. split; [left; reflexivity|reflexivity].
Qed.

(** Whatever the dates mean: the second line of this file is read as 10:00:02.2 instead of 10:00:02.25. *)
Theorem C48_datetime_refuted : forall C a b, (forall x, localize C "UTC" x = Some x) ->
  parse_dt C "%Y-%m-%d %H:%M:%S.%f" "2024-01-01 10:00:01.5" = Some a ->
  parse_dt C "%Y-%m-%d %H:%M:%S.%f" "2024-01-01 10:00:02.2" = Some b ->
  exists h d, read_data sample_text date_text = Ok (h, d) /\ extract_timestamps sample_text C h d = Ok [Fin (a + 0); Fin (b + 0)].
Proof.
  intros C a b Z A B. eexists. eexists. split; [vm_compute; reflexivity|].
  set (h := [("fields", HStr "t,px,py,pz"); ("time_format", HStr "datetime")]).
  change (extract_timestamps sample_text C h
    (Table 4 [[Some "2024-01-01 10:00:01.5"; Some "1"; Some "2"; Some "3"]; [Some "2024-01-01 10:00:02.25"; Some "1"; Some "2"; Some "3"]])
    = Ok (map (fun x => Fin (x + 0)) [a; b])).
  apply (datetime_times sample_text C h _ 0 0 "2024-01-01 10:00:01.5" ["2024-01-01 10:00:02.25"]); try reflexivity.
  - exists 4%nat. eexists. split; [reflexivity|]. split; [lia|]. split; [repeat constructor|].
    eexists. split; [left; reflexivity|reflexivity].
  - discriminate.
  - constructor; [exists a; split; [exact A|apply Z]|]. constructor; [exists b; split; [exact B|apply Z]|constructor].
Qed.
Print Assumptions C48_datetime_refuted.

(** ** C49: navigation frames *)

(** Exactly the twelve names made of e, n and u or d are accepted, in any case. *)
Theorem C49_accepted : forall s, (exists m, get_rot_matrix s = Ok m) <-> In (lower s) frame_names.
Proof. exact frame_accepted. Qed.
Print Assumptions C49_accepted.

Ltac frame_cases I :=
  cbn in I; repeat destruct I as [I|I]; try contradiction.

Lemma frame_matrix s : get_rot_matrix s = get_rot_matrix (lower s).
Proof.
  unfold get_rot_matrix. assert (forall c, lower_char (lower_char c) = lower_char c) as LL.
  { intro c. destruct c as [[] [] [] [] [] [] [] []]; reflexivity. }
  assert (lower (lower s) = lower s) as -> by (induction s as [|c s IH]; [reflexivity|]; cbn; rewrite LL, IH; reflexivity).
  reflexivity.
Qed.

Ltac m3_neq := let H := fresh in intro H; injection H; intros; lra.

(** The matrix is a proper rotation exactly for the six right-handed frames.  Part: the left-handed names are accepted too,
    see the refutation. *)
Theorem C49_proper_partial : forall s m, get_rot_matrix s = Ok m ->
  (is_rot m <-> In (lower s) ["enu"; "nue"; "uen"; "ned"; "edn"; "dne"]).
Proof.
  intros s m H. assert (In (lower s) frame_names) as I by (apply C49_accepted; exists m; exact H).
  rewrite frame_matrix in H. cbn in I. repeat destruct I as [I|I]; try contradiction; rewrite <- I in H |- *;
    vm_compute in H; injection H as <-.
  all: unfold is_rot, mmul, mtrans, mdet, mident, mapply; cbn.
  all: split; [intros [_ D]; cbn in D |- *; first [tauto | exfalso; revert D; unfold vdot, vx, vy, vz; cbn; lra]
       | intro J; first [exfalso; cbn in J; intuition discriminate | split; [unfold vmul, vdot, col1, col2, col3; cbn; f_equal; f_equal; lra|unfold vdot; cbn; lra]]].
Qed.
Print Assumptions C49_proper_partial.

(** For every accepted name the transposed matrix turns coordinates in the named frame into ENU coordinates; the matrix itself
    does so exactly for six names, of which only "enu" and "ned" are right-handed. *)
Theorem C49_converts_partial : forall s m a b c, get_rot_matrix s = Ok m -> lower s = String a (String b (String c "")) ->
  converts (mtrans m) a b c /\
  (converts m a b c <-> In (lower s) ["enu"; "ned"; "eun"; "neu"; "une"; "end"]).
Proof.
  intros s m a b c H E. assert (In (lower s) frame_names) as I by (apply C49_accepted; exists m; exact H).
  rewrite frame_matrix in H. rewrite E in *. cbn in I.
  repeat destruct I as [I|I]; try contradiction; injection I as <- <- <-; vm_compute in H; injection H as <-.
  all: unfold converts, direction, mapply, mtrans, vdot; cbn.
  all: split; [repeat split; f_equal; f_equal; lra|].
  all: split; [intros [D1 [D2 D3]]; cbn in D1, D2, D3 |- *;
         first [tauto | exfalso; injection D1; injection D2; injection D3; intros; lra]
       | intro J; first [exfalso; cbn in J; intuition discriminate | repeat split; f_equal; f_equal; lra]].
Qed.
Print Assumptions C49_converts_partial.

Example C49_case : exists m, get_rot_matrix "NED" = Ok m /\ is_rot m /\ converts m "n" "e" "d".
Proof.
  eexists. split; [reflexivity|]. split.
  - apply (C49_proper_partial "NED"); [reflexivity|]. cbn. tauto.
  - apply (C49_converts_partial "NED" _ "n" "e" "d"); [reflexivity|reflexivity|]. cbn. tauto.
Qed.

(** "eun" is accepted although its matrix is no rotation; "nue" gives a rotation, but not the one to ENU. *)
Theorem C49_refuted :
  (exists m, get_rot_matrix "eun" = Ok m /\ ~ is_rot m) /\
  (exists m, get_rot_matrix "nue" = Ok m /\ is_rot m /\ ~ converts m "n" "u" "e").
Proof.
  split.
  - eexists. split; [reflexivity|]. rewrite (C49_proper_partial "eun") by reflexivity. cbn. intuition discriminate.
  - eexists. split; [reflexivity|]. split.
    + apply (C49_proper_partial "nue"); [reflexivity|]. cbn. tauto.
    + rewrite (proj2 (C49_converts_partial "nue" _ "n" "u" "e" eq_refl eq_refl)). cbn. intuition discriminate.
Qed.
Print Assumptions C49_refuted.

(** The orientations read are those of the file, turned by the matrix of the header's frame. *)
Theorem C49_applied : forall Q (ops : rot_ops Q) (qops : quat_ops Q) T h d qs, rot_contract ops ->
  extract_rotations ops qops T h d = Ok (Some (Some qs)) ->
  exists m file_rotations,
    (extract_quaternions qops T h d = Ok (Some file_rotations) \/ extract_euler_angles ops T h d = Ok (Some file_rotations)) /\
    get_rot_matrix (h_nframe h) = Ok m /\
    (is_rot m -> map (as_matrix ops) qs = map (fun q => mmul m (as_matrix ops q)) file_rotations).
Proof.
  intros Q ops qops T h d qs RC H. unfold extract_rotations in H.
  apply bind_ok in H as [r [R H]]. destruct r as [l|]; [|discriminate].
  apply bind_ok in H as [m [M H]]. destruct l as [l|]; [|discriminate]. cbn in H. injection H as <-.
  exists m, l. split; [|split; [exact M|]].
  - destruct (forallb (fun a => member a (h_fields h)) ["qx"; "qy"; "qz"; "qw"]).
    + left. destruct (extract_quaternions qops T h d); cbn in R; [|discriminate]. congruence.
    + destruct (forallb (fun a => member a (h_fields h)) ["ex"; "ey"; "ez"]); [|discriminate].
      right. destruct (extract_euler_angles ops T h d); cbn in R; [|discriminate]. congruence.
  - intro IR. rewrite map_map. apply map_ext. intro q. rewrite (rc_mul ops RC), (rc_from ops RC m IR). reflexivity.
Qed.
Print Assumptions C49_applied.

(** ** C71: reading from a stream *)

(** Part: texts in which the header's delimiter separates at least two columns and in which only \n, \r and \r\n end lines
    give the same result as a file with that text.  Missing: texts separated by white space, refuted below. *)
Theorem C71_stream_partial : forall Q (ops : rot_ops Q) (qops : quat_ops Q) T C loc counted text,
  plain_ends text = true -> several_columns T text ->
  from_stream ops qops T C loc counted text = from_file ops qops T C loc counted text.
Proof. intros. apply stream_same; assumption. Qed.
Print Assumptions C71_stream_partial.
Example C71_case : plain_ends gps_text = true /\ several_columns sample_text gps_text.
Proof.
  split; [vm_compute; reflexivity|]. destruct C48_case as [h [d [R _]]].
  eexists. eexists. eexists. split; [vm_compute; reflexivity|]. split; [vm_compute; reflexivity|discriminate].
Qed.

(** If the header's delimiter does not separate several columns, reading from a stream always fails. *)
Theorem C71_stream_fails : forall Q (ops : rot_ops Q) (qops : quat_ops Q) T C loc counted text h,
  header_from_string T text = Ok h ->
  (forall n rows, read_csv (h_delimiter h) text = Some (Table n rows) -> n = 1%nat) ->
  exists e, from_stream ops qops T C loc counted text = Err e.
Proof. intros. eapply stream_one_column; eassumption. Qed.
Print Assumptions C71_stream_fails.

Local Notation spaced_text := ("#fields t,l,px,py,pz,vx,vy,vz" ++ String newline ("1 2 3 4 5 6 7 8" ++ String newline "")).
(** The same text, separated by white space: fine as a file, an error as a stream. *)
Theorem C71_stream_refuted : forall C loc counted, exists t,
  from_file sample_rot_ops sample_quat_ops sample_text C loc counted spaced_text = Ok (Some t) /\
  tlen t = 1%nat /\ from_stream sample_rot_ops sample_quat_ops sample_text C loc counted spaced_text = Err IndexError.
Proof.
  intros C loc counted.
  assert (read_data sample_text spaced_text = Ok ([("fields", HStr "t,l,px,py,pz,vx,vy,vz")],
    Table 8 [[Some "1"; Some "2"; Some "3"; Some "4"; Some "5"; Some "6"; Some "7"; Some "8"]])) as RD by (vm_compute; reflexivity).
  assert (read_string sample_text spaced_text = Ok ([("fields", HStr "t,l,px,py,pz,vx,vy,vz")], Flat)) as RS by (vm_compute; reflexivity).
  unfold from_file, from_stream. rewrite RD, RS.
  eexists. split; [reflexivity|]. split; reflexivity.
Qed.
Print Assumptions C71_stream_refuted.
