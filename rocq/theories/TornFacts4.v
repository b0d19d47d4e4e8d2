(** Interrupted writing: a number cut short, and appending to a file. *)
From Verif Require Import Base BaseFacts EstModel TextModel TextFacts HeaderModel NumpyModel TrajModel TrajSpec TrajFacts GeomModel GeomSpec IoModel IoSpec HeaderFacts IoFacts IoFacts2 IoFacts3 IoFacts4 TornModel TornSpec TornFacts TornFacts2 TornFacts3.
Local Open Scope string_scope.
Local Arguments Ascii.eqb : simpl never.
Local Opaque newline return_char.

Section Cut.
  Context {Q : Type} (ops : rot_ops Q) (qops : quat_ops Q) (QC : quat_contract ops qops) (T : text_ops) (TC : text_contract T).

  Lemma zip3_snoc a b c x y z : length a = length b -> length a = length c ->
    zip_v3 [(a ++ [x])%list; (b ++ [y])%list; (c ++ [z])%list] = (zip_v3 [a; b; c] ++ [(x, y, z)])%list.
  Proof.
    unfold zip_v3. revert b c. induction a as [|u a IH]; intros [|v b] [|w c] L1 L2; cbn in L1, L2; try lia; [reflexivity|].
    cbn [app zip3]. f_equal. apply IH; lia.
  Qed.
  Lemma all_some_snoc {A} (l : list (option A)) o m : all_some (l ++ [o]) = Some m -> exists m0 x, all_some l = Some m0 /\ o = Some x /\ m = (m0 ++ [x])%list.
  Proof.
    revert m. induction l as [|[a|] l IH]; intros m H; cbn in H; try discriminate.
    - destruct o as [x|]; [|discriminate]. injection H as <-. exists [], x. repeat split.
    - destruct (all_some (l ++ [o])) as [s|]; [|discriminate]. injection H as <-. destruct (IH s eq_refl) as (m0 & x & E & -> & ->).
      exists (a :: m0), x. cbn. rewrite E. repeat split.
  Qed.
  Lemma all_some_snoc_ok {A} (l : list (option A)) m0 x : all_some l = Some m0 -> all_some (l ++ [Some x]) = Some (m0 ++ [x])%list.
  Proof.
    revert m0. induction l as [|[a|] l IH]; intros m H; cbn in H; try discriminate.
    - injection H as <-. reflexivity.
    - destruct (all_some l) as [s|]; [|discriminate]. injection H as <-. cbn. rewrite (IH s eq_refl). reflexivity.
  Qed.
  Lemma to_nums_snoc l x m : to_nums T (l ++ [x]) = Ok m -> exists m0 y, to_nums T l = Ok m0 /\ to_num T x = Ok y /\ m = (m0 ++ [y])%list.
  Proof.
    unfold to_nums. revert m. induction l as [|a l IH]; intros m H; cbn [app mapM] in H.
    - destruct (to_num T x) as [y|]; [|discriminate]. cbn in H. injection H as <-. exists [], y. repeat split.
    - destruct (to_num T a) as [u|] eqn:EU; [|discriminate]. cbn [bind] in H. destruct (mapM (to_num T) (l ++ [x])) as [s|]; [|discriminate].
      cbn in H. injection H as <-. destruct (IH s eq_refl) as (m0 & y & E & F & ->). exists (u :: m0), y.
      cbn [mapM]. rewrite EU, E. repeat split. exact F.
  Qed.
  Lemma to_nums_snoc_ok l x m0 y : to_nums T l = Ok m0 -> to_num T x = Ok y -> to_nums T (l ++ [x]) = Ok (m0 ++ [y])%list.
  Proof.
    unfold to_nums. revert m0. induction l as [|a l IH]; intros m H E; cbn [app mapM] in H |- *.
    - injection H as <-. rewrite E. reflexivity.
    - destruct (to_num T a) as [u|]; [|discriminate]. cbn [bind] in H |- *. destruct (mapM (to_num T) l) as [s|]; [|discriminate].
      cbn in H. injection H as <-. rewrite (IH s eq_refl E). reflexivity.
  Qed.

  (** A table read with another number in the last cell *)
  Lemma last_cell_replaced C loc counted h rows r1 r2 fields t2 y : fields = plain_fields \/ fields = quat_fields -> std_header h fields ->
    (forall j, (j < row_width fields - 1)%nat -> nth j r1 None = nth j r2 None) -> to_num T (nth (row_width fields - 1) r1 None) = Ok (Fin y) ->
    from_read ops qops T C loc counted (Ok (h, Table (row_width fields) (rows ++ [r2])%list)) = Ok (Some t2) ->
    length (xyz t2) = S (length rows) -> length (speed t2) = S (length rows) ->
    exists s v, speed t2 = (s ++ [v])%list /\
      from_read ops qops T C loc counted (Ok (h, Table (row_width fields) (rows ++ [r1])%list)) =
        Ok (Some (set_speed (s ++ [mkV3 (vx v) (vy v) y])%list t2)).
  Proof.
    intros F SHd D YN H2 LX LS.
    set (d1 := Table (row_width fields) (rows ++ [r1])%list). set (d2 := Table (row_width fields) (rows ++ [r2])%list) in *.
    assert (forall j, (j < row_width fields - 1)%nat -> column d1 j = column d2 j) as CE.
    { intros j J. unfold column, d1, d2. destruct (Nat.ltb_spec j (row_width fields)); [|lia]. f_equal.
      rewrite !map_app. cbn [map]. rewrite D by exact J. reflexivity. }
    pose proof SHd as [HF [HN [HT HO]]].
    assert (forall names, (forall a j, In a names -> index_of a (split_on "," fields) = Ok j -> (j < row_width fields - 1)%nat) ->
      columns T h d1 names = columns T h d2 names) as CS.
    { intros names N. apply columns_same. intros a j I J. rewrite HF in J. apply CE. apply (N a j I J). }
    apply read_inv in H2 as (ts & ps & al & sp2 & ro & B1 & B2 & B3 & B4 & B5 & P2).
    assert (extract_timestamps T C h d1 = Ok ts) as A1.
    { unfold extract_timestamps in B1 |- *. rewrite HF, HT, HO in B1 |- *. cbn [bind] in B1 |- *.
      assert ((length (time_columns (split_on "," fields)) =? 1)%nat = true) as E1 by (destruct F as [->| ->]; reflexivity).
      assert (index_of "t" (split_on "," fields) = Ok 0%nat) as E2 by (destruct F as [->| ->]; reflexivity).
      rewrite E1, E2 in B1 |- *. cbn [bind] in B1 |- *. rewrite CE by (destruct F as [->| ->]; vm_compute; lia). exact B1. }
    assert (extract_pointset T h d1 = Ok ps) as A2.
    { unfold extract_pointset in B2 |- *. rewrite CS; [exact B2|].
      intros a j I J. destruct F as [->| ->]; destruct I as [<-|[<-|[<-|[]]]]; vm_compute in J; injection J as <-; vm_compute; lia. }
    assert (extract_arc_lengths T h d1 = Ok al) as A3.
    { unfold extract_arc_lengths in B3 |- *. rewrite HF in B3 |- *.
      assert (member "l" (split_on "," fields) = true) as E1 by (destruct F as [->| ->]; reflexivity).
      assert (index_of "l" (split_on "," fields) = Ok 1%nat) as E2 by (destruct F as [->| ->]; reflexivity).
      rewrite E1, E2 in B3 |- *. cbn [bind] in B3 |- *. rewrite CE by (destruct F as [->| ->]; vm_compute; lia). exact B3. }
    assert (extract_rotations ops qops T h d1 = Ok ro) as A5.
    { unfold extract_rotations, extract_quaternions, extract_euler_angles in B5 |- *. rewrite HF in B5 |- *.
      rewrite (CS ["qx"; "qy"; "qz"; "qw"]).
      2:{ intros a j I J. destruct F as [->| ->]; destruct I as [<-|[<-|[<-|[<-|[]]]]]; vm_compute in J; try discriminate; injection J as <-; vm_compute; lia. }
      rewrite (CS ["ex"; "ey"; "ez"]); [exact B5|].
      intros a j I J. destruct F as [->| ->]; destruct I as [<-|[<-|[<-|[]]]]; vm_compute in J; discriminate. }
    destruct (speed_read T h _ fields sp2 F SHd B4) as (ca & cb & cc & a & b & c & YA & YB & YC & MA & MB & MC & ->).
    (* the columns of the speeds *)
    assert (forall j cj, column d2 j = Ok cj -> cj = (map (fun r => nth j r None) rows ++ [nth j r2 None])%list) as SN.
    { intros j cj E. unfold column, d2 in E. destruct (j <? row_width fields)%nat; [|discriminate]. injection E as <-. apply map_app. }
    rewrite (SN _ _ YA) in MA. rewrite (SN _ _ YB) in MB. rewrite (SN _ _ YC) in MC.
    destruct (to_nums_snoc _ _ _ MA) as (a0 & xa & MA0 & XA & EA).
    destruct (to_nums_snoc _ _ _ MB) as (b0 & xb & MB0 & XB & EB).
    destruct (to_nums_snoc _ _ _ MC) as (c0 & xc & MC0 & XC & EC).
    assert (length a0 = length rows) as LA by (rewrite (mapM_length _ _ _ MA0); apply map_length).
    assert (length b0 = length rows) as LB by (rewrite (mapM_length _ _ _ MB0); apply map_length).
    assert (length c0 = length rows) as LC by (rewrite (mapM_length _ _ _ MC0); apply map_length).
    rewrite EA, EB, EC, zip3_snoc in P2 by congruence.
    assert (extract_speed T h d1 = Ok (Some (zip_v3 [a0; b0; c0] ++ [(xa, xb, Fin y)])%list)) as A4.
    { rewrite <- zip3_snoc by congruence.
      unfold extract_speed. rewrite HF.
      assert (forallb (fun a => member a (split_on "," fields)) ["vx"; "vy"; "vz"] = true) as M by (destruct F as [->| ->]; reflexivity).
      rewrite M. unfold columns. rewrite HF.
      assert (mapM (fun a => index_of a (split_on "," fields)) ["vx"; "vy"; "vz"] =
        Ok [(row_width fields - 3)%nat; (row_width fields - 2)%nat; (row_width fields - 1)%nat]) as J by (destruct F as [->| ->]; reflexivity).
      rewrite J. cbn [bind mapM].
      rewrite (CE (row_width fields - 3)%nat) by (destruct F as [->| ->]; vm_compute; lia).
      rewrite (CE (row_width fields - 2)%nat) by (destruct F as [->| ->]; vm_compute; lia).
      rewrite YA, YB. cbn [bind].
      assert (column d1 (row_width fields - 1) = Ok (map (fun r => nth (row_width fields - 1) r None) rows ++ [nth (row_width fields - 1) r1 None])%list) as Y1.
      { unfold column, d1. assert ((row_width fields - 1 <? row_width fields)%nat = true) as -> by (destruct F as [->| ->]; reflexivity).
        rewrite map_app. reflexivity. }
      rewrite Y1. cbn [bind mapM]. rewrite (SN _ _ YA), (SN _ _ YB), MA, MB. cbn [bind].
      pose proof (to_nums_snoc_ok _ _ _ _ MC0 YN) as ZZ. unfold cell in ZZ |- *. rewrite ZZ. cbn. rewrite EA, EB. reflexivity. }
    apply parts_inv in P2 as (ts' & ps' & al' & s2 & ro' & U1 & U2 & U3 & U4 & U5 & N2).
    unfold opt_finite in U4.
    destruct (all_some (map fin_v3 (zip_v3 [a0; b0; c0] ++ [(xa, xb, xc)]))) as [v2|] eqn:V2; [|discriminate]. injection U4 as <-.
    rewrite map_app in V2. destruct (all_some_snoc _ _ _ V2) as (s & v & VS & VV & ->). cbn [map] in VV.
    destruct xa as [xa| |]; try discriminate. destruct xb as [xb| |]; try discriminate. destruct xc as [xc| |]; try discriminate.
    cbn in VV. injection VV as <-.
    assert (length s = length rows) as LSR.
    { rewrite (all_some_len _ _ VS), map_length. apply zip3_len; assumption. }
    assert (speed t2 = (s ++ [mkV3 xa xb xc])%list /\ length ps' = S (length rows) /\
      (forall sp, length sp = S (length rows) -> new_traj (Q := Q) loc ps' (h_epsg h) ro' (Some ts') (if String.eqb (h_name h) "" then counted else h_name h) al' (Some sp) SortTime = Ok (set_speed sp t2)))
      as (E1 & E2 & E3).
    { unfold new_traj in N2 |- *.
      destruct (match ro' with Some q => negb (length q =? length ps')%nat | None => false end) eqn:EM; [discriminate|].
      assert (length ps' = S (length rows)) as LP.
      { destruct (length (s ++ [mkV3 xa xb xc])%list =? length ps')%nat; cbn [bind] in N2.
        - injection N2 as <-. exact LX.
        - destruct (gradient_3d (loc ps') ts'); [|discriminate]. cbn in N2. injection N2 as <-. exact LX. }
      assert (length (s ++ [mkV3 xa xb xc])%list = S (length rows)) as LSP by (rewrite app_length; cbn; lia).
      rewrite LSP, LP, Nat.eqb_refl in N2. cbn [bind] in N2. injection N2 as <-. split; [reflexivity|]. split; [exact LP|].
      intros sp L. rewrite L, LP, Nat.eqb_refl. cbn [bind]. reflexivity. }
    exists s, (mkV3 xa xb xc). split; [exact E1|].
    unfold from_read. cbn [bind]. rewrite A1. cbn [bind]. rewrite A2. cbn [bind]. rewrite A3. cbn [bind]. rewrite A4. cbn [bind]. rewrite A5. cbn [bind].
    unfold from_parts. rewrite U1, U2, U3, U5. unfold opt_finite. rewrite map_app. cbn [map fin_v3].
    rewrite (all_some_snoc_ok _ _ _ VS). rewrite E3 by (rewrite app_length; cbn; lia). reflexivity.
  Qed.

  (** Stopped within the last number of the pose after the first [k] ones *)
  Theorem cut_number C loc counted (t : traj Q) k a w w' y : consistent t -> one_line (name t) ->
    nth_error (poses t) k = Some a -> show9 T (vz (p_speed a)) = w ++ w' -> w <> "" -> number T w = Some (Fin y) ->
    exists n t' b, (n <= String.length (lines_text (written_lines qops T t)))%nat /\
      from_file ops qops T C loc counted (take n (lines_text (written_lines qops T t))) = Ok (Some t') /\
      length (poses t') = S k /\ nth_error (poses t') k = Some b /\ vz (p_speed b) = y.
  Proof.
    intros CT O PA SW NW NY. pose proof (written_one_line qops T TC t O) as WO.
    assert (k < length (table_rows qops t))%nat as KL.
    { rewrite rows_length by exact CT. change (length (xyz t)) with (tlen t). rewrite <- (poses_length t CT). apply nth_error_Some. congruence. }
    destruct (nth_error (table_rows qops t) k) as [r|] eqn:NR; [|apply nth_error_None in NR; lia].
    assert (length r = width t) as LR.
    { pose proof (table_rows_width qops t) as W. rewrite Forall_forall in W. apply W. eapply nth_error_In. exact NR. }
    (* the last number of the row *)
    assert (exists r0, r = (r0 ++ [vz (p_speed a)])%list) as [r0 ER].
    { clear - PA NR CT. rewrite poses_nth in PA by exact CT. unfold pose_at in PA. unfold table_rows in NR.
      destruct (nth_error (tstamps t) k) as [y1|] eqn:Y1; [|discriminate]. destruct (nth_error (xyz t) k) as [y2|] eqn:Y2; [|discriminate].
      destruct (nth_error (arc t) k) as [y3|] eqn:Y3; [|discriminate]. destruct (nth_error (speed t) k) as [y4|] eqn:Y4; [|discriminate].
      assert (p_speed a = y4) as -> by (destruct (rot t) as [q|]; [destruct (nth_error q k); [|discriminate]|]; injection PA as <-; reflexivity).
      assert (forall ts al ps qs vs k r v, nth_error (rows_of ts al ps qs vs) k = Some r -> nth_error vs k = Some v -> exists r0, r = (r0 ++ [vz v])%list) as G.
      { induction ts as [|x ts IH]; intros [|b al] [|p ps] [|q qs] [|u vs] [|m] r' v E1 E2; cbn [rows_of nth_error] in E1, E2; try discriminate.
        - injection E1 as <-. injection E2 as <-. exists ([x; b] ++ v3_values p ++ q ++ [vx u; vy u])%list. unfold v3_values. rewrite <- !app_assoc. reflexivity.
        - apply (IH al ps qs vs m r' v E1 E2). }
      eapply G; eassumption. }
    assert (length r0 = width t - 1)%nat as LR0 by (rewrite ER, app_length in LR; cbn in LR; lia).
    pose proof (width_gt t) as GW.
    assert (r0 <> []) as NR0 by (intros ->; cbn in LR0; lia).
    set (cells := (map (show9 T) r0 ++ [w])%list).
    set (p := join "," cells).
    assert (row_line T r = p ++ w') as RP.
    { unfold p, cells, row_line. rewrite ER, map_app. cbn [map]. rewrite SW. clear. induction (map (show9 T) r0) as [|x l IH]; [reflexivity|].
      destruct l as [|z l]; [cbn; rewrite !append_assoc; reflexivity|]. cbn [app] in *.
      change (join "," (x :: z :: (l ++ [(w ++ w')%string])%list)) with (x ++ "," ++ join "," (z :: (l ++ [(w ++ w')%string])%list)). rewrite IH.
      change (join "," (x :: z :: (l ++ [w])%list)) with (x ++ "," ++ join "," (z :: (l ++ [w])%list)). rewrite !append_assoc. reflexivity. }
    assert (p <> "") as NP.
    { intro Z. unfold p, cells in Z. destruct r0 as [|x l]; [congruence|]. cbn in Z. destruct (tc_num_word T TC x) as [N _].
      destruct (map (show9 T) l ++ [w])%list; destruct (show9 T x); try congruence; discriminate. }
    set (ls := written_lines qops T t) in *.
    set (front := firstn (4 + k) ls).
    assert (nth_error ls (4 + k) = Some (p ++ w')) as NL.
    { unfold ls, written_lines. rewrite nth_error_app2 by (rewrite header_count; lia). rewrite header_count.
      replace (4 + k - 4)%nat with k by lia. rewrite nth_error_map, NR. cbn. rewrite RP. reflexivity. }
    assert (exists rest, lines_text ls = (lines_text front ++ p) ++ rest) as [rest SPL].
    { assert (exists back, ls = (front ++ (p ++ w')%string :: back)%list) as [back EB].
      { unfold front. clear - NL. revert NL. generalize (4 + k)%nat. intro m. revert m. induction ls as [|l ls' IH]; intros [|m] NL; cbn in NL |- *; try discriminate.
        - injection NL as ->. exists ls'. reflexivity.
        - destruct (IH m NL) as [back E]. exists back. rewrite <- E. reflexivity. }
      assert (lines_text ls = lines_text (front ++ (p ++ w')%string :: back)%list) as EL by (f_equal; exact EB).
      rewrite lines_text_app in EL. change (lines_text ((p ++ w') :: back)) with (((p ++ w') ++ String newline "") ++ lines_text back) in EL.
      exists (w' ++ String newline "" ++ lines_text back). rewrite EL. rewrite !append_assoc. reflexivity. }
    set (text := lines_text front ++ p).
    assert (take (String.length text) (lines_text ls) = text) as TK.
    { rewrite SPL. fold text. rewrite take_app by lia. rewrite Nat.sub_diag. destruct rest; apply append_nil. }
    assert (file_lines text = (front ++ [p])%list) as FL.
    { unfold text. rewrite lines_and_rest; [unfold rest_line; destruct (String.eqb_spec p ""); [congruence|reflexivity]|apply forall_firstn; exact WO|].
      apply one_line_prefix with w'. rewrite <- RP. apply (row_line_one T TC). }
    assert (has_char "#" p = false) as HP.
    { pose proof (row_line_hash T TC r) as H. rewrite RP, has_char_app in H. apply orb_false_iff in H. tauto. }
    assert (spaceless p = true) as SP by (apply spaceless_prefix with w'; rewrite <- RP; apply spaceless_row; exact TC).
    assert (words p = [p]) as WP by (apply words_word; split; assumption).
    set (rows := firstn k (table_rows qops t)).
    assert (Forall (fun r => length r = width t) rows) as WR by (apply forall_firstn, table_rows_width).
    assert (length rows = k) as LK by (unfold rows; rewrite firstn_length; lia).
    assert (header_from_file T text = Ok (written_header t)) as HH.
    { unfold header_from_file. rewrite FL. unfold front, ls. rewrite handle_lines_app, <- first_written.
      rewrite (header_handled qops T TC), app_nil_r, first_header. cbn [bind handle_lines].
      rewrite hashless_untouched by exact HP. reflexivity. }
    assert (data_lines text = (map (row_line T) rows ++ [p])%list) as DL.
    { unfold data_lines. rewrite FL. unfold front, ls. rewrite <- first_written, map_app, filter_app.
      change (filter (fun l => negb (length (words l) =? 0)%nat)) with (filter nonblank).
      rewrite (data_of_written qops T TC) by (intros x I; apply (table_rows_nonempty qops) with (first_poses k t); exact I).
      rewrite first_rows. f_equal. cbn [map filter]. rewrite uncomment_id by exact HP. unfold nonblank. rewrite WP. reflexivity. }
    assert (split_on "," p = cells) as SC.
    { unfold p. apply split_on_join; [unfold cells; destruct r0; discriminate|]. unfold cells. apply Forall_app. split.
      - apply Forall_forall. intros x I. apply in_map_iff in I as [z [<- _]]. apply (tc_num_comma T TC).
      - constructor; [|constructor]. pose proof (tc_num_comma T TC (vz (p_speed a))) as H. rewrite SW, has_char_app in H. apply orb_false_iff in H. tauto. }
    assert (length cells = width t) as LC by (unfold cells; rewrite app_length, map_length; cbn; lia).
    assert (map (split_on ",") (data_lines text) = (map (map (show9 T)) rows ++ [cells])%list) as CE.
    { rewrite DL, map_app, map_map. cbn [map]. rewrite SC. f_equal. apply map_ext_in. intros x I. apply row_line_split; [exact TC|].
      rewrite Forall_forall in WR. intros ->. specialize (WR [] I). cbn in WR. lia. }
    assert (read_data T text = Ok (written_header t, Table (width t) (map (shown T) rows ++ [map Some cells]))) as RD.
    { unfold read_data. rewrite HH. cbn [bind]. change (h_delimiter (written_header t)) with ",".
      change (read_csv "," text) with (make_table (map (split_on ",") (data_lines text))). rewrite CE.
      rewrite (make_torn T (width t)) by (try exact WR; try lia). cbn [columns_of].
      destruct (Nat.eqb_spec (width t) 1) as [W1|_]; [lia|]. unfold pad. rewrite LC, Nat.sub_diag. cbn [repeat]. rewrite app_nil_r. reflexivity. }
    assert (consistent (first_poses (S k) t)) as C1 by (apply first_consistent; exact CT).
    assert (table_rows qops (first_poses (S k) t) = (rows ++ [r])%list) as TR by
      (rewrite first_rows; unfold rows; clear - NR; revert k NR; induction (table_rows qops t) as [|x l IH]; intros [|k] NR; cbn in NR |- *; try discriminate;
        [injection NR as ->; reflexivity|f_equal; apply IH; exact NR]).
    pose proof (std_written t) as SH.
    destruct (read_rows ops qops T TC QC C loc counted (written_header t) (first_poses (S k) t) C1) as [t2 [R2 [F2 [CT2 [K2 [S2 [NM2 EP2]]]]]]];
      [rewrite first_fields; exact SH|].
    assert (width (first_poses (S k) t) = width t) as WF by (unfold width, first_poses; cbn; destruct (rot t); reflexivity).
    rewrite WF, TR, map_app in R2. cbn [map] in R2. rewrite width_row in R2, RD.
    pose proof (forall2_length _ _ _ F2) as LP. rewrite first_poses_poses, firstn_length, !poses_length in LP by assumption.
    assert (tlen t = length (table_rows qops t)) as TL by (rewrite rows_length by exact CT; reflexivity).
    assert (tlen t2 = S k) as LT2 by lia.
    destruct (last_cell_replaced C loc counted (written_header t) (map (shown T) rows) (map Some cells) (shown T r) (fields_text t) t2 y (two_fields t) SH) as (s & v & ES & FR).
    - intros j J. rewrite <- width_row in J. unfold cells, shown. rewrite ER, !map_app, map_map.
      rewrite !app_nth1 by (rewrite map_length; lia). reflexivity.
    - rewrite <- width_row. unfold cells. rewrite map_app, app_nth2 by (rewrite !map_length; lia). rewrite !map_length, LR0, Nat.sub_diag. cbn. rewrite NY. reflexivity.
    - exact R2.
    - rewrite map_length, LK. exact LT2.
    - destruct CT2 as [_ [_ [_ Q4]]]. rewrite Q4, map_length, LK. exact LT2.
    - set (t' := set_speed (s ++ [mkV3 (vx v) (vy v) y])%list t2) in *.
      assert (length s = k) as LS.
      { destruct CT2 as [_ [_ [_ Q4]]]. rewrite ES, app_length in Q4. cbn in Q4. unfold tlen in LT2. lia. }
      assert (consistent t') as CT'.
      { destruct CT2 as [Q1 [Q2 [Q3 Q4]]]. unfold t', consistent. cbn [set_speed tstamps xyz rot arc speed]. repeat split; try assumption.
        rewrite app_length. cbn. unfold tlen in LT2. lia. }
      assert (length (poses t') = S k) as LP' by (rewrite poses_length by exact CT'; exact LT2).
      destruct (nth_error (poses t') k) as [b|] eqn:B; [|apply nth_error_None in B; lia].
      exists (String.length text), t', b. split; [rewrite SPL; fold text; rewrite length_append; lia|].
      split; [rewrite TK; unfold from_file; rewrite RD; exact FR|]. split; [exact LP'|]. split; [exact B|].
      rewrite poses_nth in B by exact CT'. unfold pose_at in B.
      destruct (nth_error (tstamps t') k) as [y1|]; [|discriminate]. destruct (nth_error (xyz t') k) as [y2|]; [|discriminate].
      destruct (nth_error (arc t') k) as [y3|]; [|discriminate].
      assert (nth_error (speed t') k = Some (mkV3 (vx v) (vy v) y)) as Y4.
      { unfold t'. cbn [set_speed speed]. rewrite nth_error_app2 by lia. rewrite LS, Nat.sub_diag. reflexivity. }
      rewrite Y4 in B. destruct (rot t') as [q|]; [destruct (nth_error q k); [|discriminate]|]; injection B as <-; reflexivity.
  Qed.

  (** ** Appending *)

  Lemma tag_epsg h w z : word w -> integer T w = Some z -> handle_line T h ("#epsg " ++ w) = Ok (("epsg", HInt z) :: h).
  Proof.
    intros W I. change ("#epsg " ++ w) with (("#" ++ "epsg") ++ String " "%char w). rewrite handle_tag by reflexivity.
    change (handler T "epsg") with (integer_line_handler T).
    unfold integer_line_handler. rewrite tagged_words by reflexivity. rewrite (words_word _ W). cbn [nth_error]. rewrite I. reflexivity.
  Qed.

  Theorem append_cut C loc counted (a : traj Q) w z : consistent a -> xyz a <> [] -> one_line (name a) -> word w -> integer T w = Some z ->
    exists t', from_file ops qops T C loc counted (lines_text (written_lines qops T a) ++ "#epsg " ++ w) = Ok (Some t') /\
      Forall2 (near_pose qops) (poses a) (poses t') /\ epsg t' = z.
  Proof.
    intros CA N O W I. pose proof (written_one_line qops T TC a O) as WO.
    set (h := ("epsg", HInt z) :: written_header a).
    assert (one_line ("#epsg " ++ w)) as OW by (apply one_line_app; [split; reflexivity|apply spaceless_one_line, W]).
    assert (file_lines (lines_text (written_lines qops T a) ++ "#epsg " ++ w) = file_lines (lines_text (written_lines qops T a ++ [("#epsg " ++ w)%string])%list)) as FL.
    { rewrite lines_and_rest by assumption. rewrite lines_of_text by (apply Forall_app; split; [exact WO|constructor; [exact OW|constructor]]). reflexivity. }
    assert (Forall one_line (written_lines qops T a ++ [("#epsg " ++ w)%string])%list) as WO' by (apply Forall_app; split; [exact WO|constructor; [exact OW|constructor]]).
    assert (handle_lines T [] (written_lines qops T a ++ [("#epsg " ++ w)%string])%list = Ok h) as HH.
    { rewrite handle_lines_app, (header_handled qops T TC), app_nil_r. cbn [bind handle_lines]. rewrite (tag_epsg _ w z W I). reflexivity. }
    assert (std_header h (fields_text a)) as SH.
    { unfold std_header, h. repeat split; reflexivity. }
    destruct (read_rows ops qops T TC QC C loc counted h a CA SH) as [t' [R [F [CT' [K' [S [NM EP]]]]]]].
    exists t'. split; [|split; [exact F|rewrite EP; reflexivity]].
    unfold from_file. rewrite (read_data_same_lines _ _ _ FL).
    rewrite (read_data_lines T TC _ h (table_rows qops a) (width a) WO' HH); [exact R|reflexivity|..].
    - rewrite map_app, filter_app, (data_of_written qops T TC) by (intros r IR; eapply table_rows_nonempty; exact IR). cbn. apply app_nil_r.
    - apply table_rows_some; assumption.
    - apply width_gt.
    - apply table_rows_width.
  Qed.

  Theorem append_unreadable C loc counted (a : traj Q) : one_line (name a) ->
    from_file ops qops T C loc counted (lines_text (written_lines qops T a) ++ "#epsg") = Err IndexError.
  Proof.
    intro O. pose proof (written_one_line qops T TC a O) as WO.
    unfold from_file, read_data, header_from_file. rewrite lines_and_rest by (exact WO || (split; reflexivity)).
    rewrite handle_lines_app, (header_handled qops T TC). reflexivity.
  Qed.
End Cut.
