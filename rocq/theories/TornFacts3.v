(** Reading a file whose writing was interrupted. *)
From Verif Require Import Base BaseFacts EstModel TextModel TextFacts HeaderModel NumpyModel TrajModel TrajSpec TrajFacts GeomModel GeomSpec IoModel IoSpec HeaderFacts IoFacts IoFacts2 IoFacts3 IoFacts4 TornModel TornSpec TornFacts TornFacts2.
Local Open Scope string_scope.
Local Arguments Ascii.eqb : simpl never.
Local Opaque newline return_char.

Lemma forall2_nth {A B} (P : A -> B -> Prop) l m : Forall2 P l m -> forall i a, nth_error l i = Some a -> exists b, nth_error m i = Some b /\ P a b.
Proof. induction 1 as [|x y l m H F IH]; intros [|i] a E; cbn in E; try discriminate; [injection E as <-; exists y; split; [reflexivity|exact H]|apply IH; exact E]. Qed.

Section Torn.
  Context {Q : Type} (ops : rot_ops Q) (qops : quat_ops Q) (QC : quat_contract ops qops) (T : text_ops) (TC : text_contract T).

  Lemma make_torn n rows cells : Forall (fun r : list R => length r = n) rows -> (length cells <= n)%nat -> (rows <> [] \/ length cells = n) ->
    make_table (map (map (show9 T)) rows ++ [cells]) = Some (Table n (map (shown T) rows ++ [pad n cells])).
  Proof.
    intros F L H.
    assert (forallb (fun l => (length l <=? n)%nat) (map (map (show9 T)) rows ++ [cells]) = true) as FB.
    { apply forallb_forall. intros x I. apply Nat.leb_le. apply in_app_or in I as [I|[<-|[]]]; [|exact L].
      apply in_map_iff in I as [r [<- I]]. rewrite map_length. rewrite Forall_forall in F. rewrite (F r I). lia. }
    assert (map (pad n) (map (map (show9 T)) rows ++ [cells]) = (map (shown T) rows ++ [pad n cells])%list) as MP.
    { rewrite map_app, map_map. f_equal. apply map_ext_in. intros r I. unfold pad, shown.
      rewrite Forall_forall in F. rewrite map_length, (F r I), Nat.sub_diag, app_nil_r, map_map. reflexivity. }
    assert (forall l, l <> [] -> length (hd [] l) = n -> forallb (fun l => (length l <=? n)%nat) l = true ->
      make_table l = Some (Table n (map (pad n) l))) as G.
    { intros [|x l] N E B; [congruence|]. cbn [hd] in E. unfold make_table. rewrite E, B. reflexivity. }
    rewrite G; [rewrite MP; reflexivity|destruct rows; discriminate| |exact FB].
    destruct rows as [|r rows]; cbn.
    - destruct H as [H|H]; [congruence|exact H].
    - rewrite map_length. inversion F. assumption.
  Qed.

  Lemma width_row (t : traj Q) : width t = row_width (fields_text t).
  Proof. unfold width, fields_text. destruct (rot t); reflexivity. Qed.
  Lemma two_fields (t : traj Q) : fields_text t = plain_fields \/ fields_text t = quat_fields.
  Proof. unfold fields_text. destruct (rot t); [right|left]; reflexivity. Qed.
  Lemma std_written (t : traj Q) : std_header (written_header t) (fields_text t).
  Proof. destruct (written_std t []) as [W|[W|W]]; [rewrite app_nil_r in W; exact W|exfalso; apply W; reflexivity|exfalso; apply W; reflexivity]. Qed.
  Lemma first_header k (t : traj Q) : written_header (first_poses k t) = written_header t.
  Proof. unfold written_header, fields_text, first_poses. cbn. destruct (rot t); reflexivity. Qed.
  Lemma first_fields k (t : traj Q) : fields_text (first_poses k t) = fields_text t.
  Proof. unfold fields_text, first_poses. cbn. destruct (rot t); reflexivity. Qed.

  Lemma spaceless_prefix p q : spaceless (p ++ q) = true -> spaceless p = true.
  Proof. rewrite spaceless_app. intro H. apply andb_prop in H. tauto. Qed.
  Lemma spaceless_row r : spaceless (row_line T r) = true.
  Proof.
    unfold row_line. induction r as [|x r IH]; [reflexivity|]. destruct r as [|y r].
    - cbn. apply (tc_num_word T TC).
    - cbn [map] in *. change (join "," (show9 T x :: show9 T y :: map (show9 T) r)) with (show9 T x ++ "," ++ join "," (show9 T y :: map (show9 T) r)).
      rewrite !spaceless_app, IH. destruct (tc_num_word T TC x) as [_ ->]. reflexivity.
  Qed.

  Lemma complete_read C loc counted (t : traj Q) text k : consistent t -> one_line (name t) ->
    file_lines text = firstn (4 + k) (written_lines qops T t) -> (0 < k)%nat -> xyz t <> [] ->
    exists t', from_file ops qops T C loc counted text = Ok (Some t') /\
      Forall2 (near_pose qops) (firstn k (poses t)) (poses t') /\ consistent t' /\ (rot t' = None <-> rot t = None) /\
      srt t' = SortTime /\ epsg t' = epsg t /\
      name t' = (if String.eqb (join " " (words (name t))) "" then counted else join " " (words (name t))).
  Proof.
    intros CT O L K X.
    assert (xyz (first_poses k t) <> []) as X' by (cbn; destruct (xyz t); [congruence|destruct k; [lia|discriminate]]).
    destruct (file_round_trip ops qops T TC QC C loc counted (first_poses k t) (first_consistent k t CT) X' O) as
      (text' & t' & TF & FF & P1 & P2 & P3 & P4 & P5 & P6).
    exists t'. rewrite first_poses_poses in P1. rewrite first_kind in P3. repeat (split; [try assumption|]); try assumption.
    rewrite to_file_lines in TF by (apply consistent_same_lengths, first_consistent, CT). assert (text' = lines_text (written_lines qops T (first_poses k t))) as -> by (injection TF as E; symmetry; exact E).
    rewrite <- FF. unfold from_file. f_equal. apply read_data_same_lines.
    rewrite L, lines_of_text by (apply (written_one_line qops T TC); exact O). symmetry. apply first_written.
  Qed.

  Lemma torn_read C loc counted (t : traj Q) text k p r q t' : consistent t -> one_line (name t) ->
    file_lines text = (firstn (4 + k) (written_lines qops T t) ++ [p])%list -> p <> "" ->
    nth_error (table_rows qops t) k = Some r -> row_line T r = p ++ q ->
    from_file ops qops T C loc counted text = Ok (Some t') ->
    beginning qops (poses t) (poses t') /\ length (poses t') = S k /\ consistent t' /\ (rot t' = None <-> rot t = None) /\
      srt t' = SortTime /\ epsg t' = epsg t /\
      name t' = (if String.eqb (join " " (words (name t))) "" then counted else join " " (words (name t))).
  Proof.
    intros CT O L NP NR RP FF. set (w := width t).
    set (rows := firstn k (table_rows qops t)).
    assert (Forall (fun r => length r = w) (table_rows qops t)) as W by apply table_rows_width.
    assert (Forall (fun r => length r = w) rows) as WR by (apply forall_firstn; exact W).
    assert (length r = w) as LR by (rewrite Forall_forall in W; apply W; eapply nth_error_In; exact NR).
    assert (1 < w)%nat as GW by apply width_gt.
    assert (r <> []) as NE by (intros ->; cbn in LR; lia).
    assert (k < length (table_rows qops t))%nat as KL by (apply nth_error_Some; congruence).
    assert (length rows = k) as LK by (unfold rows; rewrite firstn_length; lia).
    assert (spaceless p = true) as SP by (apply spaceless_prefix with q; rewrite <- RP; apply spaceless_row).
    assert (has_char "#" p = false) as HP.
    { pose proof (row_line_hash T TC r) as H. rewrite RP, has_char_app in H. apply orb_false_iff in H. tauto. }
    assert (words p = [p]) as WP by (apply words_word; split; assumption).
    (* the header *)
    assert (header_from_file T text = Ok (written_header t)) as HH.
    { unfold header_from_file. rewrite L, handle_lines_app, <- first_written.
      rewrite (header_handled qops T TC), app_nil_r, first_header. cbn [bind handle_lines].
      rewrite hashless_untouched by exact HP. reflexivity. }
    (* the data lines *)
    assert (data_lines text = (map (row_line T) rows ++ [p])%list) as DL.
    { unfold data_lines. rewrite L, <- first_written, map_app, filter_app.
      change (filter (fun l => negb (length (words l) =? 0)%nat)) with (filter nonblank).
      rewrite (data_of_written qops T TC) by (intros x I; apply (table_rows_nonempty qops) with (first_poses k t); exact I).
      rewrite first_rows. f_equal. cbn [map filter]. rewrite uncomment_id by exact HP. unfold nonblank. rewrite WP. reflexivity. }
    destruct (split_prefix T TC r p q RP NE) as (j & v & J & SC & _).
    set (cells := (map (show9 T) (firstn j r) ++ [v])%list) in *.
    assert (length cells = S j) as LC by (unfold cells; rewrite app_length, map_length, firstn_length; cbn; lia).
    assert (map (split_on ",") (data_lines text) = (map (map (show9 T)) rows ++ [cells])%list) as CE.
    { rewrite DL, map_app, map_map. cbn [map]. rewrite SC. f_equal. apply map_ext_in. intros x I. apply row_line_split; [exact TC|].
      rewrite Forall_forall in WR. intros ->. specialize (WR [] I). cbn in WR. lia. }
    assert (h_delimiter (written_header t) = ",") as HD by reflexivity.
    unfold from_file, read_data in FF. rewrite HH in FF. cbn [bind] in FF. rewrite HD in FF.
    change (read_csv "," text) with (make_table (map (split_on ",") (data_lines text))) in FF. rewrite CE in FF.
    pose proof (std_written t) as SH.
    destruct (Nat.eq_dec k 0) as [K0|K0].
    1: destruct (Nat.eq_dec (S j) w) as [JW|JW].
    2:{ exfalso. destruct rows as [|x rows']; [|cbn in LK; lia]. cbn [map app] in FF, DL.
        assert (make_table [cells] = Some (Table (S j) [pad (S j) cells])) as MT by (unfold make_table; cbn [map forallb]; rewrite LC, Nat.leb_refl; reflexivity).
        rewrite MT in FF. cbn [columns_of] in FF.
        destruct (Nat.eqb_spec (S j) 1) as [E1|E1].
        - unfold read_whitespace in FF. rewrite DL in FF. cbn [map] in FF. rewrite WP in FF.
          change (make_table [[p]]) with (Some (Table 1 [[Some p]])) in FF. cbn [bind] in FF.
          revert FF. apply (narrow_fails ops qops T C loc counted _ 1 _ (fields_text t)); [apply two_fields|exact SH|rewrite <- width_row; exact GW].
        - cbn [bind] in FF. revert FF.
          apply (narrow_fails ops qops T C loc counted _ (S j) _ (fields_text t)); [apply two_fields|exact SH|rewrite <- width_row; fold w; lia]. }
    all: rewrite (make_torn w) in FF by (try exact WR; try lia; first [right; lia|left; intro Z; rewrite Z in LK; cbn in LK; lia]).
    all: cbn [columns_of] in FF; destruct (Nat.eqb_spec w 1) as [W1|_]; [lia|]; cbn [bind] in FF.
    2: destruct (Nat.eq_dec (S j) w) as [JW|JW].
    3:{ exfalso. revert FF. unfold w. rewrite width_row. apply (missing_fails ops qops T C loc counted _ _ (pad w cells)); [apply two_fields|exact SH| |].
        - unfold w. rewrite width_row. apply in_or_app. right. left. reflexivity.
        - rewrite <- width_row. fold w. unfold pad. rewrite app_nth2 by (rewrite map_length; lia). rewrite nth_repeat. reflexivity. }
    all: clear K0.
    all: assert (consistent (first_poses (S k) t)) as C1 by (apply first_consistent; exact CT).
    all: assert (table_rows qops (first_poses (S k) t) = (rows ++ [r])%list) as TR by
      (rewrite first_rows; unfold rows; clear - NR; revert k NR; induction (table_rows qops t) as [|x l IH]; intros [|k] NR; cbn in NR |- *; try discriminate;
        [injection NR as ->; reflexivity|f_equal; apply IH; exact NR]).
    all: destruct (read_rows ops qops T TC QC C loc counted (written_header t) (first_poses (S k) t) C1) as [t2 [R2 [F2 [CT2 [K2 [S2 [NM2 EP2]]]]]]];
      [rewrite first_fields; exact SH|].
    all: assert (width (first_poses (S k) t) = w) as WF by (unfold w, width, first_poses; cbn; destruct (rot t); reflexivity).
    all: rewrite WF, TR, map_app in R2; cbn [map] in R2.
    all: assert (pad w cells = map Some cells) as PD by (unfold pad; rewrite LC, JW, Nat.sub_diag; apply app_nil_r).
    all: rewrite PD in FF; unfold w in FF, R2; rewrite width_row in FF, R2.
    all: match type of FF with from_read _ _ _ _ _ _ (Ok (_, Table _ ?r1)) = _ =>
           match type of R2 with from_read _ _ _ _ _ _ (Ok (_, Table _ ?r2)) = _ =>
             assert (length r1 = length r2) as LL by (rewrite !app_length; reflexivity);
             assert (forall i a b, nth_error r1 i = Some a -> nth_error r2 i = Some b ->
               (forall m, (m < row_width (fields_text t) - 1)%nat -> nth m a None = nth m b None) /\ (a = b \/ S i = length r1)) as DD end end.
    1, 3: intros i a b A B; destruct (Nat.lt_ge_cases i k) as [IK|IK];
       [rewrite nth_error_app1 in A by (rewrite map_length; lia); rewrite nth_error_app1 in B by (rewrite map_length; lia);
        assert (a = b) as -> by congruence; split; [reflexivity|left; reflexivity]|];
       rewrite nth_error_app2 in A by (rewrite map_length; lia); rewrite nth_error_app2 in B by (rewrite map_length; lia);
       rewrite map_length, LK in A, B; destruct (i - k)%nat as [|d] eqn:D; [|destruct d; discriminate];
       cbn in A, B; injection A as <-; injection B as <-;
       split; [|right; rewrite app_length, map_length, LK; cbn; lia];
       intros m M; rewrite <- width_row in M; fold w in M;
       unfold cells; rewrite map_app, app_nth1 by (rewrite !map_length, firstn_length; lia);
       unfold shown; rewrite map_map; clear - M JW LR;
       assert (m < j)%nat as MJ by lia; clear M JW LR; revert j r MJ; induction m as [|m IH]; intros [|j] [|x r] MJ; try lia; try reflexivity;
       cbn; apply IH; lia.
    all: destruct (last_cell_matters ops qops T C loc counted _ _ _ (fields_text t) t' t2 (two_fields t) SH LL DD FF R2) as (E & L1 & L2 & L3 & SPD).
    all: rewrite app_length, map_length, LK, Nat.add_1_r in L1, L2, L3; rewrite app_length, map_length, LK, Nat.add_1_r in SPD.
    all: assert (consistent t') as CT' by
      (rewrite E in L1; cbn in L1; destruct CT2 as [Q1 [Q2 [Q3 Q4]]]; rewrite E; unfold consistent; cbn [set_speed tstamps xyz rot arc speed]; repeat split; try assumption; congruence).
    all: assert (length (poses t') = S k) as LP by (rewrite poses_length by exact CT'; exact L1).
    all: rewrite first_kind in K2; rewrite first_poses_poses in F2.
    all: split; [|split; [exact LP|]; split; [exact CT'|]; rewrite E; cbn [set_speed rot srt epsg name]; repeat split; try apply K2; assumption].
    all: assert (length (poses t) = length (table_rows qops t)) as LT by (rewrite rows_length, poses_length by exact CT; reflexivity).
    all: split; [lia|].
    all: intros i a b A B.
    all: assert (i < S k)%nat as IK by (rewrite <- LP; apply nth_error_Some; congruence).
    all: assert (nth_error (firstn (S k) (poses t)) i = Some a) as A' by (rewrite <- A; clear - IK; revert i IK; generalize (S k); intros n; revert n; induction (poses t) as [|x l IH]; intros [|n] [|i] H; cbn; try lia; try reflexivity; apply IH; lia).
    all: destruct (forall2_nth _ _ _ F2 i a A') as [b2 [B2 NP2]].
    all: rewrite poses_nth in B2 by exact CT2; rewrite poses_nth in B by exact CT'.
    all: rewrite E in B; unfold pose_at in B, B2; cbn [set_speed tstamps xyz rot arc speed] in B.
    all: destruct (nth_error (tstamps t2) i) as [y1|]; [|discriminate]; destruct (nth_error (xyz t2) i) as [y2|]; [|discriminate];
      destruct (nth_error (arc t2) i) as [y3|]; [|discriminate]; destruct (nth_error (speed t2) i) as [y4|] eqn:Y4; [|discriminate];
      destruct (nth_error (speed t') i) as [y5|] eqn:Y5; [|discriminate].
    all: destruct (SPD i y5 y4 Y5 Y4) as (V1 & V2 & V3).
    all: assert (exists ro, b2 = mkPose y1 y2 ro y3 y4 /\ b = mkPose y1 y2 ro y3 y5) as [ro [-> ->]] by
      (destruct (rot t2) as [qs|]; [destruct (nth_error qs i) as [qq|]; [|discriminate]|]; injection B as <-; injection B2 as <-; eexists; split; reflexivity).
    all: unfold near_pose in NP2; cbn [p_t p_xyz p_rot p_arc p_speed] in NP2; destruct NP2 as (N1 & N2 & N3 & N4 & N5).
    all: split; [unfold near_but_vz; cbn [p_t p_xyz p_rot p_arc p_speed]; rewrite V1, V2; repeat split; try assumption; apply N2 || apply N4|].
    all: destruct V3 as [->|V3]; [left; unfold near_pose; cbn [p_t p_xyz p_rot p_arc p_speed]; repeat split; try assumption; apply N2 || apply N4|right; rewrite LP; exact V3].
  Qed.

  (** ** The whole file *)
  Lemma header_count (t : traj Q) : length (header_lines T t) = 4%nat.
  Proof. reflexivity. Qed.

  Theorem interrupted_read C loc counted (t : traj Q) n t' : consistent t -> one_line (name t) ->
    from_file ops qops T C loc counted (take n (lines_text (written_lines qops T t))) = Ok (Some t') ->
    beginning qops (poses t) (poses t') /\ poses t' <> [] /\ consistent t' /\ (rot t' = None <-> rot t = None) /\
      srt t' = SortTime /\ epsg t' = epsg t /\
      name t' = (if String.eqb (join " " (words (name t))) "" then counted else join " " (words (name t))).
  Proof.
    intros CT O FF. pose proof (written_one_line qops T TC t O) as WO.
    destruct (taken_lines (written_lines qops T t) n WO) as (i & p & FL & P).
    destruct (Nat.lt_ge_cases i 4) as [I4|I4].
    - exfalso. assert (data_lines (take n (lines_text (written_lines qops T t))) = []) as D.
      { unfold data_lines. rewrite FL. unfold written_lines in *. rewrite firstn_app, header_count.
        assert (i - 4 = 0)%nat as -> by lia. rewrite firstn_O, app_nil_r.
        apply (torn_header_blank T t i p). destruct P as [P|[P1 [l [q [P2 P3]]]]]; [left; exact P|right]. split; [exact P1|]. exists l, q. split; [|exact P3].
        rewrite nth_error_app1 in P2 by (rewrite header_count; exact I4). exact P2. }
      destruct (no_data_fails ops qops T C loc counted _ D) as [e E]. congruence.
    - replace i with (4 + (i - 4))%nat in FL by lia. set (k := (i - 4)%nat) in *.
      destruct P as [->|[P1 [l [q [P2 P3]]]]].
      + cbn [rest_line String.eqb] in FL. rewrite app_nil_r in FL.
        destruct (Nat.eq_dec k 0) as [K0|K0].
        { exfalso. assert (data_lines (take n (lines_text (written_lines qops T t))) = []) as D.
          { unfold data_lines. rewrite FL, K0. reflexivity. }
          destruct (no_data_fails ops qops T C loc counted _ D) as [e E]. congruence. }
        destruct (xyz t) as [|x xs] eqn:X.
        { exfalso. assert (data_lines (take n (lines_text (written_lines qops T t))) = []) as D.
          { unfold data_lines. rewrite FL. unfold written_lines.
            assert (table_rows qops t = []) as -> by (apply length_zero_iff_nil; rewrite rows_length by exact CT; rewrite X; reflexivity).
            cbn [map]. rewrite app_nil_r, firstn_all2 by (rewrite header_count; lia). reflexivity. }
          destruct (no_data_fails ops qops T C loc counted _ D) as [e E]. congruence. }
        destruct (complete_read C loc counted t _ k CT O FL ltac:(lia) ltac:(congruence)) as (t2 & F2 & P1 & P2 & P3 & P4 & P5 & P6).
        assert (t2 = t') as -> by congruence.
        pose proof (forall2_length _ _ _ P1) as LE. rewrite firstn_length, poses_length in LE by exact CT. unfold tlen in LE. rewrite X in LE. cbn in LE.
        split; [|split; [|repeat (split; [assumption|]); assumption]].
        * split; [rewrite (poses_length t) by exact CT; unfold tlen; rewrite X; cbn; lia|]. intros m a b A B.
          assert (nth_error (firstn k (poses t)) m = Some a) as A'.
          { assert (m < length (poses t'))%nat as ML by (apply nth_error_Some; congruence).
            rewrite <- A. assert (m < k)%nat as IK by lia. clearbody k. clear - IK. revert m k IK. induction (poses t) as [|y l IH]; intros [|m] [|k] H; cbn; try lia; try reflexivity. apply IH. lia. }
          destruct (forall2_nth _ _ _ P1 m a A') as [b2 [B2 NP2]]. assert (b2 = b) as -> by congruence.
          split; [|left; exact NP2]. destruct NP2 as (N1 & N2 & N3 & N4 & N5). unfold near_but_vz. repeat split; try assumption; apply N2 || apply N4.
        * intro Z. rewrite Z in LE. cbn in LE. destruct k; cbn in LE; lia.
      + unfold rest_line in FL. destruct (String.eqb_spec p "") as [Z|_]; [congruence|].
        unfold written_lines in P2. rewrite nth_error_app2 in P2 by (rewrite header_count; lia). rewrite header_count in P2. fold k in P2.
        rewrite nth_error_map in P2. destruct (nth_error (table_rows qops t) k) as [r|] eqn:NR; [|discriminate]. cbn in P2. injection P2 as <-.
        destruct (torn_read C loc counted t _ k p r q t' CT O FL P1 NR P3 FF) as (B & LB & R).
        split; [exact B|]. split; [intro Z; rewrite Z in LB; discriminate|exact R].
  Qed.

  (** Stopped within the header: nothing can be read. *)
  Theorem interrupted_header C loc counted (t : traj Q) n : one_line (name t) -> (n <= String.length (lines_text (header_lines T t)))%nat ->
    exists e, from_file ops qops T C loc counted (take n (lines_text (written_lines qops T t))) = Err e.
  Proof.
    intros O N. apply no_data_fails. unfold written_lines. rewrite lines_text_app, take_app_short by exact N.
    assert (Forall one_line (header_lines T t)) as HO.
    { pose proof (written_one_line qops T TC t O) as WO. unfold written_lines in WO. apply Forall_app in WO. tauto. }
    destruct (taken_lines (header_lines T t) n HO) as (i & p & FL & P). unfold data_lines. rewrite FL.
    apply (torn_header_blank T t i p P).
  Qed.

  (** Stopped between two poses: the poses so far are read. *)
  Theorem interrupted_between C loc counted (t : traj Q) k : consistent t -> one_line (name t) -> (0 < k <= length (xyz t))%nat ->
    exists n t', (n <= String.length (lines_text (written_lines qops T t)))%nat /\
      from_file ops qops T C loc counted (take n (lines_text (written_lines qops T t))) = Ok (Some t') /\
      Forall2 (near_pose qops) (firstn k (poses t)) (poses t') /\ consistent t' /\ (rot t' = None <-> rot t = None) /\
      srt t' = SortTime /\ epsg t' = epsg t /\
      name t' = (if String.eqb (join " " (words (name t))) "" then counted else join " " (words (name t))).
  Proof.
    intros CT O K. pose proof (written_one_line qops T TC t O) as WO.
    set (ls := written_lines qops T t) in *.
    assert (lines_text ls = lines_text (firstn (4 + k) ls) ++ lines_text (skipn (4 + k) ls)) as SPL by (rewrite <- lines_text_app, firstn_skipn; reflexivity).
    exists (String.length (lines_text (firstn (4 + k) ls))).
    assert (take (String.length (lines_text (firstn (4 + k) ls))) (lines_text ls) = lines_text (firstn (4 + k) ls)) as TK.
    { rewrite SPL, take_app by lia. rewrite Nat.sub_diag. destruct (lines_text (skipn (4 + k) ls)); apply append_nil. }
    destruct (complete_read C loc counted t (lines_text (firstn (4 + k) ls)) k CT O) as (t' & F & R).
    - apply lines_of_text. apply forall_firstn. exact WO.
    - lia.
    - intro Z. rewrite Z in K. cbn in K. lia.
    - exists t'. split; [rewrite SPL at 1; rewrite length_append; lia|]. rewrite TK. split; [exact F|exact R].
  Qed.
End Torn.
