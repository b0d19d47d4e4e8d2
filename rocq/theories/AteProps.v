(** Property C75: files of absolute comparison results. *)
From Verif Require Import Base BaseFacts VecFacts EstModel TextModel TextFacts HeaderModel NumpyModel TrajModel TrajSpec TrajFacts2 GeomModel GeomSpec IoModel IoSpec HeaderFacts IoFacts IoFacts2 IoFacts4 EvalModel EvalFacts4 RpeModel RpeSpec RpeFacts RpeFacts3 IoProps AteModel AteSpec AteFacts AteFacts2.
Local Open Scope string_scope.

(** What an absolute comparison returns can be written. *)
Theorem C75_comparison :
  forall Q (ops : rot_ops Q) (test ref : traj Q), rot_contract ops -> consistent test -> consistent ref -> tlen test = tlen ref ->
    exists r, compare_absolute ops test ref = Ok r /\ ate_trajectory r = test /\ complete r.
Proof.
  intros Q ops test ref RC Ct Cr L. destruct (compare_absolute_ok ops test ref Ct Cr L) as (r & E & _ & ET & L1 & L2 & _ & _ & _ & H4).
  exists r. split; [exact E|]. split; [exact ET|]. unfold complete. rewrite ET. unfold tlen in *. split; [exact Ct|]. split; [congruence|]. split; [congruence|].
  destruct (rot ref), (rot test); try (rewrite H4; exact I). destruct H4 as (d & -> & D & _). congruence.
Qed.
Print Assumptions C75_comparison.

Lemma regular_nonempty s : regular s -> s <> "" -> String.eqb (join " " (words s)) "" = false.
Proof. intros RG N. unfold regular in RG. rewrite RG. apply String.eqb_neq, N. Qed.

(** An exported result is read back: the same name and epsg, the same number of poses, all times, arc lengths, positions and
    deviations at most half a unit of the twelfth decimal away, rotations and rotation deviations present if and only if they
    were, with quaternion components at most 1.5e-12 away.  Missing from C75: the fields of C75_lost_refuted. *)
Theorem C75_round_trip_partial :
  forall Q (ops : rot_ops Q) (qops : quat_ops Q) (T : text_ops) (show12 : R -> string) loc counted (r : ate_result Q),
    quat_contract ops qops -> text_contract T -> format12 T show12 -> (forall l, length (loc l) = length l) ->
    complete r -> xyz (ate_trajectory r) <> [] -> regular (ate_name r) -> ate_name r <> "" ->
    exists text r', ate_to_file qops T show12 "" r = Ok text /\ ate_from_file qops T loc counted text = Ok (Some r') /\
      complete r' /\ ate_name r' = ate_name r /\ epsg (ate_trajectory r') = epsg (ate_trajectory r) /\
      Forall2 near12 (tstamps (ate_trajectory r)) (tstamps (ate_trajectory r')) /\
      Forall2 near12 (arc (ate_trajectory r)) (arc (ate_trajectory r')) /\
      Forall2 near12_v3 (xyz (ate_trajectory r)) (xyz (ate_trajectory r')) /\
      Forall2 near12_v3 (pos_dev r) (pos_dev r') /\ Forall2 near12_v3 (directed_pos_dev r) (directed_pos_dev r') /\
      near12_rots qops (rot (ate_trajectory r)) (rot (ate_trajectory r')) /\ near12_rots qops (rot_dev r) (rot_dev r') /\
      gradient_3d (loc (xyz (ate_trajectory r'))) (tstamps (ate_trajectory r')) = Ok (speed (ate_trajectory r')) /\
      srt (ate_trajectory r') = SortTime /\ name (ate_trajectory r') = ate_name r /\ rotations_used r' = false.
Proof.
  intros Q ops qops T show12 loc counted r QC TC FC LL CR NE RG NN.
  rewrite (written qops r CR NE T show12). cbn [append]. set (text := ate_content _ _ _ _ _). exists text.
  assert (file_lines text = (ate_head T r ++ body show12 (names2 (has_quats (rot (ate_trajectory r))) (has_quats (rot_dev r))) (all_rows qops r))%list) as L.
  { unfold text. rewrite <- (append_nil (ate_content _ _ _ _ _)), (ate_lines T show12 TC FC) by (try apply regular_one_line, RG; apply names2_good).
    cbn [file_lines]. rewrite app_nil_r. reflexivity. }
  destruct (read_rot qops r CR T show12 FC ops QC) as (ro & E3 & N3).
  destruct (read_rdev qops r CR T show12 FC ops QC) as (de & E6 & N6).
  destruct (read_xyz qops r CR T show12 FC) as (c2 & E2 & V2).
  destruct (read_pos qops r CR T show12 FC) as (c4 & E4 & V4').
  destruct (read_dir qops r CR T show12 FC) as (c5 & E5 & V5).
  pose proof CR as ((LT & LR & LA & _) & LP & LD & LRD).
  assert (exists g, gradient_3d (loc (map (rdv T show12) (xyz (ate_trajectory r)))) (map (rd12 T show12) (tstamps (ate_trajectory r))) = Ok g) as [g G].
  { apply gradient_ok. rewrite LL, !map_length. congruence. }
  assert (length g = length (xyz (ate_trajectory r))) as LG.
  { erewrite gradient_length; [|..|exact G]; rewrite ?LL, ?map_length; try congruence. intro X. apply (f_equal (@length V3)) in X. rewrite LL, map_length in X. destruct (xyz (ate_trajectory r)); [congruence|discriminate]. }
  assert (match ro with Some q => length q = length (xyz (ate_trajectory r)) | None => True end) as LO.
  { unfold near12_rots in N3. destruct (rot (ate_trajectory r)) as [q|], ro as [q'|]; try tauto. rewrite <- LR. symmetry. clear - N3. induction N3; cbn; congruence. }
  exists (mkAte (ate_name r) (mkTraj (map (rd12 T show12) (tstamps (ate_trajectory r))) (map (rdv T show12) (xyz (ate_trajectory r))) ro (map (rd12 T show12) (arc (ate_trajectory r))) g SortTime (ate_name r) (epsg (ate_trajectory r)))
      (map (rdv T show12) (pos_dev r)) (map (rdv T show12) (directed_pos_dev r)) de false).
  split; [reflexivity|]. split.
  { unfold ate_from_file, header_from_file. rewrite L, handle_lines_app, (ate_head_handled T TC). cbn [bind].
    rewrite (body_untouched T show12 FC) by apply names2_good. cbn [bind]. rewrite app_nil_r.
    rewrite (read_table T show12 FC text _ _ _ L (ate_head_blank T r) (names2_good _ _) (names2_some _ _) (wide_all qops r)). cbn [bind fst snd].
    rewrite (read_ts qops r CR T show12 FC). cbn [bind]. rewrite (read_arc qops r CR T show12 FC). cbn [bind].
    rewrite E2. cbn [bind]. rewrite E3. cbn [bind]. rewrite E4. cbn [bind]. rewrite E5. cbn [bind]. rewrite E6. cbn [bind].
    rewrite V2, V4', V5.
    assert (h_name (ate_header r) = join " " (words (ate_name r))) as -> by reflexivity.
    assert (h_epsg (ate_header r) = epsg (ate_trajectory r)) as -> by reflexivity.
    rewrite (regular_nonempty _ RG NN). unfold regular in RG. rewrite RG. unfold new_traj. rewrite !map_length.
    assert (match ro with Some q => negb (length q =? length (xyz (ate_trajectory r)))%nat | None => false end = false) as ->.
    { destruct ro as [q|]; [|reflexivity]. rewrite LO, Nat.eqb_refl. reflexivity. }
    rewrite G. cbn [bind]. rewrite LA, Nat.eqb_refl. reflexivity. }
  cbn [ate_name ate_trajectory pos_dev directed_pos_dev rot_dev rotations_used tstamps xyz rot arc speed srt name epsg].
  split.
  { unfold complete, consistent. cbn [ate_name ate_trajectory pos_dev directed_pos_dev rot_dev rotations_used tstamps xyz rot arc speed srt name epsg]. rewrite !map_length.
    split; [split; [exact LT|split; [exact LO|split; [exact LA|exact LG]]]|]. split; [exact LP|]. split; [exact LD|].
    unfold near12_rots in N6. destruct (rot_dev r) as [q|], de as [q'|]; try tauto. rewrite <- LRD. symmetry. clear - N6. induction N6; cbn; congruence. }
  repeat (split; [first [reflexivity | apply (near_list T show12 FC) | apply (v3_near T show12 FC) | assumption]|]). reflexivity.
Qed.
Print Assumptions C75_round_trip_partial.

(** The reported position deviation of each pose, the length of its deviation, survives the file to 1e-12. *)
Theorem C75_deviations :
  forall a b : V3, near12_v3 a b -> Rabs (vnorm b - vnorm a) <= 1 / 10 ^ 12.
Proof.
  intros a b (X & Y & Z). unfold near12 in *.
  assert (vnorm (vsub b a) <= 1 / 10 ^ 12) as D.
  { unfold vnorm, vsub, vdot. cbn [vx vy vz]. apply Rsqr_incr_0_var; [|lra]. rewrite Rsqr_sqrt by (apply Rplus_le_le_0_compat; [apply Rplus_le_le_0_compat|]; apply Rle_0_sqr).
    assert (forall x, Rabs x <= 5 / 10 ^ 13 -> x * x <= 25 / 10 ^ 26) as S.
    { intros x H. change (x * x) with (Rsqr x). rewrite (Rsqr_abs x). apply Rle_trans with (Rsqr (5 / 10 ^ 13)); [apply Rsqr_incr_1; [exact H|apply Rabs_pos|lra]|unfold Rsqr; lra]. }
    apply S in X, Y, Z. unfold Rsqr, vdot. cbn [vx vy vz]. lra. }
  pose proof (vnorm_triangle a (vsub b a)) as T1. pose proof (vnorm_triangle b (vsub a b)) as T2.
  replace (vadd a (vsub b a)) with b in T1 by (v3; ring). replace (vadd b (vsub a b)) with a in T2 by (v3; ring).
  replace (vnorm (vsub a b)) with (vnorm (vsub b a)) in T2 by (unfold vnorm, vsub, vdot; cbn; f_equal; ring).
  apply Rabs_le. lra.
Qed.
Print Assumptions C75_deviations.

Definition two_pose_result : ate_result uquat :=
  mkAte "a vs. b" sample_traj [mkV3 1 2 3; mkV3 0 0 1] [mkV3 3 2 1; mkV3 0 1 0] (Some [uident; uident]) true.
Example C75_case : quat_contract sample_rot_ops sample_quat_ops /\ text_contract fine_text /\ format12 fine_text fine_show /\
  complete two_pose_result /\ xyz (ate_trajectory two_pose_result) <> [] /\ regular (ate_name two_pose_result) /\ ate_name two_pose_result <> "" /\
  number fine_text "time" = None.
Proof.
  split; [exact sample_quat_contract|]. split; [exact fine_text_contract|]. split; [exact fine_format|].
  repeat split; try reflexivity; discriminate.
Qed.

(** The trajectory of the result that is read has the name of the result and is sorted by time, whatever it was, and the
    result no longer says that rotations were used. *)
Theorem C75_lost_refuted : forall loc counted, (forall l, length (loc l) = length l) ->
  exists (r : ate_result uquat) text r', complete r /\ xyz (ate_trajectory r) <> [] /\ regular (ate_name r) /\
    ate_to_file sample_quat_ops fine_text fine_show "" r = Ok text /\ ate_from_file sample_quat_ops fine_text loc counted text = Ok (Some r') /\
    name (ate_trajectory r) = "my track" /\ name (ate_trajectory r') = "a vs. b" /\
    srt (ate_trajectory r) = SortArc /\ srt (ate_trajectory r') = SortTime /\ rotations_used r = true /\ rotations_used r' = false.
Proof.
  intros loc counted LL. destruct C75_case as (QC & TC & FC & CR & NE & RG & NN & _).
  destruct (C75_round_trip_partial _ _ _ _ _ loc counted two_pose_result QC TC FC LL CR NE RG NN) as (text & r' & W & RD & _ & _ & _ & _ & _ & _ & _ & _ & _ & _ & _ & S & N & U).
  exists two_pose_result, text, r'. repeat (split; [first [assumption|reflexivity]|]). exact U.
Qed.
Print Assumptions C75_lost_refuted.

Lemma mapM_err {A B} (f : A -> result B) l x m ys e : mapM f l = Ok ys -> f x = Err e -> mapM f (l ++ x :: m) = Err e.
Proof.
  revert ys. induction l as [|a l IH]; intros ys E F; cbn in *; [rewrite F; reflexivity|]. apply bind_ok in E as [y [Y E]]. apply bind_ok in E as [zs [Z _]].
  rewrite Y. cbn [bind]. rewrite (IH zs Z F). reflexivity.
Qed.

(** Mode "a", the default: when two results are written to the same file, it cannot be read any more. *)
Theorem C75_append_refuted :
  forall Q (ops : rot_ops Q) (qops : quat_ops Q) (T : text_ops) (show12 : R -> string) loc counted (r s : ate_result Q),
    quat_contract ops qops -> text_contract T -> format12 T show12 -> number T "time" = None ->
    complete r -> xyz (ate_trajectory r) <> [] -> regular (ate_name r) ->
    complete s -> xyz (ate_trajectory s) <> [] -> regular (ate_name s) ->
    exists first both, ate_to_file qops T show12 "" r = Ok first /\ ate_to_file qops T show12 first s = Ok both /\
      ate_from_file qops T loc counted both = Err ValueError.
Proof.
  intros Q ops qops T show12 loc counted r s QC TC FC NT CR NR RR CS NS RS.
  eexists. eexists. split; [apply (written qops r CR NR T show12)|]. cbn [append]. split; [apply (written qops s CS NS T show12)|].
  set (text := _ ++ _). set (nr := names2 _ _) in *. set (ns := names2 _ _) in text.
  assert (file_lines text = ((ate_head T r ++ body show12 nr (all_rows qops r)) ++ ate_head T s ++ body show12 ns (all_rows qops s))%list) as L.
  { unfold text. rewrite (ate_lines T show12 TC FC) by (try apply regular_one_line, RR; apply names2_good).
    rewrite <- (append_nil (ate_content T show12 s _ _)), (ate_lines T show12 TC FC) by (try apply regular_one_line, RS; apply names2_good).
    cbn [file_lines]. rewrite app_nil_r, app_assoc. reflexivity. }
  unfold ate_from_file, header_from_file. rewrite L, !handle_lines_app, (ate_head_handled T TC). cbn [bind].
  rewrite (body_untouched T show12 FC) by apply names2_good. cbn [bind]. rewrite !handle_lines_app, (ate_head_handled T TC). cbn [bind].
  rewrite (body_untouched T show12 FC) by apply names2_good. cbn [bind].
  destruct (read_two_tables T show12 FC text _ _ _ _ _ _ L (ate_head_blank T r) (ate_head_blank T s) (names2_good _ _) (names2_good _ _) (names2_some _ _) (names2_some _ _) (wide_all qops r) (wide_all qops s)) as [E|[junk E]];
    rewrite E; cbn [bind fst snd]; [reflexivity|].
  assert (frame_columns T nr (map (cells show12) (all_rows qops r) ++ pad (length nr) ns :: junk)%list ["time"] = Err ValueError) as ->; [|reflexivity].
  assert (index_of "time" nr = Ok 0%nat) as IX by reflexivity.
  unfold frame_columns. cbn [mapM]. unfold frame_column at 1. rewrite IX, map_app. cbn [map].
  pose proof (frame_col T show12 FC nr (all_rows qops r) "time" 0 _ IX (wide_all qops r)) as FCOL. unfold frame_column in FCOL. rewrite IX in FCOL.
  unfold to_nums in *. erewrite mapM_err; [reflexivity|apply FCOL|].
  - unfold nr. destruct (has_quats (rot (ate_trajectory r))), (has_quats (rot_dev r)); cbn; lia.
  - change (to_num T (Some "time") = Err ValueError). unfold to_num. rewrite NT. reflexivity.
Qed.
Print Assumptions C75_append_refuted.
