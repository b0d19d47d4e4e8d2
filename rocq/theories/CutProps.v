(** C140: interrupted writing of result files. *)
From Verif Require Import Base BaseFacts EstModel TextModel TextFacts HeaderModel HeaderFacts NumpyModel TrajModel TrajSpec TrajFacts2 GeomModel GeomSpec IoModel IoSpec IoFacts IoFacts2 IoFacts4 IoProps EvalModel RpeModel RpeSpec RpeFacts RpeFacts2 RpeFacts3 RpeProps AteModel AteSpec AteFacts AteFacts2 AteProps TornModel TornFacts CutModel CutSpec CutFacts CutFacts2 CutFacts3 CutFacts4 CutFacts5 CutFacts6 CutFacts7.
Local Open Scope string_scope.

Lemma rpe_stopped T show12 m before r n : matching r -> rpe_interrupted T show12 m before r n = on_disk m before (rpe_content T show12 r (file_rows r)) n.
Proof. intro M. unfold rpe_interrupted. rewrite RpeFacts2.written by exact M. reflexivity. Qed.
Lemma ate_stopped {Q} (qops : quat_ops Q) T show12 m before (r : ate_result Q) n : complete r -> xyz (ate_trajectory r) <> [] ->
  ate_interrupted qops T show12 m before r n = on_disk m before (ate_content T show12 r (names2 (has_quats (rot (ate_trajectory r))) (has_quats (rot_dev r))) (all_rows qops r)) n.
Proof. intros C N. unfold ate_interrupted. rewrite (AteFacts2.written qops r C N T show12). reflexivity. Qed.

(** Part: whatever the point at which writing a relative result with mode "w" stops after the file was opened, and whatever the
    file held before, a file that is then read as a result of numbers has the name and the unit of the result, and each of its
    blocks holds first pairs of a block of the result.  Only the last value of the last column can be wrong.  Missing: noticing
    that pairs are lost, keeping the old file, and the last value (all refuted below); mode "a". *)
Theorem C140_rpe_partial : forall T show12 before (r r' : rpe) n,
  text_contract T -> format12 T show12 -> matching r -> regular (r_name r) -> used_blocks r <> [] -> (0 < n)%nat ->
  rpe_from_file T (rpe_interrupted T show12 Write before r n) = Ok (Some r') ->
  r_name r' = r_name r /\ r_unit r' = r_unit r /\ Forall (fun b' => exists b, In b (blocks r) /\ first_pairs b b') (blocks r').
Proof.
  intros T show12 before r r' n TC FC M RG U N H. rewrite rpe_stopped in H by exact M. destruct n as [|n]; [lia|]. cbn [on_disk opened append] in H.
  destruct (cut_read T show12 TC FC r n r' M (regular_one_line _ RG) U H) as (A & B & C). split; [rewrite A; exact RG|]. split; [exact B|].
  eapply Forall_impl; [|exact C]. intros b' (b & I & F). exists b. split; [|exact F]. unfold used_blocks in I. apply filter_In in I. apply I.
Qed.
Print Assumptions C140_rpe_partial.

(** The same for absolute results: name, coordinate system, and the first poses with their deviations. *)
Theorem C140_ate_partial : forall Q (ops : rot_ops Q) (qops : quat_ops Q) T show12 loc counted before (r r' : ate_result Q) n,
  quat_contract ops qops -> text_contract T -> format12 T show12 -> complete r -> xyz (ate_trajectory r) <> [] -> regular (ate_name r) -> ate_name r <> "" -> (0 < n)%nat ->
  ate_from_file qops T loc counted (ate_interrupted qops T show12 Write before r n) = Ok (Some r') ->
  ate_name r' = ate_name r /\ epsg (ate_trajectory r') = epsg (ate_trajectory r) /\ first_deviations qops r r'.
Proof.
  intros Q ops qops T show12 loc counted before r r' n QC TC FC C NE RG NN N H. rewrite ate_stopped in H by assumption. destruct n as [|n]; [lia|]. cbn [on_disk opened append] in H.
  destruct (ate_cut_read ops qops QC T show12 TC FC r r' loc counted n C NE (regular_one_line _ RG) (regular_nonempty _ RG NN) H) as (A & _ & B & D). split; [rewrite A; exact RG|]. split; assumption.
Qed.
Print Assumptions C140_ate_partial.

(** Before the file is opened nothing has changed, and at the last point the file is the complete one. *)
Theorem C140_rpe_ends : forall T show12 m before (r : rpe) text,
  rpe_to_file T show12 (match m with Write => "" | Append => before end) r = Ok text ->
  rpe_interrupted T show12 m before r 0 = before /\ exists n, (0 < n)%nat /\ forall n', (n <= n')%nat -> rpe_interrupted T show12 m before r n' = text.
Proof.
  intros T show12 m before r text H. unfold rpe_interrupted. unfold rpe_to_file in *. destruct (rpe_rows r) as [rows|]; [|discriminate]. cbn [bind] in *. cbn [append]. match goal with |- context [on_disk m before ?u] => set (s := u) in * end.
  split; [reflexivity|]. exists (S (String.length s)). split; [lia|]. intros [|n'] L; [lia|]. cbn [on_disk].
  assert (forall k u, (String.length u <= k)%nat -> take k u = u) as TA.
  { induction k as [|k IH]; intros [|c u] LU; cbn in *; try reflexivity; try lia. f_equal. apply IH. lia. }
  rewrite TA by lia. injection H as <-. unfold s. destruct m; reflexivity.
Qed.
Print Assumptions C140_rpe_ends.
Theorem C140_ate_ends : forall Q (qops : quat_ops Q) T show12 m before (r : ate_result Q) text,
  ate_to_file qops T show12 (match m with Write => "" | Append => before end) r = Ok text ->
  ate_interrupted qops T show12 m before r 0 = before /\ exists n, (0 < n)%nat /\ forall n', (n <= n')%nat -> ate_interrupted qops T show12 m before r n' = text.
Proof.
  intros Q qops T show12 m before r text H. unfold ate_interrupted. unfold ate_to_file in *. destruct (ate_rows qops r) as [rows|]; [|discriminate]. cbn [bind] in *. cbn [append]. match goal with |- context [on_disk m before ?u] => set (s := u) in * end.
  split; [reflexivity|]. exists (S (String.length s)). split; [lia|]. intros [|n'] L; [lia|]. cbn [on_disk].
  assert (forall k u, (String.length u <= k)%nat -> take k u = u) as TA.
  { induction k as [|k IH]; intros [|c u] LU; cbn in *; try reflexivity; try lia. f_equal. apply IH. lia. }
  rewrite TA by lia. injection H as <-. unfold s. destruct m; reflexivity.
Qed.
Print Assumptions C140_ate_ends.

(** REFUTED: the old content survives until the new one is complete.  Once the file is opened with mode "w", nothing can be read
    from it, whatever it held before. *)
Theorem C140_lost_refuted : forall Q (qops : quat_ops Q) T show12 loc counted before (r : rpe) (a : ate_result Q),
  matching r -> complete a -> xyz (ate_trajectory a) <> [] ->
  (exists e, rpe_from_file T (rpe_interrupted T show12 Write before r 1) = Err e) /\
  (exists e, ate_from_file qops T loc counted (ate_interrupted qops T show12 Write before a 1) = Err e).
Proof.
  intros Q qops T show12 loc counted before r a M C N. rewrite rpe_stopped, ate_stopped by assumption. cbn [on_disk opened append].
  assert (forall s, take 0 s = "") as -> by (intros []; reflexivity). assert (forall s, take 0 s = "") as -> by (intros []; reflexivity). split; eexists; reflexivity.
Qed.
Print Assumptions C140_lost_refuted.

(** REFUTED: an incomplete file is noticed.  For every number [k] of pairs less than all there is a point at which the file of a
    relative result is read without an error, with the same name and unit and at most [k] pairs, although the numbers of pairs
    are in the header. *)
Theorem C140_rpe_unnoticed_refuted : forall T show12 before (r : rpe) k,
  text_contract T -> format12 T show12 -> matching r -> regular (r_name r) -> used_blocks r <> [] -> r_unit r <> NONE -> (k < rpe_len r)%nat ->
  exists n r', (0 < n)%nat /\ rpe_from_file T (rpe_interrupted T show12 Write before r n) = Ok (Some r') /\ r_name r' = r_name r /\ r_unit r' = r_unit r /\ (rpe_len r' <= k)%nat.
Proof.
  intros T show12 before r k TC FC M RG U UN K. exists (S (row_point T show12 r k)). eexists. split; [apply Nat.lt_0_succ|]. rewrite rpe_stopped by exact M. cbn [on_disk opened append].
  split; [apply (read_at_row T show12 TC FC r k M (regular_one_line _ RG) U UN)|]. cbn [r_name r_unit]. split; [exact RG|]. split; [reflexivity|].
  rewrite pairs_len. cbn [r_blocks]. eapply Nat.le_trans; [apply cut_pairs|]. unfold pairs_in. cbn. lia.
Qed.
Print Assumptions C140_rpe_unnoticed_refuted.

(** For every number [k] of poses there is a point at which the file of an absolute result is read as the first [k] poses and
    deviations, without an error. *)
Theorem C140_ate_unnoticed_refuted : forall Q (ops : rot_ops Q) (qops : quat_ops Q) T show12 loc counted before (r : ate_result Q) k,
  quat_contract ops qops -> text_contract T -> format12 T show12 -> (forall l, length (loc l) = length l) ->
  complete r -> regular (ate_name r) -> ate_name r <> "" -> (0 < k <= length (xyz (ate_trajectory r)))%nat ->
  exists n r', (0 < n)%nat /\ ate_from_file qops T loc counted (ate_interrupted qops T show12 Write before r n) = Ok (Some r') /\ ate_name r' = ate_name r /\
    length (xyz (ate_trajectory r')) = k /\ length (pos_dev r') = k /\
    Forall2 near12 (firstn k (tstamps (ate_trajectory r))) (tstamps (ate_trajectory r')) /\
    Forall2 near12_v3 (firstn k (xyz (ate_trajectory r))) (xyz (ate_trajectory r')) /\
    Forall2 near12_v3 (firstn k (pos_dev r)) (pos_dev r') /\ Forall2 near12_v3 (firstn k (directed_pos_dev r)) (directed_pos_dev r') /\
    near12_rots qops (option_map (firstn k) (rot_dev r)) (rot_dev r').
Proof.
  intros Q ops qops T show12 loc counted before r k QC TC FC LL C RG NN K. assert (xyz (ate_trajectory r) <> []) as NE by (intro E; rewrite E in K; cbn in K; lia).
  destruct (ate_start qops T show12 k r C NE ltac:(lia)) as (text & rest & W1 & W2).
  assert (xyz (ate_trajectory (first_rows k r)) <> []) as NE' by (cbn; destruct k; [lia|]; destruct (xyz (ate_trajectory r)); [congruence|discriminate]).
  destruct (C75_round_trip_partial Q ops qops T show12 loc counted (first_rows k r) QC TC FC LL (first_complete k r C) NE' RG NN) as (text' & r' & W & RD & C' & N1 & _ & A1 & _ & A3 & A4 & A5 & _ & A7 & _).
  rewrite W1 in W. injection W as <-. exists (S (String.length text)), r'. split; [apply Nat.lt_0_succ|]. unfold ate_interrupted. rewrite W2. cbn [on_disk opened append]. rewrite take_all. split; [exact RD|]. split; [exact N1|].
  destruct C as (_ & LP & _). split; [rewrite (forall2_length _ _ _ A3); cbn; rewrite firstn_length; lia|]. split; [rewrite (forall2_length _ _ _ A4); cbn; rewrite firstn_length; lia|]. repeat (split; [assumption|]). exact A7.
Qed.
Print Assumptions C140_ate_unnoticed_refuted.

(** REFUTED: a value that is read was written.  A result with one pair of distance 1 and position deviation 1: at some point
    the file is read as a result with one pair of distance 1 and position deviation 0.1. *)
Definition one_pair : rpe := mkRpeResult "a" [(Some 1, mkBlock [1] [1] [])] METER.
Lemma picos_one : picos 1 = 1000000000000%Z.
Proof. unfold picos. symmetry. apply tech_up; lra. Qed.
Lemma one_pair_text : rpe_to_file fine_text fine_show "" one_pair =
  Ok ("#relative_dist_unit METER" ++ nl ++ "#name a" ++ nl ++ "#num_pairs 1" ++ crlf ++ "pair_distance,pos_dev" ++ nl ++ "1000000000000,1000000000000" ++ nl).
Proof.
  unfold rpe_to_file. assert (rpe_rows one_pair = Ok [[1; 1]]) as -> by reflexivity. cbn [bind fold_right map]. unfold fine_show. rewrite picos_one. reflexivity.
Qed.
Lemma one_pair_matching : matching one_pair.
Proof. split; [repeat constructor|right; repeat constructor]. Qed.
Theorem C140_value_refuted : forall before, exists n r', (0 < n)%nat /\ rpe_from_file fine_text (rpe_interrupted fine_text fine_show Write before one_pair n) = Ok (Some r') /\
  all_dist r' = [1] /\ all_pos one_pair = [1] /\ all_pos r' = [1 / 10].
Proof.
  intros before. exists 97%nat. unfold rpe_interrupted. rewrite one_pair_text. cbn [on_disk opened append].
  match goal with |- context [take 96 ?s] => let v := eval vm_compute in (take 96 s) in assert (take 96 s = v) as -> by (vm_compute; reflexivity) end.
  match goal with |- context [rpe_from_file fine_text ?s] => set (text := s) end.
  unfold rpe_from_file.
  assert (header_from_file fine_text text = Ok [("num_pairs", HStr "1"); ("name", HStr "a"); ("relative_dist_unit", HStr "METER")]) as -> by reflexivity. cbn [bind].
  assert (read_frame text = Ok (["pair_distance"; "pos_dev"], [[Some "1000000000000"; Some "100000000000"]])) as -> by reflexivity. cbn [bind fst snd].
  assert (h_num_pairs fine_text [("num_pairs", HStr "1"); ("name", HStr "a"); ("relative_dist_unit", HStr "METER")] = Ok [1%Z]) as -> by reflexivity. cbn [bind].
  assert (forall nm j, index_of nm ["pair_distance"; "pos_dev"] = Ok j -> (j < 2)%nat -> frame_column fine_text ["pair_distance"; "pos_dev"] [[Some "1000000000000"; Some "100000000000"]] nm = Ok [Fin (if (j =? 0)%nat then IZR 1000000000000 / 10 ^ 12 else IZR 100000000000 / 10 ^ 12)]) as FCO.
  { intros nm j E L. unfold frame_column. rewrite E. destruct j as [|[|j]]; [reflexivity|reflexivity|lia]. }
  eexists. split; [lia|]. split.
  { cbn [read_blocks]. change (firstn (Z.to_nat 1) [[Some "1000000000000"; Some "100000000000"]]) with [[Some "1000000000000"; Some "100000000000"]].
    rewrite (FCO "pair_distance" 0%nat eq_refl), (FCO "pos_dev" 1%nat eq_refl) by lia. cbn [bind Nat.eqb]. change (member "rot_dev" ["pair_distance"; "pos_dev"]) with false. cbv iota. cbn [bind map finite all_some put].
    reflexivity. }
  unfold all_dist, all_pos, blocks. cbn [r_blocks map snd b_dist b_pos concat app one_pair]. split; [f_equal; field|]. split; [reflexivity|]. f_equal. field.
Qed.
Print Assumptions C140_value_refuted.

(** The assumptions hold for a result with two blocks and one with two poses and rotation deviations. *)
Definition two_blocks : rpe := mkRpeResult "a vs. b" [(Some 1, mkBlock [1; 1] [2; 3] [1; 2]); (Some 5, mkBlock [5] [4] [3])] SECOND.
Example C140_case : text_contract fine_text /\ format12 fine_text fine_show /\ quat_contract sample_rot_ops sample_quat_ops /\
  matching two_blocks /\ regular (r_name two_blocks) /\ used_blocks two_blocks <> [] /\ r_unit two_blocks <> NONE /\ (2 < rpe_len two_blocks)%nat /\
  complete two_pose_result /\ regular (ate_name two_pose_result) /\ ate_name two_pose_result <> "" /\ (0 < 1 <= length (xyz (ate_trajectory two_pose_result)))%nat /\
  (forall before, exists n r', (0 < n)%nat /\ rpe_from_file fine_text (rpe_interrupted fine_text fine_show Write before two_blocks n) = Ok (Some r') /\ (rpe_len r' < rpe_len two_blocks)%nat).
Proof.
  assert (matching two_blocks) as M by (split; [repeat constructor|left; repeat constructor]).
  split; [apply fine_text_contract|]. split; [apply fine_format|]. split; [apply sample_quat_contract|]. split; [exact M|]. split; [reflexivity|]. split; [discriminate|]. split; [discriminate|]. split; [cbn; lia|].
  destruct C75_case as (_ & _ & _ & CR & _ & RG & NN & _). split; [exact CR|]. split; [exact RG|]. split; [exact NN|]. split; [cbn; lia|].
  intros before. destruct (C140_rpe_unnoticed_refuted fine_text fine_show before two_blocks 2 fine_text_contract fine_format M eq_refl ltac:(discriminate) ltac:(discriminate) ltac:(cbn; lia)) as (n & r' & N & H & _ & _ & L).
  exists n, r'. split; [exact N|]. split; [exact H|]. cbn [two_blocks rpe_len blocks r_blocks map snd fold_right b_dist length Nat.add]. lia.
Qed.
