(** C50: RPE results and their files. *)
From Verif Require Import Base BaseFacts EstModel TextModel TextFacts HeaderModel NumpyModel TrajModel GeomModel IoModel IoSpec IoProps EvalModel EvalProps RpeModel RpeSpec RpeFacts RpeFacts2 RpeFacts3.
Local Open Scope string_scope.

(** What a relative comparison returns has matching lists, at least one pair, and the unit metre or second. *)
Theorem C50_comparison :
  forall (Q : Type) (ops : rot_ops Q) (test ref : traj Q) (s : rel_settings) (c : rpe_result) (r : rpe),
    compare_relative ops test ref s = Ok c -> of_comparison c = Some r ->
    matching r /\ used_blocks r <> [] /\ (r_unit r = METER \/ r_unit r = SECOND) /\ r_name r = name test ++ " vs. " ++ name ref.
Proof. intros Q ops test ref s c r. apply comparison_matching. Qed.
Print Assumptions C50_comparison.

(** num_pairs are the sizes of the blocks that have pairs; they add up to len() and to the number of exported rows. *)
Theorem C50_counts :
  forall r : rpe, matching r ->
    num_pairs r = map (fun b => length (b_dist b)) (used_blocks r) /\
    Forall (fun n => 0 < n)%nat (num_pairs r) /\
    list_sum (num_pairs r) = rpe_len r /\
    exists rows, rpe_rows r = Ok rows /\ length rows = rpe_len r /\
      map (fun row => nth_error row 0) rows = map Some (concat (map b_dist (blocks r))) /\
      map (fun row => nth_error row 1) rows = map Some (concat (map b_pos (blocks r))) /\
      (has_rot_dev r = true -> map (fun row => nth_error row 2) rows = map Some (concat (map b_rot (blocks r)))) /\
      Forall (fun row => length row = if has_rot_dev r then 3 else 2)%nat rows.
Proof.
  intros r M. rewrite num_pairs_used. split; [reflexivity|]. split; [|split].
  - apply Forall_forall. intros n I. apply in_map_iff in I as [b [<- I]]. pose proof (used_nonempty r) as U. rewrite Forall_forall in U.
    specialize (U b I). destruct (b_dist b); [congruence|cbn; lia].
  - unfold used_blocks, rpe_len, list_sum. induction (blocks r) as [|b l IH]; [reflexivity|]. cbn. destruct (b_dist b) eqn:E; cbn; rewrite IH; [reflexivity|]. rewrite E. reflexivity.
  - assert (length (all_dist r) = rpe_len r) as LD.
    { unfold all_dist, rpe_len. induction (blocks r) as [|b l IH]; [reflexivity|]. cbn. rewrite app_length, IH. reflexivity. }
    assert (forall f : block -> list R, Forall (fun b => length (f b) = length (b_dist b)) (blocks r) -> length (concat (map f (blocks r))) = length (all_dist r)) as LF.
    { unfold all_dist. intros f F. induction F as [|b l X F IH]; [reflexivity|]. cbn. rewrite !app_length, IH, X. reflexivity. }
    pose proof (LF b_pos (proj1 M)) as LP. fold (all_pos r) in LP. fold (all_dist r) (all_pos r) (all_rot r).
    unfold rpe_rows. rewrite LP, Nat.eqb_refl. destruct (has_rot_dev r) eqn:HR.
    + pose proof (LF b_rot (matching_rot r M HR)) as LR. fold (all_rot r) in LR. rewrite LR, Nat.eqb_refl. eexists. split; [reflexivity|]. rewrite <- LD.
      clear LF LD. revert LP LR. generalize (all_pos r), (all_rot r). induction (all_dist r) as [|x d IH]; intros [|y p] [|z q] L1 L2; try discriminate.
      * cbn. auto.
      * cbn in L1, L2. injection L1 as L1. injection L2 as L2. destruct (IH p q L1 L2) as (A1 & A2 & A3 & A4 & A5). cbn [zip3r map length]. rewrite A1, A2, A3, (A4 eq_refl). repeat split; auto.
    + eexists. split; [reflexivity|]. rewrite <- LD. clear LF LD. revert LP. generalize (all_pos r). induction (all_dist r) as [|x d IH]; intros [|y p] L1; try discriminate.
      * cbn. repeat split; auto. discriminate.
      * cbn in L1. injection L1 as L1. destruct (IH p L1) as (A1 & A2 & A3 & _ & A5). cbn [zip2 map length]. rewrite A1, A2, A3. repeat split; auto. discriminate.
Qed.
Print Assumptions C50_counts.

(** An exported result is read back: same name, same unit, and exactly the blocks that have pairs, in the same order, with
    values at most half a unit of the twelfth decimal away.  Missing from C50: mean distances that differ by less than the
    resolution of the file (see C50_resolution_refuted), and results with the unit "none" (see C50_unit_refuted). *)
Theorem C50_round_trip_partial :
  forall (T : text_ops) (show12 : R -> string) (r : rpe),
    text_contract T -> format12 T show12 ->
    matching r -> regular (r_name r) -> used_blocks r <> [] -> r_unit r <> NONE -> separated (used_blocks r) ->
    exists text r', rpe_to_file T show12 "" r = Ok text /\ rpe_from_file T text = Ok (Some r') /\
      r_name r' = r_name r /\ r_unit r' = r_unit r /\ Forall2 near_block (used_blocks r) (blocks r') /\
      num_pairs r' = num_pairs r /\ rpe_len r' = rpe_len r.
Proof.
  intros T show12 r TC FC M N U UN S. eexists. eexists. split; [apply written, M|]. split; [exact (read_one_file T show12 TC FC r M (regular_one_line _ N) U UN)|].
  assert (Forall2 near_block (used_blocks r) (map snd (fold_left (put_block T show12) (used_blocks r) []))) as F.
  { rewrite (fold_put T show12 (used_blocks r) (used_nonempty r)).
    - cbn [app]. rewrite map_map. cbn. induction (used_blocks r) as [|b l IH]; [constructor|]. constructor; [apply (read_back_near T show12 FC)|].
      clear - FC. induction l as [|c l IH]; [constructor|]. constructor; [apply (read_back_near T show12 FC)|exact IH].
    - intros b e _ [].
    - intros i j a b A B NE. exact (separated_keys T show12 FC (used_blocks r) i j a b (used_nonempty r) S A B NE). }
  cbn [r_name r_unit]. split; [exact N|]. split; [reflexivity|]. split; [exact F|].
  assert (map (fun b => length (b_dist b)) (used_blocks r) = map (fun b => length (b_dist b)) (map snd (fold_left (put_block T show12) (used_blocks r) []))) as L.
  { clear - F. induction F as [|a b l m [X _] F IH]; [reflexivity|]. cbn. rewrite IH. f_equal. clear - X. induction X; [reflexivity|cbn; congruence]. }
  pose proof (used_nonempty r) as NE. set (r' := mkRpeResult _ _ _). change (map snd _) with (blocks r') in L, F.
  assert (used_blocks r' = blocks r') as UA.
  { clear - F NE. unfold used_blocks at 1. induction F as [|a b l m [X _] F IH]; [reflexivity|]. cbn. inversion NE as [|? ? NA NL]; subst.
    rewrite (IH NL). destruct X; [congruence|reflexivity]. }
  split; [rewrite !num_pairs_used, UA; congruence|].
  assert (forall s, rpe_len s = list_sum (map (fun b => length (b_dist b)) (used_blocks s))) as SU.
  { intro s. unfold used_blocks, rpe_len, list_sum. induction (blocks s) as [|b l IH]; [reflexivity|]. cbn. destruct (b_dist b) eqn:E; cbn; rewrite IH; [reflexivity|]. rewrite E. reflexivity. }
  rewrite !SU, UA. congruence.
Qed.
Print Assumptions C50_round_trip_partial.

(** Two blocks with the same distances: whatever the result is otherwise, at least one block is lost by the file. *)
Theorem C50_collision :
  forall (T : text_ops) (show12 : R -> string) (r : rpe) l a m b n,
    text_contract T -> format12 T show12 ->
    matching r -> regular (r_name r) -> r_unit r <> NONE ->
    used_blocks r = (l ++ a :: m ++ b :: n)%list -> b_dist a = b_dist b ->
    exists text r', rpe_to_file T show12 "" r = Ok text /\ rpe_from_file T text = Ok (Some r') /\
      (length (blocks r') < length (used_blocks r))%nat.
Proof.
  intros T show12 r l a m b n TC FC M N UN E D. eexists. eexists. split; [apply written, M|].
  assert (used_blocks r <> []) as U by (rewrite E; destruct l; discriminate).
  split; [exact (read_one_file T show12 TC FC r M (regular_one_line _ N) U UN)|]. unfold blocks. cbn [r_blocks]. rewrite map_length, E.
  pose proof (used_nonempty r) as NE. rewrite E in NE. rewrite Forall_forall in NE.
  apply fold_collision.
  - apply NE. apply in_or_app. right. right. apply in_or_app. right. left. reflexivity.
  - apply NE. apply in_or_app. right. left. reflexivity.
  - unfold key_of. rewrite D. reflexivity.
Qed.
Print Assumptions C50_collision.

(** Different mean distances are not enough: with numbers rounded to twelve decimals, blocks whose mean distances are
    closer than that are merged. *)
Definition two_close : rpe := mkRpeResult "a" [(Some 0, mkBlock [0] [1] []); (Some 1, mkBlock [1 / 10 ^ 13] [2] [])] METER.
Lemma two_close_matching : matching two_close.
Proof. split; [repeat constructor|right; repeat constructor]. Qed.
Lemma picos_zero : picos 0 = 0%Z.
Proof. unfold picos. symmetry. apply tech_up; cbn; lra. Qed.
Lemma picos_tiny : picos (1 / 10 ^ 13) = 0%Z.
Proof. unfold picos. symmetry. replace (1 / 10 ^ 13 * 10 ^ 12 - 1 / 2) with (-(4 / 10)) by field. apply tech_up; lra. Qed.
Theorem C50_resolution_refuted :
  exists (T : text_ops) (show12 : R -> string) (r : rpe), text_contract T /\ format12 T show12 /\
    matching r /\ regular (r_name r) /\ r_unit r = METER /\
    (forall i j a b, nth_error (used_blocks r) i = Some a -> nth_error (used_blocks r) j = Some b -> i <> j -> mean_distance a <> mean_distance b) /\
    exists text r', rpe_to_file T show12 "" r = Ok text /\ rpe_from_file T text = Ok (Some r') /\
      length (used_blocks r) = 2%nat /\ length (blocks r') = 1%nat.
Proof.
  exists fine_text, fine_show, two_close. split; [apply fine_text_contract|]. split; [apply fine_format|]. split; [apply two_close_matching|].
  split; [reflexivity|]. split; [reflexivity|]. split.
  { intros [|[|[|i]]] [|[|[|j]]] a b A B N; cbn in A, B; try discriminate; try congruence; injection A as <-; injection B as <-; unfold mean_distance; cbn; lra. }
  eexists. eexists. split; [apply written, two_close_matching|].
  split; [apply (read_one_file fine_text fine_show fine_text_contract fine_format two_close two_close_matching); [split; reflexivity|discriminate|discriminate]|].
  split; [reflexivity|]. unfold blocks. cbn [r_blocks]. rewrite map_length.
  assert ((length (fold_left (put_block fine_text fine_show) (used_blocks two_close) []) < 2)%nat) as L.
  { apply (fold_collision fine_text fine_show [] [] [] (mkBlock [0] [1] []) (mkBlock [1 / 10 ^ 13] [2] [])); [discriminate|discriminate|].
    unfold key_of. cbn [map b_dist length]. f_equal. f_equal. unfold rd12, fine_show. rewrite picos_zero, picos_tiny. reflexivity. }
  destruct (fold_keeps fine_text fine_show [mkBlock [1 / 10 ^ 13] [2] []] (put_block fine_text fine_show [] (mkBlock [0] [1] []))
             (np_mean (map (rd12 fine_text fine_show) [0]), read_back fine_text fine_show (mkBlock [0] [1] []))) as [e [I _]]; [left; reflexivity|].
  change (In e (fold_left (put_block fine_text fine_show) (used_blocks two_close) [])) in I.
  destruct (fold_left (put_block fine_text fine_show) (used_blocks two_close) []) as [|x [|y t]]; [destruct I|reflexivity|cbn in L; lia].
Qed.
Print Assumptions C50_resolution_refuted.

(** A result with the unit "none" is written, but reading the file raises ValueError. *)
Theorem C50_unit_refuted :
  forall (T : text_ops) (show12 : R -> string) (r : rpe),
    text_contract T -> format12 T show12 -> matching r -> regular (r_name r) -> used_blocks r <> [] -> r_unit r = NONE ->
    exists text, rpe_to_file T show12 "" r = Ok text /\ rpe_from_file T text = Err ValueError.
Proof.
  intros T show12 r TC FC M N U UN. eexists. split; [apply written, M|]. exact (read_none T show12 TC FC r M (regular_one_line _ N) U UN).
Qed.
Print Assumptions C50_unit_refuted.

(** Mode "a", the default: when a second result with the same numbers of pairs is written to the same file, reading returns
    the blocks of the first under the name and unit of the second. *)
Theorem C50_append_refuted :
  forall (T : text_ops) (show12 : R -> string) (r s : rpe),
    text_contract T -> format12 T show12 -> matching r -> matching s -> regular (r_name r) -> regular (r_name s) ->
    used_blocks r <> [] -> r_unit s <> NONE -> separated (used_blocks r) -> num_pairs r = num_pairs s ->
    has_rot_dev r = has_rot_dev s ->
    exists first both r', rpe_to_file T show12 "" r = Ok first /\ rpe_to_file T show12 first s = Ok both /\
      rpe_from_file T both = Ok (Some r') /\ r_name r' = r_name s /\ r_unit r' = r_unit s /\
      Forall2 near_block (used_blocks r) (blocks r').
Proof.
  intros T show12 r s TC FC M M' N N' U UN S E H. eexists. eexists. eexists. split; [apply written, M|]. split; [apply written, M'|].
  split.
  { cbn [append]. apply (read_two_files T show12 TC FC r s M M' (regular_one_line _ N) (regular_one_line _ N')); try assumption.
    - intro X. apply U. assert (map (fun b => length (b_dist b)) (used_blocks r) = []) as Y.
      { rewrite <- num_pairs_used, E, num_pairs_used, X. reflexivity. } destruct (used_blocks r); [reflexivity|discriminate].
    - rewrite H. destruct (has_rot_dev s); reflexivity. }
  cbn [r_name r_unit]. split; [exact N'|]. split; [reflexivity|].
  unfold blocks. cbn [r_blocks]. rewrite (fold_put T show12 (used_blocks r) (used_nonempty r)).
  - cbn [app]. rewrite map_map. cbn. clear - FC. induction (used_blocks r) as [|b l IH]; [constructor|]. constructor; [apply (read_back_near T show12 FC)|exact IH].
  - intros b e _ [].
  - intros i j a b A B NE. exact (separated_keys T show12 FC (used_blocks r) i j a b (used_nonempty r) S A B NE).
Qed.
Print Assumptions C50_append_refuted.

(** The position and rotation drifts are reported per block that has pairs, in percent or degrees per 100 m for metres. *)
Theorem C50_metrics :
  forall (r : rpe) (f : list R -> R), matching r ->
    let factor := match r_unit r with METER => 100 | _ => 1 end in
    pos_dev_of f r = map (fun b => f (b_pos b) * factor) (used_blocks r) /\
    mean_pair_distances r = map (fun b => mean_distance b) (used_blocks r) /\
    (has_rot_dev r = true -> rot_dev_of f r = map (fun b => f (b_rot b) * factor) (used_blocks r)) /\
    (has_rot_dev r = false -> rot_dev_of f r = []).
Proof.
  intros r f M factor. assert (drift_factor r = factor) as DF by (unfold drift_factor, factor; destruct (r_unit r); reflexivity).
  assert (forall (key : block -> list R) g k, Forall (fun b => length (key b) = length (b_dist b)) (blocks r) ->
    compute_metric key g k r = map (fun b => g (key b) * k) (used_blocks r)) as CM.
  { intros key g k F. unfold compute_metric, used_blocks. clear M. induction F as [|b l L F IH]; [reflexivity|]. cbn [map filter].
    destruct (b_dist b) eqn:D, (key b) eqn:K; try discriminate; cbn [filled].
    - exact IH.
    - cbn [map]. rewrite IH, K. reflexivity. }
  split; [unfold pos_dev_of; rewrite DF; apply CM, (proj1 M)|]. split.
  - unfold mean_pair_distances. rewrite CM by (apply Forall_forall; reflexivity). apply map_ext_in. intros b I.
    pose proof (used_nonempty r) as U. rewrite Forall_forall in U. specialize (U b I). unfold mean1, on_filled, np_mean, mean_distance.
    destruct (b_dist b) eqn:D; [congruence|]. lra.
  - split; intro H; unfold rot_dev_of; rewrite H; [|reflexivity]. rewrite DF. apply CM, (matching_rot r M H).
Qed.
Print Assumptions C50_metrics.

(** A result with two blocks that meets the hypotheses of the theorems *)
Definition two_blocks : rpe :=
  mkRpeResult "a vs. b" [(Some 1, mkBlock [1; 3] [4; 5] [6; 7]); (Some 2, mkBlock [] [] []); (Some 3, mkBlock [9] [8] [7])] METER.
Example C50_case :
  matching two_blocks /\ regular (r_name two_blocks) /\ used_blocks two_blocks <> [] /\ r_unit two_blocks <> NONE /\ separated (used_blocks two_blocks) /\
  num_pairs two_blocks = [2; 1]%nat /\ has_rot_dev two_blocks = true /\ text_contract fine_text /\ format12 fine_text fine_show.
Proof.
  split; [split; [repeat constructor|left; repeat constructor]|]. split; [reflexivity|]. split; [discriminate|]. split; [discriminate|]. split.
  { intros [|[|[|i]]] [|[|[|j]]] a b A B N; cbn in A, B; try discriminate; try congruence; injection A as <-; injection B as <-; unfold mean_distance; cbn.
    - rewrite Rabs_left; lra.
    - rewrite Rabs_pos_eq; lra. }
  split; [reflexivity|]. split; [reflexivity|]. split; [apply fine_text_contract|apply fine_format].
Qed.

(** Two pair distances that are met by the same pair of poses, as in a comparison of two poses one metre apart *)
Example C50_collision_case :
  let r := mkRpeResult "a vs. b" [(Some (1 / 4), mkBlock [1] [4] []); (Some (9 / 20), mkBlock [1] [4] [])] METER in
  matching r /\ used_blocks r = ([] ++ mkBlock [1] [4] [] :: [] ++ mkBlock [1] [4] [] :: [])%list.
Proof. split; [split; [repeat constructor|right; repeat constructor]|reflexivity]. Qed.
