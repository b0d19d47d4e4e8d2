(** C141: files of alignment results, also if writing them is interrupted. *)
From Verif Require Import Base BaseFacts EstModel TextModel TextFacts HeaderModel NumpyModel EvalModel ParamModel ParamSpec ParamFacts ParamFacts2 ParamFacts3 ParamProps
  GeomModel IoModel IoFacts TornModel TornFacts StoreModel StoreSpec StoreFacts StoreFacts2 StoreFacts3 StoreFacts4 StoreFacts5 StoreFacts6.
Local Open Scope string_scope.

Lemma near_of_parts fmt r r' : decimal_format 15 fmt -> read_parts fmt r r' -> near_parameters (position_parameters r) (position_parameters r').
Proof.
  intros HF (V & B & [M1 [M2 M]] & _). split; [|split; [exact B|split; [split; assumption|]]].
  - rewrite V. generalize (values (position_parameters r)) as l. induction l as [|x l IH]; constructor; [apply HF|exact IH].
  - intros i j Hi Hj. unfold near15. rewrite M by (cbn in *; congruence). apply HF.
Qed.
Lemma three_of r : whole_result r -> exists a b z, ps_params (rotation_parameters r) = [a; b; z].
Proof. intro W. destruct (three_parameters (rotation_parameters r)) as (a & b & z & E & _); [apply W|apply W|]. eauto. Qed.

(** A result is read as it was saved: the name up to its spaces, the position parameters up to half a unit of the fifteenth
    decimal, the sensor rotation exactly, and the settings that belong to them. *)
Theorem C141_round_trip : forall T show15 show fmt name r, format15 T show15 show fmt -> one_line name -> whole_result r -> shown_exactly T show r ->
  exists r', result_from_text T (result_text show15 show name r) = Ok (Some (join " " (words name), r')) /\
    near_parameters (position_parameters r) (position_parameters r') /\
    values (rotation_parameters r') = values (rotation_parameters r) /\
    enabled_bool_list (rotation_parameters r') = enabled_bool_list (rotation_parameters r) /\
    requested (estimation_of r') = enabled_bool_list (position_parameters r) /\
    (sensor_rotation (estimation_of r') = true <-> In true (enabled_bool_list (rotation_parameters r))).
Proof.
  intros T show15 show fmt name r FC ON WR SE. destruct (three_of r WR) as (a & b & z & PS).
  destruct (whole_text_read T show15 show fmt FC name r ON WR SE a b z PS) as (r' & E & P & V & B). exists r'. split; [exact E|].
  split; [apply (near_of_parts fmt); [apply FC|exact P]|]. split; [exact V|]. split; [exact B|].
  destruct P as (_ & BP & _ & ES). rewrite BP, B in ES. destruct WR as (LP & _ & LR & _).
  set (l := (enabled_bool_list (position_parameters r) ++ enabled_bool_list (rotation_parameters r))%list) in *.
  assert (length (enabled_bool_list (position_parameters r)) = 11%nat) as L11 by (now rewrite flags_length).
  assert (length l = 14%nat) as L14 by (unfold l; now rewrite app_length, !flags_length, LP, LR).
  destruct (proj1 (C67_from_bool_list l) L14) as [e [E' [RQ SN]]]. rewrite ES in E'. injection E' as <-.
  unfold l in RQ, SN. rewrite (firstn_exact 11) in RQ by exact L11. rewrite (skipn_exact 11) in SN by exact L11. auto.
Qed.
Print Assumptions C141_round_trip.

(** Writing a new file is stopped at any point: the file is refused, or the name, all position parameters and the first two
    angles of the sensor rotation are as they were saved.  What is missing: the last angle can be another one, and it can
    be switched on. *)
Theorem C141_stopped_partial : forall T show15 show fmt name r n nm r', format15 T show15 show fmt -> one_line name -> whole_result r -> shown_exactly T show r ->
  result_from_text T (result_interrupted show15 show "" name r n) = Ok (Some (nm, r')) ->
  nm = join " " (words name) /\ near_parameters (position_parameters r) (position_parameters r') /\
  firstn 2 (values (rotation_parameters r')) = firstn 2 (values (rotation_parameters r)) /\
  firstn 2 (enabled_bool_list (rotation_parameters r')) = firstn 2 (enabled_bool_list (rotation_parameters r)) /\
  exists u v w, enabled_bool_list (rotation_parameters r) = [u; v; w] /\
    (enabled_bool_list (rotation_parameters r') = [u; v; w] \/ enabled_bool_list (rotation_parameters r') = [u; v; true]).
Proof.
  intros T show15 show fmt name r n nm r' FC ON WR SE H. destruct (three_of r WR) as (a & b & z & PS).
  destruct n as [|k]; [cbn in H; discriminate|]. unfold result_interrupted, on_disk, opened in H. cbn [append] in H.
  destruct (Nat.le_gt_cases k (before_last show15 show fmt name r a b)) as [K|K].
  - destruct (fresh_refused T show15 show fmt FC name r ON WR a b z PS k K) as [e X]. rewrite X in H. discriminate.
  - destruct (fresh_last T show15 show fmt FC name r ON a b z PS k K) as (p & q & PN & EQ & FL & _).
    destruct (cut_read T show15 show fmt FC name r WR SE a b z PS _ p q PN EQ FL) as [(X & _)|(r2 & x & f & E & P & V & B & _ & FE)]; [rewrite X in H; discriminate|].
    rewrite E in H. injection H as <- <-. split; [reflexivity|]. split; [apply (near_of_parts fmt); [apply FC|exact P]|].
    assert (values (rotation_parameters r) = [p_value a; p_value b; p_value z]) as VR by (unfold values; rewrite ps_get_all, PS; reflexivity).
    assert (enabled_bool_list (rotation_parameters r) = [p_enabled a; p_enabled b; p_enabled z]) as BR by (unfold enabled_bool_list; rewrite PS; reflexivity).
    rewrite V, B, VR, BR. split; [reflexivity|]. split; [reflexivity|]. exists (p_enabled a), (p_enabled b), (p_enabled z). split; [reflexivity|].
    destruct (String.eqb q ""); subst f; [left|right]; reflexivity.
Qed.
Print Assumptions C141_stopped_partial.

(** If the last line was not begun, the file is refused. *)
Theorem C141_refused : forall T show15 show fmt name r n, format15 T show15 show fmt -> one_line name -> whole_result r ->
  (forall last, nth_error (result_lines show15 show name r) 14 = Some last ->
     (n + String.length (text_line last) <= S (String.length (result_text show15 show name r)))%nat) ->
  exists e, result_from_text T (result_interrupted show15 show "" name r n) = Err e.
Proof.
  intros T show15 show fmt name r n FC ON WR H. destruct (three_of r WR) as (a & b & z & PS).
  destruct n as [|k]; [exists ValueError; reflexivity|]. unfold result_interrupted, on_disk, opened. cbn [append].
  apply (fresh_refused T show15 show fmt FC name r ON WR a b z PS k).
  specialize (H (join "," (sensor_cells show z))). rewrite (lines_last show15 show fmt name r a b z PS) in H.
  rewrite nth_error_app2 in H by (rewrite (first_length show15 show fmt name r WR a b); lia). rewrite (first_length show15 show fmt name r WR a b), Nat.sub_diag in H.
  specialize (H eq_refl). rewrite (text_split show15 show fmt name r a b z PS), !length_append in H. unfold text_line in H. rewrite length_append in H.
  unfold before_last. lia.
Qed.
Print Assumptions C141_refused.

(** That is all that can be said.  For every result with the last angle switched off there is a point where the file is read
    without an error and the angle is switched on, and with it the estimation of a sensor rotation. *)
Theorem C141_unnoticed_refuted : forall T show15 show fmt name r, format15 T show15 show fmt -> one_line name -> whole_result r -> shown_exactly T show r ->
  nth_error (enabled_bool_list (rotation_parameters r)) 2 = Some false ->
  exists n r', (0 < n <= String.length (result_text show15 show name r))%nat /\
    result_from_text T (result_interrupted show15 show "" name r n) = Ok (Some (join " " (words name), r')) /\
    nth_error (enabled_bool_list (rotation_parameters r')) 2 = Some true /\ sensor_rotation (estimation_of r') = true.
Proof.
  intros T show15 show fmt name r FC ON WR SE OFF. destruct (three_of r WR) as (a & b & z & PS).
  set (bl := before_last show15 show fmt name r a b). set (s := show (p_value z)).
  assert (s <> "") as SN by (apply FC).
  assert (0 < String.length s)%nat as SL by (destruct s; [congruence|cbn; lia]).
  assert (join "," (sensor_cells show z) = s ++ ("," ++ flag_text (p_enabled z))) as EJ by reflexivity.
  assert (bl < bl + String.length s)%nat as K by lia.
  destruct (fresh_last T show15 show fmt FC name r ON a b z PS _ K) as (p & q & PN & EQ & FL & TK).
  fold bl in TK. replace (bl + String.length s - bl)%nat with (String.length s) in TK by lia. rewrite EJ, take_app in TK by lia. rewrite Nat.sub_diag in TK.
  cbn [take] in TK. rewrite append_nil_r in TK.
  assert (q = "," ++ flag_text (p_enabled z)) as QE.
  { rewrite EJ, TK in EQ. clear - EQ. induction s as [|c s IH]; [symmetry; exact EQ|]. cbn in EQ. injection EQ as EQ. exact (IH EQ). }
  destruct (cut_read T show15 show fmt FC name r WR SE a b z PS _ p q PN EQ FL) as [(_ & w & WN & X)|(r2 & x & f & E & P & V & B & _ & FE)].
  { exfalso. fold s in X. rewrite TK in X. apply (f_equal String.length) in X. rewrite length_append in X. destruct w; [congruence|cbn in X; lia]. }
  exists (S (bl + String.length s)), r2. split.
  { split; [lia|]. rewrite (text_split show15 show fmt name r a b z PS), !length_append. fold bl. rewrite EJ, !length_append. cbn. fold bl. lia. }
  split; [exact E|]. rewrite QE in FE. cbn in FE. subst f. rewrite B. split; [reflexivity|].
  destruct P as (_ & BP & _ & ES). rewrite B in ES.
  assert (length (enabled_bool_list (position_parameters r2)) = 11%nat) as L11 by (rewrite BP, flags_length; apply WR).
  assert (length (enabled_bool_list (position_parameters r2) ++ [p_enabled a; p_enabled b; true]) = 14%nat) as L14 by (rewrite app_length, L11; reflexivity).
  destruct (proj1 (C67_from_bool_list _) L14) as [e [E' [_ SNS]]]. rewrite ES in E'. injection E' as <-. rewrite (skipn_exact 11) in SNS by exact L11.
  apply SNS. right. right. left. reflexivity.
Qed.
Print Assumptions C141_unnoticed_refuted.

(** Saving to a file that holds a result, [before], adds to it.  Up to the end of the new name line the old parameters are
    still read, under the old name or the beginning of the new one; from the next character on the file is refused: neither
    result can be read again. *)
Theorem C141_again_refuted : forall T show15 show fmt ls name r n o, format15 T show15 show fmt -> Forall one_line ls -> one_line name -> whole_result r ->
  let before := fold_right (fun l s => text_line l ++ s) "" ls in
  result_from_text T before = Ok o ->
  let read := result_from_text T (result_interrupted show15 show before name r n) in
  (n <= S (String.length (text_line (name_line name))) ->
     exists nm, read = Ok (option_map (fun x => (nm, snd x)) o) /\
       (forall x, o = Some x -> nm = fst x \/ exists u v, name = u ++ v /\ nm = join " " (words u)))%nat /\
  (S (String.length (text_line (name_line name))) < n -> exists e, read = Err e)%nat.
Proof.
  intros T show15 show fmt ls name r n o FC O ON WR before E read.
  assert (before = lines_text ls) as EB by reflexivity. unfold read, result_interrupted, on_disk, opened. rewrite EB in E |- *. split; intro K.
  - destruct n as [|k].
    + exists (match o with Some x => fst x | None => "" end). split; [rewrite E; destruct o as [[? ?]|]; reflexivity|]. intros x ->. left. reflexivity.
    + destruct (again_name T show15 show fmt FC ls O name r ON (proj1 WR) k o) as (nm & R & C); [lia|exact E|]. exists nm. split; [exact R|].
      intros x EX. destruct C as [(y & EY & N)|[C|C]]; [left; congruence|congruence|right; exact C].
  - destruct n as [|k]; [lia|]. apply (again_refused T show15 show fmt FC ls O name r ON (proj1 WR) k o); [lia|exact E].
Qed.
Print Assumptions C141_again_refuted.

(** ** Cases *)
Lemma some_result_whole : whole_result some_result.
Proof. destruct C39_case as (_ & A & B & C & D & E). split; [exact A|]. split; [exact B|]. split; [exact C|]. split; [exact D|exact E]. Qed.
Lemma some_result_shown : shown_exactly exp_text exp_show some_result.
Proof.
  intros x I. apply exp_exact. cbn in I. assert (x = 0) as -> by intuition. rewrite <- (Rmult_0_l (/ 10 ^ 15)). apply (proj2 (round_decimals_format 15) 0%Z).
Qed.

(** The assumptions are met by a result with three position parameters switched on; the sensor rotation is switched off. *)
Example C141_case :
  format15 exp_text exp_show exp_show (round_decimals 15) /\ one_line "my  alignment" /\ whole_result some_result /\ shown_exactly exp_text exp_show some_result /\
  nth_error (enabled_bool_list (rotation_parameters some_result)) 2 = Some false /\
  (exists x, result_from_text exp_text (result_text exp_show exp_show "my  alignment" some_result) = Ok (Some ("my alignment", x))) /\
  (exists n x, result_from_text exp_text (result_interrupted exp_show exp_show "" "my  alignment" some_result n) = Ok (Some ("my alignment", x)) /\
     sensor_rotation (estimation_of x) = true).
Proof.
  assert (one_line "my  alignment") as ON by (split; reflexivity).
  split; [exact exp_format|]. split; [exact ON|]. split; [exact some_result_whole|]. split; [exact some_result_shown|]. split; [reflexivity|]. split.
  - destruct (C141_round_trip _ _ _ _ _ _ exp_format ON some_result_whole some_result_shown) as (r' & E & _). exists r'. exact E.
  - destruct (C141_unnoticed_refuted _ _ _ _ _ _ exp_format ON some_result_whole some_result_shown eq_refl) as (n & r' & _ & E & _ & S). exists n, r'. split; [exact E|exact S].
Qed.
