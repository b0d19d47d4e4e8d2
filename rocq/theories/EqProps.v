(** Comparing trajectories and results with [==], and the summary of a relative comparison: properties C88 to C90. *)
From Verif Require Import Base BaseFacts EstModel TextModel HeaderModel NumpyModel TrajModel TrajSpec ParamModel GeomModel IoModel EvalModel RpeModel RpeSpec.
From Verif Require Import EqModel EqSpec EqFacts EqFacts2.

(** * C88 Comparing trajectories *)

(** For trajectories with the same number of poses the answer is exact: the names are the same, both or none have
    orientations, and the poses agree pairwise within numpy's tolerances. *)
Theorem C88_partial : forall Q (quat : Q -> V4) (t u : traj Q), consistent t -> consistent u -> tlen t = tlen u ->
  exists b, traj_eq quat t u = Ok b /\
    (b = true <-> name t = name u /\ (rot t = None <-> rot u = None) /\
       forall i p q, pose_at t i = Some p -> pose_at u i = Some q -> close_pose quat p q).
Proof. intros. now apply traj_eq_exact. Qed.
Print Assumptions C88_partial.

Theorem C88_reflexive : forall Q (quat : Q -> V4) (t : traj Q), traj_eq quat t t = Ok true.
Proof. intros. apply traj_eq_refl. Qed.
Print Assumptions C88_reflexive.

(** Trajectories with different numbers of poses are not unequal: comparing them raises, unless one has a single pose. *)
Theorem C88_refuted_raises : forall Q (quat : Q -> V4) (t u : traj Q), consistent t -> consistent u ->
  tlen t <> tlen u -> tlen t <> 1%nat -> tlen u <> 1%nat -> traj_eq quat t u = Err ValueError.
Proof. intros. now apply traj_eq_lengths. Qed.
Print Assumptions C88_refuted_raises.

Definition still (n : string) (ts : list R) : traj V4 :=
  mkTraj ts (map (fun _ => mkV3 1 2 3) ts) (Some (map (fun _ => mkV4 0 0 0 1) ts)) (map (fun _ => 0) ts) (map (fun _ => vzero) ts) SortTime n 0.
Lemma still_consistent n ts : consistent (still n ts).
Proof. unfold consistent, still. cbn. rewrite !map_length. auto. Qed.

(** A trajectory with one pose and one with two poses can be equal. *)
Theorem C88_refuted_length : exists t u : traj V4, consistent t /\ consistent u /\ tlen t <> tlen u /\
  traj_eq (fun q => q) t u = Ok true /\ traj_eq (fun q => q) u t = Ok true.
Proof.
  exists (still "car" [10 ^ 9]), (still "car" [10 ^ 9; 10 ^ 9 + 1]).
  split; [apply still_consistent|]. split; [apply still_consistent|]. split; [discriminate|].
  assert (A : np_isclose (10 ^ 9) (10 ^ 9 + 1) = true) by (apply np_isclose_iff, close_delay; [lra|rewrite Rabs_pos_eq; lra]).
  assert (B : np_isclose (10 ^ 9 + 1) (10 ^ 9) = true).
  { apply np_isclose_iff. replace (10 ^ 9) with (10 ^ 9 + 1 + -1) at 2 by ring. apply close_delay; [lra|rewrite Rabs_left; lra]. }
  unfold traj_eq, still. cbn [rot xyz tstamps arc speed name map].
  unfold np_allclose, broadcast. cbn [length Nat.eqb map quat_values v3_entries scalar combine forallb fst snd q_x q_y q_z q_w vx vy vz vzero bind and_then].
  rewrite !A, !B, !np_isclose_refl. cbn [andb forallb bind and_then]. rewrite String.eqb_refl. auto.
Qed.
Print Assumptions C88_refuted_length.

(** Time stamps in seconds since 1970 may differ by two and a half hours. *)
Theorem C88_refuted_time : forall Q (quat : Q -> V4) (t : traj Q) (d : R),
  Forall (fun x => 10 ^ 9 <= x) (tstamps t) -> Rabs d <= 9000 -> traj_eq quat t (delayed d t) = Ok true.
Proof. intros. now apply traj_eq_delayed. Qed.
Print Assumptions C88_refuted_time.

(** The order of the operands matters. *)
Theorem C88_refuted_symmetric : exists t u : traj V4, consistent t /\ consistent u /\ tlen t = tlen u /\
  traj_eq (fun q => q) t u = Ok true /\ traj_eq (fun q => q) u t = Ok false.
Proof.
  set (x := 1000005 / 10 ^ 14). exists (still "car" [0]), (still "car" [x]).
  split; [apply still_consistent|]. split; [apply still_consistent|]. split; [reflexivity|].
  assert (A : np_isclose 0 x = true).
  { apply np_isclose_iff. unfold close. replace (0 - x) with (- x) by ring. rewrite Rabs_Ropp, Rabs_pos_eq; unfold x; lra. }
  assert (B : np_isclose x 0 = false).
  { destruct (np_isclose x 0) eqn:E; auto. exfalso. apply np_isclose_iff in E. unfold close in E.
    rewrite Rminus_0_r, Rabs_R0, Rabs_pos_eq in E by (unfold x; lra). unfold x in E. lra. }
  unfold traj_eq, still. cbn [rot xyz tstamps arc speed name map].
  unfold np_allclose, broadcast. cbn [length Nat.eqb map quat_values v3_entries scalar combine forallb fst snd q_x q_y q_z q_w vx vy vz vzero bind and_then].
  rewrite A, B, !np_isclose_refl. cbn [andb forallb bind and_then]. rewrite String.eqb_refl. auto.
Qed.
Print Assumptions C88_refuted_symmetric.

(** The same orientations given by quaternions of opposite sign are unequal. *)
Theorem C88_refuted_orientation : exists t u : traj V4,
  u = set_rot (Some [mkV4 0 0 0 (-1)]) t /\ rot t = Some [mkV4 0 0 0 1] /\
  quat_matrix (mkV4 0 0 0 (-1)) = quat_matrix (mkV4 0 0 0 1) /\ traj_eq (fun q => q) t u = Ok false.
Proof.
  exists (still "car" [0]), (set_rot (Some [mkV4 0 0 0 (-1)]) (still "car" [0])). split; [reflexivity|]. split; [reflexivity|]. split.
  - unfold quat_matrix. cbn. f_equal; f_equal; ring.
  - assert (B : np_isclose 1 (-1) = false).
    { destruct (np_isclose 1 (-1)) eqn:E; auto. exfalso. apply np_isclose_iff in E. unfold close in E.
      rewrite Rabs_pos_eq, Rabs_left in E by lra. lra. }
    unfold traj_eq, still, set_rot. cbn [rot xyz tstamps arc speed name map].
    unfold np_allclose, broadcast. cbn [length Nat.eqb map quat_values v3_entries scalar combine forallb fst snd q_x q_y q_z q_w vx vy vz vzero bind and_then].
    rewrite B, !np_isclose_refl. reflexivity.
Qed.
Print Assumptions C88_refuted_orientation.

Example C88_case : consistent (still "car" [0; 1; 2]) /\ consistent (still "car" [0; 1]) /\
  tlen (still "car" [0; 1; 2]) <> tlen (still "car" [0; 1]) /\ tlen (still "car" [0; 1; 2]) <> 1%nat /\ tlen (still "car" [0; 1]) <> 1%nat /\
  tlen (still "car" [0; 1; 2]) = tlen (still "bus" [4; 5; 6]) /\ Forall (fun x => 10 ^ 9 <= x) (tstamps (still "car" [10 ^ 9; 10 ^ 9 + 1])).
Proof.
  split; [apply still_consistent|]. split; [apply still_consistent|]. repeat split; try discriminate.
  cbn. repeat constructor; lra.
Qed.

(** * C89 Comparing results *)

(** Alignment results that agree are equal; results that do not agree are never unequal: comparing them raises. *)
Theorem C89_partial : forall a b,
  shaped 11 (position_parameters a) -> shaped 11 (position_parameters b) ->
  shaped 3 (rotation_parameters a) -> shaped 3 (rotation_parameters b) ->
  (same_result a b -> result_eq a b = Ok true) /\ (~ same_result a b -> result_eq a b = Err AssertionError).
Proof. exact result_eq_exact. Qed.
Print Assumptions C89_partial.

(** Neither comparison ever answers False. *)
Theorem C89_refuted : forall (show : R -> string) (str_nat : nat -> string),
  (forall a b, result_eq a b <> Ok false) /\ (forall a b, rpe_eq show str_nat a b <> Ok false) /\
  (forall a b, compared a -> compared b -> rpe_eq show str_nat a b = Ok true \/ rpe_eq show str_nat a b = Err AssertionError).
Proof.
  intros show str_nat. split; [exact result_eq_never_false|]. split; [exact (rpe_eq_never_false show str_nat)|].
  exact (rpe_eq_outcome show str_nat).
Qed.
Print Assumptions C89_refuted.

(** Every relative comparison equals itself, and it equals the same comparison without its orientation deviations. *)
Theorem C89_refuted_rotations : forall (show : R -> string) (str_nat : nat -> string) (r : rpe), compared r ->
  rpe_eq show str_nat r r = Ok true /\
  rpe_eq show str_nat r (without_rotations r) = Ok true /\ rpe_eq show str_nat (without_rotations r) r = Ok true.
Proof. intros show str_nat r C. split; [now apply rpe_eq_refl|now apply rpe_eq_rotations]. Qed.
Print Assumptions C89_refuted_rotations.

Definition sample_rpe : rpe :=
  mkRpeResult "car" [(Some 10, mkBlock [10; 11] [1 / 10; 2 / 10] [1 / 100; 2 / 100]); (Some 20, mkBlock [20] [3 / 10] [1 / 100])] METER.

Example C89_case : shaped 11 default_alignment /\ shaped 3 default_sensor /\ compared sample_rpe /\ has_rot_dev sample_rpe = true /\
  (let e := est_all true true in
   same_result (mkResult default_alignment default_sensor e true) (mkResult default_alignment default_sensor e true) /\
   ~ same_result (mkResult default_alignment default_sensor e true) (mkResult default_alignment default_sensor (est_all false true) true)).
Proof.
  split; [repeat split|]. split; [repeat split|]. split; [exists (mkBlock [20] [3 / 10] [1 / 100]); split; [right; left; reflexivity|discriminate]|].
  split; [reflexivity|]. cbn zeta. split.
  - unfold same_result. repeat split; cbn [position_parameters rotation_parameters];
      try (intros i x y X Y; rewrite X in Y; injection Y as <-; apply close_refl). intros. apply close_refl.
  - intros [_ [_ [_ E]]]. discriminate E.
Qed.

(** * C90 The summary of a relative comparison *)

(** If the distances are displayed differently, the summary has a line with the average drift for every distance, and one
    with the average orientation drift where there are orientations. *)
Theorem C90_partial : forall (show : R -> string) (str_nat : nat -> string) (r : rpe), matching r -> compared r -> displayed_apart show r ->
  exists d, property_dict show str_nat r = Ok d /\ NoDup (map fst d) /\
    (forall b, In b (blocks r) -> b_dist b <> [] -> In (drift_line show r b) d) /\
    (forall b, In b (blocks r) -> b_rot b <> [] -> In (rotation_line show r b) d).
Proof. exact summary_lines. Qed.
Print Assumptions C90_partial.

(** If two distances are displayed alike, one of the two lines is lost, whatever its drift. *)
Theorem C90_refuted : forall (show : R -> string) (str_nat : nat -> string) (x y p q : R),
  show x = show y -> (show (p * 100) <> show (q * 100))%string ->
  let a := mkBlock [x] [p] [] in let b := mkBlock [y] [q] [] in
  let r := mkRpeResult "car" [(Some 1, a); (Some 2, b)] METER in
  exists d, property_dict show str_nat r = Ok d /\ In (drift_line show r b) d /\ ~ In (drift_line show r a) d.
Proof.
  intros show str_nat x y p q E N a b r.
  assert (AV : forall z, average [z] = z) by (intro z; unfold average; cbn; field).
  assert (DA : drift_line show r a = ("Average position drift at " ++ show x ++ " (avg) m", show (p * 100) ++ " %")%string).
  { unfold drift_line, a, r. cbn [r_unit b_dist b_pos]. rewrite !AV. reflexivity. }
  assert (DB : drift_line show r b = ("Average position drift at " ++ show x ++ " (avg) m", show (q * 100) ++ " %")%string).
  { unfold drift_line, b, r. cbn [r_unit b_dist b_pos]. rewrite !AV, E. reflexivity. }
  assert (CP : compared r) by (exists a; split; [left; reflexivity|discriminate]).
  destruct (property_shape show str_nat r CP) as (sp & KS & P1 & _). eexists. split; [exact (P1 eq_refl)|].
  assert (DY : dynamic_pos_dict show r = [drift_line show r b]).
  { rewrite DB. unfold dynamic_pos_dict, r, a, b, mean_pair_distances, pos_dev_of, compute_metric. cbn [blocks r_blocks map snd filter b_dist b_pos filled].
    unfold drift_factor, pair_distance_unit_str, pos_drift_unit. cbn [r_unit is_meter].
    assert (MV : forall z, mean1 [z] = z) by (intro z; unfold mean1, on_filled, np_mean, np_sum; cbn; field).
    rewrite !MV, !Rmult_1_r. cbn [combine map fst snd]. rewrite <- E. unfold dict_update. cbn [fold_left dict_set fst snd].
    rewrite String.eqb_refl. reflexivity. }
  rewrite DY. split; [apply in_or_app; right; apply in_or_app; left; left; reflexivity|].
  intro I. apply in_app_or in I as [I|I].
  - rewrite DA in I. destruct I as [I|[I|[I|[]]]]; discriminate (f_equal fst I).
  - apply in_app_or in I as [[I|[]]|I].
    + rewrite DA, DB in I. apply (f_equal snd) in I. cbn [snd] in I. apply append_inj_r in I. congruence.
    + apply (in_map fst) in I. rewrite KS, DA in I. destruct I as [I|[I|[I|[I|[]]]]]; discriminate I.
Qed.
Print Assumptions C90_refuted.

(** Without any pair the summary raises. *)
Theorem C90_refuted_empty : forall (show : R -> string) (str_nat : nat -> string) (r : rpe), ~ compared r ->
  property_dict show str_nat r = Err ValueError.
Proof. exact property_none. Qed.
Print Assumptions C90_refuted_empty.

Definition show_sample (x : R) : string := if Rltb x 15 then "10.500" else if Rltb x 25 then "20.000" else "30.000".
Example C90_case : matching sample_rpe /\ compared sample_rpe /\ displayed_apart show_sample sample_rpe /\
  show_sample 10 = show_sample 11 /\ show_sample (1 / 10 * 100) <> show_sample (3 / 10 * 100) /\
  ~ compared (mkRpeResult "car" [] METER).
Proof.
  split; [split; [repeat constructor|left; repeat constructor]|].
  split; [exists (mkBlock [20] [3 / 10] [1 / 100]); split; [right; left; reflexivity|discriminate]|].
  assert (S1 : forall x, x < 15 -> show_sample x = "10.500"%string) by (intros x H; unfold show_sample; rewrite (proj2 (Rltb_true _ _)); auto).
  assert (S2 : forall x, 15 <= x < 25 -> show_sample x = "20.000"%string).
  { intros x H; unfold show_sample; rewrite (proj2 (Rltb_false _ _)) by lra. rewrite (proj2 (Rltb_true _ _)) by lra. reflexivity. }
  assert (S3 : forall x, 25 <= x -> show_sample x = "30.000"%string).
  { intros x H; unfold show_sample; rewrite !(proj2 (Rltb_false _ _)) by lra. reflexivity. }
  split; [|split; [|split]].
  - unfold displayed_apart, used_blocks, sample_rpe, blocks. cbn [r_blocks map snd filter b_dist filled]. unfold average. cbn [fold_right length INR].
    rewrite S1 by lra. rewrite S2 by lra. repeat constructor; simpl; intuition discriminate.
  - rewrite !S1 by lra. reflexivity.
  - rewrite S1, S3 by lra. discriminate.
  - intros [b [[] _]].
Qed.
