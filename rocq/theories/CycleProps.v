(** C156: saving and loading repeatedly. *)
From Verif Require Import Base BaseFacts EstModel TextModel TextFacts HeaderModel NumpyModel TrajModel TrajSpec GeomModel GeomSpec IoModel IoSpec IoFacts IoFacts2 IoFacts3 IoFacts4 IoProps CycleSpec CycleFacts.
From Coq Require Import DecimalString.
Local Open Scope string_scope.

(** A trajectory with poses and a regular name can be saved and loaded any number of times. *)
Theorem C156_exists : forall Q (ops : rot_ops Q) (qops : quat_ops Q) T C loc counted (t : traj Q) k,
  text_contract T -> quat_contract ops qops -> consistent t -> xyz t <> [] -> regular (name t) -> name t <> "" ->
  exists b, reloaded ops qops T C loc counted k t b.
Proof. intros Q ops qops T C loc counted t k TC QC. apply reload_total; assumption. Qed.
Print Assumptions C156_exists.

(** Part: everything but orientations changes at the first reading only, by at most 5e-10, however often the file is written and read.
    Missing: orientations, see below. *)
Theorem C156_values_partial : forall Q (ops : rot_ops Q) (qops : quat_ops Q) T C loc counted (t a b : traj Q) k,
  text_contract T -> quat_contract ops qops -> repeatable T -> consistent t -> xyz t <> [] -> regular (name t) -> name t <> "" ->
  reloaded ops qops T C loc counted 1 t a -> reloaded ops qops T C loc counted (S k) t b ->
  tstamps b = tstamps a /\ xyz b = xyz a /\ arc b = arc a /\ speed b = speed a /\ srt b = srt a /\ epsg b = epsg t /\ name b = name t /\
  (rot b = None <-> rot t = None) /\ consistent b /\
  Forall2 near (tstamps t) (tstamps b) /\ Forall2 near_v3 (xyz t) (xyz b) /\ Forall2 near (arc t) (arc b) /\ Forall2 near_v3 (speed t) (speed b).
Proof.
  intros Q ops qops T C loc counted t a b k TC QC RP CT N RG NN A B.
  destruct (reload_values ops qops T TC QC RP C loc counted 0 t a CT N RG NN A) as (A1 & A2 & A3 & A4 & A5 & A6 & A7 & A8 & A9).
  destruct (reload_values ops qops T TC QC RP C loc counted k t b CT N RG NN B) as (B1 & B2 & B3 & B4 & B5 & B6 & B7 & B8 & B9).
  repeat (split; [congruence || assumption|]). rewrite B2, B3, B4, B5.
  repeat split; apply near_map || apply near_map3; assumption.
Qed.
Print Assumptions C156_values_partial.

(** Without orientations: the file that is written is the same one every time, and so is the trajectory that is read. *)
Theorem C156_file : forall Q (ops : rot_ops Q) (qops : quat_ops Q) T C loc counted (t b : traj Q) k,
  text_contract T -> quat_contract ops qops -> repeatable T -> consistent t -> xyz t <> [] -> regular (name t) -> name t <> "" -> rot t = None ->
  reloaded ops qops T C loc counted k t b ->
  to_file qops T "" b = to_file qops T "" t /\ (forall a, reloaded ops qops T C loc counted 1 t a -> k <> 0%nat -> b = a).
Proof.
  intros Q ops qops T C loc counted t b k TC QC RP CT N RG NN RN B. split; [eapply rewritten; eassumption|].
  intros a A K. destruct k as [|k]; [congruence|].
  destruct (C156_values_partial Q ops qops T C loc counted t a b k TC QC RP CT N RG NN A B) as (E1 & E2 & E3 & E4 & E5 & E6 & E7 & E8 & _).
  destruct (C156_values_partial Q ops qops T C loc counted t a a 0 TC QC RP CT N RG NN A A) as (_ & _ & _ & _ & _ & D6 & D7 & D8 & _).
  destruct a as [a1 a2 a3 a4 a5 a6 a7 a8], b as [b1 b2 b3 b4 b5 b6 b7 b8]. cbn in *. f_equal; try congruence.
  apply proj2 in E8, D8. rewrite E8, D8 by exact RN. reflexivity.
Qed.
Print Assumptions C156_file.

(** Part: orientations move by at most 1.5e-9 per component each time. *)
Theorem C156_drift_partial : forall Q (ops : rot_ops Q) (qops : quat_ops Q) T C loc counted (t b : traj Q) qs k,
  text_contract T -> quat_contract ops qops -> consistent t -> xyz t <> [] -> regular (name t) -> name t <> "" -> rot t = Some qs ->
  reloaded ops qops T C loc counted k t b ->
  exists qs', rot b = Some qs' /\ Forall2 (fun q q' => off_by (INR k * (15 / 10 ^ 10)) (as_quat qops q) (as_quat qops q')) qs qs'.
Proof. intros Q ops qops T C loc counted t b qs k TC QC. apply drifts; assumption. Qed.
Print Assumptions C156_drift_partial.

Lemma nanos_is z x : IZR z - 1 / 2 <= x * 10 ^ 9 < IZR z + 1 / 2 -> nanos x = z.
Proof.
  intros [A B]. unfold nanos. symmetry. apply tech_up; lra.
Qed.
Lemma sample_rd x : rd sample_text x = IZR (nanos x) / 10 ^ 9.
Proof.
  unfold rd. cbn [number show9 sample_text]. pose proof (read_shown (nanos x)) as H.
  destruct (NilZero.int_of_string (NilZero.string_of_int (Z.to_int (nanos x)))) as [i|]; [|discriminate].
  cbn in *. injection H as ->. reflexivity.
Qed.
Lemma sample_repeatable : repeatable sample_text.
Proof.
  intros x y E. pose proof (sample_rd x) as D. unfold rd in D. rewrite E in D. subst y.
  cbn [show9 sample_text]. do 2 f_equal. apply nanos_is.
  replace (IZR (nanos x) / 10 ^ 9 * 10 ^ 9) with (IZR (nanos x)) by field. lra.
Qed.

Example C156_case : text_contract sample_text /\ quat_contract sample_rot_ops sample_quat_ops /\ repeatable sample_text /\
  consistent sample_traj /\ xyz sample_traj <> [] /\ regular (name sample_traj) /\ name sample_traj <> "" /\ (exists qs, rot sample_traj = Some qs) /\
  forall C loc counted k, exists a b, reloaded sample_rot_ops sample_quat_ops sample_text C loc counted 1 sample_traj a /\
    reloaded sample_rot_ops sample_quat_ops sample_text C loc counted (S k) sample_traj b.
Proof.
  assert (CT : consistent sample_traj) by (repeat split; reflexivity).
  assert (N : xyz sample_traj <> []) by discriminate. assert (RG : regular (name sample_traj)) by reflexivity. assert (NN : name sample_traj <> "") by discriminate.
  split; [exact sample_text_contract|]. split; [exact sample_quat_contract|]. split; [exact sample_repeatable|]. repeat (split; [assumption|]).
  split; [eexists; reflexivity|]. intros C loc counted k.
  destruct (C156_exists _ sample_rot_ops sample_quat_ops sample_text C loc counted sample_traj 1 sample_text_contract sample_quat_contract CT N RG NN) as [a A].
  destruct (C156_exists _ sample_rot_ops sample_quat_ops sample_text C loc counted sample_traj (S k) sample_text_contract sample_quat_contract CT N RG NN) as [b B].
  exists a, b. auto.
Qed.

(** ** Orientations change again: the quaternion that was read is normalised, and its nine decimals are not those of the file. *)

Definition half_w : R := 92387953745 / 10 ^ 11.
Definition half_x : R := sqrt (1 - half_w * half_w).
Lemma half_x_sq : half_x * half_x = 1 - half_w * half_w.
Proof. unfold half_x. apply sqrt_sqrt. unfold half_w. lra. Qed.
Lemma half_x_pos : 0 <= half_x.
Proof. apply sqrt_pos. Qed.
Lemma half_unit : qnorm (mkV4 half_x 0 0 half_w) = 1.
Proof.
  unfold qnorm. cbn [q_x q_y q_z q_w]. replace (half_x * half_x + 0 * 0 + 0 * 0 + half_w * half_w) with 1; [apply sqrt_1|]. rewrite half_x_sq. ring.
Qed.
Definition tilted : traj uquat := mkTraj [1] [mkV3 1 2 3] (Some [exist _ (mkV4 half_x 0 0 half_w) half_unit]) [0] [vzero] SortTime "tilted" 4326.

Lemma between x a b : 0 <= x -> 0 <= a -> 0 <= b -> a * a <= x * x < b * b -> a <= x < b.
Proof. intros X A B [L U]. split; nra. Qed.

Theorem C156_orientation_refuted : forall C loc counted, exists a b q r,
  reloaded sample_rot_ops sample_quat_ops sample_text C loc counted 1 tilted a /\
  reloaded sample_rot_ops sample_quat_ops sample_text C loc counted 2 tilted b /\
  rot a = Some [q] /\ rot b = Some [r] /\ as_quat sample_quat_ops q <> as_quat sample_quat_ops r.
Proof.
  intros C loc counted.
  assert (CT : consistent tilted) by (repeat split; reflexivity).
  assert (N : xyz tilted <> []) by discriminate. assert (RG : regular (name tilted)) by reflexivity. assert (NN : name tilted <> "") by discriminate.
  destruct (C156_exists _ sample_rot_ops sample_quat_ops sample_text C loc counted tilted 2 sample_text_contract sample_quat_contract CT N RG NN) as [b B].
  pose proof B as (text & a & W & R & B'). pose proof B' as (text' & b' & W' & R' & E). cbn in E. subst b'.
  assert (A : reloaded sample_rot_ops sample_quat_ops sample_text C loc counted 1 tilted a) by (exists text, a; repeat split; assumption).
  destruct (reload_values _ _ _ sample_text_contract sample_quat_contract sample_repeatable C loc counted 0 tilted a CT N RG NN A) as (CA & _ & XA & _ & _ & _ & _ & _ & NA).
  destruct (read_one _ _ _ sample_text_contract sample_quat_contract C loc counted tilted a text _ CT RG NN eq_refl eq_refl W R) as (q & RQ & AQ).
  destruct (read_one _ _ _ sample_text_contract sample_quat_contract C loc counted a b text' q CA ltac:(congruence) ltac:(congruence) RQ ltac:(rewrite XA; reflexivity) W' R') as (r & RR & AR).
  exists a, b, q, r. repeat (split; [assumption|]). rewrite AR. clear AR RR R' W' B B' A R W RQ CA NA XA.
  set (v := as_quat sample_quat_ops q) in *. clearbody v. subst v.
  cbn [sample_quat_ops as_quat proj1_sig].
  assert (Z0 : rd sample_text 0 = 0) by (rewrite sample_rd, (nanos_is 0) by (cbn; lra); field).
  assert (X0 : rd sample_text half_x = 382683420 / 10 ^ 9).
  { rewrite sample_rd. do 2 f_equal. apply nanos_is.
    assert (3826834195 / 10 ^ 10 <= half_x < 3826834205 / 10 ^ 10); [|lra].
    apply between; try lra; [exact half_x_pos|]. rewrite half_x_sq. unfold half_w. lra. }
  assert (W0 : rd sample_text half_w = 923879537 / 10 ^ 9).
  { rewrite sample_rd. do 2 f_equal. apply nanos_is. unfold half_w. lra. }
  assert (U : rd4 sample_text (mkV4 half_x 0 0 half_w) = mkV4 (382683420 / 10 ^ 9) 0 0 (923879537 / 10 ^ 9)) by (unfold rd4; cbn [q_x q_y q_z q_w]; rewrite Z0, X0, W0; reflexivity).
  rewrite U. set (u := mkV4 (382683420 / 10 ^ 9) 0 0 (923879537 / 10 ^ 9)).
  assert (SQ : qnorm u * qnorm u = (382683420 * 382683420 + 923879537 * 923879537) / 10 ^ 18).
  { unfold qnorm. rewrite sqrt_sqrt; unfold u; cbn [q_x q_y q_z q_w]; lra. }
  assert (NB : 923879536 / 923879537 <= qnorm u < 923879537 / (923879537 + 1 / 2)).
  { apply between; [apply sqrt_pos|lra|lra|]. rewrite SQ. split; lra. }
  assert (NX : 382683420 / (382683420 + 1 / 2) < qnorm u).
  { eapply Rlt_le_trans; [|apply NB]. lra. }
  set (n := qnorm u) in *. clearbody n. assert (P : 0 < n) by lra.
  assert (XI : / n * (382683420 / 10 ^ 9) * 10 ^ 9 = 382683420 / n) by (field; lra).
  assert (WI : / n * (923879537 / 10 ^ 9) * 10 ^ 9 = 923879537 / n) by (field; lra).
  assert (DV : forall f g h, 0 < f -> f * n <= g -> g < h * n -> f <= g / n < h).
  { intros f g h A L M. split; [apply Rmult_le_reg_r with n|apply Rmult_lt_reg_r with n]; try exact P; unfold Rdiv; rewrite Rmult_assoc, Rinv_l by lra; lra. }
  assert (V : rd4 sample_text (qscale (/ n) u) = mkV4 (382683420 / 10 ^ 9) 0 0 (923879538 / 10 ^ 9)).
  { unfold rd4, qscale, u. cbn [q_x q_y q_z q_w]. rewrite Rmult_0_r, Z0. f_equal; rewrite sample_rd; do 2 f_equal; apply nanos_is.
    - rewrite XI. apply DV; lra.
    - rewrite WI. apply DV; lra. }
  rewrite V. set (m := / qnorm _). clearbody m. unfold qscale, u. cbn [q_x q_y q_z q_w]. intro E. injection E as EX EW.
  assert (/ n = m) by lra. subst m. assert (0 < / n) by (apply Rinv_0_lt_compat; exact P). lra.
Qed.
Print Assumptions C156_orientation_refuted.
