(** C150: small changes of positions. *)
From Verif Require Import Base BaseFacts VecFacts NumpyModel TrajModel TrajSpec TrajFacts TrajFacts3 TextModel HeaderModel GeomModel GeomSpec GeomFacts TextFacts HeaderFacts IoModel IoSpec IoProps EvalModel EvalSpec EvalFacts EvalFacts4 StabSpec StabFacts StabFacts2.
From Verif Require Import GeomProps.

(** Moving every estimated position by at most [e] and every reference position by at most [d] changes no value of the comparison by
    more than [d + e]; errors of orientations stay the same. *)
Theorem C150_absolute : forall (Q : Type) (ops : rot_ops Q) e d (test test' ref ref' : traj Q) r, 0 <= e -> 0 <= d ->
  consistent test -> consistent test' -> consistent ref -> consistent ref' -> tlen test = tlen ref ->
  shaken e test test' -> shaken d ref ref' -> compare_absolute ops test ref = Ok r ->
  exists r', compare_absolute ops test' ref' = Ok r' /\ positions_within (d + e) r r' /\ rot_dev r' = rot_dev r.
Proof.
  intros Q ops e d test test' ref ref' r E0 D0 C C' D D' L (X & _ & R) (Y & _ & S) E.
  destruct (close_absolute ops e d test test' ref ref' r C C' D D' L X Y E) as (r' & E' & K). exists r'. split; [exact E'|]. split; [apply all_within; [lra|exact K]|].
  unfold compare_absolute in E, E'. rewrite R, S in E'. apply bind_ok in E as (p1 & _ & E). apply bind_ok in E as (p2 & _ & E). apply bind_ok in E as (p3 & RD & E). injection E as <-.
  apply bind_ok in E' as (p1' & _ & E'). apply bind_ok in E' as (p2' & _ & E'). apply bind_ok in E' as (p3' & RD' & E'). injection E' as <-. cbn. congruence.
Qed.
Print Assumptions C150_absolute.

(** Over the same distances, the same pairs are compared, and position drifts change by at most [2 (d + e)] per distance. *)
Theorem C150_relative : forall (Q : Type) (ops : rot_ops Q) d e (test test' ref ref' : traj Q) c r, rot_contract ops ->
  consistent test -> consistent test' -> consistent ref -> consistent ref' ->
  shaken e test test' -> shaken d ref ref' -> (pair_distance_unit c = U_METER -> arc ref' = arc ref) -> compare_relative ops test ref c = Ok r ->
  exists r', compare_relative ops test' ref' c = Ok r' /\ rpe_unit r' = rpe_unit r /\
    Forall2 (fun b b' => fst b' = fst b /\ Forall2 (entry_within (2 * (d + e))) (snd b) (snd b')) (rpe_pairs r) (rpe_pairs r').
Proof. intros Q ops d e test test' ref ref' c r RC C C' D D' ST SR A E. exact (shaken_relative ops d e test test' ref ref' c r RC C C' D D' ST SR A E). Qed.
Print Assumptions C150_relative.

(** Interpolated positions move no further than the positions between which they lie. *)
Theorem C150_interpolation : forall (Q : Type) (seg : Q -> Q -> R -> Q) e (t t' u : traj Q) req, 0 <= e -> consistent t -> consistent t' ->
  strictly_time_sorted t -> (0 < tlen t)%nat -> (rot t = None \/ (2 <= tlen t)%nat) -> shaken e t t' -> interpolate seg t req = Ok u ->
  exists u', interpolate seg t' req = Ok u' /\ shaken e u u'.
Proof. intros Q seg e t t' u req E C C' S L RL SH U. exact (shaken_interpolate seg e t t' u req E C C' S L RL SH U). Qed.
Print Assumptions C150_interpolation.

(** The length of the path changes by at most [2 e] per step. *)
Theorem C150_length : forall (Q : Type) e (t t' : traj Q), 0 <= e -> shaken e t t' ->
  Rabs (path_length (xyz t) - path_length (xyz t')) <= 2 * e * INR (tlen t - 1).
Proof. intros Q e t t' E (X & _ & _). apply close_path; assumption. Qed.
Print Assumptions C150_length.

(** Comparing trajectories that were written to files and read again: no value for positions changes by more than 2 nanometres. *)
Lemma near_close (a b : V3) : near_v3 a b -> vdist a b <= 1 / 10 ^ 9.
Proof.
  intros (X & Y & Z). unfold near in X, Y, Z. unfold vdist. assert (S := vnorm_sq (vsub a b)). unfold vdot in S. cbn [vx vy vz vsub] in S.
  assert (SQ : forall u v, Rabs (v - u) <= 5 / 10 ^ 10 -> (u - v) * (u - v) <= (5 / 10 ^ 10) * (5 / 10 ^ 10)).
  { intros u v H. replace ((u - v) * (u - v)) with (Rabs (v - u) * Rabs (v - u)) by (rewrite <- Rabs_mult, Rabs_pos_eq; [ring|apply Rle_0_sqr]).
    apply Rmult_le_compat; auto using Rabs_pos. }
  assert (A := SQ _ _ X). assert (B := SQ _ _ Y). assert (C := SQ _ _ Z).
  apply EvalStats.Rle_sq; [|]; lra.
Qed.
Lemma poses_close {Q} (qops : quat_ops Q) (t t' : traj Q) : consistent t -> consistent t' -> Forall2 (near_pose qops) (poses t) (poses t') -> Forall2 (fun p q => vdist p q <= 1 / 10 ^ 9) (xyz t) (xyz t').
Proof.
  intros C C' F. destruct (poses_components t C) as (_ & X & _). destruct (poses_components t' C') as (_ & X' & _). rewrite <- X, <- X'. clear - F.
  induction F as [|p q l m (_ & H & _) F IH]; cbn [map]; constructor; [apply near_close, H|exact IH].
Qed.
Theorem C150_files : forall (Q : Type) (ops : rot_ops Q) (qops : quat_ops Q) T C loc counted (test ref : traj Q) r,
  text_contract T -> quat_contract ops qops -> consistent test -> consistent ref -> tlen test = tlen ref -> xyz test <> [] ->
  one_line (name test) -> words (name test) <> [] -> one_line (name ref) -> words (name ref) <> [] -> compare_absolute ops test ref = Ok r ->
  exists file1 file2 test' ref' r',
    to_file qops T "" test = Ok file1 /\ from_file ops qops T C loc counted file1 = Ok (Some test') /\
    to_file qops T "" ref = Ok file2 /\ from_file ops qops T C loc counted file2 = Ok (Some ref') /\
    compare_absolute ops test' ref' = Ok r' /\ positions_within (2 / 10 ^ 9) r r'.
Proof.
  intros Q ops qops T C loc counted test ref r TC QC C1 C2 L N O1 W1 O2 W2 E.
  assert (N2 : xyz ref <> []) by (unfold tlen in L; destruct (xyz test); [contradiction|]; destruct (xyz ref); [discriminate|discriminate]).
  destruct (C47_round_trip_partial Q ops qops T C loc counted test TC QC C1 N O1 W1) as (f1 & t1 & A1 & B1 & P1 & K1 & _).
  destruct (C47_round_trip_partial Q ops qops T C loc counted ref TC QC C2 N2 O2 W2) as (f2 & t2 & A2 & B2 & P2 & K2 & _).
  destruct (close_absolute ops _ _ test t1 ref t2 r C1 K1 C2 K2 L (poses_close qops _ _ C1 K1 P1) (poses_close qops _ _ C2 K2 P2) E) as (r' & E' & K).
  exists f1, f2, t1, t2, r'. split; [exact A1|]. split; [exact B1|]. split; [exact A2|]. split; [exact B2|]. split; [exact E'|].
  apply all_within; [lra|]. replace (2 / 10 ^ 9) with (1 / 10 ^ 9 + 1 / 10 ^ 9) by lra. exact K.
Qed.
Print Assumptions C150_files.

(** Two poses, the second one moved by half a metre *)
Definition two_poses (y : R) : traj RotM := mkTraj [0; 1] [mkV3 0 0 0; mkV3 1 y 0] (Some [unrotated; unrotated]) [0; 1] [vzero; vzero] SortTime "two" 0.
Lemma moved_half : vdist (mkV3 1 0 0) (mkV3 1 (1/2) 0) = 1/2.
Proof. unfold vdist. apply vnorm_unique; [lra|]. unfold vdot, vsub; cbn; field. Qed.
Example C150_case : consistent (two_poses 0) /\ consistent (two_poses (1/2)) /\ strictly_time_sorted (two_poses 0) /\ shaken (1/2) (two_poses 0) (two_poses (1/2)) /\
  exists r r', compare_absolute rot_impl (two_poses 0) (two_poses 0) = Ok r /\ compare_absolute rot_impl (two_poses (1/2)) (two_poses 0) = Ok r' /\
    pos_dev_comb r = [0; 0] /\ pos_dev_comb r' = [0; 1/2] /\ pos_dev_max r = Ok 0 /\ pos_dev_max r' = Ok (1/2).
Proof.
  split; [repeat split|]. split; [repeat split|]. split; [unfold strictly_time_sorted; cbn; repeat constructor; lra|].
  split; [split; [|split; reflexivity]; cbn [xyz two_poses]; constructor; [rewrite vdist_refl; lra|constructor; [rewrite moved_half; lra|constructor]]|].
  eexists. eexists. split; [reflexivity|]. split; [reflexivity|]. unfold pos_dev_max, pos_dev_comb. cbn [pos_dev xyz two_poses combine map fst snd].
  fold (vdist (mkV3 0 0 0) (mkV3 0 0 0)) (vdist (mkV3 1 0 0) (mkV3 1 0 0)) (vdist (mkV3 1 0 0) (mkV3 1 (1/2) 0)). rewrite moved_half, !vdist_refl.
  split; [reflexivity|]. split; [reflexivity|]. cbn [np_max fold_left]. split; f_equal; unfold Rmax; destruct (Rle_dec _ _); lra.
Qed.
Print Assumptions C150_case.

(** REFUTED (for deviations along the track): a reference that hardly moves.  However small the change, the deviation along the track
    of a position one metre away changes its sign. *)
Definition standing (a : R) : traj RotM := mkTraj [0; 1] [mkV3 0 0 0; mkV3 a 0 0] None [0; 1] [vzero; vzero] SortTime "ref" 0.
Definition aside : traj RotM := mkTraj [0; 1] [mkV3 1 0 0; mkV3 1 0 0] None [0; 1] [vzero; vzero] SortTime "test" 0.
Lemma norm_x a : vnorm (mkV3 a 0 0) = Rabs a.
Proof. apply vnorm_unique; [apply Rabs_pos|]. unfold vdot; cbn. rewrite <- Rabs_mult, Rabs_pos_eq by apply Rle_0_sqr. ring. Qed.
Lemma along_standing a s : a <> 0 -> a = s * Rabs a -> s * s = 1 -> along_track_dev (mkV3 1 0 0) (mkV3 0 0 0) (mkV3 a 0 0) false = Rsign s.
Proof.
  intros N S S2. unfold along_track_dev, nearest_point. assert (E : vsub (mkV3 a 0 0) (mkV3 0 0 0) = mkV3 a 0 0) by (unfold vsub; cbn; f_equal; ring). rewrite E, norm_x.
  assert (A := Rabs_pos_lt a N). destruct (Reqb_spec (Rabs a) 0) as [Z|_]; [lra|]. assert (I : / Rabs a * a = s) by (rewrite S at 2; field; lra).
  assert (U : vscale (/ Rabs a) (mkV3 a 0 0) = mkV3 s 0 0) by (unfold vscale; cbn; rewrite I; f_equal; ring). rewrite U.
  assert (D : vdot (vsub (mkV3 1 0 0) (mkV3 0 0 0)) (mkV3 s 0 0) = s) by (unfold vdot, vsub; cbn; ring). rewrite D. cbn [negb].
  assert (P : vsub (vadd (mkV3 0 0 0) (vscale s (mkV3 s 0 0))) (mkV3 0 0 0) = mkV3 1 0 0) by (unfold vsub, vadd, vscale; cbn; f_equal; lra). rewrite P, norm_x, Rabs_R1. ring.
Qed.
Lemma compare_standing a s : a <> 0 -> a = s * Rabs a -> s * s = 1 -> exists r, compare_absolute rot_impl aside (standing a) = Ok r /\ nth_error (map vx (directed_pos_dev r)) 0 = Some (Rsign s).
Proof.
  intros N S S2. destruct (compare_absolute_ok rot_impl aside (standing a) ltac:(repeat split) ltac:(repeat split) eq_refl) as (r & E & _ & _ & _ & _ & _ & _ & D & _).
  exists r. split; [exact E|]. specialize (D eq_refl eq_refl). unfold dev_directions_no_rot in D. assert (K := mapM_nth_error _ _ _ 0 D).
  cbn -[along_track_dev cross_track_dev] in K. destruct K as (b & B & NB).
  change (Pos.to_nat 1) with 1%nat in B. cbn [nth_error bind] in B. destruct (cross_track_dev (mkV3 1 0 0) (mkV3 0 0 0) (mkV3 a 0 0)) as [h v]. injection B as <-.
  destruct (directed_pos_dev r) as [|w l]; [discriminate|]. injection NB as ->. cbn [map nth_error vx]. f_equal. apply along_standing; assumption.
Qed.
Theorem C150_along_refuted : forall e, 0 < e -> exists (test ref ref' : traj RotM) r r', shaken e ref ref' /\
  compare_absolute rot_impl test ref = Ok r /\ compare_absolute rot_impl test ref' = Ok r' /\
  nth_error (map vx (directed_pos_dev r)) 0 = Some 1 /\ nth_error (map vx (directed_pos_dev r')) 0 = Some (-1).
Proof.
  intros e E. destruct (compare_standing (e / 2) 1) as (r & R1 & R2); [lra|rewrite Rabs_pos_eq; lra|lra|]. destruct (compare_standing (- (e / 2)) (-1)) as (r' & R1' & R2'); [lra|rewrite Rabs_Ropp, Rabs_pos_eq; lra|lra|].
  exists aside, (standing (e / 2)), (standing (- (e / 2))), r, r'. split; [|split; [exact R1|]; split; [exact R1'|]].
  - split; [|split; reflexivity]. cbn [xyz standing]. constructor; [rewrite vdist_refl; lra|]. constructor; [|constructor].
    unfold vdist. replace (vsub (mkV3 (e / 2) 0 0) (mkV3 (- (e / 2)) 0 0)) with (mkV3 e 0 0) by (unfold vsub; cbn; f_equal; lra). rewrite norm_x, Rabs_pos_eq; lra.
  - rewrite R2, R2'. unfold Rsign. split; f_equal; repeat destruct (Rlt_dec _ _); lra.
Qed.
Print Assumptions C150_along_refuted.
