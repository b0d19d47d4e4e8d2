(** Properties C78 and C79: closed-form time shift and sensor rotation. *)
From Verif Require Import Base BaseFacts VecFacts NumpyModel TrajModel GeomModel GeomSpec GeomFacts GeomFacts2 LsqModel LsqSpec LsqFacts LsqProps DirectModel DirectSpec DirectFacts DirectFacts2 DirectFacts3 DirectProps DirectProps2.

Lemma shift_rows_mv v dt : mv (map (fun x => [x]) (by_axis v)) [dt] = by_axis (map (vscale dt) v).
Proof.
  unfold mv, by_axis. rewrite !map_app, !map_map. f_equal; [|f_equal]; apply map_ext; intros []; cbn; ring.
Qed.
Lemma shift_form dt to from v : length to = length from -> length v = length from ->
  vminus (by_axis (map (vscale dt) v)) (direct_observations to from) = by_axis (shift_rests dt to from v).
Proof.
  intros A B. unfold direct_observations. rewrite vminus_axis by (rewrite !map_length, combine_length; lia). f_equal.
  revert from v A B. induction to as [|q to IH]; intros [|p from] [|s v] A B; cbn [map combine shift_rests length] in *; try lia; try reflexivity. apply cons_eq; [reflexivity|]. apply IH; lia.
Qed.
Lemma shift_length dt to from v : length to = length from -> length v = length from -> length (shift_rests dt to from v) = length from.
Proof. revert from v. induction to as [|q to IH]; intros [|p from] [|s v] A B; cbn in *; try lia. rewrite IH; lia. Qed.
Lemma empty_weights solve n A obs : least_squares solve n A obs (diagonal []) = least_squares solve n A obs (diagonal (repeat 1 (length obs))).
Proof.
  unfold least_squares. cbn [diagonal enumerate map combine length seq]. change (diagonal []) with ([] : mat). cbn iota.
  destruct obs as [|o obs]; reflexivity.
Qed.
Lemma timeshift_ls solve to from v weights wx wy wz dt res : solve_contract solve -> length to = length from -> shift_weights (length from) weights wx wy wz ->
  Forall (fun c => 0 <= c) wx -> Forall (fun c => 0 <= c) wy -> Forall (fun c => 0 <= c) wz ->
  direct_timeshift solve to from v weights = Ok (dt, res) ->
  exists l, least_squares solve 1 (map (fun x => [x]) (by_axis v)) (direct_observations to from) (diagonal (wx ++ wy ++ wz)) = Ok ([dt], l, res).
Proof.
  intros SC LT AW FX FY FZ H. unfold direct_timeshift in H. rewrite LT, Nat.eqb_refl in H. cbn [negb] in H.
  apply bind_ok in H as [[[x l] rs] [LS H]]. destruct x as [|x [|]]; try discriminate. injection H as <- <-. exists l. rewrite <- LS.
  pose proof (axis_weights_list _ _ _ _ _ AW) as E. rewrite <- E. destruct weights as [[|w0 w]|]; [|reflexivity|reflexivity].
  cbn iota. rewrite empty_weights. rewrite observations_length by exact LT. reflexivity.
Qed.

(** The estimated time shift leaves the smallest weighted sum of squares; the residuals are what it leaves. *)
Theorem C78_timeshift : forall solve to from v weights wx wy wz dt res,
  solve_contract solve -> shift_weights (length from) weights wx wy wz ->
  Forall (fun c => 0 <= c) wx -> Forall (fun c => 0 <= c) wy -> Forall (fun c => 0 <= c) wz ->
  direct_timeshift solve to from v weights = Ok (dt, res) ->
  let rest := shift_rests dt to from v in
  length rest = length from /\ res = map vx rest ++ map vy rest ++ map vz rest /\
  forall dt', axis_error wx wy wz rest <= axis_error wx wy wz (shift_rests dt' to from v).
Proof.
  intros solve to from v weights wx wy wz dt res SC AW FX FY FZ H rest.
  assert (length to = length from) as LT.
  { unfold direct_timeshift in H. destruct (length to =? length from)%nat eqn:E; [apply Nat.eqb_eq, E|discriminate]. }
  destruct (timeshift_ls _ _ _ _ _ _ _ _ _ _ SC LT AW FX FY FZ H) as [l LS]. pose proof AW as (LX & LY & LZ & _).
  pose proof (forall_axis _ _ _ _ FX FY FZ) as FW. pose proof (observations_length to from LT) as LO.
  apply weighted_ls in LS; [|assumption|assumption|rewrite !app_length; lia]. destruct LS as (_ & RS & LA & OPT).
  rewrite map_length, by_axis_length, LO in LA. assert (length v = length from) as LV by lia.
  rewrite shift_rows_mv, shift_form in RS, OPT by assumption. fold rest in RS, OPT.
  pose proof (shift_length dt to from v LT LV) as LR. fold rest in LR. split; [exact LR|]. split; [exact RS|].
  intro dt'. rewrite !axis_error_sum by (rewrite ?shift_length by assumption; congruence).
  specialize (OPT [dt'] eq_refl). rewrite shift_rows_mv, shift_form in OPT by assumption. exact OPT.
Qed.
Print Assumptions C78_timeshift.

(** Closed form: without weights, the time shift is the sum of the scalar products of speed and difference, divided by the
    sum of the squared speeds. *)
Definition speed_square (v : list V3) : R := fold_right Rplus 0 (map (fun s => vdot s s) v).
Fixpoint speed_product (to from v : list V3) : R :=
  match to, from, v with
  | q :: to', p :: from', s :: v' => vdot s (vsub q p) + speed_product to' from' v'
  | _, _, _ => 0
  end.
Fixpoint difference_square (to from : list V3) : R :=
  match to, from with q :: to', p :: from' => vdot (vsub q p) (vsub q p) + difference_square to' from' | _, _ => 0 end.
Lemma ones_error dt to from v : length to = length from -> length v = length from ->
  axis_error (repeat 1 (length from)) (repeat 1 (length from)) (repeat 1 (length from)) (shift_rests dt to from v)
  = dt * dt * speed_square v - 2 * dt * speed_product to from v + difference_square to from.
Proof.
  unfold axis_error, speed_square. revert from v. induction to as [|q to IH]; intros [|p from] [|s v] A B; cbn [length repeat shift_rests map weighted_sum fold_right speed_product difference_square] in *; try lia; [ring|].
  specialize (IH from v ltac:(lia) ltac:(lia)). destruct q as [q1 q2 q3], p as [p1 p2 p3], s as [s1 s2 s3]. unfold vsub, vscale, vdot in *. cbn [vx vy vz] in *. set (A1 := weighted_sum _ (map vx _)) in *. set (A2 := weighted_sum _ (map vy _)) in *. set (A3 := weighted_sum _ (map vz _)) in *. lra.
Qed.
Theorem C78_closed_form : forall solve to from v weights dt res,
  solve_contract solve -> weights = None \/ weights = Some [] ->
  direct_timeshift solve to from v weights = Ok (dt, res) -> (exists s, In s v /\ s <> vzero) ->
  dt = speed_product to from v / speed_square v.
Proof.
  intros solve to from v weights dt res SC W H (s & I & NZ).
  assert (shift_weights (length from) weights (repeat 1 (length from)) (repeat 1 (length from)) (repeat 1 (length from))) as AW.
  { unfold shift_weights, axis_weights. rewrite repeat_length. destruct W as [->| ->]; repeat split. }
  assert (Forall (fun c => 0 <= c) (repeat 1 (length from))) as F by (apply Forall_forall; intros x X; apply repeat_spec in X; lra).
  destruct (C78_timeshift _ _ _ _ _ _ _ _ _ _ SC AW F F F H) as (LR & _ & OPT).
  assert (length to = length from) as LT.
  { unfold direct_timeshift in H. destruct (length to =? length from)%nat eqn:E; [apply Nat.eqb_eq, E|discriminate]. }
  destruct (timeshift_ls _ _ _ _ _ _ _ _ _ _ SC LT AW F F F H) as [l LS].
  apply weighted_ls in LS; [|assumption|apply forall_axis; assumption|rewrite !app_length, !repeat_length, observations_length by exact LT; lia]. destruct LS as (_ & _ & LA & _).
  rewrite map_length, by_axis_length, observations_length in LA by exact LT. assert (length v = length from) as LV by lia.
  assert (0 < speed_square v) as PS.
  { clear - I NZ. unfold speed_square. induction v as [|a v IH]; [destruct I|]. cbn [map fold_right].
    assert (0 <= fold_right Rplus 0 (map (fun s => vdot s s) v)) as N by (clear; induction v as [|a v IH]; cbn [map fold_right]; [lra|]; pose proof (vdot_nonneg a); lra).
    pose proof (vdot_nonneg a). destruct I as [->|I]; [|specialize (IH I); lra].
    destruct (Req_dec (vdot s s) 0) as [Z|Z]; [apply vdot_zero in Z; contradiction|]. lra. }
  specialize (OPT (speed_product to from v / speed_square v)). rewrite !ones_error in OPT by assumption.
  set (S := speed_square v) in *. set (B := speed_product to from v) in *.
  assert ((dt - B / S) * (dt - B / S) * S <= 0) as Q.
  { replace ((dt - B / S) * (dt - B / S) * S) with ((dt * dt * S - 2 * dt * B + difference_square to from) - (B / S * (B / S) * S - 2 * (B / S) * B + difference_square to from)) by (field; lra). lra. }
  assert ((dt - B / S) * (dt - B / S) = 0) as Z.
  { destruct (Rle_lt_or_eq_dec 0 _ (Rle_0_sqr (dt - B / S))) as [L|L]; unfold Rsqr in L; [|lra]. pose proof (Rmult_lt_0_compat _ _ L PS). lra. }
  apply Rmult_integral in Z as [Z|Z]; lra.
Qed.
Print Assumptions C78_closed_form.

(** So a pure time shift is found, if the platform moves at all. *)
Theorem C78_recovered : forall solve (poses : list pose) weights dt0 dt res,
  solve_contract solve -> weights = None \/ weights = Some [] ->
  direct_timeshift solve (map (fun s => vadd (pose_at s) (vscale dt0 (pose_speed s))) poses) (map pose_at poses) (map pose_speed poses) weights = Ok (dt, res) ->
  (exists s, In s poses /\ pose_speed s <> vzero) -> dt = dt0.
Proof.
  intros solve poses weights dt0 dt res SC W H (s & I & NZ).
  assert (exists x, In x (map pose_speed poses) /\ x <> vzero) as EX by (exists (pose_speed s); split; [apply in_map, I|exact NZ]).
  rewrite (C78_closed_form _ _ _ _ _ _ _ SC W H EX).
  assert (speed_product (map (fun s => vadd (pose_at s) (vscale dt0 (pose_speed s))) poses) (map pose_at poses) (map pose_speed poses) = dt0 * speed_square (map pose_speed poses)) as ->.
  { clear. unfold speed_square. induction poses as [|[[p e] v] poses IH]; cbn [map speed_product fold_right]; [ring|]. rewrite IH. unfold pose_at, pose_speed. cbn [fst snd]. destruct p as [p1 p2 p3], v as [v1 v2 v3]. munf. ring. }
  field. clear - I NZ. unfold speed_square. rewrite map_map. enough (0 < fold_right Rplus 0 (map (fun x => vdot (pose_speed x) (pose_speed x)) poses)) by lra.
  induction poses as [|a v IH]; [destruct I|]. cbn [map fold_right].
  assert (0 <= fold_right Rplus 0 (map (fun s => vdot (pose_speed s) (pose_speed s)) v)) as N by (clear; induction v as [|a v IH]; cbn [map fold_right]; [lra|]; pose proof (vdot_nonneg (pose_speed a)); lra).
  pose proof (vdot_nonneg (pose_speed a)). destruct I as [->|I]; [|specialize (IH I); lra].
  destruct (Req_dec (vdot (pose_speed s) (pose_speed s)) 0) as [Z|Z]; [apply vdot_zero in Z; contradiction|]. lra.
Qed.
Print Assumptions C78_recovered.

Example C78_case : exists solve res, solve_contract solve /\
  direct_timeshift solve [mkV3 2 0 0; mkV3 5 2 0] [mkV3 0 0 0; mkV3 3 0 0] [mkV3 1 0 0; mkV3 1 1 0] (Some []) = Ok (2, res).
Proof.
  exists (solve_guess [2]). eexists. split; [apply solve_guess_contract|]. unfold direct_timeshift. cbn [length Nat.eqb negb]. rewrite empty_weights, observations_length by reflexivity.
  assert (direct_observations [mkV3 2 0 0; mkV3 5 2 0] [mkV3 0 0 0; mkV3 3 0 0] = mv (map (fun x => [x]) (by_axis [mkV3 1 0 0; mkV3 1 1 0])) [2]) as ->.
  { unfold direct_observations, by_axis, mv. cbn. repeat (apply cons_eq; [ring|]). reflexivity. }
  rewrite guess_exact; [reflexivity| |reflexivity|discriminate| |reflexivity].
  - apply Forall_forall. intros x X. apply repeat_spec in X. lra.
  - apply Forall_map, Forall_forall. reflexivity.
Qed.

(** ** Sensor rotation *)
Lemma chordal_turn m a b : is_rot a -> chordal m (mmul b (mtrans a)) = chordal (mmul m a) b.
Proof.
  intro RA. pose proof (is_rot_right a RA) as AA. pose proof (is_rot_left a RA) as LA.
  set (d := madd m (mscale (-1) (mmul b (mtrans a)))).
  assert (madd (mmul m a) (mscale (-1) b) = mmul d a) as E.
  { unfold d. rewrite mmul_madd_l. f_equal. transitivity (mscale (-1) (mmul b (mmul (mtrans a) a))); [rewrite LA, mmul_ident_r; reflexivity|].
    rewrite <- mmul_assoc. generalize (mmul b (mtrans a)). intro c. clear. m3; ring. }
  unfold chordal. fold d. rewrite E. clearbody d. clear E m b.
  assert (forall r, vdot (vmul r a) (vmul r a) = vdot r r) as N.
  { intro r. replace (vmul r a) with (mapply (mtrans a) r) by (clear; destruct r as [r1 r2 r3], a as [[a1 a2 a3] [b1 b2 b3] [c1 c2 c3]]; munf; f_equal; ring). apply rot_dot, is_rot_mtrans, RA. }
  destruct d as [d1 d2 d3]. unfold mmul. cbn [row1 row2 row3]. fold (vmul d1 a) (vmul d2 a) (vmul d3 a). rewrite !N. reflexivity.
Qed.
Lemma chordal_nonneg a b : 0 <= chordal a b.
Proof. unfold chordal. pose proof (vdot_nonneg (row1 (madd a (mscale (-1) b)))). pose proof (vdot_nonneg (row2 (madd a (mscale (-1) b)))). pose proof (vdot_nonneg (row3 (madd a (mscale (-1) b)))). cbn zeta. lra. Qed.
Lemma chordal_zero a b : chordal a b = 0 -> a = b.
Proof.
  unfold chordal. cbn zeta. set (d := madd a (mscale (-1) b)). intro Z.
  pose proof (vdot_nonneg (row1 d)). pose proof (vdot_nonneg (row2 d)). pose proof (vdot_nonneg (row3 d)).
  assert (row1 d = vzero) as Z1 by (apply vdot_zero; lra). assert (row2 d = vzero) as Z2 by (apply vdot_zero; lra). assert (row3 d = vzero) as Z3 by (apply vdot_zero; lra).
  unfold d in *. destruct a as [[a1 a2 a3] [b1 b2 b3] [c1 c2 c3]], b as [[e1 e2 e3] [f1 f2 f3] [g1 g2 g3]]. munfall. injection Z1 as A1 A2 A3. injection Z2 as B1 B2 B3. injection Z3 as C1 C2 C3.
  f_equal; f_equal; lra.
Qed.
Lemma chordal_same a : chordal a a = 0.
Proof. unfold chordal. destruct a as [[a1 a2 a3] [b1 b2 b3] [c1 c2 c3]]. munf. ring. Qed.

Lemma misorientation_sum {Q} (ops : rot_ops Q) m (from to : list Q) : rot_contract ops -> length to = length from ->
  chordal_sum m (map (as_matrix ops) (map (fun p => rmul ops (fst p) (rinv ops (snd p))) (combine to from))) = misorientation ops m from to.
Proof.
  intros RC. unfold chordal_sum, misorientation. revert from. induction to as [|q to IH]; intros [|p from] L; cbn [length combine map fold_right fst snd] in *; try lia; try reflexivity.
  rewrite IH by lia. rewrite (rc_mul ops RC), (rc_inv ops RC), chordal_turn by apply (rc_rot ops RC). reflexivity.
Qed.
Lemma align_inv {Q} (ops : rot_ops Q) mean from to e : rot_contract ops -> length to = length from ->
  align_rotations ops mean (Some from) (Some to) = Ok (Some e) ->
  exists q, mean (map (fun p => rmul ops (fst p) (rinv ops (snd p))) (combine to from)) = Ok q /\ rotation_matrix ops e = as_matrix ops q.
Proof.
  intros RC L H. unfold align_rotations in H. rewrite broadcast_ok in H by exact L. cbn [bind] in H. apply bind_ok in H as [q [M H]]. injection H as <-. exists q. split; [exact M|].
  unfold rotation_matrix. apply (rc_as_euler ops RC).
Qed.

(** The estimated sensor rotation turns the source orientations as close as possible, in the sum of squared chordal distances,
    to the target orientations. *)
Theorem C79_optimal : forall Q (ops : rot_ops Q) mean from to e, rot_contract ops -> mean_contract ops mean -> length to = length from ->
  align_rotations ops mean (Some from) (Some to) = Ok (Some e) ->
  is_rot (rotation_matrix ops e) /\ forall m, is_rot m -> misorientation ops (rotation_matrix ops e) from to <= misorientation ops m from to.
Proof.
  intros Q ops mean from to e RC MC L H. destruct (align_inv ops mean from to e RC L H) as (q & M & ->). split; [apply (rc_rot ops RC)|].
  intros m RM. rewrite <- !misorientation_sum by assumption. exact (MC _ _ _ M RM).
Qed.
Print Assumptions C79_optimal.

(** A constant mounting: if one rotation turns every source orientation into the target orientation, it is found, and the
    alignment of orientations gives the targets. *)
Theorem C79_recovered : forall Q (ops : rot_ops Q) mean from to m0 e, rot_contract ops -> mean_contract ops mean -> is_rot m0 -> from <> [] ->
  map (as_matrix ops) to = map (fun q => mmul m0 (as_matrix ops q)) from ->
  align_rotations ops mean (Some from) (Some to) = Ok (Some e) ->
  rotation_matrix ops e = m0 /\ map (fun q => as_matrix ops (rmul ops (from_euler ops e) q)) from = map (as_matrix ops) to.
Proof.
  intros Q ops mean from to m0 e RC MC R0 NE E H.
  assert (length to = length from) as L by (rewrite <- (map_length (as_matrix ops) to), E, map_length; reflexivity).
  destruct (C79_optimal Q ops mean from to e RC MC L H) as [RE OPT]. specialize (OPT m0 R0).
  assert (misorientation ops m0 from to = 0) as Z.
  { clear - E L. unfold misorientation. revert from E L. induction to as [|q to IH]; intros [|p from] E L; cbn [length combine map fold_right fst snd] in *; try lia; try reflexivity.
    injection E as E1 E2. rewrite E1, chordal_same, IH by (try assumption; lia). ring. }
  assert (rotation_matrix ops e = m0) as EM.
  { destruct from as [|p from]; [congruence|]. destruct to as [|q to]; [discriminate|]. unfold misorientation in *. cbn [combine map fold_right fst snd] in *. injection E as E1 _.
    assert (forall m, 0 <= fold_right Rplus 0 (map (fun p0 => chordal (mmul m (as_matrix ops (fst p0))) (as_matrix ops (snd p0))) (combine from to))) as N.
    { intro m. generalize (combine from to). clear. induction l as [|a l IH]; cbn [map fold_right]; [lra|]. pose proof (chordal_nonneg (mmul m (as_matrix ops (fst a))) (as_matrix ops (snd a))). lra. }
    pose proof (N (rotation_matrix ops e)) as N1. pose proof (N m0) as N0.
    pose proof (chordal_nonneg (mmul (rotation_matrix ops e) (as_matrix ops p)) (as_matrix ops q)) as C1. 
    assert (chordal (mmul (rotation_matrix ops e) (as_matrix ops p)) (as_matrix ops q) = 0) as Z1 by lra. apply chordal_zero in Z1. rewrite E1 in Z1.
    pose proof (is_rot_right _ (rc_rot ops RC p)) as RR. rewrite <- (mmul_ident_r (rotation_matrix ops e)), <- (mmul_ident_r m0), <- RR, <- !mmul_assoc, Z1. reflexivity. }
  split; [exact EM|]. rewrite E. apply map_ext. intro q. rewrite (rc_mul ops RC). fold (rotation_matrix ops e). rewrite EM. reflexivity.
Qed.
Print Assumptions C79_recovered.

(** Different numbers of orientations are refused, unless there is only one of them. *)
Theorem C79_refused : forall Q (ops : rot_ops Q) mean from to, length to <> length from -> length to <> 1%nat -> length from <> 1%nat ->
  align_rotations ops mean (Some from) (Some to) = Err ValueError.
Proof.
  intros Q ops mean from to L L1 L2. unfold align_rotations, broadcast. rewrite (proj2 (Nat.eqb_neq _ _) L).
  destruct to as [|q [|q2 to]], from as [|p [|p2 from]]; cbn [length] in *; try lia; reflexivity.
Qed.
Print Assumptions C79_refused.

(** Without orientations no parameters are returned, although the function promises them. *)
Theorem C79_missing_refuted : forall Q (ops : rot_ops Q) mean from to, from = None \/ to = None ->
  align_rotations ops mean from to = Ok None.
Proof. intros Q ops mean from to [-> | ->]; [destruct to|]; reflexivity. Qed.
Print Assumptions C79_missing_refuted.

(** A mean of equal rotations, which raises for all others, meets the contract. *)
Definition mean_equal (qs : list RotM) : result RotM :=
  match qs with
  | [] => Err ValueError
  | q :: r => if forallb (fun p => M3eqb (proj1_sig p) (proj1_sig q)) r then Ok q else Err ValueError
  end.
Lemma mean_equal_contract : mean_contract rot_impl mean_equal.
Proof.
  intros qs q m H RM. destruct qs as [|q0 r]; [discriminate|]. cbn [mean_equal] in H. match type of H with context [forallb ?f r] => destruct (forallb f r) eqn:F end; [|discriminate]. injection H as <-.
  assert (forall l, 0 <= chordal_sum m l) as N by (intro l; unfold chordal_sum; induction l as [|a l IH]; cbn [map fold_right]; [lra|]; pose proof (chordal_nonneg m a); lra).
  enough (chordal_sum (as_matrix rot_impl q0) (map (as_matrix rot_impl) (q0 :: r)) = 0) as -> by apply N.
  rewrite forallb_forall in F. unfold chordal_sum. cbn [map fold_right]. rewrite chordal_same. rewrite Rplus_0_l.
  induction r as [|p r IH]; [reflexivity|]. cbn [map fold_right]. rewrite IH by (intros x I; apply F; right; exact I).
  specialize (F p (or_introl eq_refl)). apply M3eqb_true in F. change (as_matrix rot_impl p) with (proj1_sig p). change (as_matrix rot_impl q0) with (proj1_sig q0). unfold RotM in *. rewrite F, chordal_same. ring.
Qed.
Definition quarter_q : RotM := exist _ quarter quarter_rot.
Definition ident_q : RotM := exist _ mident is_rot_ident.
Example C79_case : exists e, mean_contract rot_impl mean_equal /\
  align_rotations rot_impl mean_equal (Some [ident_q; quarter_q]) (Some [quarter_q; rmul rot_impl quarter_q quarter_q]) = Ok (Some e).
Proof.
  unfold align_rotations. rewrite broadcast_ok by reflexivity. cbn [bind combine map fst snd mean_equal forallb].
  assert (M3eqb (proj1_sig (rmul rot_impl (rmul rot_impl quarter_q quarter_q) (rinv rot_impl quarter_q))) (proj1_sig (rmul rot_impl quarter_q (rinv rot_impl ident_q))) = true) as ->.
  { apply M3eqb_true. cbn [rot_impl rmul rinv proj1_sig quarter_q ident_q]. unfold quarter. m3; ring. }
  cbn [andb bind]. eexists. split; [exact mean_equal_contract|reflexivity].
Qed.
