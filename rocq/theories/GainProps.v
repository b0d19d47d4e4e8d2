(** C170: aligning in closed form does not make the root mean square error larger. *)
From Verif Require Import Base BaseFacts VecFacts NumpyModel NumpyFacts TrajModel TrajSpec TrajFacts GeomModel GeomSpec GeomFacts GeomFacts2 GeomProps LsqModel LsqSpec DirectModel DirectSpec DirectFacts DirectFacts2 DirectFacts3 DirectProps DirectProps2 DirectProps3 FrameProps BackProps EvalModel EvalStats EvalSpec EvalFacts4 EvalProps.

Definition rest_sum (a b : list V3) : R := np_sum (map (fun p => vdist (fst p) (snd p) ^ 2) (combine a b)).
Lemma zip_diff (a b l : list V3) : length a = length b -> length l = length a -> (forall i x y, nth_error a i = Some x -> nth_error b i = Some y -> nth_error l i = Some (vsub x y)) -> l = map (fun p => vsub (fst p) (snd p)) (combine a b).
Proof.
  revert b l. induction a as [|x a IH]; intros [|y b] [|z l] L L' H; cbn in L, L'; try lia; [reflexivity|]. cbn. f_equal.
  - specialize (H 0%nat x y eq_refl eq_refl). cbn in H. congruence.
  - apply IH; [lia|lia|]. intros i. exact (H (S i)).
Qed.
Lemma rms_of_rest {Q} (ops : rot_ops Q) (test ref : traj Q) : consistent test -> consistent ref -> tlen test = tlen ref -> tlen ref <> 0%nat ->
  exists r, compare_absolute ops test ref = Ok r /\ pos_dev_rms r = Some (sqrt (rest_sum (xyz ref) (xyz test) / INR (tlen ref))).
Proof.
  intros Ct Cr L N. destruct (compare_absolute_ok ops test ref Ct Cr L) as (r & E & _ & _ & LP & _ & H & _). exists r. split; [exact E|].
  assert (D := zip_diff (xyz ref) (xyz test) (pos_dev r) (eq_sym L) LP H). unfold pos_dev_rms, rms, pos_dev_comb. rewrite np_mean_some.
  - cbn [option_map]. rewrite !map_length, LP. do 3 f_equal. unfold rest_sum. rewrite D, !map_map. f_equal. apply map_ext. intro p. unfold vdist. ring.
  - intro Z. apply map_eq_nil, map_eq_nil in Z. rewrite Z in LP. cbn in LP. congruence.
Qed.
Lemma rest_misfit t m s from to : length to = length from -> rest_sum to (map (similar t m s) from) = misfit t m s (repeat 1 (length from)) from to.
Proof.
  revert to. induction from as [|p from IH]; intros [|q to] L; cbn in L; try lia; [reflexivity|]. unfold rest_sum, np_sum in *. cbn [map combine fold_right length repeat misfit fst snd]. rewrite IH by lia. ring.
Qed.
Lemma ones_error l : axis_error (repeat 1 (length l)) (repeat 1 (length l)) (repeat 1 (length l)) l = np_sum (map (fun d => vdot d d) l).
Proof.
  unfold axis_error, np_sum. induction l as [|d l IH]; [cbn; ring|]. cbn [length repeat map weighted_sum fold_right]. rewrite <- IH. unfold vdot. ring.
Qed.

(** Positions after an alignment without lever arm and time shift, and after one with nothing else *)
Lemma aligned_similar {Q} (ops : rot_ops Q) t e s sensor (est : traj Q) : rot_contract ops -> consistent est ->
  exists est', apply_alignment ops (mkAlign t e s 0 vzero) sensor false est = Ok est' /\ consistent est' /\ tlen est' = tlen est /\ xyz est' = map (similar t (euler_matrix e) s) (xyz est).
Proof.
  intros RC C. destruct (C17_apply_alignment Q ops (mkAlign t e s 0 vzero) sensor est RC C) as (est' & q' & E & SR & C' & _ & W & WO). exists est'.
  assert (L : tlen est' = tlen est) by (destruct C' as (A & _), C as (B & _); destruct SR as (T & _); unfold tlen; congruence).
  split; [exact E|]. split; [exact C'|]. split; [exact L|]. apply nth_error_ext. intro i. rewrite nth_error_map'. destruct (nth_error (xyz est) i) as [x|] eqn:X.
  - assert (I := nth_error_Some_lt _ _ _ X). destruct (nth_error_lt_Some (speed est) i) as [v V]; [destruct C as (_ & _ & _ & LV); lia|]. cbn [option_map]. destruct (rot est) as [q|] eqn:RQ.
    + destruct (nth_error_lt_Some q i) as [r RR]; [destruct C as (_ & LQ & _); rewrite RQ in LQ; lia|]. destruct (W q i x v r eq_refl X V RR) as [Y _]. rewrite Y. f_equal. unfold aligned, similar. cbn [sim_trans sim_scale sim_rot lever time_shift]. rewrite mapply_zero. do 3 f_equal. apply V3_eq; munf; ring.
    + rewrite (WO i x v eq_refl X V). f_equal. unfold aligned, similar. cbn [sim_trans sim_scale sim_rot lever time_shift]. rewrite mapply_zero. do 3 f_equal. apply V3_eq; munf; ring.
  - apply nth_error_None in X. apply nth_error_None. unfold tlen in L. lia.
Qed.
Lemma aligned_shifted {Q} (ops : rot_ops Q) dt l sensor (est : traj Q) : rot_contract ops -> consistent est ->
  exists est', apply_alignment ops (mkAlign vzero vzero 1 dt l) sensor false est = Ok est' /\ consistent est' /\ tlen est' = tlen est /\
    (forall q i x v r, rot est = Some q -> nth_error (xyz est) i = Some x -> nth_error (speed est) i = Some v -> nth_error q i = Some r -> nth_error (xyz est') i = Some (vadd x (vadd (mapply (as_matrix ops r) l) (vscale dt v)))) /\
    (forall i x v, rot est = None \/ l = vzero -> nth_error (xyz est) i = Some x -> nth_error (speed est) i = Some v -> nth_error (xyz est') i = Some (vadd x (vscale dt v))).
Proof.
  intros RC C. destruct (C17_apply_alignment Q ops (mkAlign vzero vzero 1 dt l) sensor est RC C) as (est' & q' & E & SR & C' & _ & W & WO). exists est'.
  assert (L : tlen est' = tlen est) by (destruct C' as (A & _), C as (B & _); destruct SR as (T & _); unfold tlen; congruence).
  assert (ID : forall y, vadd vzero (vscale 1 (mapply (euler_matrix vzero) y)) = y) by (intro y; rewrite euler_zero, mapply_ident; apply V3_eq; munf; ring).
  split; [exact E|]. split; [exact C'|]. split; [exact L|]. split.
  - intros q i x v r RQ X V RR. destruct (W q i x v r RQ X V RR) as [Y _]. rewrite Y. f_equal. unfold aligned. cbn [sim_trans sim_scale sim_rot lever time_shift]. apply ID.
  - intros i x v D X V. destruct (rot est) as [q|] eqn:RQ.
    + destruct D as [D| ->]; [discriminate|]. assert (I := nth_error_Some_lt _ _ _ X). destruct (nth_error_lt_Some q i) as [r RR]; [destruct C as (_ & LQ & _); rewrite RQ in LQ; lia|]. destruct (W q i x v r eq_refl X V RR) as [Y _]. rewrite Y. f_equal. unfold aligned. cbn [sim_trans sim_scale sim_rot lever time_shift]. rewrite ID, mapply_zero. apply V3_eq; munf; ring.
    + rewrite (WO i x v eq_refl X V). f_equal. unfold aligned. cbn [sim_trans sim_scale sim_rot lever time_shift]. rewrite ID, mapply_zero. apply V3_eq; munf; ring.
Qed.
Lemma root_le a b n : a <= b -> sqrt (a / INR n) <= sqrt (b / INR n).
Proof.
  intro H. apply sqrt_le_1_alt. unfold Rdiv. apply Rmult_le_compat_r; [|exact H]. destruct n as [|n]; [cbn [INR]; rewrite Rinv_0; lra|]. left. apply Rinv_0_lt_compat, lt_0_INR. lia.
Qed.

(** * C170 *)
(** The closed-form similarity, if it is no mirror image: after applying it the root mean square error is at most the one without
    alignment, and at most the one after any other similarity. *)
Theorem C170_similarity : forall Q (ops : rot_ops Q) svd sensor (est gt : traj Q) t e s m, rot_contract ops -> svd_contract svd -> consistent est -> consistent gt -> tlen est = tlen gt -> tlen gt <> 0%nat ->
  direct_helmert svd ops (xyz est) (xyz gt) [] = Ok (Some (t, e, s)) -> procrustes svd (xyz est) (xyz gt) [] = Ok (Some (t, m, s)) -> mdet m = 1 ->
  exists est1 r1 q1 r q, apply_alignment ops (mkAlign t e s 0 vzero) sensor false est = Ok est1 /\ compare_absolute ops est1 gt = Ok r1 /\ pos_dev_rms r1 = Some q1 /\
    compare_absolute ops est gt = Ok r /\ pos_dev_rms r = Some q /\ q1 <= q /\
    forall t' e' s', exists est2 r2 q2, apply_alignment ops (mkAlign t' e' s' 0 vzero) sensor false est = Ok est2 /\ compare_absolute ops est2 gt = Ok r2 /\ pos_dev_rms r2 = Some q2 /\ q1 <= q2.
Proof.
  intros Q ops svd sensor est gt t e s m RC SC Ce Cg L N E P D.
  destruct (C76_parameters_partial Q ops svd _ _ _ t e s RC SC E) as (m' & P' & AP). rewrite P in P'. injection P' as <-. specialize (AP D).
  destruct (C76_optimal _ _ _ _ _ _ _ SC (Forall_nil _) P) as (O & _ & OPT). cbn [used_weights] in OPT.
  assert (EM : forall p, similar t (euler_matrix e) s p = similar t m s p) by (intro p; rewrite <- AP; unfold helmert_apply_to, similar; rewrite (rotation_matrix_euler ops RC); reflexivity).
  assert (LX : length (xyz gt) = length (xyz est)) by (symmetry; exact L).
  assert (G : forall t' e' s', exists est2 r2, apply_alignment ops (mkAlign t' e' s' 0 vzero) sensor false est = Ok est2 /\ compare_absolute ops est2 gt = Ok r2 /\ pos_dev_rms r2 = Some (sqrt (misfit t' (euler_matrix e') s' (repeat 1 (length (xyz est))) (xyz est) (xyz gt) / INR (tlen gt)))).
  { intros t' e' s'. destruct (aligned_similar ops t' e' s' sensor est RC Ce) as (est2 & A & C2 & L2 & X). destruct (rms_of_rest ops est2 gt C2 Cg ltac:(congruence) N) as (r2 & K & RM). exists est2, r2. rewrite X, rest_misfit in RM by exact LX. repeat split; assumption. }
  assert (ME : misfit t (euler_matrix e) s (repeat 1 (length (xyz est))) (xyz est) (xyz gt) = misfit t m s (repeat 1 (length (xyz est))) (xyz est) (xyz gt)) by (rewrite <- !rest_misfit by exact LX; f_equal; apply map_ext, EM).
  destruct (G t e s) as (est1 & r1 & A1 & K1 & R1). rewrite ME in R1. destruct (rms_of_rest ops est gt Ce Cg L N) as (r & K & RM).
  do 5 eexists. split; [exact A1|]. split; [exact K1|]. split; [exact R1|]. split; [exact K|]. split; [exact RM|]. split.
  - apply root_le. eapply Rle_trans; [apply (OPT vzero mident 1 ident_orth)|]. rewrite <- rest_misfit by exact LX. apply Req_le. f_equal. rewrite <- (map_id (xyz est)) at 2. apply map_ext. intro p. unfold similar. rewrite mapply_ident. apply V3_eq; munf; ring.
  - intros t' e' s'. destruct (G t' e' s') as (est2 & r2 & A2 & K2 & R2). do 3 eexists. split; [exact A2|]. split; [exact K2|]. split; [exact R2|]. apply root_le, OPT. exact (proj1 (is_rot_euler e')).
Qed.
Print Assumptions C170_similarity.

(** Lever arm and time shift: the same, compared with any other lever arm and time shift. *)
Lemma rest_lever {Q} (ops : rot_ops Q) dt l (q : list Q) : rot_contract ops -> forall to from v moved, length to = length from -> length q = length from -> length v = length from -> length moved = length from ->
  (forall i x s r, nth_error from i = Some x -> nth_error v i = Some s -> nth_error q i = Some r -> nth_error moved i = Some (vadd x (vadd (mapply (as_matrix ops r) l) (vscale dt s)))) ->
  rest_sum to moved = np_sum (map (fun d => vdot d d) (lever_rests dt l to from (map (as_euler ops) q) v)) /\ length (lever_rests dt l to from (map (as_euler ops) q) v) = length from.
Proof.
  intro RC. induction q as [|r q IH]; intros [|b to] [|x from] [|s v] [|y moved] L1 L2 L3 L4 H; cbn in L1, L2, L3, L4; try lia; [split; reflexivity|].
  destruct (IH to from v moved) as [A B]; try lia; [intros i; exact (H (S i))|]. cbn [map lever_rests length]. split; [|rewrite B; reflexivity].
  unfold rest_sum, np_sum in *. cbn [combine map fold_right fst snd]. rewrite A. f_equal.
  assert (Y := H 0%nat x s r eq_refl eq_refl eq_refl). cbn in Y. injection Y as ->. unfold lever_rest. rewrite (euler_as_euler ops RC). generalize (mapply (as_matrix ops r) l). intro c. rewrite dist_square. destruct b, x, c, s. munf. ring.
Qed.
Theorem C170_leverarm : forall Q (ops : rot_ops Q) solve sensor (est gt : traj Q) q l dt res, rot_contract ops -> solve_contract solve -> consistent est -> consistent gt -> tlen est = tlen gt -> tlen gt <> 0%nat -> rot est = Some q ->
  direct_leverarm solve (xyz gt) (xyz est) (map (as_euler ops) q) None (Some (speed est)) = Ok (l, dt, res) ->
  exists est1 r1 q1 r q0, apply_alignment ops (mkAlign vzero vzero 1 dt l) sensor false est = Ok est1 /\ compare_absolute ops est1 gt = Ok r1 /\ pos_dev_rms r1 = Some q1 /\
    compare_absolute ops est gt = Ok r /\ pos_dev_rms r = Some q0 /\ q1 <= q0 /\
    forall dt' l', exists est2 r2 q2, apply_alignment ops (mkAlign vzero vzero 1 dt' l') sensor false est = Ok est2 /\ compare_absolute ops est2 gt = Ok r2 /\ pos_dev_rms r2 = Some q2 /\ q1 <= q2.
Proof.
  intros Q ops solve sensor est gt q l dt res RC SC Ce Cg L N RQ E. set (n := length (xyz est)).
  assert (F1 : Forall (fun c => 0 <= c) (repeat 1 n)) by (apply Forall_forall; intros x I; apply repeat_spec in I; lra).
  destruct (C77_leverarm solve (xyz gt) (xyz est) (map (as_euler ops) q) None (Some (speed est)) (repeat 1 n) (repeat 1 n) (repeat 1 n) l dt res SC) as (_ & _ & _ & OPT); try exact F1; [unfold axis_weights; rewrite !repeat_length; repeat split|exact E|]. cbn [used_speed] in OPT.
  assert (LX : length (xyz gt) = length (xyz est)) by (symmetry; exact L). assert (LQ : length q = length (xyz est)) by (destruct Ce as (_ & A & _); rewrite RQ in A; exact A). assert (LV : length (speed est) = length (xyz est)) by apply Ce.
  assert (G : forall dt' l', exists est2 r2, apply_alignment ops (mkAlign vzero vzero 1 dt' l') sensor false est = Ok est2 /\ compare_absolute ops est2 gt = Ok r2 /\
    pos_dev_rms r2 = Some (sqrt (axis_error (repeat 1 n) (repeat 1 n) (repeat 1 n) (lever_rests dt' l' (xyz gt) (xyz est) (map (as_euler ops) q) (speed est)) / INR (tlen gt)))).
  { intros dt' l'. destruct (aligned_shifted ops dt' l' sensor est RC Ce) as (est2 & A & C2 & L2 & W & _). destruct (rms_of_rest ops est2 gt C2 Cg ltac:(congruence) N) as (r2 & K & RM). exists est2, r2.
    destruct (rest_lever ops dt' l' q RC (xyz gt) (xyz est) (speed est) (xyz est2) LX LQ LV L2) as [RS LR]; [intros i x v r X V RR; apply (W q i x v r RQ X V RR)|].
    rewrite RS, <- ones_error, LR in RM. fold n in RM. repeat split; assumption. }
  assert (Z : rest_sum (xyz gt) (xyz est) = axis_error (repeat 1 n) (repeat 1 n) (repeat 1 n) (lever_rests 0 vzero (xyz gt) (xyz est) (map (as_euler ops) q) (speed est))).
  { destruct (rest_lever ops 0 vzero q RC (xyz gt) (xyz est) (speed est) (xyz est) LX LQ LV eq_refl) as [RS LR]; [|rewrite RS, <- ones_error, LR; reflexivity].
    intros i x v r X _ _. rewrite X. f_equal. rewrite mapply_zero. apply V3_eq; munf; ring. }
  destruct (G dt l) as (est1 & r1 & A1 & K1 & R1). destruct (rms_of_rest ops est gt Ce Cg L N) as (r & K & RM). rewrite Z in RM.
  do 5 eexists. split; [exact A1|]. split; [exact K1|]. split; [exact R1|]. split; [exact K|]. split; [exact RM|]. split; [apply root_le, OPT; discriminate|].
  intros dt' l'. destruct (G dt' l') as (est2 & r2 & A2 & K2 & R2). do 3 eexists. split; [exact A2|]. split; [exact K2|]. split; [exact R2|]. apply root_le, OPT. discriminate.
Qed.
Print Assumptions C170_leverarm.

Lemma rest_shift dt : forall to from v moved, length to = length from -> length v = length from -> length moved = length from ->
  (forall i x s, nth_error from i = Some x -> nth_error v i = Some s -> nth_error moved i = Some (vadd x (vscale dt s))) ->
  rest_sum to moved = np_sum (map (fun d => vdot d d) (shift_rests dt to from v)) /\ length (shift_rests dt to from v) = length from.
Proof.
  intros to from. revert to. induction from as [|x from IH]; intros [|b to] [|s v] [|y moved] L1 L3 L4 H; cbn in L1, L3, L4; try lia; [split; reflexivity|].
  destruct (IH to v moved) as [A B]; try lia; [intros i; exact (H (S i))|]. cbn [shift_rests length]. split; [|rewrite B; reflexivity].
  unfold rest_sum, np_sum in *. cbn [combine map fold_right fst snd]. rewrite A. f_equal.
  assert (Y := H 0%nat x s eq_refl eq_refl). cbn in Y. injection Y as ->. rewrite dist_square. destruct b, x, s. munf. ring.
Qed.
(** The time shift alone, also for trajectories without orientations. *)
Theorem C170_timeshift : forall Q (ops : rot_ops Q) solve sensor (est gt : traj Q) dt res, rot_contract ops -> solve_contract solve -> consistent est -> consistent gt -> tlen est = tlen gt -> tlen gt <> 0%nat ->
  direct_timeshift solve (xyz gt) (xyz est) (speed est) None = Ok (dt, res) ->
  exists est1 r1 q1 r q0, apply_alignment ops (mkAlign vzero vzero 1 dt vzero) sensor false est = Ok est1 /\ compare_absolute ops est1 gt = Ok r1 /\ pos_dev_rms r1 = Some q1 /\
    compare_absolute ops est gt = Ok r /\ pos_dev_rms r = Some q0 /\ q1 <= q0 /\
    forall dt', exists est2 r2 q2, apply_alignment ops (mkAlign vzero vzero 1 dt' vzero) sensor false est = Ok est2 /\ compare_absolute ops est2 gt = Ok r2 /\ pos_dev_rms r2 = Some q2 /\ q1 <= q2.
Proof.
  intros Q ops solve sensor est gt dt res RC SC Ce Cg L N E. set (n := length (xyz est)).
  assert (F1 : Forall (fun c => 0 <= c) (repeat 1 n)) by (apply Forall_forall; intros x I; apply repeat_spec in I; lra).
  destruct (C78_timeshift solve (xyz gt) (xyz est) (speed est) None (repeat 1 n) (repeat 1 n) (repeat 1 n) dt res SC) as (_ & _ & OPT); try exact F1; [unfold shift_weights, axis_weights; rewrite !repeat_length; repeat split|exact E|].
  assert (LX : length (xyz gt) = length (xyz est)) by (symmetry; exact L). assert (LV : length (speed est) = length (xyz est)) by apply Ce.
  assert (G : forall dt', exists est2 r2, apply_alignment ops (mkAlign vzero vzero 1 dt' vzero) sensor false est = Ok est2 /\ compare_absolute ops est2 gt = Ok r2 /\
    pos_dev_rms r2 = Some (sqrt (axis_error (repeat 1 n) (repeat 1 n) (repeat 1 n) (shift_rests dt' (xyz gt) (xyz est) (speed est)) / INR (tlen gt)))).
  { intros dt'. destruct (aligned_shifted ops dt' vzero sensor est RC Ce) as (est2 & A & C2 & L2 & _ & W). destruct (rms_of_rest ops est2 gt C2 Cg ltac:(congruence) N) as (r2 & K & RM). exists est2, r2.
    destruct (rest_shift dt' (xyz gt) (xyz est) (speed est) (xyz est2) LX LV L2) as [RS LR]; [intros i x v X V; apply (W i x v (or_intror eq_refl) X V)|].
    rewrite RS, <- ones_error, LR in RM. fold n in RM. repeat split; assumption. }
  assert (Z : rest_sum (xyz gt) (xyz est) = axis_error (repeat 1 n) (repeat 1 n) (repeat 1 n) (shift_rests 0 (xyz gt) (xyz est) (speed est))).
  { destruct (rest_shift 0 (xyz gt) (xyz est) (speed est) (xyz est) LX LV eq_refl) as [RS LR]; [|rewrite RS, <- ones_error, LR; reflexivity].
    intros i x v X _. rewrite X. f_equal. apply V3_eq; munf; ring. }
  destruct (G dt) as (est1 & r1 & A1 & K1 & R1). destruct (rms_of_rest ops est gt Ce Cg L N) as (r & K & RM). rewrite Z in RM.
  do 5 eexists. split; [exact A1|]. split; [exact K1|]. split; [exact R1|]. split; [exact K|]. split; [exact RM|]. split; [apply root_le, OPT|].
  intros dt'. destruct (G dt') as (est2 & r2 & A2 & K2 & R2). do 3 eexists. split; [exact A2|]. split; [exact K2|]. split; [exact R2|]. apply root_le, OPT.
Qed.
Print Assumptions C170_timeshift.

(** The mean error is no such measure: it can grow by aligning.  Six points, of which two are displaced by one: without alignment four errors are
    zero and the mean is 1/3; the best similarity enlarges by 4/3, which leaves four errors of 1/3 and two of 2/3. *)
Definition longer : list V3 := map (fun p => mkV3 (2 * vx p) (vy p) (vz p)) corners.
Definition six {Q} (l : list V3) : traj Q := mkTraj [0; 1; 2; 3; 4; 5] l None [0; 1; 2; 3; 4; 5] (repeat vzero 6) SortTime "six" 0.
Lemma six_mean Q (ops : rot_ops Q) (test ref : traj Q) r : consistent test -> consistent ref -> tlen test = tlen ref -> tlen ref <> 0%nat -> compare_absolute ops test ref = Ok r ->
  pos_ate r = Some (np_sum (map (fun p => vdist (fst p) (snd p)) (combine (xyz ref) (xyz test))) / INR (tlen ref)).
Proof.
  intros Ct Cr L N E. destruct (compare_absolute_ok ops test ref Ct Cr L) as (r' & E' & _ & _ & LP & _ & H & _). rewrite E in E'. injection E' as <-.
  assert (D := zip_diff (xyz ref) (xyz test) (pos_dev r) (eq_sym L) LP H). unfold pos_ate, pos_dev_comb. rewrite np_mean_some.
  - rewrite !map_length, LP. do 2 f_equal. rewrite D, !map_map. reflexivity.
  - intro Z. apply map_eq_nil in Z. rewrite Z in LP. cbn in LP. congruence.
Qed.
Theorem C170_mean_refuted : forall Q (ops : rot_ops Q) sensor, rot_contract ops -> exists svd t e s m est1 r1 r, svd_contract svd /\
  direct_helmert svd ops (xyz (@six Q corners)) (xyz (@six Q longer)) [] = Ok (Some (t, e, s)) /\ procrustes svd (xyz (@six Q corners)) (xyz (@six Q longer)) [] = Ok (Some (t, m, s)) /\ mdet m = 1 /\
  apply_alignment ops (mkAlign t e s 0 vzero) sensor false (six corners) = Ok est1 /\ compare_absolute ops (six corners) (six longer) = Ok r /\ compare_absolute ops est1 (six longer) = Ok r1 /\
  pos_ate r = Some (1/3) /\ pos_ate r1 = Some (4/9).
Proof.
  intros Q ops sensor RC. assert (I : mmul (mtrans mident) (mtrans mident) = mident) by (m3; ring).
  set (svd := svd_known mident (mkV3 4 2 2) mident). assert (SC : svd_contract svd) by (apply svd_known_contract; [exact ident_orth|exact ident_orth|cbn; lra..]).
  assert (P : procrustes svd corners longer [] = Ok (Some (vzero, mident, 4/3))).
  { unfold svd. rewrite procrustes_known; unfold longer, corners; [|reflexivity|flatv|flatv|flatr|flatr|flatm]. rewrite I; do 3 f_equal; flat0; field. }
  set (e := as_euler ops (from_matrix ops mident)). assert (H : direct_helmert svd ops corners longer [] = Ok (Some (vzero, e, 4/3))) by (unfold direct_helmert; rewrite P; reflexivity).
  assert (IR : is_rot mident) by (split; [m3; ring|munf; ring]). assert (EM : euler_matrix e = mident) by (unfold e; rewrite (euler_as_euler ops RC); apply (rc_from ops RC), IR).
  assert (C1 : consistent (@six Q corners)) by (repeat split). assert (C2 : consistent (@six Q longer)) by (repeat split).
  destruct (aligned_similar ops vzero e (4/3) sensor (@six Q corners) RC C1) as (est1 & A & C3 & L3 & X). rewrite EM in X.
  destruct (rms_of_rest ops (@six Q corners) (six longer) C1 C2 eq_refl ltac:(discriminate)) as (r & K & _). destruct (rms_of_rest ops est1 (six longer) C3 C2 L3 ltac:(discriminate)) as (r1 & K1 & _).
  exists svd, vzero, e, (4/3), mident, est1, r1, r. split; [exact SC|]. split; [exact H|]. split; [exact P|]. split; [exact (proj2 IR)|]. split; [exact A|]. split; [exact K|]. split; [exact K1|].
  rewrite (six_mean Q ops _ _ r C1 C2 eq_refl ltac:(discriminate) K), (six_mean Q ops _ _ r1 C3 C2 L3 ltac:(discriminate) K1), X.
  assert (LN : INR (tlen (@six Q longer)) = 6) by (unfold tlen; cbn [six xyz longer corners map length INR]; ring). rewrite LN.
  assert (V : forall (a b : V3) d, 0 <= d -> (vx a - vx b) * (vx a - vx b) + (vy a - vy b) * (vy a - vy b) + (vz a - vz b) * (vz a - vz b) = d * d -> vdist a b = d).
  { intros a b d D E. unfold vdist, vnorm. replace (vdot _ _) with (d * d) by (rewrite <- E; munf; ring). apply sqrt_square, D. }
  split; f_equal; cbn [six xyz longer corners map combine fst snd np_sum fold_right].
  - rewrite (V _ _ 1 ltac:(lra)), (V _ _ 1 ltac:(lra)), !(V _ _ 0 ltac:(lra)) by (munf; lra). field.
  - unfold similar. rewrite !mapply_ident. rewrite (V (mkV3 (2 * 1) _ _) _ (2/3)), (V (mkV3 (2 * -1) _ _) _ (2/3)), !(V _ _ (1/3)) by (munf; lra). field.
Qed.
Print Assumptions C170_mean_refuted.

(** Exact data with a lever arm and a time shift, and with a time shift only: the hypotheses are met, and there is something to gain. *)
Definition pair_of {Q} (l v : list V3) (q : option (list Q)) : traj Q := mkTraj [0; 1] l q [0; 1] v SortTime "pair" 0.
Example C170_case : forall Q (ops : rot_ops Q) (a b : Q), rot_contract ops ->
  (let v := [mkV3 1 0 0; mkV3 0 1 0] in let gt l dt := map (levered dt l) [(vzero, as_euler ops a, mkV3 1 0 0); (vzero, as_euler ops b, mkV3 0 1 0)] in
   let est := pair_of [vzero; vzero] v (Some [a; b]) in consistent est /\ consistent (pair_of (gt (mkV3 1 2 3) 1) v (Some [a; b])) /\
   exists solve res, solve_contract solve /\ direct_leverarm solve (gt (mkV3 1 2 3) 1) (xyz est) (map (as_euler ops) [a; b]) None (Some (speed est)) = Ok (mkV3 1 2 3, 1, res)) /\
  exists solve res, solve_contract solve /\ direct_timeshift solve [mkV3 2 0 0; mkV3 5 2 0] [mkV3 0 0 0; mkV3 3 0 0] [mkV3 1 0 0; mkV3 1 1 0] None = Ok (2, res).
Proof.
  intros Q ops a b RC. split.
  - cbv zeta. split; [repeat split|]. split; [repeat split|]. exact (C77_reachable [(vzero, as_euler ops a, mkV3 1 0 0); (vzero, as_euler ops b, mkV3 0 1 0)] (mkV3 1 2 3) 1 ltac:(discriminate)).
  - exists (solve_guess [2]). eexists. split; [apply solve_guess_contract|]. unfold direct_timeshift. cbn [length Nat.eqb negb].
    assert (direct_observations [mkV3 2 0 0; mkV3 5 2 0] [mkV3 0 0 0; mkV3 3 0 0] = mv (map (fun x => [x]) (by_axis [mkV3 1 0 0; mkV3 1 1 0])) [2]) as ->.
    { unfold direct_observations, by_axis, mv. cbn. repeat (apply cons_eq; [ring|]). reflexivity. }
    rewrite guess_exact; [reflexivity| |reflexivity|discriminate| |reflexivity].
    + apply Forall_forall. intros x X. apply repeat_spec in X. lra.
    + apply Forall_map, Forall_forall. reflexivity.
Qed.
