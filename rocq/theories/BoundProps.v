(** C159: absolute errors bound relative errors. *)
From Verif Require Import Base BaseFacts VecFacts NumpyModel NumpyFacts TrajModel TrajSpec TrajFacts TrajFacts3 GeomModel GeomSpec GeomFacts GeomFacts2
  GeomProps EvalModel EvalSpec EvalFacts EvalFacts2 EvalFacts3 EvalFacts4 EvalFacts5 EvalStats AngModel AngSpec AngFacts AngFacts2 AngProps EvalProps DriftSpec DriftProps.

(** ** How far a rotation moves a point *)
Lemma turn_moves u a v : vdot u u = 1 -> vdot (vsub (mapply (turn u a) v) v) (vsub (mapply (turn u a) v) v) = 2 * (1 - cos a) * (vdot v v - vdot u v * vdot u v).
Proof.
  intro U. assert (S := sin2_cos2 a). unfold Rsqr in S. destruct u as [x y z], v as [p q r]. unfold vdot in U. cbn [vx vy vz] in U.
  set (s := sin a) in *. set (c := cos a) in *. unfold turn. fold s c. unfold cross_matrix. clearbody s c.
  assert (U' : x * x = 1 - y * y - z * z) by lra. assert (S' : s * s = 1 - c * c) by lra. munf. ring [U' S'].
Qed.
Lemma turn_chord u a v : vdot u u = 1 -> 0 <= a <= PI -> vnorm (vsub (mapply (turn u a) v) v) <= 2 * sin (a / 2) * vnorm v.
Proof.
  intros U A. assert (P := PI_RGT_0). assert (S0 : 0 <= sin (a / 2)) by (apply sin_ge_0; lra). assert (N0 := vnorm_nonneg v).
  apply Rle_sq; [apply Rmult_le_pos; lra|]. rewrite vnorm_sq, (turn_moves u a v U), half_cos.
  replace (2 * sin (a / 2) * vnorm v * (2 * sin (a / 2) * vnorm v)) with (4 * (sin (a / 2) * sin (a / 2)) * (vnorm v * vnorm v)) by ring.
  rewrite vnorm_sq, half_sq. assert (0 <= vdot u v * vdot u v) by apply Rle_0_sqr. assert (Q := half_sq a). assert (0 <= sin (a / 2) * sin (a / 2)) by (apply Rmult_le_pos; lra).
  set (w := cos (a / 2) * cos (a / 2)) in *. set (d := vdot u v * vdot u v) in *. set (n := vdot v v) in *.
  assert (0 <= (1 - w) * d) by (apply Rmult_le_pos; lra). lra.
Qed.

Lemma is_max (l : list R) m x : np_max l = Ok m -> In x l -> x <= m.
Proof.
  intros E I. destruct (np_max_spec l) as (y & E' & _ & G); [intros ->; contradiction|]. rewrite E in E'. injection E' as <-. apply G, I.
Qed.

Section Bounds.
  Context {Q : Type} (ops : rot_ops Q) (rv : Q -> V3) (RC : rot_contract ops) (VC : rotvec_contract ops rv).

  Lemma position_bound test ref ra eps i a b : consistent test -> consistent ref -> tlen test = tlen ref -> compare_absolute ops test ref = Ok ra -> pos_dev_max ra = Ok eps ->
    nth_error (xyz ref) i = Some a -> nth_error (xyz test) i = Some b -> vdist a b <= eps.
  Proof.
    intros Ct Cr L E M A B. destruct (C33_deviations Q ops test ref RC Ct Cr L) as (r & E' & _ & _ & _ & _ & D & _). rewrite E in E'. injection E' as <-.
    apply (is_max (pos_dev_comb ra) eps _ M). unfold pos_dev_comb, vdist. apply in_map. eapply nth_error_In. exact (D i a b A B).
  Qed.
  Lemma angle_bound test ref ra alpha q q' i a b : consistent test -> consistent ref -> tlen test = tlen ref -> compare_absolute ops test ref = Ok ra -> rot_dev_max rv ra = Ok alpha ->
    rot ref = Some q -> rot test = Some q' -> nth_error q i = Some a -> nth_error q' i = Some b -> rotangle rv (rot_sub ops a b) <= alpha.
  Proof.
    intros Ct Cr L E M Er Et A B. destruct (compare_angles ops test ref q q' Ct Cr L Er Et) as (r & d & E' & D & _ & _ & H). rewrite E in E'. injection E' as <-.
    unfold rot_dev_max, rot_dev_comb in M. rewrite D in M. cbn [flatten] in M. apply (is_max _ alpha _ M). apply in_map. eapply nth_error_In. exact (H i a b A B).
  Qed.

  Lemma bounded_pair test ref s ra r e eps alpha : consistent test -> consistent ref -> tlen test = tlen ref -> has_orientation test = true -> has_orientation ref = true ->
    compare_absolute ops test ref = Ok ra -> pos_dev_max ra = Ok eps -> rot_dev_max rv ra = Ok alpha ->
    compare_relative ops test ref s = Ok r -> entry_of r e -> 0 < e_dist e ->
    exists ds i j di dj ri rj x y, pair_distances ref (pair_distance_unit s) = Ok ds /\ nth_error ds i = Some di /\ nth_error ds j = Some dj /\ e_dist e = dj - di /\
      nth_error (xyz ref) i = Some ri /\ nth_error (xyz ref) j = Some rj /\ e_pos e = Some x /\ e_rot e = Some (Some y) /\
      0 <= x <= (2 * eps + 2 * sin (alpha / 2) * (vdist ri rj + 2 * eps)) / e_dist e /\ 0 <= y <= 2 * alpha / e_dist e.
  Proof.
    intros Ct Cr L Ot Or Ea Mp Mr H (k & es & Hk & He) D.
    destruct (C29_entries Q ops test ref s r k es e RC Ct Cr Ot Or H Hk He) as (ds & i & j & di & dj & Pi & Pj & Ti & Tj & M & N & E & a & Hd & Hi & Hj & De & HPi & HPj & HTi & HTj & HM & HN & HE & Ha & Hv & _ & _).
    destruct HPi as (q1 & ri & m1 & E1 & X1 & Y1 & ->). destruct HPj as (q2 & rj & m2 & E2 & X2 & Y2 & ->).
    destruct HTi as (q3 & ti & m3' & E3 & X3 & Y3 & ->). destruct HTj as (q4 & tj & m4' & E4 & X4 & Y4 & ->).
    assert (q2 = q1) by congruence. assert (q4 = q3) by congruence. subst q2 q4.
    assert (Bi := position_bound test ref ra eps i ri ti Ct Cr L Ea Mp X1 X3). assert (Bj := position_bound test ref ra eps j rj tj Ct Cr L Ea Mp X2 X4).
    assert (Ai := angle_bound test ref ra alpha q1 q3 i m1 m3' Ct Cr L Ea Mr E1 E3 Y1 Y3). assert (Aj := angle_bound test ref ra alpha q1 q3 j m2 m4' Ct Cr L Ea Mr E1 E3 Y2 Y4).
    destruct (error_parts _ _ _ _ _ _ _ _ _ _ _ (rc_rot ops RC m1) (rc_rot ops RC m2) (rc_rot ops RC m3') HM HN HE) as [LE TE].
    destruct (Hv ltac:(lra)) as [P R]. exists ds, i, j, di, dj, ri, rj, (vnorm (tra E) / (dj - di)), (a / (dj - di)).
    repeat (split; [assumption|]). rewrite De in D |- *.
    assert (DI : 0 <= / (dj - di)) by (apply Rlt_le, Rinv_0_lt_compat; lra).
    split; [split; [apply Rmult_le_pos; [apply vnorm_nonneg|exact DI]|apply Rmult_le_compat_r; [exact DI|]]|].
    - rewrite <- (rot_norm _ _ (rc_rot ops RC m2)), TE, <- mapply_mmul.
      destruct (rotangle_turn ops rv VC (rot_sub ops m1 m3')) as (u & U & AP & MT). rewrite (rot_sub_matrix ops RC) in MT. rewrite MT.
      set (t := rotangle rv (rot_sub ops m1 m3')) in *. set (v := vsub tj ti).
      assert (CH := turn_chord u t v U AP).
      assert (K : vnorm (vsub (mapply (turn u t) v) (vsub rj ri)) <= vnorm (vsub (mapply (turn u t) v) v) + (vdist rj tj + vdist ri ti)).
      { assert (T1 := vnorm_triangle (vsub (mapply (turn u t) v) v) (vsub (vsub tj rj) (vsub ti ri))).
        assert (T2 := vnorm_triangle (vsub tj rj) (vscale (-1) (vsub ti ri))).
        replace (vadd (vsub tj rj) (vscale (-1) (vsub ti ri))) with (vsub (vsub tj rj) (vsub ti ri)) in T2 by (destruct tj, rj, ti, ri; apply V3_eq; munf; ring).
        replace (vadd (vsub (mapply (turn u t) v) v) (vsub (vsub tj rj) (vsub ti ri))) with (vsub (mapply (turn u t) v) (vsub rj ri)) in T1
          by (unfold v; generalize (mapply (turn u t) (vsub tj ti)); intros [w1 w2 w3]; destruct tj, rj, ti, ri; apply V3_eq; munf; ring).
        rewrite vnorm_scale in T2. replace (Rabs (-1)) with 1 in T2 by (rewrite Rabs_left; lra).
        assert (S1 := vdist_sym rj tj). assert (S2 := vdist_sym ri ti). unfold vdist in S1, S2 |- *. lra. }
      assert (LV : vnorm v <= vdist ri rj + 2 * eps).
      { assert (W1 := vdist_triangle tj rj ti). assert (W2 := vdist_triangle rj ri ti). assert (S1 := vdist_sym rj tj). assert (S2 := vdist_sym ri rj).
        change (vnorm v) with (vdist tj ti). lra. }
      assert (PP := PI_RGT_0). assert (AL : t <= alpha) by exact Ai. assert (A0 : 0 <= t) by lra.
      assert (S0 : 0 <= sin (t / 2)) by (apply sin_ge_0; lra).
      assert (AM : alpha <= PI).
      { unfold rot_dev_max, rot_dev_comb in Mr. destruct (compare_angles ops test ref q1 q3 Ct Cr L E1 E3) as (r' & d & E' & Dd & _ & _ & _). rewrite Ea in E'. injection E' as <-.
        rewrite Dd in Mr. cbn [flatten] in Mr. destruct (np_max_spec (map (rotangle rv) d)) as (mx & Em & I & _); [intro Z; rewrite Z in Mr; discriminate|].
        rewrite Mr in Em. injection Em as <-. apply in_map_iff in I as (w & <- & _). destruct (rotangle_turn ops rv VC w) as (_ & _ & [_ W] & _). exact W. }
      assert (SM : sin (t / 2) <= sin (alpha / 2)) by (apply sin_incr_1; lra).
      assert (N0 := vnorm_nonneg v). assert (sin (t / 2) * vnorm v <= sin (alpha / 2) * (vdist ri rj + 2 * eps)) by (apply Rmult_le_compat; assumption). lra.
    - destruct Ha as [[A0 A1] TA]. split; [apply Rmult_le_pos; assumption|]. apply Rmult_le_compat_r; [exact DI|].
      set (g := rot_sub ops m1 m3'). set (h := rot_sub ops m4' m2). set (f := rmul ops g h).
      assert (EH : rotangle rv h = rotangle rv (rot_sub ops m2 m4')).
      { apply (rotangle_trace ops rv VC). unfold h. rewrite !(rot_sub_matrix ops RC). generalize (as_matrix ops m2) (as_matrix ops m4'). intros m n.
        destruct m as [[] [] []], n as [[] [] []]. unfold mtrace. munf. ring. }
      assert (T := rotangle_mul ops rv VC g h f (rc_mul ops RC g h)).
      assert (EA : a = rotangle rv f).
      { apply (angle_unique (lin E)); [split; [split|]; assumption|]. destruct (rotangle_angle ops rv VC f) as [B0 TB]. split; [exact B0|]. rewrite <- TB.
        unfold f. rewrite (rc_mul ops RC). unfold g, h. rewrite !(rot_sub_matrix ops RC).
        assert (LX : lin E = mmul (mtrans (as_matrix ops m2)) (mmul (as_matrix ops m1) (mmul (mtrans (as_matrix ops m3')) (as_matrix ops m4')))).
        { rewrite <- LE, <- mmul_assoc, (is_rot_left _ (rc_rot ops RC m2)), mmul_ident_l. reflexivity. }
        rewrite LX, <- (mmul_assoc (as_matrix ops m1)), <- (mmul_assoc (mmul (as_matrix ops m1) (mtrans (as_matrix ops m3')))).
        generalize (mmul (mmul (as_matrix ops m1) (mtrans (as_matrix ops m3'))) (as_matrix ops m4')) (mtrans (as_matrix ops m2)). intros m n.
        destruct m as [[] [] []], n as [[] [] []]. unfold mtrace. munf. ring. }
      fold g in Ai. rewrite <- EH in Aj. lra.
  Qed.
  Lemma bounded_angles test ref ra eps alpha i ri : consistent test -> consistent ref -> tlen test = tlen ref -> has_orientation test = true -> has_orientation ref = true ->
    compare_absolute ops test ref = Ok ra -> pos_dev_max ra = Ok eps -> rot_dev_max rv ra = Ok alpha -> nth_error (xyz ref) i = Some ri -> 0 <= eps /\ 0 <= alpha /\ alpha <= PI.
  Proof.
    intros Ct Cr L Ot Or Ea Mp Mr A. split.
    { destruct (nth_error_lt_Some (xyz test) i) as [ti B]; [apply nth_error_Some_lt in A; unfold tlen in L; lia|].
      eapply Rle_trans; [apply vnorm_nonneg|exact (position_bound test ref ra eps i ri ti Ct Cr L Ea Mp A B)]. }
    unfold has_orientation in Ot, Or. destruct (rot test) as [q'|] eqn:Et; [|discriminate]. destruct (rot ref) as [q|] eqn:Er; [|discriminate].
    unfold rot_dev_max, rot_dev_comb in Mr. destruct (compare_angles ops test ref q q' Ct Cr L Er Et) as (r' & d & E' & Dd & _ & _ & _). rewrite Ea in E'. injection E' as <-.
    rewrite Dd in Mr. cbn [flatten] in Mr. destruct (np_max_spec (map (rotangle rv) d)) as (mx & Em & I & _); [intro Z; rewrite Z in Mr; discriminate|].
    rewrite Mr in Em. injection Em as <-. apply in_map_iff in I as (w & <- & _). destruct (rotangle_turn ops rv VC w) as (_ & _ & W & _). exact W.
  Qed.
End Bounds.

(** With the largest absolute errors [eps] of positions and [alpha] of orientations, no relative rotation error exceeds [2 alpha] over the
    distance, and no relative position error exceeds [2 eps] plus what [alpha] moves the end of the displacement, over the distance. *)
Theorem C159_bounds : forall (Q : Type) (ops : rot_ops Q) rv (test ref : traj Q) s ra r e eps alpha, rot_contract ops -> rotvec_contract ops rv ->
  consistent test -> consistent ref -> tlen test = tlen ref -> has_orientation test = true -> has_orientation ref = true ->
  compare_absolute ops test ref = Ok ra -> pos_dev_max ra = Ok eps -> rot_dev_max rv ra = Ok alpha ->
  compare_relative ops test ref s = Ok r -> entry_of r e -> 0 < e_dist e ->
  exists i j ri rj x y, nth_error (xyz ref) i = Some ri /\ nth_error (xyz ref) j = Some rj /\ e_pos e = Some x /\ e_rot e = Some (Some y) /\
    0 <= x <= (2 * eps + 2 * sin (alpha / 2) * (vdist ri rj + 2 * eps)) / e_dist e /\ 0 <= y <= 2 * alpha / e_dist e.
Proof.
  intros Q ops rv test ref s ra r e eps alpha RC VC Ct Cr L Ot Or Ea Mp Mr H He D.
  destruct (bounded_pair ops rv RC VC test ref s ra r e eps alpha Ct Cr L Ot Or Ea Mp Mr H He D) as (ds & i & j & di & dj & ri & rj & x & y & _ & _ & _ & _ & K).
  exists i, j, ri, rj, x, y. exact K.
Qed.
Print Assumptions C159_bounds.

(** Per metre of the reference path, over pairs of at least [d] metres. *)
Theorem C159_per_metre : forall (Q : Type) (ops : rot_ops Q) rv (test ref : traj Q) s ra r e eps alpha d, rot_contract ops -> rotvec_contract ops rv ->
  consistent test -> consistent ref -> tlen test = tlen ref -> has_orientation test = true -> has_orientation ref = true ->
  compare_absolute ops test ref = Ok ra -> pos_dev_max ra = Ok eps -> rot_dev_max rv ra = Ok alpha ->
  pair_distance_unit s = U_METER -> arc ref = lengths_from_xyz (xyz ref) ->
  compare_relative ops test ref s = Ok r -> entry_of r e -> 0 < d <= e_dist e ->
  exists x y, e_pos e = Some x /\ e_rot e = Some (Some y) /\
    0 <= x <= 2 * eps / d + 2 * sin (alpha / 2) * (1 + 2 * eps / d) /\ 0 <= y <= 2 * alpha / d.
Proof.
  intros Q ops rv test ref s ra r e eps alpha d RC VC Ct Cr L Ot Or Ea Mp Mr U AR H He [D0 D].
  destruct (bounded_pair ops rv RC VC test ref s ra r e eps alpha Ct Cr L Ot Or Ea Mp Mr H He ltac:(lra)) as (ds & i & j & di & dj & ri & rj & x & y & Hd & Hi & Hj & De & A & B & X & Y & [X0 X1] & [Y0 Y1]).
  rewrite U in Hd. cbn in Hd. injection Hd as <-. rewrite AR in Hi, Hj.
  assert (CH : vdist ri rj <= e_dist e).
  { rewrite De. destruct (le_lt_dec i j) as [LE|LE]; [exact (lengths_chord (xyz ref) i j di dj ri rj LE Hi Hj A B)|].
    assert (W := lengths_chord (xyz ref) j i dj di rj ri ltac:(lia) Hj Hi B A). assert (Z := vnorm_nonneg (vsub rj ri)). unfold vdist in W. lra. }
  exists x, y. split; [exact X|]. split; [exact Y|].
  destruct (bounded_angles ops rv RC VC test ref ra eps alpha i ri Ct Cr L Ot Or Ea Mp Mr A) as (E0 & A0 & A1).
  assert (S0 : 0 <= sin (alpha / 2)) by (assert (P := PI_RGT_0); apply sin_ge_0; lra).
  assert (I0 : 0 < / e_dist e) by (apply Rinv_0_lt_compat; lra). assert (I1 : / e_dist e <= / d) by (apply Rinv_le_contravar; lra).
  assert (G : forall z, 0 <= z -> z / e_dist e <= z / d) by (intros z Z; apply Rmult_le_compat_l; assumption).
  split; (split; [assumption|]).
  - eapply Rle_trans; [exact X1|]. 
    replace ((2 * eps + 2 * sin (alpha / 2) * (vdist ri rj + 2 * eps)) / e_dist e) with (2 * eps / e_dist e + 2 * sin (alpha / 2) * (vdist ri rj / e_dist e + 2 * eps / e_dist e)) by (field; lra).
    assert (G1 := G (2 * eps) ltac:(lra)).
    assert (Q1 : vdist ri rj / e_dist e <= 1). { apply Rmult_le_reg_r with (e_dist e); [lra|]. unfold Rdiv. rewrite Rmult_assoc, Rinv_l by lra. lra. }
    apply Rplus_le_compat; [exact G1|]. apply Rmult_le_compat_l; lra.
  - eapply Rle_trans; [exact Y1|]. apply G. lra.
Qed.
Print Assumptions C159_per_metre.

(** Without orientations. *)
Theorem C159_plain : forall (Q : Type) (ops : rot_ops Q) (test ref : traj Q) s ra r e eps, rot_contract ops ->
  consistent test -> consistent ref -> tlen test = tlen ref -> has_orientation ref = false \/ has_orientation test = false ->
  compare_absolute ops test ref = Ok ra -> pos_dev_max ra = Ok eps ->
  compare_relative ops test ref s = Ok r -> entry_of r e -> 0 < e_dist e ->
  exists x, e_pos e = Some x /\ 0 <= x <= 2 * eps / e_dist e /\ e_rot e = None.
Proof.
  intros Q ops test ref s ra r e eps RC Ct Cr L NO Ea Mp H (k & es & Hk & He) D.
  destruct (C29_entries_plain Q ops test ref s r k es e NO H Hk He) as (ds & i & j & di & dj & ri & rj & ti & tj & Hd & Hi & Hj & De & A & B & A' & B' & R & P & _).
  specialize (P ltac:(lra)). eexists. split; [exact P|]. split; [|exact R].
  assert (Bi := position_bound ops RC test ref ra eps i ri ti Ct Cr L Ea Mp A A'). assert (Bj := position_bound ops RC test ref ra eps j rj tj Ct Cr L Ea Mp B B').
  rewrite De in D |- *. assert (DI : 0 <= / (dj - di)) by (apply Rlt_le, Rinv_0_lt_compat; lra).
  split; [apply Rmult_le_pos; [apply Rabs_pos|exact DI]|]. apply Rmult_le_compat_r; [exact DI|].
  assert (T1 := vdist_triangle rj tj ri). assert (T2 := vdist_triangle tj ti ri). assert (T3 := vdist_triangle tj rj ti). assert (T4 := vdist_triangle rj ri ti).
  assert (S1 := vdist_sym rj tj). assert (S2 := vdist_sym ri ti). apply Rabs_le. lra.
Qed.
Print Assumptions C159_plain.

(** Conversely the absolute position errors of two poses differ by no more than the relative error between them, times the distance. *)
Theorem C159_growth : forall (Q : Type) (ops : rot_ops Q) (test ref : traj Q) s ra r e, rot_contract ops -> consistent test -> consistent ref -> tlen test = tlen ref ->
  same_orientations ops test ref -> compare_absolute ops test ref = Ok ra -> compare_relative ops test ref s = Ok r -> entry_of r e -> 0 < e_dist e ->
  exists i j ei ej x, nth_error (pos_dev_comb ra) i = Some ei /\ nth_error (pos_dev_comb ra) j = Some ej /\ e_pos e = Some x /\ Rabs (ej - ei) <= x * e_dist e.
Proof.
  intros Q ops test ref s ra r e RC Ct Cr L SO Ea H He D.
  destruct (C158_displacement Q ops test ref s r e RC Ct Cr SO H He ltac:(lra)) as (_ & i & j & ri & rj & ti & tj & A & B & A' & B' & P).
  destruct (C33_deviations Q ops test ref RC Ct Cr L) as (r' & E' & _ & _ & _ & _ & V & _). rewrite Ea in E'. injection E' as <-.
  exists i, j, (vdist ri ti), (vdist rj tj), (vnorm (vsub (vsub tj ti) (vsub rj ri)) / e_dist e).
  unfold pos_dev_comb. rewrite !nth_error_map', (V i ri ti A A'), (V j rj tj B B'). split; [reflexivity|]. split; [reflexivity|]. split; [exact P|].
  unfold Rdiv. rewrite Rmult_assoc, Rinv_l, Rmult_1_r by lra.
  assert (T := vdist_diff ti ri tj rj). replace (vsub (vsub rj tj) (vsub ri ti)) with (vscale (-1) (vsub (vsub tj ti) (vsub rj ri))) in T by (destruct ti, tj, ri, rj; apply V3_eq; munf; ring).
  rewrite vnorm_scale in T. replace (Rabs (-1)) with 1 in T by (rewrite Rabs_left; lra). rewrite Rabs_minus_sym. lra.
Qed.
Print Assumptions C159_growth.

(** The bound is reached: an estimate half a metre to the right at first and half a metre to the left a metre later. *)
Definition weaving : traj RotM := mkTraj [0; 1] [mkV3 0 (-1/2) 0; mkV3 1 (1/2) 0] (Some [unrotated; quarter]) [0; 1] [vzero; vzero] SortTime "weaving" 0.
Example C159_case : exists ra r e, consistent weaving /\ consistent duo /\ compare_absolute rot_impl weaving duo = Ok ra /\ pos_dev_max ra = Ok (1/2) /\
  rot_dev_max rotvec_impl ra = Ok 0 /\ compare_relative rot_impl weaving duo half_second = Ok r /\ entry_of r e /\ e_dist e = 1 /\ e_pos e = Some 1 /\ 1 = 2 * (1/2) / e_dist e.
Proof.
  assert (Cw : consistent weaving) by (repeat split).
  destruct (compare_angles rot_impl weaving duo _ _ Cw duo_consistent eq_refl eq_refl eq_refl) as (ra & d & Ea & Ed & Ld & _ & Hd).
  destruct (compared weaving duo Cw duo_consistent eq_refl eq_refl eq_refl) as (r & e & E & He & D).
  exists ra, r, e. split; [exact Cw|]. split; [exact duo_consistent|]. split; [exact Ea|]. split.
  { destruct (C33_deviations _ rot_impl weaving duo rot_impl_contract Cw duo_consistent eq_refl) as (r' & E' & _ & _ & L & _ & V & _). rewrite Ea in E'. injection E' as <-.
    assert (V0 := V 0%nat _ _ eq_refl eq_refl). assert (V1 := V 1%nat _ _ eq_refl eq_refl). unfold pos_dev_max, pos_dev_comb.
    destruct (pos_dev ra) as [|a [|b [|]]]; try discriminate L. cbn in V0, V1. injection V0 as ->. injection V1 as ->. cbn [map np_max fold_left].
    assert (N1 : vnorm (vsub (mkV3 0 0 0) (mkV3 0 (-1/2) 0)) = 1/2) by (apply vnorm_unique; [lra|munf; field]).
    assert (N2 : vnorm (vsub (mkV3 1 0 0) (mkV3 1 (1/2) 0)) = 1/2) by (apply vnorm_unique; [lra|munf; field]).
    unfold vsub in N1, N2. cbn [vx vy vz] in N1, N2. cbv [vsub]. cbn [vx vy vz].
    rewrite N1, N2, Rmax_left by lra. reflexivity. }
  split.
  { assert (Z : forall q, rotangle rotvec_impl (rot_sub rot_impl q q) = 0).
    { intro q. apply (proj2 (angle_zero _ _ (rc_rot rot_impl rot_impl_contract _) (rotangle_angle rot_impl rotvec_impl rotvec_witness _))).
      rewrite (rot_sub_matrix rot_impl rot_impl_contract). apply is_rot_right, (rc_rot rot_impl rot_impl_contract). }
    assert (V0 := Hd 0%nat _ _ eq_refl eq_refl). assert (V1 := Hd 1%nat _ _ eq_refl eq_refl). unfold rot_dev_max, rot_dev_comb. rewrite Ed.
    destruct d as [|a [|b [|]]]; try discriminate Ld. assert (EA : a = rot_sub rot_impl unrotated unrotated) by (injection V0; intro W; exact W). assert (EB : b = rot_sub rot_impl quarter quarter) by (injection V1; intro W; exact W).
    rewrite EA, EB. cbn [map flatten np_max fold_left].
    rewrite !Z, Rmax_left by lra. reflexivity. }
  split; [exact E|]. split; [exact He|]. split; [exact D|]. split; [|rewrite D; field].
  assert (DR : drifting (mkV3 0 (-1/2) 0) (mkV3 0 1 0) weaving duo).
  { intros i p t. unfold duo, weaving. destruct i as [|[|[|i]]]; cbn; intros A B; try discriminate; injection A as <-; injection B as <-; f_equal; apply V3_eq; munf; field. }
  assert (SO : same_orientations rot_impl weaving duo) by (do 2 eexists; split; [reflexivity|]; split; reflexivity).
  destruct (C158_drift _ rot_impl _ _ weaving duo half_second r e rot_impl_contract Cw duo_consistent SO DR eq_refl E He ltac:(lra)) as [P _]. rewrite P. f_equal.
  apply vnorm_unique; [lra|munf; ring].
Qed.
