(** C158: what relative errors measure. *)
From Verif Require Import Base BaseFacts VecFacts NumpyModel NumpyFacts TrajModel TrajSpec TrajFacts TrajFacts3 GeomModel GeomSpec GeomFacts GeomFacts2
  GeomProps EvalModel EvalSpec EvalFacts EvalFacts2 EvalFacts3 EvalFacts4 EvalFacts5 EvalStats AngFacts EvalProps DriftSpec.

Lemma mul4_parts R p X A t : mul4 (pose4 R p) X = pose4 A t ->
  bot X = vzero /\ cor X = 1 /\ mmul R (lin X) = A /\ vadd (mapply R (tra X)) p = t.
Proof.
  unfold mul4, pose4. destruct X as [L v b c]. cbn [lin tra bot cor]. intro H.
  assert (HL := f_equal lin H). assert (HT := f_equal tra H). assert (HB := f_equal bot H). assert (HC := f_equal cor H). cbn [lin tra bot cor] in HL, HT, HB, HC.
  assert (B : b = vzero). { rewrite <- HB. destruct b, L as [[] [] []]. apply V3_eq; munf; ring. }
  assert (C : c = 1). { rewrite <- HC. destruct v. munf. ring. }
  subst b c. split; [reflexivity|]. split; [reflexivity|]. split.
  - rewrite <- HL. destruct L as [[] [] []], R as [[] [] []], p. apply M3_eq; apply V3_eq; munf; ring.
  - rewrite <- HT. destruct v, R as [[] [] []], p. apply V3_eq; munf; ring.
Qed.
Lemma mul4_back R p L v A t : mmul R L = A -> vadd (mapply R v) p = t -> mul4 (pose4 R p) (pose4 L v) = pose4 A t.
Proof.
  intros <- <-. unfold mul4, pose4. cbn [lin tra bot cor]. f_equal.
  - destruct L as [[] [] []], R as [[] [] []], p. apply M3_eq; apply V3_eq; munf; ring.
  - destruct v, R as [[] [] []], p. apply V3_eq; munf; ring.
  - destruct L as [[] [] []]. apply V3_eq; munf; ring.
  - destruct v. munf. ring.
Qed.

(** The error [E] over one pair of poses: its rotation and its length. *)
Lemma error_parts Ri ri Rj rj Ai ti Aj tj M N E : is_rot Ri -> is_rot Rj -> is_rot Ai ->
  motion (pose4 Ri ri) (pose4 Rj rj) M -> motion (pose4 Ai ti) (pose4 Aj tj) N -> mul4 M E = N ->
  mmul Rj (lin E) = mmul Ri (mmul (mtrans Ai) Aj) /\
  mapply Rj (tra E) = vsub (mapply Ri (mapply (mtrans Ai) (vsub tj ti))) (vsub rj ri).
Proof.
  intros Oi Oj Oa HM HN HE. unfold motion in *.
  destruct (mul4_parts _ _ _ _ _ HN) as (B & C & L & T).
  assert (LN : lin N = mmul (mtrans Ai) Aj). { rewrite <- L, <- mmul_assoc, (is_rot_left _ Oa), mmul_ident_l. reflexivity. }
  assert (TN : tra N = mapply (mtrans Ai) (vsub tj ti)).
  { rewrite <- T. replace (vsub (vadd (mapply Ai (tra N)) ti) ti) with (mapply Ai (tra N)) by (destruct (mapply Ai (tra N)), ti; apply V3_eq; munf; ring).
    rewrite <- mapply_mmul, (is_rot_left _ Oa), mapply_ident. reflexivity. }
  assert (X : mul4 (pose4 Rj rj) E = pose4 (mmul Ri (lin N)) (vadd (mapply Ri (tra N)) ri)).
  { rewrite <- HM, mul4_assoc, HE. assert (EN : N = pose4 (lin N) (tra N)) by (destruct N; cbn in *; subst; reflexivity).
    rewrite EN at 1. apply mul4_back; reflexivity. }
  destruct (mul4_parts _ _ _ _ _ X) as (_ & _ & L' & T'). split; [rewrite L', LN; reflexivity|].
  rewrite TN in T'. remember (mapply Ri (mapply (mtrans Ai) (vsub tj ti))) as u. remember (mapply Rj (tra E)) as v. clear - T'.
  destruct u, v, rj, ri. unfold vadd, vsub in *. cbn in *. injection T' as X Y Z. apply V3_eq; cbn; lra.
Qed.

Section Entries.
  Context {Q : Type} (ops : rot_ops Q) (RC : rot_contract ops).

  Lemma same_pair test ref s r e : consistent test -> consistent ref -> (0 < tlen ref)%nat -> (0 < tlen test)%nat -> same_orientations ops test ref ->
    compare_relative ops test ref s = Ok r -> entry_of r e ->
    exists ds i j di dj ri rj ti tj,
      pair_distances ref (pair_distance_unit s) = Ok ds /\ nth_error ds i = Some di /\ nth_error ds j = Some dj /\ e_dist e = dj - di /\
      nth_error (xyz ref) i = Some ri /\ nth_error (xyz ref) j = Some rj /\ nth_error (xyz test) i = Some ti /\ nth_error (xyz test) j = Some tj /\
      (di <> dj -> e_pos e = Some (vnorm (vsub (vsub tj ti) (vsub rj ri)) / (dj - di)) /\ e_rot e = Some (Some 0)).
  Proof.
    intros Ct Cr Lr Lt (qt & qr & Et & Er & EM) H (k & es & Hk & He).
    assert (Or : has_orientation ref = true).
    { unfold has_orientation. rewrite Er. destruct Cr as (_ & K & _). rewrite Er in K. rewrite K. unfold tlen in Lr. destruct (length (xyz ref)); [lia|reflexivity]. }
    assert (Ot : has_orientation test = true).
    { unfold has_orientation. rewrite Et. destruct Ct as (_ & K & _). rewrite Et in K. rewrite K. unfold tlen in Lt. destruct (length (xyz test)); [lia|reflexivity]. }
    destruct (C29_entries Q ops test ref s r k es e RC Ct Cr Ot Or H Hk He) as (ds & i & j & di & dj & Pi & Pj & Ti & Tj & M & N & E & a & Hd & Hi & Hj & De & HPi & HPj & HTi & HTj & HM & HN & HE & Ha & Hv & _ & _).
    destruct HPi as (q1 & ri & m1 & E1 & X1 & Y1 & ->). destruct HPj as (q2 & rj & m2 & E2 & X2 & Y2 & ->).
    destruct HTi as (q3 & ti & m3' & E3 & X3 & Y3 & ->). destruct HTj as (q4 & tj & m4' & E4 & X4 & Y4 & ->).
    rewrite Er in E1, E2. rewrite Et in E3, E4. injection E1 as <-. injection E2 as <-. injection E3 as <-. injection E4 as <-.
    assert (Mi : as_matrix ops m3' = as_matrix ops m1).
    { apply (f_equal (fun l => nth_error l i)) in EM. rewrite !nth_error_map, Y1, Y3 in EM. cbn in EM. congruence. }
    assert (Mj : as_matrix ops m4' = as_matrix ops m2).
    { apply (f_equal (fun l => nth_error l j)) in EM. rewrite !nth_error_map, Y2, Y4 in EM. cbn in EM. congruence. }
    exists ds, i, j, di, dj, ri, rj, ti, tj. repeat (split; [assumption|]). intro D. destruct (Hv D) as [P R].
    destruct (error_parts _ _ _ _ _ _ _ _ _ _ _ (rc_rot ops RC m1) (rc_rot ops RC m2) (rc_rot ops RC m3') HM HN HE) as [LE TE].
    rewrite Mi, Mj, <- mmul_assoc, (is_rot_right _ (rc_rot ops RC m1)), mmul_ident_l in LE.
    rewrite Mi, <- mapply_mmul, (is_rot_right _ (rc_rot ops RC m1)), mapply_ident in TE.
    assert (LI : lin E = mident). { rewrite <- (mmul_ident_l (lin E)), <- (is_rot_left _ (rc_rot ops RC m2)), mmul_assoc, LE. reflexivity. }
    split; [rewrite P, <- TE, (rot_norm _ _ (rc_rot ops RC m2)); reflexivity|].
    assert (A0 : a = 0). { apply (proj2 (angle_zero (lin E) a ltac:(rewrite LI; apply is_rot_ident) Ha)). exact LI. }
    rewrite R, A0. do 2 f_equal. unfold Rdiv. ring.
  Qed.

  Lemma turned_pair c w test ref s r e : consistent test -> consistent ref -> (0 < tlen ref)%nat -> (0 < tlen test)%nat -> turning ops c w test ref ->
    pair_distance_unit s = U_SECOND -> compare_relative ops test ref s = Ok r -> entry_of r e ->
    e_dist e <> 0 -> Rabs (w * e_dist e) <= PI -> e_rot e = Some (Some (Rabs (w * e_dist e) / e_dist e)).
  Proof.
    intros Ct Cr Lr Lt (qt & qr & Et & Er & EM) U H (k & es & Hk & He) DZ SM.
    assert (Or : has_orientation ref = true).
    { unfold has_orientation. rewrite Er. destruct Cr as (_ & K & _). rewrite Er in K. rewrite K. unfold tlen in Lr. destruct (length (xyz ref)); [lia|reflexivity]. }
    assert (Ot : has_orientation test = true).
    { unfold has_orientation. rewrite Et. destruct Ct as (_ & K & _). rewrite Et in K. rewrite K. unfold tlen in Lt. destruct (length (xyz test)); [lia|reflexivity]. }
    destruct (C29_entries Q ops test ref s r k es e RC Ct Cr Ot Or H Hk He) as (ds & i & j & di & dj & Pi & Pj & Ti & Tj & M & N & E & a & Hd & Hi & Hj & De & HPi & HPj & HTi & HTj & HM & HN & HE & Ha & Hv & _ & _).
    destruct HPi as (q1 & ri & m1 & E1 & X1 & Y1 & ->). destruct HPj as (q2 & rj & m2 & E2 & X2 & Y2 & ->).
    destruct HTi as (q3 & ti & m3' & E3 & X3 & Y3 & ->). destruct HTj as (q4 & tj & m4' & E4 & X4 & Y4 & ->).
    rewrite Er in E1, E2. rewrite Et in E3, E4. injection E1 as <-. injection E2 as <-. injection E3 as <-. injection E4 as <-.
    rewrite U in Hd. cbn in Hd. injection Hd as <-.
    assert (Mi := EM _ _ _ _ Y1 Y3 Hi). assert (Mj := EM _ _ _ _ Y2 Y4 Hj).
    destruct (Hv ltac:(lra)) as [_ R].
    destruct (error_parts _ _ _ _ _ _ _ _ _ _ _ (rc_rot ops RC m1) (rc_rot ops RC m2) (rc_rot ops RC m3') HM HN HE) as [LE _].
    set (A := as_matrix ops m1) in *. set (B := as_matrix ops m2) in *. assert (OA : is_rot A) by apply (rc_rot ops RC). assert (OB : is_rot B) by apply (rc_rot ops RC).
    assert (LE' : lin E = mmul (mtrans B) (mmul (Rz (w * (dj - di))) B)).
    { rewrite <- (mmul_ident_l (lin E)), <- (is_rot_left _ OB), mmul_assoc, LE, Mi, Mj.
      replace (mtrans (mmul (Rz (c + w * di)) A)) with (mmul (mtrans A) (mtrans (Rz (c + w * di)))) by (m3; ring).
      rewrite (mmul_assoc (mtrans A)), <- (mmul_assoc A (mtrans A)), (is_rot_right _ OA), mmul_ident_l.
      rewrite <- (mmul_assoc (mtrans (Rz _))). do 2 f_equal.
      replace (w * (dj - di)) with ((c + w * dj) - (c + w * di)) by ring. unfold Rz. apply M3_eq; apply V3_eq; munf; rewrite ?cos_minus, ?sin_minus; ring. }
    assert (TR : mtrace (lin E) = 1 + 2 * cos (w * (dj - di))).
    { transitivity (mtrace (Rz (w * (dj - di)))); [|unfold Rz, mtrace; cbn; ring].
      rewrite LE'. transitivity (mtrace (mmul (Rz (w * (dj - di))) (mmul B (mtrans B)))); [unfold mtrace; vars; munf; ring|].
      rewrite (is_rot_right _ OB), mmul_ident_r. reflexivity. }
    rewrite De in DZ, SM |- *. assert (AE : a = Rabs (w * (dj - di))).
    { apply (angle_unique (lin E)); [exact Ha|]. split; [split; [apply Rabs_pos | exact SM]|]. rewrite TR. unfold Rabs. destruct (Rcase_abs _); [rewrite cos_neg|]; reflexivity. }
    rewrite R, AE. reflexivity.
  Qed.
End Entries.
Lemma entry_oriented {Q} (ops : rot_ops Q) (test ref : traj Q) s r e qt qr : consistent test -> consistent ref -> rot test = Some qt -> rot ref = Some qr ->
  compare_relative ops test ref s = Ok r -> entry_of r e -> (0 < tlen ref)%nat /\ (0 < tlen test)%nat.
Proof.
  intros Ct Cr Et Er H (k & es & Hk & He).
  assert (L : forall (t : traj Q) q, consistent t -> rot t = Some q -> has_orientation t = true -> (0 < tlen t)%nat).
  { intros t q (_ & K & _) E O. unfold has_orientation in O. rewrite E in O, K. unfold tlen. rewrite K in O. destruct (length (xyz t)); [discriminate|lia]. }
  destruct (has_orientation ref) eqn:Or; [destruct (has_orientation test) eqn:Ot; [split; eauto|]|].
  - destruct (C29_entries_plain Q ops test ref s r k es e (or_intror Ot) H Hk He) as (ds & i & j & di & dj & ri & rj & ti & tj & _ & _ & _ & _ & A & _ & B & _).
    apply nth_error_Some_lt in A, B. unfold tlen. lia.
  - destruct (C29_entries_plain Q ops test ref s r k es e (or_introl Or) H Hk He) as (ds & i & j & di & dj & ri & rj & ti & tj & _ & _ & _ & _ & A & _ & B & _).
    apply nth_error_Some_lt in A, B. unfold tlen. lia.
Qed.

(** With true orientations the relative position error is the difference of the two displacements, over the distance, and the relative
    rotation error is zero. *)
Theorem C158_displacement : forall (Q : Type) (ops : rot_ops Q) (test ref : traj Q) s r e, rot_contract ops -> consistent test -> consistent ref ->
  same_orientations ops test ref -> compare_relative ops test ref s = Ok r -> entry_of r e -> e_dist e <> 0 ->
  e_rot e = Some (Some 0) /\
  exists i j ri rj ti tj, nth_error (xyz ref) i = Some ri /\ nth_error (xyz ref) j = Some rj /\ nth_error (xyz test) i = Some ti /\ nth_error (xyz test) j = Some tj /\
    e_pos e = Some (vnorm (vsub (vsub tj ti) (vsub rj ri)) / e_dist e).
Proof.
  intros Q ops test ref s r e RC Ct Cr SO H He D. destruct SO as (qt & qr & Et & Er & EM).
  destruct (entry_oriented ops test ref s r e qt qr Ct Cr Et Er H He) as [L1 L2].
  destruct (same_pair ops RC test ref s r e Ct Cr L1 L2 (ex_intro _ qt (ex_intro _ qr (conj Et (conj Er EM)))) H He) as (ds & i & j & di & dj & ri & rj & ti & tj & _ & _ & _ & De & A & B & A' & B' & V).
  destruct (V ltac:(lra)) as [P R]. split; [exact R|]. exists i, j, ri, rj, ti, tj. rewrite De. repeat (split; [assumption|]). exact P.
Qed.
Print Assumptions C158_displacement.

(** A steady drift of [d] per second shows as a relative error of exactly its speed, whatever the pairs. *)
Theorem C158_drift : forall (Q : Type) (ops : rot_ops Q) c d (test ref : traj Q) s r e, rot_contract ops -> consistent test -> consistent ref ->
  same_orientations ops test ref -> drifting c d test ref -> pair_distance_unit s = U_SECOND ->
  compare_relative ops test ref s = Ok r -> entry_of r e -> 0 < e_dist e ->
  e_pos e = Some (vnorm d) /\ e_rot e = Some (Some 0).
Proof.
  intros Q ops c d test ref s r e RC Ct Cr SO DR U H He D. destruct SO as (qt & qr & Et & Er & EM).
  destruct (entry_oriented ops test ref s r e qt qr Ct Cr Et Er H He) as [L1 L2].
  destruct (same_pair ops RC test ref s r e Ct Cr L1 L2 (ex_intro _ qt (ex_intro _ qr (conj Et (conj Er EM)))) H He) as (ds & i & j & di & dj & ri & rj & ti & tj & Hd & Hi & Hj & De & A & B & A' & B' & V).
  rewrite U in Hd. cbn in Hd. injection Hd as <-. destruct (V ltac:(lra)) as [P R]. split; [|exact R]. rewrite P. f_equal.
  rewrite (DR _ _ _ A Hi) in A'. rewrite (DR _ _ _ B Hj) in B'. injection A' as <-. injection B' as <-.
  replace (vsub (vsub (vadd rj (vadd c (vscale dj d))) (vadd ri (vadd c (vscale di d)))) (vsub rj ri)) with (vscale (dj - di) d)
    by (destruct c, d, ri, rj; apply V3_eq; munf; ring).
  rewrite vnorm_scale, Rabs_pos_eq by lra. field. lra.
Qed.
Print Assumptions C158_drift.

(** A constant displacement does not show at all. *)
Theorem C158_offset : forall (Q : Type) (ops : rot_ops Q) c (test ref : traj Q) s r e, rot_contract ops -> consistent test -> consistent ref ->
  same_orientations ops test ref -> stretched 1 c test ref -> compare_relative ops test ref s = Ok r -> entry_of r e -> e_dist e <> 0 ->
  e_pos e = Some 0 /\ e_rot e = Some (Some 0).
Proof.
  intros Q ops c test ref s r e RC Ct Cr SO ST H He D.
  destruct (C158_displacement Q ops test ref s r e RC Ct Cr SO H He D) as (R & i & j & ri & rj & ti & tj & A & B & A' & B' & P). split; [|exact R].
  rewrite (ST _ _ A) in A'. rewrite (ST _ _ B) in B'. injection A' as <-. injection B' as <-. rewrite P. f_equal.
  replace (vsub (vsub (vadd (vscale 1 rj) c) (vadd (vscale 1 ri) c)) (vsub rj ri)) with vzero by (destruct c, ri, rj; apply V3_eq; munf; ring).
  replace (vnorm vzero) with 0; [unfold Rdiv; ring|]. symmetry. apply vnorm_unique; [lra|]. munf. ring.
Qed.
Print Assumptions C158_offset.

(** A wrong scale [k] shows, per metre of path, as at most [|k - 1|], and as exactly that over a straight stretch. *)
Theorem C158_scale : forall (Q : Type) (ops : rot_ops Q) k c (test ref : traj Q) s r e, rot_contract ops -> consistent test -> consistent ref ->
  same_orientations ops test ref -> stretched k c test ref -> pair_distance_unit s = U_METER -> arc ref = lengths_from_xyz (xyz ref) ->
  compare_relative ops test ref s = Ok r -> entry_of r e -> 0 < e_dist e ->
  exists x i j ri rj, e_pos e = Some x /\ 0 <= x <= Rabs (k - 1) /\ e_rot e = Some (Some 0) /\
    nth_error (xyz ref) i = Some ri /\ nth_error (xyz ref) j = Some rj /\ vdist ri rj <= e_dist e /\
    x = Rabs (k - 1) * (vdist ri rj / e_dist e).
Proof.
  intros Q ops k c test ref s r e RC Ct Cr SO ST U AR H He D. destruct SO as (qt & qr & Et & Er & EM).
  destruct (entry_oriented ops test ref s r e qt qr Ct Cr Et Er H He) as [L1 L2].
  destruct (same_pair ops RC test ref s r e Ct Cr L1 L2 (ex_intro _ qt (ex_intro _ qr (conj Et (conj Er EM)))) H He) as (ds & i & j & di & dj & ri & rj & ti & tj & Hd & Hi & Hj & De & A & B & A' & B' & V).
  rewrite U in Hd. cbn in Hd. injection Hd as <-. rewrite AR in Hi, Hj. destruct (V ltac:(lra)) as [P R].
  rewrite (ST _ _ A) in A'. rewrite (ST _ _ B) in B'. injection A' as <-. injection B' as <-.
  assert (CH : vdist ri rj <= dj - di).
  { destruct (le_lt_dec i j) as [L|L]; [exact (lengths_chord (xyz ref) i j di dj ri rj L Hi Hj A B)|].
    assert (X := lengths_chord (xyz ref) j i dj di rj ri ltac:(lia) Hj Hi B A). assert (Y := vnorm_nonneg (vsub rj ri)). unfold vdist in X. lra. }
  assert (N0 : 0 <= vdist ri rj) by apply vnorm_nonneg.
  assert (Q1 : 0 <= vdist ri rj / e_dist e <= 1).
  { rewrite De. split; [apply Rmult_le_pos; [exact N0|apply Rlt_le, Rinv_0_lt_compat; lra]|].
    apply Rmult_le_reg_r with (dj - di); [lra|]. unfold Rdiv. rewrite Rmult_assoc, Rinv_l by lra. lra. }
  exists (Rabs (k - 1) * (vdist ri rj / e_dist e)), i, j, ri, rj. split.
  { rewrite P. f_equal. replace (vsub (vsub (vadd (vscale k rj) c) (vadd (vscale k ri) c)) (vsub rj ri)) with (vscale (k - 1) (vsub rj ri))
      by (destruct c, ri, rj; apply V3_eq; munf; ring). rewrite vnorm_scale, De. change (vnorm (vsub rj ri)) with (vdist rj ri). rewrite (vdist_sym rj ri). unfold Rdiv. ring. }
  assert (K0 := Rabs_pos (k - 1)). split; [split; [apply Rmult_le_pos; lra|nra]|]. split; [exact R|]. split; [exact A|]. split; [exact B|]. split; [lra|reflexivity].
Qed.
Print Assumptions C158_scale.

(** Orientations that turn away at [w] per second show a relative rotation error of exactly that rate, as long as they turn by no more than
    half a circle over the pair. *)
Theorem C158_heading : forall (Q : Type) (ops : rot_ops Q) c w (test ref : traj Q) s r e, rot_contract ops -> consistent test -> consistent ref ->
  turning ops c w test ref -> pair_distance_unit s = U_SECOND -> compare_relative ops test ref s = Ok r -> entry_of r e ->
  0 < e_dist e -> Rabs w * e_dist e <= PI -> e_rot e = Some (Some (Rabs w)).
Proof.
  intros Q ops c w test ref s r e RC Ct Cr TU U H He D SM. destruct TU as (qt & qr & Et & Er & EM).
  destruct (entry_oriented ops test ref s r e qt qr Ct Cr Et Er H He) as [L1 L2].
  assert (AB : Rabs (w * e_dist e) = Rabs w * e_dist e) by (rewrite Rabs_mult, (Rabs_pos_eq (e_dist e)) by lra; reflexivity).
  rewrite (turned_pair ops RC c w test ref s r e Ct Cr L1 L2 (ex_intro _ qt (ex_intro _ qr (conj Et (conj Er EM)))) U H He ltac:(lra) ltac:(lra)).
  rewrite AB. do 2 f_equal. field. lra.
Qed.
Print Assumptions C158_heading.

(** Without orientations the errors are never larger than these, but a drift may not show at all. *)
Lemma vdist_diff a b c d : Rabs (vdist b a - vdist d c) <= vnorm (vsub (vsub d c) (vsub b a)).
Proof.
  unfold vdist. set (u := vsub b a). set (v := vsub d c).
  assert (A := vnorm_triangle (vsub v u) u). assert (B := vnorm_triangle (vscale (-1) (vsub v u)) v).
  replace (vadd (vsub v u) u) with v in A by (destruct u, v; apply V3_eq; munf; ring).
  replace (vadd (vscale (-1) (vsub v u)) v) with u in B by (destruct u, v; apply V3_eq; munf; ring).
  rewrite vnorm_scale in B. replace (Rabs (-1)) with 1 in B by (rewrite Rabs_left; lra). apply Rabs_le. lra.
Qed.
Theorem C158_plain : forall (Q : Type) (ops : rot_ops Q) c d (test ref : traj Q) s r e, drifting c d test ref ->
  has_orientation ref = false \/ has_orientation test = false -> pair_distance_unit s = U_SECOND ->
  compare_relative ops test ref s = Ok r -> entry_of r e -> 0 < e_dist e ->
  exists x, e_pos e = Some x /\ 0 <= x <= vnorm d /\ e_rot e = None.
Proof.
  intros Q ops c d test ref s r e DR NO U H (k & es & Hk & He) D.
  destruct (C29_entries_plain Q ops test ref s r k es e NO H Hk He) as (ds & i & j & di & dj & ri & rj & ti & tj & Hd & Hi & Hj & De & A & B & A' & B' & R & P & _).
  rewrite U in Hd. cbn in Hd. injection Hd as <-. specialize (P ltac:(lra)).
  rewrite (DR _ _ _ A Hi) in A'. rewrite (DR _ _ _ B Hj) in B'. injection A' as <-. injection B' as <-.
  eexists. split; [exact P|]. split; [|exact R]. assert (X := vdist_diff ri rj (vadd ri (vadd c (vscale di d))) (vadd rj (vadd c (vscale dj d)))).
  replace (vsub (vsub (vadd rj (vadd c (vscale dj d))) (vadd ri (vadd c (vscale di d)))) (vsub rj ri)) with (vscale (dj - di) d) in X
    by (destruct c, d, ri, rj; apply V3_eq; munf; ring).
  rewrite vnorm_scale, (Rabs_pos_eq (dj - di)) in X by lra. split; [apply Rmult_le_pos; [apply Rabs_pos|apply Rlt_le, Rinv_0_lt_compat; lra]|].
  apply Rmult_le_reg_r with (dj - di); [lra|]. unfold Rdiv. rewrite Rmult_assoc, Rinv_l by lra. lra.
Qed.
Print Assumptions C158_plain.

(** One second of motion, once with a drift of a metre per second to the side and orientations that turn away by a radian per second. *)
Definition half_second : rel_settings := mkRelSettings (1 / 4) (1 / 2) (1 / 5) U_SECOND true.
Definition turned_off : RotM := from_matrix rot_impl (mmul (Rz 1) (as_matrix rot_impl quarter)).
Definition sideways (q : option (list RotM)) : traj RotM := mkTraj [0; 1] [mkV3 0 0 0; mkV3 1 1 0] q [0; 1] [vzero; vzero] SortTime "off" 0.
Definition backwards : traj RotM := mkTraj [0; 1] [mkV3 0 0 0; mkV3 (-1) 0 0] None [0; 1] [vzero; vzero] SortTime "back" 0.
Lemma compared test ref : consistent test -> consistent ref -> tlen test = 2%nat -> tlen ref = 2%nat -> tstamps ref = [0; 1] ->
  exists r e, compare_relative rot_impl test ref half_second = Ok r /\ entry_of r e /\ e_dist e = 1.
Proof.
  intros Ct Cr Lt Lr Et.
  destruct (compare_relative_total rot_impl test ref half_second [0; 1] Ct Cr ltac:(congruence)) as [H _].
  - cbn. rewrite Et. reflexivity.
  - exact duo_sorted.
  - cbn; lra.
  - cbn; lra.
  - left; reflexivity.
  - destruct (H (1 / 4) 0%nat [(0, 1)%nat]) as [r E]; [cbn; lra | cbn; lra | exact duo_pairs | discriminate|].
    assert (K := proj2 (keys_spec rot_impl test ref half_second r E ltac:(cbn; lra) 0%nat (1 / 4)) ltac:(cbn; split; lra)).
    apply nth_error_In, in_map_iff in K as ([k es] & Ek & Hk). cbn in Ek. subst k.
    destruct (compare_relative_ok rot_impl test ref half_second r E) as (_ & _ & _ & _ & B & _).
    destruct (B _ es Hk) as (ds & idx & Hd & Hi & F). cbn in Hd. rewrite Et in Hd. injection Hd as <-.
    cbn [half_second use_all_pose_pairs] in Hi. rewrite duo_pairs in Hi. injection Hi as <-.
    inversion F as [|ij e' idx' es' He F' X Y]; subst. exists r, e'. split; [exact E|]. split; [exists (1 / 4), (e' :: es'); split; [exact Hk | left; reflexivity]|].
    unfold compare_pair in He. cbn [fst snd] in He. 
    apply bind_ok in He as (d1 & X1 & He). apply bind_ok in He as (d0 & X0 & He). cbn in X1, X0. injection X1 as <-. injection X0 as <-.
    destruct (has_orientation ref && has_orientation test)%bool; repeat (apply bind_ok in He as [? [_ He]]); injection He as <-; cbn; lra.
Qed.

Lemma sideways_drift q : drifting vzero (mkV3 0 1 0) (sideways q) duo.
Proof.
  intros i p t. unfold duo, sideways. destruct i as [|[|[|i]]]; cbn; intros A B; try discriminate; injection A as <-; injection B as <-;
    f_equal; apply V3_eq; munf; ring.
Qed.
Lemma turned_off_matrix : as_matrix rot_impl turned_off = mmul (Rz 1) (as_matrix rot_impl quarter).
Proof.
  apply (rc_from rot_impl rot_impl_contract). apply is_rot_mmul; [|apply (rc_rot rot_impl rot_impl_contract)].
  assert (C := sin2_cos2 1). unfold Rsqr in C. split; [unfold Rz; apply M3_eq; apply V3_eq; munf; nra|unfold Rz; munf; nra].
Qed.
Example C158_case :
  (exists r e, consistent duo /\ consistent (sideways (Some [unrotated; quarter])) /\ same_orientations rot_impl (sideways (Some [unrotated; quarter])) duo /\ compare_relative rot_impl (sideways (Some [unrotated; quarter])) duo half_second = Ok r /\ entry_of r e /\
     e_dist e = 1 /\ e_pos e = Some 1 /\ e_rot e = Some (Some 0)) /\ (exists r e, turning rot_impl 0 1 (sideways (Some [unrotated; turned_off])) duo /\ compare_relative rot_impl (sideways (Some [unrotated; turned_off])) duo half_second = Ok r /\ entry_of r e /\ e_dist e = 1 /\ e_rot e = Some (Some 1)) /\ (exists r e, drifting vzero (mkV3 (-2) 0 0) backwards duo_plain /\ compare_relative rot_impl backwards duo_plain half_second = Ok r /\ entry_of r e /\ e_dist e = 1 /\ e_pos e = Some 0).
Proof.
  assert (SO : same_orientations rot_impl (sideways (Some [unrotated; quarter])) duo) by (do 2 eexists; split; [reflexivity|]; split; reflexivity).
  assert (TU : turning rot_impl 0 1 (sideways (Some [unrotated; turned_off])) duo).
  { do 2 eexists. split; [reflexivity|]. split; [reflexivity|]. intros i q q' t A B D. destruct i as [|[|[|i]]]; cbn in A, B, D; try discriminate;
      injection A as <-; injection B as <-; injection D as <-.
    - replace (0 + 1 * 0) with 0 by ring. unfold Rz. rewrite cos_0, sin_0. 
      rewrite Ropp_0. symmetry. apply mmul_ident_l.
    - replace (0 + 1 * 1) with 1 by ring. apply turned_off_matrix. }
  assert (DB : drifting vzero (mkV3 (-2) 0 0) backwards duo_plain).
  { intros i p t. unfold duo_plain, backwards. destruct i as [|[|[|i]]]; cbn; intros A B; try discriminate; injection A as <-; injection B as <-;
      f_equal; apply V3_eq; munf; ring. }
  assert (N1 : vnorm (mkV3 0 1 0) = 1) by (apply vnorm_unique; [lra|munf; ring]).
  split; [|split].
  - destruct (compared (sideways (Some [unrotated; quarter])) duo ltac:(repeat split) duo_consistent eq_refl eq_refl eq_refl) as (r & e & E & He & D).
    exists r, e. split; [exact duo_consistent|]. split; [repeat split|]. split; [exact SO|]. split; [exact E|]. split; [exact He|]. split; [exact D|].
    destruct (C158_drift _ rot_impl vzero (mkV3 0 1 0) (sideways (Some [unrotated; quarter])) duo half_second r e rot_impl_contract ltac:(repeat split) duo_consistent SO (sideways_drift _) eq_refl E He ltac:(lra)) as [P R].
    rewrite N1 in P. split; assumption.
  - destruct (compared (sideways (Some [unrotated; turned_off])) duo ltac:(repeat split) duo_consistent eq_refl eq_refl eq_refl) as (r & e & E & He & D).
    exists r, e. split; [exact TU|]. split; [exact E|]. split; [exact He|]. split; [exact D|].
    assert (P3 := PI2_3_2).
    rewrite (C158_heading _ rot_impl 0 1 (sideways (Some [unrotated; turned_off])) duo half_second r e rot_impl_contract ltac:(repeat split) duo_consistent TU eq_refl E He ltac:(lra));
      [rewrite Rabs_R1; reflexivity | rewrite Rabs_R1, D; lra].
  - destruct (compared backwards duo_plain ltac:(repeat split) ltac:(repeat split) eq_refl eq_refl eq_refl) as (r & e & E & He & D).
    exists r, e. split; [exact DB|]. split; [exact E|]. split; [exact He|]. split; [exact D|].
    destruct He as (k & es & Hk & He).
    destruct (C29_entries_plain _ rot_impl backwards duo_plain half_second r k es e (or_introl eq_refl) E Hk He) as (ds & i & j & di & dj & ri & rj & ti & tj & Hd & Hi & Hj & De & A & B & A' & B' & R & P & _).
    cbn in Hd. injection Hd as <-. assert (NE : di <> dj) by lra. rewrite (P NE).
    assert (V : vdist (mkV3 1 0 0) (mkV3 0 0 0) = 1) by (apply vnorm_unique; [lra|munf; ring]).
    assert (W : vdist (mkV3 (-1) 0 0) (mkV3 0 0 0) = 1) by (apply vnorm_unique; [lra|munf; ring]).
    destruct i as [|[|[|i]]], j as [|[|[|j]]]; cbn in Hi, Hj; try discriminate; injection Hi as <-; injection Hj as <-; try lra;
      cbn in A, B, A', B'; injection A as <-; injection B as <-; injection A' as <-; injection B' as <-; rewrite V, W;
      replace (1 - 1) with 0 by ring; rewrite Rabs_R0; f_equal; unfold Rdiv; ring.
Qed.
