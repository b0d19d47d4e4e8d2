(** Entries of a relative comparison and the decomposition of deviations, in the form used by the
    properties. *)
From Verif Require Import Base BaseFacts NumpyModel NumpyFacts TrajModel TrajSpec VecFacts TrajFacts
  GeomModel GeomSpec GeomFacts GeomFacts2 EvalModel EvalSpec EvalFacts EvalFacts2 EvalFacts3 EvalFacts4 EvalStats.

Section Rel.
  Context {Q : Type} (ops : rot_ops Q) (C : rot_contract ops).
  Implicit Types test ref : traj Q.

  Lemma pose_matrix_rigid t i P : pose_matrix ops t i P -> rigid P.
  Proof. intros (q & p & r & _ & _ & _ & ->). apply rigid_pose, (rc_rot ops C). Qed.

  Lemma np_div_some a b : b <> 0 -> np_div a b = Some (a / b).
  Proof. intro H. unfold np_div. destruct (Reqb_spec b 0); [contradiction | reflexivity]. Qed.

  Lemma np_div_zero a : np_div a 0 = None.
  Proof. unfold np_div. destruct (Reqb_spec 0 0); [reflexivity | contradiction]. Qed.

  (** One entry with orientations: the motions of reference and test differ by [E]. *)
  Lemma entry_rot test ref ds i j e :
    consistent test -> consistent ref -> has_orientation ref = true -> has_orientation test = true ->
    compare_pair ops test ref ds (i, j) = Ok e ->
    exists di dj Pi Pj Ti Tj M N E a,
      nth_error ds i = Some di /\ nth_error ds j = Some dj /\ e_dist e = dj - di /\
      pose_matrix ops ref i Pi /\ pose_matrix ops ref j Pj /\ pose_matrix ops test i Ti /\ pose_matrix ops test j Tj /\
      motion Pi Pj M /\ motion Ti Tj N /\ mul4 M E = N /\ angle_of (lin E) a /\
      (di <> dj -> e_pos e = Some (vnorm (tra E) / (dj - di)) /\ e_rot e = Some (Some (a / (dj - di)))) /\
      (di = dj -> e_pos e = None /\ e_rot e = Some None) /\
      (vnorm (tra E) = 0 /\ a = 0 <-> M = N).
  Proof.
    intros Ct Cr Or Ot H. destruct (compare_pair_rot ops test ref ds i j e Ct Cr Or Ot H) as (di & dj & Pi & Pj & Ti & Tj & H1 & H2 & H3 & H4 & H5 & H6 & He).
    assert (R3 := pose_matrix_rigid _ _ _ H3). assert (R4 := pose_matrix_rigid _ _ _ H4).
    assert (R5 := pose_matrix_rigid _ _ _ H5). assert (R6 := pose_matrix_rigid _ _ _ H6).
    set (M := mul4 (se3_inv Pi) Pj). set (N := mul4 (se3_inv Ti) Tj). set (E := pose_error Pi Pj Ti Tj) in *.
    assert (HM : motion Pi Pj M) by (apply (motion_iff Pi Pj M R3); reflexivity).
    assert (HN : motion Ti Tj N) by (apply (motion_iff Ti Tj N R5); reflexivity).
    exists di, dj, Pi, Pj, Ti, Tj, M, N, E, (rotation_error E).
    assert (RE : rigid E) by (apply pose_error_rigid; assumption).
    split; [exact H1|]. split; [exact H2|]. split; [rewrite He; reflexivity|]. repeat (split; [assumption|]).
    split; [apply pose_error_motion; assumption|]. split; [apply rotation_error_angle, RE|].
    split; [intro D; rewrite He; cbn; rewrite translation_error_norm, !np_div_some by lra; split; reflexivity|].
    split; [intro D; rewrite He; cbn; replace (dj - di) with 0 by lra; rewrite !np_div_zero; split; reflexivity|].
    rewrite <- translation_error_norm. apply errors_zero; assumption.
  Qed.

  (** One entry without orientations: the lengths of the two displacements differ. *)
  Lemma entry_plain test ref ds i j e :
    has_orientation ref = false \/ has_orientation test = false ->
    compare_pair ops test ref ds (i, j) = Ok e ->
    exists di dj ri rj ti tj,
      nth_error ds i = Some di /\ nth_error ds j = Some dj /\ e_dist e = dj - di /\
      nth_error (xyz ref) i = Some ri /\ nth_error (xyz ref) j = Some rj /\
      nth_error (xyz test) i = Some ti /\ nth_error (xyz test) j = Some tj /\
      e_rot e = None /\
      (di <> dj -> e_pos e = Some (Rabs (vdist rj ri - vdist tj ti) / (dj - di))) /\ (di = dj -> e_pos e = None).
  Proof.
    intros O H. assert (O' : (has_orientation ref && has_orientation test)%bool = false) by (destruct O as [-> | ->]; [reflexivity | apply Bool.andb_false_r]).
    destruct (compare_pair_plain ops test ref ds i j e O' H) as (di & dj & ri & rj & ti & tj & H1 & H2 & H3 & H4 & H5 & H6 & He).
    exists di, dj, ri, rj, ti, tj. split; [exact H1|]. split; [exact H2|]. split; [rewrite He; reflexivity|]. repeat (split; [assumption|]).
    split; [rewrite He; reflexivity|]. split; intro D; rewrite He; cbn; [rewrite np_div_some by lra; reflexivity|].
    replace (dj - di) with 0 by lra. apply np_div_zero.
  Qed.

  Lemma entry_dist test ref ds i j e : compare_pair ops test ref ds (i, j) = Ok e ->
    exists di dj, nth_error ds i = Some di /\ nth_error ds j = Some dj /\ e_dist e = dj - di /\ (di = dj <-> e_pos e = None).
  Proof.
    intro H. unfold compare_pair in H. cbn [fst snd] in H. apply bind_ok in H as (dj & Hj & H). apply bind_ok in H as (di & Hi & H).
    apply np_get_of_nat in Hj. apply np_get_of_nat in Hi. exists di, dj. split; [exact Hi|]. split; [exact Hj|].
    assert (K : forall x, (di = dj <-> np_div x (dj - di) = None)).
    { intro x. unfold np_div. destruct (Reqb_spec (dj - di) 0); split; intro; try reflexivity; try discriminate; lra. }
    destruct (_ && _)%bool.
    - apply bind_ok in H as (? & _ & H). apply bind_ok in H as (? & _ & H). apply bind_ok in H as (? & _ & H). apply bind_ok in H as (? & _ & H).
      injection H as <-. cbn. split; [reflexivity | apply K].
    - apply bind_ok in H as (? & _ & H). apply bind_ok in H as (? & _ & H). apply bind_ok in H as (? & _ & H). apply bind_ok in H as (? & _ & H).
      injection H as <-. cbn. split; [reflexivity | apply K].
  Qed.

  Lemma Forall2_In_r {A B} (P : A -> B -> Prop) la lb b : Forall2 P la lb -> In b lb -> exists a, In a la /\ P a b.
  Proof. intro F. induction F as [|x y la lb Pxy F IH]; intros []; [subst; exists x; split; [left; reflexivity | exact Pxy]|].
    destruct (IH H) as (a & Ha & Pa). exists a. split; [right; exact Ha | exact Pa]. Qed.

  Lemma Forall2_impl' {A B} (P P' : A -> B -> Prop) la lb : (forall a b, In a la -> P a b -> P' a b) -> Forall2 P la lb -> Forall2 P' la lb.
  Proof. intros H F. induction F as [|x y la lb Pxy F IH]; constructor; [apply H; [left; reflexivity | exact Pxy]|].
    apply IH. intros a b Ha. apply H. right. exact Ha. Qed.

  Lemma keys_spec test ref s r :
    compare_relative ops test ref s = Ok r -> 0 < pair_distance_step s ->
    forall i x, nth_error (map fst (rpe_pairs r)) i = Some x <->
      x = pair_min_distance s + INR i * pair_distance_step s /\ x < pair_max_distance s + pair_distance_step s.
  Proof.
    intros H Hs i x. destruct (compare_relative_ok ops test ref s r H) as (_ & _ & _ & _ & _ & E).
    destruct (np_arange_pos ZeroDivisionError (pair_min_distance s) (pair_max_distance s + pair_distance_step s) _ Hs) as (l & E' & L1 & L2).
    rewrite E in E'. injection E' as El. rewrite El. split.
    - intro Hx. assert (Li := nth_error_Some_lt _ _ _ Hx). rewrite (L2 i Li) in Hx. injection Hx as <-. split; [reflexivity|]. apply L1, Li.
    - intros [-> Hx]. apply L2, L1, Hx.
  Qed.
End Rel.

Lemma line_pythagoras p a w s t :
  vdot (vsub (vadd a (vscale s w)) a) w = vdot (vsub p a) w ->
  vdot (vsub p (vadd a (vscale t w))) (vsub p (vadd a (vscale t w))) * vdot w w =
  vdot (vsub p (vadd a (vscale s w))) (vsub p (vadd a (vscale s w))) * vdot w w
  + vdot (vsub p (vadd a (vscale t w))) w * vdot (vsub p (vadd a (vscale t w))) w.
Proof.
  intro H.
  assert (H' : s * vdot w w = vdot (vsub p a) w) by (rewrite <- H; destruct a, w; unfold vdot, vsub, vadd, vscale; cbn; ring).
  assert (A : forall x, vdot (vsub p (vadd a (vscale x w))) (vsub p (vadd a (vscale x w)))
     = vdot (vsub p a) (vsub p a) - 2 * x * vdot (vsub p a) w + x * x * vdot w w).
  { intro x. destruct p, a, w; unfold vdot, vsub, vadd, vscale; cbn; ring. }
  assert (B : vdot (vsub p (vadd a (vscale t w))) w = vdot (vsub p a) w - t * vdot w w).
  { destruct p, a, w; unfold vdot, vsub, vadd, vscale; cbn; ring. }
  rewrite !A, B, <- H'. ring.
Qed.

Lemma along_decomposes p a b f c :
  a <> b -> (c = a \/ c = b) -> foot_point a b p f -> vdot (vsub f a) (vsub b a) = vdot (vsub p a) (vsub b a) ->
  vdot (vsub p c) (vsub p c) = along a b (vsub p c) * along a b (vsub p c) + vdot (vsub p f) (vsub p f).
Proof.
  intros N Hc [[s ->] _] Ho. set (w := vsub b a) in *.
  assert (Dw : vdist b a * vdist b a = vdot w w) by (unfold vdist; rewrite vnorm_sq; reflexivity).
  assert (Hd : vdist b a <> 0) by (intro E; apply vdist_zero in E; congruence).
  assert (Hc' : exists t, c = vadd a (vscale t w)).
  { destruct Hc as [-> | ->]; [exists 0 | exists 1]; unfold w; v3; ring. }
  destruct Hc' as [t ->]. assert (P := line_pythagoras p a w s t Ho). unfold along. fold w.
  set (x := vdot (vsub p (vadd a (vscale t w))) (vsub p (vadd a (vscale t w)))) in *.
  set (y := vdot (vsub p (vadd a (vscale s w))) (vsub p (vadd a (vscale s w)))) in *.
  set (z := vdot (vsub p (vadd a (vscale t w))) w) in *. rewrite <- Dw in P. 
  apply (Rmult_eq_reg_r (vdist b a * vdist b a)); [|apply Rmult_integral_contrapositive_currified; exact Hd].
  rewrite P. field. exact Hd.
Qed.

Lemma abs_sq x : Rabs x * Rabs x = x * x.
Proof. rewrite <- Rabs_mult. apply Rabs_right, Rle_ge, Rle_0_sqr. Qed.

Section Dir.
  Context {Q : Type} (ops : rot_ops Q).
  Implicit Types test ref : traj Q.

  (** Deviations of one pose of a comparison without orientations. *)
  Lemma directed_plain test ref r i p o a b :
    consistent test -> consistent ref -> tlen test = tlen ref -> rot ref = None -> rot test = None ->
    compare_absolute ops test ref = Ok r ->
    nth_error (xyz test) i = Some p -> nth_error (xyz ref) i = Some o -> track_line (xyz ref) i a b -> a <> b ->
    exists d f, nth_error (directed_pos_dev r) i = Some d /\ foot_point a b p f /\
      (S i <> tlen ref -> vx d = along a b (vsub p o)) /\
      (S i = tlen ref -> - vdist b a < along a b (vsub p a) -> vx d = along a b (vsub p o)) /\
      Rabs (vx d) = Rabs (along a b (vsub p o)) /\
      vz d = vz f - vz p /\
      (side_defined a b p -> vy d * vy d + vz d * vz d = vdot (vsub p f) (vsub p f)) /\
      (side_defined a b p -> sum_sq d = sum_sq (vsub o p)) /\
      sum_sq d <= sum_sq (vsub o p).
  Proof.
    intros Ct Cr L Er Et H Hp Ho Tl N. destruct (compare_absolute_ok ops test ref Ct Cr L) as (r' & E' & _ & _ & _ & _ & _ & _ & H3 & _).
    rewrite H in E'. injection E' as <-. specialize (H3 Er Et).
    destruct (no_rot_ok (xyz ref) (xyz test) (eq_sym L)) as (l & El & _ & H1 & _).
    { intro X. rewrite X in Ho. destruct i; discriminate. }
    rewrite H3 in El. injection El as <-. specialize (H1 i p o a b Hp Ho Tl).
    destruct (cross_spec p a b N) as (f & h & Hf & Orth & Ec & Hs & Hle). rewrite Ec in H1. cbn [fst snd] in H1.
    set (last := (S i =? length (xyz ref))%nat) in *. set (al := along_track_dev p a b last) in *.
    eexists. exists f. split; [exact H1|]. split; [exact Hf|]. cbn [vx vy vz].
    assert (Oc : (S i <> tlen ref /\ last = false /\ o = a) \/ (S i = tlen ref /\ last = true /\ o = b)).
    { destruct Tl as [(K & A & B)|(j & -> & K & A & B)].
      - left. split; [unfold tlen; lia|]. split; [apply Nat.eqb_neq; lia | congruence].
      - right. split; [exact K|]. split; [apply Nat.eqb_eq, K | congruence]. }
    assert (Ab : Rabs al = Rabs (along a b (vsub p o))).
    { unfold al. destruct Oc as [(_ & -> & ->)|(_ & -> & ->)]; [rewrite along_not_last by exact N; reflexivity | apply (along_last p a b N)]. }
    split.
    { intro Ni. destruct Oc as [(_ & Hl & ->)|(K & _)]; [|contradiction]. unfold al. rewrite Hl. apply along_not_last, N. }
    split.
    { intros Ni G. destruct Oc as [(K & _)|(_ & Hl & ->)]; [contradiction|]. unfold al. rewrite Hl. apply (along_last p a b N), G. }
    split; [exact Ab|]. split; [reflexivity|]. split; [exact Hs|].
    assert (P : sum_sq (vsub o p) = al * al + vdot (vsub p f) (vsub p f)).
    { assert (Oab : o = a \/ o = b) by (destruct Oc as [(_ & _ & ->)|(_ & _ & ->)]; auto).
      assert (D := along_decomposes p a b f o N Oab Hf Orth).
      assert (Sq : al * al = along a b (vsub p o) * along a b (vsub p o)).
      { rewrite <- (abs_sq al), Ab, abs_sq. reflexivity. }
      rewrite Sq, <- D. destruct o, p; unfold sum_sq, vdot, vsub; cbn; ring. }
    unfold sum_sq at 1 3. cbn [vx vy vz]. rewrite P. split; [intro X; specialize (Hs X); lra | lra].
  Qed.
End Dir.
