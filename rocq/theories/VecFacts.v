(** Euclidean geometry of [V3]. *)
From Verif Require Import Base BaseFacts.

Lemma vdot_nonneg a : 0 <= vdot a a.
Proof. unfold vdot. nra. Qed.

Lemma vdot_sym a b : vdot a b = vdot b a.
Proof. unfold vdot; ring. Qed.

Lemma vnorm_nonneg a : 0 <= vnorm a.
Proof. apply sqrt_pos. Qed.

Lemma vnorm_sq a : vnorm a * vnorm a = vdot a a.
Proof. apply sqrt_sqrt, vdot_nonneg. Qed.

Lemma vnorm_unique a r : 0 <= r -> r * r = vdot a a -> vnorm a = r.
Proof. intros H E. unfold vnorm. rewrite <- E. apply sqrt_square; exact H. Qed.

Lemma vdot_zero a : vdot a a = 0 -> a = vzero.
Proof.
  intro H. unfold vdot in H. assert (0 <= vx a * vx a) by nra. assert (0 <= vy a * vy a) by nra.
  assert (0 <= vz a * vz a) by nra.
  apply V3_eq; cbn; apply Rmult_integral_contrapositive_currified || idtac;
    match goal with |- ?x = 0 => assert (x * x = 0) by lra; apply Rsqr_0_uniq; unfold Rsqr; assumption end.
Qed.

Lemma vnorm_zero_iff a : vnorm a = 0 <-> a = vzero.
Proof.
  split.
  - intro H. apply vdot_zero. rewrite <- vnorm_sq, H. ring.
  - intros ->. apply vnorm_unique; [lra|]. unfold vdot, vzero; cbn; ring.
Qed.

Lemma cauchy_schwarz_sq a b : vdot a b * vdot a b <= vdot a a * vdot b b.
Proof.
  unfold vdot.
  assert (0 <= (vx a * vy b - vy a * vx b) * (vx a * vy b - vy a * vx b)
             + (vx a * vz b - vz a * vx b) * (vx a * vz b - vz a * vx b)
             + (vy a * vz b - vz a * vy b) * (vy a * vz b - vz a * vy b)).
  { pose proof (Rle_0_sqr (vx a * vy b - vy a * vx b)) as H1.
    pose proof (Rle_0_sqr (vx a * vz b - vz a * vx b)) as H2.
    pose proof (Rle_0_sqr (vy a * vz b - vz a * vy b)) as H3. unfold Rsqr in *. lra. }
  lra.
Qed.

Lemma Rabs_le_of_sq x y : 0 <= y -> x * x <= y * y -> Rabs x <= y.
Proof. intros Hy H. apply Rsqr_le_abs_0 in H. rewrite (Rabs_pos_eq y Hy) in H. exact H. Qed.

Lemma cauchy_schwarz a b : Rabs (vdot a b) <= vnorm a * vnorm b.
Proof.
  apply Rabs_le_of_sq; [apply Rmult_le_pos; apply vnorm_nonneg|].
  replace (vnorm a * vnorm b * (vnorm a * vnorm b)) with ((vnorm a * vnorm a) * (vnorm b * vnorm b)) by ring.
  rewrite !vnorm_sq. apply cauchy_schwarz_sq.
Qed.

Lemma vdot_le a b : vdot a b <= vnorm a * vnorm b.
Proof. eapply Rle_trans; [apply Rle_abs | apply cauchy_schwarz]. Qed.

Lemma vnorm_triangle a b : vnorm (vadd a b) <= vnorm a + vnorm b.
Proof.
  assert (Ha := vnorm_nonneg a). assert (Hb := vnorm_nonneg b). assert (Hab := vnorm_nonneg (vadd a b)).
  apply Rsqr_incr_0; try lra. unfold Rsqr. rewrite vnorm_sq.
  assert (Hcs := vdot_le a b).
  replace (vdot (vadd a b) (vadd a b)) with (vdot a a + 2 * vdot a b + vdot b b) by (unfold vdot, vadd; cbn; ring).
  rewrite <- (vnorm_sq a), <- (vnorm_sq b). nra.
Qed.

Lemma vdist_nonneg a b : 0 <= vdist a b.
Proof. apply vnorm_nonneg. Qed.

Lemma vdist_triangle a b c : vdist a c <= vdist a b + vdist b c.
Proof.
  unfold vdist. replace (vsub a c) with (vadd (vsub a b) (vsub b c)).
  - apply vnorm_triangle.
  - apply V3_eq; cbn; ring.
Qed.

Lemma vdist_sym a b : vdist a b = vdist b a.
Proof.
  unfold vdist, vnorm. f_equal. unfold vdot, vsub; cbn; ring.
Qed.

Lemma vdist_refl a : vdist a a = 0.
Proof. apply vnorm_zero_iff. apply V3_eq; cbn; ring. Qed.

Lemma vdist_zero a b : vdist a b = 0 -> a = b.
Proof.
  intro H. apply vnorm_zero_iff in H.
  assert (E1 : vx (vsub a b) = 0) by (rewrite H; reflexivity).
  assert (E2 : vy (vsub a b) = 0) by (rewrite H; reflexivity).
  assert (E3 : vz (vsub a b) = 0) by (rewrite H; reflexivity).
  cbn in *. apply V3_eq; lra.
Qed.

Lemma vnorm_scale s a : vnorm (vscale s a) = Rabs s * vnorm a.
Proof.
  apply vnorm_unique.
  - apply Rmult_le_pos; [apply Rabs_pos | apply vnorm_nonneg].
  - replace (Rabs s * vnorm a * (Rabs s * vnorm a)) with ((Rabs s * Rabs s) * (vnorm a * vnorm a)) by ring.
    rewrite vnorm_sq. replace (Rabs s * Rabs s) with (s * s) by (rewrite <- Rabs_mult; symmetry; apply Rabs_pos_eq; nra).
    unfold vdot, vscale; cbn; ring.
Qed.

Lemma vnorm_opp a : vnorm (vscale (-1) a) = vnorm a.
Proof. rewrite vnorm_scale. replace (-1) with (- (1)) by ring. rewrite Rabs_Ropp, Rabs_R1. ring. Qed.
