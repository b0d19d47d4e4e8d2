(** Proofs about the initial values: when the equations determine the parameters. *)
From Coq Require Import Ranalysis1.
From Verif Require Import Base BaseFacts NumpyModel TrajModel ParamModel ParamFacts DataModel GeomModel GeomSpec GeomFacts DirectSpec DirectFacts DirectFacts2
  JacModel JacSpec JacFacts JacFacts2 GhmSpec GhmFacts GhmFacts2 GhmFacts3 InitFacts.

Lemma listed (l : list R) : length l = 11%nat -> params_list (params_of l) = l.
Proof. intro L. do 11 (destruct l as [|? l]; [discriminate L|]). destruct l; [reflexivity | discriminate L]. Qed.

(** The derivatives of the misclosures are the slopes. *)
Lemma jacobian_slope e n vec vals Jp i a j : length vals = 11%nat -> jacobian (fun q => misclosures e (params_of q) n vec) vals (3 * n) Jp ->
  (i < n)%nat -> (a < 3)%nat -> (j < 11)%nat -> Jp (3 * i + a)%nat j = component a (slope (params_of vals) (observed_epoch e vec i) j).
Proof.
  intros L J Hi Ha Hj. assert (P := J (3 * i + a)%nat j ltac:(lia) ltac:(lia)). unfold partial in P.
  assert (D := slope_partial (params_of vals) (observed_epoch e vec i) a j Hj Ha). rewrite (listed vals L) in D.
  refine (uniqueness_limite _ _ _ _ P _). eapply D_ext; [|exact D]. intro t. cbn beta. symmetry. apply misclosures_nth; assumption.
Qed.

(** Their combination for one epoch *)
Definition turning (e : V3) (a b g : R) : V3 :=
  mkV3 (a - g * sin (vy e)) (b * cos (vx e) + g * sin (vx e) * cos (vy e)) (- b * sin (vx e) + g * cos (vx e) * cos (vy e)).

Lemma turned e a b g y :
  vadd (vscale a (mapply (dRx e) y)) (vadd (vscale b (mapply (dRy e) y)) (vscale g (mapply (dRz e) y))) = mapply (euler_matrix e) (vcross (turning e a b g) y).
Proof.
  rewrite euler_entries. destruct e as [e1 e2 e3], y as [y1 y2 y3]. unfold dRx, dRy, dRz, turning. cbn [vx vy vz].
  assert (H1 : sin e1 * sin e1 = 1 - cos e1 * cos e1) by (pose proof (sin2_cos2 e1) as H; unfold Rsqr in H; lra).
  assert (H2 : sin e2 * sin e2 = 1 - cos e2 * cos e2) by (pose proof (sin2_cos2 e2) as H; unfold Rsqr in H; lra).
  assert (H3 : sin e3 * sin e3 = 1 - cos e3 * cos e3) by (pose proof (sin2_cos2 e3) as H; unfold Rsqr in H; lra).
  revert H1 H2 H3. generalize (sin e1), (cos e1), (sin e2), (cos e2), (sin e3), (cos e3). intros sa ca sb cb sg cg H1 H2 H3.
  apply V3_eq; cbv [vcross vadd vscale mapply vdot row1 row2 row3 vx vy vz]; ring [H1 H2 H3].
Qed.

Lemma turning_zero e a b g : cos (vy e) <> 0 -> turning e a b g = vzero -> a = 0 /\ b = 0 /\ g = 0.
Proof.
  intros C H. injection H as Hx Hy Hz. destruct e as [e1 e2 e3]. cbn [vx vy vz] in *.
  assert (H1 : sin e1 * sin e1 + cos e1 * cos e1 = 1) by (pose proof (sin2_cos2 e1) as H; unfold Rsqr in H; lra).
  assert (B : b = 0).
  { replace b with (b * (sin e1 * sin e1 + cos e1 * cos e1)) by (rewrite H1; ring).
    replace (b * (sin e1 * sin e1 + cos e1 * cos e1)) with (cos e1 * (b * cos e1 + g * sin e1 * cos e2) - sin e1 * (- b * sin e1 + g * cos e1 * cos e2)) by ring.
    rewrite Hy, Hz. ring. }
  assert (Gc : g * cos e2 = 0).
  { replace (g * cos e2) with (g * cos e2 * (sin e1 * sin e1 + cos e1 * cos e1)) by (rewrite H1; ring).
    replace (g * cos e2 * (sin e1 * sin e1 + cos e1 * cos e1)) with (sin e1 * (b * cos e1 + g * sin e1 * cos e2) + cos e1 * (- b * sin e1 + g * cos e1 * cos e2)) by ring.
    rewrite Hy, Hz. ring. }
  apply Rmult_integral in Gc as [Gz|]; [|contradiction]. subst b g. repeat split; lra.
Qed.

(** A vector that is parallel to two others that are not parallel is zero. *)
Lemma cross_zero w u v : vcross w u = vzero -> vcross w v = vzero -> vcross u v <> vzero -> w = vzero.
Proof.
  intros Hu Hv N.
  assert (K : forall x, vcross w x = vzero -> vscale (vdot w w) x = vscale (vdot w x) w).
  { intros x Hx. injection Hx as X Y Z. destruct w as [w1 w2 w3], x as [x1 x2 x3]. cbn in X, Y, Z.
    assert (P : forall c r, r = 0 -> c * r = 0) by (intros c r ->; ring).
    assert (X2 := P w2 _ X). assert (X3 := P w3 _ X). assert (Y1 := P w1 _ Y). assert (Y3 := P w3 _ Y). assert (Z1 := P w1 _ Z). assert (Z2 := P w2 _ Z).
    apply V3_eq; cbv [vscale vdot vx vy vz]; lra. }
  assert (E : vscale (vdot w w * vdot w w) (vcross u v) = vzero).
  { replace (vscale (vdot w w * vdot w w) (vcross u v)) with (vcross (vscale (vdot w w) u) (vscale (vdot w w) v)).
    - rewrite (K u Hu), (K v Hv). clear. vars. apply V3_eq; cbv [vcross vscale vdot vx vy vz vzero]; ring.
    - clear. vars. apply V3_eq; cbv [vcross vscale vdot vx vy vz]; ring. }
  destruct (Req_dec (vdot w w) 0) as [Z|Z].
  - destruct w as [w1 w2 w3]. cbv [vdot vx vy vz] in Z. apply V3_eq; cbn; nra.
  - exfalso. apply N. assert (Z2 : vdot w w * vdot w w <> 0) by (apply Rmult_integral_contrapositive_currified; assumption).
    revert E Z2. generalize (vdot w w * vdot w w), (vcross u v). intros c [x1 x2 x3] E Z2. injection E as E1 E2 E3.
    apply Rmult_integral in E1 as [?|E1]; [contradiction|]. apply Rmult_integral in E2 as [?|E2]; [contradiction|]. apply Rmult_integral in E3 as [?|E3]; [contradiction|].
    subst. reflexivity.
Qed.

Lemma rotated_zero m v : is_rot m -> mapply m v = vzero -> v = vzero.
Proof.
  intros Hm H. assert (D := orth_dot m v v (is_rot_orth m Hm)). rewrite H in D. destruct v as [v1 v2 v3].
  cbv [vdot vx vy vz vzero] in D. apply V3_eq; cbn; nra.
Qed.

Lemma scaled_only s c u : s <> 0 -> vadd (vscale s c) (vscale 0 u) = vzero -> c = vzero.
Proof.
  destruct c as [c1 c2 c3], u as [u1 u2 u3]. intros S E. injection E as E1 E2 E3. cbn in E1, E2, E3.
  assert (N1 : s * c1 = 0) by lra. assert (N2 : s * c2 = 0) by lra. assert (N3 : s * c3 = 0) by lra.
  apply Rmult_integral in N1 as [?| ->]; [contradiction|]. apply Rmult_integral in N2 as [?| ->]; [contradiction|]. apply Rmult_integral in N3 as [?| ->]; [contradiction|]. reflexivity.
Qed.

(** Seven parameters and points that are not all on one line *)
Lemma similarity_determined e s t1 t2 t3 a b g ds (pts : list V3) : cos (vy e) <> 0 -> s <> 0 -> not_collinear pts ->
  (forall y, In y pts -> vadd (mkV3 t1 t2 t3) (vadd (vscale s (mapply (euler_matrix e) (vcross (turning e a b g) y))) (vscale ds (mapply (euler_matrix e) y))) = vzero) ->
  t1 = 0 /\ t2 = 0 /\ t3 = 0 /\ a = 0 /\ b = 0 /\ g = 0 /\ ds = 0.
Proof.
  intros C S [p [q [r [Ip [Iq [Ir N]]]]]] H. set (w := turning e a b g) in *. assert (RT : is_rot (euler_matrix e)) by apply is_rot_euler.
  assert (K : forall x y, In x pts -> In y pts -> vadd (vscale s (vcross w (vsub y x))) (vscale ds (vsub y x)) = vzero).
  { intros x y Ix Iy. apply (rotated_zero (euler_matrix e) _ RT). assert (Hx := H x Ix). assert (Hy := H y Iy).
    revert Hx Hy. generalize (euler_matrix e) as m. clear. intros m Hx Hy. injection Hx as X1 X2 X3. injection Hy as Y1 Y2 Y3.
    destruct m as [[m11 m12 m13] [m21 m22 m23] [m31 m32 m33]], w as [w1 w2 w3], x as [x1 x2 x3], y as [y1 y2 y3].
    cbv [vcross vadd vsub vscale mapply vdot row1 row2 row3 vx vy vz] in *. apply V3_eq; cbv [vx vy vz vzero]; lra. }
  assert (Z : forall x y, In x pts -> In y pts -> vsub y x <> vzero -> ds = 0 ).
  { intros x y Ix Iy D. assert (E := K x y Ix Iy). revert E D. generalize (vsub y x) as u. clear. intros u E D.
    assert (F : ds * vdot u u = 0).
    { assert (F : vdot u (vadd (vscale s (vcross w u)) (vscale ds u)) = 0) by (rewrite E; destruct u as [u1 u2 u3]; cbv [vdot vx vy vz vzero]; ring).
      rewrite <- F. destruct u as [u1 u2 u3]; revert E; generalize w; intros [w1 w2 w3] _. cbv [vdot vcross vadd vscale vx vy vz]. ring. }
    apply Rmult_integral in F as [F|F]; [exact F|]. exfalso. apply D. destruct u as [u1 u2 u3]. cbv [vdot vx vy vz] in F. apply V3_eq; cbn; nra. }
  assert (DS : ds = 0).
  { apply (Z p q Ip Iq). intro E. apply N. rewrite E. destruct (vsub r p). apply V3_eq; cbn; ring. }
  assert (W : w = vzero).
  { apply (cross_zero w (vsub q p) (vsub r p)); [| | exact N].
    - assert (E := K p q Ip Iq). rewrite DS in E. exact (scaled_only s _ _ S E).
    - assert (E := K p r Ip Ir). rewrite DS in E. exact (scaled_only s _ _ S E). }
  destruct (turning_zero e a b g C W) as [A [B G]]. assert (Hp := H p Ip). rewrite W, DS in Hp.
  assert (Hz : vcross vzero p = vzero) by (destruct p; apply V3_eq; cbn; ring). rewrite Hz in Hp.
  injection Hp as P1 P2 P3. cbv [vcross vadd vsub vscale mapply vdot row1 row2 row3 vx vy vz vzero] in P1, P2, P3.
  assert (T1 : t1 = 0) by lra. assert (T2 : t2 = 0) by lra. assert (T3 : t3 = 0) by lra. tauto.
Qed.
