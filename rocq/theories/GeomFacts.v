(** Proofs about rotations, 4x4 poses and the alignment equations. *)
From Verif Require Import Base BaseFacts VecFacts NumpyModel NumpyFacts TrajModel TrajSpec GeomModel GeomSpec.

Lemma M3_eq a b : row1 a = row1 b -> row2 a = row2 b -> row3 a = row3 b -> a = b.
Proof. destruct a, b; cbn; intros; subst; reflexivity. Qed.

Ltac munf := unfold mmul, mtrans, mapply, vmul, mscale, madd, outer, mdet, mident, vcross, col1, col2, col3,
  vdot, vadd, vsub, vscale, vzero; cbn [row1 row2 row3 vx vy vz].
Ltac munfall := unfold mmul, mtrans, mapply, vmul, mscale, madd, outer, mdet, mident, vcross, col1, col2, col3,
  vdot, vadd, vsub, vscale, vzero in *; cbn [row1 row2 row3 vx vy vz] in *.
Ltac vars := repeat match goal with
  | a : M4 |- _ => let x := fresh "k" in let y := fresh "k" in let z := fresh "k" in let w := fresh "k" in
                   destruct a as [x y z w]
  | a : M3 |- _ => let x := fresh "k" in let y := fresh "k" in let z := fresh "k" in destruct a as [x y z]
  | a : V3 |- _ => let x := fresh "k" in let y := fresh "k" in let z := fresh "k" in destruct a as [x y z]
  end.
Ltac m3 := vars; apply M3_eq; apply V3_eq; munf.

Lemma cons_eq {A} (a b : A) l m : a = b -> l = m -> a :: l = b :: m.
Proof. intros -> ->; reflexivity. Qed.
(** Equality of explicit lists of points. *)
Ltac pts := repeat apply cons_eq; try reflexivity; try (apply V3_eq; munf; unfold vdot; cbn).

Lemma mmul_assoc a b c : mmul (mmul a b) c = mmul a (mmul b c).
Proof. m3; ring. Qed.

Lemma mmul_ident_l a : mmul mident a = a.
Proof. m3; ring. Qed.

Lemma mmul_ident_r a : mmul a mident = a.
Proof. m3; ring. Qed.

Lemma mapply_ident v : mapply mident v = v.
Proof. vars; apply V3_eq; munf; ring. Qed.

Lemma mapply_mmul a b v : mapply (mmul a b) v = mapply a (mapply b v).
Proof. vars; apply V3_eq; munf; ring. Qed.

Lemma mapply_add m a b : mapply m (vadd a b) = vadd (mapply m a) (mapply m b).
Proof. vars; apply V3_eq; munf; ring. Qed.

Lemma mapply_sub m a b : mapply m (vsub a b) = vsub (mapply m a) (mapply m b).
Proof. vars; apply V3_eq; munf; ring. Qed.

Lemma mapply_scale m s a : mapply m (vscale s a) = vscale s (mapply m a).
Proof. vars; apply V3_eq; munf; ring. Qed.

Lemma mapply_mscale m s a : mapply (mscale s m) a = vscale s (mapply m a).
Proof. vars; apply V3_eq; munf; ring. Qed.

Lemma mapply_zero m : mapply m vzero = vzero.
Proof. vars; apply V3_eq; munf; ring. Qed.

Lemma mtrans_mmul a b : mtrans (mmul a b) = mmul (mtrans b) (mtrans a).
Proof. m3; ring. Qed.

Lemma mtrans_invol a : mtrans (mtrans a) = a.
Proof. m3; reflexivity. Qed.

Lemma mdet_mmul a b : mdet (mmul a b) = mdet a * mdet b.
Proof. vars; munf; ring. Qed.

Lemma mdet_mtrans a : mdet (mtrans a) = mdet a.
Proof. vars; munf; ring. Qed.

Lemma vdot_mapply m a b : vdot (mapply m a) b = vdot a (mapply (mtrans m) b).
Proof. vars; munf; ring. Qed.

(** Adjugate. *)
Definition madj (m : M3) : M3 :=
  mtrans (mkM3 (vcross (row2 m) (row3 m)) (vcross (row3 m) (row1 m)) (vcross (row1 m) (row2 m))).

Lemma madj_r m : mmul m (madj m) = mscale (mdet m) mident.
Proof. unfold madj. m3; ring. Qed.

Lemma mscale_one m : mscale 1 m = m.
Proof. m3; ring. Qed.

Lemma is_rot_adj m : is_rot m -> mtrans m = madj m.
Proof.
  intros [H D].
  rewrite <- (mmul_ident_r (mtrans m)), <- (mscale_one mident), <- D, <- madj_r, <- mmul_assoc, H.
  apply mmul_ident_l.
Qed.

Lemma is_rot_right m : is_rot m -> mmul m (mtrans m) = mident.
Proof. intros H. rewrite (is_rot_adj m H), madj_r. destruct H as [_ ->]. apply mscale_one. Qed.

Lemma is_rot_left m : is_rot m -> mmul (mtrans m) m = mident.
Proof. intros [H _]; exact H. Qed.

Lemma is_rot_ident : is_rot mident.
Proof. split; [m3; ring | munf; ring]. Qed.

Lemma is_rot_mmul a b : is_rot a -> is_rot b -> is_rot (mmul a b).
Proof.
  intros [A DA] [B DB]. split.
  - rewrite mtrans_mmul, mmul_assoc, <- (mmul_assoc (mtrans a)), A, mmul_ident_l. exact B.
  - rewrite mdet_mmul, DA, DB. ring.
Qed.

Lemma is_rot_mtrans a : is_rot a -> is_rot (mtrans a).
Proof.
  intros H. split.
  - rewrite mtrans_invol. apply is_rot_right, H.
  - rewrite mdet_mtrans. apply H.
Qed.

Lemma sc1 x : sin x * sin x + cos x * cos x = 1.
Proof. pose proof (sin2_cos2 x) as H. unfold Rsqr in H. exact H. Qed.

Lemma is_rot_Rx a : is_rot (Rx a).
Proof. pose proof (sc1 a). unfold is_rot, Rx. split; [m3; lra | munf; lra]. Qed.
Lemma is_rot_Ry a : is_rot (Ry a).
Proof. pose proof (sc1 a). unfold is_rot, Ry. split; [m3; lra | munf; lra]. Qed.
Lemma is_rot_Rz a : is_rot (Rz a).
Proof. pose proof (sc1 a). unfold is_rot, Rz. split; [m3; lra | munf; lra]. Qed.

Lemma is_rot_euler e : is_rot (euler_matrix e).
Proof. unfold euler_matrix. auto using is_rot_mmul, is_rot_Rx, is_rot_Ry, is_rot_Rz. Qed.

Lemma euler_zero : euler_matrix vzero = mident.
Proof. unfold euler_matrix, Rx, Ry, Rz. cbn [vx vy vz vzero]. rewrite sin_0, cos_0. m3; ring. Qed.

Lemma rot_dot m a b : is_rot m -> vdot (mapply m a) (mapply m b) = vdot a b.
Proof. intros H. rewrite vdot_mapply, <- mapply_mmul, (is_rot_left m H), mapply_ident. reflexivity. Qed.

Lemma rot_norm m a : is_rot m -> vnorm (mapply m a) = vnorm a.
Proof. intros H. unfold vnorm. rewrite rot_dot by exact H. reflexivity. Qed.

Lemma rot_dist m a b : is_rot m -> vdist (mapply m a) (mapply m b) = vdist a b.
Proof. intros H. unfold vdist. rewrite <- mapply_sub. apply rot_norm, H. Qed.

(** ** 4x4 matrices *)
Lemma M4_eq a b : lin a = lin b -> tra a = tra b -> bot a = bot b -> cor a = cor b -> a = b.
Proof. destruct a, b; cbn; intros; subst; reflexivity. Qed.
Ltac m4 := vars; apply M4_eq; unfold mul4; cbn [lin tra bot cor];
  [apply M3_eq; apply V3_eq | apply V3_eq | apply V3_eq |]; munf.

Lemma mmul_madd_l a b c : mmul (madd a b) c = madd (mmul a c) (mmul b c).
Proof. m3; ring. Qed.
Lemma mmul_madd_r a b c : mmul a (madd b c) = madd (mmul a b) (mmul a c).
Proof. m3; ring. Qed.
Lemma mmul_outer_l u v c : mmul (outer u v) c = outer u (vmul v c).
Proof. m3; ring. Qed.
Lemma mmul_outer_r a u v : mmul a (outer u v) = outer (mapply a u) v.
Proof. m3; ring. Qed.
Lemma outer_add_l u v w : outer (vadd u v) w = madd (outer u w) (outer v w).
Proof. m3; ring. Qed.
Lemma outer_add_r u v w : outer u (vadd v w) = madd (outer u v) (outer u w).
Proof. m3; ring. Qed.
Lemma outer_scale s u v : outer (vscale s u) v = outer u (vscale s v).
Proof. m3; ring. Qed.
Lemma madd_assoc a b c : madd (madd a b) c = madd a (madd b c).
Proof. m3; ring. Qed.
Lemma madd_comm a b : madd a b = madd b a.
Proof. m3; ring. Qed.

Lemma vmul_madd v a b : vmul v (madd a b) = vadd (vmul v a) (vmul v b).
Proof. vars; apply V3_eq; munf; ring. Qed.
Lemma vmul_mmul v a b : vmul v (mmul a b) = vmul (vmul v a) b.
Proof. vars; apply V3_eq; munf; ring. Qed.

Lemma mul4_assoc a b c : mul4 (mul4 a b) c = mul4 a (mul4 b c).
Proof.
  apply M4_eq; unfold mul4; cbn [lin tra bot cor].
  - rewrite mmul_madd_l, mmul_madd_r, mmul_assoc, mmul_outer_l, mmul_outer_r, outer_add_l, outer_add_r,
      outer_scale, !madd_assoc. f_equal.
    rewrite <- !madd_assoc. f_equal. apply madd_comm.
  - vars; apply V3_eq; munf; ring.
  - vars; apply V3_eq; munf; ring.
  - vars; munf; ring.
Qed.

Lemma mul4_ident_l a : mul4 ident4 a = a.
Proof. unfold ident4. m4; ring. Qed.

Lemma mul4_ident_r a : mul4 a ident4 = a.
Proof. unfold ident4. m4; ring. Qed.

(** Product with a pose: the last row of [T] is irrelevant for the new rotation and position. *)
Lemma mul4_pose T m p :
  mul4 T (pose4 m p) = mkM4 (mmul (lin T) m) (vadd (mapply (lin T) p) (tra T))
                            (vmul (bot T) m) (vdot (bot T) p + cor T).
Proof. unfold pose4. m4; ring. Qed.

Lemma mul4_rigid_pose T m p :
  rigid T -> mul4 T (pose4 m p) = pose4 (mmul (lin T) m) (vadd (mapply (lin T) p) (tra T)).
Proof.
  intros (_ & B & C). rewrite mul4_pose, B, C. unfold pose4.
  apply M4_eq; cbn [lin tra bot cor]; auto; [apply V3_eq; munf; ring | munf; ring].
Qed.

Lemma rigid_mul a b : rigid a -> rigid b -> rigid (mul4 a b).
Proof.
  intros (A & BA & CA) (B & BB & CB). unfold rigid, mul4; cbn [lin tra bot cor].
  rewrite BA, BB, CA, CB. repeat split.
  - replace (madd (mmul (lin a) (lin b)) (outer (tra a) vzero)) with (mmul (lin a) (lin b)) by (m3; ring).
    apply is_rot_mmul; assumption.
  - replace (madd (mmul (lin a) (lin b)) (outer (tra a) vzero)) with (mmul (lin a) (lin b)) by (m3; ring).
    apply (is_rot_mmul _ _ A B).
  - apply V3_eq; munf; ring.
  - munf; ring.
Qed.

Lemma rigid_lin a b : rigid a -> rigid b -> lin (mul4 a b) = mmul (lin a) (lin b).
Proof.
  intros (A & BA & CA) (B & BB & CB). unfold mul4; cbn [lin]. rewrite BB. m3; ring.
Qed.

Lemma rigid_ident : rigid ident4.
Proof. split; [apply is_rot_ident | split; reflexivity]. Qed.

Lemma rigid_pose m p : is_rot m -> rigid (pose4 m p).
Proof. intro H. split; [exact H | split; reflexivity]. Qed.

Lemma rigid_is_pose T : rigid T -> T = pose4 (lin T) (tra T).
Proof. intros (_ & B & C). destruct T; cbn in *; subst; reflexivity. Qed.

(** ** Euler angles of an arbitrary rotation: the contract is satisfiable *)
Definition atan2u (y x : R) : R := if Rle_dec 0 y then acos x else - acos x.

Lemma atan2u_cos y x : x * x + y * y = 1 -> cos (atan2u y x) = x.
Proof.
  intro H. assert (-1 <= x <= 1) by nra. unfold atan2u.
  destruct (Rle_dec 0 y); [|rewrite cos_neg]; apply cos_acos; lra.
Qed.

Lemma atan2u_sin y x : x * x + y * y = 1 -> sin (atan2u y x) = y.
Proof.
  intro H. assert (Hx : -1 <= x <= 1) by nra. unfold atan2u.
  assert (E : 1 - Rsqr x = y * y) by (unfold Rsqr; lra).
  destruct (Rle_dec 0 y) as [P|P]; [|rewrite sin_neg]; rewrite (sin_acos x Hx), E.
  - apply sqrt_square; lra.
  - replace (y * y) with ((- y) * (- y)) by ring. rewrite sqrt_square by lra. ring.
Qed.

(** Fixed-axis xyz angles of a rotation matrix. *)
Definition euler_of (m : M3) : V3 :=
  let s := - vx (row3 m) in
  let c := sqrt (1 - s * s) in
  if Req_EM_T c 0 then mkV3 0 (asin s) (atan2u (- vy (row1 m)) (vy (row2 m)))
  else mkV3 (atan2u (vy (row3 m) / c) (vz (row3 m) / c)) (asin s)
            (atan2u (vx (row2 m) / c) (vx (row1 m) / c)).

Lemma euler_matrix_entries e :
  let sa := sin (vx e) in let ca := cos (vx e) in
  let sb := sin (vy e) in let cb := cos (vy e) in
  let sg := sin (vz e) in let cg := cos (vz e) in
  euler_matrix e =
  mkM3 (mkV3 (cb * cg) (sa * sb * cg - ca * sg) (ca * sb * cg + sa * sg))
       (mkV3 (cb * sg) (sa * sb * sg + ca * cg) (ca * sb * sg - sa * cg))
       (mkV3 (- sb) (sa * cb) (ca * cb)).
Proof. cbv zeta. unfold euler_matrix, Rx, Ry, Rz. m3; ring. Qed.

Lemma mmul_left_rows m : mmul m (mtrans m) = mident ->
  vdot (row1 m) (row1 m) = 1 /\ vdot (row2 m) (row2 m) = 1 /\ vdot (row3 m) (row3 m) = 1 /\
  vdot (row1 m) (row2 m) = 0 /\ vdot (row1 m) (row3 m) = 0 /\ vdot (row2 m) (row3 m) = 0.
Proof.
  intro H. unfold mmul, mtrans, vmul, mident in H. injection H; cbn; intros.
  unfold col1, col2, col3 in *; cbn in *. unfold vdot in *; cbn in *. repeat split; lra.
Qed.

Lemma sq_sum_zero x y : x * x + y * y = 0 -> x = 0 /\ y = 0.
Proof. intro H. split; nra. Qed.

Lemma euler_of_correct m : is_rot m -> euler_matrix (euler_of m) = m.
Proof.
  intro H. assert (Hr := mmul_left_rows m (is_rot_right m H)).
  assert (Hc := mmul_left_rows (mtrans m)). rewrite mtrans_invol in Hc. specialize (Hc (is_rot_left m H)).
  assert (Ha := is_rot_adj m H).
  destruct m as [[m11 m12 m13] [m21 m22 m23] [m31 m32 m33]].
  unfold madj in Ha. munfall.
  injection Ha as A11 A12 A13 A21 A22 A23 A31 A32 A33.
  cbn in *. destruct Hr as (r11 & r22 & r33 & r12 & r13 & r23). destruct Hc as (c11 & c22 & c33 & c12 & c13 & c23).
  assert (B31 : -1 <= - m31 <= 1) by (pose proof (Rle_0_sqr m11); pose proof (Rle_0_sqr m21); unfold Rsqr in *; split; clear - c11 H0 H1; nra).
  rewrite euler_matrix_entries. unfold euler_of. cbn [row1 row2 row3 vx vy vz].
  set (c := sqrt (1 - - m31 * - m31)).
  assert (Pc : 0 <= c) by apply sqrt_pos.
  assert (Ec : c * c = 1 - m31 * m31) by (unfold c; rewrite sqrt_sqrt; [ring | clear - B31; nra]).
  assert (Sb : sin (asin (- m31)) = - m31) by (apply sin_asin; exact B31).
  assert (Cb : cos (asin (- m31)) = c).
  { rewrite cos_asin by exact B31. unfold c, Rsqr. reflexivity. }
  destruct (Req_EM_T c 0) as [Z|Z]; cbn [vx vy vz]; rewrite Sb, Cb.
  - assert (m31 * m31 = 1) by (rewrite Z in Ec; lra).
    destruct (sq_sum_zero m11 m21) as [? ?]; [lra|]. destruct (sq_sum_zero m32 m33) as [? ?]; [lra|].
    subst m11 m21 m32 m33.
    assert (U : m22 * m22 + - m12 * - m12 = 1) by lra.
    rewrite (atan2u_cos _ _ U), (atan2u_sin _ _ U), cos_0, sin_0, Z.
    apply M3_eq; apply V3_eq; cbn; lra.
  - assert (U1 : m33 / c * (m33 / c) + m32 / c * (m32 / c) = 1).
    { replace (m33 / c * (m33 / c) + m32 / c * (m32 / c)) with ((m33 * m33 + m32 * m32) / (c * c)) by (field; exact Z).
      rewrite Ec. replace (m33 * m33 + m32 * m32) with (1 - m31 * m31) by lra. field. rewrite <- Ec. clear - Z; intro E; apply Z; apply Rmult_integral in E; tauto. }
    assert (U2 : m11 / c * (m11 / c) + m21 / c * (m21 / c) = 1).
    { replace (m11 / c * (m11 / c) + m21 / c * (m21 / c)) with ((m11 * m11 + m21 * m21) / (c * c)) by (field; exact Z).
      rewrite Ec. replace (m11 * m11 + m21 * m21) with (1 - m31 * m31) by lra. field. rewrite <- Ec. clear - Z; intro E; apply Z; apply Rmult_integral in E; tauto. }
    rewrite (atan2u_cos _ _ U1), (atan2u_sin _ _ U1), (atan2u_cos _ _ U2), (atan2u_sin _ _ U2).
    assert (K : forall x y, x * (c * c) = y -> y / (c * c) = x) by (intros x y <-; field; exact Z).
    apply M3_eq; apply V3_eq; cbn [row1 row2 row3 vx vy vz]; try (field; exact Z); try lra.
    + transitivity ((- m31 * m32 * m11 - m33 * m21) / (c * c)); [field; exact Z|]. apply K. rewrite Ec.
      assert (E2 : m23 = m12 * m31 - m11 * m32) by lra.
      assert (E : m12 = (m12 * m31 - m11 * m32) * m31 - m21 * m33) by (rewrite <- E2; lra). lra.
    + transitivity ((- m31 * m33 * m11 + m32 * m21) / (c * c)); [field; exact Z|]. apply K. rewrite Ec.
      assert (E2 : m22 = m11 * m33 - m13 * m31) by lra.
      assert (E : m13 = m21 * m32 - (m11 * m33 - m13 * m31) * m31) by (rewrite <- E2; lra). lra.
    + transitivity ((- m31 * m32 * m21 + m33 * m11) / (c * c)); [field; exact Z|]. apply K. rewrite Ec.
      assert (E1 : m13 = m21 * m32 - m22 * m31) by lra.
      assert (E : m22 = m11 * m33 - (m21 * m32 - m22 * m31) * m31) by (rewrite <- E1; lra). lra.
    + transitivity ((- m31 * m33 * m21 - m32 * m11) / (c * c)); [field; exact Z|]. apply K. rewrite Ec.
      assert (E1 : m12 = m23 * m31 - m21 * m33) by lra.
      assert (E : m23 = (m23 * m31 - m21 * m33) * m31 - m11 * m32) by (rewrite <- E1; lra). lra.
Qed.

(** Rotations as the set of rotation matrices; matrices that are no rotations are mapped to the identity. *)
Definition RotM : Type := { m : M3 | is_rot m }.
Definition rotm_dec (m : M3) : { is_rot m } + { ~ is_rot m }.
Proof.
  destruct m as [[a b c] [d e f] [g h i]]. unfold is_rot.
  assert (D : forall u v : V3, {u = v} + {u <> v}).
  { intros [u1 u2 u3] [v1 v2 v3].
    destruct (Req_EM_T u1 v1), (Req_EM_T u2 v2), (Req_EM_T u3 v3); subst; auto; right; congruence. }
  assert (DM : forall u v : M3, {u = v} + {u <> v}).
  { intros [u1 u2 u3] [v1 v2 v3].
    destruct (D u1 v1), (D u2 v2), (D u3 v3); subst; auto; right; congruence. }
  match goal with |- {?x = ?y /\ ?p = ?q} + {_} =>
    destruct (DM x y), (Req_EM_T p q); [left; split; assumption | right; tauto..] end.
Defined.
Definition rot_impl : rot_ops RotM := {|
  as_matrix := fun q => proj1_sig q;
  from_matrix := fun m => match rotm_dec m with left H => exist _ m H | right _ => exist _ mident is_rot_ident end;
  from_euler := fun e => exist _ (euler_matrix e) (is_rot_euler e);
  as_euler := fun q => euler_of (proj1_sig q);
  rmul := fun a b => exist _ (mmul (proj1_sig a) (proj1_sig b)) (is_rot_mmul _ _ (proj2_sig a) (proj2_sig b));
  rinv := fun a => exist _ (mtrans (proj1_sig a)) (is_rot_mtrans _ (proj2_sig a))
|}.

Lemma rot_impl_contract : rot_contract rot_impl.
Proof.
  split; cbn.
  - intro q. exact (proj2_sig q).
  - intros m H. destruct (rotm_dec m); [reflexivity | contradiction].
  - reflexivity.
  - intros [m H]; cbn. apply euler_of_correct, H.
  - reflexivity.
  - reflexivity.
Qed.
