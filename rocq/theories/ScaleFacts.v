(** Rotations made from scaled rotation matrices. *)
From Verif Require Import Base BaseFacts VecFacts NumpyModel TrajModel GeomModel GeomSpec GeomFacts IoModel IoSpec EqSpec ScaleModel ScaleSpec.

Definition qnorm2 (q : V4) : R := q_x q * q_x q + q_y q * q_y q + q_z q * q_z q + q_w q * q_w q.
(** The rotation of a quaternion that is not normalised *)
Definition hmat (q : V4) : M3 := let n := qnorm2 q in
  mkM3 (mkV3 (1 - 2 * (q_y q * q_y q + q_z q * q_z q) / n) (2 * (q_x q * q_y q - q_z q * q_w q) / n) (2 * (q_x q * q_z q + q_y q * q_w q) / n))
       (mkV3 (2 * (q_x q * q_y q + q_z q * q_w q) / n) (1 - 2 * (q_x q * q_x q + q_z q * q_z q) / n) (2 * (q_y q * q_z q - q_x q * q_w q) / n))
       (mkV3 (2 * (q_x q * q_z q - q_y q * q_w q) / n) (2 * (q_y q * q_z q + q_x q * q_w q) / n) (1 - 2 * (q_x q * q_x q + q_y q * q_y q) / n)).

Lemma unit_hmat q : 0 < qnorm2 q -> quat_matrix (qunit q) = hmat q.
Proof.
  intro H. unfold qunit, qnorm. fold (qnorm2 q). assert (S := sqrt_sqrt _ (Rlt_le _ _ H)). assert (P := sqrt_lt_R0 _ H). set (r := sqrt (qnorm2 q)) in *.
  unfold hmat, quat_matrix, qscale. cbv zeta. cbn [q_x q_y q_z q_w]. rewrite <- S. apply M3_eq; apply V3_eq; cbn [vx vy vz row1 row2 row3]; field; lra.
Qed.

Lemma largest_spec a b c d : match largest a b c d with
  | 0%nat => b <= a /\ c <= a /\ d <= a
  | 1%nat => a < b /\ c <= b /\ d <= b
  | 2%nat => a < c /\ b < c /\ d <= c
  | _ => a < d /\ b < d /\ c < d
  end.
Proof. unfold largest. destruct (Rleb b a) eqn:E1, (Rleb c a) eqn:E2, (Rleb d a) eqn:E3, (Rleb c b) eqn:E4, (Rleb d b) eqn:E5, (Rleb d c) eqn:E6; cbn [andb];
  repeat match goal with H : Rleb _ _ = true |- _ => apply Rleb_true in H | H : Rleb _ _ = false |- _ => apply Rleb_false in H end; repeat split; lra. Qed.
Lemma largest_scale s a b c d : 0 < s -> largest (s * a) (s * b) (s * c) (s * d) = largest a b c d.
Proof.
  intro S. assert (L : forall x y, Rleb (s * x) (s * y) = Rleb x y).
  { intros x y. destruct (Rleb x y) eqn:E; [apply Rleb_true in E; apply Rleb_true, Rmult_le_compat_l; lra|apply Rleb_false in E; apply Rleb_false, Rmult_lt_compat_l; lra]. }
  unfold largest. now rewrite !L.
Qed.

(** The equations of a rotation matrix *)
Lemma rot_equations a b c d e f g h i : is_rot (mkM3 (mkV3 a b c) (mkV3 d e f) (mkV3 g h i)) ->
  (a*a+b*b+c*c = 1 /\ d*d+e*e+f*f = 1 /\ g*g+h*h+i*i = 1 /\ a*d+b*e+c*f = 0 /\ a*g+b*h+c*i = 0 /\ d*g+e*h+f*i = 0) /\
  (a*a+d*d+g*g = 1 /\ b*b+e*e+h*h = 1 /\ c*c+f*f+i*i = 1 /\ a*b+d*e+g*h = 0 /\ a*c+d*f+g*i = 0 /\ b*c+e*f+h*i = 0) /\
  (a = e*i-f*h /\ b = f*g-d*i /\ c = d*h-e*g /\ d = c*h-b*i /\ e = a*i-c*g /\ f = b*g-a*h /\ g = b*f-c*e /\ h = c*d-a*f /\ i = a*e-b*d).
Proof.
  intro H. pose proof (is_rot_adj _ H) as A. pose proof (is_rot_right _ H) as B. destruct H as [C _].
  munfall. cbn in A, B, C. injection A as A1 A2 A3 A4 A5 A6 A7 A8 A9. injection B as B1 B2 B3 B4 B5 B6 B7 B8 B9. injection C as C1 C2 C3 C4 C5 C6 C7 C8 C9.
  repeat split; lra.
Qed.

(** The largest component of the quaternion of a rotation determines its norm; the rotation of the quaternion is the matrix. *)
Lemma markley_rot m : is_rot m -> 0 < qnorm2 (markley m) /\ hmat (markley m) = m.
Proof.
  destruct m as [[a b c] [d e f] [g h i]]. intro H. destruct (rot_equations _ _ _ _ _ _ _ _ _ H) as ((R1&R2&R3&R4&R5&R6)&(S1&S2&S3&S4&S5&S6)&(T1&T2&T3&T4&T5&T6&T7&T8&T9)). clear H.
  assert (L := largest_spec a e i (a + e + i)). unfold markley. cbv zeta. cbn [vx vy vz row1 row2 row3].
  destruct (largest a e i (a + e + i)) as [|[|[|k]]].
  all: unfold hmat, qnorm2; cbv zeta; cbn [q_x q_y q_z q_w].
  - assert (W : 0 < 1 - (a + e + i) + 2 * a) by lra.
    assert (N : (1 - (a + e + i) + 2 * a) * (1 - (a + e + i) + 2 * a) + (d + b) * (d + b) + (g + c) * (g + c) + (h - f) * (h - f) = 4 * (1 - (a + e + i) + 2 * a)) by lra.
    rewrite N. split; [lra|]. apply M3_eq; apply V3_eq; cbn [vx vy vz row1 row2 row3]; apply (Rmult_eq_reg_r (4 * (1 - (a + e + i) + 2 * a))); try lra; field_simplify; lra.
  - assert (W : 0 < 1 - (a + e + i) + 2 * e) by lra.
    assert (N : (b + d) * (b + d) + (1 - (a + e + i) + 2 * e) * (1 - (a + e + i) + 2 * e) + (h + f) * (h + f) + (c - g) * (c - g) = 4 * (1 - (a + e + i) + 2 * e)) by lra.
    rewrite N. split; [lra|]. apply M3_eq; apply V3_eq; cbn [vx vy vz row1 row2 row3]; apply (Rmult_eq_reg_r (4 * (1 - (a + e + i) + 2 * e))); try lra; field_simplify; lra.
  - assert (W : 0 < 1 - (a + e + i) + 2 * i) by lra.
    assert (N : (c + g) * (c + g) + (f + h) * (f + h) + (1 - (a + e + i) + 2 * i) * (1 - (a + e + i) + 2 * i) + (d - b) * (d - b) = 4 * (1 - (a + e + i) + 2 * i)) by lra.
    rewrite N. split; [lra|]. apply M3_eq; apply V3_eq; cbn [vx vy vz row1 row2 row3]; apply (Rmult_eq_reg_r (4 * (1 - (a + e + i) + 2 * i))); try lra; field_simplify; lra.
  - assert (W : 0 < 1 + (a + e + i)) by lra.
    assert (N : (h - f) * (h - f) + (c - g) * (c - g) + (d - b) * (d - b) + (1 + (a + e + i)) * (1 + (a + e + i)) = 4 * (1 + (a + e + i))) by lra.
    rewrite N. split; [lra|]. apply M3_eq; apply V3_eq; cbn [vx vy vz row1 row2 row3]; apply (Rmult_eq_reg_r (4 * (1 + (a + e + i)))); try lra; field_simplify; lra.
Qed.

Lemma markley_pos m : 0 < qnorm2 (markley m).
Proof.
  destruct m as [[a b c] [d e f] [g h i]]. assert (L := largest_spec a e i (a + e + i)). unfold markley. cbv zeta. cbn [vx vy vz row1 row2 row3].
  destruct (largest a e i (a + e + i)) as [|[|[|k]]]; unfold qnorm2; cbn [q_x q_y q_z q_w].
  - assert (W : 0 < 1 - (a + e + i) + 2 * a) by lra. assert (K := Rmult_lt_0_compat _ _ W W). pose proof (Rle_0_sqr (d + b)). pose proof (Rle_0_sqr (g + c)). pose proof (Rle_0_sqr (h - f)). unfold Rsqr in *. lra.
  - assert (W : 0 < 1 - (a + e + i) + 2 * e) by lra. assert (K := Rmult_lt_0_compat _ _ W W). pose proof (Rle_0_sqr (b + d)). pose proof (Rle_0_sqr (h + f)). pose proof (Rle_0_sqr (c - g)). unfold Rsqr in *. lra.
  - assert (W : 0 < 1 - (a + e + i) + 2 * i) by lra. assert (K := Rmult_lt_0_compat _ _ W W). pose proof (Rle_0_sqr (c + g)). pose proof (Rle_0_sqr (f + h)). pose proof (Rle_0_sqr (d - b)). unfold Rsqr in *. lra.
  - assert (W : 0 < 1 + (a + e + i)) by lra. assert (K := Rmult_lt_0_compat _ _ W W). pose proof (Rle_0_sqr (h - f)). pose proof (Rle_0_sqr (c - g)). pose proof (Rle_0_sqr (d - b)). unfold Rsqr in *. lra.
Qed.

Lemma core s w w' r : 0 < s -> 0 < w -> w' = s * w + (1 - s) -> 0 < w' -> r = 4 * w - w * w -> 4 * (w' * w') = w * (s * s * r + w' * w') -> s = 1 \/ r = 0.
Proof.
  intros S W E P -> H. assert (K : (4 - w) * ((w' - s * w) * (w' + s * w)) = 0) by lra.
  apply Rmult_integral in K as [K|K]; [right; replace w with 4 by lra; lra|]. apply Rmult_integral in K as [K|K]; [left; lra|].
  assert (0 < s * w) by (apply Rmult_lt_0_compat; lra). lra.
Qed.
Lemma squares_zero x y z : x * x + y * y + z * z = 0 -> x = 0 /\ y = 0 /\ z = 0.
Proof. intro H. pose proof (Rle_0_sqr x). pose proof (Rle_0_sqr y). pose proof (Rle_0_sqr z). unfold Rsqr in *. repeat split; apply Rsqr_0_uniq; unfold Rsqr; lra. Qed.

Lemma hmat_parts q m : 0 < qnorm2 q -> hmat q = m ->
  (1 + vx (row1 m) - vy (row2 m) - vz (row3 m)) * qnorm2 q = 4 * (q_x q * q_x q) /\
  (1 - vx (row1 m) + vy (row2 m) - vz (row3 m)) * qnorm2 q = 4 * (q_y q * q_y q) /\
  (1 - vx (row1 m) - vy (row2 m) + vz (row3 m)) * qnorm2 q = 4 * (q_z q * q_z q) /\
  (1 + vx (row1 m) + vy (row2 m) + vz (row3 m)) * qnorm2 q = 4 * (q_w q * q_w q).
Proof. intros P <-. unfold hmat. cbv zeta. cbn [vx vy vz row1 row2 row3]. unfold qnorm2 in *. repeat split; field; lra. Qed.
Lemma hmat_x w : w <> 0 -> hmat (mkV4 w 0 0 0) = mkM3 (mkV3 1 0 0) (mkV3 0 (-1) 0) (mkV3 0 0 (-1)).
Proof. intro W. unfold hmat, qnorm2. cbv zeta. cbn [q_x q_y q_z q_w]. apply M3_eq; apply V3_eq; cbn [vx vy vz row1 row2 row3]; field; exact W. Qed.
Lemma hmat_y w : w <> 0 -> hmat (mkV4 0 w 0 0) = mkM3 (mkV3 (-1) 0 0) (mkV3 0 1 0) (mkV3 0 0 (-1)).
Proof. intro W. unfold hmat, qnorm2. cbv zeta. cbn [q_x q_y q_z q_w]. apply M3_eq; apply V3_eq; cbn [vx vy vz row1 row2 row3]; field; exact W. Qed.
Lemma hmat_z w : w <> 0 -> hmat (mkV4 0 0 w 0) = mkM3 (mkV3 (-1) 0 0) (mkV3 0 (-1) 0) (mkV3 0 0 1).
Proof. intro W. unfold hmat, qnorm2. cbv zeta. cbn [q_x q_y q_z q_w]. apply M3_eq; apply V3_eq; cbn [vx vy vz row1 row2 row3]; field; exact W. Qed.
Lemma hmat_w w : w <> 0 -> hmat (mkV4 0 0 0 w) = mkM3 (mkV3 1 0 0) (mkV3 0 1 0) (mkV3 0 0 1).
Proof. intro W. unfold hmat, qnorm2. cbv zeta. cbn [q_x q_y q_z q_w]. apply M3_eq; apply V3_eq; cbn [vx vy vz row1 row2 row3]; field; exact W. Qed.

(** The rotation made from a scaled rotation matrix is the rotation itself only for scale one, the identity and the half turns
    about the axes. *)
Lemma markley_scale m s : is_rot m -> 0 < s -> (hmat (markley (mscale s m)) = m <-> s = 1 \/ diagonal m).
Proof.
  intros RM S. destruct (markley_rot m RM) as [_ M]. pose proof (markley_pos (mscale s m)) as NP.
  destruct m as [[a b c] [d e f] [g h i]]. destruct (rot_equations _ _ _ _ _ _ _ _ _ RM) as ((R1&R2&R3&R4&R5&R6)&(S1&S2&S3&S4&S5&S6)&(T1&T2&T3&T4&T5&T6&T7&T8&T9)). clear RM.
  assert (L := largest_spec a e i (a + e + i)). assert (L' := largest_spec (s * a) (s * e) (s * i) (s * (a + e + i))).
  unfold markley, mscale, vscale, diagonal in *. cbv zeta in *. cbn [vx vy vz row1 row2 row3] in *.
  replace (s * a + s * e + s * i) with (s * (a + e + i)) in * by ring. rewrite (largest_scale s a e i (a + e + i) S) in *.
  destruct (largest a e i (a + e + i)) as [|[|[|k]]].
  - set (W := 1 - (a + e + i) + 2 * a) in *. assert (WP : 0 < W) by (unfold W; lra). assert (WP' : 0 < 1 - s * (a + e + i) + 2 * (s * a)) by lra.
    replace (1 - s * (a + e + i) + 2 * (s * a)) with (s * W + (1 - s)) in * by (unfold W; ring).
    assert (N : (d + b) * (d + b) + (g + c) * (g + c) + (h - f) * (h - f) = 4 * W - W * W) by (unfold W; lra).
    split.
    + intro E. destruct (hmat_parts _ _ NP E) as (P1 & P2 & P3 & P4). unfold qnorm2 in *. cbn [q_x q_y q_z q_w vx vy vz row1 row2 row3] in *.
      destruct (core s W (s * W + (1 - s)) (4 * W - W * W) S WP eq_refl WP' eq_refl) as [K|K]; [rewrite <- N; unfold W in *; lra|left; exact K|].
      right. rewrite K in N. apply squares_zero in N as (Z1 & Z2 & Z3). rewrite Z1, Z2, Z3, hmat_x in M by lra. injection M as M1 M2 M3 M4 M5 M6 M7 M8 M9. repeat split; lra.
    + intros [->|(Z1 & Z2 & Z3 & Z4 & Z5 & Z6)].
      * rewrite !Rmult_1_l. replace (W + (1 - 1)) with W by ring. exact M.
      * subst b c d f g h. match goal with |- hmat ?q = _ => replace q with (mkV4 (s * W + (1 - s)) 0 0 0) by (f_equal; ring) end.
        match type of M with hmat ?q = _ => replace q with (mkV4 W 0 0 0) in M by (f_equal; ring) end. rewrite hmat_x in M by lra. rewrite hmat_x by lra. exact M.
  - set (W := 1 - (a + e + i) + 2 * e) in *. assert (WP : 0 < W) by (unfold W; lra). assert (WP' : 0 < 1 - s * (a + e + i) + 2 * (s * e)) by lra.
    replace (1 - s * (a + e + i) + 2 * (s * e)) with (s * W + (1 - s)) in * by (unfold W; ring).
    assert (N : (b + d) * (b + d) + (h + f) * (h + f) + (c - g) * (c - g) = 4 * W - W * W) by (unfold W; lra).
    split.
    + intro E. destruct (hmat_parts _ _ NP E) as (P1 & P2 & P3 & P4). unfold qnorm2 in *. cbn [q_x q_y q_z q_w vx vy vz row1 row2 row3] in *.
      destruct (core s W (s * W + (1 - s)) (4 * W - W * W) S WP eq_refl WP' eq_refl) as [K|K]; [rewrite <- N; unfold W in *; lra|left; exact K|].
      right. rewrite K in N. apply squares_zero in N as (Z1 & Z2 & Z3). rewrite Z1, Z2, Z3, hmat_y in M by lra. injection M as M1 M2 M3 M4 M5 M6 M7 M8 M9. repeat split; lra.
    + intros [->|(Z1 & Z2 & Z3 & Z4 & Z5 & Z6)].
      * rewrite !Rmult_1_l. replace (W + (1 - 1)) with W by ring. exact M.
      * subst b c d f g h. match goal with |- hmat ?q = _ => replace q with (mkV4 0 (s * W + (1 - s)) 0 0) by (f_equal; ring) end.
        match type of M with hmat ?q = _ => replace q with (mkV4 0 W 0 0) in M by (f_equal; ring) end. rewrite hmat_y in M by lra. rewrite hmat_y by lra. exact M.
  - set (W := 1 - (a + e + i) + 2 * i) in *. assert (WP : 0 < W) by (unfold W; lra). assert (WP' : 0 < 1 - s * (a + e + i) + 2 * (s * i)) by lra.
    replace (1 - s * (a + e + i) + 2 * (s * i)) with (s * W + (1 - s)) in * by (unfold W; ring).
    assert (N : (c + g) * (c + g) + (f + h) * (f + h) + (d - b) * (d - b) = 4 * W - W * W) by (unfold W; lra).
    split.
    + intro E. destruct (hmat_parts _ _ NP E) as (P1 & P2 & P3 & P4). unfold qnorm2 in *. cbn [q_x q_y q_z q_w vx vy vz row1 row2 row3] in *.
      destruct (core s W (s * W + (1 - s)) (4 * W - W * W) S WP eq_refl WP' eq_refl) as [K|K]; [rewrite <- N; unfold W in *; lra|left; exact K|].
      right. rewrite K in N. apply squares_zero in N as (Z1 & Z2 & Z3). rewrite Z1, Z2, Z3, hmat_z in M by lra. injection M as M1 M2 M3 M4 M5 M6 M7 M8 M9. repeat split; lra.
    + intros [->|(Z1 & Z2 & Z3 & Z4 & Z5 & Z6)].
      * rewrite !Rmult_1_l. replace (W + (1 - 1)) with W by ring. exact M.
      * subst b c d f g h. match goal with |- hmat ?q = _ => replace q with (mkV4 0 0 (s * W + (1 - s)) 0) by (f_equal; ring) end.
        match type of M with hmat ?q = _ => replace q with (mkV4 0 0 W 0) in M by (f_equal; ring) end. rewrite hmat_z in M by lra. rewrite hmat_z by lra. exact M.
  - set (W := 1 + (a + e + i)) in *. assert (WP : 0 < W) by (unfold W; lra). assert (WP' : 0 < 1 + s * (a + e + i)) by lra.
    replace (1 + s * (a + e + i)) with (s * W + (1 - s)) in * by (unfold W; ring).
    assert (N : (h - f) * (h - f) + (c - g) * (c - g) + (d - b) * (d - b) = 4 * W - W * W) by (unfold W; lra).
    split.
    + intro E. destruct (hmat_parts _ _ NP E) as (P1 & P2 & P3 & P4). unfold qnorm2 in *. cbn [q_x q_y q_z q_w vx vy vz row1 row2 row3] in *.
      destruct (core s W (s * W + (1 - s)) (4 * W - W * W) S WP eq_refl WP' eq_refl) as [K|K]; [rewrite <- N; unfold W in *; lra|left; exact K|].
      right. rewrite K in N. apply squares_zero in N as (Z1 & Z2 & Z3). rewrite Z1, Z2, Z3, hmat_w in M by lra. injection M as M1 M2 M3 M4 M5 M6 M7 M8 M9. repeat split; lra.
    + intros [->|(Z1 & Z2 & Z3 & Z4 & Z5 & Z6)].
      * rewrite !Rmult_1_l. replace (W + (1 - 1)) with W by ring. exact M.
      * subst b c d f g h. match goal with |- hmat ?q = _ => replace q with (mkV4 0 0 0 (s * W + (1 - s))) by (f_equal; ring) end.
        match type of M with hmat ?q = _ => replace q with (mkV4 0 0 0 W) in M by (f_equal; ring) end. rewrite hmat_w in M by lra. rewrite hmat_w by lra. exact M.
Qed.
