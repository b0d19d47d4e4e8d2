(** Orientations under transformations with a scale: property C95. *)
From Verif Require Import Base BaseFacts VecFacts NumpyModel TrajModel TrajSpec TrajFacts EvalModel GeomModel GeomSpec GeomFacts GeomFacts2 IoModel IoSpec EqSpec ScaleModel ScaleSpec ScaleFacts.

(** Scipy's conversion agrees with the contract of rotations used everywhere else: on rotation matrices it is exact. *)
Theorem scipy_exact : forall m, is_rot m -> quat_matrix (qunit (markley m)) = m.
Proof. intros m H. rewrite unit_hmat by apply markley_pos. apply markley_rot, H. Qed.
Print Assumptions scipy_exact.

Lemma hmat_rot q : 0 < qnorm2 q -> is_rot (hmat q).
Proof.
  intro P. destruct q as [x y z w]. unfold qnorm2 in P. cbn [q_x q_y q_z q_w] in P. split.
  - unfold hmat, qnorm2. cbv zeta. cbn [q_x q_y q_z q_w]. m3; field; lra.
  - unfold hmat, qnorm2. cbv zeta. cbn [q_x q_y q_z q_w]. munf. field. lra.
Qed.
Definition from_scipy (m : M3) : RotM := exist _ (hmat (markley m)) (hmat_rot _ (markley_pos m)).
Definition rot_scipy : rot_ops RotM := mkRotOps _ (as_matrix rot_impl) from_scipy (from_euler rot_impl) (as_euler rot_impl) (rmul rot_impl) (rinv rot_impl).
Theorem scipy_contract : rot_contract rot_scipy /\ scipy_from_matrix rot_scipy.
Proof.
  destruct rot_impl_contract as [A1 A2 A3 A4 A5 A6]. split; [constructor; try assumption|].
  - intros m H. apply markley_rot, H.
  - intro m. symmetry. apply unit_hmat, markley_pos.
Qed.
Print Assumptions scipy_contract.

(** * C95 *)

(** After a transformation p |-> v + s r p every pose keeps exactly its orientation turned by [r] if and only if the scale is
    one, or the turned orientation happens to be the identity or a half turn about a coordinate axis. *)
Theorem C95_partial : forall Q (ops : rot_ops Q) (t : traj Q) q T s r,
  rot_contract ops -> scipy_from_matrix ops -> consistent t -> rot t = Some q -> GeomModel.lin T = mscale s r -> is_rot r -> 0 < s ->
  exists q', rot (apply_transformation ops T t) = Some q' /\ length q' = length q /\
    forall i a b, nth_error q i = Some a -> nth_error q' i = Some b ->
      (as_matrix ops b = mmul r (as_matrix ops a) <-> s = 1 \/ diagonal (mmul r (as_matrix ops a))).
Proof.
  intros Q ops t q T s r CR SM CT RT LT RR SP. rewrite (apply_transformation_rot ops T t q CT RT). eexists. split; [reflexivity|]. split; [apply map_length|].
  intros i a b A B. rewrite (map_nth_error _ _ _ A) in B. injection B as <-. rewrite LT, SM, unit_hmat by apply markley_pos.
  replace (mmul (mscale s r) (as_matrix ops a)) with (mscale s (mmul r (as_matrix ops a))) by (m3; ring).
  apply markley_scale; [apply is_rot_mmul; [exact RR|apply (rc_rot ops CR)]|exact SP].
Qed.
Print Assumptions C95_partial.

(** The same for the application of an alignment result. *)
Theorem C95_alignment_partial : forall Q (ops : rot_ops Q) (t : traj Q) q p sensor,
  rot_contract ops -> scipy_from_matrix ops -> consistent t -> rot t = Some q -> 0 < sim_scale p ->
  exists t' q', apply_alignment ops p sensor false t = Ok t' /\ rot t' = Some q' /\ length q' = length q /\
    forall i a b, nth_error q i = Some a -> nth_error q' i = Some b ->
      (as_matrix ops b = mmul (euler_matrix sensor) (mmul (euler_matrix (sim_rot p)) (as_matrix ops a)) <->
       sim_scale p = 1 \/ diagonal (mmul (euler_matrix (sim_rot p)) (as_matrix ops a))).
Proof.
  intros Q ops t q p sensor CR SM CT RT SP. destruct (apply_alignment_form ops CR p sensor t CT) as (q1 & E1 & F).
  destruct (C95_partial Q ops (set_xyz (shifted ops p t) t) q (sim3_matrix ops p) (sim_scale p) (euler_matrix (sim_rot p)) CR SM) as (q2 & E2 & L & K);
    [apply set_xyz_consistent, CT|exact RT|unfold sim3_matrix; cbn [GeomModel.lin]; now rewrite (rotation_matrix_euler ops CR)|apply is_rot_euler|exact SP|].
  rewrite E1 in E2. injection E2 as <-. eexists _, _. split; [exact F|]. split; [reflexivity|]. split; [now rewrite map_length|].
  intros i a b A B. rewrite nth_error_map' in B. destruct (nth_error q1 i) as [r|] eqn:B1; [|discriminate]. injection B as B2. symmetry in B2. rewrite <- (K i a r A B1). subst b. rewrite (rc_mul ops CR), (rc_euler ops CR). split; [|intros ->; reflexivity].
  intro X. apply (f_equal (mmul (mtrans (euler_matrix sensor)))) in X. rewrite <- !mmul_assoc, (is_rot_left _ (is_rot_euler sensor)), !mmul_ident_l in X. rewrite X. reflexivity.
Qed.
Print Assumptions C95_alignment_partial.

(** Quarter turn about z, scale two: level poses are not turned by 90 degrees but by arccos (7/25), 74 degrees; their
    positions are turned by 90 degrees. *)
Theorem C95_refuted : forall Q (ops : rot_ops Q) (t : traj Q) q T,
  rot_contract ops -> scipy_from_matrix ops -> consistent t -> rot t = Some q -> Forall (fun a => as_matrix ops a = mident) q ->
  T = mkM4 (mscale 2 (mkM3 (mkV3 0 (-1) 0) (mkV3 1 0 0) (mkV3 0 0 1))) vzero vzero 1 ->
  xyz (apply_transformation ops T t) = map (fun p => mkV3 (-2 * vy p) (2 * vx p) (2 * vz p)) (xyz t) /\
  exists q', rot (apply_transformation ops T t) = Some q' /\
    Forall (fun b => as_matrix ops b = mkM3 (mkV3 (7 / 25) (-(24 / 25)) 0) (mkV3 (24 / 25) (7 / 25) 0) (mkV3 0 0 1)) q'.
Proof.
  intros Q ops t q T CR SM CT RT F ->. split.
  - rewrite apply_transformation_xyz by exact CT. apply map_ext. intro p. destruct p as [x y z]. cbn [GeomModel.lin tra]. apply V3_eq; munf; cbn; ring.
  - rewrite (apply_transformation_rot ops _ t q CT RT). eexists. split; [reflexivity|]. apply Forall_forall. intros b I. apply in_map_iff in I as [a [<- I]].
    rewrite Forall_forall in F. rewrite SM, (F a I), unit_hmat by apply markley_pos.
    cbn [GeomModel.lin]. match goal with |- hmat (markley ?m) = _ => replace m with (mkM3 (mkV3 0 (-2) 0) (mkV3 2 0 0) (mkV3 0 0 2)) by (apply M3_eq; apply V3_eq; munf; cbn; ring) end.
    unfold markley. cbv zeta. cbn [vx vy vz row1 row2 row3 GeomModel.lin].
    replace (largest 0 0 2 (0 + 0 + 2)) with 2%nat by (unfold largest; rb; reflexivity).
    unfold hmat, qnorm2. cbv zeta. cbn [q_x q_y q_z q_w]. apply M3_eq; apply V3_eq; cbn [vx vy vz row1 row2 row3]; field.
Qed.
Print Assumptions C95_refuted.

(** A case: the trajectory with two level poses. *)
Definition level_q : RotM := exist _ mident is_rot_ident.
Definition level : traj RotM := mkTraj [0; 1] [vzero; mkV3 1 0 0] (Some [level_q; level_q]) [0; 1] [mkV3 1 0 0; mkV3 1 0 0] SortTime "a" 0.
Example C95_case : let t' := apply_transformation rot_scipy (mkM4 (mscale 2 (mkM3 (mkV3 0 (-1) 0) (mkV3 1 0 0) (mkV3 0 0 1))) vzero vzero 1) level in
  xyz t' = map (fun p => mkV3 (-2 * vy p) (2 * vx p) (2 * vz p)) (xyz level) /\ exists q', rot t' = Some q' /\ Forall (fun b => as_matrix rot_scipy b = mkM3 (mkV3 (7 / 25) (-(24 / 25)) 0) (mkV3 (24 / 25) (7 / 25) 0) (mkV3 0 0 1)) q'.
Proof.
  refine (C95_refuted RotM rot_scipy level [level_q; level_q] _ (proj1 scipy_contract) (proj2 scipy_contract) _ eq_refl _ eq_refl).
  - repeat split.
  - repeat (apply Forall_cons; [reflexivity|]). apply Forall_nil.
Qed.
