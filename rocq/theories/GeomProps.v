(** Properties C14 to C18 and C28: transformations, alignment and Helmert parameters. *)
From Verif Require Import Base BaseFacts VecFacts NumpyModel TrajModel TrajSpec GeomModel GeomSpec GeomFacts GeomFacts2.

(** The contract of the rotation library is satisfiable. *)
Theorem rotation_contract_satisfiable : exists (Q : Type) (ops : rot_ops Q), rot_contract ops.
Proof. exact (ex_intro _ RotM (ex_intro _ rot_impl rot_impl_contract)). Qed.
Print Assumptions rotation_contract_satisfiable.

(** A trajectory with two poses: unit spacing along x, second pose turned by a quarter about z. *)
Definition quarter : RotM := from_euler rot_impl (mkV3 0 0 (PI / 2)).
Definition unrotated : RotM := from_euler rot_impl vzero.
Definition duo : traj RotM :=
  mkTraj [0; 1] [mkV3 0 0 0; mkV3 1 0 0] (Some [unrotated; quarter]) [0; 1] [mkV3 1 0 0; vzero] SortTime "duo" 0.
Definition duo_plain : traj RotM :=
  mkTraj [0; 1] [mkV3 0 0 0; mkV3 1 0 0] None [0; 1] [mkV3 1 0 0; vzero] SortTime "plain" 0.

Lemma duo_consistent : consistent duo.
Proof. repeat split. Qed.
Lemma duo_plain_consistent : consistent duo_plain.
Proof. repeat split. Qed.

Definition turn_and_shift : M4 := pose4 (Rz (PI / 2)) (mkV3 5 0 0).
Lemma turn_rigid : rigid turn_and_shift.
Proof. apply rigid_pose, is_rot_Rz. Qed.

(** * C14 *)
(** Every pose is moved by T; everything that is not a pose stays. *)
Theorem C14_apply_transformation :
  forall (Q : Type) (ops : rot_ops Q) (t : traj Q) (q : list Q) (T : M4),
    rot_contract ops -> consistent t -> rot t = Some q -> rigid T ->
    let t' := apply_transformation ops T t in
    consistent t' /\ same_rest t t' /\
    se3 ops t' = map (mul4 T) (se3 ops t) /\
    se3 ops t = map (fun pr => pose4 (as_matrix ops (snd pr)) (fst pr)) (combine (xyz t) q).
Proof.
  intros Q ops t q T C H E HT. exact (conj (apply_transformation_consistent ops T t H)
    (conj (apply_transformation_rest ops T t)
    (conj (apply_transformation_se3 ops C T t q H E HT) (se3_some ops t q H E)))).
Qed.
Print Assumptions C14_apply_transformation.

(** For an arbitrary 4x4 matrix the positions are mapped by its upper 3x4 block. *)
Theorem C14_positions :
  forall (Q : Type) (ops : rot_ops Q) (t : traj Q) (T : M4),
    consistent t ->
    xyz (apply_transformation ops T t) = map (fun p => vadd (mapply (lin T) p) (tra T)) (xyz t).
Proof. intros Q ops t T. exact (apply_transformation_xyz ops T t). Qed.
Print Assumptions C14_positions.

Theorem C14_compose :
  forall (Q : Type) (ops : rot_ops Q) (t : traj Q) (q : list Q) (T1 T2 : M4),
    rot_contract ops -> consistent t -> rot t = Some q -> rigid T1 -> rigid T2 ->
    traj_equiv ops (apply_transformation ops (mul4 T2 T1) t)
                   (apply_transformation ops T2 (apply_transformation ops T1 t)).
Proof. intros Q ops t q T1 T2 C. exact (apply_compose ops C T1 T2 t q). Qed.
Print Assumptions C14_compose.

(** Positions compose for every affine first transformation (any scale or shear). *)
Theorem C14_compose_positions :
  forall (Q : Type) (ops : rot_ops Q) (t : traj Q) (T1 T2 : M4),
    consistent t -> bot T1 = vzero -> cor T1 = 1 ->
    xyz (apply_transformation ops T2 (apply_transformation ops T1 t))
    = xyz (apply_transformation ops (mul4 T2 T1) t).
Proof. intros Q ops t T1 T2. exact (positions_compose ops T1 T2 t). Qed.
Print Assumptions C14_compose_positions.

Theorem C14_identity :
  forall (Q : Type) (ops : rot_ops Q) (t : traj Q) (q : list Q),
    rot_contract ops -> consistent t -> rot t = Some q ->
    traj_equiv ops t (apply_transformation ops ident4 t).
Proof. intros Q ops t q C. exact (apply_identity ops C t q). Qed.
Print Assumptions C14_identity.

Theorem C14_inverse :
  forall (Q : Type) (ops : rot_ops Q) (t : traj Q) (q : list Q) (T : M4),
    rot_contract ops -> consistent t -> rot t = Some q -> rigid T ->
    exists T', rigid T' /\ mul4 T' T = ident4 /\ mul4 T T' = ident4 /\
      traj_equiv ops t (apply_transformation ops T' (apply_transformation ops T t)).
Proof.
  intros Q ops t q T C H E HT. destruct (rigid_inverse T HT) as (T' & H1 & H2 & H3).
  exact (ex_intro _ T' (conj H1 (conj H2 (conj H3 (apply_inverse ops C T T' t q H E HT H1 H2))))).
Qed.
Print Assumptions C14_inverse.

(** Distances and relative rotations between any two poses are preserved. *)
Theorem C14_preserves :
  forall (Q : Type) (ops : rot_ops Q) (t : traj Q) (q q' : list Q) (T : M4) i j pi pj pi' pj' ri rj ri' rj',
    rot_contract ops -> consistent t -> rot t = Some q -> rigid T ->
    rot (apply_transformation ops T t) = Some q' ->
    nth_error (xyz t) i = Some pi -> nth_error (xyz t) j = Some pj ->
    nth_error q i = Some ri -> nth_error q j = Some rj ->
    nth_error (xyz (apply_transformation ops T t)) i = Some pi' ->
    nth_error (xyz (apply_transformation ops T t)) j = Some pj' ->
    nth_error q' i = Some ri' -> nth_error q' j = Some rj' ->
    vdist pi' pj' = vdist pi pj /\
    mmul (mtrans (as_matrix ops ri')) (as_matrix ops rj') = mmul (mtrans (as_matrix ops ri)) (as_matrix ops rj).
Proof.
  intros Q ops t q q' T i j pi pj pi' pj' ri rj ri' rj' C.
  exact (apply_preserves ops C T t q q' i j pi pj pi' pj' ri rj ri' rj').
Qed.
Print Assumptions C14_preserves.

Example C14_case :
  consistent duo /\ rot duo = Some [unrotated; quarter] /\ rigid turn_and_shift /\
  xyz (apply_transformation rot_impl turn_and_shift duo) = [mkV3 5 0 0; mkV3 5 1 0].
Proof.
  split; [exact duo_consistent|]. split; [reflexivity|]. split; [exact turn_rigid|].
  rewrite apply_transformation_xyz by exact duo_consistent. cbn [map duo xyz turn_and_shift pose4 lin tra].
  unfold Rz. rewrite cos_PI2, sin_PI2. pts; ring.
Qed.

(** * C15 (refuted) *)
(** A trajectory without orientations always gains some. *)
Theorem C15_gains_orientation_refuted :
  forall (Q : Type) (ops : rot_ops Q) (t : traj Q) (T : M4),
    rot t = None -> rot (apply_transformation ops T t) <> None.
Proof. intros Q ops t T E. rewrite (apply_transformation_rot_none ops T t E). discriminate. Qed.
Print Assumptions C15_gains_orientation_refuted.

Definition doubling : M4 := mkM4 (mscale 2 mident) vzero vzero 1.

(** Arc lengths and speeds are not adapted: doubling all coordinates leaves them at their old value. *)
Theorem C15_derived_quantities_refuted :
  exists (t : traj RotM) (T : M4),
    consistent t /\ arc t = lengths_from_xyz (xyz t) /\ gradient_3d (xyz t) (tstamps t) = Ok (speed t) /\
    let t' := apply_transformation rot_impl T t in
    arc t' <> lengths_from_xyz (xyz t') /\ gradient_3d (xyz t') (tstamps t') <> Ok (speed t').
Proof.
  exists duo, doubling. split; [exact duo_consistent|].
  assert (N : forall a, 0 <= a -> vnorm (mkV3 (a - 0) (0 - 0) (0 - 0)) = a).
  { intros a H. apply vnorm_unique; [exact H|]. unfold vdot; cbn; ring. }
  assert (X : xyz (apply_transformation rot_impl doubling duo) = [mkV3 0 0 0; mkV3 2 0 0]).
  { rewrite apply_transformation_xyz by exact duo_consistent. cbn [map duo xyz doubling lin tra]. pts; ring. }
  split; [|split; [|split]].
  - unfold lengths_from_xyz, np_cumsum, pairs; cbn [duo xyz arc combine tl map cumsum_from fst snd]. unfold vsub; cbn [vx vy vz]. rewrite N by lra. rewrite Rplus_0_l. reflexivity.
  - cbn. unfold vdiv; cbn. f_equal. pts; field.
  - rewrite X. unfold lengths_from_xyz, np_cumsum, pairs; cbn [combine tl map cumsum_from fst snd]. unfold vsub; cbn [vx vy vz]. rewrite N by lra. rewrite Rplus_0_l.
    change (arc (apply_transformation rot_impl doubling duo)) with [0; 1]. intros [= E]. lra.
  - rewrite X. cbn. unfold vdiv; cbn. intros [= E]. lra.
Qed.
Print Assumptions C15_derived_quantities_refuted.

(** What is true: timestamps, sorting, name and epsg are kept, the stored arc lengths and speeds are
    those from before, and the arc lengths still agree with the positions after a rigid motion. *)
Theorem C15_apply_transformation_partial :
  forall (Q : Type) (ops : rot_ops Q) (t : traj Q) (T : M4),
    consistent t ->
    same_rest t (apply_transformation ops T t) /\
    (rigid T -> arc t = lengths_from_xyz (xyz t) ->
     arc (apply_transformation ops T t) = lengths_from_xyz (xyz (apply_transformation ops T t))).
Proof.
  intros Q ops t T H. split; [exact (apply_transformation_rest ops T t)|].
  intros HT E. rewrite (rigid_arc ops T t H HT). exact E.
Qed.
Print Assumptions C15_apply_transformation_partial.

(** * C16 (refuted) *)
Theorem C16_apply_alignment_inplace_refuted :
  forall (Q : Type) (ops : rot_ops Q) (p : align_params) (sensor : V3) (t : traj Q),
    apply_alignment ops p sensor true t = Err UnboundLocalError.
Proof. reflexivity. Qed.
Print Assumptions C16_apply_alignment_inplace_refuted.

(** With inplace=False every consistent trajectory is aligned. *)
Theorem C16_apply_alignment_partial :
  forall (Q : Type) (ops : rot_ops Q) (p : align_params) (sensor : V3) (t : traj Q),
    rot_contract ops -> consistent t ->
    exists t', apply_alignment ops p sensor false t = Ok t' /\ consistent t' /\ same_rest t t'.
Proof.
  intros Q ops p sensor t C H. destruct (apply_alignment_ok ops C p sensor t H) as (t' & q' & F & A & B & _).
  exact (ex_intro _ t' (conj F (conj B A))).
Qed.
Print Assumptions C16_apply_alignment_partial.

(** * C17 *)
(** Every aligned pose is the one the alignment model predicts; without orientations the lever
    arm is left out.  The rotation part is stated for scale one. *)
Theorem C17_apply_alignment :
  forall (Q : Type) (ops : rot_ops Q) (p : align_params) (sensor : V3) (t : traj Q),
    rot_contract ops -> consistent t ->
    exists t' q', apply_alignment ops p sensor false t = Ok t' /\ same_rest t t' /\ consistent t' /\ rot t' = Some q' /\
    (forall q i x v r, rot t = Some q ->
       nth_error (xyz t) i = Some x -> nth_error (speed t) i = Some v -> nth_error q i = Some r ->
       nth_error (xyz t') i = Some (aligned p x v (as_matrix ops r)) /\
       exists r', nth_error q' i = Some r' /\
         (sim_scale p = 1 ->
          as_matrix ops r' = mmul (euler_matrix sensor) (mmul (euler_matrix (sim_rot p)) (as_matrix ops r)))) /\
    (forall i x v, rot t = None ->
       nth_error (xyz t) i = Some x -> nth_error (speed t) i = Some v ->
       nth_error (xyz t') i = Some (aligned (mkAlign (sim_trans p) (sim_rot p) (sim_scale p) (time_shift p) vzero) x v mident)).
Proof. intros Q ops p sensor t C. exact (apply_alignment_ok ops C p sensor t). Qed.
Print Assumptions C17_apply_alignment.

(** The observation equations evaluate to aligned position minus target, where the attitude given
    as Euler angles is the rotation with these angles. *)
Theorem C17_misclosure :
  forall (Q : Type) (ops : rot_ops Q) (p : align_params) (x to v : V3) (r : Q),
    rot_contract ops ->
    functional_relationship p x to (as_euler ops r) v = vsub (aligned p x v (as_matrix ops r)) to.
Proof. intros Q ops p x to v r C. rewrite <- (euler_as_euler ops C r). exact (misclosure p x to (as_euler ops r) v). Qed.
Print Assumptions C17_misclosure.

Theorem C17_defaults :
  forall (Q : Type) (ops : rot_ops Q) (sensor : V3) (t : traj Q),
    rot_contract ops -> consistent t ->
    exists t', apply_alignment ops default_params sensor false t = Ok t' /\ xyz t' = xyz t.
Proof. intros Q ops sensor t C. exact (apply_alignment_default ops C sensor t). Qed.
Print Assumptions C17_defaults.

(** The lever arm alone, as applied by Leverarm.apply_to, is the lever arm of the equations. *)
Theorem C17_leverarm_apply_to :
  forall (Q : Type) (ops : rot_ops Q) (l x v : V3) (r : Q),
    rot_contract ops ->
    leverarm_apply_to ops l x r = vadd x (leverarm_time_component (as_euler ops r) v 0 l).
Proof.
  intros Q ops l x v r C. rewrite leverarm_components, (euler_as_euler ops C). unfold leverarm_apply_to.
  f_equal. apply V3_eq; cbn; ring.
Qed.
Print Assumptions C17_leverarm_apply_to.

(** Lever arm (0,1,0), time shift 2, quarter turn about z, scale 3, translation (0,0,7). *)
Example C17_case :
  aligned (mkAlign (mkV3 0 0 7) (mkV3 0 0 (PI/2)) 3 2 (mkV3 0 1 0)) (mkV3 1 0 0) (mkV3 1 0 0) (Rz (PI/2))
  = mkV3 0 6 7.
Proof.
  unfold aligned; cbn [sim_trans sim_rot sim_scale time_shift lever]. rewrite euler_matrix_entries. unfold Rz.
  cbn [vx vy vz]. rewrite sin_PI2, cos_PI2, sin_0, cos_0. apply V3_eq; munf; ring.
Qed.

(** * C18 (refuted) *)
(** The calls never change the receiver. *)
Theorem C18_adopt_first_is_noop :
  forall (Q : Type) (ops : rot_ops Q) (self other : traj Q),
    rot_contract ops -> consistent self -> xyz self <> [] ->
    adopt_first_position self other = Ok self /\
    (exists t', adopt_first_orientation ops self other = Ok t' /\ traj_equiv ops self t') /\
    (exists t', adopt_first_pose ops self other = Ok t' /\ traj_equiv ops self t').
Proof.
  intros Q ops self other C H X. split; [|split].
  - destruct (adopt_position_noop self other X) as (t' & E & ->). exact E.
  - apply (adopt_orientation_noop ops C). intros q E ->. destruct H as (_ & Hr & _). rewrite E in Hr.
    destruct (xyz self); [congruence | discriminate].
  - exact (adopt_pose_noop ops C self other H X).
Qed.
Print Assumptions C18_adopt_first_is_noop.

(** So whenever the first positions differ before the call, they still differ afterwards. *)
Theorem C18_adopt_first_pose_refuted :
  forall (Q : Type) (ops : rot_ops Q) (a b : traj Q) pa pb,
    rot_contract ops -> consistent a ->
    nth_error (xyz a) 0 = Some pa -> nth_error (xyz b) 0 = Some pb -> pa <> pb ->
    (exists a', adopt_first_position a b = Ok a' /\ nth_error (xyz a') 0 <> nth_error (xyz b) 0) /\
    (exists a', adopt_first_pose ops a b = Ok a' /\ nth_error (xyz a') 0 <> nth_error (xyz b) 0).
Proof.
  intros Q ops a b pa pb C H Ha Hb N.
  assert (X : xyz a <> []) by (intro E; rewrite E in Ha; discriminate).
  destruct (C18_adopt_first_is_noop Q ops a b C H X) as (P & _ & t' & F & _ & Ex & _). split.
  - exists a. split; [exact P|]. rewrite Ha, Hb. congruence.
  - exists t'. split; [exact F|]. rewrite Ex, Ha, Hb. congruence.
Qed.
Print Assumptions C18_adopt_first_pose_refuted.

Example C18_case :
  exists a b : traj RotM, consistent a /\ consistent b /\ nth_error (xyz a) 0 <> nth_error (xyz b) 0.
Proof.
  exists duo, (apply_transformation rot_impl turn_and_shift duo). split; [exact duo_consistent|].
  split; [apply apply_transformation_consistent, duo_consistent|].
  destruct C14_case as (_ & _ & _ & ->). cbn. intros [= E]. lra.
Qed.

(** * C28 *)
Theorem C28_helmert_equations :
  forall (Q : Type) (ops : rot_ops Q) (t a p : V3) (s : R),
    rot_contract ops ->
    let rotated := mapply (mmul (Rz (vz a)) (mmul (Ry (vy a)) (Rx (vx a)))) p in
    let expected := vadd t (vscale s rotated) in
    mkV3 (helmert_x (vx p) (vy p) (vz p) (vx t) (vx a) (vy a) (vz a) s)
         (helmert_y (vx p) (vy p) (vz p) (vy t) (vx a) (vy a) (vz a) s)
         (helmert_z (vx p) (vy p) (vz p) (vz t) (vx a) (vy a) s) = expected /\
    helmert_apply_to ops t a s p = expected /\
    (forall dt l m, mul4 (sim3_matrix ops (mkAlign t a s dt l)) (pose4 m p)
       = pose4 (mscale s (mmul (euler_matrix a) m)) expected).
Proof.
  intros Q ops t a p s C. cbv zeta. split; [exact (helmert_components t a s p)|]. split.
  - unfold helmert_apply_to. rewrite (rotation_matrix_euler ops C). reflexivity.
  - intros dt l m. rewrite mul4_pose. unfold sim3_matrix; cbn [lin tra bot cor sim_scale sim_rot sim_trans].
    rewrite (rotation_matrix_euler ops C), mapply_mscale. unfold pose4.
    change (mmul (Rz (vz a)) (mmul (Ry (vy a)) (Rx (vx a)))) with (euler_matrix a).
    generalize (euler_matrix a). clear. intro E. apply M4_eq; cbn [lin tra bot cor].
    + m3; ring.
    + generalize (mapply E p). intro w. apply V3_eq; munf; ring.
    + apply V3_eq; munf; ring.
    + munf; ring.
Qed.
Print Assumptions C28_helmert_equations.

Theorem C28_helmert_similarity :
  forall (Q : Type) (ops : rot_ops Q) (t a p q : V3) (s : R),
    rot_contract ops ->
    is_rot (rotation_matrix ops a) /\
    vdist (helmert_apply_to ops t a s p) (helmert_apply_to ops t a s q) = Rabs s * vdist p q /\
    helmert_apply_to ops vzero vzero 1 p = p.
Proof.
  intros Q ops t a p q s C. unfold helmert_apply_to. rewrite !(rotation_matrix_euler ops C).
  split; [apply is_rot_euler|]. split; [exact (helmert_distance t _ s p q (is_rot_euler a))|].
  rewrite euler_zero, mapply_ident. apply V3_eq; cbn; ring.
Qed.
Print Assumptions C28_helmert_similarity.

Example C28_case : helmert_apply_to rot_impl (mkV3 1 0 0) (mkV3 0 0 (PI/2)) 2 (mkV3 1 0 0) = mkV3 1 2 0.
Proof.
  unfold helmert_apply_to. rewrite (rotation_matrix_euler rot_impl rot_impl_contract), euler_matrix_entries.
  cbn [vx vy vz]. rewrite sin_PI2, cos_PI2, sin_0, cos_0. apply V3_eq; munf; ring.
Qed.
