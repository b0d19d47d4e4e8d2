(** Proofs about apply_transformation, apply_alignment and adopt_first_*. *)
From Verif Require Import Base BaseFacts VecFacts NumpyModel NumpyFacts TrajModel TrajSpec TrajFacts TrajFacts2 TrajFacts3
  GeomModel GeomSpec GeomFacts.

(** ** The equations *)
Lemma helmert_components t a s p :
  mkV3 (helmert_x (vx p) (vy p) (vz p) (vx t) (vx a) (vy a) (vz a) s)
       (helmert_y (vx p) (vy p) (vz p) (vy t) (vx a) (vy a) (vz a) s)
       (helmert_z (vx p) (vy p) (vz p) (vz t) (vx a) (vy a) s)
  = vadd t (vscale s (mapply (euler_matrix a) p)).
Proof.
  rewrite euler_matrix_entries. unfold helmert_x, helmert_y, helmert_z. apply V3_eq; munf; ring.
Qed.

Lemma leverarm_components e v dt l :
  leverarm_time_component e v dt l = vadd (mapply (euler_matrix e) l) (vscale dt v).
Proof.
  rewrite euler_matrix_entries. unfold leverarm_time_component, leverarm_x, leverarm_y, leverarm_z.
  apply V3_eq; munf; ring.
Qed.

Lemma transformed_aligned p x e v :
  transformed_from p x e v = aligned p x v (euler_matrix e).
Proof.
  unfold transformed_from, aligned. rewrite leverarm_components. cbv zeta.
  set (w := vadd (mapply (euler_matrix e) (lever p)) (vscale (time_shift p) v)).
  exact (helmert_components (sim_trans p) (sim_rot p) (sim_scale p) (vadd x w)).
Qed.

Lemma misclosure p x to e v :
  functional_relationship p x to e v = vsub (aligned p x v (euler_matrix e)) to.
Proof.
  unfold functional_relationship. rewrite transformed_aligned. cbv zeta. apply V3_eq; cbn; ring.
Qed.

Lemma helmert_distance t m s p q :
  is_rot m ->
  vdist (vadd t (vscale s (mapply m p))) (vadd t (vscale s (mapply m q))) = Rabs s * vdist p q.
Proof.
  intro H. unfold vdist.
  replace (vsub (vadd t (vscale s (mapply m p))) (vadd t (vscale s (mapply m q))))
    with (vscale s (mapply m (vsub p q))) by (rewrite mapply_sub; apply V3_eq; cbn; ring).
  rewrite vnorm_scale, rot_norm by exact H. reflexivity.
Qed.

Lemma aligned_default x v A : aligned default_params x v A = x.
Proof.
  unfold aligned, default_params; cbn [sim_trans sim_rot sim_scale time_shift lever].
  rewrite euler_zero, mapply_ident, mapply_zero. apply V3_eq; cbn; ring.
Qed.

Lemma combine_map_map {A B A' B'} (f : A -> A') (g : B -> B') l m :
  combine (map f l) (map g m) = map (fun ab => (f (fst ab), g (snd ab))) (combine l m).
Proof.
  revert m. induction l as [|a l IH]; intros [|b m]; cbn; auto. f_equal. apply IH.
Qed.

Lemma nth_error_ext_len {A} (l m : list A) :
  length l = length m -> (forall i, (i < length m)%nat -> nth_error l i = nth_error m i) -> l = m.
Proof.
  intros L H. apply nth_error_ext. intro i. destruct (Nat.lt_ge_cases i (length m)) as [K|K]; [auto|].
  assert (nth_error m i = None) as -> by (apply nth_error_None; lia). apply nth_error_None. lia.
Qed.

Section Ops.
  Context {Q : Type} (ops : rot_ops Q) (C : rot_contract ops).

  Lemma rotation_matrix_euler a : rotation_matrix ops a = euler_matrix a.
  Proof. apply (rc_euler ops C). Qed.

  Lemma euler_as_euler q : euler_matrix (as_euler ops q) = as_matrix ops q.
  Proof. rewrite <- (rc_euler ops C). apply (rc_as_euler ops C). Qed.

  (** ** se3 *)
  Lemma se3_some t q :
    consistent t -> rot t = Some q ->
    se3 ops t = map (fun pr => pose4 (as_matrix ops (snd pr)) (fst pr)) (combine (xyz t) q).
  Proof.
    intros (_ & Hr & _) E. rewrite E in Hr. unfold se3. rewrite E. destruct (xyz t) as [|x r]; [reflexivity|].
    rewrite <- (map_id (x :: r)) at 1. rewrite combine_map_map, map_map. reflexivity.
  Qed.

  Lemma se3_none t :
    rot t = None -> se3 ops t = map (pose4 mident) (xyz t).
  Proof.
    intros E. unfold se3. rewrite E. destruct (xyz t) as [|x r] eqn:X; [reflexivity|]. clear X.
    generalize (x :: r); intro l. clear. induction l as [|a l IH]; [reflexivity|]. cbn. f_equal. exact IH.
  Qed.

  Lemma apply_transformation_rest T t : same_rest t (apply_transformation ops T t).
  Proof. unfold apply_transformation, set_se3, same_rest; cbn. repeat split; reflexivity. Qed.

  Lemma apply_transformation_xyz T t :
    consistent t -> xyz (apply_transformation ops T t) = map (fun p => vadd (mapply (lin T) p) (tra T)) (xyz t).
  Proof.
    intros H. unfold apply_transformation, set_se3; cbn. destruct (rot t) as [q|] eqn:E.
    - rewrite (se3_some t q H E), !map_map. destruct H as (_ & Hr & _). rewrite E in Hr.
      rewrite <- (map_fst_combine (xyz t) q (eq_sym Hr)) at 2. rewrite map_map. apply map_ext. intros [p r]. cbn [fst snd].
      rewrite mul4_pose. reflexivity.
    - rewrite (se3_none t E), !map_map. apply map_ext. intro p. rewrite mul4_pose. reflexivity.
  Qed.

  Lemma apply_transformation_rot T t q :
    consistent t -> rot t = Some q ->
    rot (apply_transformation ops T t) = Some (map (fun r => from_matrix ops (mmul (lin T) (as_matrix ops r))) q).
  Proof.
    intros H E. unfold apply_transformation, set_se3; cbn.
    rewrite (se3_some t q H E), !map_map. destruct H as (_ & Hr & _). rewrite E in Hr.
    f_equal. rewrite <- (map_snd_combine (xyz t) q (eq_sym Hr)) at 2. rewrite map_map. apply map_ext. intros [p r]. cbn [fst snd].
    rewrite mul4_pose. reflexivity.
  Qed.

  Lemma apply_transformation_rot_none T t :
    rot t = None ->
    rot (apply_transformation ops T t) = Some (map (fun _ => from_matrix ops (mmul (lin T) mident)) (xyz t)).
  Proof.
    intros E. unfold apply_transformation, set_se3; cbn. rewrite (se3_none t E), !map_map. f_equal.
    apply map_ext. intro p. rewrite mul4_pose. reflexivity.
  Qed.

  Lemma apply_transformation_consistent T t : consistent t -> consistent (apply_transformation ops T t).
  Proof.
    intros H. pose proof (apply_transformation_rest T t) as (Et & Ea & Es & _).
    pose proof (apply_transformation_xyz T t H) as X. assert (H' := H). destruct H' as (Ht & Hr & Ha & Hs).
    unfold consistent. rewrite Et, Ea, Es, X, map_length. repeat split; auto.
    destruct (rot t) as [q|] eqn:E.
    - rewrite (apply_transformation_rot T t q H E), map_length. exact Hr.
    - rewrite (apply_transformation_rot_none T t E), map_length. reflexivity.
  Qed.

  Lemma rigid_rot_matrix T r :
    rigid T -> as_matrix ops (from_matrix ops (mmul (lin T) (as_matrix ops r))) = mmul (lin T) (as_matrix ops r).
  Proof. intros [H _]. apply (rc_from ops C), is_rot_mmul; [exact H | apply (rc_rot ops C)]. Qed.

  Lemma apply_transformation_se3 T t q :
    consistent t -> rot t = Some q -> rigid T ->
    se3 ops (apply_transformation ops T t) = map (mul4 T) (se3 ops t).
  Proof.
    intros H E HT.
    rewrite (se3_some _ _ (apply_transformation_consistent T t H) (apply_transformation_rot T t q H E)).
    rewrite (apply_transformation_xyz T t H), (se3_some t q H E), combine_map_map, !map_map.
    apply map_ext. intros [p r]. cbn [fst snd]. rewrite (mul4_rigid_pose T _ _ HT), (rigid_rot_matrix T r HT). reflexivity.
  Qed.

  (** Equivalence from equal poses. *)
  Lemma equiv_intro t t' q q' :
    same_rest t t' -> xyz t' = xyz t -> rot t = Some q -> rot t' = Some q' ->
    map (as_matrix ops) q' = map (as_matrix ops) q -> traj_equiv ops t t'.
  Proof.
    intros (Ht & Ha & Hs & Ho & Hn & He) X E E' M. unfold traj_equiv, same_rotations. rewrite E, E'. cbn.
    rewrite M. repeat split; assumption.
  Qed.

  Lemma same_rest_trans a b c : same_rest (Q := Q) a b -> same_rest b c -> same_rest a c.
  Proof. intros (?&?&?&?&?&?) (?&?&?&?&?&?). repeat split; congruence. Qed.
  Lemma same_rest_sym a b : same_rest (Q := Q) a b -> same_rest b a.
  Proof. intros (?&?&?&?&?&?). repeat split; congruence. Qed.

  Lemma apply_compose T1 T2 t q :
    consistent t -> rot t = Some q -> rigid T1 -> rigid T2 ->
    traj_equiv ops (apply_transformation ops (mul4 T2 T1) t)
                   (apply_transformation ops T2 (apply_transformation ops T1 t)).
  Proof.
    intros H E H1 H2. set (t1 := apply_transformation ops T1 t).
    assert (C1 : consistent t1) by (apply apply_transformation_consistent, H).
    assert (E1 := apply_transformation_rot T1 t q H E). fold t1 in E1.
    eapply equiv_intro.
    - eapply same_rest_trans; [apply same_rest_sym, apply_transformation_rest|].
      eapply same_rest_trans; [apply apply_transformation_rest | apply apply_transformation_rest].
    - rewrite (apply_transformation_xyz T2 t1 C1). unfold t1. rewrite !apply_transformation_xyz, map_map by exact H.
      apply map_ext. intro p. rewrite (rigid_lin T2 T1 H2 H1), mapply_mmul. destruct H1 as (_ & B1 & K1).
      unfold mul4; cbn [tra]. rewrite K1, mapply_add. apply V3_eq; cbn; ring.
    - apply apply_transformation_rot; eassumption.
    - apply apply_transformation_rot; eassumption.
    - rewrite !map_map. apply map_ext. intro r.
      rewrite !rigid_rot_matrix by (try apply rigid_mul; assumption).
      rewrite (rigid_lin T2 T1 H2 H1), mmul_assoc. reflexivity.
  Qed.

  Lemma apply_identity t q :
    consistent t -> rot t = Some q -> traj_equiv ops t (apply_transformation ops ident4 t).
  Proof.
    intros H E. eapply equiv_intro.
    - apply apply_transformation_rest.
    - rewrite (apply_transformation_xyz _ t H). cbn [lin tra ident4]. rewrite <- map_id. apply map_ext. intro p.
      rewrite mapply_ident. apply V3_eq; cbn; ring.
    - exact E.
    - apply apply_transformation_rot; eassumption.
    - rewrite map_map. apply map_ext. intro r. rewrite (rigid_rot_matrix _ r rigid_ident). apply mmul_ident_l.
  Qed.

  Lemma rigid_inverse T : rigid T -> exists T', rigid T' /\ mul4 T' T = ident4 /\ mul4 T T' = ident4.
  Proof.
    intros (HR & B & K). destruct T as [m v b c]; cbn in *; subst.
    exists (pose4 (mtrans m) (vscale (-1) (mapply (mtrans m) v))).
    assert (L := is_rot_left m HR). assert (Rt := is_rot_right m HR).
    split; [apply rigid_pose, is_rot_mtrans, HR|]. split; apply M4_eq; unfold mul4; cbn [lin tra bot cor pose4 ident4].
    - rewrite L. clear. m3; ring.
    - clear. vars; apply V3_eq; munf; ring.
    - clear. vars; apply V3_eq; munf; ring.
    - clear. vars; munf; ring.
    - rewrite Rt. clear. m3; ring.
    - rewrite mapply_scale, <- mapply_mmul, Rt, mapply_ident. clear. vars; apply V3_eq; munf; ring.
    - clear. vars; apply V3_eq; munf; ring.
    - clear. vars; munf; ring.
  Qed.

  Lemma apply_inverse T T' t q :
    consistent t -> rot t = Some q -> rigid T -> rigid T' -> mul4 T' T = ident4 ->
    traj_equiv ops t (apply_transformation ops T' (apply_transformation ops T t)).
  Proof.
    intros H E HT HT' I. pose proof (apply_compose T T' t q H E HT HT') as K. rewrite I in K.
    pose proof (apply_identity t q H E) as J.
    destruct K as (?&?&K3&?&?&?&?&?), J as (?&?&J3&?&?&?&?&?). unfold traj_equiv, same_rotations in *.
    repeat split; congruence.
  Qed.

  Lemma map_nth_inv {A B} (f : A -> B) l i b : nth_error (map f l) i = Some b -> exists a, nth_error l i = Some a /\ f a = b.
  Proof.
    rewrite nth_error_map. destruct (nth_error l i) as [a|]; cbn; [|discriminate]. intros [= <-]. eauto.
  Qed.

  Lemma apply_preserves T t q q' i j pi pj pi' pj' ri rj ri' rj' :
    consistent t -> rot t = Some q -> rigid T ->
    rot (apply_transformation ops T t) = Some q' ->
    nth_error (xyz t) i = Some pi -> nth_error (xyz t) j = Some pj ->
    nth_error q i = Some ri -> nth_error q j = Some rj ->
    nth_error (xyz (apply_transformation ops T t)) i = Some pi' ->
    nth_error (xyz (apply_transformation ops T t)) j = Some pj' ->
    nth_error q' i = Some ri' -> nth_error q' j = Some rj' ->
    vdist pi' pj' = vdist pi pj /\
    mmul (mtrans (as_matrix ops ri')) (as_matrix ops rj') = mmul (mtrans (as_matrix ops ri)) (as_matrix ops rj).
  Proof.
    intros H E HT E' Pi Pj Ri Rj Pi' Pj' Ri' Rj'.
    rewrite (apply_transformation_xyz T t H), nth_error_map in Pi', Pj'. rewrite Pi in Pi'. rewrite Pj in Pj'.
    cbn in Pi', Pj'. injection Pi' as <-. injection Pj' as <-.
    rewrite (apply_transformation_rot T t q H E) in E'. injection E' as <-.
    rewrite nth_error_map in Ri', Rj'. rewrite Ri in Ri'. rewrite Rj in Rj'. cbn in Ri', Rj'.
    injection Ri' as <-. injection Rj' as <-. rewrite !(rigid_rot_matrix _ _ HT). split.
    - rewrite <- (rot_dist (lin T) pi pj) by apply HT. unfold vdist. f_equal. apply V3_eq; cbn; ring.
    - rewrite mtrans_mmul, mmul_assoc, <- (mmul_assoc (mtrans (lin T))), (is_rot_left (lin T)) by apply HT.
      rewrite mmul_ident_l. reflexivity.
  Qed.

  (** Positions alone, for every affine transformation. *)
  Lemma positions_compose T1 T2 t :
    consistent t -> bot T1 = vzero -> cor T1 = 1 ->
    xyz (apply_transformation ops T2 (apply_transformation ops T1 t))
    = xyz (apply_transformation ops (mul4 T2 T1) t).
  Proof.
    intros H B K. rewrite !apply_transformation_xyz, map_map by (try apply apply_transformation_consistent; exact H).
    apply map_ext. intro p. unfold mul4; cbn [lin tra]. rewrite B, K.
    replace (madd (mmul (lin T2) (lin T1)) (outer (tra T2) vzero)) with (mmul (lin T2) (lin T1)) by (m3; ring).
    rewrite mapply_mmul, mapply_add. apply V3_eq; cbn; ring.
  Qed.

  (** ** Arc lengths under rigid motions *)
  Lemma rigid_arc T t :
    consistent t -> rigid T -> lengths_from_xyz (xyz (apply_transformation ops T t)) = lengths_from_xyz (xyz t).
  Proof.
    intros H HT. rewrite (apply_transformation_xyz T t H). apply lengths_isometry.
    intros a b. rewrite <- (rot_dist (lin T) a b) by apply HT. unfold vdist. f_equal. apply V3_eq; cbn; ring.
  Qed.

  (** ** apply_alignment *)
  Lemma iadd_ok a b : length a = length b ->
    iadd a b = Ok (map (fun ab => vadd (fst ab) (snd ab)) (combine a b)).
  Proof. intro H. unfold iadd. rewrite H, Nat.eqb_refl. reflexivity. Qed.

  Lemma broadcast_ok {A B D} (f : A -> B -> D) l m : length l = length m ->
    broadcast f l m = Ok (map (fun ab => f (fst ab) (snd ab)) (combine l m)).
  Proof. intro H. unfold broadcast. rewrite H, Nat.eqb_refl. reflexivity. Qed.

  Lemma sim3_pos p x : vadd (mapply (lin (sim3_matrix ops p)) x) (tra (sim3_matrix ops p))
                     = vadd (sim_trans p) (vscale (sim_scale p) (mapply (euler_matrix (sim_rot p)) x)).
  Proof.
    unfold sim3_matrix; cbn [lin tra]. rewrite mapply_mscale, rotation_matrix_euler. apply V3_eq; cbn; ring.
  Qed.

  (** The positions before the similarity. *)
  Definition shifted (p : align_params) (t : traj Q) : list V3 :=
    match rot t with
    | Some q => map (fun x => vadd (fst (fst x)) (vadd (mapply (as_matrix ops (snd (fst x))) (lever p))
                                                     (vscale (time_shift p) (snd x))))
                    (combine (combine (xyz t) q) (speed t))
    | None => map (fun x => vadd (fst x) (vscale (time_shift p) (snd x))) (combine (xyz t) (speed t))
    end.

  Lemma combine_map_swap {A B D E} (f : A -> B -> D) (g : E -> D -> E) (l : list A) (m : list B) (x : list E) :
    length l = length m -> length x = length l ->
    map (fun ab => g (fst ab) (snd ab)) (combine x (map (fun ab => f (fst ab) (snd ab)) (combine l m)))
    = map (fun y => g (fst (fst y)) (f (snd (fst y)) (snd y))) (combine (combine x l) m).
  Proof.
    revert m x. induction l as [|a l IH]; intros [|b m] [|e x]; cbn; try discriminate; auto.
    intros [= H1] [= H2]. f_equal. apply IH; assumption.
  Qed.

  Lemma shifted_length p t : consistent t -> length (shifted p t) = length (xyz t).
  Proof.
    intros (Ht & Hr & Ha & Hs). unfold shifted. destruct (rot t) as [q|]; rewrite map_length, !combine_length; lia.
  Qed.

  Lemma apply_alignment_form p sensor t :
    consistent t ->
    let t1 := apply_transformation ops (sim3_matrix ops p) (set_xyz (shifted p t) t) in
    exists q1, rot t1 = Some q1 /\
    apply_alignment ops p sensor false t = Ok (set_rot (Some (map (rmul ops (from_euler ops sensor)) q1)) t1).
  Proof.
    intros H t1. unfold apply_alignment. destruct (rot t) as [q|] eqn:E.
    - assert (H' := H). destruct H' as (Ht & Hr & Ha & Hs). rewrite E in Hr.
      rewrite broadcast_ok by (rewrite map_length; congruence). cbn [bind].
      rewrite iadd_ok by (rewrite map_length, combine_length, map_length; lia). cbn [bind].
      match goal with |- context [set_xyz ?l t] => replace l with (shifted p t) end.
      + fold t1. assert (R1 : rot t1 <> None) by (unfold t1, apply_transformation, set_se3; cbn; discriminate).
        destruct (rot t1) as [q1|]; [|congruence]. exists q1. split; reflexivity.
      + unfold shifted. rewrite E.
        rewrite (combine_map_swap (fun e s => leverarm_time_component e s (time_shift p) (lever p)) vadd)
          by (rewrite ?map_length; congruence).
        replace (combine (combine (xyz t) (map (as_euler ops) q)) (speed t))
          with (map (fun x => ((fst (fst x), as_euler ops (snd (fst x))), snd x)) (combine (combine (xyz t) q) (speed t))).
        * rewrite map_map. apply map_ext. intros [[x r] v]. cbn [fst snd].
          rewrite leverarm_components, euler_as_euler. reflexivity.
        * clear. generalize (xyz t) (speed t). intros l m. revert q m.
          induction l as [|a l IH]; intros [|b q] [|e m]; cbn; auto. f_equal. apply IH.
    - assert (H' := H). destruct H' as (Ht & Hr & Ha & Hs). cbn [bind].
      rewrite iadd_ok by (rewrite map_length; congruence). cbn [bind].
      match goal with |- context [set_xyz ?l t] => replace l with (shifted p t) end.
      + fold t1. assert (R1 : rot t1 <> None) by (unfold t1, apply_transformation, set_se3; cbn; discriminate).
        destruct (rot t1) as [q1|]; [|congruence]. exists q1. split; reflexivity.
      + unfold shifted. rewrite E. rewrite <- (map_id (xyz t)) at 2. rewrite combine_map_map, map_map.
        apply map_ext. intros [x v]. cbn [fst snd]. rewrite leverarm_components, mapply_zero. f_equal.
        apply V3_eq; cbn; ring.
  Qed.

  Lemma set_xyz_consistent p t : consistent t -> consistent (set_xyz (shifted p t) t).
  Proof.
    intros H. assert (L := shifted_length p t H). destruct H as (Ht & Hr & Ha & Hs).
    unfold consistent; cbn. rewrite L. auto.
  Qed.

  Lemma nth_error_combine_some {A B} (l : list A) (m : list B) i a b :
    nth_error l i = Some a -> nth_error m i = Some b -> nth_error (combine l m) i = Some (a, b).
  Proof.
    revert l m. induction i as [|i IH]; intros [|x l] [|y m]; cbn; try discriminate.
    - intros [= ->] [= ->]; reflexivity.
    - apply IH.
  Qed.

  Lemma apply_alignment_ok p sensor t :
    consistent t ->
    exists t' q', apply_alignment ops p sensor false t = Ok t' /\ same_rest t t' /\ consistent t' /\ rot t' = Some q' /\
    (forall q i x v r, rot t = Some q ->
       nth_error (xyz t) i = Some x -> nth_error (speed t) i = Some v -> nth_error q i = Some r ->
       nth_error (xyz t') i = Some (aligned p x v (as_matrix ops r)) /\
       exists r', nth_error q' i = Some r' /\
         (sim_scale p = 1 ->
          as_matrix ops r' = mmul (euler_matrix sensor) (mmul (euler_matrix (sim_rot p)) (as_matrix ops r)))) /\
    (forall i x v, rot t = None ->
       nth_error (xyz t) i = Some x -> nth_error (speed t) i = Some v ->
       nth_error (xyz t') i = Some (aligned (mkAlign (sim_trans p) (sim_rot p) (sim_scale p) (time_shift p) vzero) x v mident)).
  Proof.
    intros H. destruct (apply_alignment_form p sensor t H) as (q1 & E1 & F).
    set (u := set_xyz (shifted p t) t) in *. assert (Cu : consistent u) by (apply set_xyz_consistent, H).
    eexists. exists (map (rmul ops (from_euler ops sensor)) q1). split; [exact F|].
    assert (X : xyz (apply_transformation ops (sim3_matrix ops p) u)
      = map (fun y => vadd (sim_trans p) (vscale (sim_scale p) (mapply (euler_matrix (sim_rot p)) y))) (shifted p t)).
    { rewrite (apply_transformation_xyz _ u Cu). unfold u; cbn [xyz set_xyz]. apply map_ext. intro y. apply sim3_pos. }
    assert (Rst := apply_transformation_rest (sim3_matrix ops p) u).
    assert (Ct := apply_transformation_consistent (sim3_matrix ops p) u Cu).
    split; [exact Rst|]. split; [|split; [reflexivity|split]].
    - destruct Ct as (K1 & K2 & K3 & K4). rewrite E1 in K2. unfold consistent; cbn [set_rot tstamps xyz rot arc speed].
      rewrite map_length. auto.
    - intros q i x v r E Hx Hv Hr. cbn [set_rot xyz]. rewrite X. split.
      + rewrite nth_error_map. unfold shifted. rewrite E, nth_error_map.
        rewrite (nth_error_combine_some _ _ i (x, r) v (nth_error_combine_some _ _ i x r Hx Hr) Hv). reflexivity.
      + assert (Eu : rot u = Some q) by exact E.
        rewrite (apply_transformation_rot _ u q Cu Eu) in E1. injection E1 as <-.
        eexists. split; [rewrite map_map, nth_error_map, Hr; reflexivity|].
        intros S. rewrite (rc_mul ops C), (rc_euler ops C).
        f_equal. unfold sim3_matrix; cbn [lin]. rewrite S, mscale_one, rotation_matrix_euler.
        apply (rc_from ops C), is_rot_mmul; [apply is_rot_euler | apply (rc_rot ops C)].
    - intros i x v E Hx Hv. cbn [set_rot xyz]. rewrite X, nth_error_map. unfold shifted. rewrite E, nth_error_map.
      rewrite (nth_error_combine_some _ _ i x v Hx Hv). cbn. unfold aligned; cbn [sim_trans sim_rot sim_scale time_shift lever].
      do 4 f_equal. rewrite mapply_zero. apply V3_eq; cbn; ring.
  Qed.

  Lemma apply_alignment_default sensor t :
    consistent t -> exists t', apply_alignment ops default_params sensor false t = Ok t' /\ xyz t' = xyz t.
  Proof.
    intros H. destruct (apply_alignment_ok default_params sensor t H) as (t' & q' & F & Rst & Ct & E' & A & B).
    exists t'. split; [exact F|]. destruct H as (Ht & Hr & Ha & Hs).
    assert (L : length (xyz t') = length (xyz t)).
    { destruct Ct as (L1 & _). destruct Rst as (L2 & _). congruence. }
    apply nth_error_ext_len; [exact L|]. intros i Hi.
    destruct (nth_error (xyz t) i) as [x|] eqn:X; [|apply nth_error_None in X; lia].
    destruct (nth_error (speed t) i) as [v|] eqn:V; [|apply nth_error_None in V; lia].
    destruct (rot t) as [q|] eqn:E.
    - destruct (nth_error q i) as [r|] eqn:R0; [|apply nth_error_None in R0; lia].
      destruct (A q i x v r eq_refl X V R0) as [P _]. rewrite P, aligned_default. reflexivity.
    - rewrite (B i x v eq_refl X V). f_equal. apply (aligned_default x v mident).
  Qed.

  (** ** adopt_first_* *)
  Lemma adopt_position_noop (self other : traj Q) :
    xyz self <> [] -> exists t', adopt_first_position self other = Ok t' /\ t' = self.
  Proof.
    intros H. destruct (xyz self) as [|x r] eqn:E; [congruence|]. unfold adopt_first_position. rewrite E.
    change (np_get (x :: r) 0) with (@Ok V3 x). cbn [bind]. eexists. split; [reflexivity|].
    rewrite <- E. destruct self; unfold set_xyz; cbn in *. f_equal. subst.
    rewrite <- (map_id (x :: r)) at 2. apply map_ext. intro a. apply V3_eq; cbn; ring.
  Qed.

  Lemma adopt_orientation_noop (self other : traj Q) :
    (forall q, rot self = Some q -> q <> []) ->
    exists t', adopt_first_orientation ops self other = Ok t' /\ traj_equiv ops self t'.
  Proof.
    intros H. unfold adopt_first_orientation. destruct (rot self) as [q|] eqn:E.
    - destruct q as [|q0 q]; [exfalso; eapply H; reflexivity|].
      cbn [map]. change (np_get (as_euler ops q0 :: map (as_euler ops) q) 0) with (@Ok V3 (as_euler ops q0)).
      cbn [bind]. eexists. split; [reflexivity|]. unfold traj_equiv; cbn. repeat split.
      unfold same_rotations. rewrite E. cbn [option_map map]. f_equal. f_equal.
      + replace (vadd (as_euler ops q0) (vsub (as_euler ops q0) (as_euler ops q0))) with (as_euler ops q0) by (apply V3_eq; cbn; ring).
        symmetry. apply (rc_as_euler ops C).
      + rewrite !map_map. apply map_ext. intro r.
        replace (vadd (as_euler ops r) (vsub (as_euler ops q0) (as_euler ops q0))) with (as_euler ops r) by (apply V3_eq; cbn; ring).
        symmetry. apply (rc_as_euler ops C).
    - eexists. split; [reflexivity|]. unfold traj_equiv, same_rotations. rewrite E. repeat split; reflexivity.
  Qed.

  Lemma adopt_pose_noop (self other : traj Q) :
    consistent self -> xyz self <> [] ->
    exists t', adopt_first_pose ops self other = Ok t' /\ traj_equiv ops self t'.
  Proof.
    intros (Ht & Hr & Ha & Hs) X. unfold adopt_first_pose.
    destruct (adopt_position_noop self self X) as (t1 & -> & ->). cbn [bind].
    apply adopt_orientation_noop. intros q E ->. rewrite E in Hr. destruct (xyz self); [congruence | discriminate].
  Qed.
End Ops.
