(** Absolute comparison and statistics. *)
From Verif Require Import Base BaseFacts NumpyModel NumpyFacts TrajModel TrajSpec VecFacts TrajFacts
  GeomModel GeomSpec GeomFacts GeomFacts2 EvalModel EvalSpec EvalFacts EvalFacts2.

Lemma np_zip_ok {A B D} (f : A -> B -> D) a b :
  length a = length b -> exists l, np_zip f a b = Ok l /\ length l = length a /\
    forall i x y, nth_error a i = Some x -> nth_error b i = Some y -> nth_error l i = Some (f x y).
Proof.
  intro H. unfold np_zip. rewrite H, Nat.eqb_refl. eexists. split; [reflexivity|].
  split; [rewrite map_length, combine_length; lia|].
  intros i x y Hx Hy. rewrite nth_error_map', nth_error_combine, Hx, Hy. reflexivity.
Qed.

(** ** With orientations *)
Lemma with_rot_ok ref test ms :
  length ref = length test -> length ms = length ref ->
  exists l, dev_directions_with_rot ref test ms = Ok l /\ length l = length ref /\
    forall i r p m, nth_error ref i = Some r -> nth_error test i = Some p -> nth_error ms i = Some m ->
      nth_error l i = Some (vmul (vsub p r) m).
Proof.
  intros L Lm. unfold dev_directions_with_rot. rewrite L, Nat.sub_diag.
  destruct (mapM_total (fun ir : nat * V3 => let '(i, r) := ir in
     let! p := np_get test (Z.of_nat i) in let! m := np_get ms (Z.of_nat i) in Ok (vmul (vsub p r) m)) (enumerate ref)) as [l El].
  { intros [i r] Hi. apply In_enumerate in Hi. apply nth_error_Some_lt in Hi.
    destruct (nth_error_lt_Some test i) as [p Hp]; [lia|]. destruct (nth_error_lt_Some ms i) as [m Hm]; [lia|].
    rewrite (np_get_nat _ _ _ Hp), (np_get_nat _ _ _ Hm). cbn. eauto. }
  rewrite El. cbn [bind repeat]. exists l. rewrite app_nil_r. split; [reflexivity|].
  assert (Ll := mapM_length _ _ _ El). rewrite enumerate_length in Ll. split; [lia|].
  intros i r p m Hr Hp Hm. destruct (nth_error_lt_Some l i) as [d Hd]; [apply nth_error_Some_lt in Hr; lia|].
  apply mapM_Forall2 in El. assert (Hi : nth_error (enumerate ref) i = Some (i, r)) by (rewrite enumerate_nth, Hr; reflexivity).
  assert (G : forall A B (P : A -> B -> Prop) la lb k a b, Forall2 P la lb -> nth_error la k = Some a -> nth_error lb k = Some b -> P a b).
  { intros A B P la lb k a b F. revert k. induction F as [|x y la lb Pxy F IH]; intros [|k] Ha Hb; try discriminate; cbn in *; [congruence | eauto]. }
  specialize (G _ _ _ _ _ _ _ _ El Hi Hd). cbn in G. rewrite (np_get_nat _ _ _ Hp), (np_get_nat _ _ _ Hm) in G. cbn in G. congruence.
Qed.

Lemma Forall2_nth {A B} (P : A -> B -> Prop) la lb k a b :
  Forall2 P la lb -> nth_error la k = Some a -> nth_error lb k = Some b -> P a b.
Proof.
  intro F. revert k. induction F as [|x y la lb Pxy F IH]; intros [|k] Ha Hb; try discriminate; cbn in *; [congruence | eauto].
Qed.

Lemma vmul_mapply v m : vmul v m = mapply (mtrans m) v.
Proof. vars; apply V3_eq; munf; ring. Qed.

Lemma vmul_norm v m : is_rot m -> vnorm (vmul v m) = vnorm v.
Proof. intro H. rewrite vmul_mapply. apply rot_norm, is_rot_mtrans, H. Qed.

Lemma vsub_norm a b : vnorm (vsub a b) = vnorm (vsub b a).
Proof. exact (vdist_sym a b). Qed.

(** ** Without orientations *)
Lemma nearest_point_spec p a b :
  a <> b -> exists u, vnorm u = 1 /\ vsub b a = vscale (vdist b a) u /\ 0 < vdist b a /\
    nearest_point p a b = (vadd a (vscale (vdot (vsub p a) u) u), vdot (vsub p a) u).
Proof.
  intro N. unfold nearest_point. assert (Hd : vdist b a <> 0) by (intro E; apply vdist_zero in E; congruence).
  assert (Hp : 0 < vdist b a) by (assert (H := vdist_nonneg b a); lra). unfold vdist in *.
  destruct (Reqb_spec (vnorm (vsub b a)) 0) as [E|_]; [contradiction|].
  exists (vscale (/ vnorm (vsub b a)) (vsub b a)). split.
  - rewrite vnorm_scale, Rabs_right by (apply Rle_ge, Rlt_le, Rinv_0_lt_compat, Hp). field. exact Hd.
  - split; [|split; [exact Hp | reflexivity]]. v3; field; exact Hd.
Qed.

Lemma unit_sq u : vnorm u = 1 -> vdot u u = 1.
Proof. intro H. rewrite <- vnorm_sq, H. ring. Qed.

(** Pythagoras at the foot point. *)
Lemma foot_pythagoras p a u : vnorm u = 1 ->
  forall s, vdot (vsub p (vadd a (vscale s u))) (vsub p (vadd a (vscale s u)))
    = vdot (vsub p a) (vsub p a) - vdot (vsub p a) u * vdot (vsub p a) u + (s - vdot (vsub p a) u) * (s - vdot (vsub p a) u).
Proof.
  intros H s. assert (E := unit_sq u H). 
  transitivity (vdot (vsub p a) (vsub p a) - 2 * s * vdot (vsub p a) u + s * s * vdot u u).
  - destruct p, a, u. unfold vdot, vsub, vadd, vscale. cbn. ring.
  - rewrite E. ring.
Qed.

Lemma foot_closest p a b u :
  vnorm u = 1 -> vsub b a = vscale (vdist b a) u -> 0 < vdist b a ->
  foot_point a b p (vadd a (vscale (vdot (vsub p a) u) u)).
Proof.
  intros Hu Hd Hp. split.
  - exists (vdot (vsub p a) u / vdist b a). rewrite Hd. f_equal. v3; field; lra.
  - intro s. rewrite Hd. unfold vdist. apply sqrt_le_1_alt.
    replace (vscale s (vscale (vnorm (vsub b a)) u)) with (vscale (s * vnorm (vsub b a)) u) by (v3; ring).
    rewrite !(foot_pythagoras p a u Hu). assert (N := Rle_0_sqr (s * vnorm (vsub b a) - vdot (vsub p a) u)). unfold Rsqr in N. lra.
Qed.

Lemma Rsign_mul_abs x : Rsign x * Rabs x = x.
Proof. unfold Rsign. destruct (Rlt_dec 0 x); [rewrite Rabs_right; lra|]. destruct (Rlt_dec x 0); [rewrite Rabs_left; lra|]. replace x with 0 by lra. ring. Qed.

Lemma foot_offset a u t : vnorm u = 1 -> vnorm (vsub (vadd a (vscale t u)) a) = Rabs t.
Proof.
  intro H. replace (vsub (vadd a (vscale t u)) a) with (vscale t u) by (v3; ring). rewrite vnorm_scale, H. ring.
Qed.

Lemma along_scale a b u v : vsub b a = vscale (vdist b a) u -> 0 < vdist b a -> along a b v = vdot v u.
Proof.
  intros H P. unfold along. rewrite H.
  replace (vdot v (vscale (vdist b a) u)) with (vdist b a * vdot v u) by (destruct v, u; unfold vdot, vscale; cbn; ring).
  field. lra.
Qed.

(** Along-track deviation before the last pose. *)
Lemma along_not_last p a b : a <> b -> along_track_dev p a b false = along a b (vsub p a).
Proof.
  intro N. destruct (nearest_point_spec p a b N) as (u & Hu & Hd & Hp & E). unfold along_track_dev. rewrite E. cbn [negb].
  rewrite foot_offset, Rsign_mul_abs by exact Hu. symmetry. apply along_scale; assumption.
Qed.

(** Along-track deviation at the last pose. *)
Lemma along_last p a b : a <> b ->
  (- vdist b a < along a b (vsub p a) -> along_track_dev p a b true = along a b (vsub p b)) /\
  (along a b (vsub p a) <= - vdist b a -> along_track_dev p a b true = - along a b (vsub p b)) /\
  Rabs (along_track_dev p a b true) = Rabs (along a b (vsub p b)).
Proof.
  intro N. destruct (nearest_point_spec p a b N) as (u & Hu & Hd & Hp & E). unfold along_track_dev. rewrite E. cbn [negb].
  rewrite !(along_scale a b u) by assumption. set (t := vdot (vsub p a) u).
  assert (Eb : vdot (vsub p b) u = t - vdist b a).
  { replace (vsub p b) with (vsub (vsub p a) (vsub b a)) by (v3; ring). rewrite Hd.
    replace (vdot (vsub (vsub p a) (vscale (vdist b a) u)) u) with (vdot (vsub p a) u - vdist b a * vdot u u)
      by (destruct p, a, u; unfold vdot, vsub, vscale; cbn; ring). rewrite (unit_sq u Hu). unfold t. ring. }
  assert (On : vnorm (vsub (vadd a (vscale t u)) b) = Rabs (t - vdist b a)).
  { replace (vsub (vadd a (vscale t u)) b) with (vsub (vscale t u) (vsub b a)) by (v3; ring). rewrite Hd.
    replace (vsub (vscale t u) (vscale (vdist b a) u)) with (vscale (t - vdist b a) u) by (v3; ring). rewrite vnorm_scale, Hu. ring. }
  rewrite foot_offset, On, Eb by exact Hu. change (vnorm (vsub b a)) with (vdist b a).
  split; [|split].
  - intro L. destruct (Rltb_spec (Rabs t) (vdist b a)) as [K|K].
    + apply Rabs_def2 in K as [K1 K2]. rewrite Rabs_left by lra. ring.
    + destruct (Rle_lt_dec (vdist b a) t); [rewrite Rabs_right by lra; reflexivity|].
      exfalso. apply K. apply Rabs_def1; lra.
  - intro L. destruct (Rltb_spec (Rabs t) (vdist b a)) as [K|K].
    + apply Rabs_def2 in K as [K1 K2]. lra.
    + rewrite Rabs_left by lra. reflexivity.
  - destruct (Rltb _ _); [rewrite Rabs_Ropp|]; apply Rabs_Rabsolu.
Qed.

(** Cross-track deviations. *)
Lemma cross_spec p a b :
  a <> b -> exists f h, foot_point a b p f /\ vdot (vsub f a) (vsub b a) = vdot (vsub p a) (vsub b a) /\
    cross_track_dev p a b = (h, vz f - vz p) /\
    (side_defined a b p -> h * h + (vz f - vz p) * (vz f - vz p) = vdot (vsub p f) (vsub p f)) /\
    h * h + (vz f - vz p) * (vz f - vz p) <= vdot (vsub p f) (vsub p f).
Proof.
  intro N. destruct (nearest_point_spec p a b N) as (u & Hu & Hd & Hp & E). unfold cross_track_dev. rewrite E.
  set (t := vdot (vsub p a) u). set (f := vadd a (vscale t u)).
  set (dn := (vx p - vx a) * (vy b - vy a) + (vy p - vy a) * - (vx b - vx a)).
  set (hd := vx (vsub f p) * vx (vsub f p) + vy (vsub f p) * vy (vsub f p)).
  assert (Hh : 0 <= hd).
  { unfold hd. assert (A := Rle_0_sqr (vx (vsub f p))). assert (B := Rle_0_sqr (vy (vsub f p))). unfold Rsqr in *. lra. }
  assert (Tot : hd + (vz f - vz p) * (vz f - vz p) = vdot (vsub p f) (vsub p f)) by (unfold hd, vdot, vsub; cbn; ring).
  assert (Sq : (- Rsign dn * sqrt hd) * (- Rsign dn * sqrt hd) = Rsign dn * Rsign dn * hd).
  { replace ((- Rsign dn * sqrt hd) * (- Rsign dn * sqrt hd)) with (Rsign dn * Rsign dn * (sqrt hd * sqrt hd)) by ring. rewrite sqrt_sqrt by exact Hh. ring. }
  exists f, (- Rsign dn * sqrt hd). split; [apply foot_closest; assumption|]. split.
  { rewrite Hd. unfold f. replace (vsub (vadd a (vscale t u)) a) with (vscale t u) by (v3; ring).
    replace (vdot (vscale t u) (vscale (vdist b a) u)) with (t * vdist b a * vdot u u) by (destruct u; unfold vdot, vscale; cbn; ring).
    replace (vdot (vsub p a) (vscale (vdist b a) u)) with (vdist b a * t) by (unfold t; destruct p, a, u; unfold vdot, vscale, vsub; cbn; ring).
    rewrite (unit_sq u Hu). ring. }
  split; [reflexivity|]. rewrite Sq. split.
  - intro H. rewrite <- Tot. f_equal.
    assert (Rsign dn * Rsign dn = 1 \/ hd = 0) as [->| ->]; [|ring|ring].
    unfold Rsign. destruct (Rlt_dec 0 dn); [left; ring|]. destruct (Rlt_dec dn 0); [left; ring|]. right.
    assert (Dn : dn = 0) by lra. destruct H as [H|H]; [exfalso; apply H; unfold dn in Dn; lra|].
    (* a horizontal line and a point in its vertical plane *)
    assert (Uz : vz u = 0).
    { apply (f_equal vz) in Hd. cbn in Hd. rewrite H in Hd. assert (vdist b a * vz u = 0) by lra. apply Rmult_integral in H0 as [|]; [lra | assumption]. }
    assert (Ux : vx b - vx a = vdist b a * vx u) by (apply (f_equal vx) in Hd; exact Hd).
    assert (Uy : vy b - vy a = vdist b a * vy u) by (apply (f_equal vy) in Hd; exact Hd).
    assert (U1 := unit_sq u Hu). unfold vdot in U1. rewrite Uz in U1.
    assert (Dn' : (vx p - vx a) * vy u - (vy p - vy a) * vx u = 0).
    { unfold dn in Dn. rewrite Ux, Uy in Dn. apply (Rmult_eq_reg_l (vdist b a)); [|lra]. rewrite Rmult_0_r. rewrite <- Dn. ring. }
    unfold hd, f, t, vdot, vsub, vadd, vscale. cbn. rewrite Uz.
    set (dx := vx p - vx a) in *. set (dy := vy p - vy a) in *. 
    assert (X : vx a + (dx * vx u + dy * vy u + (vz p - vz a) * 0) * vx u - vx p = dx * (vx u * vx u + vy u * vy u - 1) - ((dx * vy u - dy * vx u) * vy u)) by (unfold dx, dy; ring).
    assert (Y : vy a + (dx * vx u + dy * vy u + (vz p - vz a) * 0) * vy u - vy p = dy * (vx u * vx u + vy u * vy u - 1) + ((dx * vy u - dy * vx u) * vx u)) by (unfold dx, dy; ring).
    rewrite X, Y, Dn'. replace (vx u * vx u + vy u * vy u - 1) with 0 by lra. ring.
  - rewrite <- Tot. assert (Rsign dn * Rsign dn <= 1).
    { unfold Rsign. destruct (Rlt_dec 0 dn); [lra|]. destruct (Rlt_dec dn 0); lra. }
    assert (Rsign dn * Rsign dn * hd <= 1 * hd) by (apply Rmult_le_compat_r; assumption). lra.
Qed.

(** Row [i] of the deviations without orientations. *)
Lemma no_rot_ok ref test :
  length ref = length test -> ref <> [] ->
  exists l, dev_directions_no_rot ref test = Ok l /\ length l = length test /\
    (forall i p r a b, nth_error test i = Some p -> nth_error ref i = Some r -> track_line ref i a b ->
       nth_error l i = Some (mkV3 (along_track_dev p a b (S i =? length ref)%nat)
                                  (fst (cross_track_dev p a b)) (snd (cross_track_dev p a b)))) /\
    (forall p r, test = [p] -> ref = [r] -> l = [mkV3 (along_track_dev p r r true)
                                  (fst (cross_track_dev p r r)) (snd (cross_track_dev p r r))]).
Proof.
  intros L Nr. unfold dev_directions_no_rot.
  match goal with |- context [mapM ?f (enumerate test)] => set (row := f) end.
  assert (T : forall i p, nth_error test i = Some p -> exists a b, (track_line ref i a b \/ (length ref = 1%nat /\ a = b /\ nth_error ref 0 = Some a)) /\
     row (i, p) = Ok (mkV3 (along_track_dev p a b (S i =? length ref)%nat) (fst (cross_track_dev p a b)) (snd (cross_track_dev p a b)))).
  { intros i p Hp. assert (Li := nth_error_Some_lt _ _ _ Hp). unfold row.
    destruct (nth_error_lt_Some ref i) as [r Hr]; [lia|]. rewrite (np_get_nat _ _ _ Hr). cbn [bind].
    destruct (Nat.eqb_spec i (length test - 1)) as [E|E].
    - destruct (Nat.eqb_spec (S i) (length ref)) as [_|]; [|lia]. destruct i as [|i].
      + assert (length ref = 1%nat) by lia. assert (Hl : np_get ref (Z.of_nat 0 - 1) = Ok r).
        { apply np_get_ok. exists 0%nat. split; [|exact Hr]. rewrite H. reflexivity. }
        rewrite Hl. cbn [bind]. exists r, r. split; [right; auto|]. destruct (cross_track_dev p r r). reflexivity.
      + destruct (nth_error_lt_Some ref i) as [a Ha]; [lia|].
        replace (Z.of_nat (S i) - 1)%Z with (Z.of_nat i) by lia. rewrite (np_get_nat _ _ _ Ha). cbn [bind]. exists a, r.
        split; [left; right; exists i; repeat split; auto; lia|]. destruct (cross_track_dev p a r). reflexivity.
    - destruct (Nat.eqb_spec (S i) (length ref)) as [|_]; [lia|]. destruct (nth_error_lt_Some ref (S i)) as [b Hb]; [lia|].
      replace (Z.of_nat i + 1)%Z with (Z.of_nat (S i)) by lia. rewrite (np_get_nat _ _ _ Hb). cbn [bind]. exists r, b.
      split; [left; left; repeat split; auto; lia|]. destruct (cross_track_dev p r b). reflexivity. }
  destruct (mapM_total row (enumerate test)) as [l El].
  { intros [i p] Hi. apply In_enumerate in Hi. destruct (T i p Hi) as (a & b & _ & H). eauto. }
  exists l. split; [exact El|]. assert (Ll := mapM_length _ _ _ El). rewrite enumerate_length in Ll. split; [exact Ll|].
  apply mapM_Forall2 in El.
  assert (K : forall i p, nth_error test i = Some p -> exists d, nth_error l i = Some d /\ row (i, p) = Ok d).
  { intros i p Hp. destruct (nth_error_lt_Some l i) as [d Hd]; [apply nth_error_Some_lt in Hp; lia|]. exists d. split; [exact Hd|].
    apply (Forall2_nth _ _ _ i (i, p) d El); [rewrite enumerate_nth, Hp; reflexivity | exact Hd]. }
  split.
  - intros i p r a b Hp Hr Ht. destruct (K i p Hp) as (d & Hd & Ed). destruct (T i p Hp) as (a' & b' & Ht' & Er). rewrite Er in Ed. injection Ed as <-.
    rewrite Hd. assert (a' = a /\ b' = b) as [-> ->]; [|reflexivity].
    destruct Ht as [(T1 & T2 & T3)|(j & T1 & T2 & T3 & T4)], Ht' as [[(U1 & U2 & U3)|(j' & U1 & U2 & U3 & U4)]|(U1 & U2 & U3)]; try lia.
    + split; congruence.
    + subst i. injection U1 as ->. split; congruence.
  - intros p r -> ->. destruct (K 0%nat p eq_refl) as (d & Hd & Ed). destruct (T 0%nat p eq_refl) as (a & b & _ & Er). cbn in Ll.
    unfold row in Ed. cbn in Ed. destruct l as [|x [|]]; try discriminate. cbn in Hd. injection Hd as ->.
    destruct (cross_track_dev p r r). cbn in Ed. injection Ed as <-. reflexivity.
Qed.
