(** Comparisons and their statistics in another unit of length. *)
From Verif Require Import Base BaseFacts VecFacts NumpyModel NumpyFacts TrajModel TrajFacts EvalModel EvalStats EvalFacts ViewFacts GeomModel GeomSpec GeomFacts ClockSpec ClockFacts ClockFacts2 LenSpec LenFacts.

Section Len.
  Variable k : R.
  Hypothesis K0 : 0 < k.
  Notation sc := (map (vscale k)).

  (** ** Absolute deviations *)
  Lemma sign_scaled x : Rsign (k * x) = Rsign x.
  Proof. unfold Rsign. destruct (Rlt_dec 0 (k * x)), (Rlt_dec 0 x), (Rlt_dec (k * x) 0), (Rlt_dec x 0); try reflexivity; exfalso; nra. Qed.
  Lemma nearest_scaled p a b : nearest_point (vscale k p) (vscale k a) (vscale k b) = (vscale k (fst (nearest_point p a b)), k * snd (nearest_point p a b)).
  Proof.
    unfold nearest_point. rewrite !vsub_scale, (norm_scale k K0), (scaled_zero k K0). unfold Reqb. destruct (Req_EM_T (vnorm (vsub b a)) 0) as [|N]; cbn [fst snd]; [f_equal; ring|].
    replace (vscale (/ (k * vnorm (vsub b a))) (vscale k (vsub b a))) with (vscale (/ vnorm (vsub b a)) (vsub b a)).
    2:{ generalize dependent (vnorm (vsub b a)). intros n N. apply V3_eq; cbn; field; split; lra. }
    generalize (vscale (/ vnorm (vsub b a)) (vsub b a)). intro u. f_equal; [apply V3_eq; unfold vdot; cbn; ring|unfold vdot; cbn; ring].
  Qed.
  Lemma along_scaled p a b l : along_track_dev (vscale k p) (vscale k a) (vscale k b) l = k * along_track_dev p a b l.
  Proof.
    unfold along_track_dev. rewrite nearest_scaled. destruct (nearest_point p a b) as [n t]. cbn [fst snd]. rewrite !vsub_scale, !(norm_scale k K0), sign_scaled, (scaled_ltb k K0).
    destruct (negb l); [ring|]. destruct (Rltb _ _); ring.
  Qed.
  Lemma cross_scaled p a b : cross_track_dev (vscale k p) (vscale k a) (vscale k b) = (k * fst (cross_track_dev p a b), k * snd (cross_track_dev p a b)).
  Proof.
    unfold cross_track_dev. rewrite nearest_scaled. destruct (nearest_point p a b) as [n t]. cbn [fst snd]. rewrite vsub_scale. cbn [vx vy vz vscale]. f_equal.
    replace ((k * vx p - k * vx a) * (k * vy b - k * vy a) + (k * vy p - k * vy a) * - (k * vx b - k * vx a))
      with (k * (k * ((vx p - vx a) * (vy b - vy a) + (vy p - vy a) * - (vx b - vx a)))) by ring.
    rewrite !sign_scaled. set (d := vsub n p). replace (k * vx d * (k * vx d) + k * vy d * (k * vy d)) with (k * k * (vx d * vx d + vy d * vy d)) by ring.
    rewrite (sqrt_scale k K0). ring.
  Qed.
  Lemma no_rot_scaled ref test : dev_directions_no_rot (sc ref) (sc test) = rmap sc (dev_directions_no_rot ref test).
  Proof.
    unfold dev_directions_no_rot. rewrite enumerate_map, mapM_map, <- mapM_rmap. apply mapM_ext_in. intros [i p] _. cbn [fst snd]. rewrite map_length, !np_get_map.
    destruct (np_get ref (Z.of_nat i)) as [c|]; cbn [rmap bind]; [|reflexivity]. destruct (i =? length test - 1)%nat; rewrite ?np_get_map.
    - destruct (np_get ref (Z.of_nat i - 1)) as [n|]; cbn [rmap bind]; [|reflexivity]. rewrite cross_scaled, along_scaled. destruct (cross_track_dev p n c). reflexivity.
    - destruct (np_get ref (Z.of_nat i + 1)) as [n|]; cbn [rmap bind]; [|reflexivity]. rewrite cross_scaled, along_scaled. destruct (cross_track_dev p c n). reflexivity.
  Qed.
  Lemma with_rot_scaled ref test ms : dev_directions_with_rot (sc ref) (sc test) ms = rmap sc (dev_directions_with_rot ref test ms).
  Proof.
    unfold dev_directions_with_rot. rewrite enumerate_map, mapM_map, !map_length.
    rewrite (mapM_ext_in _ (fun ir => rmap (vscale k) (let '(i, r) := ir in let! p := np_get test (Z.of_nat i) in let! m := np_get ms (Z.of_nat i) in Ok (vmul (vsub p r) m)))).
    2:{ intros [i r] _. cbn [fst snd]. rewrite np_get_map. destruct (np_get test (Z.of_nat i)) as [p|]; cbn [rmap bind]; [|reflexivity]. destruct (np_get ms (Z.of_nat i)) as [m|]; cbn [rmap bind]; [|reflexivity].
        f_equal. rewrite vsub_scale. apply V3_eq; unfold vmul, vdot; cbn; ring. }
    rewrite mapM_rmap. destruct (mapM _ (enumerate ref)) as [l|]; cbn [rmap bind]; [|reflexivity]. f_equal. rewrite map_app. f_equal.
    generalize (length test - length ref)%nat. intro n. induction n as [|n IH]; cbn; [reflexivity|]. rewrite <- IH. f_equal. apply V3_eq; cbn; ring.
  Qed.
  Lemma zip_scaled a b : np_zip vsub (sc a) (sc b) = rmap sc (np_zip vsub a b).
  Proof.
    unfold np_zip. rewrite !map_length. destruct (length a =? length b)%nat.
    - cbn [rmap]. f_equal. rewrite map_map. revert b. induction a as [|x a IH]; intros [|y b]; cbn; try reflexivity. rewrite IH, vsub_scale. reflexivity.
    - destruct a as [|x [|x' a]]; destruct b as [|y [|y' b]]; cbn; rewrite ?vsub_scale, ?map_map; try reflexivity.
      all: apply (f_equal Ok); repeat match goal with |- _ :: _ = _ :: _ => apply f_equal end; apply map_ext; intro; apply vsub_scale.
  Qed.
  Lemma absolute_enlarge {Q} (ops : rot_ops Q) (test ref : traj Q) : compare_absolute ops (enlarge k test) (enlarge k ref) = rmap (enlarged_ate k) (compare_absolute ops test ref).
  Proof.
    unfold compare_absolute. cbn [xyz rot name enlarge]. rewrite zip_scaled. destruct (np_zip vsub _ _) as [pd|]; cbn [rmap bind]; [|reflexivity].
    assert (G : get_directed_deviations ops (sc (xyz ref)) (sc (xyz test)) (either_rot (rot ref) (rot test)) = rmap sc (get_directed_deviations ops (xyz ref) (xyz test) (either_rot (rot ref) (rot test)))).
    { unfold get_directed_deviations. destruct (either_rot _ _); [apply with_rot_scaled|apply no_rot_scaled]. }
    rewrite G. clear G. destruct (get_directed_deviations _ _ _ _) as [dd|]; cbn [rmap bind]; [|reflexivity].
    destruct (match rot ref, rot test with Some a, Some b => rmap Some (np_zip (rot_sub ops) a b) | _, _ => Ok None end); reflexivity.
  Qed.

  (** ** Statistics *)
  Lemma sum_scaled c l : np_sum (map (Rmult c) l) = c * np_sum l.
  Proof. induction l as [|x l IH]; unfold np_sum in *; cbn; [ring|]. rewrite IH. ring. Qed.
  Lemma mean_scaled c l : np_mean (map (Rmult c) l) = option_map (Rmult c) (np_mean l).
  Proof. destruct l as [|x l]; [reflexivity|]. unfold np_mean. change (map (Rmult c) (x :: l)) with (c * x :: map (Rmult c) l) at 1. cbn [option_map]. rewrite sum_scaled, map_length. f_equal. unfold Rdiv. ring. Qed.
  Lemma root_mean_scaled (f g : R -> R) l : (forall x, g x = k * k * f x) -> option_map sqrt (np_mean (map g l)) = option_map (Rmult k) (option_map sqrt (np_mean (map f l))).
  Proof.
    intro H. rewrite (map_ext _ (fun x => (k * k) * f x) H). rewrite <- (map_map f (Rmult (k * k))), mean_scaled. destruct (np_mean (map f l)); cbn; [|reflexivity]. f_equal. apply sqrt_scale, K0.
  Qed.
  Lemma rms_scaled l : rms (map (Rmult k) l) = option_map (Rmult k) (rms l).
  Proof. unfold rms. rewrite map_map. apply root_mean_scaled. intro x. ring. Qed.
  Lemma std_scaled l : np_std (map (Rmult k) l) = option_map (Rmult k) (np_std l).
  Proof. unfold np_std. rewrite mean_scaled. destruct (np_mean l) as [m|]; cbn [option_map]; [|reflexivity]. rewrite map_map. apply (root_mean_scaled (fun x => (x - m) * (x - m))). intro x. ring. Qed.
  Lemma max_scaled l : np_max (map (Rmult k) l) = rmap (Rmult k) (np_max l).
  Proof.
    destruct l as [|x l]; [reflexivity|]. cbn. f_equal. revert x. induction l as [|y l IH]; intro x; cbn; [reflexivity|]. rewrite <- IH. f_equal. apply RmaxRmult. lra.
  Qed.
  Lemma min_scaled l : np_min (map (Rmult k) l) = rmap (Rmult k) (np_min l).
  Proof.
    destruct l as [|x l]; [reflexivity|]. cbn. f_equal. revert x. induction l as [|y l IH]; intro x; cbn; [reflexivity|]. rewrite <- IH. f_equal.
    unfold Rmin. destruct (Rle_dec (k * x) (k * y)), (Rle_dec x y); try reflexivity; exfalso; nra.
  Qed.
  Lemma on_scale l : map (Rmult k) l = map (on_clock k 0) l.
  Proof. apply map_ext. intro x. unfold on_clock. ring. Qed.
  Lemma median_scaled l : np_median (map (Rmult k) l) = option_map (Rmult k) (np_median l).
  Proof.
    unfold np_median. rewrite map_length, on_scale, (sort_tm k 0 K0), <- on_scale, !nth_error_map'. destruct (nth_error (np_sort l) _) as [a|]; cbn; [|reflexivity].
    destruct (nth_error (np_sort l) _) as [b|]; cbn; [|reflexivity]. f_equal. field.
  Qed.

  (** ** Relative deviations *)
  Definition en4 (P : M4) : M4 := mkM4 (lin P) (vscale k (tra P)) (bot P) (cor P).
  Lemma inv_en4 P : se3_inv (en4 P) = en4 (se3_inv P).
  Proof. unfold se3_inv, en4. cbn [lin tra bot cor]. f_equal. destruct P as [[r1 r2 r3] [a b c] bo co]. apply V3_eq; unfold mapply, vdot; cbn; ring. Qed.
  Lemma mul_en4 a b : bot a = vzero -> bot b = vzero -> mul4 (en4 a) (en4 b) = en4 (mul4 a b).
  Proof.
    destruct a as [la ta ba ca], b as [lb tb bb cb]. cbn [bot]. intros -> ->. unfold mul4, en4. cbn [lin tra bot cor]. f_equal.
    - apply M3_eq; apply V3_eq; cbn; ring.
    - apply V3_eq; unfold mapply, vdot; cbn; ring.
    - unfold vdot. cbn. ring.
  Qed.
  Lemma bot_mul a b : bot a = vzero -> bot b = vzero -> bot (mul4 a b) = vzero.
  Proof. intros A B. unfold mul4. cbn [bot]. rewrite A, B. apply V3_eq; unfold vmul, vdot; cbn; ring. Qed.
  Lemma pose_error_en4 a b c d : bot a = vzero -> bot b = vzero -> bot c = vzero -> bot d = vzero -> pose_error (en4 a) (en4 b) (en4 c) (en4 d) = en4 (pose_error a b c d).
  Proof.
    intros A B C D. unfold pose_error. rewrite !inv_en4. rewrite (mul_en4 (se3_inv a) b), (mul_en4 (se3_inv c) d), inv_en4 by (reflexivity || assumption).
    apply mul_en4; [reflexivity|]. apply bot_mul; [reflexivity|exact D].
  Qed.
  Lemma translation_en4 P : translation_error (en4 P) = k * translation_error P.
  Proof. unfold translation_error. cbn [tra en4 vx vy vz vscale]. rewrite <- (sqrt_scale k K0). f_equal. ring. Qed.

  Context {Q : Type}.
  Implicit Types test ref : traj Q.
  Lemma se3_enlarge (ops : rot_ops Q) t : se3 ops (enlarge k t) = map en4 (se3 ops t).
  Proof.
    unfold se3. cbn [xyz rot enlarge]. rewrite map_length.
    assert (G : forall l ms, map (fun tm : V3 * M3 => pose4 (snd tm) (fst tm)) (combine (sc l) ms) = map en4 (map (fun tm => pose4 (snd tm) (fst tm)) (combine l ms))).
    { induction l as [|x l IH]; intros [|m ms]; cbn; try reflexivity. rewrite IH. reflexivity. }
    rewrite G. destruct (xyz t); reflexivity.
  Qed.
  Lemma se3_bot (ops : rot_ops Q) t z P : np_get (se3 ops t) z = Ok P -> bot P = vzero.
  Proof.
    intro H. apply np_get_in in H. unfold se3 in H. destruct (xyz t); [contradiction|]. apply in_map_iff in H as (x & <- & _). reflexivity.
  Qed.

  (** Entries of pairs whose distances are scaled by [c]: the position drift by [k / c], the orientation drift by [1 / c] *)
  Definition entry_by (c : R) (e : pair_entry) : pair_entry :=
    mkEntry (option_map (fun x => k * x / c) (e_pos e)) (option_map (option_map (fun x => x / c)) (e_rot e)) (c * e_dist e).
  Lemma div_by c a d : 0 < c -> np_div (k * a) (c * d) = option_map (fun x => k * x / c) (np_div a d).
  Proof. intro C. unfold np_div. rewrite (scaled_zero c C). unfold Reqb. destruct (Req_EM_T d 0); cbn; [reflexivity|]. f_equal. field. split; lra. Qed.
  Lemma div_by1 c a d : 0 < c -> np_div a (c * d) = option_map (fun x => x / c) (np_div a d).
  Proof. intro C. unfold np_div. rewrite (scaled_zero c C). unfold Reqb. destruct (Req_EM_T d 0); cbn; [reflexivity|]. f_equal. field. split; lra. Qed.
  Lemma compare_pair_by ops test ref ds c p : 0 < c ->
    compare_pair ops (enlarge k test) (enlarge k ref) (map (Rmult c) ds) p = rmap (entry_by c) (compare_pair ops test ref ds p).
  Proof.
    intro C. unfold compare_pair. rewrite !np_get_map. destruct (np_get ds (Z.of_nat (snd p))) as [d1|]; cbn [rmap bind]; [|reflexivity]. destruct (np_get ds (Z.of_nat (fst p))) as [d0|]; cbn [rmap bind]; [|reflexivity].
    change (has_orientation (enlarge k ref)) with (has_orientation ref). change (has_orientation (enlarge k test)) with (has_orientation test). rewrite <- Rmult_minus_distr_l.
    destruct (has_orientation ref && has_orientation test)%bool.
    - rewrite !se3_enlarge, !np_get_map.
      destruct (np_get (se3 ops ref) (Z.of_nat (fst p))) as [ri|] eqn:E1; cbn [rmap bind]; [|reflexivity]. destruct (np_get (se3 ops ref) (Z.of_nat (snd p))) as [rj|] eqn:E2; cbn [rmap bind]; [|reflexivity].
      destruct (np_get (se3 ops test) (Z.of_nat (fst p))) as [ti|] eqn:E3; cbn [rmap bind]; [|reflexivity]. destruct (np_get (se3 ops test) (Z.of_nat (snd p))) as [tj|] eqn:E4; cbn [rmap bind]; [|reflexivity].
      apply se3_bot in E1, E2, E3, E4. rewrite pose_error_en4, translation_en4, div_by by assumption. change (rotation_error (en4 (pose_error ri rj ti tj))) with (rotation_error (pose_error ri rj ti tj)).
      rewrite div_by1 by exact C. reflexivity.
    - cbn [xyz enlarge]. rewrite !np_get_map. destruct (np_get (xyz ref) (Z.of_nat (snd p))) as [rj|]; cbn [rmap bind]; [|reflexivity]. destruct (np_get (xyz ref) (Z.of_nat (fst p))) as [ri|]; cbn [rmap bind]; [|reflexivity].
      destruct (np_get (xyz test) (Z.of_nat (snd p))) as [tj|]; cbn [rmap bind]; [|reflexivity]. destruct (np_get (xyz test) (Z.of_nat (fst p))) as [ti|]; cbn [rmap bind]; [|reflexivity].
      rewrite !vsub_scale, !(norm_scale k K0), <- Rmult_minus_distr_l, Rabs_mult, (Rabs_right k), div_by by lra. reflexivity.
  Qed.

  Lemma relative_by ops test ref c u : 0 < c ->
    pair_distances (enlarge k ref) (pair_distance_unit u) = rmap (map (Rmult c)) (pair_distances ref (pair_distance_unit u)) ->
    compare_relative ops (enlarge k test) (enlarge k ref) (rescaled c u)
    = rmap (fun r => mkRpe (rpe_name r) (map (fun b => (c * fst b, map (entry_by c) (snd b))) (rpe_pairs r)) (rpe_unit r)) (compare_relative ops test ref u).
  Proof.
    intros C PD. unfold compare_relative, rescaled. cbn [pair_min_distance pair_max_distance pair_distance_step pair_distance_unit use_all_pose_pairs]. rewrite (scaled_ltb c C).
    destruct (Rltb _ _); [reflexivity|]. rewrite <- Rmult_plus_distr_l, (arange_scaled c C). destruct (EvalModel.np_arange _ _ _ _) as [pd|]; cbn [rmap bind]; [|reflexivity].
    rewrite PD, mapM_map.
    set (F := fun pair_dist : R => let! distances := pair_distances ref (pair_distance_unit u) in let! pair_indices := get_pair_indices distances (use_all_pose_pairs u) pair_dist in
                let! entries := mapM (compare_pair ops test ref distances) pair_indices in Ok (pair_dist, entries)).
    rewrite (mapM_ext_in _ (fun x => rmap (fun b => (c * fst b, map (entry_by c) (snd b))) (F x))).
    2:{ intros x _. unfold F. destruct (pair_distances ref (pair_distance_unit u)) as [ds|]; cbn [rmap bind]; [|reflexivity].
        replace (get_pair_indices (map (Rmult c) ds) (use_all_pose_pairs u) (c * x)) with (get_pair_indices ds (use_all_pose_pairs u) x).
        2:{ rewrite <- (pair_indices_tm c 0 C ds). f_equal. apply map_ext. intro y. unfold on_clock. ring. }
        destruct (get_pair_indices _ _ x) as [pi|]; cbn [rmap bind]; [|reflexivity].
        rewrite (mapM_ext_in _ (fun p => rmap (entry_by c) (compare_pair ops test ref ds p))) by (intros p _; apply compare_pair_by, C).
        rewrite mapM_rmap. destruct (mapM _ pi); reflexivity. }
    rewrite mapM_rmap. destruct (mapM F pd) as [bl|]; cbn [rmap bind]; [|reflexivity].
    replace (forallb (fun b : R * list pair_entry => (length (snd b) =? 0)%nat) (map (fun b => (c * fst b, map (entry_by c) (snd b))) bl))
      with (forallb (fun b : R * list pair_entry => (length (snd b) =? 0)%nat) bl)
      by (induction bl as [|[z es] bl IH]; cbn; [reflexivity|]; rewrite map_length, IH; reflexivity).
    destruct (forallb _ bl); reflexivity.
  Qed.
  Lemma option_map_id' {A} (f : A -> A) o : (forall a, f a = a) -> option_map f o = o.
  Proof. intro H. destruct o; cbn; rewrite ?H; reflexivity. Qed.
  Lemma relative_length ops test ref u : pair_distance_unit u = U_METER ->
    compare_relative ops (enlarge k test) (enlarge k ref) (rescaled k u) = rmap (enlarged_over_length k) (compare_relative ops test ref u).
  Proof.
    intro U. rewrite (relative_by ops test ref k u K0) by (rewrite U; reflexivity). apply rmap_ext. intro r. unfold enlarged_over_length. f_equal. apply map_ext. intro b. f_equal. apply map_ext. intro e.
    unfold entry_by. f_equal. apply option_map_id'. intro x. field. lra.
  Qed.
  Lemma rescaled_one' u : rescaled 1 u = u.
  Proof. destruct u. unfold rescaled. cbn. rewrite !Rmult_1_l. reflexivity. Qed.
  Lemma relative_seconds ops test ref u : pair_distance_unit u = U_SECOND ->
    compare_relative ops (enlarge k test) (enlarge k ref) u = rmap (enlarged_over_time k) (compare_relative ops test ref u).
  Proof.
    intro U. rewrite <- (rescaled_one' u) at 1. rewrite (relative_by ops test ref 1 u Rlt_0_1).
    2:{ rewrite U. cbn. f_equal. rewrite <- (map_id (tstamps ref)) at 1. apply map_ext. intro. ring. }
    apply rmap_ext. intro r. unfold enlarged_over_time. f_equal. apply map_ext. intro b. f_equal; [ring|]. apply map_ext. intro e. unfold entry_by. f_equal.
    - destruct (e_pos e); cbn; [|reflexivity]. f_equal. field.
    - apply option_map_id'. intro o. apply option_map_id'. intro x. field.
    - ring.
  Qed.
End Len.
