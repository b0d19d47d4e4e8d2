(** Properties C137 and C138: exchanging test and reference, and the order of the poses. *)
From Verif Require Import Base BaseFacts VecFacts NumpyModel NumpyFacts TrajModel TrajSpec TrajFacts TrajFacts2 TrajFacts3 GeomModel GeomSpec GeomFacts GeomFacts2 GeomProps EvalModel EvalSpec EvalFacts EvalFacts3 EvalFacts4 EvalStats EvalProps AngModel AngSpec AngFacts AngFacts2 ApproxFacts4 ClockFacts.
From Verif Require Import IoModel IoSpec EqSpec ScaleModel ScaleSpec ScaleFacts ScaleProps DirectSpec AlignSpec AngProps.

(** * C137 *)
Lemma swapped_devs {Q} (ops : rot_ops Q) (test ref : traj Q) : consistent test -> consistent ref -> tlen test = tlen ref ->
  exists r r', compare_absolute ops test ref = Ok r /\ compare_absolute ops ref test = Ok r' /\ pos_dev r' = map (vscale (-1)) (pos_dev r).
Proof.
  intros Ct Cr L. destruct (compare_absolute_ok ops test ref Ct Cr L) as (r & E & _ & _ & L1 & _ & H1 & _). destruct (compare_absolute_ok ops ref test Cr Ct (eq_sym L)) as (r' & E' & _ & _ & L2 & _ & H2 & _).
  exists r, r'. split; [exact E|]. split; [exact E'|]. unfold tlen in *. apply nth_error_ext_len; [rewrite map_length; lia|]. intros i I. rewrite ?map_length in I. rewrite nth_error_map'.
  destruct (nth_error_lt_Some (xyz ref) i ltac:(lia)) as [a A]. destruct (nth_error_lt_Some (xyz test) i ltac:(lia)) as [b B].
  rewrite (H1 i a b A B), (H2 i b a B A). cbn. f_equal. apply V3_eq; cbn; ring.
Qed.

Definition negated (o : option R) : option R := option_map Ropp o.
Lemma mean_opp l : np_mean (map Ropp l) = negated (np_mean l).
Proof.
  destruct l as [|x l]; [reflexivity|]. unfold np_mean. cbn [map]. change (Ropp x :: map Ropp l) with (map Ropp (x :: l)). rewrite map_length. unfold negated, option_map. f_equal.
  assert (S : forall m, np_sum (map Ropp m) = - np_sum m) by (induction m as [|y m IH]; cbn; [ring|]; unfold np_sum in *; rewrite IH; ring). rewrite S. unfold Rdiv. ring.
Qed.
Lemma rms_opp l : rms (map Ropp l) = rms l.
Proof. unfold rms. rewrite map_map. do 2 f_equal. apply map_ext. intro x. ring. Qed.

(** Comparing the reference with the test instead gives the opposite deviations: all statistics of the position error and
    the RMS along each axis are the same, and the biases change their sign. *)
Theorem C137_absolute : forall (Q : Type) (ops : rot_ops Q) (test ref : traj Q), consistent test -> consistent ref -> tlen test = tlen ref ->
  exists r r', compare_absolute ops test ref = Ok r /\ compare_absolute ops ref test = Ok r' /\
    pos_dev r' = map (vscale (-1)) (pos_dev r) /\
    pos_dev_comb r' = pos_dev_comb r /\ pos_ate r' = pos_ate r /\ pos_dev_rms r' = pos_dev_rms r /\ pos_dev_std r' = pos_dev_std r /\
    pos_dev_median r' = pos_dev_median r /\ pos_dev_min r' = pos_dev_min r /\ pos_dev_max r' = pos_dev_max r /\
    pos_rms_x r' = pos_rms_x r /\ pos_rms_y r' = pos_rms_y r /\ pos_rms_z r' = pos_rms_z r /\
    pos_bias_x r' = negated (pos_bias_x r) /\ pos_bias_y r' = negated (pos_bias_y r) /\ pos_bias_z r' = negated (pos_bias_z r).
Proof.
  intros Q ops test ref Ct Cr L. destruct (swapped_devs ops test ref Ct Cr L) as (r & r' & E & E' & D). exists r, r'. split; [exact E|]. split; [exact E'|]. split; [exact D|].
  assert (K : pos_dev_comb r' = pos_dev_comb r) by (unfold pos_dev_comb; rewrite D, map_map; apply map_ext; intro; apply vnorm_opp).
  split; [exact K|]. unfold pos_ate, pos_dev_rms, pos_dev_std, pos_dev_median, pos_dev_min, pos_dev_max. rewrite K. do 6 (split; [reflexivity|]).
  assert (N : forall f, (forall v, f (vscale (-1) v) = - f v) -> map f (pos_dev r') = map Ropp (map f (pos_dev r))) by (intros f F; rewrite D, !map_map; apply map_ext; intro; apply F).
  unfold pos_rms_x, pos_rms_y, pos_rms_z, pos_bias_x, pos_bias_y, pos_bias_z.
  rewrite (N vx) by (intro; cbn; ring). rewrite (N vy) by (intro; cbn; ring). rewrite (N vz) by (intro; cbn; ring). rewrite !rms_opp, !mean_opp. repeat split.
Qed.
Print Assumptions C137_absolute.

(** ** Relative comparison *)
Lemma se3_inv_inv P : rigid P -> se3_inv (se3_inv P) = P.
Proof. intro H. symmetry. apply se3_inv_unique; [apply se3_inv_rigid, H|]. apply se3_inv_left, H. Qed.
Lemma pose_error_swap a b c d : rigid a -> rigid b -> rigid c -> rigid d -> pose_error c d a b = se3_inv (pose_error a b c d).
Proof.
  intros A B C D. unfold pose_error. assert (X : rigid (mul4 (se3_inv a) b)) by (apply rigid_mul; [apply se3_inv_rigid|]; assumption). assert (Y : rigid (mul4 (se3_inv c) d)) by (apply rigid_mul; [apply se3_inv_rigid|]; assumption).
  rewrite (se3_inv_mul _ _ (se3_inv_rigid _ X) Y), (se3_inv_inv _ X). reflexivity.
Qed.
Lemma translation_error_inv E : rigid E -> translation_error (se3_inv E) = translation_error E.
Proof. intros (H & _). rewrite !translation_error_norm. unfold se3_inv. cbn [tra]. rewrite vnorm_opp. apply rot_norm, is_rot_mtrans, H. Qed.
Lemma rotation_error_inv E : rotation_error (se3_inv E) = rotation_error E.
Proof. reflexivity. Qed.

Lemma get_err {A} (l : list A) z e : np_get l z = Err e -> e = IndexError.
Proof. unfold np_get. destruct (py_index _ _) as [k|]; [destruct (nth_error l k)|]; congruence. Qed.

Lemma compare_pair_swap {Q} (ops : rot_ops Q) (test ref : traj Q) ds p : rot_contract ops -> consistent test -> consistent ref ->
  compare_pair ops ref test ds p = compare_pair ops test ref ds p.
Proof.
  intros C Ct Cr. unfold compare_pair. destruct (np_get ds _) as [d1|]; cbn [bind]; [|reflexivity]. destruct (np_get ds _) as [d0|]; cbn [bind]; [|reflexivity].
  rewrite (andb_comm (has_orientation test)). destruct (has_orientation ref && has_orientation test)%bool eqn:O.
  - apply andb_true_iff in O as [Or Ot].
    destruct (np_get (se3 ops ref) (Z.of_nat (fst p))) as [ri|] eqn:E1, (np_get (se3 ops ref) (Z.of_nat (snd p))) as [rj|] eqn:E2,
      (np_get (se3 ops test) (Z.of_nat (fst p))) as [ti|] eqn:E3, (np_get (se3 ops test) (Z.of_nat (snd p))) as [tj|] eqn:E4; cbn [bind];
      repeat match goal with H : np_get _ _ = Err _ |- _ => apply get_err in H; subst end; try reflexivity.
    apply np_get_in in E1, E2, E3, E4. apply (se3_rigid ops C ref _ Cr Or) in E1, E2. apply (se3_rigid ops C test _ Ct Ot) in E3, E4.
    rewrite (pose_error_swap ri rj ti tj), rotation_error_inv, translation_error_inv by (try apply pose_error_rigid; assumption). reflexivity.
  - destruct (np_get (xyz ref) (Z.of_nat (fst p))) as [ri|] eqn:E1, (np_get (xyz ref) (Z.of_nat (snd p))) as [rj|] eqn:E2,
      (np_get (xyz test) (Z.of_nat (fst p))) as [ti|] eqn:E3, (np_get (xyz test) (Z.of_nat (snd p))) as [tj|] eqn:E4; cbn [bind];
      repeat match goal with H : np_get _ _ = Err _ |- _ => apply get_err in H; subst end; try reflexivity.
    rewrite Rabs_minus_sym. reflexivity.
Qed.

(** Over the same distances, comparing the reference with the test gives the same pairs with the same drifts of position
    and orientation, or the same exception; only the name of the result is another one. *)
Theorem C137_relative : forall (Q : Type) (ops : rot_ops Q) (test ref : traj Q) c, rot_contract ops -> consistent test -> consistent ref ->
  (pair_distance_unit c = U_METER -> arc test = arc ref) -> (pair_distance_unit c = U_SECOND -> tstamps test = tstamps ref) ->
  compare_relative ops ref test c = rmap (fun r => mkRpe (name ref ++ " vs. " ++ name test) (rpe_pairs r) (rpe_unit r)) (compare_relative ops test ref c).
Proof.
  intros Q ops test ref c C Ct Cr A T. unfold compare_relative. destruct (Rltb _ _); [reflexivity|]. destruct (EvalModel.np_arange _ _ _ _) as [pd|]; cbn [bind rmap]; [|reflexivity].
  assert (D : pair_distances test (pair_distance_unit c) = pair_distances ref (pair_distance_unit c)) by (destruct (pair_distance_unit c); try reflexivity; unfold pair_distances; f_equal; [apply A|apply T]; reflexivity).
  rewrite D. rewrite (mapM_ext_in _ (fun pair_dist => let! distances := pair_distances ref (pair_distance_unit c) in
    let! pair_indices := get_pair_indices distances (use_all_pose_pairs c) pair_dist in let! entries := mapM (compare_pair ops test ref distances) pair_indices in Ok (pair_dist, entries))).
  2:{ intros x _. destruct (pair_distances ref _) as [ds|]; cbn [bind]; [|reflexivity]. destruct (get_pair_indices ds _ x) as [pi|]; cbn [bind]; [|reflexivity].
      rewrite (mapM_ext_in (compare_pair ops ref test ds) (compare_pair ops test ref ds)) by (intros p _; apply compare_pair_swap; assumption). reflexivity. }
  destruct (mapM _ pd) as [bl|]; cbn [bind rmap]; [|reflexivity]. destruct (forallb _ bl); reflexivity.
Qed.
Print Assumptions C137_relative.

Example C137_case : consistent duo /\ consistent straight /\ tlen duo = tlen straight /\ rot_contract rot_impl /\ arc duo = arc straight /\ tstamps duo = tstamps straight.
Proof. split; [exact duo_consistent|]. split; [repeat split|]. split; [reflexivity|]. split; [exact rot_impl_contract|]. split; reflexivity. Qed.

(** * C138 *)
Lemma index_parts {Q} (t t' : traj Q) ix : apply_index t ix = Ok t' ->
  np_index (xyz t) ix = Ok (xyz t') /\ match rot t, rot t' with Some q, Some q' => np_index q ix = Ok q' | None, None => True | _, _ => False end.
Proof.
  unfold apply_index. intro H. apply bind_ok in H as [ts [_ H]]. apply bind_ok in H as [ps [P H]]. apply bind_ok in H as [q [E H]]. apply bind_ok in H as [al [_ H]]. apply bind_ok in H as [sp [_ H]].
  injection H as <-. cbn. split; [exact P|]. destruct (rot t) as [r|]; cbn in E.
  - destruct (np_index r ix); [|discriminate]. injection E as <-. reflexivity.
  - injection E as <-. exact I.
Qed.
Lemma np_index_zip {A B C} (f : A -> B -> C) (l : list A) (m : list B) ix l' m' : length l = length m -> np_index l ix = Ok l' -> np_index m ix = Ok m' ->
  np_index (map (fun ab => f (fst ab) (snd ab)) (combine l m)) ix = Ok (map (fun ab => f (fst ab) (snd ab)) (combine l' m')).
Proof. intros L H K. rewrite np_index_map, (np_index_combine l m ix l' m' L H K). reflexivity. Qed.
Lemma zip_by_nth {A B C} (f : A -> B -> C) (l : list A) (m : list B) (z : list C) : length l = length m -> length z = length l ->
  (forall i a b, nth_error l i = Some a -> nth_error m i = Some b -> nth_error z i = Some (f a b)) -> z = map (fun ab => f (fst ab) (snd ab)) (combine l m).
Proof.
  intros L Lz H. apply nth_error_ext_len; [rewrite map_length, combine_length; lia|]. intros i I. rewrite map_length, combine_length in I.
  destruct (nth_error_lt_Some l i ltac:(lia)) as [a A0]. destruct (nth_error_lt_Some m i ltac:(lia)) as [b B0]. rewrite (H i a b A0 B0), nth_error_map', (nth_error_combine_some l m i a b A0 B0). reflexivity.
Qed.

Lemma nth_combine_inv {A B} (l : list A) (m : list B) i a b : nth_error (combine l m) i = Some (a, b) -> nth_error l i = Some a /\ nth_error m i = Some b.
Proof. rewrite nth_error_combine. destruct (nth_error l i), (nth_error m i); intro H; try discriminate. injection H as <- <-. auto. Qed.

(** Comparing selected poses gives the deviations of the selected poses, for every selection. *)
Theorem C138_selected : forall (Q : Type) (ops : rot_ops Q) (test ref test' ref' : traj Q) ix, consistent test -> consistent ref -> tlen test = tlen ref ->
  apply_index test ix = Ok test' -> apply_index ref ix = Ok ref' ->
  exists r r', compare_absolute ops test ref = Ok r /\ compare_absolute ops test' ref' = Ok r' /\
    np_index (pos_dev r) ix = Ok (pos_dev r') /\
    (rot ref <> None \/ rot test <> None -> np_index (directed_pos_dev r) ix = Ok (directed_pos_dev r')) /\
    match rot_dev r, rot_dev r' with Some d, Some d' => np_index d ix = Ok d' | None, None => True | _, _ => False end.
Proof.
  intros Q ops test ref test' ref' ix Ct Cr L It Ir. destruct (apply_index_ok test ix test' Ct It) as (Ct' & _ & _). destruct (apply_index_ok ref ix ref' Cr Ir) as (Cr' & _ & _).
  destruct (index_parts _ _ _ It) as [Xt Rt]. destruct (index_parts _ _ _ Ir) as [Xr Rr].
  assert (L' : tlen test' = tlen ref').
  { unfold tlen in *. assert (K := np_index_combine (xyz ref) (xyz test) ix _ _ (eq_sym L) Xr Xt). assert (N := np_index_map fst (combine (xyz ref) (xyz test)) ix). assert (M := np_index_map snd (combine (xyz ref) (xyz test)) ix).
    rewrite map_fst_combine, Xr, K in N by lia. assert (SC : forall A B (l : list A) (m : list B), length l = length m -> map snd (combine l m) = m) by (intros A B l; induction l as [|a l IH]; intros [|b m] E; cbn in *; try discriminate; [reflexivity|]; rewrite IH by lia; reflexivity).
    rewrite SC, Xt, K in M by lia. cbn in N, M. injection N as N. injection M as M. apply (f_equal (@length _)) in N, M. rewrite !map_length in N, M. lia. }
  destruct (compare_absolute_ok ops test ref Ct Cr L) as (r & E & _ & _ & L1 & L2 & H1 & H2 & _ & H3). destruct (compare_absolute_ok ops test' ref' Ct' Cr' L') as (r' & E' & _ & _ & L1' & L2' & H1' & H2' & _ & H3').
  exists r, r'. split; [exact E|]. split; [exact E'|]. unfold tlen in *. split; [|split].
  - rewrite (zip_by_nth vsub (xyz ref) (xyz test) (pos_dev r)) by (assumption || lia). rewrite (zip_by_nth vsub (xyz ref') (xyz test') (pos_dev r')) by (assumption || lia). apply np_index_zip; [lia|assumption..].
  - intro NR. assert (Q0 : exists q q', either_rot (rot ref) (rot test) = Some q /\ either_rot (rot ref') (rot test') = Some q' /\ np_index q ix = Ok q' /\ length q = length (xyz ref) /\ length q' = length (xyz ref')).
    { destruct Cr as (_ & Cr & _). destruct Ct as (_ & Ct & _). destruct Cr' as (_ & Cr' & _). destruct Ct' as (_ & Ct' & _).
      destruct (rot ref) as [q|], (rot ref') as [q'|]; try contradiction.
      - exists q, q'. auto 6.
      - destruct (rot test) as [p|], (rot test') as [p'|]; try contradiction; [exists p, p'; repeat split; auto; unfold tlen in *; congruence|]. destruct NR; congruence. }
    destruct Q0 as (q & q' & Eq & Eq' & Iq & Lq & Lq').
    rewrite (zip_by_nth (fun ab m => vmul (vsub (snd ab) (fst ab)) (as_matrix ops m)) (combine (xyz ref) (xyz test)) q (directed_pos_dev r)); [|rewrite combine_length; lia|rewrite combine_length; lia|].
    + rewrite (zip_by_nth (fun ab m => vmul (vsub (snd ab) (fst ab)) (as_matrix ops m)) (combine (xyz ref') (xyz test')) q' (directed_pos_dev r')); [|rewrite combine_length; lia|rewrite combine_length; lia|].
      * apply (np_index_zip (fun ab m => vmul (vsub (snd ab) (fst ab)) (as_matrix ops m))); [rewrite combine_length; lia|apply np_index_combine; [lia|assumption..]|exact Iq].
      * intros i [a b] m A M. apply nth_combine_inv in A as [A B]. exact (H2' q' i a b m Eq' A B M).
    + intros i [a b] m A M. apply nth_combine_inv in A as [A B]. exact (H2 q i a b m Eq A B M).
  - destruct Cr as (_ & Cr & _). destruct Ct as (_ & Ct & _). destruct Cr' as (_ & Cr' & _). destruct Ct' as (_ & Ct' & _).
    destruct (rot ref) as [q|], (rot ref') as [q'|]; try contradiction; [|rewrite H3, H3'; exact I].
    destruct (rot test) as [p|], (rot test') as [p'|]; try contradiction; [|rewrite H3, H3'; exact I].
    destruct H3 as (d & -> & Ld & D). destruct H3' as (d' & -> & Ld' & D'). unfold tlen in *.
    rewrite (zip_by_nth (rot_sub ops) q p d) by (assumption || lia). rewrite (zip_by_nth (rot_sub ops) q' p' d') by (assumption || lia). apply np_index_zip; [lia|assumption..].
Qed.
Print Assumptions C138_selected.

(** ** Statistics of rearranged deviations *)
Lemma sum_rearranged a b : Permutation a b -> np_sum a = np_sum b.
Proof. unfold np_sum. induction 1; cbn; [reflexivity|lra|lra|lra]. Qed.

Section Stats.
  Variables l l' : list R.
  Hypothesis P : Permutation l' l.
  Lemma perm_sum : np_sum l' = np_sum l.
  Proof. apply sum_rearranged, P. Qed.
  Lemma perm_mean : np_mean l' = np_mean l.
  Proof.
    assert (L := Permutation_length P). destruct l as [|x m], l' as [|y m']; try discriminate; [reflexivity|]. unfold np_mean. rewrite L. do 2 f_equal. apply sum_rearranged, P.
  Qed.
  Lemma perm_median : np_median l' = np_median l.
  Proof. unfold np_median. rewrite (np_sort_perm_eq _ _ P), (Permutation_length P). reflexivity. Qed.
  Lemma perm_max : np_max l' = np_max l.
  Proof.
    destruct l as [|x m] eqn:E; [apply Permutation_sym, Permutation_nil in P; rewrite P; reflexivity|]. assert (N' : l' <> []) by (intro Z; rewrite Z in P; apply Permutation_nil in P; discriminate).
    destruct (np_max_spec (x :: m) ltac:(discriminate)) as (a & -> & A1 & A2). destruct (np_max_spec l' N') as (b & -> & B1 & B2). f_equal. apply Rle_antisym.
    - apply A2, (Permutation_in _ P), B1.
    - apply B2, (Permutation_in _ (Permutation_sym P)), A1.
  Qed.
  Lemma perm_min : np_min l' = np_min l.
  Proof.
    destruct l as [|x m] eqn:E; [apply Permutation_sym, Permutation_nil in P; rewrite P; reflexivity|]. assert (N' : l' <> []) by (intro Z; rewrite Z in P; apply Permutation_nil in P; discriminate).
    destruct (np_min_spec (x :: m) ltac:(discriminate)) as (a & -> & A1 & A2). destruct (np_min_spec l' N') as (b & -> & B1 & B2). f_equal. apply Rle_antisym.
    - apply B2, (Permutation_in _ (Permutation_sym P)), A1.
    - apply A2, (Permutation_in _ P), B1.
  Qed.
End Stats.
Lemma perm_rms l l' : Permutation l' l -> rms l' = rms l.
Proof. intro P. unfold rms. f_equal. apply perm_mean, Permutation_map, P. Qed.
Lemma perm_std l l' : Permutation l' l -> np_std l' = np_std l.
Proof. intro P. unfold np_std. rewrite (perm_mean _ _ P). destruct (np_mean l); [|reflexivity]. f_equal. apply perm_mean, Permutation_map, P. Qed.

(** Taking the poses of both trajectories in another order changes no statistic: neither of the position error, nor of its
    components, nor, with orientations, of the directed components and of the angles. *)
Theorem C138_order : forall (Q : Type) (ops : rot_ops Q) rv (test ref test' ref' : traj Q) idx, consistent test -> consistent ref -> tlen test = tlen ref ->
  Permutation idx (seq 0 (tlen ref)) -> apply_index test (IInt (map Z.of_nat idx)) = Ok test' -> apply_index ref (IInt (map Z.of_nat idx)) = Ok ref' ->
  exists r r', compare_absolute ops test ref = Ok r /\ compare_absolute ops test' ref' = Ok r' /\ Permutation (pos_dev r') (pos_dev r) /\
    (pos_ate r' = pos_ate r /\ pos_dev_rms r' = pos_dev_rms r /\ pos_dev_std r' = pos_dev_std r /\ pos_dev_median r' = pos_dev_median r /\
     pos_dev_min r' = pos_dev_min r /\ pos_dev_max r' = pos_dev_max r) /\
    (pos_rms_x r' = pos_rms_x r /\ pos_rms_y r' = pos_rms_y r /\ pos_rms_z r' = pos_rms_z r /\
     pos_bias_x r' = pos_bias_x r /\ pos_bias_y r' = pos_bias_y r /\ pos_bias_z r' = pos_bias_z r) /\
    (rot ref <> None \/ rot test <> None ->
     pos_rms_along r' = pos_rms_along r /\ pos_rms_cross_h r' = pos_rms_cross_h r /\ pos_rms_cross_v r' = pos_rms_cross_v r) /\
    (rot_ate rv r' = rot_ate rv r /\ rot_dev_rms rv r' = rot_dev_rms rv r /\ rot_dev_std rv r' = rot_dev_std rv r /\
     rot_dev_median rv r' = rot_dev_median rv r /\ rot_dev_min rv r' = rot_dev_min rv r /\ rot_dev_max rv r' = rot_dev_max rv r).
Proof.
  intros Q ops rv test ref test' ref' idx Ct Cr L PI It Ir. destruct (C138_selected Q ops test ref test' ref' _ Ct Cr L It Ir) as (r & r' & E & E' & D & DD & RD).
  destruct (compare_absolute_ok ops test ref Ct Cr L) as (r0 & E0 & _ & _ & L1 & L2 & _ & _ & _ & H3). rewrite E in E0. injection E0 as <-.
  exists r, r'. split; [exact E|]. split; [exact E'|].
  assert (TP : forall A (l l' : list A), length l = tlen ref -> np_index l (IInt (map Z.of_nat idx)) = Ok l' -> Permutation l' l).
  { intros A l l' Ll Hl. destruct (np_take_perm l idx) as (x & X & PX & _); [rewrite Ll; exact PI|]. cbn [np_index] in Hl. rewrite X in Hl. injection Hl as <-. exact PX. }
  assert (P := TP _ _ _ L1 D). split; [exact P|]. assert (PC : Permutation (pos_dev_comb r') (pos_dev_comb r)) by (apply Permutation_map, P).
  split. { unfold pos_ate, pos_dev_rms, pos_dev_std, pos_dev_median, pos_dev_min, pos_dev_max. repeat split; [apply perm_mean|apply perm_rms|apply perm_std|apply perm_median|apply perm_min|apply perm_max]; exact PC. }
  split. { unfold pos_rms_x, pos_rms_y, pos_rms_z, pos_bias_x, pos_bias_y, pos_bias_z. repeat split; (apply perm_rms || apply perm_mean); apply Permutation_map, P. }
  split. { intro NR. assert (PD := TP _ _ _ L2 (DD NR)). unfold pos_rms_along, pos_rms_cross_h, pos_rms_cross_v. repeat split; apply perm_rms, Permutation_map, PD. }
  assert (PA : Permutation (flatten (rot_dev_comb rv r')) (flatten (rot_dev_comb rv r))).
  { unfold rot_dev_comb. destruct (rot_dev r) as [d|] eqn:Ed, (rot_dev r') as [d'|]; try contradiction.
    - apply Permutation_map. apply TP; [|exact RD]. destruct (rot ref); [destruct (rot test)|]; try congruence. destruct H3 as (d0 & X & Y & _). congruence.
    - cbn [flatten]. apply Permutation_flat_map, Permutation_map, P. }
  unfold rot_ate, rot_dev_rms, rot_dev_std, rot_dev_median, rot_dev_min, rot_dev_max. destruct (rot_dev r), (rot_dev r'); try contradiction;
    repeat split; (apply perm_mean || apply perm_rms || apply perm_std || apply perm_median || apply perm_min || apply perm_max); exact PA.
Qed.
Print Assumptions C138_order.

(** Without orientations the directed components are taken along the way to the next pose; they are not covered here. *)
Example C138_case : consistent duo /\ consistent straight /\ tlen duo = tlen straight /\ Permutation [1; 0]%nat (seq 0 (tlen straight)) /\
  (exists t, apply_index duo (IInt (map Z.of_nat [1; 0]%nat)) = Ok t) /\ (exists t, apply_index straight (IInt (map Z.of_nat [1; 0]%nat)) = Ok t).
Proof. split; [exact duo_consistent|]. split; [repeat split|]. split; [reflexivity|]. split; [apply perm_swap|]. split; eexists; reflexivity. Qed.
