(** C115: biases of an absolute comparison. *)
From Verif Require Import Base BaseFacts VecFacts NumpyModel NumpyFacts TrajModel TrajSpec GeomModel GeomSpec GeomFacts GeomFacts2 GeomProps MatchFacts2 EvalModel EvalSpec EvalStats EvalFacts EvalFacts3 EvalFacts4 BiasModel.

Lemma mean_map {A} (f : A -> R) l : l <> [] -> np_mean (map f l) = Some (np_sum (map f l) / INR (length l)).
Proof. destruct l; [congruence|]. intros _. unfold np_mean. cbn [map]. rewrite <- map_cons, map_length. reflexivity. Qed.

Lemma len_pos {A} (l : list A) : l <> [] -> 0 < INR (length l).
Proof. destruct l; [congruence|]. intros _. apply lt_0_INR. cbn. lia. Qed.

Lemma mean_shift {A} (f : A -> R) c l m : l <> [] -> np_mean (map f l) = Some m -> np_mean (map (fun x => f x - c) l) = Some (m - c).
Proof.
  intros N. rewrite !mean_map by exact N. intros E. injection E as <-. f_equal. rewrite (np_sum_ext (fun x => f x - c) (fun x => f x + -1 * c) l) by (intros; ring). rewrite np_sum_plus, np_sum_const. field. apply Rgt_not_eq, len_pos, N.
Qed.

Lemma mean_norm (l : list V3) x y z m : l <> [] -> np_mean (map vx l) = Some x -> np_mean (map vy l) = Some y -> np_mean (map vz l) = Some z -> np_mean (map vnorm l) = Some m -> vnorm (mkV3 x y z) <= m.
Proof.
  intros N. rewrite !mean_map by exact N. intros X Y Z M. injection X as <-. injection Y as <-. injection Z as <-. injection M as <-. assert (P := len_pos l N). set (n := INR (length l)) in *.
  replace (mkV3 _ _ _) with (vscale (/ n) (mkV3 (np_sum (map vx l)) (np_sum (map vy l)) (np_sum (map vz l)))) by (unfold vscale; cbn; f_equal; field; lra).
  rewrite vnorm_scale, Rabs_right by (apply Rle_ge, Rlt_le, Rinv_0_lt_compat, P). unfold Rdiv. rewrite Rmult_comm. apply Rmult_le_compat_r; [apply Rlt_le, Rinv_0_lt_compat, P|].
  clear. induction l as [|v l IH]; [cbn; replace (mkV3 0 0 0) with vzero by reflexivity; rewrite (proj2 (vnorm_zero_iff vzero) eq_refl); lra|].
  cbn [map]. rewrite !EvalStats.np_sum_cons. replace (mkV3 _ _ _) with (vadd v (mkV3 (np_sum (map vx l)) (np_sum (map vy l)) (np_sum (map vz l)))) by (unfold vadd; reflexivity). assert (T := vnorm_triangle v (mkV3 (np_sum (map vx l)) (np_sum (map vy l)) (np_sum (map vz l)))). lra.
Qed.

(** The X, Y and Z biases are the components of the mean of reference minus test.  They are never longer than the absolute error.  Moving the test by [s]
    moves the bias by [- s], and the squared error is that of the bias plus a part no movement changes. *)
Theorem C115 : forall Q (ops : rot_ops Q) (test ref : traj Q), consistent test -> consistent ref -> tlen test = tlen ref -> (0 < tlen ref)%nat ->
  exists r bx b_y bz m q, compare_absolute ops test ref = Ok r /\ pos_bias_x r = Some bx /\ pos_bias_y r = Some b_y /\ pos_bias_z r = Some bz /\ pos_ate r = Some m /\ pos_dev_rms r = Some q /\
    bx * INR (tlen ref) = np_sum (map vx (xyz ref)) - np_sum (map vx (xyz test)) /\
    b_y * INR (tlen ref) = np_sum (map vy (xyz ref)) - np_sum (map vy (xyz test)) /\
    bz * INR (tlen ref) = np_sum (map vz (xyz ref)) - np_sum (map vz (xyz test)) /\
    vnorm (mkV3 bx b_y bz) <= m /\
    forall test' s, consistent test' -> xyz test' = map (fun p => vadd p s) (xyz test) ->
      exists r' q', compare_absolute ops test' ref = Ok r' /\ pos_bias_x r' = Some (bx - vx s) /\ pos_bias_y r' = Some (b_y - vy s) /\ pos_bias_z r' = Some (bz - vz s) /\
        pos_dev_rms r' = Some q' /\ q' * q' = q * q - vdot (mkV3 bx b_y bz) (mkV3 bx b_y bz) + vdot (vsub (mkV3 bx b_y bz) s) (vsub (mkV3 bx b_y bz) s).
Proof.
  intros Q ops test ref Ct Cr L P. destruct (compare_absolute_ok ops test ref Ct Cr L) as (r & E & _ & _ & Lr & _ & H1 & _). set (n := INR (tlen ref)).
  assert (N : pos_dev r <> []) by (intro Z; rewrite Z in Lr; cbn in Lr; lia). assert (Pn : 0 < n) by (apply lt_0_INR, P).
  assert (D : pos_dev r = map (fun ab => vsub (fst ab) (snd ab)) (combine (xyz ref) (xyz test))).
  { apply nth_error_ext. intros i. destruct (nth_error (xyz ref) i) as [a|] eqn:A.
    - assert (I := nth_error_Some_lt _ _ _ A). destruct (nth_error_lt_Some (xyz test) i) as (b & B); [unfold tlen in L; lia|]. rewrite (H1 i a b A B), nth_error_map', (nth_error_combine_some _ _ i a b A B). reflexivity.
    - apply nth_error_None in A. rewrite (proj2 (nth_error_None _ _)) by (rewrite Lr; exact A). symmetry. apply nth_error_None. rewrite map_length, combine_length. lia. }
  assert (SS : forall f : V3 -> R, (forall a b, f (vsub a b) = f a - f b) -> np_sum (map f (pos_dev r)) = np_sum (map f (xyz ref)) - np_sum (map f (xyz test))).
  { intros f F. rewrite D, map_map. unfold tlen in L. clear - F L. revert L. generalize (xyz ref) as a, (xyz test) as b. induction a as [|x a IH]; intros [|y b] L; try discriminate; [cbn; ring|]. injection L as L. cbn [combine map]. rewrite !EvalStats.np_sum_cons. cbn [fst snd]. rewrite F, (IH b L). ring. }
  assert (B : forall f : V3 -> R, np_mean (map f (pos_dev r)) = Some (np_sum (map f (pos_dev r)) / n)) by (intros f; rewrite (mean_map f _ N), Lr; reflexivity).
  destruct (rms_components (pos_dev r) N) as (q0 & _). clear q0.
  set (bx := np_sum (map vx (pos_dev r)) / n). set (b_y := np_sum (map vy (pos_dev r)) / n). set (bz := np_sum (map vz (pos_dev r)) / n).
  assert (RMS : forall l : list V3, l <> [] -> rms (map vnorm l) = Some (sqrt (np_sum (map (fun v => vdot v v) l) / INR (length l)))).
  { intros l Nl. unfold rms. rewrite map_map, (mean_map _ l Nl). cbn. do 3 f_equal. apply np_sum_ext. intros v _. unfold vnorm. rewrite sqrt_sqrt; [reflexivity|]. unfold vdot. nra. }
  assert (NN : forall l : list V3, l <> [] -> 0 <= np_sum (map (fun v => vdot v v) l) / INR (length l)).
  { intros l Nl. apply Rmult_le_pos; [|apply Rlt_le, Rinv_0_lt_compat, len_pos, Nl]. apply np_sum_nonneg. intros y I. apply in_map_iff in I as (v & <- & _). unfold vdot. nra. }
  exists r, bx, b_y, bz, (np_sum (map vnorm (pos_dev r)) / n), (sqrt (np_sum (map (fun v => vdot v v) (pos_dev r)) / n)).
  split; [exact E|]. split; [apply B|]. split; [apply B|]. split; [apply B|]. split; [apply B|]. split; [unfold pos_dev_rms, pos_dev_comb; rewrite (RMS _ N), Lr; reflexivity|].
  split; [unfold bx; rewrite <- SS by reflexivity; field; lra|]. split; [unfold b_y; rewrite <- SS by reflexivity; field; lra|]. split; [unfold bz; rewrite <- SS by reflexivity; field; lra|].
  split; [apply (mean_norm (pos_dev r) bx b_y bz _ N); apply B|].
  intros test' s Ct' X'. assert (L' : tlen test' = tlen ref) by (unfold tlen in *; rewrite X', map_length; exact L). destruct (compare_absolute_ok ops test' ref Ct' Cr L') as (r' & E' & _ & _ & Lr' & _ & H1' & _).
  assert (D' : pos_dev r' = map (fun v => vsub v s) (pos_dev r)).
  { apply nth_error_ext. intros i. rewrite nth_error_map'. destruct (nth_error (xyz ref) i) as [a|] eqn:A.
    - assert (I := nth_error_Some_lt _ _ _ A). destruct (nth_error_lt_Some (xyz test) i) as (b & Bt); [unfold tlen in L; lia|]. rewrite (H1 i a b A Bt). rewrite (H1' i a (vadd b s) A) by (rewrite X', nth_error_map', Bt; reflexivity). cbv beta iota. apply (f_equal Some). unfold vsub, vadd. cbn [vx vy vz]. f_equal; ring.
    - apply nth_error_None in A. rewrite !(proj2 (nth_error_None _ _)); [reflexivity|rewrite Lr; exact A|rewrite Lr'; exact A]. }
  assert (N' : pos_dev r' <> []) by (rewrite D'; apply map_nonempty, N).
  exists r', (sqrt (np_sum (map (fun v => vdot v v) (pos_dev r')) / n)). split; [exact E'|]. unfold pos_bias_x, pos_bias_y, pos_bias_z. rewrite D', !map_map.
  split; [exact (mean_shift vx (vx s) _ bx N (B vx))|]. split; [exact (mean_shift vy (vy s) _ b_y N (B vy))|]. split; [exact (mean_shift vz (vz s) _ bz N (B vz))|].
  split; [unfold pos_dev_rms, pos_dev_comb; rewrite (RMS _ N'), Lr', D', map_map; reflexivity|].
  assert (Q0 := NN (pos_dev r) N). assert (Q1 := NN (pos_dev r') N'). rewrite Lr in Q0. rewrite Lr', D', map_map in Q1. fold n in Q0, Q1. rewrite !sqrt_sqrt by assumption.
  rewrite (np_sum_ext (fun x => vdot (vsub x s) (vsub x s)) (fun x => vdot x x + ((-2 * vx s) * vx x + ((-2 * vy s) * vy x + ((-2 * vz s) * vz x + vdot s s)))) (pos_dev r)) by (intros v _; unfold vdot, vsub; cbn [vx vy vz]; ring).
  rewrite !np_sum_plus, !np_sum_scale, np_sum_const, Lr. fold n. unfold bx, b_y, bz. destruct s as [sx sy sz]. set (D2 := np_sum (map (fun x => vdot x x) (pos_dev r))). set (SX := np_sum (map vx (pos_dev r))). set (SY := np_sum (map vy (pos_dev r))). set (SZ := np_sum (map vz (pos_dev r))). unfold vdot, vsub. cbn [vx vy vz]. clearbody D2 SX SY SZ n. field. lra.
Qed.
Print Assumptions C115.

(** So no movement of the test gives a smaller squared error than the one that removes the bias. *)
Theorem C115_best : forall Q (ops : rot_ops Q) (test best other ref : traj Q) r bx b_y bz s, consistent test -> consistent best -> consistent other -> consistent ref -> tlen test = tlen ref -> (0 < tlen ref)%nat ->
  compare_absolute ops test ref = Ok r -> pos_bias_x r = Some bx -> pos_bias_y r = Some b_y -> pos_bias_z r = Some bz ->
  xyz best = map (fun p => vadd p (mkV3 bx b_y bz)) (xyz test) -> xyz other = map (fun p => vadd p s) (xyz test) ->
  exists r' r'' q' q'', compare_absolute ops best ref = Ok r' /\ compare_absolute ops other ref = Ok r'' /\ pos_bias_x r' = Some 0 /\ pos_bias_y r' = Some 0 /\ pos_bias_z r' = Some 0 /\
    pos_dev_rms r' = Some q' /\ pos_dev_rms r'' = Some q'' /\ q' <= q'' /\ ((q' = q'') <-> (s = mkV3 bx b_y bz)).
Proof.
  intros Q ops test best other ref r bx b_y bz s Ct Cb Co Cr L P E X Y Z Hb Ho. destruct (C115 Q ops test ref Ct Cr L P) as (r0 & x & y & z & m & q & E0 & X0 & Y0 & Z0 & _ & _ & _ & _ & _ & _ & H).
  rewrite E in E0. injection E0 as <-. rewrite X in X0. injection X0 as <-. rewrite Y in Y0. injection Y0 as <-. rewrite Z in Z0. injection Z0 as <-. set (b := mkV3 bx b_y bz) in *.
  destruct (H best b Cb Hb) as (r' & q' & E' & X' & Y' & Z' & Q' & S'), (H other s Co Ho) as (r'' & q'' & E'' & _ & _ & _ & Q'' & S''). exists r', r'', q', q''.
  split; [exact E'|]. split; [exact E''|]. split; [rewrite X'; f_equal; unfold b; cbn; ring|]. split; [rewrite Y'; f_equal; unfold b; cbn; ring|]. split; [rewrite Z'; f_equal; unfold b; cbn; ring|]. split; [exact Q'|]. split; [exact Q''|].
  assert (P' : forall (r : ate_result Q) v, pos_dev_rms r = Some v -> 0 <= v). { intros r1 v V. unfold pos_dev_rms, rms in V. destruct (np_mean _); [|discriminate]. injection V as <-. apply sqrt_pos. }
  assert (P1 := P' _ _ Q'). assert (P2 := P' _ _ Q'').
  replace (vdot (vsub b b) (vsub b b)) with 0 in S' by (unfold vdot, vsub; cbn [vx vy vz]; ring). assert (D : 0 <= vdot (vsub b s) (vsub b s)) by (unfold vdot; nra).
  assert (Le : q' * q' <= q'' * q'') by lra. split; [destruct (Rle_lt_dec q' q'') as [K|K]; [exact K|exfalso; nra]|].
  split; [intros <-|intros ->; apply Rsqr_inj; [exact P1|exact P2|]; unfold Rsqr; rewrite S', S''; unfold vdot, vsub; cbn [vx vy vz]; ring].
  assert (D0 : vdot (vsub b s) (vsub b s) = 0) by lra. unfold vdot, vsub, b in D0. cbn [vx vy vz] in D0. destruct s as [s1 s2 s3]. cbn [vx vy vz] in D0.
  assert (S1 := Rle_0_sqr (bx - s1)). assert (S2 := Rle_0_sqr (b_y - s2)). assert (S3 := Rle_0_sqr (bz - s3)). unfold Rsqr in S1, S2, S3.
  assert (A1 : bx - s1 = 0) by (apply Rsqr_0_uniq; unfold Rsqr; lra). assert (A2 : b_y - s2 = 0) by (apply Rsqr_0_uniq; unfold Rsqr; lra). assert (A3 : bz - s3 = 0) by (apply Rsqr_0_uniq; unfold Rsqr; lra). unfold b. f_equal; lra.
Qed.
Print Assumptions C115_best.

(** With orientations the biases in the directions of the track describe test minus reference, in the frame of the reference: a test that is displaced by the
    same [s] in the frame of every reference pose has the bias [s]. *)
Theorem C115_directed : forall Q (ops : rot_ops Q) (test ref : traj Q) q s, rot_contract ops -> consistent test -> consistent ref -> tlen test = tlen ref -> (0 < tlen ref)%nat -> rot ref = Some q ->
  (forall i a b m, nth_error (xyz ref) i = Some a -> nth_error (xyz test) i = Some b -> nth_error q i = Some m -> b = vadd a (mapply (as_matrix ops m) s)) ->
  exists r, compare_absolute ops test ref = Ok r /\ pos_bias_along r = Some (vx s) /\ pos_bias_cross_h r = Some (vy s) /\ pos_bias_cross_v r = Some (vz s) /\ pos_rms_along r = Some (Rabs (vx s)) /\ pos_rms_cross_h r = Some (Rabs (vy s)) /\ pos_rms_cross_v r = Some (Rabs (vz s)) /\ pos_ate r = Some (vnorm s).
Proof.
  intros Q ops test ref q s C Ct Cr L P Hr H. destruct (compare_absolute_ok ops test ref Ct Cr L) as (r & E & _ & _ & Lr & Ld & H1 & H2 & _). exists r. split; [exact E|].
  assert (Lq : length q = tlen ref) by (destruct Cr as (_ & Cq & _); rewrite Hr in Cq; exact Cq).
  assert (K : forall i, (i < tlen ref)%nat -> nth_error (directed_pos_dev r) i = Some s /\ exists v, nth_error (pos_dev r) i = Some v /\ vnorm v = vnorm s).
  { intros i I. destruct (nth_error_lt_Some (xyz ref) i I) as (a & A), (nth_error_lt_Some (xyz test) i) as (b & B), (nth_error_lt_Some q i) as (m & M); try (unfold tlen in *; lia).
    assert (HB := H i a b m A B M). assert (O := rc_rot ops C m). destruct (O) as [OT _]. split.
    - rewrite (H2 q i a b m ltac:(rewrite Hr; reflexivity) A B M). f_equal. subst b. replace (vsub (vadd a (mapply (as_matrix ops m) s)) a) with (mapply (as_matrix ops m) s) by (unfold vsub, vadd; destruct (mapply _ _) as [x1 x2 x3]; cbn [vx vy vz]; f_equal; ring).
      rewrite vmul_mapply, <- mapply_mmul, OT. apply mapply_ident.
    - exists (vsub a b). split; [exact (H1 i a b A B)|]. subst b. replace (vsub a (vadd a (mapply (as_matrix ops m) s))) with (vscale (-1) (mapply (as_matrix ops m) s)) by (unfold vsub, vadd, vscale; destruct (mapply _ _) as [x1 x2 x3]; cbn [vx vy vz]; f_equal; ring).
      rewrite vnorm_scale, (rot_norm _ _ O), Rabs_left by lra. ring. }
  assert (N : pos_dev r <> []) by (intro Z; rewrite Z in Lr; cbn in Lr; lia). assert (Nd : directed_pos_dev r <> []) by (intro Z; rewrite Z in Ld; cbn in Ld; lia).
  assert (AD : forall v, In v (directed_pos_dev r) -> v = s). { intros v I. apply In_nth_error in I as (i & Hi). assert (J := nth_error_Some_lt _ _ _ Hi). destruct (K i ltac:(lia)) as [A _]. congruence. }
  assert (AP : forall v, In v (pos_dev r) -> vnorm v = vnorm s). { intros v I. apply In_nth_error in I as (i & Hi). assert (J := nth_error_Some_lt _ _ _ Hi). destruct (K i ltac:(lia)) as (_ & w & A & B). congruence. }
  assert (ME : forall (f : V3 -> R) (l : list V3) c, l <> [] -> (forall v, In v l -> f v = c) -> np_mean (map f l) = Some c).
  { intros f l c Nl F. rewrite (mean_map f l Nl), (np_sum_ext f (fun _ => c) l F), np_sum_const. f_equal. field. apply Rgt_not_eq, len_pos, Nl. }
  assert (RE : forall (f : V3 -> R) (l : list V3) c, l <> [] -> (forall v, In v l -> f v = c) -> rms (map f l) = Some (Rabs c)).
  { intros f l c Nl F. unfold rms. rewrite map_map, (ME (fun v => f v * f v) l (c * c) Nl) by (intros v I; rewrite (F v I); reflexivity). cbn. f_equal. apply sqrt_Rsqr_abs. }
  repeat split; try (apply ME; [assumption|]; intros v I; rewrite (AD v I); reflexivity); try (apply RE; [assumption|]; intros v I; rewrite (AD v I); reflexivity).
  apply ME; assumption.
Qed.
Print Assumptions C115_directed.

Example C115_case : consistent duo /\ consistent duo_plain /\ tlen duo = tlen duo_plain /\ (0 < tlen duo)%nat /\ rot duo <> None.
Proof. split; [exact duo_consistent|]. split; [exact duo_plain_consistent|]. split; [reflexivity|]. split; [cbn; lia|discriminate]. Qed.
