(** Proofs about the closed-form similarity. *)
From Verif Require Import Base BaseFacts VecFacts NumpyModel TrajModel GeomModel GeomSpec GeomFacts LsqModel LsqSpec DirectModel DirectSpec.

(** ** Orthogonal matrices *)
Lemma mdet_sq m : orthogonal m -> mdet m * mdet m = 1.
Proof.
  intro O. unfold orthogonal in O. apply (f_equal mdet) in O. rewrite mdet_mmul, mdet_mtrans in O. rewrite O. munf. ring.
Qed.
Lemma orth_right m : orthogonal m -> mmul m (mtrans m) = mident.
Proof.
  intro O. pose proof (mdet_sq m O) as D.
  assert (mtrans m = mscale (mdet m) (madj m)) as E.
  { rewrite <- (mmul_ident_r (mtrans m)). assert (mscale (mdet m) (mmul m (madj m)) = mident) as <-.
    { rewrite madj_r. revert D. generalize (mdet m). intros d D. munf. apply M3_eq; apply V3_eq; cbn; nra. }
    assert (mscale (mdet m) (mmul m (madj m)) = mmul m (mscale (mdet m) (madj m))) as ->.
    { generalize (mdet m), (madj m). intros. m3; ring. }
    rewrite <- mmul_assoc. unfold orthogonal in O. rewrite O. apply mmul_ident_l. }
  rewrite E. assert (mmul m (mscale (mdet m) (madj m)) = mscale (mdet m) (mmul m (madj m))) as -> by (generalize (mdet m), (madj m); intros; m3; ring).
  rewrite madj_r. revert D. generalize (mdet m). intros d D. munf. apply M3_eq; apply V3_eq; cbn; nra.
Qed.
Lemma orth_trans m : orthogonal m -> orthogonal (mtrans m).
Proof. intro O. unfold orthogonal. rewrite mtrans_invol. apply orth_right, O. Qed.
Lemma orth_mmul a b : orthogonal a -> orthogonal b -> orthogonal (mmul a b).
Proof.
  unfold orthogonal. intros A B. rewrite mtrans_mmul, mmul_assoc, <- (mmul_assoc (mtrans a)), A, mmul_ident_l. exact B.
Qed.
Lemma orth_dot m a b : orthogonal m -> vdot (mapply m a) (mapply m b) = vdot a b.
Proof. intro O. rewrite vdot_mapply, <- mapply_mmul. unfold orthogonal in O. rewrite O, mapply_ident. reflexivity. Qed.
Lemma is_rot_orth m : is_rot m -> orthogonal m.
Proof. intros [O _]. exact O. Qed.

(** ** Traces *)
Lemma trace_swap a b : mtrace (mmul a b) = mtrace (mmul b a).
Proof. vars. unfold mtrace. munf. ring. Qed.
Lemma trace_outer m a b : mtrace (mmul m (outer a b)) = vdot b (mapply m a).
Proof. vars. unfold mtrace. munf. ring. Qed.
Lemma trace_add m a b : mtrace (mmul m (madd a b)) = mtrace (mmul m a) + mtrace (mmul m b).
Proof. vars. unfold mtrace. munf. ring. Qed.
Lemma trace_scale m s a : mtrace (mmul m (mscale s a)) = s * mtrace (mmul m a).
Proof. vars. unfold mtrace. munf. ring. Qed.
Lemma trace_zero m : mtrace (mmul m mzero) = 0.
Proof. vars. unfold mtrace, mzero. munf. ring. Qed.
Lemma trace_diag m s : mtrace (mmul m (diag3 s)) = vx (row1 m) * vx s + vy (row2 m) * vy s + vz (row3 m) * vz s.
Proof. vars. unfold mtrace, diag3. munf. ring. Qed.

Lemma unit_bound x y z : x * x + y * y + z * z = 1 -> -1 <= x <= 1.
Proof. intro H. split; nra. Qed.
Lemma orth_entries m : orthogonal m -> (-1 <= vx (row1 m) <= 1) /\ (-1 <= vy (row2 m) <= 1) /\ (-1 <= vz (row3 m) <= 1).
Proof.
  intro O. unfold orthogonal in O. destruct m as [[a b c] [d e f] [g h i]].
  unfold mmul, mtrans, vmul, col1, col2, col3, vdot, mident in O. cbn in O. injection O as E1 _ _ _ E2 _ _ _ E3. cbn. repeat split.
  - apply (unit_bound a d g); lra.
  - apply (unit_bound a d g); lra.
  - apply (unit_bound e b h); lra.
  - apply (unit_bound e b h); lra.
  - apply (unit_bound i c f); lra.
  - apply (unit_bound i c f); lra.
Qed.
Lemma trace_bound m s : orthogonal m -> 0 <= vx s -> 0 <= vy s -> 0 <= vz s ->
  - (vx s + vy s + vz s) <= mtrace (mmul m (diag3 s)) <= vx s + vy s + vz s.
Proof.
  intros O X Y Z. rewrite trace_diag. destruct (orth_entries m O) as ([A1 A2] & [B1 B2] & [C1 C2]).
  assert (forall x k, -1 <= x -> x <= 1 -> 0 <= k -> - k <= x * k <= k) as G by (intros; split; nra).
  pose proof (G _ _ A1 A2 X). pose proof (G _ _ B1 B2 Y). pose proof (G _ _ C1 C2 Z). lra.
Qed.

(** ** Sums over weighted rows *)
Definition centred (cf ct : V3) (rows : weighted) : weighted := map (fun p => (wt p, (vsub (src p) cf, vsub (tgt p) ct))) rows.
Definition sum_w (rows : weighted) : R := np_sum (map wt rows).
Definition sum_src (rows : weighted) : V3 := vsum (map (fun p => vscale (wt p) (src p)) rows).
Definition sum_tgt (rows : weighted) : V3 := vsum (map (fun p => vscale (wt p) (tgt p)) rows).
Definition sq_src (rows : weighted) : R := np_sum (map (fun p => wt p * vdot (src p) (src p)) rows).
Definition sq_tgt (rows : weighted) : R := np_sum (map (fun p => wt p * vdot (tgt p) (tgt p)) rows).
Definition moment (rows : weighted) : M3 := msum (map (fun p => mscale (wt p) (outer (src p) (tgt p))) rows).
Definition left_over (t : V3) (m : M3) (s : R) (rows : weighted) : R :=
  np_sum (map (fun p => wt p * vdot (vsub (tgt p) (similar t m s (src p))) (vsub (tgt p) (similar t m s (src p)))) rows).

Lemma misfit_left_over t m s w from to :
  misfit t m s w from to = left_over t m s (combine w (combine from to)).
Proof.
  revert from to. induction w as [|wi w IH]; intros [|p from] [|q to]; try reflexivity. cbn [misfit combine]. rewrite IH.
  unfold left_over at 2. cbn [map np_sum fold_right]. unfold np_sum in *. cbn [wt src tgt fst snd]. f_equal. f_equal.
  unfold vdist. cbn [pow]. rewrite Rmult_1_r. apply vnorm_sq.
Qed.

Lemma expand_one s (u y d : V3) :
  vdot (vadd (vsub u (vscale s y)) d) (vadd (vsub u (vscale s y)) d) =
  vdot u u - 2 * s * vdot u y + s * s * vdot y y + vdot d d + 2 * vdot d (vsub u (vscale s y)).
Proof. vars. munf. ring. Qed.

Lemma residual_split t m s cf ct p q :
  vsub q (similar t m s p) = vadd (vsub (vsub q ct) (vscale s (mapply m (vsub p cf)))) (vsub ct (similar t m s cf)).
Proof. unfold similar. rewrite mapply_sub. generalize (mapply m p), (mapply m cf). intros. vars. apply V3_eq; munf; ring. Qed.

Lemma expand_sum t m s cf ct rows : orthogonal m ->
  let d := vsub ct (similar t m s cf) in let c := centred cf ct rows in
  left_over t m s rows = sq_tgt c - 2 * s * mtrace (mmul m (moment c)) + s * s * sq_src c + sum_w rows * vdot d d
                         + 2 * vdot d (vsub (sum_tgt c) (vscale s (mapply m (sum_src c)))).
Proof.
  intro O. cbn zeta. set (d := vsub ct (similar t m s cf)).
  induction rows as [|[w [p q]] rows IH].
  - unfold left_over, sq_tgt, sq_src, sum_w, moment, sum_tgt, sum_src, centred. cbn. rewrite trace_zero, mapply_zero. munf. ring.
  - unfold left_over, sq_tgt, sq_src, sum_w, moment, sum_tgt, sum_src in *. cbn [centred map np_sum vsum msum fold_right wt src tgt fst snd] in *.
    fold (centred cf ct rows). unfold np_sum, vsum, msum in *. cbn [wt src tgt fst snd] in *. rewrite IH. clear IH.
    rewrite (residual_split t m s cf ct p q). fold d.
    rewrite expand_one, (orth_dot m _ _ O), trace_add, trace_scale, trace_outer, mapply_add, mapply_scale.
    generalize (mapply m (vsub p cf)). intro y. generalize (vsub q ct), (vsub p cf). intros u x.
    set (M := mtrace _). set (A := fold_right Rplus 0 _). set (B := fold_right Rplus 0 _). set (C := fold_right Rplus 0 _).
    set (S1 := mapply m _). set (S2 := fold_right vadd vzero _). clearbody M A B C S1 S2. clearbody d. clear.
    destruct S1, S2, y, u, x, d. munf. ring.
Qed.

Lemma sum_centred cf ct rows : sum_src (centred cf ct rows) = vsub (sum_src rows) (vscale (sum_w rows) cf) /\
  sum_tgt (centred cf ct rows) = vsub (sum_tgt rows) (vscale (sum_w rows) ct).
Proof.
  induction rows as [|[w [p q]] rows [I1 I2]].
  - unfold sum_src, sum_tgt, sum_w. cbn. split; v3; ring.
  - unfold sum_src, sum_tgt, sum_w in *. cbn [centred map np_sum vsum fold_right wt src tgt fst snd] in *. fold (centred cf ct rows).
    unfold np_sum, vsum in *. cbn [wt src tgt fst snd] in *. rewrite I1, I2. split; [generalize (fold_right vadd vzero (map (fun p => vscale (wt p) (src p)) rows))|generalize (fold_right vadd vzero (map (fun p => vscale (wt p) (tgt p)) rows))]; intro; vars; v3; ring.
Qed.
Lemma centroid_zero rows : sum_w rows <> 0 ->
  sum_src (centred (vscale (/ sum_w rows) (sum_src rows)) (vscale (/ sum_w rows) (sum_tgt rows)) rows) = vzero /\
  sum_tgt (centred (vscale (/ sum_w rows) (sum_src rows)) (vscale (/ sum_w rows) (sum_tgt rows)) rows) = vzero.
Proof.
  intro N. destruct (sum_centred (vscale (/ sum_w rows) (sum_src rows)) (vscale (/ sum_w rows) (sum_tgt rows)) rows) as [-> ->].
  split; [generalize (sum_src rows)|generalize (sum_tgt rows)]; intros [x y z]; v3; field; exact N.
Qed.

Lemma left_over_nonneg t m s rows : Forall (fun p => 0 <= wt p) rows -> 0 <= left_over t m s rows.
Proof.
  induction 1 as [|[w [p q]] rows W F IH]; unfold left_over in *; cbn [map np_sum fold_right] in *; [lra|]. unfold np_sum in *. cbn [wt src tgt fst snd] in *.
  apply Rplus_le_le_0_compat; [apply Rmult_le_pos; [exact W|apply vdot_nonneg]|exact IH].
Qed.
Lemma left_over_zero t m s rows : Forall (fun p => 0 < wt p) rows -> left_over t m s rows = 0 -> Forall (fun p => tgt p = similar t m s (src p)) rows.
Proof.
  induction 1 as [|[w [p q]] rows W F IH]; intro E; [constructor|].
  assert (0 <= left_over t m s rows) as N by (apply left_over_nonneg; eapply Forall_impl; [|exact F]; cbn; intros; lra).
  unfold left_over in E, N, IH. cbn [map np_sum fold_right] in E. unfold np_sum in *. cbn [wt src tgt fst snd] in *.
  pose proof (vdot_nonneg (vsub q (similar t m s p))) as V.
  assert (0 <= w * vdot (vsub q (similar t m s p)) (vsub q (similar t m s p))) as V' by (apply Rmult_le_pos; lra).
  constructor; [|apply IH; lra]. cbn [wt src tgt fst snd].
  assert (vdot (vsub q (similar t m s p)) (vsub q (similar t m s p)) = 0) as Z.
  { apply Rmult_eq_reg_l with w; [|lra]. rewrite Rmult_0_r. lra. }
  apply vdot_zero in Z. revert Z. generalize (similar t m s p). intros [a b c] Z. destruct q as [x y z]. unfold vsub, vzero in Z. cbn in Z.
  injection Z as Z1 Z2 Z3. f_equal; lra.
Qed.

(** ** The estimate *)
Section Estimate.
  Context (u : M3) (sv : V3) (v : M3).
  Context (from to : list V3) (w : list R) (LT : length to = length from) (LW : length w = length from).
  Notation rows := (combine w (combine from to)).
  Notation W := (sum_w rows).
  Notation cf := (vscale (/ W) (sum_src rows)).
  Notation ct := (vscale (/ W) (sum_tgt rows)).
  Notation c := (centred cf ct rows).

  Lemma rows_weights : map wt rows = w.
  Proof.
    unfold wt. assert (length w = length (combine from to)) as L by (rewrite combine_length; lia). clear LT LW.
    revert L. generalize (combine from to). clear. intros l. revert w. induction l as [|a l IH]; intros [|x w] L; cbn in *; try lia; [reflexivity|]. f_equal. apply IH. lia.
  Qed.

  Context (SC : decomposed (moment c) u sv v).
  Definition est_rotation : M3 := mmul (mtrans v) (mtrans u).
  Definition est_scale : R := mtrace (mmul est_rotation (moment c)) / sq_src c.
  Definition est_translation : V3 := vsub ct (vscale est_scale (mapply est_rotation cf)).

  Lemma rotation_orth : orthogonal est_rotation.
  Proof.
    unfold est_rotation. destruct SC as (U & V & _).
    apply orth_mmul; apply orth_trans; assumption.
  Qed.
  (** The sum of the singular values *)
  Definition sigma : R := vx sv + vy sv + vz sv.
  Lemma trace_moment m : orthogonal m -> - sigma <= mtrace (mmul m (moment c)) <= sigma.
  Proof.
    intro O. unfold sigma. destruct SC as (U & V & X & Y & Z & EM). rewrite EM. clear EM.
    rewrite <- mmul_assoc, trace_swap, <- mmul_assoc, trace_swap, <- mmul_assoc. rewrite trace_swap.
    assert (mtrace (mmul (diag3 sv) (mmul (mmul v m) u)) = mtrace (mmul (mmul (mmul v m) u) (diag3 sv))) as K by apply trace_swap.
    replace (mtrace _) with (mtrace (mmul (mmul (mmul v m) u) (diag3 sv))).
    - apply trace_bound; try assumption. apply orth_mmul; [apply orth_mmul|]; assumption.
    - rewrite !mmul_assoc. rewrite (trace_swap v). rewrite !mmul_assoc. rewrite ?(trace_swap (diag3 sv)), ?mmul_assoc. reflexivity.
  Qed.
  Lemma trace_estimate : mtrace (mmul est_rotation (moment c)) = sigma.
  Proof.
    unfold est_rotation, sigma. destruct SC as (U & V & X & Y & Z & EM). rewrite EM. clear EM.
    rewrite mmul_assoc, <- (mmul_assoc (mtrans u)). unfold orthogonal in U. rewrite U, mmul_ident_l, trace_swap, mmul_assoc.
    rewrite orth_right by exact V. rewrite mmul_ident_r. unfold mtrace, diag3. cbn. ring.
  Qed.

  Context (NW : W <> 0).
  Lemma centred_left_over t m s : orthogonal m ->
    left_over t m s rows = sq_tgt c - 2 * s * mtrace (mmul m (moment c)) + s * s * sq_src c + W * vdot (vsub ct (similar t m s cf)) (vsub ct (similar t m s cf)).
  Proof.
    intro O. rewrite (expand_sum t m s cf ct rows O). destruct (centroid_zero rows NW) as [-> ->]. rewrite mapply_zero.
    generalize (vsub ct (similar t m s cf)). intros [x y z]. munf. ring.
  Qed.
  Lemma estimate_left_over : sq_src c <> 0 -> left_over est_translation est_rotation est_scale rows = sq_tgt c - sigma * sigma / sq_src c.
  Proof.
    intro N. rewrite centred_left_over by apply rotation_orth. rewrite trace_estimate.
    assert (vsub ct (similar est_translation est_rotation est_scale cf) = vzero) as ->.
    { unfold est_translation, similar. generalize (mapply est_rotation cf). intros [x y z]. destruct ct. v3; ring. }
    unfold est_scale. rewrite trace_estimate. munf. field. exact N.
  Qed.
  Lemma sigma_nonneg : 0 <= sigma.
  Proof. destruct (trace_moment est_rotation rotation_orth). lra. Qed.
  Lemma scale_nonneg : 0 < sq_src c -> 0 <= est_scale.
  Proof. intro P. unfold est_scale. rewrite trace_estimate. apply Rmult_le_pos; [apply sigma_nonneg|]. left. apply Rinv_0_lt_compat, P. Qed.

  Lemma estimate_optimal t m s : 0 < W -> 0 < sq_src c -> orthogonal m ->
    left_over est_translation est_rotation est_scale rows <= left_over t m s rows.
  Proof.
    intros PW P O. rewrite estimate_left_over by lra. rewrite (centred_left_over t m s O).
    pose proof (vdot_nonneg (vsub ct (similar t m s cf))) as V. destruct (trace_moment m O) as [A B].
    assert (0 <= W * vdot (vsub ct (similar t m s cf)) (vsub ct (similar t m s cf))) as V' by (apply Rmult_le_pos; lra).
    set (X := mtrace (mmul m (moment c))) in *. set (F := sq_src c) in *. set (G := sigma) in *.
    assert (- (G * G / F) <= - 2 * s * X + s * s * F) as K; [|lra].
    assert (0 <= (s * F - X) * (s * F - X)) as SQ by apply Rle_0_sqr.
    assert (X * X <= G * G) as XG by nra.
    apply Rmult_le_reg_l with F; [exact P|]. replace (F * - (G * G / F)) with (- (G * G)) by (field; lra). nra.
  Qed.
End Estimate.
