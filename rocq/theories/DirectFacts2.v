(** Proofs about the closed-form similarity: the program computes the estimate, exact data, mirrored data. *)
From Verif Require Import Base BaseFacts VecFacts NumpyModel TrajModel GeomModel GeomSpec GeomFacts LsqModel LsqSpec DirectModel DirectSpec DirectFacts.

Notation rows_of w from to := (combine w (combine from to)).
Definition cen_from (rows : weighted) : V3 := vscale (/ sum_w rows) (sum_src rows).
Definition cen_to (rows : weighted) : V3 := vscale (/ sum_w rows) (sum_tgt rows).
Definition cen (rows : weighted) : weighted := centred (cen_from rows) (cen_to rows) rows.

Lemma sq_src_norms c : np_sum (map (fun p => wt p * vnorm (src p) * vnorm (src p)) c) = sq_src c.
Proof.
  unfold sq_src. f_equal. apply map_ext. intro p. rewrite Rmult_assoc, vnorm_sq. reflexivity.
Qed.
Lemma vmul_dot w t m f : vdot (vmul (vscale w t) m) f = w * vdot t (mapply m f).
Proof. vars. munf. ring. Qed.
Lemma scale_numerator m c : np_sum (map (fun p => vdot (vmul (vscale (wt p) (tgt p)) m) (src p)) c) = mtrace (mmul m (moment c)).
Proof.
  induction c as [|p c IH]; unfold moment in *; cbn [map np_sum msum fold_right] in *; [rewrite trace_zero; reflexivity|].
  unfold np_sum, msum in *. rewrite IH, trace_add, trace_scale, trace_outer, vmul_dot. reflexivity.
Qed.

Section Program.
  Context (svd : M3 -> result (M3 * V3 * M3)) (SC : svd_contract svd) (from to : list V3) (weights : list R).
  Notation w := (used_weights (length from) weights).
  Notation rows := (rows_of w from to).

  Lemma procrustes_cases : length to = length from -> length w = length from -> sum_w rows <> 0 -> sq_src (cen rows) <> 0 ->
    procrustes svd from to weights =
    let! uv := svd (moment (cen rows)) in
    let '(u, _, v) := uv in Ok (Some (est_translation u v from to w, est_rotation u v, est_scale u v from to w)).
  Proof.
    intros LT LW NW NS. unfold procrustes. fold w. rewrite LT, LW, Nat.eqb_refl. cbn [andb].
    assert (np_sum w = sum_w rows) as ES by (unfold sum_w; rewrite (rows_weights from to w LT LW); reflexivity). rewrite ES.
    rewrite (proj2 (Reqb_false _ _) NW).
    cbn zeta. fold (sum_src rows). fold (sum_tgt rows). fold (cen_from rows). fold (cen_to rows).
    change (map (fun p => (wt p, (vsub (src p) (cen_from rows), vsub (tgt p) (cen_to rows)))) rows) with (cen rows).
    fold (moment (cen rows)). rewrite sq_src_norms.
    unfold est_translation, est_scale, est_rotation. fold (cen_from rows). fold (cen_to rows). fold (cen rows).
    destruct (svd (moment (cen rows))) as [[[u s] v]|e]; [|reflexivity]. cbn [bind]. rewrite (proj2 (Reqb_false _ _) NS).
    rewrite scale_numerator, mapply_mscale. reflexivity.
  Qed.
End Program.

(** ** Exact data *)
Lemma madj_l m : mmul (madj m) m = mscale (mdet m) mident.
Proof. unfold madj. m3; ring. Qed.
Lemma kernel_zero m v : mdet m <> 0 -> mapply m v = vzero -> v = vzero.
Proof.
  intros D E. apply (f_equal (mapply (madj m))) in E. rewrite <- mapply_mmul, madj_l, mapply_zero in E.
  revert D E. generalize (mdet m). intros d D E. destruct v as [x y z]. unfold mscale, mident, mapply, vscale, vdot, vzero in E. cbn in E. injection E as X Y Z.
  unfold vzero. f_equal; apply Rmult_eq_reg_l with d; try assumption; lra.
Qed.
(** A linear map that sends three independent vectors to zero is zero. *)
Lemma linear_zero m a b c : mdet (mkM3 a b c) <> 0 -> mapply m a = vzero -> mapply m b = vzero -> mapply m c = vzero -> m = mzero.
Proof.
  intros D A B C. destruct m as [r1 r2 r3]. unfold mapply in A, B, C. cbn in A, B, C.
  assert (forall r, vdot r a = 0 -> vdot r b = 0 -> vdot r c = 0 -> r = vzero) as K.
  { intros r X Y Z. apply (kernel_zero (mkM3 a b c) r D). unfold mapply. cbn. rewrite (vdot_sym a), (vdot_sym b), (vdot_sym c), X, Y, Z. reflexivity. }
  unfold vzero in A, B, C. injection A as A1 A2 A3. injection B as B1 B2 B3. injection C as C1 C2 C3. unfold mzero. f_equal; apply K; assumption.
Qed.
Lemma same_linear m n a b c : mdet (mkM3 a b c) <> 0 -> mapply m a = mapply n a -> mapply m b = mapply n b -> mapply m c = mapply n c -> m = n.
Proof.
  intros D A B C. assert (madd m (mscale (-1) n) = mzero) as Z.
  { assert (forall v, mapply m v = mapply n v -> mapply (madd m (mscale (-1) n)) v = vzero) as K.
    { intros v E. assert (mapply (madd m (mscale (-1) n)) v = vsub (mapply m v) (mapply n v)) as -> by (clear; vars; apply V3_eq; munf; ring).
      rewrite E. generalize (mapply n v). intro x. destruct x. v3; ring. }
    apply (linear_zero _ a b c D); apply K; assumption. }
  destruct m as [[a1 a2 a3] [a4 a5 a6] [a7 a8 a9]], n as [[b1 b2 b3] [b4 b5 b6] [b7 b8 b9]]. unfold madd, mscale, vadd, vscale, mzero, vzero in Z. cbn in Z.
  injection Z as Z1 Z2 Z3 Z4 Z5 Z6 Z7 Z8 Z9. repeat f_equal; lra.
Qed.
Lemma cross_det a b : mdet (mkM3 a b (vcross a b)) = vdot (vcross a b) (vcross a b).
Proof. vars. munf. ring. Qed.
Lemma det_cross a b c : mdet (mkM3 a b c) = vdot (vcross a b) c.
Proof. vars. munf. ring. Qed.
Lemma cross_rot m a b : is_rot m -> mapply m (vcross a b) = vcross (mapply m a) (mapply m b).
Proof.
  intro RM. pose proof (is_rot_adj m RM) as A. assert (vcross (mapply m a) (mapply m b) = mapply (mtrans (madj m)) (vcross a b)) as ->.
  { clear. unfold madj. vars. apply V3_eq; munf; ring. }
  rewrite <- A, mtrans_invol. reflexivity.
Qed.
Lemma vscale_eq_norm s s0 m m0 a : orthogonal m -> orthogonal m0 -> 0 <= s -> 0 <= s0 -> a <> vzero ->
  vscale s (mapply m a) = vscale s0 (mapply m0 a) -> s = s0.
Proof.
  intros O O0 P P0 N E. assert (vdot (vscale s (mapply m a)) (vscale s (mapply m a)) = vdot (vscale s0 (mapply m0 a)) (vscale s0 (mapply m0 a))) as D by (rewrite E; reflexivity).
  assert (forall k v, vdot (vscale k v) (vscale k v) = k * k * vdot v v) as K by (intros; vars; munf; ring).
  rewrite !K, (orth_dot m _ _ O), (orth_dot m0 _ _ O0) in D.
  assert (vdot a a <> 0) as NZ by (intro Z; apply N, vdot_zero, Z).
  apply Rmult_eq_reg_r in D; [|exact NZ]. nra.
Qed.
Lemma cross_nonzero_l a b : vcross a b <> vzero -> a <> vzero.
Proof. intros N ->. apply N. destruct b. v3; ring. Qed.

Section Exact.
  Context (t t0 : V3) (m m0 : M3) (s s0 : R) (from : list V3).
  Context (O : orthogonal m) (R0 : is_rot m0) (P : 0 <= s) (P0 : 0 < s0).
  Context (SAME : forall p, In p from -> similar t m s p = similar t0 m0 s0 p).

  Lemma same_difference a b : In a from -> In b from -> vscale s (mapply m (vsub b a)) = vscale s0 (mapply m0 (vsub b a)).
  Proof.
    intros A B. apply SAME in A, B. unfold similar in *. rewrite !mapply_sub. revert A B.
    generalize (mapply m a), (mapply m b), (mapply m0 a), (mapply m0 b). clear. intros [] [] [] []. destruct t, t0. unfold vadd, vscale, vsub. cbn.
    intros A B. injection A as A1 A2 A3. injection B as B1 B2 B3. f_equal; lra.
  Qed.
  Lemma exact_scale : not_collinear from -> s = s0.
  Proof.
    intros (a & b & c & A & B & _ & N). apply (vscale_eq_norm s s0 m m0 (vsub b a) O (is_rot_orth _ R0) P); try lra; [exact (cross_nonzero_l _ _ N)|apply same_difference; assumption].
  Qed.
  Lemma unscale (u v : V3) : vscale s0 u = vscale s0 v -> u = v.
  Proof. destruct u, v. unfold vscale. cbn. intro E. injection E as A B C. f_equal; apply Rmult_eq_reg_l with s0; try assumption; lra. Qed.
  Lemma same_rotated a b : not_collinear from -> In a from -> In b from -> mapply m (vsub b a) = mapply m0 (vsub b a).
  Proof. intros N A B. apply unscale. rewrite <- (exact_scale N) at 1. apply same_difference; assumption. Qed.
  Lemma exact_translation p : m = m0 -> s = s0 -> In p from -> t = t0.
  Proof.
    intros -> -> I. apply SAME in I. unfold similar in I. revert I. generalize (mapply m0 p). clear. intros []. destruct t, t0. unfold vadd, vscale. cbn. intro I. injection I as A B C. f_equal; lra.
  Qed.
  Lemma exact_proper : not_collinear from -> mdet m = 1 -> m = m0 /\ s = s0 /\ t = t0.
  Proof.
    intros N D. pose proof (exact_scale N) as ES. pose proof N as (a & b & c & A & B & C & NC).
    assert (m = m0) as EM.
    { assert (is_rot m) as RM by (split; assumption).
      apply (same_linear m m0 (vsub b a) (vsub c a) (vcross (vsub b a) (vsub c a))).
      - rewrite cross_det. intro Z. apply NC, vdot_zero, Z.
      - apply same_rotated; assumption.
      - apply same_rotated; assumption.
      - rewrite !cross_rot by assumption. rewrite !same_rotated by assumption. reflexivity. }
    split; [exact EM|]. split; [exact ES|]. apply (exact_translation a); assumption.
  Qed.
  Lemma coplanar_collinear : not_coplanar from -> not_collinear from.
  Proof.
    intros (a & b & c & d & A & B & C & D & N). exists a, b, c. repeat (split; [assumption|]). intro E. apply N.
    rewrite det_cross, E. destruct (vsub d a). munf. ring.
  Qed.
  Lemma exact_spatial : not_coplanar from -> m = m0 /\ s = s0 /\ t = t0.
  Proof.
    intro N. pose proof (coplanar_collinear N) as NC. pose proof N as (a & b & c & d & A & B & C & D & ND).
    assert (m = m0) as EM by (apply (same_linear m m0 (vsub b a) (vsub c a) (vsub d a) ND); apply same_rotated; assumption).
    split; [exact EM|]. split; [apply exact_scale, NC|]. apply (exact_translation a); [exact EM|apply exact_scale, NC|exact A].
  Qed.
End Exact.

(** The sources are not all in the same place. *)
Lemma sq_src_positive c : Forall (fun p => 0 < wt p) c -> (exists p, In p c /\ src p <> vzero) -> 0 < sq_src c.
Proof.
  assert (forall c, Forall (fun p => 0 < wt p) c -> 0 <= sq_src c) as NN.
  { induction 1 as [|p l W F IH]; unfold sq_src in *; cbn [map np_sum fold_right] in *; [lra|]. unfold np_sum in *.
    apply Rplus_le_le_0_compat; [apply Rmult_le_pos; [lra|apply vdot_nonneg]|exact IH]. }
  induction 1 as [|p l W F IH]; intros (q & I & N); [destruct I|]. unfold sq_src. cbn [map np_sum fold_right]. fold (np_sum (map (fun p => wt p * vdot (src p) (src p)) l)). fold (sq_src l).
  pose proof (NN l F) as G. pose proof (vdot_nonneg (src p)) as V. destruct I as [->|I].
  - assert (vdot (src q) (src q) <> 0) by (intro Z; apply N, vdot_zero, Z). assert (0 < wt q * vdot (src q) (src q)) by (apply Rmult_lt_0_compat; lra). lra.
  - assert (0 < sq_src l) by (apply IH; exists q; split; assumption). assert (0 <= wt p * vdot (src p) (src p)) by (apply Rmult_le_pos; lra). lra.
Qed.
Lemma sum_w_positive c : Forall (fun p => 0 < wt p) c -> c <> [] -> 0 < sum_w c.
Proof.
  intros F N. destruct F as [|p l W F]; [congruence|]. clear N. unfold sum_w. cbn [map np_sum fold_right].
  assert (0 <= fold_right Rplus 0 (map wt l)) as G by (induction F; cbn; lra). lra.
Qed.
Lemma cen_weights rows : Forall (fun p => 0 < wt p) rows -> Forall (fun p => 0 < wt p) (cen rows).
Proof. intro F. apply Forall_forall. intros p I. apply in_map_iff in I as [q [<- I]]. rewrite Forall_forall in F. exact (F q I). Qed.
Lemma classic_vec (a b : V3) : a = b \/ a <> b.
Proof.
  destruct a as [a1 a2 a3], b as [b1 b2 b3]. destruct (Req_dec a1 b1), (Req_dec a2 b2), (Req_dec a3 b3); subst; try (left; reflexivity); right; intro E; inversion E; contradiction.
Qed.
Lemma cen_nonzero rows : (exists p q, In p rows /\ In q rows /\ src p <> src q) -> exists p, In p (cen rows) /\ src p <> vzero.
Proof.
  intros (p & q & P & Q & N). set (c := cen_from rows).
  assert (src p <> c \/ src q <> c) as [H|H].
  { destruct (classic_vec (src p) c) as [E|E]; [right; congruence|left; exact E]. }
  - exists (wt p, (vsub (src p) c, vsub (tgt p) (cen_to rows))). split; [apply in_map_iff; exists p; split; [reflexivity|exact P]|].
    cbn [src fst snd]. intro Z. apply H. revert Z. generalize (src p), c. intros [] []. unfold vsub, vzero. cbn. intro Z. injection Z as A B C. f_equal; lra.
  - exists (wt q, (vsub (src q) c, vsub (tgt q) (cen_to rows))). split; [apply in_map_iff; exists q; split; [reflexivity|exact Q]|].
    cbn [src fst snd]. intro Z. apply H. revert Z. generalize (src q), c. intros [] []. unfold vsub, vzero. cbn. intro Z. injection Z as A B C. f_equal; lra.
Qed.
