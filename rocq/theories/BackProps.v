(** C166: aligning in the other direction and aligning again, with the closed-form similarity. *)
From Verif Require Import Base BaseFacts VecFacts NumpyModel TrajModel GeomModel GeomSpec GeomFacts GeomFacts2 LsqModel LsqSpec DirectModel DirectSpec DirectFacts DirectFacts2 DirectProps DirectProps3 FrameProps TurnProps BackSpec.

Lemma rows_src w from to : length to = length from -> length w = length from -> map (fun r => (wt r, src r)) (rows_of w from to) = combine w from.
Proof. revert w to. induction from as [|p from IH]; intros [|x w] [|q to] L L'; cbn in *; try lia; [reflexivity|]. f_equal. apply IH; lia. Qed.
Lemma rows_tgt w from to : length to = length from -> length w = length from -> map (fun r => (wt r, tgt r)) (rows_of w from to) = combine w to.
Proof. revert w to. induction from as [|p from IH]; intros [|x w] [|q to] L L'; cbn in *; try lia; [reflexivity|]. f_equal. apply IH; lia. Qed.

Lemma cen_from_centre w from to : length to = length from -> length w = length from -> cen_from (rows_of w from to) = centre w from.
Proof.
  intros L L'. unfold cen_from, centre, sum_w. rewrite (rows_weights from to w L L'). fold (np_sum w). f_equal. unfold sum_src, vsum. rewrite <- (rows_src w from to L L'), map_map. reflexivity.
Qed.
Lemma cen_to_centre w from to : length to = length from -> length w = length from -> cen_to (rows_of w from to) = centre w to.
Proof.
  intros L L'. unfold cen_to, centre, sum_w. rewrite (rows_weights from to w L L'). fold (np_sum w). f_equal. unfold sum_tgt, vsum. rewrite <- (rows_tgt w from to L L'), map_map. reflexivity.
Qed.
Lemma dist_square p q : vdist p q ^ 2 = vdot (vsub p q) (vsub p q).
Proof. unfold vdist. rewrite <- vnorm_sq. ring. Qed.
Lemma src_spread w from to : length to = length from -> length w = length from -> sq_src (cen (rows_of w from to)) = spread w from.
Proof.
  intros L L'. unfold sq_src, cen, centred, spread, np_sum. rewrite map_map, <- (rows_src w from to L L'), map_map. f_equal. apply map_ext. intro r. cbn [wt src tgt fst snd]. rewrite (cen_from_centre w from to L L'), dist_square. reflexivity.
Qed.
Lemma tgt_spread w from to : length to = length from -> length w = length from -> sq_tgt (cen (rows_of w from to)) = spread w to.
Proof.
  intros L L'. unfold sq_tgt, cen, centred, spread, np_sum. rewrite map_map, <- (rows_tgt w from to L L'), map_map. f_equal. apply map_ext. intro r. cbn [wt src tgt fst snd]. rewrite (cen_to_centre w from to L L'), dist_square. reflexivity.
Qed.

Lemma centre_similar t m s w l : length w = length l -> fold_right Rplus 0 w <> 0 -> centre w (map (similar t m s) l) = similar t m s (centre w l).
Proof.
  intros L N. unfold centre. set (W := fold_right Rplus 0 w) in *.
  assert (E : fold_right vadd vzero (map (fun p => vscale (fst p) (snd p)) (combine w (map (similar t m s) l))) = vadd (vscale W t) (vscale s (mapply m (fold_right vadd vzero (map (fun p => vscale (fst p) (snd p)) (combine w l)))))).
  { unfold W. clear N W. revert l L. induction w as [|x w IH]; intros [|p l] L; cbn in L; try lia; cbn [map combine fold_right].
    - rewrite mapply_zero. apply V3_eq; munf; ring.
    - rewrite IH by lia. cbn [fst snd]. rewrite mapply_add, mapply_scale. unfold similar. generalize (mapply m p), (mapply m (fold_right vadd vzero (map (fun p0 => vscale (fst p0) (snd p0)) (combine w l)))). intros a b. apply V3_eq; munf; ring. }
  rewrite E. unfold similar. rewrite mapply_scale. generalize (mapply m (fold_right vadd vzero (map (fun p => vscale (fst p) (snd p)) (combine w l)))). intro a. apply V3_eq; cbn [vx vy vz vadd vscale]; field; exact N.
Qed.
Lemma spread_similar t m s w l : orthogonal m -> length w = length l -> fold_right Rplus 0 w <> 0 -> spread w (map (similar t m s) l) = s ^ 2 * spread w l.
Proof.
  intros O L N. unfold spread. rewrite centre_similar by assumption. generalize (centre w l). intro c. clear N. revert l L. induction w as [|x w IH]; intros [|p l] L; cbn in L; try lia; cbn [map combine fold_right]; [ring|].
  rewrite IH by lia. cbn [fst snd]. rewrite orth_dist by exact O. ring.
Qed.

(** What the estimate is made of: the gain [c] is the largest one over all orthogonal matrices. *)
Lemma estimate_facts svd from to weights t m s : svd_contract svd -> Forall (fun x => 0 <= x) weights -> procrustes svd from to weights = Ok (Some (t, m, s)) ->
  let w := used_weights (length from) weights in let M := moment (cen (rows_of w from to)) in
  length to = length from /\ length w = length from /\ orthogonal m /\ 0 <= s /\ 0 < fold_right Rplus 0 w /\ 0 < spread w from /\ similar t m s (centre w from) = centre w to /\
  s * spread w from = mtrace (mmul m M) /\ (forall m', orthogonal m' -> mtrace (mmul m' M) <= mtrace (mmul m M)) /\ misfit t m s w from to = spread w to - s * (s * spread w from).
Proof.
  intros SC F E w M. destruct (C76_optimal _ _ _ _ _ _ _ SC F E) as (O & PS & _). destruct (procrustes_inv svd from to weights t m s SC E) as (LT & LW & NW & NS & u & sv & v & D & ET & EM & ES). fold w in LW, NW, NS, D, ET, ES. fold M in D.
  assert (FW : Forall (fun p => 0 <= wt p) (rows_of w from to)) by (apply rows_forall; apply (used_forall (fun x => 0 <= x)); [lra|exact F]).
  pose proof (sum_w_nonneg _ FW) as PW. pose proof (sq_src_nonneg _ (cen_nonneg _ FW)) as PSQ.
  assert (SW : sum_w (rows_of w from to) = fold_right Rplus 0 w) by (unfold sum_w; rewrite (rows_weights from to w LT LW); reflexivity).
  rewrite (src_spread w from to LT LW) in *. pose proof (trace_estimate u sv v from to w D) as TE. change (mtrace (mmul (est_rotation u v) M) = sigma sv) in TE.
  assert (SG : s * spread w from = mtrace (mmul m M)).
  { rewrite EM, TE, ES. unfold est_scale. change (centred _ _ _) with (cen (rows_of w from to)). fold M. rewrite TE. rewrite (src_spread w from to LT LW). field. exact NS. }
  split; [exact LT|]. split; [exact LW|]. split; [exact O|]. split; [exact PS|]. split; [lra|]. split; [lra|]. split.
  - rewrite <- (cen_from_centre w from to LT LW), <- (cen_to_centre w from to LT LW). rewrite ET, EM, ES. unfold similar, est_translation. change (vscale (/ sum_w (combine w (combine from to))) (sum_src (combine w (combine from to)))) with (cen_from (rows_of w from to)).
    change (vscale (/ sum_w (combine w (combine from to))) (sum_tgt (combine w (combine from to)))) with (cen_to (rows_of w from to)).
    generalize (mapply (est_rotation u v) (cen_from (rows_of w from to))). intro a. apply V3_eq; munf; ring.
  - split; [exact SG|]. split.
    + intros m' O'. rewrite EM, TE. apply (trace_moment u sv v from to w D m' O').
    + rewrite misfit_left_over, ET, EM, ES. rewrite (estimate_left_over u sv v from to w D NW).
      * change (centred _ _ _) with (cen (rows_of w from to)). rewrite (src_spread w from to LT LW), (tgt_spread w from to LT LW), <- ES. rewrite SG, EM, TE.
        assert (S2 : s = sigma sv / spread w from) by (rewrite <- TE, <- EM, <- SG; field; exact NS). rewrite S2. field. exact NS.
      * change (sq_src (cen (rows_of w from to)) <> 0). rewrite (src_spread w from to LT LW). exact NS.
Qed.

(** The centre of the sources is moved to the centre of the targets, and what is left and the spread of the aligned sources add up to the
    spread of the targets: aligned sources are never spread wider than the targets. *)
Theorem C166_spread : forall svd from to weights t m s, svd_contract svd -> Forall (fun x => 0 <= x) weights -> procrustes svd from to weights = Ok (Some (t, m, s)) ->
  let w := used_weights (length from) weights in let aligned := map (similar t m s) from in
  centre w aligned = centre w to /\ misfit t m s w from to + spread w aligned = spread w to /\ spread w aligned <= spread w to.
Proof.
  intros svd from to weights t m s SC F E w aligned. destruct (estimate_facts _ _ _ _ _ _ _ SC F E) as (LT & LW & O & PS & PW & PA & CE & SG & MX & MF). fold w in LW, PW, PA, CE, SG, MX, MF.
  assert (K : spread w aligned = s * (s * spread w from)) by (unfold aligned; rewrite spread_similar by (try assumption; lra); ring).
  split; [unfold aligned; rewrite centre_similar by (try assumption; lra); exact CE|].
  assert (0 <= misfit t m s w from to).
  { rewrite misfit_left_over. apply left_over_nonneg. apply rows_forall. apply (used_forall (fun x => 0 <= x)); [lra|exact F]. }
  split; lra.
Qed.
Print Assumptions C166_spread.

Lemma moment_back w from to : length to = length from -> length w = length from -> moment (cen (rows_of w to from)) = mtrans (moment (cen (rows_of w from to))).
Proof.
  intros L L'. unfold cen. rewrite (cen_from_centre w from to L L'), (cen_to_centre w from to L L'), (cen_from_centre w to from), (cen_to_centre w to from) by congruence.
  generalize (centre w from), (centre w to). intros a b. revert w to L L'. unfold moment, centred. induction from as [|p from IH]; intros [|x w] [|q to] L L'; cbn in L, L'; try lia; cbn [rows_of combine map msum fold_right].
  - unfold mzero. m3; ring.
  - unfold msum in IH. rewrite (IH w to) by lia. cbn [wt src tgt fst snd]. generalize (fold_right madd mzero (map (fun p0 : R * (V3 * V3) => mscale (wt p0) (outer (src p0) (tgt p0))) (map (fun p0 : R * (V3 * V3) => (wt p0, (vsub (src p0) a, vsub (tgt p0) b))) (rows_of w from to)))).
    intro Z. generalize (vsub p a), (vsub q b). intros c d. m3; ring.
Qed.
Lemma trace_back a b : mtrace (mmul a (mtrans b)) = mtrace (mmul (mtrans a) b).
Proof. destruct a as [[] [] []], b as [[] [] []]. unfold mtrace. munf. ring. Qed.

(** In the other direction: the product of both scales is at most one, and one exactly if nothing is left; what is left, relative to the spread of
    the targets, is the same in both directions. *)
Theorem C166_back : forall svd svd' from to weights t m s t' m' s', svd_contract svd -> svd_contract svd' -> Forall (fun x => 0 <= x) weights ->
  procrustes svd from to weights = Ok (Some (t, m, s)) -> procrustes svd' to from weights = Ok (Some (t', m', s')) ->
  let w := used_weights (length from) weights in
  s * s' <= 1 /\ (s * s' = 1 <-> misfit t m s w from to = 0) /\ misfit t m s w from to * spread w from = misfit t' m' s' w to from * spread w to /\ s * spread w from = s' * spread w to.
Proof.
  intros svd svd' from to weights t m s t' m' s' SC SC' F E E' w. destruct (estimate_facts _ _ _ _ _ _ _ SC F E) as (LT & LW & O & PS & PW & PA & _ & SG & MX & MF). destruct (estimate_facts _ _ _ _ _ _ _ SC' F E') as (_ & _ & O' & PS' & _ & PB & _ & SG' & MX' & MF').
  fold w in LW, PW, PA, SG, MX, MF. rewrite LT in *. fold w in PB, SG', MX', MF'. rewrite (moment_back w from to LT LW) in SG', MX'.
  set (M := moment (cen (rows_of w from to))) in *. set (a := spread w from) in *. set (b := spread w to) in *.
  assert (EQ : s * a = s' * b).
  { rewrite SG, SG'. apply Rle_antisym.
    - rewrite <- (mtrans_invol m), <- trace_back. apply MX', orth_trans, O.
    - rewrite trace_back. apply MX, orth_trans, O'. }
  assert (NN : 0 <= misfit t m s w from to).
  { rewrite misfit_left_over. apply left_over_nonneg. apply rows_forall. apply (used_forall (fun x => 0 <= x)); [lra|exact F]. }
  assert (SS : misfit t m s w from to = b * (1 - s * s')) by (rewrite MF; replace (s * (s * a)) with (s * (s' * b)) by (rewrite <- EQ; ring); ring).
  assert (0 <= 1 - s * s') by (apply Rmult_le_reg_l with b; [exact PB|]; lra).
  split; [lra|]. split; [|split; [|exact EQ]].
  - rewrite SS. split; intro H1; [rewrite H1; ring|]. apply Rmult_integral in H1 as [H1|H1]; lra.
  - rewrite SS, MF'. replace (s' * (s' * b)) with (s' * (s * a)) by (rewrite EQ; ring). ring.
Qed.
Print Assumptions C166_back.

(** Aligning the aligned sources again does not improve anything: the scale is one, and the same is left. *)
Theorem C166_again : forall svd svd' from to weights t m s t' m' s', svd_contract svd -> svd_contract svd' -> Forall (fun x => 0 <= x) weights ->
  procrustes svd from to weights = Ok (Some (t, m, s)) -> procrustes svd' (map (similar t m s) from) to weights = Ok (Some (t', m', s')) ->
  let w := used_weights (length from) weights in
  s' = 1 /\ similar t' m' s' (centre w to) = centre w to /\ misfit t' m' s' w (map (similar t m s) from) to = misfit t m s w from to.
Proof.
  intros svd svd' from to weights t m s t' m' s' SC SC' F E E' w. destruct (estimate_facts _ _ _ _ _ _ _ SC F E) as (LT & LW & O & PS & PW & PA & CE & SG & MX & MF). destruct (estimate_facts _ _ _ _ _ _ _ SC' F E') as (_ & _ & O' & PS' & _ & PB & CE' & SG' & MX' & MF').
  rewrite map_length in *. fold w in LW, PW, PA, CE, SG, MX, MF, PB, CE', SG', MX', MF'. rewrite centre_similar, CE in CE' by (try assumption; lra).
  rewrite spread_similar in PB, MF' by (try assumption; lra). assert (s <> 0) by (intros ->; lra).
  assert (EQ : misfit t' m' s' w (map (similar t m s) from) to = misfit t m s w from to).
  { destruct (C76_optimal _ _ _ _ _ _ _ SC F E) as (_ & _ & OPT). destruct (C76_optimal _ _ _ _ _ _ _ SC' F E') as (_ & _ & OPT'). rewrite map_length in OPT'. fold w in OPT, OPT'. apply Rle_antisym.
    - eapply Rle_trans; [apply (OPT' vzero mident 1); unfold orthogonal; m3; ring|]. apply Req_le, misfit_moved. intro p. unfold similar at 1. rewrite mapply_ident. apply V3_eq; munf; ring.
    - rewrite (misfit_moved t' m' s' (similar t' m' s' t) (mmul m' m) (s' * s)) by (intro p; apply similar_comp). apply OPT, orth_mmul; assumption. }
  split; [|split; [exact CE'|exact EQ]]. rewrite MF, MF' in EQ.
  assert (K : (s' - 1) * ((s' + 1) * (s ^ 2 * spread w from)) = 0) by (clear - EQ; nra).
  apply Rmult_integral in K as [K|K]; [lra|]. apply Rmult_integral in K as [K|K]; lra.
Qed.
Print Assumptions C166_again.

(** Six points and targets that are no similar image of them: the scales are 5/3 and 5/9, so going forth and back shrinks. *)
Definition stretched : list V3 := map (fun p => mkV3 (2 * vx p) (2 * vy p) (vz p)) corners.
Example C166_case : exists svd, svd_contract svd /\ procrustes svd corners stretched [] = Ok (Some (vzero, mident, 5/3)) /\ procrustes svd stretched corners [] = Ok (Some (vzero, mident, 5/9)) /\ 5/3 * (5/9) < 1.
Proof.
  exists (svd_known mident (mkV3 4 4 2) mident). split; [apply svd_known_contract; [exact ident_orth|exact ident_orth|cbn; lra..]|].
  assert (I : mmul (mtrans mident) (mtrans mident) = mident) by (m3; ring).
  split; [|split; [|lra]]; (rewrite procrustes_known; unfold stretched, corners; [|reflexivity|flatv|flatv|flatr|flatr|flatm]); rewrite I; do 3 f_equal; flat0; field.
Qed.
Print Assumptions C166_case.

(** The same for orientations. *)
Section Turns.
  Context {Q : Type} (ops : rot_ops Q) (RC : rot_contract ops).
  Lemma chordal_sym a b : chordal a b = chordal b a.
  Proof. unfold chordal. destruct a as [[] [] []], b as [[] [] []]. munf. ring. Qed.
  Lemma misorientation_back m from to : is_rot m -> length to = length from -> misorientation ops (mtrans m) to from = misorientation ops m from to.
  Proof.
    intros RM. unfold misorientation. revert to. induction from as [|p from IH]; intros [|q to] L; cbn in L; try lia; [reflexivity|]. cbn [combine map fold_right fst snd]. rewrite IH by lia. f_equal.
    rewrite <- (chordal_frame m _ _ RM), <- mmul_assoc, (is_rot_right m RM), mmul_ident_l. apply chordal_sym.
  Qed.
  Lemma misorientation_moved m r from to : misorientation ops m (map (rmul ops r) from) to = misorientation ops (mmul m (as_matrix ops r)) from to.
  Proof.
    unfold misorientation. revert to. induction from as [|p from IH]; intros [|q to]; try reflexivity. cbn [map combine fold_right fst snd]. rewrite IH, (rc_mul ops RC), mmul_assoc. reflexivity.
  Qed.
End Turns.

Theorem C166_rotation_back : forall Q (ops : rot_ops Q) mean from to e e', rot_contract ops -> mean_contract ops mean -> length to = length from ->
  align_rotations ops mean (Some from) (Some to) = Ok (Some e) -> align_rotations ops mean (Some to) (Some from) = Ok (Some e') ->
  misorientation ops (rotation_matrix ops e') to from = misorientation ops (rotation_matrix ops e) from to /\ (clear_turn ops from to -> rotation_matrix ops e' = mtrans (rotation_matrix ops e)).
Proof.
  intros Q ops mean from to e e' RC MC L H H'. destruct (C79_optimal Q ops mean from to e RC MC L H) as [RE OPT]. destruct (C79_optimal Q ops mean to from e' RC MC (eq_sym L) H') as [RE' OPT'].
  set (m := rotation_matrix ops e) in *. set (m' := rotation_matrix ops e') in *.
  assert (B : misorientation ops (mtrans m') from to = misorientation ops m' to from) by (apply misorientation_back; auto).
  assert (EQ : misorientation ops m' to from = misorientation ops m from to).
  { apply Rle_antisym; [rewrite <- (misorientation_back ops m from to RE L); apply OPT', is_rot_mtrans, RE|rewrite <- B; apply OPT, is_rot_mtrans, RE']. }
  split; [exact EQ|]. intro C. rewrite <- (mtrans_invol m'). f_equal. apply C.
  - split; [apply is_rot_mtrans, RE'|]. intros k RK. rewrite B, EQ. apply OPT, RK.
  - split; [exact RE|exact OPT].
Qed.
Print Assumptions C166_rotation_back.

Theorem C166_rotation_again : forall Q (ops : rot_ops Q) mean from to e e', rot_contract ops -> mean_contract ops mean -> length to = length from ->
  align_rotations ops mean (Some from) (Some to) = Ok (Some e) -> align_rotations ops mean (Some (map (rmul ops (from_euler ops e)) from)) (Some to) = Ok (Some e') ->
  misorientation ops (rotation_matrix ops e') (map (rmul ops (from_euler ops e)) from) to = misorientation ops (rotation_matrix ops e) from to /\ (clear_turn ops from to -> rotation_matrix ops e' = mident).
Proof.
  intros Q ops mean from to e e' RC MC L H H'. destruct (C79_optimal Q ops mean from to e RC MC L H) as [RE OPT]. destruct (C79_optimal Q ops mean _ to e' RC MC ltac:(rewrite map_length; exact L) H') as [RE' OPT'].
  change (as_matrix ops (from_euler ops e)) with (rotation_matrix ops e) in *. set (m := rotation_matrix ops e) in *. set (m' := rotation_matrix ops e') in *.
  assert (MV : forall k, misorientation ops k (map (rmul ops (from_euler ops e)) from) to = misorientation ops (mmul k m) from to) by (intro k; apply misorientation_moved, RC).
  assert (EQ : misorientation ops (mmul m' m) from to = misorientation ops m from to).
  { apply Rle_antisym; [|apply OPT, is_rot_mmul; assumption]. rewrite <- MV. eapply Rle_trans; [apply (OPT' mident is_rot_ident)|]. rewrite MV, mmul_ident_l. apply Rle_refl. }
  split; [rewrite MV; exact EQ|]. intro C. assert (E : mmul m' m = m).
  { apply C; [|split; assumption]. split; [apply is_rot_mmul; assumption|]. intros k RK. rewrite EQ. apply OPT, RK. }
  rewrite <- (mmul_ident_r m'), <- (is_rot_right m RE), <- mmul_assoc, E. reflexivity.
Qed.
Print Assumptions C166_rotation_again.

(** Two orientations and the same after a quarter turn, there and back *)
Example C166_rotation_case : exists e e', clear_turn rot_impl [ident_q; quarter_q] [quarter_q; rmul rot_impl quarter_q quarter_q] /\
  align_rotations rot_impl mean_equal (Some [ident_q; quarter_q]) (Some [quarter_q; rmul rot_impl quarter_q quarter_q]) = Ok (Some e) /\
  align_rotations rot_impl mean_equal (Some [quarter_q; rmul rot_impl quarter_q quarter_q]) (Some [ident_q; quarter_q]) = Ok (Some e') /\ rotation_matrix rot_impl e' = mtrans (rotation_matrix rot_impl e).
Proof.
  destruct C79_case as (e & MC & E).
  assert (B : exists e', align_rotations rot_impl mean_equal (Some [quarter_q; rmul rot_impl quarter_q quarter_q]) (Some [ident_q; quarter_q]) = Ok (Some e')).
  { unfold align_rotations. rewrite broadcast_ok by reflexivity. cbn [bind combine map fst snd mean_equal forallb].
    assert (M3eqb (proj1_sig (rmul rot_impl quarter_q (rinv rot_impl (rmul rot_impl quarter_q quarter_q)))) (proj1_sig (rmul rot_impl ident_q (rinv rot_impl quarter_q))) = true) as ->.
    { apply M3eqb_true. cbn [rot_impl rmul rinv proj1_sig quarter_q ident_q]. unfold quarter. m3; ring. }
    cbn [andb bind]. eexists. reflexivity. }
  destruct B as (e' & B). exists e, e'.
  assert (C : clear_turn rot_impl [ident_q; quarter_q] [quarter_q; rmul rot_impl quarter_q quarter_q]).
  { assert (K : forall m, best_turn rot_impl [ident_q; quarter_q] [quarter_q; rmul rot_impl quarter_q quarter_q] m -> m = quarter).
    { intros m [RM O]. specialize (O quarter quarter_rot). unfold misorientation in O. cbn [combine map fold_right fst snd] in O.
      change (as_matrix rot_impl (rmul rot_impl quarter_q quarter_q)) with (mmul quarter quarter) in O. change (as_matrix rot_impl quarter_q) with quarter in O. change (as_matrix rot_impl ident_q) with mident in O.
      rewrite !mmul_ident_r, !chordal_same in O. apply chordal_zero. pose proof (chordal_nonneg m quarter). pose proof (chordal_nonneg (mmul m quarter) (mmul quarter quarter)). lra. }
    intros m m' M M'. rewrite (K m M), (K m' M'). reflexivity. }
  split; [exact C|]. split; [exact E|]. split; [exact B|]. exact (proj2 (C166_rotation_back _ rot_impl mean_equal [ident_q; quarter_q] [quarter_q; rmul rot_impl quarter_q quarter_q] e e' rot_impl_contract MC eq_refl E B) C).
Qed.
Print Assumptions C166_rotation_case.
