(** Property C132: what is left after the closed-form alignment does not depend on the frames of the data. *)
From Verif Require Import Base BaseFacts VecFacts NumpyModel TrajModel GeomModel GeomSpec GeomFacts GeomFacts2 LsqModel LsqSpec DirectModel DirectSpec DirectFacts DirectFacts2 DirectProps.

Lemma similar_comp t m s t0 m0 s0 p : similar t m s (similar t0 m0 s0 p) = similar (similar t m s t0) (mmul m m0) (s * s0) p.
Proof. unfold similar. rewrite mapply_add, mapply_scale, mapply_mmul. apply V3_eq; cbn [vx vy vz vadd vscale]; ring. Qed.

Lemma similar_back t0 m0 s0 p : orthogonal m0 -> s0 <> 0 -> similar (vscale (- / s0) (mapply (mtrans m0) t0)) (mtrans m0) (/ s0) (similar t0 m0 s0 p) = p.
Proof.
  intros O N. rewrite similar_comp. unfold orthogonal in O. rewrite O. unfold similar.
  replace (/ s0 * s0) with 1 by (field; exact N). generalize (mapply (mtrans m0) t0). intro w. rewrite mapply_ident. apply V3_eq; cbn; ring.
Qed.

Lemma misfit_moved t m s t' m' s' f : (forall p, similar t m s (f p) = similar t' m' s' p) -> forall w from to, misfit t m s w (map f from) to = misfit t' m' s' w from to.
Proof. intros H w from. revert w. induction from as [|p from IH]; intros [|x w] [|q to]; try reflexivity. cbn [map misfit]. rewrite H, IH. reflexivity. Qed.

Lemma orth_dist t m s p q : orthogonal m -> vdist (similar t m s p) (similar t m s q) ^ 2 = s ^ 2 * vdist p q ^ 2.
Proof.
  intro H. unfold vdist, similar.
  replace (vsub (vadd t (vscale s (mapply m p))) (vadd t (vscale s (mapply m q)))) with (vscale s (mapply m (vsub p q))) by (rewrite mapply_sub; apply V3_eq; cbn; ring).
  rewrite vnorm_scale, Rpow_mult_distr, <- Rsqr_pow2, <- Rsqr_abs, Rsqr_pow2. f_equal.
  rewrite <- !Rsqr_pow2. unfold Rsqr. rewrite !vnorm_sq. apply orth_dot, H.
Qed.

Lemma misfit_targets t m s t' m' s' t0 m0 s0 : orthogonal m0 -> (forall p, similar t m s p = similar t0 m0 s0 (similar t' m' s' p)) ->
  forall w from to, misfit t m s w from (map (similar t0 m0 s0) to) = s0 ^ 2 * misfit t' m' s' w from to.
Proof.
  intros O H w from. revert w. induction from as [|p from IH]; intros [|x w] [|q to]; cbn [map misfit]; try ring. rewrite H, IH, orth_dist by exact O. ring.
Qed.

(** Sources in another frame, at another scale or mirrored: the same is left. *)
Theorem C132_sources : forall svd from to weights t m s t' m' s' t0 m0 s0, svd_contract svd -> Forall (fun x => 0 <= x) weights -> orthogonal m0 -> s0 <> 0 ->
  procrustes svd from to weights = Ok (Some (t, m, s)) -> procrustes svd (map (similar t0 m0 s0) from) to weights = Ok (Some (t', m', s')) ->
  let w := used_weights (length from) weights in
  misfit t' m' s' w (map (similar t0 m0 s0) from) to = misfit t m s w from to.
Proof.
  intros svd from to weights t m s t' m' s' t0 m0 s0 SC F O N E E' w.
  destruct (C76_optimal svd from to weights t m s SC F E) as (O1 & _ & OPT). destruct (C76_optimal svd _ to weights t' m' s' SC F E') as (O2 & _ & OPT').
  rewrite map_length in OPT'. fold w in OPT, OPT'. apply Rle_antisym.
  - pose (t1 := vscale (- / s0) (mapply (mtrans m0) t0)).
    eapply Rle_trans; [apply (OPT' (similar t m s t1) (mmul m (mtrans m0)) (s * / s0)); apply orth_mmul; [exact O1|apply orth_trans, O]|].
    apply Req_le. apply misfit_moved. intro p. rewrite <- similar_comp. unfold t1. rewrite similar_back by assumption. reflexivity.
  - rewrite (misfit_moved t' m' s' (similar t' m' s' t0) (mmul m' m0) (s' * s0)) by (intro p; apply similar_comp). apply OPT, orth_mmul; assumption.
Qed.
Print Assumptions C132_sources.

(** Targets in another frame or at another scale: what is left scales. *)
Theorem C132_targets : forall svd from to weights t m s t' m' s' t0 m0 s0, svd_contract svd -> Forall (fun x => 0 <= x) weights -> orthogonal m0 -> s0 <> 0 ->
  procrustes svd from to weights = Ok (Some (t, m, s)) -> procrustes svd from (map (similar t0 m0 s0) to) weights = Ok (Some (t', m', s')) ->
  let w := used_weights (length from) weights in
  misfit t' m' s' w from (map (similar t0 m0 s0) to) = s0 ^ 2 * misfit t m s w from to.
Proof.
  intros svd from to weights t m s t' m' s' t0 m0 s0 SC F O N E E' w.
  destruct (C76_optimal svd from to weights t m s SC F E) as (O1 & _ & OPT). destruct (C76_optimal svd from _ weights t' m' s' SC F E') as (O2 & _ & OPT').
  fold w in OPT, OPT'. apply Rle_antisym.
  - eapply Rle_trans; [apply (OPT' (similar t0 m0 s0 t) (mmul m0 m) (s0 * s)); apply orth_mmul; assumption|].
    apply Req_le. apply misfit_targets; [exact O|]. intro p. symmetry. apply similar_comp.
  - pose (t1 := vscale (- / s0) (mapply (mtrans m0) t0)).
    rewrite (misfit_targets t' m' s' (similar t1 (mtrans m0) (/ s0) t') (mmul (mtrans m0) m') (/ s0 * s') t0 m0 s0 O).
    + apply Rmult_le_compat_l; [apply pow2_ge_0|]. apply OPT, orth_mmul; [apply orth_trans, O|exact O2].
    + intro p. rewrite <- similar_comp. assert (FW : forall x, similar t0 m0 s0 (similar t1 (mtrans m0) (/ s0) x) = x); [|rewrite FW; reflexivity].
      intro x. rewrite similar_comp. rewrite (orth_right m0 O). unfold t1, similar. rewrite mapply_scale, <- mapply_mmul, (orth_right m0 O), !mapply_ident.
      apply V3_eq; cbn; field; exact N.
Qed.
Print Assumptions C132_targets.

Lemma np_sum_permuted l l' : Permutation l l' -> np_sum l = np_sum l'.
Proof. induction 1; unfold np_sum in *; cbn [fold_right] in *; lra. Qed.

(** The order of the pairs of points does not matter. *)
Theorem C132_order : forall svd from to weights from' to' weights' t m s t' m' s', svd_contract svd -> Forall (fun x => 0 <= x) weights -> Forall (fun x => 0 <= x) weights' ->
  let w := used_weights (length from) weights in let w' := used_weights (length from') weights' in
  Permutation (combine w (combine from to)) (combine w' (combine from' to')) ->
  procrustes svd from to weights = Ok (Some (t, m, s)) -> procrustes svd from' to' weights' = Ok (Some (t', m', s')) ->
  misfit t' m' s' w' from' to' = misfit t m s w from to.
Proof.
  intros svd from to weights from' to' weights' t m s t' m' s' SC F F' w w' P E E'.
  destruct (C76_optimal svd from to weights t m s SC F E) as (O1 & _ & OPT). destruct (C76_optimal svd from' to' weights' t' m' s' SC F' E') as (O2 & _ & OPT').
  fold w in OPT. fold w' in OPT'.
  assert (K : forall a b c, misfit a b c w from to = misfit a b c w' from' to').
  { intros a b c. rewrite !misfit_left_over. unfold left_over. apply np_sum_permuted, Permutation_map, P. }
  apply Rle_antisym; [rewrite K; apply OPT', O1|rewrite <- K; apply OPT, O2].
Qed.
Print Assumptions C132_order.

(** Moved sources can be aligned whenever the original ones can. *)
Theorem C132_found : forall svd from to weights t0 m0 s0, (forall A, exists r, svd A = Ok r) -> orthogonal m0 -> s0 <> 0 ->
  length to = length from -> weights = [] \/ length weights = length from -> Forall (fun x => 0 < x) weights -> (exists p q, In p from /\ In q from /\ p <> q) ->
  exists t m s, procrustes svd (map (similar t0 m0 s0) from) to weights = Ok (Some (t, m, s)).
Proof.
  intros svd from to weights t0 m0 s0 SV O N L LW F (p & q & P & Q & D). apply C76_found; rewrite ?map_length; try assumption.
  exists (similar t0 m0 s0 p), (similar t0 m0 s0 q). split; [apply in_map, P|]. split; [apply in_map, Q|]. intro E. apply D.
  rewrite <- (similar_back t0 m0 s0 p O N), <- (similar_back t0 m0 s0 q O N), E. reflexivity.
Qed.
Print Assumptions C132_found.

(** A decomposition that is known for two matrices *)
Definition svd_either (a b : M3 -> result (M3 * V3 * M3)) (A : M3) : result (M3 * V3 * M3) := match a A with Ok r => Ok r | Err _ => b A end.
Lemma procrustes_more svd1 svd2 from to w x : (forall A r, svd1 A = Ok r -> svd2 A = Ok r) -> procrustes svd1 from to w = Ok x -> procrustes svd2 from to w = Ok x.
Proof.
  intros H E. unfold procrustes in *. destruct (_ && _)%bool; [|discriminate]. destruct (Reqb _ 0); [discriminate|].
  apply bind_ok in E as (r & E1 & E2). rewrite (H _ _ E1). exact E2.
Qed.

(** A body of six corners, compared with its copy turned and enlarged: as it is, and turned and enlarged itself *)
Example C132_case : exists svd t m s t' m' s', svd_contract svd /\ orthogonal quarter /\
  procrustes svd corners (map (similar vzero quarter 2) corners) [] = Ok (Some (t, m, s)) /\
  procrustes svd (map (similar vzero quarter 3) corners) (map (similar vzero quarter 2) corners) [] = Ok (Some (t', m', s')).
Proof.
  pose (a := svd_known mident (mkV3 4 4 4) (mtrans quarter)). pose (b := svd_known mident (mkV3 12 12 12) mident).
  assert (OQ : orthogonal quarter) by apply is_rot_orth, quarter_rot.
  assert (CA : svd_contract a) by (apply svd_known_contract; [exact ident_orth|apply orth_trans, OQ|cbn; lra..]).
  assert (CB : svd_contract b) by (apply svd_known_contract; [exact ident_orth|exact ident_orth|cbn; lra..]).
  assert (EA : forall A r, a A = Ok r -> svd_either a b A = Ok r) by (intros A r E; unfold svd_either; rewrite E; reflexivity).
  assert (EB : forall A r, b A = Ok r -> svd_either a b A = Ok r).
  { intros A r E. unfold svd_either. destruct (a A) as [r'|] eqn:X; [exfalso|exact E]. unfold a, b, svd_known in X, E.
    destruct (M3eqb A (mmul mident (mmul (diag3 (mkV3 4 4 4)) (mtrans quarter)))) eqn:Y; [|discriminate]. destruct (M3eqb A (mmul mident (mmul (diag3 (mkV3 12 12 12)) mident))) eqn:Z; [|discriminate].
    apply M3eqb_true in Y, Z. assert (W : vx (row1 (mmul mident (mmul (diag3 (mkV3 4 4 4)) (mtrans quarter)))) = vx (row1 (mmul mident (mmul (diag3 (mkV3 12 12 12)) mident)))) by congruence.
    unfold quarter in W. revert W. flat0. lra. }
  assert (PA : exists t m s, procrustes a corners (map (similar vzero quarter 2) corners) [] = Ok (Some (t, m, s))).
  { unfold a. rewrite procrustes_known; unfold corners, quarter, similar; [|reflexivity|flatv|flatv|flatr|flatr|flatm]. eexists. eexists. eexists. reflexivity. }
  assert (PB : exists t m s, procrustes b (map (similar vzero quarter 3) corners) (map (similar vzero quarter 2) corners) [] = Ok (Some (t, m, s))).
  { unfold b. rewrite procrustes_known; unfold corners, quarter, similar; [|reflexivity|flatv|flatv|flatr|flatr|flatm]. eexists. eexists. eexists. reflexivity. }
  destruct PA as (t & m & s & PA). destruct PB as (t' & m' & s' & PB).
  exists (svd_either a b), t, m, s, t', m', s'. split; [|split; [exact OQ|split; [apply (procrustes_more a _ _ _ _ _ EA PA)|apply (procrustes_more b _ _ _ _ _ EB PB)]]].
  intros A u sv v E. unfold svd_either in E. destruct (a A) as [r|] eqn:X; [injection E as ->; apply CA, X|apply CB, E].
Qed.
Print Assumptions C132_case.
