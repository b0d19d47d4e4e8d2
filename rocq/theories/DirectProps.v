(** Property C76: closed-form similarity transformation. *)
From Verif Require Import Base BaseFacts VecFacts NumpyModel TrajModel GeomModel GeomSpec GeomFacts GeomFacts2 LsqModel LsqSpec DirectModel DirectSpec DirectFacts DirectFacts2.

Lemma used_forall (P : R -> Prop) n w : P 1 -> Forall P w -> Forall P (used_weights n w).
Proof. intros P1 F. unfold used_weights. destruct w; [|exact F]. apply Forall_forall. intros x I. apply repeat_spec in I. subst. exact P1. Qed.
Lemma rows_forall (P : R -> Prop) w from to : Forall P w -> Forall (fun p => P (wt p)) (rows_of w from to).
Proof. intro F. apply Forall_forall. intros [x y] I. rewrite Forall_forall in F. apply F. exact (in_combine_l _ _ _ _ I). Qed.
Lemma sq_src_nonneg c : Forall (fun p => 0 <= wt p) c -> 0 <= sq_src c.
Proof.
  induction 1 as [|p l W F IH]; unfold sq_src in *; cbn [map np_sum fold_right] in *; [lra|]. unfold np_sum in *.
  apply Rplus_le_le_0_compat; [apply Rmult_le_pos; [exact W|apply vdot_nonneg]|exact IH].
Qed.
Lemma sum_w_nonneg c : Forall (fun p => 0 <= wt p) c -> 0 <= sum_w c.
Proof. induction 1 as [|p l W F IH]; unfold sum_w in *; cbn [map np_sum fold_right] in *; [lra|]. unfold np_sum in *. lra. Qed.
Lemma cen_nonneg rows : Forall (fun p => 0 <= wt p) rows -> Forall (fun p => 0 <= wt p) (cen rows).
Proof. intro F. apply Forall_forall. intros p I. apply in_map_iff in I as [q [<- I]]. rewrite Forall_forall in F. exact (F q I). Qed.

Lemma procrustes_inv svd from to weights t m s : svd_contract svd -> procrustes svd from to weights = Ok (Some (t, m, s)) ->
  let w := used_weights (length from) weights in
  length to = length from /\ length w = length from /\ sum_w (rows_of w from to) <> 0 /\ sq_src (cen (rows_of w from to)) <> 0 /\
  exists u sv v, decomposed (moment (cen (rows_of w from to))) u sv v /\
    t = est_translation u v from to w /\ m = est_rotation u v /\ s = est_scale u v from to w.
Proof.
  intros SC E w. pose proof E as E'. unfold procrustes in E'. fold (used_weights (length from) weights) in E'. fold w in E'.
  destruct ((length to =? length from) && (length w =? length from))%nat eqn:L; [|discriminate]. apply andb_true_iff in L as [LT LW].
  apply Nat.eqb_eq in LT, LW. split; [exact LT|]. split; [exact LW|].
  assert (np_sum w = sum_w (rows_of w from to)) as ES by (unfold sum_w; rewrite (rows_weights from to w LT LW); reflexivity).
  rewrite ES in E'. destruct (Reqb (sum_w (rows_of w from to)) 0) eqn:E0; [discriminate|]. apply Reqb_false in E0. split; [exact E0|].
  cbn zeta in E'. fold (sum_src (rows_of w from to)) in E'. fold (sum_tgt (rows_of w from to)) in E'. fold (cen_from (rows_of w from to)) in E'. fold (cen_to (rows_of w from to)) in E'.
  change (map (fun p => (wt p, (vsub (src p) (cen_from (rows_of w from to)), vsub (tgt p) (cen_to (rows_of w from to))))) (rows_of w from to)) with (cen (rows_of w from to)) in E'.
  rewrite sq_src_norms in E'. apply bind_ok in E' as [[[u sv] v] [V E']]. fold (moment (cen (rows_of w from to))) in V.
  destruct (Reqb (sq_src (cen (rows_of w from to))) 0) eqn:E1; [discriminate|]. apply Reqb_false in E1. split; [exact E1|]. clear E'.
  exists u, sv, v. split; [exact (SC _ _ _ _ V)|]. rewrite procrustes_cases in E by assumption. fold w in E. rewrite V in E. cbn [bind] in E. injection E as <- <- <-. repeat split.
Qed.

(** The estimate is a best one: its matrix is orthogonal, its scale is not negative, and no scale, translation and orthogonal
    matrix, so in particular no similarity transformation, leave a smaller weighted sum of squared distances. *)
Theorem C76_optimal : forall svd from to weights t m s, svd_contract svd -> Forall (fun x => 0 <= x) weights ->
  procrustes svd from to weights = Ok (Some (t, m, s)) ->
  let w := used_weights (length from) weights in
  orthogonal m /\ 0 <= s /\
  forall t' m' s', orthogonal m' -> misfit t m s w from to <= misfit t' m' s' w from to.
Proof.
  intros svd from to weights t m s SC F E w. destruct (procrustes_inv svd from to weights t m s SC E) as (LT & LW & NW & NS & u & sv & v & D & -> & -> & ->). subst w. set (w := used_weights (length from) weights) in *.
  assert (Forall (fun p => 0 <= wt p) (rows_of w from to)) as FW by (apply rows_forall; apply (used_forall (fun x => 0 <= x)); [lra|exact F]).
  pose proof (sum_w_nonneg _ FW) as PW. pose proof (sq_src_nonneg _ (cen_nonneg _ FW)) as PS.
  assert (0 < sum_w (rows_of w from to)) by lra. assert (0 < sq_src (cen (rows_of w from to))) by lra.
  split; [exact (rotation_orth u sv v from to w D)|]. split; [apply (scale_nonneg u sv v from to w D); assumption|].
  intros t' m' s' O. rewrite !misfit_left_over. apply (estimate_optimal u sv v from to w D NW); assumption.
Qed.
Print Assumptions C76_optimal.

(** It is found whenever the decomposition is: for point lists of the same length, positive weights, and sources that are not
    all in one place. *)
Theorem C76_found : forall svd from to weights, (forall A, exists r, svd A = Ok r) ->
  length to = length from -> weights = [] \/ length weights = length from -> Forall (fun x => 0 < x) weights ->
  (exists p q, In p from /\ In q from /\ p <> q) ->
  exists t m s, procrustes svd from to weights = Ok (Some (t, m, s)).
Proof.
  intros svd from to weights SV LT LW F (p & q & P & Q' & N). set (w := used_weights (length from) weights).
  assert (length w = length from) as LW'.
  { unfold w, used_weights. destruct weights; [apply repeat_length|]. destruct LW as [LW|LW]; [discriminate|exact LW]. }
  assert (Forall (fun p => 0 < wt p) (rows_of w from to)) as FW by (apply rows_forall; apply (used_forall (fun x => 0 < x)); [lra|exact F]).
  assert (forall p, In p from -> exists r, In r (rows_of w from to) /\ src r = p) as IN.
  { assert (length from = length w) as L1 by congruence. revert L1 LT. generalize w, to. clear. induction from as [|a from IH]; intros [|x w] [|b to] L1 LT p I; cbn in *; try contradiction; try lia.
    destruct I as [->|I]; [exists (x, (p, b)); split; [left; reflexivity|reflexivity]|]. destruct (IH w to ltac:(lia) ltac:(lia) p I) as (r & R1 & R2). exists r. split; [right; exact R1|exact R2]. }
  destruct (IN p P) as (rp & RP & EP). destruct (IN q Q') as (rq & RQ & EQ).
  assert (rows_of w from to <> []) as NE by (intro Z; rewrite Z in RP; destruct RP).
  pose proof (sum_w_positive _ FW NE) as PW.
  assert (0 < sq_src (cen (rows_of w from to))) as PS.
  { apply sq_src_positive; [apply cen_weights, FW|]. apply cen_nonzero. exists rp, rq. split; [exact RP|]. split; [exact RQ|]. congruence. }
  rewrite procrustes_cases by (fold w; try assumption; lra). fold w. destruct (SV (moment (cen (rows_of w from to)))) as [[[u s] v] ->]. cbn [bind]. eexists. eexists. eexists. reflexivity.
Qed.
Print Assumptions C76_found.

(** Lists of different lengths are refused; sources in one place give not-a-number parameters without an error. *)
Theorem C76_refused : forall svd from to weights,
  length to <> length from \/ (weights <> [] /\ length weights <> length from) \/ from = [] ->
  procrustes svd from to weights = Err ValueError.
Proof.
  intros svd from to weights H. unfold procrustes. fold (used_weights (length from) weights).
  destruct ((length to =? length from) && (length (used_weights (length from) weights) =? length from))%nat eqn:E; [|reflexivity].
  apply andb_true_iff in E as [LT LW]. apply Nat.eqb_eq in LT, LW. destruct H as [H|[[H1 H2]|H]].
  - contradiction.
  - unfold used_weights in LW. destruct weights; [congruence|contradiction].
  - subst from. cbn [length] in LW |- *. destruct (used_weights 0 weights); [|discriminate]. cbn [np_sum fold_right]. rewrite Reqb_refl. reflexivity.
Qed.
Print Assumptions C76_refused.

Lemma misfit_exact t m s w from : misfit t m s w from (map (similar t m s) from) = 0.
Proof.
  revert w. induction from as [|p from IH]; intros [|x w]; try reflexivity. cbn [map misfit]. rewrite IH. unfold vdist.
  assert (vsub (similar t m s p) (similar t m s p) = vzero) as -> by (generalize (similar t m s p); intros []; v3; ring).
  assert (vnorm vzero = 0) as -> by (apply vnorm_zero_iff; reflexivity). cbn. ring.
Qed.
Lemma exact_everywhere svd from weights t m s t0 m0 s0 : svd_contract svd -> Forall (fun x => 0 < x) weights -> orthogonal m0 ->
  procrustes svd from (map (similar t0 m0 s0) from) weights = Ok (Some (t, m, s)) ->
  orthogonal m /\ 0 <= s /\ forall p, In p from -> similar t m s p = similar t0 m0 s0 p.
Proof.
  intros SC F O0 E. assert (Forall (fun x => 0 <= x) weights) as F' by (eapply Forall_impl; [|exact F]; cbn; intros; lra).
  destruct (C76_optimal svd from _ weights t m s SC F' E) as (O & PS & OPT). split; [exact O|]. split; [exact PS|].
  destruct (procrustes_inv svd from _ weights t m s SC E) as (LT & LW & _). set (w := used_weights (length from) weights) in *.
  specialize (OPT t0 m0 s0 O0). rewrite misfit_exact in OPT. rewrite misfit_left_over in OPT.
  assert (Forall (fun p => 0 < wt p) (rows_of w from (map (similar t0 m0 s0) from))) as FW by (apply rows_forall; apply (used_forall (fun x => 0 < x)); [lra|exact F]).
  assert (0 <= left_over t m s (rows_of w from (map (similar t0 m0 s0) from))) as NN by (apply left_over_nonneg; eapply Forall_impl; [|exact FW]; cbn; intros; lra).
  assert (left_over t m s (rows_of w from (map (similar t0 m0 s0) from)) = 0) as Z by lra.
  apply left_over_zero in Z; [|exact FW]. intros p I. rewrite Forall_forall in Z.
  assert (exists x, In (x, (p, similar t0 m0 s0 p)) (rows_of w from (map (similar t0 m0 s0) from))) as [x IX].
  { clear - LW I. assert (length w = length from) as L by exact LW. clear LW. revert L I. generalize w. induction from as [|a l IH]; intros [|x w'] L I; cbn in *; try contradiction; try lia.
    destruct I as [->|I]; [exists x; left; reflexivity|]. destruct (IH w' ltac:(lia) I) as [y Y]. exists y. right. exact Y. }
  specialize (Z _ IX). cbn [tgt src fst snd] in Z. symmetry. exact Z.
Qed.

(** Exact data: if the targets are the sources after a similarity transformation and the sources are not on one line, the
    scale is found, and all parameters are found if the sources are not in one plane, or if the estimated matrix is a
    rotation.  Missing from C76: sources in one plane may give a reflection (see C76_planar_refuted). *)
Theorem C76_recovered_partial : forall svd from weights t m s t0 m0 s0, svd_contract svd -> Forall (fun x => 0 < x) weights ->
  is_rot m0 -> 0 < s0 -> not_collinear from ->
  procrustes svd from (map (similar t0 m0 s0) from) weights = Ok (Some (t, m, s)) ->
  s = s0 /\ (not_coplanar from \/ mdet m = 1 -> m = m0 /\ t = t0).
Proof.
  intros svd from weights t m s t0 m0 s0 SC F R0 P0 NC E. destruct (exact_everywhere svd from weights t m s t0 m0 s0 SC F (is_rot_orth _ R0) E) as (O & PS & SAME).
  split; [exact (exact_scale t t0 m m0 s s0 from O R0 PS P0 SAME NC)|]. intros [N|D].
  - destruct (exact_spatial t t0 m m0 s s0 from O R0 PS P0 SAME N) as (A & _ & B). split; assumption.
  - destruct (exact_proper t t0 m m0 s s0 from O R0 PS P0 SAME NC D) as (A & _ & B). split; assumption.
Qed.
Print Assumptions C76_recovered_partial.

(** The parameters that are returned: if the estimated matrix is a rotation, they transform points as the estimate does, so
    for exact, spatial data they carry the sources to the targets. *)
Theorem C76_parameters_partial : forall Q (ops : rot_ops Q) svd from to weights t e s, rot_contract ops -> svd_contract svd ->
  direct_helmert svd ops from to weights = Ok (Some (t, e, s)) ->
  exists m, procrustes svd from to weights = Ok (Some (t, m, s)) /\
    (mdet m = 1 -> forall p, helmert_apply_to ops t e s p = similar t m s p).
Proof.
  intros Q ops svd from to weights t e s RC SC E. unfold direct_helmert in E. destruct (procrustes svd from to weights) as [[[[t1 m] s1]|]|] eqn:P; try discriminate.
  cbn in E. injection E as <- <- <-. exists m. split; [reflexivity|]. intros D p. unfold helmert_apply_to, similar, rotation_matrix.
  rewrite (rc_as_euler ops RC), (rc_from ops RC); [reflexivity|]. destruct (procrustes_inv svd from to weights t1 m s1 SC P) as (_ & _ & _ & _ & u & sv & v & D1 & _ & -> & _).
  split; [exact (rotation_orth u sv v from to _ D1)|exact D].
Qed.
Print Assumptions C76_parameters_partial.

Theorem C76_aligned : forall Q (ops : rot_ops Q) svd from weights t e s t0 m0 s0, rot_contract ops -> svd_contract svd -> Forall (fun x => 0 < x) weights ->
  is_rot m0 -> 0 < s0 -> not_coplanar from ->
  direct_helmert svd ops from (map (similar t0 m0 s0) from) weights = Ok (Some (t, e, s)) ->
  t = t0 /\ s = s0 /\ rotation_matrix ops e = m0 /\ map (helmert_apply_to ops t e s) from = map (similar t0 m0 s0) from.
Proof.
  intros Q ops svd from weights t e s t0 m0 s0 RC SC F R0 P0 N E. destruct (C76_parameters_partial Q ops svd from _ weights t e s RC SC E) as (m & P & AP).
  destruct (C76_recovered_partial svd from weights t m s t0 m0 s0 SC F R0 P0 (coplanar_collinear _ N) P) as (-> & RE). destruct (RE (or_introl N)) as [-> ->].
  split; [reflexivity|]. split; [reflexivity|]. split.
  - unfold direct_helmert in E. rewrite P in E. cbn in E. injection E as <-. unfold rotation_matrix. rewrite (rc_as_euler ops RC). apply (rc_from ops RC), R0.
  - apply map_ext. intro p. apply AP. exact (proj2 R0).
Qed.
Print Assumptions C76_aligned.

Lemma sum_zero {A} (f : A -> R) l : (forall x, In x l -> f x = 0) -> np_sum (map f l) = 0.
Proof. induction l as [|a l IH]; intro H; [reflexivity|]. unfold np_sum in *. cbn [map fold_right]. rewrite (H a (or_introl eq_refl)), IH; [ring|]. intros x I. apply H. right. exact I. Qed.
(** Sources in one place: no error, but not-a-number parameters. *)
Theorem C76_one_place : forall svd p to weights, (forall A, exists r, svd A = Ok r) ->
  to <> [] -> weights = [] \/ length weights = length to -> Forall (fun x => 0 < x) weights ->
  procrustes svd (repeat p (length to)) to weights = Ok None.
Proof.
  intros svd p to weights SV NE LW F. set (from := repeat p (length to)). assert (length from = length to) as LF by apply repeat_length.
  assert (length (used_weights (length from) weights) = length from) as LW'.
  { unfold used_weights. destruct weights; [apply repeat_length|]. destruct LW as [LW|LW]; [discriminate|]. congruence. }
  unfold procrustes. fold (used_weights (length from) weights). set (w := used_weights (length from) weights) in *.
  rewrite LW', LF, Nat.eqb_refl. cbn [andb].
  assert (Forall (fun p => 0 < wt p) (rows_of w from to)) as FW by (apply rows_forall; apply (used_forall (fun x => 0 < x)); [lra|exact F]).
  assert (rows_of w from to <> []) as NE'.
  { destruct to; [congruence|]. destruct from; [discriminate|]. destruct w; [discriminate|]. discriminate. }
  pose proof (sum_w_positive _ FW NE') as PW.
  assert (np_sum w = sum_w (rows_of w from to)) as ES by (unfold sum_w; rewrite (rows_weights from to w) by congruence; reflexivity).
  rewrite ES. rewrite (proj2 (Reqb_false _ _)) by lra. cbn zeta. fold (sum_src (rows_of w from to)). fold (cen_from (rows_of w from to)).
  assert (forall r, In r (rows_of w from to) -> src r = p) as ALL.
  { intros [x [y z]] I. apply in_combine_r in I. apply in_combine_l in I. apply repeat_spec in I. exact I. }
  assert (forall c, (forall r, In r c -> src r = p) -> sum_src c = vscale (sum_w c) p) as SUM.
  { clear. induction c as [|[x [y z]] c IH]; intro H; unfold sum_src, sum_w, vsum, np_sum in *; cbn [map fold_right] in *; [destruct p; v3; ring|].
    rewrite IH by (intros r I; apply H; right; exact I). pose proof (H _ (or_introl eq_refl)) as E. cbn in E. subst y. unfold wt, src. cbn [fst snd]. generalize (fold_right Rplus 0 (map (fun p0 : R * (V3 * V3) => fst p0) c)). intro k. destruct p. v3; ring. }
  assert (cen_from (rows_of w from to) = p) as -> by (unfold cen_from; rewrite (SUM _ ALL); destruct p; v3; field; lra).
  match goal with |- context [svd ?A] => destruct (SV A) as [[[u s] v] ->] end. cbn [bind].
  rewrite (proj2 (Reqb_true _ _)); [reflexivity|]. rewrite map_map. apply sum_zero. intros r I. unfold src at 1 2. cbn [fst snd]. rewrite (ALL r I).
  assert (vsub p p = vzero) as -> by (destruct p; v3; ring). rewrite (proj2 (vnorm_zero_iff vzero) eq_refl). ring.
Qed.
Print Assumptions C76_one_place.

(** Nearly flat data with opposite vertical deviations: the estimate is a reflection; the angles made of it, whatever
    they are, do worse than leaving the orientation alone. *)
Definition near_flat : list V3 := [mkV3 1 0 0; mkV3 (-1) 0 0; mkV3 0 1 0; mkV3 0 (-1) 0; mkV3 0 0 (1/10); mkV3 0 0 (-1/10)].
Definition mirror : M3 := mkM3 (mkV3 1 0 0) (mkV3 0 1 0) (mkV3 0 0 (-1)).
Definition near_flat_to : list V3 := map (fun p => mkV3 (vx p) (vy p) (- vz p)) near_flat.

Lemma rot_diagonal m : is_rot m -> vx (row1 m) + vy (row2 m) - vz (row3 m) <= 1 /\ vz (row3 m) <= 1.
Proof.
  intro H. pose proof (is_rot_adj m H) as A. pose proof (is_rot_right m H) as B. destruct m as [[a b c] [d e f] [g h i]].
  unfold madj in A. munfall. injection A as A1 A2 A3 A4 A5 A6 A7 A8 A9. injection B as B1 B2 B3 B4 B5 B6 B7 B8 B9.
  assert (4 * (1 - a - e + i) = (1 - a - e + i) ^ 2 + (d - b) ^ 2 + (c + g) ^ 2 + (f + h) ^ 2) as X by lra.
  pose proof (pow2_ge_0 (1 - a - e + i)). pose proof (pow2_ge_0 (d - b)). pose proof (pow2_ge_0 (c + g)). pose proof (pow2_ge_0 (f + h)).
  split; [cbn in *; lra|]. cbn. clear - B9. nra.
Qed.

Lemma near_flat_to_similar : near_flat_to = map (similar vzero mirror 1) near_flat.
Proof. unfold near_flat_to. apply map_ext. intros [x y z]. unfold similar, mirror. v3; munf; ring. Qed.
Lemma mirror_orth : orthogonal mirror. Proof. unfold orthogonal, mirror. m3; ring. Qed.

Lemma near_flat_estimate svd t m s : svd_contract svd -> procrustes svd near_flat near_flat_to [] = Ok (Some (t, m, s)) -> t = vzero /\ m = mirror /\ s = 1.
Proof.
  intros SC E. rewrite near_flat_to_similar in E. destruct (exact_everywhere svd near_flat [] t m s vzero mirror 1 SC (Forall_nil _) mirror_orth E) as (O & PS & SAME).
  pose proof (SAME (mkV3 1 0 0) ltac:(cbn; tauto)) as E1. pose proof (SAME (mkV3 (-1) 0 0) ltac:(cbn; tauto)) as E2.
  pose proof (SAME (mkV3 0 1 0) ltac:(cbn; tauto)) as E3. pose proof (SAME (mkV3 0 0 (1/10)) ltac:(cbn; tauto)) as E4. clear SAME E SC.
  unfold orthogonal, similar, mirror in *. destruct m as [[a b c] [d e f] [g h i]], t as [t1 t2 t3]. munfall.
  injection E1 as X1 X2 X3. injection E2 as Y1 Y2 Y3. injection E3 as Z1 Z2 Z3. injection E4 as W1 W2 W3. injection O as O1 O2 O3 O4 O5 O6 O7 O8 O9.
  assert (t1 = 0) by lra. assert (t2 = 0) by lra. assert (t3 = 0) by lra. subst.
  assert (s * a = 1) as SA by lra. assert (s * d = 0) as SD by lra. assert (s * g = 0) as SG by lra.
  assert (s * b = 0) by lra. assert (s * e = 1) by lra. assert (s * h = 0) by lra.
  assert (s * c = 0) by lra. assert (s * f = 0) by lra. assert (s * i = -1) by lra.
  assert (s * s = 1) as SS.
  { replace (s * s) with (s * s * (a * a + d * d + g * g)) by (rewrite O1; ring).
    replace (s * s * (a * a + d * d + g * g)) with ((s * a) * (s * a) + (s * d) * (s * d) + (s * g) * (s * g)) by ring. rewrite SA, SD, SG. ring. }
  assert (s = 1) by (clear - SS PS; nra). subst s. split; [reflexivity|]. split; [|reflexivity]. apply M3_eq; apply V3_eq; cbn; lra.
Qed.

Theorem C76_mirrored_refuted : forall Q (ops : rot_ops Q) svd t e s, rot_contract ops -> svd_contract svd ->
  direct_helmert svd ops near_flat near_flat_to [] = Ok (Some (t, e, s)) ->
  misfit vzero mident (99 / 100) (repeat 1 6) near_flat near_flat_to
    < misfit t (rotation_matrix ops e) s (repeat 1 6) near_flat near_flat_to.
Proof.
  intros Q ops svd t e s RC SC E. destruct (C76_parameters_partial Q ops svd _ _ _ t e s RC SC E) as (m & P & _).
  destruct (near_flat_estimate svd t m s SC P) as (-> & _ & ->).
  pose proof (rc_rot ops RC (from_euler ops e)) as IR. fold (rotation_matrix ops e) in IR. set (q := rotation_matrix ops e) in *. clearbody q.
  pose proof (rot_diagonal q IR) as [D1 D2]. destruct IR as [O _]. rewrite !misfit_left_over. unfold left_over.
  destruct q as [[a b c] [d f g] [h i j]]. unfold near_flat_to, near_flat. cbn [map combine repeat np_sum fold_right wt src tgt fst snd vx vy vz].
  unfold similar, np_sum. munfall. injection O as O1 O2 O3 O4 O5 O6 O7 O8 O9. cbn [fold_right]. lra.
Qed.
Print Assumptions C76_mirrored_refuted.

(** A decomposition that is known for one matrix and raises for all others; it meets the contract. *)
Definition V3eqb (a b : V3) : bool := Reqb (vx a) (vx b) && Reqb (vy a) (vy b) && Reqb (vz a) (vz b).
Definition M3eqb (a b : M3) : bool := V3eqb (row1 a) (row1 b) && V3eqb (row2 a) (row2 b) && V3eqb (row3 a) (row3 b).
Lemma M3eqb_true a b : M3eqb a b = true <-> a = b.
Proof.
  split.
  - unfold M3eqb, V3eqb. rewrite !andb_true_iff, !Reqb_true. intros [[[[? ?] ?] [[? ?] ?]] [[? ?] ?]]. apply M3_eq; apply V3_eq; assumption.
  - intros ->. unfold M3eqb, V3eqb. rewrite !Reqb_refl. reflexivity.
Qed.
Definition svd_known (u : M3) (s : V3) (v : M3) (A : M3) : result (M3 * V3 * M3) :=
  if M3eqb A (mmul u (mmul (diag3 s) v)) then Ok (u, s, v) else Err ValueError.
Lemma svd_known_contract u s v : orthogonal u -> orthogonal v -> 0 <= vx s -> 0 <= vy s -> 0 <= vz s -> svd_contract (svd_known u s v).
Proof.
  intros OU OV S1 S2 S3 A u' s' v' E. unfold svd_known in E. destruct (M3eqb _ _) eqn:M; [|discriminate]. apply M3eqb_true in M. injection E as <- <- <-.
  unfold decomposed. repeat (split; [assumption|]). exact M.
Qed.
Lemma ident_orth : orthogonal mident. Proof. unfold orthogonal. m3; ring. Qed.

Lemma procrustes_known u sv v from to :
  let rows := rows_of (repeat 1 (length from)) from to in
  length to = length from -> sum_src rows = vzero -> sum_tgt rows = vzero -> sum_w rows <> 0 -> sq_src rows <> 0 ->
  moment rows = mmul u (mmul (diag3 sv) v) ->
  procrustes (svd_known u sv v) from to [] = Ok (Some (vzero, mmul (mtrans v) (mtrans u), mtrace (mmul (mmul (mtrans v) (mtrans u)) (moment rows)) / sq_src rows)).
Proof.
  intros rows LT ZS ZT NW NS M.
  assert (cen_from rows = vzero) as CF by (unfold cen_from; rewrite ZS; v3; ring).
  assert (cen_to rows = vzero) as CT by (unfold cen_to; rewrite ZT; v3; ring).
  assert (cen rows = rows) as C.
  { unfold cen. rewrite CF, CT. unfold centred. rewrite <- (map_id rows) at 2. apply map_ext. intros [x [[a b c] [d e f]]]. unfold wt, src, tgt. cbn [fst snd]. f_equal. f_equal; v3; ring. }
  rewrite procrustes_cases; try (cbn [used_weights]; fold rows; rewrite ?C; assumption).
  - cbn [used_weights]. fold rows. rewrite C. unfold svd_known. rewrite (proj2 (M3eqb_true _ _) M). cbn [bind]. unfold est_translation, est_scale. fold rows. fold (sum_src rows). 
    change (centred _ _ _) with (cen rows). rewrite C. unfold est_rotation. f_equal. f_equal. f_equal. f_equal.
    fold (cen_from rows) (cen_to rows). rewrite CF, CT, mapply_zero. v3; ring.
  - cbn [used_weights]. apply repeat_length.
Qed.

(** Flat data that is already aligned: a decomposition is free to give a reflection. *)
Definition flat : list V3 := [mkV3 1 0 0; mkV3 (-1) 0 0; mkV3 0 1 0; mkV3 0 (-1) 0].
Ltac flat0 := cbv [sum_src sum_tgt sum_w sq_src moment vsum msum mzero diag3 mirror wt src tgt np_sum length repeat combine map fold_right fst snd vx vy vz
  mmul mtrans mapply vmul mscale madd outer mdet mident vcross col1 col2 col3 vdot vadd vsub vscale vzero row1 row2 row3 mtrace].
Ltac flatv := apply V3_eq; flat0; lra.
Ltac flatr := flat0; lra.
Ltac flatm := apply M3_eq; apply V3_eq; flat0; lra.
Theorem C76_planar_refuted : exists svd, svd_contract svd /\ not_collinear flat /\
  procrustes svd flat flat [] = Ok (Some (vzero, mirror, 1)) /\ ~ is_rot mirror.
Proof.
  exists (svd_known mident (mkV3 2 2 0) mirror). split; [apply svd_known_contract; [exact ident_orth|exact mirror_orth|cbn; lra..]|]. split.
  { exists (mkV3 1 0 0), (mkV3 (-1) 0 0), (mkV3 0 1 0). repeat split; [cbn; tauto..|]. intro H. munfall. injection H. lra. }
  split.
  - rewrite procrustes_known; unfold flat; [|reflexivity|flatv|flatv|flatr|flatr|flatm].
    f_equal. f_equal. f_equal; [f_equal; unfold mirror; m3; ring|]. flat0. field.
  - intros [_ D]. unfold mirror in D. munfall. lra.
Qed.
Print Assumptions C76_planar_refuted.

(** The mirrored case is not vacuous, and neither is exact data in space. *)
Example C76_mirrored_case : exists svd t e s, svd_contract svd /\ direct_helmert svd rot_impl near_flat near_flat_to [] = Ok (Some (t, e, s)).
Proof.
  exists (svd_known mident (mkV3 2 2 (2 / 100)) mirror). unfold direct_helmert. rewrite procrustes_known; unfold near_flat_to, near_flat; [|reflexivity|flatv|flatv|flatr|flatr|flatm].
  eexists. eexists. eexists. split; [apply svd_known_contract; [exact ident_orth|exact mirror_orth|cbn; lra..]|cbn [rmap option_map]; reflexivity].
Qed.

Definition corners : list V3 := [mkV3 1 0 0; mkV3 (-1) 0 0; mkV3 0 1 0; mkV3 0 (-1) 0; mkV3 0 0 1; mkV3 0 0 (-1)].
Definition quarter : M3 := mkM3 (mkV3 0 (-1) 0) (mkV3 1 0 0) (mkV3 0 0 1).
Lemma quarter_rot : is_rot quarter. Proof. split; [unfold quarter; m3; ring|unfold quarter; munf; ring]. Qed.
Example C76_case : exists svd t e s, svd_contract svd /\ not_coplanar corners /\
  direct_helmert svd rot_impl corners (map (similar vzero quarter 2) corners) [] = Ok (Some (t, e, s)) /\
  s = 2 /\ rotation_matrix rot_impl e = quarter.
Proof.
  set (svd := svd_known mident (mkV3 4 4 4) (mtrans quarter)).
  assert (svd_contract svd) as SC.
  { apply svd_known_contract; [exact ident_orth|apply is_rot_orth, is_rot_mtrans, quarter_rot|cbn; lra..]. }
  assert (not_coplanar corners) as NC.
  { exists (mkV3 1 0 0), (mkV3 (-1) 0 0), (mkV3 0 1 0), (mkV3 0 0 1). repeat split; [cbn; tauto..|]. munf. lra. }
  assert (exists t e s, direct_helmert svd rot_impl corners (map (similar vzero quarter 2) corners) [] = Ok (Some (t, e, s))) as (t & e & s & E).
  { unfold direct_helmert, svd. rewrite procrustes_known; unfold corners, quarter, similar; [|reflexivity|flatv|flatv|flatr|flatr|flatm]. cbn [rmap option_map]. eexists. eexists. eexists. reflexivity. }
  exists svd, t, e, s. destruct (C76_aligned RotM rot_impl svd corners [] t e s vzero quarter 2 rot_impl_contract SC (Forall_nil _) quarter_rot ltac:(lra) NC E) as (A & B & C & D). tauto.
Qed.
