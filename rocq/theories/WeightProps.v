(** C168: what the weights of the closed-form similarity stand for. *)
From Coq Require Import Permutation.
From Verif Require Import Base BaseFacts VecFacts NumpyModel TrajModel GeomModel GeomSpec GeomFacts GeomFacts2 LsqModel LsqSpec DirectModel DirectSpec DirectFacts DirectFacts2 DirectProps DirectProps3 FrameProps TurnProps BackSpec BackProps WeightSpec.

Definition tot (g : V3 -> V3 -> R) (rows : list (R * (V3 * V3))) : R := np_sum (map (fun r => wt r * g (src r) (tgt r)) rows).
Lemma total_tot g w from to : total g w from to = tot g (combine w (combine from to)).
Proof. revert from to. induction w as [|x w IH]; intros [|p from] [|q to]; try reflexivity. cbn [total]. rewrite IH. reflexivity. Qed.
Definition alike (r r' : list (R * (V3 * V3))) : Prop := forall g, tot g r = tot g r'.

Lemma vsum_tot (h : V3 -> V3 -> V3) r : vsum (map (fun p => vscale (wt p) (h (src p) (tgt p))) r) = mkV3 (tot (fun a b => vx (h a b)) r) (tot (fun a b => vy (h a b)) r) (tot (fun a b => vz (h a b)) r).
Proof. induction r as [|p r IH]; [reflexivity|]. cbn [map vsum fold_right]. unfold vsum in IH. rewrite IH. apply V3_eq; reflexivity. Qed.
Lemma alike_vsum (h : V3 -> V3 -> V3) r r' : alike r r' -> vsum (map (fun p => vscale (wt p) (h (src p) (tgt p))) r) = vsum (map (fun p => vscale (wt p) (h (src p) (tgt p))) r').
Proof. intro A. rewrite !vsum_tot, !A. f_equal; apply A. Qed.
Lemma msum_rows (l : list M3) : msum l = mkM3 (vsum (map row1 l)) (vsum (map row2 l)) (vsum (map row3 l)).
Proof.
  induction l as [|a l IH]; [reflexivity|]. unfold msum, vsum in *. cbn [map fold_right]. rewrite IH. reflexivity.
Qed.
Lemma alike_msum (h : V3 -> V3 -> M3) r r' : alike r r' -> msum (map (fun p => mscale (wt p) (h (src p) (tgt p))) r) = msum (map (fun p => mscale (wt p) (h (src p) (tgt p))) r').
Proof.
  intro A. rewrite !msum_rows, !map_map. f_equal.
  - exact (alike_vsum (fun a b => row1 (h a b)) r r' A).
  - exact (alike_vsum (fun a b => row2 (h a b)) r r' A).
  - exact (alike_vsum (fun a b => row3 (h a b)) r r' A).
Qed.
Lemma tot_one r : tot (fun _ _ => 1) r = np_sum (map wt r).
Proof. unfold tot. f_equal. apply map_ext. intro p. ring. Qed.

(** The part of the estimation that works on the rows *)
Definition by_rows (svd : M3 -> result (M3 * V3 * M3)) (rows : list (R * (V3 * V3))) : result (option (V3 * M3 * R)) :=
  let sum_of_weights := np_sum (map wt rows) in
  if Reqb sum_of_weights 0 then Err ValueError
  else
    let a := vscale (/ sum_of_weights) (vsum (map (fun p => vscale (wt p) (src p)) rows)) in
    let b := vscale (/ sum_of_weights) (vsum (map (fun p => vscale (wt p) (tgt p)) rows)) in
    let centered := map (fun p => (wt p, (vsub (src p) a, vsub (tgt p) b))) rows in
    let moment_matrix := msum (map (fun p => mscale (wt p) (outer (src p) (tgt p))) centered) in
    let square_sum_from := np_sum (map (fun p => wt p * vnorm (src p) * vnorm (src p)) centered) in
    let! uv := svd moment_matrix in
    let '(u, _, v) := uv in
    let estimated_rotation := mmul (mtrans v) (mtrans u) in
    if Reqb square_sum_from 0 then Ok None
    else
      let estimated_scale := np_sum (map (fun p => vdot (vmul (vscale (wt p) (tgt p)) estimated_rotation) (src p)) centered) / square_sum_from in
      Ok (Some (vsub b (mapply (mscale estimated_scale estimated_rotation) a), estimated_rotation, estimated_scale)).
Lemma combine_weights (w : list R) (from to : list V3) : length to = length from -> length w = length from -> map wt (combine w (combine from to)) = w.
Proof. revert from to. induction w as [|x w IH]; intros [|p from] [|q to] L L'; cbn in *; try lia; [reflexivity|]. f_equal. apply IH; lia. Qed.
Lemma procrustes_rows svd from to w : w <> [] -> length to = length from -> length w = length from -> procrustes svd from to w = by_rows svd (combine w (combine from to)).
Proof.
  intros N L L'. unfold procrustes. destruct w as [|x w]; [congruence|]. set (ws := x :: w) in *. rewrite L, L', !Nat.eqb_refl. cbn [andb]. unfold by_rows. rewrite (combine_weights ws from to L L'). reflexivity.
Qed.
Lemma by_rows_alike svd r r' : alike r r' -> by_rows svd r = by_rows svd r'.
Proof.
  intro A. unfold by_rows. rewrite <- !tot_one, <- !(A (fun _ _ => 1)).
  rewrite <- (alike_vsum (fun a _ => a) r r' A), <- (alike_vsum (fun _ b => b) r r' A). destruct (Reqb _ 0); [reflexivity|].
  set (a := vscale _ (vsum (map (fun p => vscale (wt p) (src p)) r))). set (b := vscale _ (vsum (map (fun p => vscale (wt p) (tgt p)) r))). cbv zeta. rewrite !map_map. cbn [wt src tgt fst snd].
  pose proof (alike_msum (fun p q => outer (vsub p a) (vsub q b)) r r' A) as EM. cbn beta in EM. unfold wt, src, tgt in EM |- *. cbn [fst snd] in EM |- *. rewrite <- EM. destruct (svd _) as [[[u s] v]|e]; [|reflexivity]. cbn [bind].
  assert (ES : forall l : list (R * (V3 * V3)), np_sum (map (fun x => fst x * vnorm (vsub (fst (snd x)) a) * vnorm (vsub (fst (snd x)) a)) l) = tot (fun p _ => vnorm (vsub p a) * vnorm (vsub p a)) l).
  { intro l. unfold tot. f_equal. apply map_ext. intro p. unfold wt, src. ring. }
  rewrite !ES, <- !(A (fun p _ => vnorm (vsub p a) * vnorm (vsub p a))). destruct (Reqb _ 0); [reflexivity|]. set (m := mmul (mtrans v) (mtrans u)).
  assert (EC : forall l : list (R * (V3 * V3)), np_sum (map (fun x => vdot (vmul (vscale (fst x) (vsub (snd (snd x)) b)) m) (vsub (fst (snd x)) a)) l) = tot (fun p q => vdot (vmul (vsub q b) m) (vsub p a)) l).
  { intro l. unfold tot. f_equal. apply map_ext. intro p. unfold wt, src, tgt. generalize (vsub (snd (snd p)) b), (vsub (fst (snd p)) a). intros c d. munf. ring. }
  rewrite !map_map. cbn [fst snd]. rewrite !EC, <- (A (fun p q => vdot (vmul (vsub q b) m) (vsub p a))). reflexivity.
Qed.

(** * C168 *)
(** The estimate depends on the weighted totals only: two lists of weighted pairs for which every weighted total is the same give the
    same result, or the same exception, however the decomposition works. *)
Theorem C168_totals : forall svd from to w from' to' w', w <> [] -> w' <> [] -> length to = length from -> length w = length from -> length to' = length from' -> length w' = length from' ->
  (forall g, total g w from to = total g w' from' to') -> procrustes svd from to w = procrustes svd from' to' w'.
Proof.
  intros svd from to w from' to' w' N N' L1 L2 L3 L4 T. rewrite !procrustes_rows by assumption. apply by_rows_alike. intro g. rewrite <- !total_tot. apply T.
Qed.
Print Assumptions C168_totals.
Theorem C168_parameters : forall Q (ops : rot_ops Q) svd from to w from' to' w', w <> [] -> w' <> [] -> length to = length from -> length w = length from -> length to' = length from' -> length w' = length from' ->
  (forall g, total g w from to = total g w' from' to') -> direct_helmert svd ops from to w = direct_helmert svd ops from' to' w'.
Proof. intros. unfold direct_helmert. f_equal. apply C168_totals; assumption. Qed.
Print Assumptions C168_parameters.

(** A pair listed twice counts with the sum of its weights, and a pair listed n times counts n times. *)
Theorem C168_merged : forall svd p q x y from to w, procrustes svd (p :: p :: from) (q :: q :: to) (x :: y :: w) = procrustes svd (p :: from) (q :: to) (x + y :: w).
Proof.
  intros svd p q x y from to w. destruct (Nat.eq_dec (length to) (length from)) as [L|L]; [destruct (Nat.eq_dec (length w) (length from)) as [L'|L']|].
  - apply C168_totals; try discriminate; cbn [length]; try lia. intro g. cbn [total]. ring.
  - unfold procrustes. cbn [length Nat.eqb]. rewrite (proj2 (Nat.eqb_neq _ _) L'), !andb_false_r. reflexivity.
  - unfold procrustes. cbn [length Nat.eqb]. rewrite (proj2 (Nat.eqb_neq _ _) L). reflexivity.
Qed.
Print Assumptions C168_merged.
Theorem C168_repeated : forall svd n p q x from to w, (0 < n)%nat -> length to = length from -> length w = length from ->
  procrustes svd (repeat p n ++ from) (repeat q n ++ to) (repeat x n ++ w) = procrustes svd (p :: from) (q :: to) (INR n * x :: w).
Proof.
  intros svd n p q x from to w N L L'. apply C168_totals; try discriminate; rewrite ?app_length, ?repeat_length; cbn [length]; try lia.
  - destruct n; [lia|discriminate].
  - intro g. clear N. cbn [total]. induction n as [|n IH]; [cbn; ring|]. cbn [repeat app total]. rewrite IH, S_INR. ring.
Qed.
Print Assumptions C168_repeated.

(** Pairs of weight zero do not count. *)
Lemma total_weighted g w from to : length from = length w -> length to = length w -> total g w from to = total g (kept_by w w) (kept_by w from) (kept_by w to).
Proof.
  assert (G : forall v w from to, length v = length w -> length from = length w -> length to = length w -> v = w -> total g v from to = total g (kept_by w v) (kept_by w from) (kept_by w to)).
  { induction v as [|x v IH]; intros [|y w'] [|p f] [|q t] L1 L2 L3 E; cbn in L1, L2, L3; try lia; [reflexivity|]. injection E as -> E. cbn [total kept_by]. rewrite (IH w' f t) by (lia || exact E).
    destruct (Reqb_spec y 0) as [Z|Z]; [rewrite Z; ring|reflexivity]. }
  intros L1 L2. apply G; congruence.
Qed.
Lemma weighted_length {A} (w : list R) (l : list A) : length l = length w -> length (kept_by w l) = length (kept_by w w).
Proof. revert l. assert (G : forall (w' : list R) (l : list A), length w' = length w -> length l = length w -> length (kept_by w l) = length (kept_by w w')). { induction w as [|x w IH]; intros [|y w'] [|a l] L L'; cbn in *; try lia. destruct (Reqb x 0); cbn; rewrite (IH w') by lia; reflexivity. } intros l L. apply G; [reflexivity|exact L]. Qed.
Theorem C168_zero : forall svd from to w, w <> [] -> length to = length from -> length w = length from ->
  procrustes svd from to w = procrustes svd (kept_by w from) (kept_by w to) (kept_by w w).
Proof.
  intros svd from to w N L L'. destruct (kept_by w w) as [|y l] eqn:E.
  - assert (Z : total (fun _ _ => 1) w from to = 0) by (rewrite total_weighted, E by congruence; reflexivity).
    assert (E1 : kept_by w from = []) by (apply length_zero_iff_nil; rewrite weighted_length by congruence; rewrite E; reflexivity).
    assert (E2 : kept_by w to = []) by (apply length_zero_iff_nil; rewrite weighted_length by congruence; rewrite E; reflexivity).
    rewrite E1, E2. rewrite (procrustes_rows svd from to w N L L'). unfold by_rows. rewrite <- tot_one, <- total_tot, Z. unfold procrustes. cbn. destruct (Reqb_spec 0 0); [reflexivity|lra].
  - rewrite <- E. assert (Lf := weighted_length w from ltac:(congruence)). assert (Lt := weighted_length w to ltac:(congruence)). apply C168_totals; try assumption; try congruence.
    intro g. apply total_weighted; congruence.
Qed.
Print Assumptions C168_zero.

(** The order of the pairs does not matter at all. *)
Theorem C168_order : forall svd from to w from' to' w', w <> [] -> length to = length from -> length w = length from -> length to' = length from' -> length w' = length from' ->
  Permutation (combine w (combine from to)) (combine w' (combine from' to')) -> procrustes svd from to w = procrustes svd from' to' w'.
Proof.
  intros svd from to w from' to' w' N L1 L2 L3 L4 P. apply C168_totals; try assumption.
  - intros ->. apply Permutation_length in P. cbn [combine length] in P. rewrite !combine_length in P. destruct w; [congruence|]. cbn [length] in P, L2. lia.
  - intro g. rewrite !total_tot. unfold tot. apply (Permutation_map (fun r => wt r * g (src r) (tgt r))) in P. clear - P. unfold np_sum. induction P; cbn; lra.
Qed.
Print Assumptions C168_order.

(** Only the ratios of the weights count: weights times a positive number give the same scale, the same image of the centre, and leave
    the same, times this number. *)
Lemma centre_factor c w l : c <> 0 -> fold_right Rplus 0 w <> 0 -> centre (map (Rmult c) w) l = centre w l.
Proof.
  intros C N. unfold centre. assert (E : forall v : list R, fold_right Rplus 0 (map (Rmult c) v) = c * fold_right Rplus 0 v) by (induction v as [|x v IH]; cbn; [ring|rewrite IH; ring]).
  assert (V : forall v (k : list V3), fold_right vadd vzero (map (fun p => vscale (fst p) (snd p)) (combine (map (Rmult c) v) k)) = vscale c (fold_right vadd vzero (map (fun p => vscale (fst p) (snd p)) (combine v k)))).
  { induction v as [|x v IH]; intros [|p k]; cbn [map combine fold_right]; try (apply V3_eq; munf; ring). rewrite IH. cbn [fst snd]. apply V3_eq; munf; ring. }
  rewrite E, V. generalize (fold_right vadd vzero (map (fun p => vscale (fst p) (snd p)) (combine w l))). intro a. apply V3_eq; munf; field; split; assumption.
Qed.
Lemma spread_factor c w l : c <> 0 -> fold_right Rplus 0 w <> 0 -> spread (map (Rmult c) w) l = c * spread w l.
Proof.
  intros C N. unfold spread. rewrite centre_factor by assumption. generalize (centre w l). intro a. clear N. revert l. induction w as [|x w IH]; intros [|p l]; cbn [map combine fold_right]; try ring. rewrite IH. cbn [fst snd]. ring.
Qed.
Lemma misfit_factor c t m s w from to : misfit t m s (map (Rmult c) w) from to = c * misfit t m s w from to.
Proof. revert from to. induction w as [|x w IH]; intros [|p from] [|q to]; cbn [map misfit]; try ring. rewrite IH. ring. Qed.
Theorem C168_factor : forall svd svd' c from to w t m s t' m' s', svd_contract svd -> svd_contract svd' -> 0 < c -> Forall (fun x => 0 <= x) w -> w <> [] ->
  procrustes svd from to w = Ok (Some (t, m, s)) -> procrustes svd' from to (map (Rmult c) w) = Ok (Some (t', m', s')) ->
  s' = s /\ similar t' m' s' (centre w from) = similar t m s (centre w from) /\ misfit t' m' s' w from to = misfit t m s w from to.
Proof.
  intros svd svd' c from to w t m s t' m' s' SC SC' C F N E E'. assert (F' : Forall (fun x => 0 <= x) (map (Rmult c) w)).
  { apply Forall_map. eapply Forall_impl; [|exact F]. cbn. intros x X. apply Rmult_le_pos; lra. }
  destruct (estimate_facts _ _ _ _ _ _ _ SC F E) as (LT & LW & O & PS & PW & PA & CE & SG & MX & MF). destruct (estimate_facts _ _ _ _ _ _ _ SC' F' E') as (_ & LW' & O' & PS' & PW' & PA' & CE' & _ & _ & MF').
  assert (U : used_weights (length from) w = w) by (destruct w; [congruence|reflexivity]). assert (U' : used_weights (length from) (map (Rmult c) w) = map (Rmult c) w) by (destruct w; [congruence|reflexivity]).
  rewrite U in *. rewrite U' in *. rewrite !centre_factor in CE' by lra. rewrite spread_factor in PA', MF' by lra. rewrite spread_factor, misfit_factor in MF' by lra.
  assert (EQ : misfit t' m' s' w from to = misfit t m s w from to).
  { destruct (C76_optimal _ _ _ _ _ _ _ SC F E) as (_ & _ & OPT). destruct (C76_optimal _ _ _ _ _ _ _ SC' F' E') as (_ & _ & OPT'). rewrite U in OPT. rewrite U' in OPT'. apply Rle_antisym; [|apply OPT, O'].
    specialize (OPT' t m s O). rewrite !misfit_factor in OPT'. apply Rmult_le_reg_l with c; assumption. }
  split; [|split; [congruence|exact EQ]]. assert (K : c * (spread w from * (s * s - s' * s')) = 0) by (rewrite EQ, MF in MF'; lra).
  apply Rmult_integral in K as [K|K]; [lra|]. apply Rmult_integral in K as [K|K]; [lra|]. assert (P : (s - s') * (s + s') = 0) by lra. apply Rmult_integral in P as [P|P]; lra.
Qed.
Print Assumptions C168_factor.

(** Six points and targets that are no similar image of them, with equal weights, twice these weights, and a far point of weight zero. *)
Example C168_case : exists svd svd', svd_contract svd /\ svd_contract svd' /\
  procrustes svd corners stretched (repeat 1 6) = Ok (Some (vzero, mident, 5/3)) /\
  procrustes svd' corners stretched (map (Rmult 2) (repeat 1 6)) = Ok (Some (vzero, mident, 5/3)) /\
  procrustes svd (mkV3 7 8 9 :: corners) (mkV3 9 (-8) 7 :: stretched) (0 :: repeat 1 6) = Ok (Some (vzero, mident, 5/3)).
Proof.
  exists (svd_known mident (mkV3 4 4 2) mident), (svd_known mident (mkV3 8 8 4) mident).
  do 2 (split; [apply svd_known_contract; [exact ident_orth|exact ident_orth|cbn; lra..]|]).
  assert (I : mmul (mtrans mident) (mtrans mident) = mident) by (m3; ring).
  assert (A : procrustes (svd_known mident (mkV3 4 4 2) mident) corners stretched (repeat 1 6) = Ok (Some (vzero, mident, 5/3))).
  { change (procrustes (svd_known mident (mkV3 4 4 2) mident) corners stretched [] = Ok (Some (vzero, mident, 5/3))). rewrite procrustes_known; unfold stretched, corners; [|reflexivity|flatv|flatv|flatr|flatr|flatm]. rewrite I; do 3 f_equal; flat0; field. }
  split; [exact A|]. split.
  - rewrite (C168_totals _ _ _ _ (corners ++ corners) (stretched ++ stretched) (repeat 1 12)) by (discriminate || reflexivity || (intro g; cbn; ring)).
    change (procrustes (svd_known mident (mkV3 8 8 4) mident) (corners ++ corners) (stretched ++ stretched) [] = Ok (Some (vzero, mident, 5/3))).
    rewrite procrustes_known; unfold stretched, corners; cbn [app map vx vy vz]; [|reflexivity|flatv|flatv|flatr|flatr|flatm]. rewrite I; do 3 f_equal; flat0; field.
  - rewrite C168_zero by (discriminate || reflexivity). rewrite <- A. f_equal; cbn; destruct (Reqb_spec 0 0); try lra; destruct (Reqb_spec 1 0); try lra; reflexivity.
Qed.
