(** The absolute trajectory error after an alignment. *)
From Verif Require Import Base BaseFacts VecFacts NumpyModel NumpyFacts TrajModel TrajSpec TrajFacts EvalModel ParamModel DataModel EstModel MatchModel MatchSpec GeomModel GeomSpec AlignModel AlignSpec AlignFacts3.

Lemma zeros_repeat {A} (z : A) l : Forall (eq z) l -> l = repeat z (length l).
Proof. induction 1 as [|x l <- F IH]; cbn; congruence. Qed.
Lemma map_repeat {A B} (f : A -> B) x n : map f (repeat x n) = repeat (f x) n.
Proof. induction n; cbn; congruence. Qed.
Lemma sum_zeros n : np_sum (repeat 0 n) = 0.
Proof. unfold np_sum. induction n as [|n IH]; cbn; [reflexivity|]. rewrite IH. ring. Qed.
Lemma max_zeros n : fold_left Rmax (repeat 0 n) 0 = 0.
Proof. induction n as [|n IH]; cbn; [reflexivity|]. now rewrite Rmax_left by lra. Qed.

Lemma zero_stats {Q} (r : ate_result Q) n : (0 < n)%nat -> length (pos_dev r) = n -> Forall (eq vzero) (pos_dev r) -> zero_error n r.
Proof.
  intros N L F. split; [exact L|]. split; [exact F|]. destruct n as [|n]; [lia|].
  assert (E : pos_dev_comb r = repeat 0 (S n)).
  { unfold pos_dev_comb. rewrite (zeros_repeat _ _ F), L, map_repeat. f_equal. apply vnorm_zero_iff. reflexivity. }
  assert (D : forall k, 0 / INR k = 0) by (intro k; unfold Rdiv; ring).
  unfold pos_ate, pos_dev_rms, pos_dev_max, rms. rewrite E. unfold np_mean. split; [|split].
  - cbn [repeat]. change (0 :: repeat 0 n) with (repeat 0 (S n)). now rewrite sum_zeros, D.
  - rewrite map_repeat. rewrite Rmult_0_l. cbn [repeat option_map]. change (0 :: repeat 0 n) with (repeat 0 (S n)). now rewrite sum_zeros, D, sqrt_0.
  - cbn [np_max repeat]. now rewrite max_zeros.
Qed.

Section Ate.
  Context {Q : Type} (ops : rot_ops Q) (svd : M3 -> result (M3 * V3 * M3)) (solve : list (list R) -> list R -> result (list R))
    (egrad : (list R -> R) -> nat -> list R -> R) (pinv : list (list R) -> list (list R)) (mean : list Q -> result Q) (matched : matching_settings -> traj Q -> traj Q -> result (traj Q * traj Q)).
  Hypothesis CR : rot_contract ops.

  Lemma ate_zero s ms gt est e1 g1 n r u : matched ms gt est = Ok (e1, g1) -> estimate_alignment ops svd solve egrad pinv mean matched s ms e1 g1 = Ok (n, r) ->
    apply_result ops r false e1 = Ok u -> consistent u -> consistent g1 -> xyz u = xyz g1 -> (0 < tlen g1)%nat ->
    exists d, ate ops svd solve egrad pinv mean matched s ms gt est = Ok (d, (n, r)) /\ zero_error (tlen g1) d /\
      match rot g1, rot u with
      | Some a, Some b => map (as_matrix ops) a = map (as_matrix ops) b ->
          exists k, rot_dev d = Some k /\ length k = tlen g1 /\ Forall (fun q => as_matrix ops q = mident) k
      | _, _ => rot_dev d = None
      end.
  Proof.
    intros M E A CU CG EX N. destruct (compare_equal ops CR u g1 CU CG EX) as (d & F & L & Z & _ & RD). exists d.
    split; [|split; [apply zero_stats; assumption|exact RD]]. unfold ate. rewrite M. cbn [bind fst snd]. rewrite E. cbn [bind fst snd]. rewrite A. cbn [bind fst snd]. now rewrite F.
  Qed.
End Ate.

(** Trajectories with the same time stamps, matched by time *)
Lemma matched_same {Q} query2 query3 slerp_seg eigh loc ms (gt est : traj Q) : knn_contract dist2 query2 -> consistent est -> consistent gt -> tstamps gt = tstamps est ->
  strictly_time_sorted est -> m_method ms = NearestTemporal -> 0 <= max_time_diff ms -> tstamps est <> [] ->
  compared_by_metrics query2 query3 slerp_seg eigh loc ms gt est = Ok (est, gt).
Proof. intros CK CE CG ET SE MM M0 NE. unfold compared_by_metrics, match_trajectories. rewrite MM. rewrite match_same by assumption. reflexivity. Qed.

Lemma prepared_same {Q} query2 query3 slerp_seg eigh loc s ms (est gt : traj Q) : knn_contract dist2 query2 -> consistent est -> consistent gt -> tstamps gt = tstamps est ->
  strictly_time_sorted est -> m_method ms = NearestTemporal -> 0 <= max_time_diff ms -> tstamps est <> [] -> no_preprocessing (al_preprocessing s) ->
  prepared (compared_by_metrics query2 query3 slerp_seg eigh loc) s ms est gt = Ok (est, gt).
Proof.
  intros CK CE CG ET SE MM M0 NE NP. unfold prepared.
  assert (LE : tlen est <> 0%nat) by (destruct CE as (L & _); unfold tlen; rewrite <- L; destruct (tstamps est); [congruence|discriminate]).
  assert (LG : tlen gt <> 0%nat) by (destruct CG as (L & _); unfold tlen; rewrite <- L, ET; destruct (tstamps est); [congruence|discriminate]).
  rewrite preprocess_nothing by assumption. cbn [bind fst snd]. rewrite matched_same by assumption. cbn [bind fst snd].
  destruct (tstamps est) as [|x l] eqn:X; [congruence|]. destruct (np_get (x :: l) (-1)) eqn:G; [reflexivity|].
  exfalso. unfold np_get, py_index in G. cbn [Z.leb Z.compare] in G.
  replace (- Z.of_nat (length (x :: l)) <=? -1)%Z with true in G by (symmetry; apply Z.leb_le; cbn [length]; lia).
  destruct (nth_error _ _) eqn:K; [discriminate|]. apply nth_error_None in K. cbn [length] in K. lia.
Qed.
