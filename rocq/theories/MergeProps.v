(** Properties C25 and C26: merging. *)
From Verif Require Import Base BaseFacts NumpyModel NumpyFacts TrajModel TrajSpec TrajFacts TrajFacts2 TrajFacts3 TrajProps
  MergeModel MergeSpec MergeFacts.

(** * C25 *)
Theorem C25_merge :
  forall (Q : Type) argsort loc (qid : Q) pop (l : list (traj Q)),
    argsort_contract argsort -> (forall p, length (loc p) = length p) -> (forall s, s <> [] -> In (pop s) s) ->
    Forall consistent l -> l <> [] ->
    exists m, merge_trajectories argsort loc qid pop l = Ok m /\ consistent m /\ time_sorted m /\
      ((exists t, In t l /\ oriented t) ->
         Permutation (map entry (poses m)) (flat_map (fun t => map (oriented_entry qid) (poses t)) l)) /\
      ((forall t, In t l -> ~ oriented t) -> rot m = None /\
         Permutation (map (fun p => (p_t p, p_xyz p)) (poses m)) (flat_map (fun t => map (fun p => (p_t p, p_xyz p)) (poses t)) l)) /\
      name m = "Merged"%string /\ (exists t, In t l /\ epsg m = epsg t) /\ srt m = SortTime.
Proof.
  intros Q argsort loc qid pop l Ha Hl Hp H N.
  destruct (merge_ok argsort loc qid pop Ha Hl l N H) as (m & E & C & S & P1 & P2 & M1 & M2 & M3).
  exists m. do 6 (split; [assumption|]). split; [|assumption].
  assert (I : In (pop (map epsg l)) (map epsg l)) by (apply Hp; intro Z; apply map_eq_nil in Z; contradiction).
  apply in_map_iff in I as (t & Et & It). exists t. split; [exact It | congruence].
Qed.
Print Assumptions C25_merge.

Theorem C25_empty_list :
  forall (Q : Type) argsort loc (qid : Q) pop, merge_trajectories argsort loc qid pop [] = Err KeyError.
Proof. reflexivity. Qed.
Print Assumptions C25_empty_list.

(** Two trajectories recorded in turns; only the first one has orientations. *)
Definition turn1 : traj nat :=
  mkTraj [0; 2] [mkV3 0 0 0; mkV3 1 0 0] (Some [5; 6]%nat) [0; 1] [vzero; vzero] SortTime "a" 0.
Definition turn2 : traj nat := mkTraj [1] [mkV3 10 0 0] None [0] [vzero] SortTime "b" 0.

Example C25_case : Forall consistent [turn1; turn2] /\ oriented turn1 /\ argsort_contract stable_argsort.
Proof.
  split; [repeat constructor|]. split; [exists 5%nat, [6%nat]; reflexivity | exact stable_argsort_contract].
Qed.
Print Assumptions C25_case.

(** * C26 *)
(** True if the inputs follow one another in time: the merged trajectory is their concatenation. *)
Theorem C26_successive_partial :
  forall (Q : Type) argsort loc (qid : Q) pop (l : list (traj Q)) m,
    argsort_contract argsort -> (forall p, length (loc p) = length p) ->
    l <> [] -> Forall consistent l -> StronglySorted Rlt (concat (map tstamps l)) -> concat (map xyz l) <> [] ->
    merge_trajectories argsort loc qid pop l = Ok m ->
    xyz m = concat (map xyz l) /\ tstamps m = concat (map tstamps l) /\ arc m = lengths_from_xyz (loc (xyz m)).
Proof. intros Q argsort loc qid pop l m Ha Hl. exact (merge_successive argsort loc qid pop Ha Hl l m). Qed.
Print Assumptions C26_successive_partial.

(** Interleaved inputs: the arc lengths of the merged trajectory are those of the unsorted
    concatenation; here they even decrease (0, 10, 1 instead of 0, 10, 19). *)
Theorem C26_arc_lengths_refuted :
  forall argsort (pop : list Z -> Z), argsort_contract argsort ->
    exists m, merge_trajectories argsort (fun p => p) 0%nat pop [turn1; turn2] = Ok m /\
      xyz m = [mkV3 0 0 0; mkV3 10 0 0; mkV3 1 0 0] /\ arc m = [0; 10; 1] /\ lengths_from_xyz (xyz m) = [0; 10; 19].
Proof.
  intros argsort pop Ha.
  assert (X : forall a b, vnorm (vsub (mkV3 a 0 0) (mkV3 b 0 0)) = Rabs (a - b)).
  { intros a b. unfold vnorm, vdot, vsub; cbn. replace ((a - b) * (a - b) + (0 - 0) * (0 - 0) + (0 - 0) * (0 - 0)) with (Rsqr (a - b)) by (unfold Rsqr; ring).
    apply sqrt_Rsqr_abs. }
  assert (A : argsort [0; 2; 1] = [0; 2; 1]%nat).
  { destruct (Ha [0; 2; 1]) as [P S]. cbn in P.
    assert (L : length (argsort [0; 2; 1]) = 3%nat) by (rewrite (argsort_length argsort _ Ha); reflexivity).
    destruct (np_take_nat [0; 2; 1] (argsort [0; 2; 1])) as (k & _ & Nk).
    { exact (argsort_range argsort [0; 2; 1] Ha). }
    assert (K := argsort_take_sorted argsort [0; 2; 1] k Ha Nk). rewrite StronglySorted_nth in K.
    destruct (argsort [0; 2; 1]) as [|a [|b [|c [|]]]]; try discriminate.
    assert (V : forall z, In z [a; b; c] -> z = 0%nat \/ z = 1%nat \/ z = 2%nat).
    { intros z Hz. apply (Permutation_in _ P) in Hz. cbn in Hz. intuition. }
    assert (D : NoDup [a; b; c]) by (apply (Permutation_NoDup (Permutation_sym P)); repeat constructor; cbn; intuition discriminate).
    inversion D as [|? ? D1 D2]; subst. inversion D2 as [|? ? D3 _]; subst. cbn in D1, D3.
    assert (K01 := fun x y => K 0%nat 1%nat x y ltac:(lia)). assert (K12 := fun x y => K 1%nat 2%nat x y ltac:(lia)).
    rewrite !Nk in K01. rewrite !Nk in K12. cbn in K01, K12.
    destruct (V a) as [Ea|[Ea|Ea]]; [cbn; tauto|subst a..]; (destruct (V b) as [Eb|[Eb|Eb]]; [cbn; tauto|subst b..]); (destruct (V c) as [Ec|[Ec|Ec]]; [cbn; tauto|subst c..]);
      try reflexivity; exfalso; try tauto; cbn in K01, K12;
      specialize (K01 _ _ eq_refl eq_refl); specialize (K12 _ _ eq_refl eq_refl); lra. }
  eexists. unfold merge_trajectories. cbn [map concat app tstamps xyz turn1 turn2].
  unfold new_traj. cbn -[vnorm INR]. rewrite A. cbn -[vnorm].
  split; [reflexivity|]. cbn -[vnorm]. split; [reflexivity|]. unfold lengths_from_xyz, np_cumsum. cbn -[vnorm]. rewrite !X.
  unfold Rabs. repeat destruct Rcase_abs; try lra. split; repeat f_equal; lra.
Qed.
Print Assumptions C26_arc_lengths_refuted.
