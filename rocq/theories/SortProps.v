(** Properties C27 and C60: spatial sorting. *)
From Verif Require Import Base BaseFacts NumpyModel NumpyFacts TrajModel TrajSpec TrajFacts TrajFacts2 TrajFacts3 TrajProps
  SortModel SortSpec SortFacts.

(** * C27 *)
(** Without discarding, the sort index lists every point exactly once. *)
Theorem C27_sort_permutation :
  forall env pts, mst_contract env pts ->
    exists idx, sort env pts false = Ok idx /\ Permutation idx (seq 0 (length pts)).
Proof.
  intros env pts M. destruct (sort_spec env pts false M) as (order & path & top & Ht & _ & _ & _ & P & _ & _ & _ & H & _).
  specialize (P eq_refl). destruct H as (idx & E & S).
  - apply (Permutation_in _ (Permutation_sym P)), in_seq. destruct Ht as (p & Hp & _). apply nth_error_Some_lt in Hp. lia.
  - exists idx. split; [exact E|]. rewrite (started_perm _ _ _ S). exact P.
Qed.
Print Assumptions C27_sort_permutation.

(** The sort index is a path through all points, in which the points of the triangulation occur in
    the order found in the spanning tree, rotated to start at the highest point, or the reverse. *)
Theorem C27_sort_path :
  forall env pts idx, mst_contract env pts -> sort env pts false = Ok idx ->
    exists order path top, highest pts top /\ started_at top path idx /\
      Permutation path (seq 0 (length pts)) /\ NoDup order /\ kept (triangulated env pts) path order.
Proof.
  intros env pts idx M E. destruct (sort_spec env pts false M) as (order & path & top & Ht & ND & _ & _ & P & _ & _ & K & H & _).
  specialize (P eq_refl). destruct H as (idx' & E' & S).
  - apply (Permutation_in _ (Permutation_sym P)), in_seq. destruct Ht as (p & Hp & _). apply nth_error_Some_lt in Hp. lia.
  - rewrite E in E'. injection E' as <-. exists order, path, top. auto.
Qed.
Print Assumptions C27_sort_path.

Lemma seq_sorted s n : StronglySorted le (seq s n).
Proof.
  revert s. induction n as [|n IH]; intro s; [constructor|]. cbn. constructor; [apply IH|].
  apply Forall_forall. intros z Hz. apply in_seq in Hz. lia.
Qed.

(** sort_spatially keeps every pose in its place and gives it the arc length of its position on the
    smoothed path in sort order. *)
Theorem C27_sort_spatially :
  forall (Q : Type) env (t : traj Q),
    argsort_contract (np_argsort env) -> (forall p, length (mls env p) = length p) ->
    consistent t -> mst_contract env (mls env (xyz t)) ->
    exists t' idx smoothed, sort_spatially env t false = Ok t' /\ sort env (mls env (xyz t)) false = Ok idx /\
      np_take (mls env (xyz t)) (map Z.of_nat idx) = Ok smoothed /\
      consistent t' /\ srt t' = SortArc /\ tlen t' = tlen t /\
      (forall k i, nth_error idx k = Some i -> exists l p,
         nth_error (lengths_from_xyz smoothed) k = Some l /\ pose_at t i = Some p /\ pose_at t' i = Some (with_arc l p)) /\
      (StronglySorted Rlt (lengths_from_xyz smoothed) ->
         xyz_sorted (np_argsort env) t' = np_take (xyz t) (map Z.of_nat idx)).
Proof.
  intros Q env t Ha Hm Hc M. destruct (C27_sort_permutation env _ M) as (idx & E & P). rewrite Hm in P.
  assert (Np : idx <> []).
  { intros ->. apply Permutation_nil in P. destruct M as (edges & V & _ & (a & b & He & _) & HV & HB & _).
    assert (Ia : In a V) by (apply HV; exists (a, b); auto). specialize (HB a Ia). rewrite Hm in HB.
    destruct (length (xyz t)); [lia | discriminate]. }
  assert (ND : NoDup idx) by (apply (Permutation_NoDup (Permutation_sym P)), seq_NoDup).
  assert (Rg : Forall (fun i => (i < tlen t)%nat) idx).
  { apply Forall_forall. intros i Hi. apply (Permutation_in _ P), in_seq in Hi. unfold tlen. lia. }
  assert (Li : length idx = tlen t) by (rewrite (Permutation_length P), seq_length; reflexivity).
  destruct (sort_spatially_spec env Ha Hm t false idx Hc E Np ND Rg) as (t' & sm & E1 & Hc' & Hs & _ & _ & L & E2 & H).
  exists t', idx, sm. split; [exact E1|]. split; [exact E|]. split; [exact E2|]. split; [exact Hc'|]. split; [exact Hs|].
  split; [lia|]. split.
  - assert (Es : py_sorted idx = seq 0 (tlen t)).
    { apply sorted_le_unique; [apply py_sorted_sorted | apply seq_sorted | rewrite py_sorted_perm; exact P]. }
    intros k i Hk. rewrite Forall_forall in Rg. assert (Hi := Rg i (nth_error_In _ _ Hk)).
    destruct (H i i) as (k' & l & p & A & B & C & D).
    { rewrite Es. rewrite (nth_error_nth' _ 0%nat) by (rewrite seq_length; exact Hi). rewrite seq_nth by exact Hi. reflexivity. }
    assert (k = k').
    { rewrite NoDup_nth_error in ND. apply ND; [eapply nth_error_Some_lt, Hk | congruence]. }
    subst k'. eauto.
  - intro S. apply (spatial_view env Ha t t' idx sm); auto. apply np_take_length in E2. rewrite E2, map_length. reflexivity.
Qed.
Print Assumptions C27_sort_spatially.

(** Four points: three of a triangle, the last one above the first and dropped by the triangulation. *)
Definition tri_pts : list V3 := [mkV3 0 0 0; mkV3 1 0 1; mkV3 1 1 2; mkV3 0 0 3].
Definition tri_env : sort_env :=
  mkSortEnv (fun p => p) (fun _ => Ok [(0, 1); (1, 2); (0, 2)]%nat) (fun _ _ => [(0, 1); (1, 2)]%nat)
    (fun _ r => match r with 0 => [0; 1; 2] | 1 => [1; 0; 2] | 2 => [2; 1; 0] | _ => [r] end%nat)
    (fun _ _ => (0, 1)%nat) (fun _ => 0) stable_argsort.

Lemma tri_reach r v : reachable [(0, 1); (1, 2)]%nat r v <-> r = v \/ ((r < 3)%nat /\ (v < 3)%nat).
Proof.
  split.
  - intro H. induction H as [|x y H IH A]; [auto|]. cbn in A.
    destruct A as [[A|[A|[]]]|[A|[A|[]]]]; injection A as <- <-; lia.
  - intros [<-|[Hr Hv]]; [constructor|].
    assert (S01 : reachable [(0, 1); (1, 2)]%nat 0%nat 1%nat) by (eapply reach_step; [constructor | left; left; reflexivity]).
    assert (S12 : reachable [(0, 1); (1, 2)]%nat 1%nat 2%nat) by (eapply reach_step; [constructor | left; right; left; reflexivity]).
    assert (S : forall v, (v < 3)%nat -> reachable [(0, 1); (1, 2)]%nat 0%nat v).
    { intros w Hw. destruct w as [|[|[|]]]; [constructor | exact S01 | eapply reach_trans; eauto | lia]. }
    eapply reach_trans; [apply reach_sym, S, Hr | apply S, Hv].
Qed.

Lemma tri_contract : mst_contract tri_env tri_pts.
Proof.
  exists [(0, 1); (1, 2); (0, 2)]%nat, [2; 1; 0]%nat. split; [reflexivity|]. split; [exists 0%nat, 1%nat; split; [left; reflexivity | discriminate]|].
  split; [|split; [|split]].
  - intro v. cbn. split.
    + intros [<-|[<-|[<-|[]]]]; [exists (1, 2)%nat | exists (0, 1)%nat | exists (0, 1)%nat]; cbn; auto.
    + intros (e & [<-|[<-|[<-|[]]]] & [<-|<-]); cbn; auto.
  - intros v [<-|[<-|[<-|[]]]]; cbn; lia.
  - cbn. eapply (tree_leaf [1; 0] [(0, 1)] _ _ 1 2)%nat; [|left; reflexivity | cbn; lia | reflexivity | left; apply perm_swap].
    eapply (tree_leaf [0] [] _ _ 0 1)%nat; [constructor | left; reflexivity | cbn; lia | reflexivity | left; reflexivity].
  - intro r. cbn [bfs tri_env spanning_tree]. split.
    + destruct r as [|[|[|r]]]; repeat constructor; cbn; lia.
    + intro v. rewrite tri_reach. destruct r as [|[|[|r]]]; cbn; lia.
Qed.

Example C27_case : mst_contract tri_env tri_pts /\ sort tri_env tri_pts false = Ok [3; 1; 2; 0]%nat.
Proof.
  split; [exact tri_contract|]. unfold sort. cbn. rb. cbn. unfold detect_direction. cbn.
  replace (0 - 0) with 0 by lra. rb. cbn. reflexivity.
Qed.
Print Assumptions C27_case.

(** * C60 *)
(** With discard_missing (the default) the sort fails whenever the highest point was dropped by the
    triangulation. *)
Theorem C60_discard_refuted :
  (forall env pts top, mst_contract env pts -> highest pts top -> ~ triangulated env pts top ->
     sort env pts true = Err ValueError) /\
  mst_contract tri_env tri_pts /\ highest tri_pts 3 /\ ~ triangulated tri_env tri_pts 3.
Proof.
  split.
  - intros env pts top M Ht N. destruct (sort_spec env pts true M) as (order & path & top' & Ht' & ND & Tri & E & _ & _ & _ & _ & _ & H).
    specialize (E eq_refl). subst path. apply H. rewrite Tri.
    assert (top' = top); [|congruence]. destruct Ht as (p & Hp & A & B), Ht' as (q & Hq & A' & B').
    destruct (Nat.lt_trichotomy top top') as [L|[L|L]]; [|auto|].
    + specialize (B' top p L Hp). specialize (A q (nth_error_In _ _ Hq)). lra.
    + specialize (B top' q L Hq). specialize (A' p (nth_error_In _ _ Hp)). lra.
  - split; [exact tri_contract|]. split.
    + exists (mkV3 0 0 3). split; [reflexivity|]. split.
      * intros q Hq. cbn in Hq. destruct Hq as [<-|[<-|[<-|[<-|[]]]]]; cbn; lra.
      * intros j q Hj Hq. destruct j as [|[|[|j]]]; cbn in Hq; try lia; injection Hq as <-; cbn; lra.
    + intros (edges & e & E & He & K). cbn in E. injection E as <-. cbn in He. destruct He as [<-|[<-|[<-|[]]]]; cbn in K; lia.
Qed.
Print Assumptions C60_discard_refuted.

(** Otherwise it returns the points of the triangulation, each exactly once. *)
Theorem C60_discard_partial :
  forall env pts top, mst_contract env pts -> highest pts top -> triangulated env pts top ->
    exists idx, sort env pts true = Ok idx /\ NoDup idx /\ (forall v, In v idx <-> triangulated env pts v).
Proof.
  intros env pts top M Ht T. destruct (sort_spec env pts true M) as (order & path & top' & Ht' & ND & Tri & E & _ & _ & _ & _ & H & _).
  specialize (E eq_refl). subst path.
  assert (top' = top).
  { destruct Ht as (p & Hp & A & B), Ht' as (q & Hq & A' & B').
    destruct (Nat.lt_trichotomy top top') as [L|[L|L]]; [|auto|].
    + specialize (B' top p L Hp). specialize (A q (nth_error_In _ _ Hq)). lra.
    + specialize (B top' q L Hq). specialize (A' p (nth_error_In _ _ Hp)). lra. }
  subst top'. destruct H as (idx & E & S); [apply Tri, T|]. exists idx. split; [exact E|].
  assert (P := started_perm _ _ _ S). split; [apply (Permutation_NoDup (Permutation_sym P)), ND|].
  intro v. rewrite <- Tri. split; apply Permutation_in; [exact P | symmetry; exact P].
Qed.
Print Assumptions C60_discard_partial.

(** The hypotheses of [C27_sort_spatially] hold of a trajectory of these four points. *)
Example C27_case_traj :
  let t := mkTraj [0; 1; 2; 3] tri_pts (@None (list nat)) [0; 1; 2; 3] [vzero; vzero; vzero; vzero] SortTime "t" 0 in
  argsort_contract (np_argsort tri_env) /\ (forall p, length (mls tri_env p) = length p) /\
  consistent t /\ mst_contract tri_env (mls tri_env (xyz t)).
Proof. repeat split; try exact tri_contract; apply stable_argsort_contract. Qed.
