(** Property C144: smoothing and what was smoothed before. *)
From Verif Require Import Base BaseFacts NumpyModel GeomModel MatchModel MatchSpec MatchFacts ApproxModel ApproxSpec ApproxFacts2 ApproxProps VoxModel CacheModel CacheSpec CacheFacts.

(** Whatever was smoothed before in the same process, with whatever outcome, and wherever objects are placed in memory: every
    call gives what it would give without a cache. *)
Theorem C144_history : forall query eigh fresh iterate calls,
  knn_contract vdist query -> free_address fresh -> set_iteration iterate ->
  snd (smoothing_calls query eigh fresh iterate calls started) =
  map (fun c => mls_iterative query eigh (c_points c) (c_size c) (c_nearest c) (c_threshold c)) calls.
Proof.
  intros query eigh fresh iterate calls KN FR IT. destruct (calls_cached query eigh fresh iterate KN FR IT calls started (started_right eigh)) as (st & E & _). rewrite E. reflexivity.
Qed.
Print Assumptions C144_history.

(** The same with other calls before: [snd] of the calls after [before] is that of a new process. *)
Theorem C144_later : forall query eigh fresh iterate before calls,
  knn_contract vdist query -> free_address fresh -> set_iteration iterate ->
  snd (smoothing_calls query eigh fresh iterate calls (fst (smoothing_calls query eigh fresh iterate before started))) =
  snd (smoothing_calls query eigh fresh iterate calls started).
Proof.
  intros query eigh fresh iterate before calls KN FR IT.
  destruct (calls_cached query eigh fresh iterate KN FR IT before started (started_right eigh)) as (st & E & RC & _). rewrite E. cbn [fst].
  destruct (calls_cached query eigh fresh iterate KN FR IT calls st RC) as (st1 & E1 & _).
  destruct (calls_cached query eigh fresh iterate KN FR IT calls started (started_right eigh)) as (st2 & E2 & _). rewrite E1, E2. reflexivity.
Qed.
Print Assumptions C144_later.

(** REFUTED (a call leaves nothing behind): every successful call leaves at least one more grid with its points in memory. *)
Theorem C144_memory_refuted : forall query eigh fresh iterate calls,
  knn_contract vdist query -> free_address fresh -> set_iteration iterate ->
  (length (filter (fun r => match r with Ok _ => true | Err _ => false end) (snd (smoothing_calls query eigh fresh iterate calls started)))
   <= length (objects (fst (smoothing_calls query eigh fresh iterate calls started))))%nat.
Proof.
  intros query eigh fresh iterate calls KN FR IT. destruct (calls_cached query eigh fresh iterate KN FR IT calls started (started_right eigh)) as (st & E & RC & G). rewrite E. cbn [fst snd].
  replace (length (filter _ (map (smoothing_of query eigh) calls))) with (list_sum (map (fun c => succeeded (smoothing_of query eigh c)) calls)).
  - apply (grows_objects eigh); assumption.
  - clear. induction calls as [|c calls IH]; [reflexivity|]. cbn [map filter]. change (list_sum (succeeded (smoothing_of query eigh c) :: map (fun c => succeeded (smoothing_of query eigh c)) calls)) with (succeeded (smoothing_of query eigh c) + list_sum (map (fun c => succeeded (smoothing_of query eigh c)) calls))%nat.
    rewrite IH. destruct (smoothing_of query eigh c); reflexivity.
Qed.
Print Assumptions C144_memory_refuted.

(** Addresses and sets that meet the contracts *)
Definition above (used : list nat) : nat := S (List.list_max used).
Lemma above_free : free_address above.
Proof. intros used I. assert (L : Forall (fun k => (k <= List.list_max used)%nat) used) by (apply List.list_max_le; lia). rewrite Forall_forall in L. specialize (L _ I). unfold above in L. lia. Qed.
Lemma nodup_iteration : set_iteration (nodup string_dec).
Proof. intro s. split; [apply NoDup_nodup|]. intro x. apply nodup_In. Qed.

(** The same smoothing twice, with a failing one in between *)
Example C144_case : exists th out,
  snd (smoothing_calls (brute vdist) (fun _ => mkV3 1 0 0) above (nodup string_dec) [mkCall apart 1 2 th; mkCall apart 1 1 th; mkCall apart 1 2 th] started) = [Ok out; Err TypeError; Ok out] /\
  (2 <= length (objects (fst (smoothing_calls (brute vdist) (fun _ => mkV3 1 0 0) above (nodup string_dec) [mkCall apart 1 2 th; mkCall apart 1 1 th; mkCall apart 1 2 th] started))))%nat.
Proof.
  destruct C73_case as (vs & V & L & _). destruct (C73_total (brute vdist) (fun _ => mkV3 1 0 0) apart 1 2 vs (brute_contract vdist) V ltac:(lia)) as (out & E & _).
  exists (average_distance apart out), out.
  assert (X : mls_iterative (brute vdist) (fun _ => mkV3 1 0 0) apart 1 2 (average_distance apart out) = Ok out).
  { unfold mls_iterative. cbn [mls_loop]. rewrite E. cbn [bind]. rewrite (proj2 (Rltb_false _ _)); [reflexivity|lra]. }
  assert (Y : mls_iterative (brute vdist) (fun _ => mkV3 1 0 0) apart 1 1 (average_distance apart out) = Err TypeError).
  { unfold mls_iterative. cbn [mls_loop]. unfold mls_single. rewrite V. reflexivity. }
  assert (R : snd (smoothing_calls (brute vdist) (fun _ => mkV3 1 0 0) above (nodup string_dec) [mkCall apart 1 2 (average_distance apart out); mkCall apart 1 1 (average_distance apart out); mkCall apart 1 2 (average_distance apart out)] started) = [Ok out; Err TypeError; Ok out]).
  { rewrite C144_history; [|apply brute_contract|exact above_free|exact nodup_iteration]. cbn [map c_points c_size c_nearest c_threshold]. rewrite X, Y. reflexivity. }
  split; [exact R|]. eapply Nat.le_trans; [|apply C144_memory_refuted; [apply brute_contract|exact above_free|exact nodup_iteration]]. rewrite R. reflexivity.
Qed.
Print Assumptions C144_case.
