(** C147 and C148: the length and the data rate a trajectory shows. *)
From Verif Require Import Base BaseFacts VecFacts NumpyModel NumpyFacts TrajModel TrajSpec TrajFacts TrajFacts2 TrajFacts3 TrajProps EstModel EvalModel EvalStats InfoSpec InfoModel InfoFacts.

(** * C147 *)
(** Cropping, cutting, matching, intersecting and interpolating, in any number and order: arc lengths never understate the way
    between two poses, and stay within the arc lengths there were. *)
Theorem C147_history : forall (Q : Type) (slerp_seg : Q -> Q -> R -> Q) (t t' : traj Q) ops lo hi,
  consistent t -> travelled t -> Forall (fun a => lo <= a <= hi) (arc t) -> Forall (fun o => ~ is_index o) ops -> history slerp_seg t ops t' ->
  travelled t' /\ Forall (fun a => lo <= a <= hi) (arc t') /\
  (forall a, nth_error (arc t') 0 = Some a -> path_length (xyz t') <= total_length t' - a).
Proof.
  intros Q seg t t' ops lo hi C H W F HI. destruct (history_travelled seg t ops t' lo hi C H W F HI) as (C' & H' & W').
  split; [exact H'|]. split; [exact W'|]. apply travelled_length; assumption.
Qed.
Print Assumptions C147_history.

(** For a new trajectory whose poses are in the order of time: the length shown after any such history is at least the length of
    the path through the remaining positions and at most the length of the original path. *)
Theorem C147_length_partial : forall (Q : Type) (slerp_seg : Q -> Q -> R -> Q) loc pos ep (r : option (list Q)) ts nm sp so t ops t',
  (forall p, length (loc p) = length p) -> loc pos = pos -> pos <> [] -> length ts = length pos -> StronglySorted Rle ts ->
  new_traj loc pos ep r (Some ts) nm None sp so = Ok t ->
  Forall (fun o => ~ is_index o) ops -> history slerp_seg t ops t' ->
  total_length t = path_length pos /\ path_length (xyz t') <= total_length t' <= path_length pos.
Proof.
  intros Q seg loc pos ep r ts nm sp so t ops t' LL L NE LT S E F HI. destruct (new_exact loc pos ep r ts nm sp so t L NE LT E LL) as (C & T & X & A).
  assert (TS : time_sorted t) by (unfold time_sorted; rewrite T; exact S). rewrite <- X in A, NE |- *.
  split; [unfold total_length; rewrite A; apply lengths_last|].
  destruct (history_travelled seg t ops t' 0 (path_length (xyz t)) C (lengths_travelled t C TS A) (lengths_within t C NE A) F HI) as (C' & H' & W').
  destruct (arc t') as [|a l] eqn:EA.
  - destruct C' as (_ & _ & CA & _). rewrite EA in CA. destruct (xyz t'); [|discriminate]. unfold total_length. rewrite EA. cbn.
    split; [lra|]. rewrite path_length_sum. apply np_sum_nonneg. intros d I. apply in_map_iff in I as ([u v] & <- & _). apply vdist_nonneg.
  - assert (P := travelled_length t' C' H' a). rewrite EA in P. specialize (P eq_refl). unfold arcs_within in W'. rewrite EA in W'.
    assert (A0 := Forall_inv W'). cbn in A0. split; [lra|]. unfold total_length. rewrite EA. destruct (rev (a :: l)) as [|b r'] eqn:ER; [lra|].
    rewrite Forall_forall in W'. apply W'. apply in_rev. rewrite ER. left. reflexivity.
Qed.
Print Assumptions C147_length_partial.

(** After cropping, arc lengths still grow by exactly the distances; they start where the cropped poses started. *)
Theorem C147_crop : forall (Q : Type) (t : traj Q) a b t',
  consistent t -> time_sorted t -> arcs_exact t -> crop t a b false = Ok t' ->
  arcs_exact t' /\ (forall s, nth_error (arc t') 0 = Some s -> total_length t' = s + path_length (xyz t')).
Proof.
  intros Q t a b t' C S X E. destruct (crop_block t a b t' C S E) as (C' & pre & post & P).
  assert (X' := exact_block t t' pre post C C' P X). split; [exact X'|]. apply exact_length; assumption.
Qed.
Print Assumptions C147_crop.

(** A straight drive of 5 m, then 2 m up *)
Lemma demo_new : new_traj (fun p => p) (xyz demo) 0 (Some [10; 11; 12]%nat) (Some [0; 1; 3]) "demo" None (Some (speed demo)) SortTime = Ok demo.
Proof.
  unfold new_traj. cbn [xyz demo length Nat.eqb negb]. cbn [speed demo length Nat.eqb bind]. rewrite C10_case. reflexivity.
Qed.
Lemma demo_cropped : crop demo 1 3 false = Ok (mkTraj [1; 3] [mkV3 3 4 0; mkV3 3 4 2] (Some [11; 12]%nat) [5; 7] [mkV3 0 0 1; vzero] SortTime "demo" 0).
Proof. unfold crop. cbn [tstamps demo map]. rb. reflexivity. Qed.
Lemma up2 : vdist (mkV3 3 4 0) (mkV3 3 4 2) = 2.
Proof. unfold vdist. apply vnorm_unique; [lra|]. unfold vdot, vsub; cbn; ring. Qed.

(** REFUTED (the length is that of the path through the poses): after cropping, the part that was cut off at the start still counts. *)
Theorem C147_length_refuted : exists t',
  new_traj (fun p => p) (xyz demo) 0 (Some [10; 11; 12]%nat) (Some [0; 1; 3]) "demo" None (Some (speed demo)) SortTime = Ok demo /\
  history demo_seg demo [OpCrop 1 3 false] t' /\ path_length (xyz t') = 2 /\ total_length t' = 7.
Proof.
  eexists. split; [exact demo_new|]. split.
  - eapply history_step; [cbn [apply_op]; exact demo_cropped|intros []|apply history_nil].
  - cbn [xyz path_length]. rewrite up2. split; [ring|reflexivity].
Qed.
Print Assumptions C147_length_refuted.

Example C147_case : consistent demo /\ travelled demo /\ arcs_exact demo /\ Forall (fun a => 0 <= a <= 7) (arc demo) /\
  exists t', history demo_seg demo [OpCrop 1 3 false; OpInterpolate [2]] t' /\ xyz t' = [mkV3 3 4 1] /\ total_length t' = 6.
Proof.
  destruct demo_consistent as [C S]. assert (A : arc demo = lengths_from_xyz (xyz demo)) by (symmetry; exact C10_case).
  assert (TS : time_sorted demo) by (unfold time_sorted; cbn; repeat constructor; lra).
  split; [exact C|]. split; [apply lengths_travelled; assumption|]. split; [apply lengths_exact; assumption|]. split; [cbn; repeat constructor; lra|].
  eexists. split.
  - eapply history_step; [cbn [apply_op]; exact demo_cropped|intros []|]. eapply history_step; [|shelve|apply history_nil].
    cbn [apply_op]. unfold interpolate, crop_request. cbn. rb. cbn. unfold interpolate_positions, np_interp. cbn. rb. cbn. unfold interpolate_rotations. cbn.
    unfold slerp. cbn. rb. cbn. rb. cbn. unfold gradient_3d. cbn. unfold np_interp. cbn. rb. reflexivity.
    Unshelve. intros _; discriminate.
  - cbn. split; [|unfold total_length; cbn; field]. f_equal. f_equal; field.
Qed.
Print Assumptions C147_case.

(** * C148 *)
(** The data rate is the number of intervals divided by the time between the first and the last pose, however the poses are ordered. *)
Theorem C148_rate : forall (Q : Type) (t : traj Q) lo hi,
  is_min (tstamps t) lo -> is_max (tstamps t) hi -> lo < hi -> data_rate t = Fin (INR (length (tstamps t) - 1) / (hi - lo)).
Proof.
  intros Q t lo hi [IL ML] [IH MH] LT. unfold data_rate. set (s := np_sort (tstamps t)).
  assert (LS : length s = length (tstamps t)) by apply np_sort_length. assert (SS : StronglySorted Rle s) by apply np_sort_sorted.
  assert (N2 : (2 <= length s)%nat).
  { rewrite LS. destruct (tstamps t) as [|x [|y l]]; [destruct IL| |cbn; lia]. destruct IL as [<-|[]]. destruct IH as [<-|[]]. lra. }
  destruct (nth_error_lt_Some s 0) as [a A]; [lia|]. destruct (nth_error_lt_Some s (length s - 1)) as [b B]; [lia|].
  assert (EA : a = lo).
  { apply Rle_antisym; [|apply ML, In_np_sort; eapply nth_error_In, A]. assert (I : In lo s) by (apply In_np_sort, IL). destruct s as [|x l]; [destruct I|]. cbn in A. injection A as <-.
    apply StronglySorted_inv in SS as [_ F]. rewrite Forall_forall in F. destruct I as [<-|I]; [lra|apply F, I]. }
  assert (EB : b = hi).
  { apply Rle_antisym; [apply MH, In_np_sort; eapply nth_error_In, B|]. assert (I : In hi s) by (apply In_np_sort, IH). apply In_nth_error in I as (i & I).
    assert (LI := nth_error_Some_lt _ _ _ I). destruct (Nat.eq_dec i (length s - 1)) as [->|ND]; [rewrite I in B; injection B as ->; lra|].
    apply (proj1 (StronglySorted_nth Rle s) SS i (length s - 1)%nat hi b); [lia|exact I|exact B]. }
  unfold np_mean. assert (LD := diff_length s). destruct (np_diff s) as [|d l] eqn:D; [cbn in LD; lia|]. rewrite <- D in LD |- *.
  rewrite (diff_sum s a b A B), LD, LS, EA, EB. assert (NP : 0 < INR (length (tstamps t) - 1)) by (apply lt_0_INR; lia).
  destruct (Reqb_spec ((hi - lo) / INR (length (tstamps t) - 1)) 0) as [Z|Z].
  - exfalso. assert (0 < (hi - lo) / INR (length (tstamps t) - 1)) by (apply Rdiv_lt_0_compat; lra). lra.
  - f_equal. field. lra.
Qed.
Print Assumptions C148_rate.

(** It depends on the timestamps only, not on their order. *)
Theorem C148_order : forall (Q : Type) (t t' : traj Q), Permutation (tstamps t) (tstamps t') -> data_rate t' = data_rate t.
Proof. intros Q t t' P. unfold data_rate. rewrite (np_sort_perm_eq _ _ P). reflexivity. Qed.
Print Assumptions C148_order.

(** Fewer than two poses have no data rate, and poses that all have the same time have an infinite one. *)
Theorem C148_few : forall (Q : Type) (t : traj Q), ((length (tstamps t) <= 1)%nat <-> data_rate t = NaN) /\
  (data_rate t = Inf <-> (2 <= length (tstamps t))%nat /\ exists x, Forall (fun y => y = x) (tstamps t)).
Proof.
  intros Q t. destruct (le_lt_dec (length (tstamps t)) 1) as [L|L].
  - assert (N : data_rate t = NaN).
    { unfold data_rate. assert (LS := np_sort_length (tstamps t)). destruct (np_sort (tstamps t)) as [|x [|y l]]; [reflexivity|reflexivity|cbn in LS; lia]. }
    rewrite N. split; [tauto|]. split; [discriminate|intros [L2 _]; lia].
  - destruct (min_exists (tstamps t)) as [lo ML]; [intro Z; rewrite Z in L; cbn in L; lia|]. destruct (max_exists (tstamps t)) as [hi MH]; [intro Z; rewrite Z in L; cbn in L; lia|].
    assert (LH : lo <= hi) by (apply ML, MH). destruct (Rle_lt_or_eq_dec _ _ LH) as [LT|EQ].
    + rewrite (C148_rate Q t lo hi ML MH LT). split; [split; [lia|discriminate]|]. split; [discriminate|]. intros [_ [x F]]. rewrite Forall_forall in F.
      assert (lo = x) by apply F, ML. assert (hi = x) by apply F, MH. lra.
    + assert (F : Forall (fun y => y = lo) (tstamps t)).
      { rewrite Forall_forall. intros y I. assert (lo <= y) by apply ML, I. assert (y <= hi) by apply MH, I. lra. }
      assert (I : data_rate t = Inf).
      { unfold data_rate. set (s := np_sort (tstamps t)). assert (LS : length s = length (tstamps t)) by apply np_sort_length.
        destruct (nth_error_lt_Some s 0) as [a A]; [lia|]. destruct (nth_error_lt_Some s (length s - 1)) as [b B]; [lia|].
        rewrite Forall_forall in F. assert (EA : a = lo) by (apply F, In_np_sort; eapply nth_error_In, A). assert (EB : b = lo) by (apply F, In_np_sort; eapply nth_error_In, B).
        unfold np_mean. assert (LD := diff_length s). destruct (np_diff s) as [|d l] eqn:D; [cbn in LD; lia|]. rewrite <- D. rewrite (diff_sum s a b A B), EA, EB.
        destruct (Reqb_spec ((lo - lo) / INR (length (np_diff s))) 0) as [Z|Z]; [reflexivity|]. exfalso. apply Z. unfold Rdiv. ring. }
      rewrite I. split; [split; [lia|discriminate]|]. split; [intros _; split; [lia|exists lo; exact F]|reflexivity].
Qed.
Print Assumptions C148_few.

(** Evenly sampled poses: the rate is that of the clock, and cropping keeps it. *)
Theorem C148_even : forall (Q : Type) (t : traj Q) t0 d n a b t',
  consistent t -> 0 < d -> tstamps t = map (fun k => t0 + d * INR k) (seq 0 n) -> crop t a b false = Ok t' -> (2 <= tlen t')%nat ->
  data_rate t = Fin (1 / d) /\ data_rate t' = Fin (1 / d).
Proof.
  intros Q t t0 d n a b t' C D E CR L2.
  assert (EV : forall (u : traj Q) k m, tstamps u = map (fun k => t0 + d * INR k) (seq k m) -> (2 <= m)%nat -> data_rate u = Fin (1 / d)).
  { intros u k m U M. destruct m as [|[|m]]; [lia|lia|].
    assert (MN : is_min (tstamps u) (t0 + d * INR k)).
    { rewrite U. split; [left; reflexivity|]. intros y I. apply in_map_iff in I as (j & <- & J). apply in_seq in J. apply Rplus_le_compat_l, Rmult_le_compat_l; [lra|]. apply le_INR. lia. }
    assert (MX : is_max (tstamps u) (t0 + d * INR (k + S m))).
    { rewrite U. split; [apply in_map_iff; exists (k + S m)%nat; split; [reflexivity|apply in_seq; lia]|]. intros y I. apply in_map_iff in I as (j & <- & J). apply in_seq in J. apply Rplus_le_compat_l, Rmult_le_compat_l; [lra|]. apply le_INR. lia. }
    rewrite (C148_rate Q u _ _ MN MX).
    - rewrite U, map_length, seq_length. replace (S (S m) - 1)%nat with (S m) by lia. rewrite plus_INR. f_equal. assert (IP : 0 < INR (S m)) by (apply lt_0_INR; lia). set (r := INR (S m)) in *. replace (t0 + d * (INR k + r) - (t0 + d * INR k)) with (d * r) by ring. field. split; lra.
    - apply Rplus_lt_compat_l, Rmult_lt_compat_l; [exact D|]. apply lt_INR. lia. }
  assert (S : time_sorted t).
  { unfold time_sorted. rewrite E. clear - D. generalize 0%nat. induction n as [|n IH]; intro k; cbn; [constructor|]. constructor; [apply IH|].
    rewrite Forall_forall. intros y I. apply in_map_iff in I as (j & <- & J). apply in_seq in J. apply Rplus_le_compat_l, Rmult_le_compat_l; [lra|]. apply le_INR. lia. }
  destruct (crop_block t a b t' C S CR) as (C' & pre & post & P). assert (T := f_equal (map (@p_t Q)) P). rewrite !map_app in T.
  destruct (poses_components t C) as [T1 _]. destruct (poses_components t' C') as [T2 _]. rewrite T1, T2, E in T.
  assert (TL : length (tstamps t') = tlen t') by apply C'. assert (LN := f_equal (@length R) T). rewrite map_length, seq_length, !app_length in LN.
  split; [apply (EV t 0%nat n E); lia|].
  apply (EV t' (length (map (@p_t Q) pre)) (length (tstamps t'))); [|lia].
  apply (f_equal (skipn (length (map (@p_t Q) pre)))) in T. rewrite skipn_app, skipn_all, Nat.sub_diag in T. cbn [skipn app] in T.
  apply (f_equal (firstn (length (tstamps t')))) in T. rewrite firstn_app, Nat.sub_diag, firstn_O, app_nil_r, firstn_all in T. etransitivity; [symmetry; exact T|].
  rewrite skipn_map, firstn_map. f_equal. set (p := length (map (@p_t Q) pre)) in *. replace n with (p + (n - p))%nat by lia. rewrite seq_app, skipn_app, skipn_all2 by (rewrite seq_length; lia).
  rewrite seq_length, Nat.sub_diag. cbn [skipn app]. set (m := length (tstamps t')) in *. replace (n - p)%nat with (m + (n - p - m))%nat by lia. rewrite seq_app, firstn_app, seq_length, Nat.sub_diag, firstn_O, app_nil_r.
  rewrite firstn_all2 by (rewrite seq_length; lia). reflexivity.
Qed.
Print Assumptions C148_even.

Example C148_case : is_min (tstamps demo) 0 /\ is_max (tstamps demo) 3 /\ data_rate demo = Fin (2 / 3) /\
  (let t := mkTraj [10; 12; 14; 16] [mkV3 0 0 0; mkV3 1 0 0; mkV3 2 0 0; mkV3 3 0 0] (@None (list nat)) [0; 1; 2; 3] [vzero; vzero; vzero; vzero] SortTime "even" 0 in
   consistent t /\ tstamps t = map (fun k => 10 + 2 * INR k) (seq 0 4) /\ exists t', crop t 11 17 false = Ok t' /\ tlen t' = 3%nat /\ data_rate t' = Fin (1 / 2)).
Proof.
  assert (MN : is_min (tstamps demo) 0) by (split; [cbn; auto|cbn; intros y [<-|[<-|[<-|[]]]]; lra]).
  assert (MX : is_max (tstamps demo) 3) by (split; [cbn; auto|cbn; intros y [<-|[<-|[<-|[]]]]; lra]).
  split; [exact MN|]. split; [exact MX|]. split; [rewrite (C148_rate _ demo 0 3 MN MX) by lra; cbn; do 2 f_equal; lra|].
  intro t. assert (C : consistent t) by (repeat split). assert (E : tstamps t = map (fun k => 10 + 2 * INR k) (seq 0 4)) by (cbn; repeat (f_equal; try lra)).
  split; [exact C|]. split; [exact E|].
  assert (CR : exists t', crop t 11 17 false = Ok t' /\ tlen t' = 3%nat) by (eexists; unfold crop; cbn [tstamps t map]; rb; split; reflexivity).
  destruct CR as (t' & CR & L). exists t'. split; [exact CR|]. split; [exact L|]. apply (C148_even _ t 10 2 4 11 17 t' C); [lra|exact E|exact CR|lia].
Qed.
Print Assumptions C148_case.
