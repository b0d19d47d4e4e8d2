(** Properties C29 to C35 and C61 to C64: relative and absolute comparison of trajectories. *)
From Verif Require Import Base BaseFacts VecFacts NumpyModel NumpyFacts TrajModel TrajSpec GeomModel GeomSpec GeomFacts GeomFacts2
  GeomProps EvalModel EvalSpec EvalFacts EvalFacts2 EvalFacts3 EvalFacts4 EvalFacts5 EvalStats.

(** * C29 *)
Theorem C29_inverse :
  forall P : M4, rigid P -> rigid (se3_inv P) /\ mul4 (se3_inv P) P = ident4 /\ mul4 P (se3_inv P) = ident4.
Proof. intros P H. exact (conj (se3_inv_rigid P H) (conj (se3_inv_left P H) (se3_inv_right P H))). Qed.
Print Assumptions C29_inverse.

(** Moving the test trajectory by T and the reference by S changes nothing in the result. *)
Theorem C29_invariant :
  forall (Q : Type) (ops : rot_ops Q) (T S : M4) (test test' ref ref' : traj Q) (s : rel_settings),
    rot_contract ops -> rigid T -> rigid S -> consistent test -> consistent ref ->
    moved ops T test test' -> moved ops S ref ref' ->
    compare_relative ops test' ref' s = compare_relative ops test ref s.
Proof. intros Q ops T S test test' ref ref' s C. exact (compare_relative_moved ops C T S test test' ref ref' s). Qed.
Print Assumptions C29_invariant.

(** In particular moving trajectories with orientations through the API. *)
Theorem C29_apply_transformation :
  forall (Q : Type) (ops : rot_ops Q) (T S : M4) (test ref : traj Q) (q q' : list Q) (s : rel_settings),
    rot_contract ops -> rigid T -> rigid S -> consistent test -> consistent ref ->
    rot test = Some q -> rot ref = Some q' ->
    compare_relative ops (apply_transformation ops T test) (apply_transformation ops S ref) s = compare_relative ops test ref s.
Proof.
  intros Q ops T S test ref q q' s C HT HS Ct Cr Et Er. apply (compare_relative_moved ops C T S); try assumption.
  - exact (apply_transformation_moved ops C T test q HT Ct Et).
  - exact (apply_transformation_moved ops C S ref q' HS Cr Er).
Qed.
Print Assumptions C29_apply_transformation.

(** Every entry compares the motion M of the reference with the motion N of the test between two
    poses: N = M E, the position error is the length of the translation of E and the rotation error
    its angle, both divided by the distance; they vanish exactly when the motions agree. *)
Theorem C29_entries :
  forall (Q : Type) (ops : rot_ops Q) (test ref : traj Q) (s : rel_settings) (r : rpe_result) k es e,
    rot_contract ops -> consistent test -> consistent ref -> has_orientation test = true -> has_orientation ref = true ->
    compare_relative ops test ref s = Ok r -> In (k, es) (rpe_pairs r) -> In e es ->
    exists ds i j di dj Pi Pj Ti Tj M N E a,
      pair_distances ref (pair_distance_unit s) = Ok ds /\
      nth_error ds i = Some di /\ nth_error ds j = Some dj /\ e_dist e = dj - di /\
      pose_matrix ops ref i Pi /\ pose_matrix ops ref j Pj /\ pose_matrix ops test i Ti /\ pose_matrix ops test j Tj /\
      motion Pi Pj M /\ motion Ti Tj N /\ mul4 M E = N /\ angle_of (lin E) a /\
      (di <> dj -> e_pos e = Some (vnorm (tra E) / (dj - di)) /\ e_rot e = Some (Some (a / (dj - di)))) /\
      (di = dj -> e_pos e = None /\ e_rot e = Some None) /\
      (vnorm (tra E) = 0 /\ a = 0 <-> M = N).
Proof.
  intros Q ops test ref s r k es e C Ct Cr Ot Or H Hk He.
  destruct (compare_relative_ok ops test ref s r H) as (_ & _ & _ & _ & B & _). destruct (B k es Hk) as (ds & idx & Hd & _ & F).
  destruct (Forall2_In_r _ _ _ e F He) as ([i j] & _ & Hp). exists ds, i, j.
  destruct (entry_rot ops C test ref ds i j e Ct Cr Or Ot Hp) as (di & dj & Pi & Pj & Ti & Tj & M & N & E & a & X).
  exists di, dj, Pi, Pj, Ti, Tj, M, N, E, a. split; [exact Hd | exact X].
Qed.
Print Assumptions C29_entries.

(** Without orientations the lengths of the displacements are compared. *)
Theorem C29_entries_plain :
  forall (Q : Type) (ops : rot_ops Q) (test ref : traj Q) (s : rel_settings) (r : rpe_result) k es e,
    has_orientation ref = false \/ has_orientation test = false ->
    compare_relative ops test ref s = Ok r -> In (k, es) (rpe_pairs r) -> In e es ->
    exists ds i j di dj ri rj ti tj,
      pair_distances ref (pair_distance_unit s) = Ok ds /\
      nth_error ds i = Some di /\ nth_error ds j = Some dj /\ e_dist e = dj - di /\
      nth_error (xyz ref) i = Some ri /\ nth_error (xyz ref) j = Some rj /\
      nth_error (xyz test) i = Some ti /\ nth_error (xyz test) j = Some tj /\
      e_rot e = None /\
      (di <> dj -> e_pos e = Some (Rabs (vdist rj ri - vdist tj ti) / (dj - di))) /\ (di = dj -> e_pos e = None).
Proof.
  intros Q ops test ref s r k es e O H Hk He.
  destruct (compare_relative_ok ops test ref s r H) as (_ & _ & _ & _ & B & _). destruct (B k es Hk) as (ds & idx & Hd & _ & F).
  destruct (Forall2_In_r _ _ _ e F He) as ([i j] & _ & Hp). exists ds, i, j.
  destruct (entry_plain ops test ref ds i j e O Hp) as (di & dj & ri & rj & ti & tj & X).
  exists di, dj, ri, rj, ti, tj. split; [exact Hd | exact X].
Qed.
Print Assumptions C29_entries_plain.

(** * C64: a relative comparison returns or raises ValueError *)
Theorem C64_relative_outcome :
  forall (Q : Type) (ops : rot_ops Q) (test ref : traj Q) (s : rel_settings) ds,
    consistent test -> consistent ref -> tlen test = tlen ref ->
    pair_distances ref (pair_distance_unit s) = Ok ds -> StronglySorted Rle ds ->
    pair_min_distance s <= pair_max_distance s -> 0 < pair_distance_step s ->
    use_all_pose_pairs s = true \/ (0 < pair_min_distance s /\ ds <> []) ->
    (exists r, compare_relative ops test ref s = Ok r) \/ compare_relative ops test ref s = Err ValueError.
Proof. intros Q ops test ref s ds H1 H2 H3 H4 H5 H6 H7 H8. exact (proj2 (compare_relative_total ops test ref s ds H1 H2 H3 H4 H5 H6 H7 H8)). Qed.
Print Assumptions C64_relative_outcome.

(** A result is never empty, carries both names and the unit. *)
Theorem C64_relative_result :
  forall (Q : Type) (ops : rot_ops Q) (test ref : traj Q) (s : rel_settings) (r : rpe_result),
    compare_relative ops test ref s = Ok r ->
    rpe_unit r = pair_distance_unit s /\ rpe_name r = (name test ++ " vs. " ++ name ref)%string /\
    (pair_distance_unit s = U_METER \/ pair_distance_unit s = U_SECOND) /\
    pair_min_distance s <= pair_max_distance s /\
    (exists k es, In (k, es) (rpe_pairs r) /\ es <> []).
Proof.
  intros Q ops test ref s r H. destruct (compare_relative_ok ops test ref s r H) as (H1 & H2 & H3 & (k & es & Hk & Ne) & B & _).
  split; [exact H2|]. split; [exact H3|]. split; [|split; [exact H1 | eauto]].
  destruct (B k es Hk) as (ds & _ & Hd & _). unfold pair_distances in Hd. destruct (pair_distance_unit s); try discriminate; auto.
Qed.
Print Assumptions C64_relative_result.

(** A unit or range that makes no sense raises ValueError. *)
Theorem C64_relative_rejects :
  forall (Q : Type) (ops : rot_ops Q) (test ref : traj Q) (s : rel_settings),
    (pair_max_distance s < pair_min_distance s -> compare_relative ops test ref s = Err ValueError) /\
    (pair_min_distance s <= pair_max_distance s -> 0 < pair_distance_step s ->
     pair_distance_unit s <> U_METER -> pair_distance_unit s <> U_SECOND -> compare_relative ops test ref s = Err ValueError).
Proof.
  intros Q ops test ref s. split.
  - intro H. unfold compare_relative. rb. reflexivity.
  - intros H Hs N1 N2. unfold compare_relative. destruct (Rltb_spec (pair_max_distance s) (pair_min_distance s)); [lra|].
    destruct (np_arange_pos ZeroDivisionError (pair_min_distance s) (pair_max_distance s + pair_distance_step s) _ Hs) as (l & -> & L1 & L2). cbn [bind].
    destruct l as [|k l].
    { assert (X : pair_min_distance s + INR 0 * pair_distance_step s < pair_max_distance s + pair_distance_step s) by (cbn; lra).
      apply L1 in X. cbn in X. lia. }
    assert (D : pair_distances ref (pair_distance_unit s) = Err ValueError) by (unfold pair_distances; destruct (pair_distance_unit s); congruence).
    cbn [mapM]. rewrite D. reflexivity.
Qed.
Print Assumptions C64_relative_rejects.

(** A comparison of [duo] with itself over half a metre, all pose pairs. *)
Definition half_metre (all : bool) : rel_settings := mkRelSettings (1 / 4) (1 / 2) (1 / 5) U_METER all.

Lemma duo_sorted : StronglySorted Rle [0; 1].
Proof. repeat constructor; lra. Qed.

Lemma duo_pairs : get_pair_indices [0; 1] true (1 / 4) = Ok [(0, 1)]%nat.
Proof. unfold get_pair_indices, searchsorted_left, enumerate, count. cbn. rb. reflexivity. Qed.

Lemma duo_self_ok t : consistent t -> tlen t = 2%nat -> arc t = [0; 1] -> exists r, compare_relative rot_impl t t (half_metre true) = Ok r.
Proof.
  intros Ct Lt Ea.
  destruct (compare_relative_total rot_impl t t (half_metre true) [0; 1] Ct Ct eq_refl) as [H _].
  - cbn. rewrite Ea. reflexivity.
  - exact duo_sorted.
  - cbn; lra.
  - cbn; lra.
  - left; reflexivity.
  - apply (H (1 / 4) 0%nat [(0, 1)%nat]); cbn; [lra | lra | exact duo_pairs | discriminate].
Qed.

Example C29_case :
  exists r, consistent duo /\ has_orientation duo = true /\ rigid turn_and_shift /\
    compare_relative rot_impl duo duo (half_metre true) = Ok r /\
    compare_relative rot_impl (apply_transformation rot_impl turn_and_shift duo) duo (half_metre true) = Ok r.
Proof.
  destruct (duo_self_ok duo duo_consistent eq_refl eq_refl) as [r H]. exists r. split; [exact duo_consistent|]. split; [reflexivity|].
  split; [exact turn_rigid|]. split; [exact H|]. rewrite <- H.
  apply (compare_relative_moved rot_impl rot_impl_contract turn_and_shift ident4); try exact duo_consistent; try exact turn_rigid.
  - apply rigid_pose, is_rot_ident.
  - eapply apply_transformation_moved; [exact rot_impl_contract | exact turn_rigid | exact duo_consistent | reflexivity].
  - split; [repeat split|]. cbn. split.
    + pts; ring.
    + repeat apply cons_eq; try reflexivity; rewrite mmul_ident_l; reflexivity.
Qed.

Example C64_case :
  pair_distances duo U_METER = Ok [0; 1] /\ StronglySorted Rle [0; 1] /\
  (exists r, compare_relative rot_impl duo duo (half_metre true) = Ok r) /\
  compare_relative rot_impl duo duo (mkRelSettings 2 3 1 U_METER true) = Err ValueError.
Proof.
  split; [reflexivity|]. split; [exact duo_sorted|]. split; [exact (duo_self_ok duo duo_consistent eq_refl eq_refl)|].
  destruct (C64_relative_outcome _ rot_impl duo duo (mkRelSettings 2 3 1 U_METER true) [0; 1] duo_consistent duo_consistent eq_refl eq_refl duo_sorted) as [[r H]|H];
    [cbn; lra | cbn; lra | left; reflexivity | exfalso | exact H].
  destruct (compare_relative_ok rot_impl duo duo _ r H) as (_ & _ & _ & (k & es & Hk & Ne) & B & _).
  destruct (B k es Hk) as (ds & idx & Hd & Hi & F). injection Hd as <-.
  assert (Lk : 2 <= k).
  { apply (in_map fst) in Hk. apply In_nth_error in Hk as [n Hn]. apply (keys_spec rot_impl duo duo _ r H) in Hn; cbn in *; [|lra].
    assert (P := pos_INR n). lra. }
  unfold get_pair_indices, enumerate in Hi. cbn in Hi.
  revert Hi. rewrite (proj2 (Rltb_false (0 + k) 1)) by lra. rewrite (proj2 (Rltb_false (1 + k) 1)) by lra. cbn. intro Hi.
  injection Hi as <-. inversion F. congruence.
Qed.

(** * C30 *)
(** Pair selection over all poses: i is used exactly when the trajectory extends more than [dist]
    beyond it, once, with the first j at least [dist] away. *)
Theorem C30_all_pairs :
  forall (ds : list R) (dist dl : R),
    StronglySorted Rle ds -> 0 < dist -> last_distance ds dl ->
    exists l, get_pair_indices ds true dist = Ok l /\
      (forall i j, In (i, j) l <-> exists d, nth_error ds i = Some d /\ d + dist < dl /\ first_at_least ds (d + dist) j) /\
      StronglySorted lt (map fst l) /\
      (forall i j, In (i, j) l -> (i < j < length ds)%nat) /\
      (forall i d, nth_error ds i = Some d -> d + dist < dl -> exists j, In (i, j) l).
Proof.
  intros ds dist dl S Hd Hl. destruct (all_pairs_spec ds dist dl S Hd Hl) as (l & E & H1 & H2 & H3). exists l.
  repeat (split; [assumption|]). intros i d Hi Hx. exists (searchsorted_left ds (d + dist)). apply H1. exists d. split; [exact Hi|]. split; [exact Hx|].
  apply searchsorted_first; [exact S|]. split; [|reflexivity]. apply (searchsorted_exists ds (d + dist) dl S Hl). lra.
Qed.
Print Assumptions C30_all_pairs.

(** In a result every entry has at least the pair distance. *)
Theorem C30_entries :
  forall (Q : Type) (ops : rot_ops Q) (test ref : traj Q) (s : rel_settings) (r : rpe_result) ds k es,
    pair_distances ref (pair_distance_unit s) = Ok ds -> StronglySorted Rle ds -> use_all_pose_pairs s = true ->
    compare_relative ops test ref s = Ok r -> In (k, es) (rpe_pairs r) -> 0 < k ->
    exists idx, StronglySorted lt (map fst idx) /\
      (forall i j, In (i, j) idx <-> exists d dl, last_distance ds dl /\ nth_error ds i = Some d /\ d + k < dl /\ first_at_least ds (d + k) j) /\
      Forall2 (fun ij e => exists di dj, nth_error ds (fst ij) = Some di /\ nth_error ds (snd ij) = Some dj /\
                 e_dist e = dj - di /\ k <= e_dist e /\ e_pos e <> None) idx es.
Proof.
  intros Q ops test ref s r ds k es Hd S Ha H Hk Pk.
  destruct (compare_relative_ok ops test ref s r H) as (_ & _ & _ & _ & B & _). destruct (B k es Hk) as (ds' & idx & Hd' & Hi & F).
  rewrite Hd in Hd'. injection Hd' as <-. rewrite Ha in Hi. exists idx.
  destruct ds as [|d0 ds0] eqn:Eds.
  - injection Hi as <-. inversion F; subst. split; [constructor|]. split; [|constructor]. intros i j. split; [contradiction|].
    intros (d & dl & Hl & _). discriminate.
  - rewrite <- Eds in *. destruct (nth_error_lt_Some ds (length ds - 1)) as [dl Hl]; [rewrite Eds; cbn; lia|].
    destruct (all_pairs_spec ds k dl S Pk Hl) as (l & E & H1 & H2 & _). rewrite E in Hi. injection Hi as <-. split; [exact H2|]. split.
    + intros i j. rewrite H1. split.
      * intros (d & X). exists d, dl. split; [exact Hl | exact X].
      * intros (d & dl' & Hl' & X). exists d. unfold last_distance in *. replace dl with dl' by congruence. exact X.
    + apply (Forall2_impl' _ _ _ _) with (2 := F). intros [i j] e Hij He. cbn [fst snd].
      destruct (entry_dist ops test ref ds i j e He) as (di & dj & Hi & Hj & De & Pe). exists di, dj. split; [exact Hi|]. split; [exact Hj|]. split; [exact De|].
      apply H1 in Hij as (d & Hd2 & _ & (x & Hx & Lx) & _). rewrite Hi in Hd2. injection Hd2 as <-. rewrite Hj in Hx. injection Hx as <-.
      split; [lra|]. intro X. apply Pe in X. lra.
Qed.
Print Assumptions C30_entries.

Example C30_case :
  StronglySorted Rle [0; 1; 2; 5] /\ last_distance [0; 1; 2; 5] 5 /\
  get_pair_indices [0; 1; 2; 5] true 2 = Ok [(0, 2); (1, 3); (2, 3)]%nat.
Proof.
  split; [repeat constructor; lra|]. split; [reflexivity|].
  unfold get_pair_indices, searchsorted_left, enumerate, count. cbn. rb. reflexivity.
Qed.

(** * C31 *)
(** Consecutive pairs connect the first poses at or beyond successive multiples of the distance; both
    poses are in order and differ when no step of the trajectory is longer than the distance.  Missing
    from the full claim: trajectories with longer steps (refuted below). *)
Theorem C31_consecutive_partial :
  forall (ds : list R) (dist d0 dl : R),
    StronglySorted Rle ds -> 0 < dist -> nth_error ds 0 = Some d0 -> last_distance ds dl ->
    exists l, get_pair_indices ds false dist = Ok l /\
      (forall k i j, nth_error l k = Some (i, j) <->
         d0 + INR (S k) * dist < dl /\ first_at_least ds (d0 + INR k * dist) i /\ first_at_least ds (d0 + INR (S k) * dist) j) /\
      (forall i j, In (i, j) l -> (i <= j < length ds)%nat) /\
      ((forall k a b, nth_error ds k = Some a -> nth_error ds (S k) = Some b -> b - a <= dist) ->
       forall i j, In (i, j) l -> (i < j)%nat).
Proof.
  intros ds dist d0 dl S Hd H0 Hl. destruct (consecutive_spec ds dist d0 dl S Hd H0 Hl) as (l & E & H1). exists l.
  split; [exact E|]. split; [exact H1|].
  assert (K : forall k, d0 + INR (Datatypes.S k) * dist = d0 + INR k * dist + dist) by (intro k; rewrite S_INR; ring).
  split.
  - intros i j Hij. apply In_nth_error in Hij as [k Hk]. apply H1 in Hk as (_ & A & B). split.
    + eapply (consecutive_le ds); [exact S | | exact A | exact B]. rewrite K. lra.
    + destruct B as [(d & X & _) _]. eapply nth_error_Some_lt, X.
  - intros G i j Hij. apply In_nth_error in Hij as [k Hk]. apply H1 in Hk as (_ & A & B). rewrite K in B.
    eapply (consecutive_gap ds); try eassumption. assert (P := pos_INR k). assert (0 <= INR k * dist) by (apply Rmult_le_pos; lra). lra.
Qed.
Print Assumptions C31_consecutive_partial.

(** A trajectory with steps of 10 m compared over 3 m. *)
Definition strides : traj RotM :=
  mkTraj [0; 1; 2] [mkV3 0 0 0; mkV3 10 0 0; mkV3 20 0 0] None [0; 10; 20] [vzero; vzero; vzero] SortTime "strides" 0.
Definition three_metres : rel_settings := mkRelSettings 3 3 1 U_METER false.

(** A comparison succeeds although one of its pairs is a pose with itself: its position deviation is
    a division by zero. *)
Theorem C31_consecutive_refuted :
  exists (t : traj RotM) (s : rel_settings) (r : rpe_result) k es e,
    consistent t /\ StronglySorted Rlt (arc t) /\ pair_distance_unit s = U_METER /\ use_all_pose_pairs s = false /\ 0 < k /\
    compare_relative rot_impl t t s = Ok r /\ In (k, es) (rpe_pairs r) /\ In e es /\ e_dist e = 0 /\ e_pos e = None.
Proof.
  set (ds := [0; 10; 20]). assert (S : StronglySorted Rle ds) by (repeat constructor; lra).
  assert (Ct : consistent strides) by (repeat split).
  destruct (consecutive_spec ds 3 0 20 S) as (l & E & H1); [lra | reflexivity | reflexivity|].
  assert (P1 : nth_error l 1 = Some (1, 1)%nat).
  { apply H1. cbn [INR]. split; [lra|]. split; (split; [exists 10; split; [reflexivity | lra]|]);
      intros i d Hi Hd; (destruct i; [injection Hd as <-; lra | lia]). }
  destruct (compare_relative_total rot_impl strides strides three_metres ds Ct Ct eq_refl eq_refl S) as [H _];
    [cbn; lra | cbn; lra | right; split; [cbn; lra | discriminate] |].
  destruct (H 3 0%nat l) as [r Hr]; [cbn; lra | cbn; lra | exact E | intros ->; discriminate|]. clear H.
  destruct (compare_relative_ok rot_impl strides strides three_metres r Hr) as (_ & _ & _ & _ & B & _).
  assert (K := proj2 (keys_spec rot_impl strides strides three_metres r Hr ltac:(cbn; lra) 0%nat 3) ltac:(cbn; split; lra)).
  rewrite nth_error_map' in K. destruct (nth_error (rpe_pairs r) 0) as [[k es]|] eqn:Ek; [|discriminate]. injection K as ->. apply nth_error_In in Ek.
  destruct (B 3 es Ek) as (ds' & idx & Hd & Hi & F). injection Hd as <-. change (get_pair_indices ds false 3 = Ok idx) in Hi. rewrite E in Hi. injection Hi as <-.
  assert (Le : exists e, nth_error es 1 = Some e).
  { apply nth_error_lt_Some. replace (length es) with (length l) by (clear -F; induction F; cbn; congruence). eapply nth_error_Some_lt, P1. }
  destruct Le as [e He]. assert (Pe := Forall2_nth _ _ _ 1%nat _ _ F P1 He). cbn beta in Pe.
  destruct (entry_dist rot_impl strides strides ds 1 1 e Pe) as (di & dj & A & A' & D & Z).
  exists strides, three_metres, r, 3, es, e. split; [exact Ct|]. split; [repeat constructor; lra|]. repeat (split; [reflexivity|]).
  split; [lra|]. split; [exact Hr|]. split; [exact Ek|]. split; [eapply nth_error_In, He|].
  replace dj with di in * by congruence. split; [lra | apply Z; reflexivity].
Qed.
Print Assumptions C31_consecutive_refuted.

Example C31_case :
  StronglySorted Rle [0; 1; 2; 5] /\ last_distance [0; 1; 2; 5] 5 /\
  (forall k a b, nth_error [0; 1; 2; 5] k = Some a -> nth_error [0; 1; 2; 5] (S k) = Some b -> b - a <= 3).
Proof.
  split; [repeat constructor; lra|]. split; [reflexivity|].
  intros k a b Ha Hb. do 3 (destruct k as [|k]; [cbn in *; injection Ha as <-; injection Hb as <-; lra|]).
  cbn in Hb. destruct k; discriminate.
Qed.

(** * C32 *)
(** The evaluated distances are min, min + step, ... below max + step; they stay within the range when
    it is a whole number of steps.  Missing from the full claim: other ranges (refuted below). *)
Theorem C32_pair_distances_partial :
  forall (Q : Type) (ops : rot_ops Q) (test ref : traj Q) (s : rel_settings) (r : rpe_result),
    compare_relative ops test ref s = Ok r -> 0 < pair_distance_step s ->
    let keys := map fst (rpe_pairs r) in
    (forall i x, nth_error keys i = Some x <->
       x = pair_min_distance s + INR i * pair_distance_step s /\ x < pair_max_distance s + pair_distance_step s) /\
    (forall x, In x keys -> pair_min_distance s <= x < pair_max_distance s + pair_distance_step s) /\
    (forall n, pair_max_distance s = pair_min_distance s + INR n * pair_distance_step s ->
       forall x, In x keys -> x <= pair_max_distance s).
Proof.
  intros Q ops test ref s r H Hs keys. assert (K := keys_spec ops test ref s r H Hs). fold keys in K. split; [exact K|]. split.
  - intros x Hx. apply In_nth_error in Hx as [i Hi]. apply K in Hi as [-> Hx]. assert (P := pos_INR i).
    assert (0 <= INR i * pair_distance_step s) by (apply Rmult_le_pos; lra). lra.
  - intros n Hn x Hx. apply In_nth_error in Hx as [i Hi]. apply K in Hi as [-> Hx].
    assert (L : INR i * pair_distance_step s < INR (n + 1) * pair_distance_step s) by (rewrite plus_INR; cbn [INR]; lra).
    apply Rmult_lt_reg_r in L; [|exact Hs]. apply INR_lt in L. assert (INR i <= INR n) as L' by (apply le_INR; lia).
    rewrite Hn. apply (Rmult_le_compat_r (pair_distance_step s)) in L'; lra.
Qed.
Print Assumptions C32_pair_distances_partial.

(** From 0.25 m to 0.5 m in steps of 0.2 m evaluates 0.65 m. *)
Theorem C32_pair_distances_refuted :
  exists (t : traj RotM) (s : rel_settings) (r : rpe_result) (k : R),
    consistent t /\ 0 < pair_distance_step s /\ pair_min_distance s <= pair_max_distance s /\
    compare_relative rot_impl t t s = Ok r /\ In k (map fst (rpe_pairs r)) /\ pair_max_distance s < k.
Proof.
  destruct (duo_self_ok duo duo_consistent eq_refl eq_refl) as [r H]. exists duo, (half_metre true), r, (1 / 4 + INR 2 * (1 / 5)).
  split; [exact duo_consistent|]. split; [cbn; lra|]. split; [cbn; lra|]. split; [exact H|]. split; [|cbn; lra].
  apply (nth_error_In _ 2). apply (keys_spec rot_impl duo duo (half_metre true) r H); cbn; [lra|]. split; [reflexivity | lra].
Qed.
Print Assumptions C32_pair_distances_refuted.

Example C32_case :
  exists r, compare_relative rot_impl duo duo (half_metre true) = Ok r /\ map fst (rpe_pairs r) <> [].
Proof.
  destruct (duo_self_ok duo duo_consistent eq_refl eq_refl) as [r H]. exists r. split; [exact H|]. intro X.
  assert (K := proj2 (keys_spec rot_impl duo duo (half_metre true) r H ltac:(cbn; lra) 0%nat (1 / 4)) ltac:(cbn; split; lra)).
  rewrite X in K. discriminate.
Qed.

(** * C33 *)
Theorem C33_deviations :
  forall (Q : Type) (ops : rot_ops Q) (test ref : traj Q),
    rot_contract ops -> consistent test -> consistent ref -> tlen test = tlen ref ->
    exists r, compare_absolute ops test ref = Ok r /\
      ate_name r = (name test ++ " vs. " ++ name ref)%string /\ ate_trajectory r = test /\
      length (pos_dev r) = tlen ref /\ length (directed_pos_dev r) = tlen ref /\
      (forall i a b, nth_error (xyz ref) i = Some a -> nth_error (xyz test) i = Some b ->
         nth_error (pos_dev r) i = Some (vsub a b)) /\
      (** orientations of the reference, else of the test, turn directed deviations into test - reference *)
      (forall q i a b m, (rot ref = Some q \/ rot ref = None /\ rot test = Some q) ->
         nth_error (xyz ref) i = Some a -> nth_error (xyz test) i = Some b -> nth_error q i = Some m ->
         exists d, nth_error (directed_pos_dev r) i = Some d /\ mapply (as_matrix ops m) d = vsub b a /\ vnorm d = vnorm (vsub a b)) /\
      match rot ref, rot test with
      | Some q, Some q' => exists d, rot_dev r = Some d /\ length d = tlen ref /\
          forall i a b, nth_error q i = Some a -> nth_error q' i = Some b ->
            exists x, nth_error d i = Some x /\ mmul (as_matrix ops x) (as_matrix ops b) = as_matrix ops a
      | _, _ => rot_dev r = None
      end.
Proof.
  intros Q ops test ref C Ct Cr L.
  destruct (compare_absolute_ok ops test ref Ct Cr L) as (r & E & H1 & H2 & H3 & H4 & H5 & H6 & _ & H8). exists r.
  repeat (split; [assumption|]). split.
  - intros q i a b m Hq Ha Hb Hm. assert (Eq : either_rot (rot ref) (rot test) = Some q) by (destruct Hq as [-> | [-> ->]]; reflexivity).
    eexists. split; [exact (H6 q i a b m Eq Ha Hb Hm)|]. assert (Rm := rc_rot ops C m). split.
    + rewrite vmul_mapply, <- mapply_mmul, (is_rot_right _ Rm). apply mapply_ident.
    + rewrite vmul_norm by exact Rm. apply vsub_norm.
  - destruct (rot ref) as [q|], (rot test) as [q'|]; try exact H8. destruct H8 as (d & Ed & Ld & Hd). exists d. split; [exact Ed|]. split; [exact Ld|].
    intros i a b Ha Hb. eexists. split; [exact (Hd i a b Ha Hb)|]. rewrite (rot_sub_matrix ops C), mmul_assoc, (is_rot_left _ (rc_rot ops C b)). apply mmul_ident_r.
Qed.
Print Assumptions C33_deviations.

(** A trajectory compared with itself. *)
Theorem C33_self :
  forall (Q : Type) (ops : rot_ops Q) (t : traj Q),
    rot_contract ops -> consistent t ->
    exists r, compare_absolute ops t t = Ok r /\ length (pos_dev r) = tlen t /\
      Forall (eq vzero) (pos_dev r) /\ Forall (eq vzero) (directed_pos_dev r) /\
      match rot t with
      | Some _ => exists d, rot_dev r = Some d /\ length d = tlen t /\ Forall (fun q => as_matrix ops q = mident) d
      | None => rot_dev r = None
      end.
Proof. intros Q ops t C. exact (compare_self ops C t). Qed.
Print Assumptions C33_self.

(** Swapping the trajectories negates the deviations and keeps their norms. *)
Theorem C33_swap :
  forall (Q : Type) (ops : rot_ops Q) (test ref : traj Q),
    consistent test -> consistent ref -> tlen test = tlen ref ->
    exists r r', compare_absolute ops test ref = Ok r /\ compare_absolute ops ref test = Ok r' /\
      pos_dev r' = map (vscale (-1)) (pos_dev r) /\ pos_dev_comb r' = pos_dev_comb r.
Proof.
  intros Q ops test ref Ct Cr L. destruct (compare_swap ops test ref Ct Cr L) as (r & r' & E & E' & H). exists r, r'.
  split; [exact E|]. split; [exact E'|]. split; [exact H|]. unfold pos_dev_comb. rewrite H, map_map. apply map_ext. intro v.
  rewrite vnorm_scale, Rabs_left by lra. ring.
Qed.
Print Assumptions C33_swap.

(** Trajectories of different lengths do not compare (a single pose is compared with all poses). *)
Theorem C33_lengths :
  forall (Q : Type) (ops : rot_ops Q) (test ref : traj Q),
    tlen test <> tlen ref -> tlen test <> 1%nat -> tlen ref <> 1%nat -> compare_absolute ops test ref = Err ValueError.
Proof.
  intros Q ops test ref N N1 N2. unfold compare_absolute, np_zip. unfold tlen in *.
  destruct (Nat.eqb_spec (length (xyz ref)) (length (xyz test))); [congruence|].
  destruct (xyz ref) as [|a [|a' la]], (xyz test) as [|b [|b' lb]]; cbn in *; try reflexivity; try lia.
Qed.
Print Assumptions C33_lengths.

Example C33_case :
  consistent duo /\ consistent duo_plain /\ tlen duo_plain = tlen duo /\
  exists r, compare_absolute rot_impl duo_plain duo = Ok r /\ ate_name r = "plain vs. duo"%string.
Proof.
  split; [exact duo_consistent|]. split; [exact duo_plain_consistent|]. split; [reflexivity|].
  destruct (compare_absolute_ok rot_impl duo_plain duo) as (r & E & N & _); [exact duo_plain_consistent | exact duo_consistent | reflexivity|].
  exists r. split; [exact E | exact N].
Qed.

Lemma Rsign_0 : Rsign 0 = 0.
Proof. unfold Rsign. destruct (Rlt_dec 0 0); [lra | reflexivity]. Qed.

(** * C34 *)
(** Decomposition of a deviation without orientations.  Missing from the full claim: a test point in
    the vertical plane through a sloped track line, and coinciding reference points (refuted below). *)
Theorem C34_decomposition_partial :
  forall (Q : Type) (ops : rot_ops Q) (test ref : traj Q) (r : ate_result Q) i p o a b,
    consistent test -> consistent ref -> tlen test = tlen ref -> rot ref = None -> rot test = None ->
    compare_absolute ops test ref = Ok r ->
    nth_error (xyz test) i = Some p -> nth_error (xyz ref) i = Some o -> track_line (xyz ref) i a b -> a <> b ->
    exists d f, nth_error (directed_pos_dev r) i = Some d /\ foot_point a b p f /\
      Rabs (vx d) = Rabs (along a b (vsub p o)) /\
      vz d = vz f - vz p /\
      (side_defined a b p -> vy d * vy d + vz d * vz d = vdist p f * vdist p f) /\
      (side_defined a b p -> sum_sq d = vdist o p * vdist o p) /\
      sum_sq d <= vdist o p * vdist o p.
Proof.
  intros Q ops test ref r i p o a b Ct Cr L Er Et H Hp Ho Tl N.
  destruct (directed_plain ops test ref r i p o a b Ct Cr L Er Et H Hp Ho Tl N) as (d & f & H1 & H2 & _ & _ & H3 & H4 & H5 & H6 & H7).
  assert (Sq : forall u v, vdist u v * vdist u v = sum_sq (vsub u v)) by (intros u v; unfold vdist; rewrite vnorm_sq; reflexivity).
  exists d, f. rewrite !Sq. repeat (split; [assumption|]). exact H7.
Qed.
Print Assumptions C34_decomposition_partial.

Definition slope : traj RotM :=
  mkTraj [0; 1] [mkV3 0 0 0; mkV3 1 0 1] None [0; sqrt 2] [vzero; vzero] SortTime "slope" 0.
Definition below_slope : traj RotM :=
  mkTraj [0; 1] [mkV3 1 0 0; mkV3 1 0 1] None [0; 1] [vzero; vzero] SortTime "below" 0.

(** Below a sloped track the horizontal deviation is lost. *)
Theorem C34_decomposition_refuted :
  exists (test ref : traj RotM) (r : ate_result RotM) (d v : V3),
    consistent test /\ consistent ref /\ tlen test = tlen ref /\ rot ref = None /\ rot test = None /\ NoDup (xyz ref) /\
    compare_absolute rot_impl test ref = Ok r /\
    nth_error (directed_pos_dev r) 0 = Some d /\ nth_error (pos_dev r) 0 = Some v /\ sum_sq d < sum_sq v.
Proof.
  assert (Ct : consistent below_slope) by (repeat split). assert (Cr : consistent slope) by (repeat split).
  destruct (compare_absolute_ok rot_impl below_slope slope Ct Cr eq_refl) as (r & E & _ & _ & _ & _ & H1 & _ & H3 & _).
  specialize (H1 0%nat (mkV3 0 0 0) (mkV3 1 0 0) eq_refl eq_refl). specialize (H3 eq_refl eq_refl).
  set (p := mkV3 1 0 0). set (a := mkV3 0 0 0). set (b := mkV3 1 0 1).
  assert (N : a <> b) by (intros [= X]; lra).
  destruct (no_rot_ok (xyz slope) (xyz below_slope) eq_refl) as (l & El & _ & Hl & _); [discriminate|].
  rewrite H3 in El. injection El as <-.
  assert (Tl : track_line (xyz slope) 0 a b) by (left; repeat split; cbn; lia).
  specialize (Hl 0%nat p a a b eq_refl eq_refl Tl).
  destruct (cross_spec p a b N) as (f & h & ((s & ->) & _) & Orth & Ec & _).
  assert (Ah : h = 0).
  { apply (f_equal fst) in Ec. cbn [fst] in Ec. rewrite <- Ec. unfold cross_track_dev. destruct (nearest_point p a b) as [g t]. cbn [fst].
    replace ((vx p - vx a) * (vy b - vy a) + (vy p - vy a) * - (vx b - vx a)) with 0 by (cbn; ring).
    rewrite Rsign_0. ring. }
  rewrite Ec in Hl. cbn [fst snd] in Hl.
  assert (Es : s = 1 / 2) by (unfold vdot, vsub, vadd, vscale in Orth; cbn in Orth; lra).
  replace (1 =? length (xyz slope))%nat with false in Hl by reflexivity. rewrite along_not_last in Hl by exact N.
  eexists below_slope, slope, r, _, _. split; [exact Ct|]. split; [exact Cr|]. repeat (split; [reflexivity|]).
  split; [constructor; [intros [X|[]]; injection X; intros; lra | constructor; [intros [] | constructor]]|].
  split; [exact E|]. split; [exact Hl|]. split; [exact H1|].
  assert (Al : along a b (vsub p a) * along a b (vsub p a) = 1 / 2).
  { unfold along. assert (D : vdist b a * vdist b a = 2) by (unfold vdist; rewrite vnorm_sq; unfold vdot; cbn; ring).
    replace (vdot (vsub p a) (vsub b a)) with 1 by (unfold vdot; cbn; ring).
    assert (Nz : vdist b a <> 0) by (intro Z; rewrite Z in D; lra).
    transitivity (1 / (vdist b a * vdist b a)); [field; exact Nz | rewrite D; lra]. }
  unfold sum_sq. cbn [vx vy vz]. rewrite Al, Ah, Es. cbn. lra.
Qed.
Print Assumptions C34_decomposition_refuted.

Definition standing : traj RotM :=
  mkTraj [0; 1] [mkV3 0 0 0; mkV3 0 0 0] None [0; 0] [vzero; vzero] SortTime "standing" 0.
Definition beside : traj RotM :=
  mkTraj [0; 1] [mkV3 1 0 0; mkV3 1 0 0] None [0; 0] [vzero; vzero] SortTime "beside" 0.

(** Where the reference stands still, a horizontal deviation is reported as zero. *)
Theorem C34_standing_refuted :
  exists (test ref : traj RotM) (r : ate_result RotM),
    consistent test /\ consistent ref /\ tlen test = tlen ref /\ compare_absolute rot_impl test ref = Ok r /\
    Forall (fun d => sum_sq d = 0) (directed_pos_dev r) /\ Forall (fun v => sum_sq v = 1) (pos_dev r).
Proof.
  assert (Ct : consistent beside) by (repeat split). assert (Cr : consistent standing) by (repeat split).
  exists beside, standing.
  assert (A : forall l, along_track_dev (mkV3 1 0 0) (mkV3 0 0 0) (mkV3 0 0 0) l = 0 /\ cross_track_dev (mkV3 1 0 0) (mkV3 0 0 0) (mkV3 0 0 0) = (0, 0)).
  { assert (Z : vnorm (vsub (mkV3 0 0 0) (mkV3 0 0 0)) = 0) by (apply vnorm_zero_iff; v3; ring).
    intro l. unfold along_track_dev, cross_track_dev, nearest_point. rewrite Z.
    destruct (Reqb_spec 0 0) as [_|X]; [|contradiction X; reflexivity]. rewrite Z. split.
    - destruct l; cbn [negb]; [destruct (Rltb 0 0)|]; ring.
    - cbn [vx vy vz]. replace ((1 - 0) * (0 - 0) + (0 - 0) * - (0 - 0)) with 0 by ring. rewrite Rsign_0. f_equal; cbn; ring. }
  unfold compare_absolute, np_zip. cbn [beside standing xyz rot length Nat.eqb combine map either_rot bind fst snd name get_directed_deviations].
  unfold dev_directions_no_rot, enumerate. cbn [length seq combine mapM bind].
  change (np_get [mkV3 0 0 0; mkV3 0 0 0] (Z.of_nat 0)) with (@Ok V3 (mkV3 0 0 0)).
  change (np_get [mkV3 0 0 0; mkV3 0 0 0] (Z.of_nat 1)) with (@Ok V3 (mkV3 0 0 0)).
  change (np_get [mkV3 0 0 0; mkV3 0 0 0] (Z.of_nat 0 + 1)) with (@Ok V3 (mkV3 0 0 0)).
  change (np_get [mkV3 0 0 0; mkV3 0 0 0] (Z.of_nat 1 - 1)) with (@Ok V3 (mkV3 0 0 0)).
  cbn [bind Nat.eqb Nat.sub]. rewrite !(proj2 (A true)), (proj1 (A true)), (proj1 (A false)). cbn [bind].
  eexists. split; [exact Ct|]. split; [exact Cr|]. split; [reflexivity|]. split; [reflexivity|].
  cbn. split; repeat constructor; unfold sum_sq; cbn; ring.
Qed.
Print Assumptions C34_standing_refuted.

Example C34_case :
  consistent duo_plain /\ rot duo_plain = None /\ track_line (xyz duo_plain) 0 (mkV3 0 0 0) (mkV3 1 0 0) /\
  side_defined (mkV3 0 0 0) (mkV3 1 0 0) (mkV3 3 2 1) /\ mkV3 0 0 0 <> mkV3 1 0 0.
Proof.
  split; [exact duo_plain_consistent|]. split; [reflexivity|]. split; [left; repeat split; cbn; lia|].
  split; [right; reflexivity | intros [= X]; lra].
Qed.

(** * C35 *)
Theorem C35_statistics :
  forall (Q : Type) (r : ate_result Q), pos_dev r <> [] ->
    exists lo hi mean rmse med std,
      pos_dev_min r = Ok lo /\ pos_dev_max r = Ok hi /\ pos_ate r = Some mean /\ pos_dev_rms r = Some rmse /\
      pos_dev_median r = Some med /\ pos_dev_std r = Some std /\
      is_least (map vnorm (pos_dev r)) lo /\ is_greatest (map vnorm (pos_dev r)) hi /\
      mean * INR (length (pos_dev r)) = np_sum (map vnorm (pos_dev r)) /\
      0 <= lo /\ lo <= mean /\ mean <= rmse /\ rmse <= hi /\ lo <= med <= hi /\
      0 <= std /\ rmse * rmse = mean * mean + std * std /\
      ((forall v, In v (pos_dev r) -> v = vzero) <-> mean = 0) /\
      ((forall v, In v (pos_dev r) -> v = vzero) <-> rmse = 0) /\
      ((forall v, In v (pos_dev r) -> v = vzero) <-> hi = 0).
Proof.
  intros Q r N. set (l := map vnorm (pos_dev r)). assert (Nl : l <> []) by (apply map_nonempty, N).
  assert (P : forall y, In y l -> 0 <= y) by (intros y Hy; apply in_map_iff in Hy as (v & <- & _); apply sqrt_pos).
  destruct (stats_order l Nl P) as (lo & hi & m & s & q & E1 & E2 & E3 & E4 & E5 & S1 & S2 & Em & H1 & H2 & H3 & H4 & H5 & H6 & Z1 & Z2 & Z3).
  destruct (median_spec l Nl) as (med & E6 & _ & _ & a & b & Ia & Ib & Hm).
  assert (Z : (forall v, In v (pos_dev r) -> v = vzero) <-> (forall y, In y l -> y = 0)).
  { split.
    - intros H y Hy. apply in_map_iff in Hy as (v & <- & Hv). apply vnorm_zero_iff, H, Hv.
    - intros H v Hv. apply vnorm_zero_iff, H. apply in_map, Hv. }
  exists lo, hi, m, q, med, s. repeat (split; [assumption|]). split; [unfold l in Em; rewrite map_length in Em; exact Em|].
  repeat (split; [assumption|]). assert (A := proj2 S1 a Ia). assert (B := proj2 S2 b Ib). split; [lra|].
  repeat (split; [assumption|]). rewrite Z. auto.
Qed.
Print Assumptions C35_statistics.

(** At least half of the norms are not above the median and at least half not below it. *)
Theorem C35_median :
  forall (Q : Type) (r : ate_result Q), pos_dev r <> [] ->
    exists med, pos_dev_median r = Some med /\
      (length (pos_dev r) <= 2 * count (fun y => Rleb y med) (map vnorm (pos_dev r)))%nat /\
      (length (pos_dev r) <= 2 * count (fun y => Rleb med y) (map vnorm (pos_dev r)))%nat.
Proof.
  intros Q r N. destruct (median_spec (map vnorm (pos_dev r)) (map_nonempty _ _ N)) as (m & E & A & B & _).
  rewrite map_length in A, B. exists m. split; [exact E | split; assumption].
Qed.
Print Assumptions C35_median.

(** Without deviations there is nothing to report. *)
Theorem C35_empty :
  forall (Q : Type) (r : ate_result Q), pos_dev r = [] ->
    pos_dev_min r = Err ValueError /\ pos_dev_max r = Err ValueError /\ pos_ate r = None /\ pos_dev_rms r = None /\
    pos_dev_median r = None /\ pos_dev_std r = None.
Proof.
  intros Q r E. unfold pos_dev_min, pos_dev_max, pos_ate, pos_dev_rms, pos_dev_median, pos_dev_std, pos_dev_comb. rewrite E. repeat split.
Qed.
Print Assumptions C35_empty.

Example C35_case :
  let r := mkAte "x" duo [mkV3 3 4 0; mkV3 0 0 1] [] None false in
  pos_dev r <> [] /\ pos_ate r = Some 3 /\ pos_dev_max r = Ok 5 /\ pos_dev_min r = Ok 1 /\ pos_dev_median r = Some 3.
Proof.
  intro r. split; [discriminate|].
  assert (E : pos_dev_comb r = [5; 1]).
  { unfold pos_dev_comb; cbn. unfold vnorm, vdot; cbn. repeat apply cons_eq; try reflexivity.
    - replace (3 * 3 + 4 * 4 + 0 * 0) with (5 * 5) by ring. apply sqrt_square. lra.
    - replace (0 * 0 + 0 * 0 + 1 * 1) with (1 * 1) by ring. apply sqrt_square. lra. }
  unfold pos_ate, pos_dev_max, pos_dev_min, pos_dev_median. rewrite E. cbn. split; [f_equal; lra|].
  split; [f_equal; apply Rmax_left; lra|]. split; [f_equal; apply Rmin_right; lra|].
  unfold np_median, np_sort. cbn. rb. f_equal. lra.
Qed.

(** * C61 *)
(** The along-track deviation is the signed distance along the track from the reference pose to the
    test pose.  Missing from the full claim: a last test pose more than one segment behind the last
    but one reference pose (refuted below). *)
Theorem C61_along_track_partial :
  forall (Q : Type) (ops : rot_ops Q) (test ref : traj Q) (r : ate_result Q) i p o a b,
    consistent test -> consistent ref -> tlen test = tlen ref -> rot ref = None -> rot test = None ->
    compare_absolute ops test ref = Ok r ->
    nth_error (xyz test) i = Some p -> nth_error (xyz ref) i = Some o -> track_line (xyz ref) i a b -> a <> b ->
    exists d, nth_error (directed_pos_dev r) i = Some d /\
      Rabs (vx d) = Rabs (along a b (vsub p o)) /\
      (S i <> tlen ref \/ - vdist b a < along a b (vsub p a) -> vx d = along a b (vsub p o)).
Proof.
  intros Q ops test ref r i p o a b Ct Cr L Er Et H Hp Ho Tl N.
  destruct (directed_plain ops test ref r i p o a b Ct Cr L Er Et H Hp Ho Tl N) as (d & f & H1 & _ & H2 & H2' & H3 & _).
  exists d. split; [exact H1|]. split; [exact H3|]. destruct (Nat.eq_dec (S i) (tlen ref)) as [K|K].
  - intros [X|X]; [contradiction | apply H2'; assumption].
  - intros _. apply H2, K.
Qed.
Print Assumptions C61_along_track_partial.

Definition far_behind : traj RotM :=
  mkTraj [0; 1] [mkV3 0 0 0; mkV3 (-2) 0 0] None [0; 2] [vzero; vzero] SortTime "behind" 0.

(** A last pose three metres behind the reference is reported as three metres ahead. *)
Theorem C61_along_track_refuted :
  exists (test ref : traj RotM) (r : ate_result RotM) (d p o a b : V3),
    consistent test /\ consistent ref /\ tlen test = tlen ref /\ rot ref = None /\ rot test = None /\
    compare_absolute rot_impl test ref = Ok r /\
    nth_error (xyz test) 1 = Some p /\ nth_error (xyz ref) 1 = Some o /\ track_line (xyz ref) 1 a b /\ a <> b /\
    nth_error (directed_pos_dev r) 1 = Some d /\ along a b (vsub p o) = -3 /\ vx d = 3.
Proof.
  assert (Ct : consistent far_behind) by (repeat split). assert (Cr := duo_plain_consistent).
  destruct (compare_absolute_ok rot_impl far_behind duo_plain Ct Cr eq_refl) as (r & E & _ & _ & _ & _ & _ & _ & H3 & _).
  specialize (H3 eq_refl eq_refl). set (p := mkV3 (-2) 0 0). set (a := mkV3 0 0 0). set (b := mkV3 1 0 0).
  assert (N : a <> b) by (intros [= X]; lra).
  destruct (no_rot_ok (xyz duo_plain) (xyz far_behind) eq_refl) as (l & El & _ & Hl & _); [discriminate|].
  rewrite H3 in El. injection El as <-.
  assert (Tl : track_line (xyz duo_plain) 1 a b) by (right; exists 0%nat; repeat split).
  specialize (Hl 1%nat p b a b eq_refl eq_refl Tl). change (2 =? length (xyz duo_plain))%nat with true in Hl.
  assert (D : vdist b a = 1).
  { unfold vdist, vnorm. replace (vdot (vsub b a) (vsub b a)) with 1 by (unfold vdot; cbn; ring). apply sqrt_1. }
  assert (A1 : along a b (vsub p b) = -3) by (unfold along; rewrite D; unfold vdot; cbn; field).
  assert (A2 : along a b (vsub p a) = -2) by (unfold along; rewrite D; unfold vdot; cbn; field).
  eexists far_behind, duo_plain, r, _, p, b, a, b. split; [exact Ct|]. split; [exact Cr|]. repeat (split; [reflexivity|]).
  split; [exact E|]. repeat (split; [reflexivity|]). split; [exact Tl|]. split; [exact N|]. split; [exact Hl|]. split; [exact A1|].
  cbn [vx]. destruct (along_last p a b N) as (_ & H & _). rewrite H, A1; [lra|]. rewrite A2, D. lra.
Qed.
Print Assumptions C61_along_track_refuted.

Example C61_case :
  consistent below_slope /\ consistent slope /\ tlen below_slope = tlen slope /\ rot slope = None /\ rot below_slope = None /\
  track_line (xyz slope) 0 (mkV3 0 0 0) (mkV3 1 0 1) /\ 1%nat <> tlen slope /\
  exists r, compare_absolute rot_impl below_slope slope = Ok r.
Proof.
  assert (Ct : consistent below_slope) by (repeat split). assert (Cr : consistent slope) by (repeat split).
  split; [exact Ct|]. split; [exact Cr|]. repeat (split; [reflexivity|]). split; [left; repeat split; cbn; lia|]. split; [discriminate|].
  destruct (compare_absolute_ok rot_impl below_slope slope Ct Cr eq_refl) as (r & E & _). exists r. exact E.
Qed.

(** * C62 *)
(** The squared RMS of the position deviations is the sum of the squared RMS of their components;
    with orientations also of the along-track and cross-track components. *)
Theorem C62_rms_components :
  forall (Q : Type) (ops : rot_ops Q) (test ref : traj Q) (r : ate_result Q),
    rot_contract ops -> consistent test -> consistent ref -> tlen test = tlen ref -> tlen ref <> 0%nat ->
    compare_absolute ops test ref = Ok r ->
    exists q x y z, pos_dev_rms r = Some q /\ pos_rms_x r = Some x /\ pos_rms_y r = Some y /\ pos_rms_z r = Some z /\
      q * q = x * x + y * y + z * z /\
      (rot ref <> None \/ rot test <> None ->
       exists a h v, pos_rms_along r = Some a /\ pos_rms_cross_h r = Some h /\ pos_rms_cross_v r = Some v /\
         q * q = a * a + h * h + v * v).
Proof.
  intros Q ops test ref r C Ct Cr L Nz H.
  destruct (compare_absolute_ok ops test ref Ct Cr L) as (r' & E & _ & _ & L1 & L2 & H1 & H2 & _). rewrite H in E. injection E as <-.
  assert (N : pos_dev r <> []) by (intro X; rewrite X in L1; cbn in L1; congruence).
  destruct (rms_components (pos_dev r) N) as (q & x & y & z & E1 & E2 & E3 & E4 & Es). exists q, x, y, z.
  repeat (split; [assumption|]). intro Ho.
  assert (Hq : exists qs, either_rot (rot ref) (rot test) = Some qs /\ length qs = tlen ref).
  { unfold either_rot. destruct (rot ref) as [qs|] eqn:Er.
    - exists qs. split; [reflexivity|]. destruct Cr as (_ & K & _). rewrite Er in K. exact K.
    - destruct (rot test) as [qs|] eqn:Et; [|destruct Ho as [Ho|Ho]; contradiction]. exists qs. split; [reflexivity|].
      destruct Ct as (_ & K & _). rewrite Et in K. unfold tlen in *. congruence. }
  destruct Hq as (qs & Eq & Lq).
  assert (Nn : map vnorm (directed_pos_dev r) = map vnorm (pos_dev r)).
  { apply nth_error_ext. intro i. rewrite !nth_error_map'. unfold tlen in *. destruct (Nat.lt_ge_cases i (length (xyz ref))) as [K|K].
    - destruct (nth_error_lt_Some (xyz ref) i K) as [a Ha]. destruct (nth_error_lt_Some (xyz test) i) as [b Hb]; [lia|].
      destruct (nth_error_lt_Some qs i) as [m Hm]; [lia|]. rewrite (H1 i a b Ha Hb), (H2 qs i a b m Eq Ha Hb Hm). cbn. f_equal.
      rewrite vmul_norm by apply (rc_rot ops C). apply vsub_norm.
    - rewrite (proj2 (nth_error_None (directed_pos_dev r) i)) by lia. rewrite (proj2 (nth_error_None (pos_dev r) i)) by lia. reflexivity. }
  assert (N' : directed_pos_dev r <> []) by (intro X; rewrite X in L2; cbn in L2; congruence).
  destruct (rms_components (directed_pos_dev r) N') as (q' & a & h & v & E1' & E2' & E3' & E4' & Es'). rewrite Nn, E1 in E1'. injection E1' as <-.
  exists a, h, v. repeat (split; [assumption|]). exact Es'.
Qed.
Print Assumptions C62_rms_components.

Example C62_case :
  consistent duo /\ tlen duo <> 0%nat /\ rot duo <> None /\ exists r, compare_absolute rot_impl duo_plain duo = Ok r.
Proof.
  split; [exact duo_consistent|]. split; [discriminate|]. split; [discriminate|].
  destruct (compare_absolute_ok rot_impl duo_plain duo duo_plain_consistent duo_consistent eq_refl) as (r & E & _). exists r. exact E.
Qed.

(** * C63 *)
(** Moving both trajectories together turns the deviations and changes no norm, no statistic, no
    directed deviation (with orientations) and no rotation angle. *)
Theorem C63_common_motion :
  forall (Q : Type) (ops : rot_ops Q) (T : M4) (test test' ref ref' : traj Q),
    rot_contract ops -> rigid T -> consistent test -> consistent ref -> tlen test = tlen ref ->
    moved ops T test test' -> moved ops T ref ref' ->
    exists r r', compare_absolute ops test ref = Ok r /\ compare_absolute ops test' ref' = Ok r' /\
      pos_dev r' = map (mapply (lin T)) (pos_dev r) /\
      pos_dev_rms r' = pos_dev_rms r /\ pos_ate r' = pos_ate r /\ pos_dev_max r' = pos_dev_max r /\ pos_dev_min r' = pos_dev_min r /\
      pos_dev_median r' = pos_dev_median r /\ pos_dev_std r' = pos_dev_std r /\
      (rot ref <> None \/ rot test <> None -> directed_pos_dev r' = directed_pos_dev r) /\
      (forall d, rot_dev r = Some d -> exists d', rot_dev r' = Some d' /\
         map (fun q => mtrace (as_matrix ops q)) d' = map (fun q => mtrace (as_matrix ops q)) d).
Proof.
  intros Q ops T test test' ref ref' C HT Ct Cr L Mt Mr.
  destruct (compare_moved ops C T test test' ref ref' HT Ct Cr L Mt Mr) as (r & r' & E & E' & H1 & H2 & H3 & H4). exists r, r'.
  split; [exact E|]. split; [exact E'|]. split; [exact H1|]. unfold pos_dev_rms, pos_ate, pos_dev_max, pos_dev_min, pos_dev_median, pos_dev_std.
  rewrite H2. repeat (split; [reflexivity|]). split; assumption.
Qed.
Print Assumptions C63_common_motion.

Example C63_case :
  rigid turn_and_shift /\ consistent duo /\ moved rot_impl turn_and_shift duo (apply_transformation rot_impl turn_and_shift duo).
Proof.
  split; [exact turn_rigid|]. split; [exact duo_consistent|].
  eapply apply_transformation_moved; [exact rot_impl_contract | exact turn_rigid | exact duo_consistent | reflexivity].
Qed.
