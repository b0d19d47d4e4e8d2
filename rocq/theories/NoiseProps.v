(** C161, continued: spatial matching of recordings whose positions differ a little. *)
From Verif Require Import Base BaseFacts VecFacts NumpyModel NumpyFacts TrajModel TrajSpec TrajFacts TrajFacts2 TrajFacts3
  GeomModel MatchModel MatchSpec MatchFacts MatchFacts2 MatchProps RematchProps EvalModel EvalStats EvalProps GeomSpec GeomFacts GeomProps.

(** If every entry is nearer to its counterpart than to all others, the pairs are the counterparts. *)
Lemma own_pairs {P} (dist : P -> P -> R) query (KC : knn_contract dist query) max (pr pt : list P) js is :
  0 <= max -> length pt = length pr ->
  (forall i p r, nth_error pt i = Some p -> nth_error pr i = Some r -> (max <> 0 -> dist r p < max) /\ forall j r', j <> i -> nth_error pr j = Some r' -> dist r p < dist r' p) ->
  pairing dist query pr pt max js is -> js = seq 0 (length pr) /\ is = seq 0 (length pr).
Proof.
  intros HM L H (P1 & P2 & P3 & P4 & P5).
  assert (OWN : forall m i j, nth_error is m = Some i -> nth_error js m = Some j -> i = j /\ (j < length pr)%nat).
  { intros m i j Hi Hj. destruct (P4 m i j Hi Hj) as (p & Hp & (r & Hr & Near & _) & _). assert (J := nth_error_Some_lt _ _ _ Hr). split; [|exact J].
    destruct (nth_error_lt_Some pr i) as [q Hq]; [rewrite <- L; exact (nth_error_Some_lt _ _ _ Hp)|]. destruct (H i p q Hp Hq) as [_ ST].
    destruct (Nat.eq_dec i j) as [E|N]; [exact E|]. assert (A := ST j r (fun z => N (eq_sym z)) Hr). assert (B := Near q (nth_error_In _ _ Hq)). lra. }
  assert (REP : forall i p, nth_error pt i = Some p -> reported query pr max p i).
  { intros i p Hp. destruct (nth_error_lt_Some pr i) as [q Hq]; [rewrite <- L; exact (nth_error_Some_lt _ _ _ Hp)|]. destruct (H i p q Hp Hq) as [W ST].
    destruct (query1_single dist query KC pr max p HM) as (row & _ & E). destruct row as [[k d]|].
    - assert (K : reported query pr max p k) by (exists d; exact E). destruct (reported_nearest dist query KC pr max p k HM K) as (r & Hr & Near & _).
      destruct (Nat.eq_dec k i) as [->|N]; [exact K|]. assert (A := ST k r N Hr). assert (B := Near q (nth_error_In _ _ Hq)). lra.
    - exfalso. destruct (not_reported dist query KC pr max p HM) with (r := q) as [NZ LE]; [intros k [d F]; congruence|exact (nth_error_In _ _ Hq)|]. specialize (W NZ). lra. }
  assert (EQ : is = js).
  { apply nth_error_ext. intro m. destruct (nth_error is m) as [i|] eqn:A.
    - destruct (nth_error_lt_Some js m) as [j B]; [rewrite P1; eapply nth_error_Some_lt, A|]. rewrite B. f_equal. apply (OWN m i j A B).
    - apply nth_error_None in A. symmetry. apply nth_error_None. lia. }
  assert (J : js = seq 0 (length pr)).
  { apply ascending_all; [exact P3|]. intro j. split.
    - intro I. apply In_nth_error in I as [m Hm]. assert (Hi := Hm). rewrite <- EQ in Hi. exact (proj2 (OWN m j j Hi Hm)).
    - intro I. destruct (nth_error_lt_Some pt j) as [p Hp]; [lia|]. exact (P5 p j (nth_error_In _ _ Hp) (REP j p Hp)). }
  split; [exact J|]. rewrite EQ. exact J.
Qed.

(** Positions that are off by at most [e], reference positions more than [2 e] apart: spatial matching keeps all poses in their order. *)
Theorem C161_noise : forall (Q : Type) query3 max e (test ref : traj Q), knn_contract vdist query3 -> consistent test -> consistent ref -> tlen test = tlen ref -> (0 < tlen ref)%nat ->
  (forall i p r, nth_error (xyz test) i = Some p -> nth_error (xyz ref) i = Some r -> vdist r p <= e) ->
  (forall i j r s, i <> j -> nth_error (xyz ref) i = Some r -> nth_error (xyz ref) j = Some s -> 2 * e < vdist r s) -> 0 <= max -> (max <> 0 -> e < max) ->
  match_spatial query3 max test ref = Ok (test, ref).
Proof.
  intros Q query3 max e test ref KC Ct Cr L N CL AP HM ME. assert (NT : xyz test <> []) by (intro Z; unfold tlen in *; rewrite Z in L; cbn in L; lia).
  destruct (C19_spatial Q query3 max test ref KC Ct Cr HM NT) as [(t' & r' & is & js & E & Hp & S1 & S2)|[_ F]].
  - destruct (own_pairs vdist query3 KC max (xyz ref) (xyz test) js is HM L) as [-> ->]; [|exact Hp|].
    + intros i p r P R. assert (D := CL i p r P R). split; [intro NZ; specialize (ME NZ); lra|]. intros j s NE S. assert (A := AP i j r s (fun z => NE (eq_sym z)) R S).
      assert (T := vdist_triangle r p s). rewrite (vdist_sym p s) in T. lra.
    + fold (tlen ref) in *. rewrite E. rewrite <- L in S1. f_equal. f_equal; apply selected_all; assumption.
  - exfalso. destruct (nth_error_lt_Some (xyz ref) 0 N) as [r R]. destruct (nth_error_lt_Some (xyz test) 0) as [p P]; [unfold tlen in *; lia|].
    destruct (F p r (nth_error_In _ _ P) (nth_error_In _ _ R)) as [NZ LE]. assert (D := CL 0%nat p r P R). specialize (ME NZ). lra.
Qed.
Print Assumptions C161_noise.

(** The reported error of such a recording is at most the noise. *)
Theorem C161_noise_error : forall (Q : Type) (ops : rot_ops Q) query3 max e (test ref : traj Q), rot_contract ops -> knn_contract vdist query3 -> consistent test -> consistent ref -> tlen test = tlen ref -> (0 < tlen ref)%nat ->
  (forall i p r, nth_error (xyz test) i = Some p -> nth_error (xyz ref) i = Some r -> vdist r p <= e) ->
  (forall i j r s, i <> j -> nth_error (xyz ref) i = Some r -> nth_error (xyz ref) j = Some s -> 2 * e < vdist r s) -> 0 <= max -> (max <> 0 -> e < max) ->
  exists a b r m, match_spatial query3 max test ref = Ok (a, b) /\ compare_absolute ops a b = Ok r /\ length (pos_dev r) = tlen ref /\ pos_dev_max r = Ok m /\ m <= e.
Proof.
  intros Q ops query3 max e test ref RC KC Ct Cr L N CL AP HM ME. destruct (C33_deviations Q ops test ref RC Ct Cr L) as (r & E & _ & _ & LP & _ & D & _).
  destruct (np_max_spec (pos_dev_comb r)) as (m & M & I & _).
  { unfold pos_dev_comb. intro Z. apply (f_equal (@length _)) in Z. rewrite map_length in Z. cbn in Z. lia. }
  exists test, ref, r, m. split; [exact (C161_noise Q query3 max e test ref KC Ct Cr L N CL AP HM ME)|]. split; [exact E|]. split; [exact LP|]. split; [exact M|].
  unfold pos_dev_comb in I. apply in_map_iff in I as (w & <- & I). apply In_nth_error in I as [i I].
  assert (J := nth_error_Some_lt _ _ _ I). destruct (nth_error_lt_Some (xyz ref) i) as [a A]; [unfold tlen in LP; lia|]. destruct (nth_error_lt_Some (xyz test) i) as [b B]; [unfold tlen in *; lia|].
  rewrite (D i a b A B) in I. injection I as <-. exact (CL i b a B A).
Qed.
Print Assumptions C161_noise_error.

Definition true_path : traj nat := mkTraj [0; 1; 2] [mkV3 0 0 0; mkV3 1 0 0; mkV3 2 0 0] None [0; 1; 2] [vzero; vzero; vzero] SortTime "path" 0.
Definition noisy_path : traj nat := mkTraj [7; 8; 9] [mkV3 (1/4) 0 0; mkV3 (3/4) 0 0; mkV3 (9/4) 0 0] None [0; 1; 2] [vzero; vzero; vzero] SortTime "noisy" 0.
Example C161_noise_case :
  consistent noisy_path /\ consistent true_path /\
  (forall i p r, nth_error (xyz noisy_path) i = Some p -> nth_error (xyz true_path) i = Some r -> vdist r p <= 1/4) /\
  (forall i j r s, i <> j -> nth_error (xyz true_path) i = Some r -> nth_error (xyz true_path) j = Some s -> 2 * (1/4) < vdist r s) /\
  match_spatial (brute vdist) 0 noisy_path true_path = Ok (noisy_path, true_path).
Proof.
  assert (A : forall i p r, nth_error (xyz noisy_path) i = Some p -> nth_error (xyz true_path) i = Some r -> vdist r p <= 1/4).
  { intros [|[|[|i]]] p r P R; cbn in P, R; try (destruct i; discriminate); injection P as <-; injection R as <-; rewrite on_x_axis; unfold Rabs; destruct Rcase_abs; lra. }
  assert (B : forall i j r s, i <> j -> nth_error (xyz true_path) i = Some r -> nth_error (xyz true_path) j = Some s -> 2 * (1/4) < vdist r s).
  { intros [|[|[|i]]] [|[|[|j]]] r s N P R; cbn in P, R; try (destruct i; discriminate); try (destruct j; discriminate); try congruence; injection P as <-; injection R as <-; rewrite on_x_axis; unfold Rabs; destruct Rcase_abs; lra. }
  split; [repeat split|]. split; [repeat split|]. split; [exact A|]. split; [exact B|].
  apply (C161_noise nat (brute vdist) 0 (1/4)); [apply brute_contract|repeat split|repeat split|reflexivity|cbn; lia|exact A|exact B|lra|lra].
Qed.
