(** Matching trajectories with the same time stamps, preprocessing with the default settings, and the absolute comparison of a
    trajectory with one at the same positions. *)
From Verif Require Import Base BaseFacts VecFacts NumpyModel NumpyFacts TrajModel TrajSpec TrajFacts TrajFacts2 EvalModel ParamModel DataModel DataSpec MatchModel MatchSpec MatchFacts MatchFacts2 MatchProps SortFacts
  GeomModel GeomSpec GeomFacts GeomFacts2 EvalSpec EvalFacts EvalProps AlignModel AlignSpec.

Lemma lt_sorted_le (l : list nat) : StronglySorted lt l -> StronglySorted le l.
Proof. induction 1 as [|x l S IH F]; constructor; [exact IH|]. eapply Forall_impl; [|exact F]. intros; lia. Qed.
Lemma seq_sorted n : forall k, StronglySorted le (seq k n).
Proof. induction n as [|n IH]; intro k; cbn; constructor; [apply IH|]. apply Forall_forall. intros x H. apply in_seq in H. lia. Qed.

Section Same.
  Context {Q : Type}.
  Implicit Types t u : traj Q.

  Lemma selected_all t t' : consistent t -> selected t (seq 0 (tlen t)) t' -> t' = t.
  Proof.
    intros C (C' & M & L & S). symmetry. apply traj_ext; [exact C|exact C'| |exact M]. apply nth_error_ext. intro i.
    rewrite seq_length in L. rewrite !poses_nth by assumption. destruct (Nat.lt_ge_cases i (tlen t)) as [K|K].
    - destruct (S i i) as [E _]; [|symmetry; exact E]. rewrite (nth_error_nth' _ 0%nat) by (rewrite seq_length; exact K). rewrite seq_nth by exact K. reflexivity.
    - assert (N : forall v : traj Q, consistent v -> tlen v = tlen t -> pose_at v i = None).
      { intros v Cv Lv. unfold pose_at. destruct Cv as (L1 & _). unfold tlen in *. destruct (nth_error (tstamps v) i) eqn:E; [|reflexivity]. apply nth_error_Some_lt in E. lia. }
      rewrite (N t C eq_refl), (N t' C' L). reflexivity.
  Qed.

  Lemma match_same query2 max (est gt : traj Q) : knn_contract dist2 query2 -> consistent est -> consistent gt -> tstamps gt = tstamps est ->
    strictly_time_sorted est -> 0 <= max -> tstamps est <> [] -> match_temporal query2 max est gt = Ok (est, gt).
  Proof.
    intros CK Ce Cg ET SE M0 NE. unfold strictly_time_sorted in SE. rewrite StronglySorted_nth in SE.
    destruct (C19_temporal Q query2 max est gt CK Ce Cg M0 NE) as [(e' & g' & is & js & E & P & S1 & S2)|[E F]].
    2:{ exfalso. destruct (tstamps est) as [|x l] eqn:X; [congruence|]. destruct (F x x) as [N K]; [left; reflexivity|rewrite ET; left; reflexivity|].
        rewrite Rminus_diag_eq, Rabs_R0 in K by reflexivity. lra. }
    rewrite ET in P. set (pts := map (fun x : R => (x, 0)) (tstamps est)) in *.
    assert (VB : valid_bound (bound max)) by (unfold bound; destruct (Reqb max 0) eqn:Z; [exact I|]; apply Reqb_false in Z; cbn; lra).
    assert (NP : forall i p, nth_error pts i = Some p -> exists x, p = (x, 0) /\ nth_error (tstamps est) i = Some x).
    { intros i p H. unfold pts in H. rewrite nth_error_map' in H. destruct (nth_error (tstamps est) i) as [x|] eqn:X; [|discriminate]. injection H as <-. eauto. }
    assert (D0 : forall p, dist2 p p = 0) by (intro p; unfold dist2; replace (_ + _) with 0 by ring; apply sqrt_0).
    (* a reported entry is the pose itself *)
    assert (SELF : forall i j p, nth_error pts i = Some p -> nearest dist2 pts max p j -> j = i).
    { intros i j p Hi (r & Hj & N & _). specialize (N p (nth_error_In _ _ Hi)). rewrite D0 in N.
      destruct (NP i p Hi) as [x [-> X]], (NP j r Hj) as [y [-> Y]]. change (dist2 (stamp y) (stamp x) <= 0) in N. rewrite dist2_stamp in N.
      assert (y = x) by (unfold Rabs in N; destruct Rcase_abs; lra). subst y.
      destruct (Nat.lt_trichotomy i j) as [K|[K|K]]; [|auto|]; [specialize (SE _ _ _ _ K X Y)|specialize (SE _ _ _ _ K Y X)]; lra. }
    assert (REP : forall i p, nth_error pts i = Some p -> exists j, reported query2 pts max p j).
    { intros i p Hi. assert (L := knn_length _ _ CK pts (bound max) 1 p VB). unfold reported, query1.
      destruct (query2 pts (bound max) 1%nat p) as [|row [|]] eqn:Qe; try discriminate. cbn [hd].
      destruct row as [[j d]|]; [eauto|]. exfalso.
      destruct (knn_nearest _ _ CK pts (bound max) 1%nat p i p VB Hi) with (row := @None (nat * R)) as (j & d & X & _); [| |rewrite Qe; left; reflexivity|discriminate].
      - rewrite D0. unfold within, bound. destruct (Reqb max 0) eqn:Z; [exact I|]. apply Reqb_false in Z. lra.
      - intros d. rewrite Qe. intros [X|[]]. discriminate. }
    assert (RN : forall p j, reported query2 pts max p j -> forall i, nth_error pts i = Some p -> j = i).
    { intros p j [d Hd] i Hi. assert (HD := Hd). unfold query1 in Hd. assert (IN : In (Some (j, d)) (query2 pts (bound max) 1%nat p)).
      { destruct (query2 pts (bound max) 1%nat p) as [|row rest]; [discriminate|]. cbn [hd] in Hd. left. congruence. }
      destruct (knn_sound _ _ CK pts (bound max) 1%nat p j d VB IN) as (r & Hj & -> & _).
      destruct (Nat.eq_dec j i) as [K|K]; [exact K|]. exfalso.
      destruct (knn_nearest _ _ CK pts (bound max) 1%nat p i p VB Hi) with (row := Some (j, dist2 r p)) as (j' & d' & X & LE); [| |exact IN|].
      - rewrite D0. unfold within, bound. destruct (Reqb max 0) eqn:Z; [exact I|]. apply Reqb_false in Z. lra.
      - intros d IN'. assert (L := knn_length _ _ CK pts (bound max) 1%nat p VB). destruct (query2 pts (bound max) 1%nat p) as [|row [|]]; try discriminate.
        destruct IN as [->|[]], IN' as [[= -> _]|[]]. congruence.
      - injection X as <- <-. rewrite D0 in LE. apply K. apply (SELF i j p Hi). exists r. split; [exact Hj|]. split; [|intro Z; assert (R0 := sqrt_pos ((fst r - fst p) * (fst r - fst p) + (snd r - snd p) * (snd r - snd p))); unfold dist2 in *; lra].
        intros r' _. eapply Rle_trans; [exact LE|]. apply sqrt_pos. }
    assert (PM := C20_all_kept_partial _ dist2 query2 pts pts max js is P REP).
    assert (PI : Permutation is (seq 0 (length pts))).
    { apply PM. intros i i' p p' j Hi Hi' R1 R2. rewrite <- (RN p j R1 i Hi). exact (RN p' j R2 i' Hi'). }
    destruct P as (P1 & P2 & P3 & P4 & _).
    assert (EI : js = is).
    { apply nth_error_ext_len; [exact P1|]. intros m Hm. destruct (nth_error is m) as [i|] eqn:Hi; [|apply nth_error_None in Hi; lia].
      destruct (nth_error js m) as [j|] eqn:Hj; [|apply nth_error_None in Hj; lia]. destruct (P4 m i j Hi Hj) as (p & Hp & NN & _). f_equal. exact (SELF i j p Hp NN). }
    assert (IS : is = seq 0 (length pts)) by (apply sorted_le_unique; [rewrite <- EI; apply lt_sorted_le, P3|apply seq_sorted|exact PI]).
    assert (LE : length pts = tlen est) by (unfold pts; rewrite map_length; apply Ce).
    assert (LG : tlen gt = tlen est) by (destruct Cg as (A & _), Ce as (B & _); unfold tlen; congruence).
    rewrite EI, IS, LE in *. apply selected_all in S1; [|exact Ce]. rewrite <- LG in S2. apply selected_all in S2; [|exact Cg]. congruence.
  Qed.
End Same.

Lemma mask_all {A} (l : list A) m : length m = length l -> Forall (eq true) m -> np_mask l m = Ok l.
Proof.
  intros L F. unfold np_mask. rewrite (proj2 (Nat.eqb_eq _ _) L). f_equal. revert l L. induction F as [|b m <- F IH]; intros [|a l] L; try discriminate; [reflexivity|].
  cbn. f_equal. apply IH. cbn in L. lia.
Qed.
Lemma filter_nothing {Q} (t : traj Q) m : consistent t -> m <= 0 -> speed_filter m t = Ok t.
Proof.
  intros (Ht & Hr & Ha & Hs) M. unfold speed_filter, apply_index, np_index.
  set (mask := map (fun v => Rleb m (vnorm v)) (speed t)).
  assert (FM : Forall (eq true) mask).
  { apply Forall_forall. intros b B. apply in_map_iff in B as [v [<- _]]. symmetry. apply Rleb_true. apply Rle_trans with 0; [exact M|apply sqrt_pos]. }
  assert (LM : length mask = length (speed t)) by apply map_length.
  assert (K : forall A (l : list A), length l = length (xyz t) -> np_mask l mask = Ok l) by (intros A l L; apply mask_all; [congruence|exact FM]).
  rewrite (K _ (tstamps t)), (K _ (xyz t)), (K _ (arc t)), (K _ (speed t)) by congruence. clearbody mask. cbn [bind].
  destruct t as [ts x r al sp sr nm ep]. cbn [TrajModel.rot TrajModel.xyz TrajModel.tstamps TrajModel.arc TrajModel.speed TrajModel.srt TrajModel.name TrajModel.epsg] in *.
  assert (KM : forall A (l : list A), length l = length x -> match mask with [] => Ok [] | _ :: _ => Ok l end = Ok l).
  { intros A l L. destruct mask; [|reflexivity]. assert (length l = 0%nat) as Z by (cbn [length] in LM; lia). destruct l; [reflexivity|discriminate]. }
  destruct r as [q|]; rewrite ?(K _ q) by congruence; rewrite (KM _ ts), (KM _ x), (KM _ al), (KM _ sp) by congruence; cbn [bind]; [rewrite (KM _ q) by congruence|]; reflexivity.
Qed.
Lemma preprocess_nothing {Q} p (from to : traj Q) : no_preprocessing p -> consistent from -> consistent to -> tlen from <> 0%nat -> tlen to <> 0%nat ->
  preprocess p from to = Ok (from, to).
Proof.
  intros (M & T0 & T1) Cf Ct Lf Lt. unfold preprocess. rewrite !filter_nothing by assumption. cbn [bind]. rewrite T0, T1, !Reqb_refl. cbn [negb orb bind fst snd].
  rewrite (proj2 (Nat.eqb_neq _ _) Lf), (proj2 (Nat.eqb_neq _ _) Lt). reflexivity.
Qed.

Section Compared.
  Context {Q : Type} (ops : rot_ops Q).
  Hypothesis CR : rot_contract ops.

  Lemma compare_equal (t u : traj Q) : consistent t -> consistent u -> xyz t = xyz u ->
    exists r, compare_absolute ops t u = Ok r /\ length (pos_dev r) = tlen u /\ Forall (eq vzero) (pos_dev r) /\
      (rot t <> None \/ rot u <> None -> Forall (eq vzero) (directed_pos_dev r)) /\
      match rot u, rot t with
      | Some a, Some b => map (as_matrix ops) a = map (as_matrix ops) b ->
          exists d, rot_dev r = Some d /\ length d = tlen u /\ Forall (fun q => as_matrix ops q = mident) d
      | _, _ => rot_dev r = None
      end.
  Proof.
    intros Ct Cu E. assert (L : tlen t = tlen u) by (unfold tlen; now rewrite E).
    destruct (C33_deviations Q ops t u CR Ct Cu L) as (r & F & _ & _ & LP & LD & PD & DD & RD).
    exists r. split; [exact F|]. split; [exact LP|]. split; [|split].
    - apply Forall_forall. intros d I. apply In_nth_error in I as [i I]. assert (K := nth_error_Some_lt _ _ _ I). rewrite LP in K. unfold tlen in K.
      destruct (nth_error (xyz u) i) as [x|] eqn:X; [|apply nth_error_None in X; lia]. rewrite (PD i x x X) in I by now rewrite E. injection I as <-. destruct x. apply V3_eq; munf; ring.
    - intro NR. apply Forall_forall. intros d I. apply In_nth_error in I as [i I]. assert (K := nth_error_Some_lt _ _ _ I). rewrite LD in K. unfold tlen in K.
      destruct (nth_error (xyz u) i) as [x|] eqn:X; [|apply nth_error_None in X; lia].
      assert (EQ : exists q, (rot u = Some q \/ rot u = None /\ rot t = Some q) /\ length q = length (xyz u)).
      { destruct Ct as (_ & Ht & _), Cu as (_ & Hu & _). unfold tlen in *. destruct (rot u) as [q|] eqn:U; [exists q; split; [now left|lia]|]. destruct (rot t) as [q|] eqn:T; [exists q; split; [right; auto|lia]|]. destruct NR; congruence. }
      destruct EQ as [q [EQ LQ]]. destruct (nth_error q i) as [m|] eqn:Mi; [|apply nth_error_None in Mi; lia].
      destruct (DD q i x x m EQ X ltac:(now rewrite E) Mi) as (d' & D1 & _ & D2). rewrite I in D1. injection D1 as <-.
      assert (Z : vsub x x = vzero) by (destruct x; apply V3_eq; munf; ring). rewrite Z in D2. symmetry. apply vnorm_zero_iff. rewrite D2. apply vnorm_zero_iff. reflexivity.
    - destruct (rot u) as [a|] eqn:U, (rot t) as [b|] eqn:T; try exact RD. intro M. destruct RD as (d & D1 & D2 & D3). exists d. split; [exact D1|]. split; [exact D2|].
      apply Forall_forall. intros q I. apply In_nth_error in I as [i I]. assert (K := nth_error_Some_lt _ _ _ I). rewrite D2 in K. unfold tlen in K.
      destruct Ct as (_ & Ht & _), Cu as (_ & Hu & _). rewrite T in Ht. rewrite U in Hu. unfold tlen in *.
      destruct (nth_error a i) as [x|] eqn:X; [|apply nth_error_None in X; lia]. destruct (nth_error b i) as [y|] eqn:Y; [|apply nth_error_None in Y; lia].
      assert (MM : as_matrix ops x = as_matrix ops y) by (assert (Z := map_nth_error (as_matrix ops) _ _ X); rewrite M, (map_nth_error _ _ _ Y) in Z; congruence).
      destruct (D3 i x y X Y) as (q' & I' & MQ). rewrite I in I'. injection I' as <-. rewrite MM in MQ.
      assert (RR := is_rot_right _ (rc_rot ops CR y)). rewrite <- (mmul_ident_r (as_matrix ops q)), <- RR, <- mmul_assoc, MQ. reflexivity.
  Qed.
End Compared.
