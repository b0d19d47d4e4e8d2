(** Proofs about comparisons. *)
From Verif Require Import Base BaseFacts EstModel TextModel HeaderModel NumpyModel TrajModel TrajSpec ParamModel GeomModel IoModel EvalModel RpeModel EqModel EqSpec.

Lemma np_isclose_iff a b : np_isclose a b = true <-> close a b.
Proof.
  unfold np_isclose, close, Rleb. replace (/ 10 ^ 8) with (1 / 100000000) by lra. replace (/ 10 ^ 5) with (1 / 100000) by lra.
  destruct (Rle_dec _ _); split; intro; auto; try discriminate; contradiction.
Qed.

Lemma close_refl a : close a a.
Proof.
  unfold close. rewrite Rminus_diag_eq by reflexivity. rewrite Rabs_R0. pose proof (Rabs_pos a).
  assert (0 < / 10 ^ 8) by (apply Rinv_0_lt_compat; lra). assert (0 < / 10 ^ 5) by (apply Rinv_0_lt_compat; lra).
  assert (0 <= / 10 ^ 5 * Rabs a) by (apply Rmult_le_pos; lra). lra.
Qed.

Lemma np_isclose_refl a : np_isclose a a = true.
Proof. apply np_isclose_iff, close_refl. Qed.

Definition row_close (x y : list R) : bool := forallb (fun ab => np_isclose (fst ab) (snd ab)) (combine x y).

Lemma row_close_refl x : row_close x x = true.
Proof.
  unfold row_close. induction x as [|a x IH]; cbn [combine forallb fst snd]; auto. rewrite np_isclose_refl. exact IH.
Qed.

Lemma broadcast_same {A B C} (f : A -> B -> C) l m : length l = length m ->
  broadcast f l m = Ok (map (fun ab => f (fst ab) (snd ab)) (combine l m)).
Proof. intro H. unfold broadcast. rewrite H, Nat.eqb_refl. reflexivity. Qed.

Lemma allclose_same {A} (ent : A -> list R) l m : length l = length m ->
  exists b, np_allclose ent l m = Ok b /\
    (b = true <-> forall i x y, nth_error l i = Some x -> nth_error m i = Some y -> row_close (ent x) (ent y) = true).
Proof.
  intro H. unfold np_allclose. rewrite (broadcast_same _ _ _ H). cbn [bind]. eexists. split; [reflexivity|].
  rewrite forallb_forall. split.
  - intros F i x y Hx Hy. apply F. apply in_map_iff. exists (x, y). split; [reflexivity|].
    clear F. revert m i H Hx Hy. induction l as [|a l IH]; intros [|c m] [|i] H Hx Hy; simpl in *; try discriminate.
    + injection Hx as ->. injection Hy as ->. left. reflexivity.
    + right. apply (IH m i); auto.
  - intros F b Hb. apply in_map_iff in Hb as [[x y] [<- I]]. cbn [fst snd].
    apply In_nth_error in I as [i I].
    assert (nth_error l i = Some x /\ nth_error m i = Some y) as [U V].
    { clear F. revert m i H I. induction l as [|a l IH]; intros [|c m] [|i] H I; simpl in *; try discriminate.
      - injection I as -> ->. auto.
      - apply (IH m i); auto. }
    exact (F i x y U V).
Qed.

Lemma allclose_refl {A} (ent : A -> list R) l : np_allclose ent l l = Ok true.
Proof.
  destruct (allclose_same ent l l eq_refl) as [b [E I]]. rewrite E. f_equal. apply I.
  intros i x y X Y. rewrite X in Y. injection Y as ->. apply row_close_refl.
Qed.

Lemma allclose_error {A} (ent : A -> list R) l m : length l <> length m -> length l <> 1%nat -> length m <> 1%nat ->
  np_allclose ent l m = Err ValueError.
Proof.
  intros N L M. unfold np_allclose, broadcast. rewrite (proj2 (Nat.eqb_neq _ _) N).
  destruct l as [|a [|b l]]; destruct m as [|c [|d m]]; simpl in *; try reflexivity; lia.
Qed.

Lemma row_scalar a b : row_close (scalar a) (scalar b) = true <-> close a b.
Proof. unfold row_close, scalar. cbn [combine forallb fst snd]. rewrite andb_true_r. apply np_isclose_iff. Qed.

Lemma row_v3 a b : row_close (v3_entries a) (v3_entries b) = true <-> close3 a b.
Proof. unfold row_close, v3_entries, close3. cbn [combine forallb fst snd]. rewrite !andb_true_iff, !np_isclose_iff. tauto. Qed.

Lemma row_v4 a b : row_close (quat_values a) (quat_values b) = true <-> close4 a b.
Proof. unfold row_close, quat_values, close4. cbn [combine forallb fst snd]. rewrite !andb_true_iff, !np_isclose_iff. tauto. Qed.

Lemma traj_eq_refl {Q} (quat : Q -> V4) t : traj_eq quat t t = Ok true.
Proof.
  unfold traj_eq. destruct (rot t); rewrite !allclose_refl; cbn [bind and_then]; rewrite ?allclose_refl; cbn; rewrite String.eqb_refl; reflexivity.
Qed.

Lemma nth_error_same_length {A B} (l : list A) (m : list B) i x : length l = length m -> nth_error l i = Some x -> exists y, nth_error m i = Some y.
Proof.
  intros H E. destruct (nth_error m i) as [y|] eqn:F; [eauto|]. apply nth_error_None in F.
  assert (i < length l)%nat by (apply nth_error_Some; congruence). lia.
Qed.

Lemma traj_eq_exact {Q} (quat : Q -> V4) t u : consistent t -> consistent u -> tlen t = tlen u ->
  exists b, traj_eq quat t u = Ok b /\
    (b = true <-> name t = name u /\ (rot t = None <-> rot u = None) /\
       forall i p q, pose_at t i = Some p -> pose_at u i = Some q -> close_pose quat p q).
Proof.
  intros [T1 [T2 [T3 T4]]] [U1 [U2 [U3 U4]]] L. unfold tlen in L.
  destruct (allclose_same v3_entries (xyz t) (xyz u)) as [bx [Ex Ix]]; [lia|].
  destruct (allclose_same scalar (tstamps t) (tstamps u)) as [bt [Et It]]; [lia|].
  destruct (allclose_same scalar (arc t) (arc u)) as [ba [Ea Ia]]; [lia|].
  destruct (allclose_same v3_entries (speed t) (speed u)) as [bs [Es Is]]; [lia|].
  assert (exists br, (match rot t, rot u with
      | Some a, Some b => np_allclose (fun q => quat_values (quat q)) a b
      | None, None => Ok true
      | _, _ => Ok false
      end) = Ok br /\ (br = true <-> (rot t = None <-> rot u = None) /\
        forall a b, rot t = Some a -> rot u = Some b -> forall i x y, nth_error a i = Some x -> nth_error b i = Some y -> close4 (quat x) (quat y)))
    as [br [Er Ir]].
  { destruct (rot t) as [a|] eqn:Ra; destruct (rot u) as [b|] eqn:Rb.
    - destruct (allclose_same (fun q => quat_values (quat q)) a b) as [br [E I]]; [lia|]. exists br. split; [exact E|].
      rewrite I. split.
      + intro F. split; [split; discriminate|]. intros a' b' [= <-] [= <-] i x y X Y. apply row_v4, (F i x y X Y).
      + intros [_ F] i x y X Y. apply row_v4, (F a b eq_refl eq_refl i x y X Y).
    - exists false. split; [reflexivity|]. split; [discriminate|]. intros [[_ F] _]. discriminate (F eq_refl).
    - exists false. split; [reflexivity|]. split; [discriminate|]. intros [[F _] _]. discriminate (F eq_refl).
    - exists true. split; [reflexivity|]. split; auto. intros _. split; [tauto|]. intros a b H. discriminate H. }
  exists (bx && (br && (bt && (ba && (bs && String.eqb (name t) (name u))))))%bool. split.
  - unfold traj_eq. rewrite Er. cbn [bind]. unfold and_then. rewrite Ex, Et, Ea, Es.
    destruct bx, br, bt, ba, bs; reflexivity.
  - rewrite !andb_true_iff, Ix, Ir, It, Ia, Is, String.eqb_eq. split.
    + intros [X [[RN RR] [T [A [S N]]]]]. split; [exact N|]. split; [exact RN|].
      intros i p q P P'. unfold pose_at in P, P'.
      destruct (nth_error (tstamps t) i) eqn:e1; [|discriminate P].
      destruct (nth_error (xyz t) i) eqn:e2; [|discriminate P].
      destruct (nth_error (arc t) i) eqn:e3; [|discriminate P].
      destruct (nth_error (speed t) i) eqn:e4; [|discriminate P].
      destruct (nth_error (tstamps u) i) eqn:f1; [|discriminate P'].
      destruct (nth_error (xyz u) i) eqn:f2; [|discriminate P'].
      destruct (nth_error (arc u) i) eqn:f3; [|discriminate P'].
      destruct (nth_error (speed u) i) eqn:f4; [|discriminate P'].
      pose proof (proj1 (row_v3 _ _) (X i _ _ e2 f2)) as CX. pose proof (proj1 (row_v3 _ _) (S i _ _ e4 f4)) as CS.
      pose proof (proj1 (row_scalar _ _) (T i _ _ e1 f1)) as CT. pose proof (proj1 (row_scalar _ _) (A i _ _ e3 f3)) as CA.
      destruct (rot t) as [a|] eqn:Ra; destruct (rot u) as [b|] eqn:Rb;
        try (exfalso; destruct RN as [RN1 RN2]; first [discriminate (RN1 eq_refl) | discriminate (RN2 eq_refl)]).
      * destruct (nth_error a i) eqn:g1; [|discriminate P]. destruct (nth_error b i) eqn:g2; [|discriminate P'].
        injection P as <-. injection P' as <-. unfold close_pose. cbn. repeat split; try apply CX; try apply CS; auto;
        apply (RR a b eq_refl eq_refl i _ _ g1 g2).
      * injection P as <-. injection P' as <-. unfold close_pose. cbn. repeat split; try apply CX; try apply CS; auto.
    + intros [N [RN F]].
      assert (PA : forall i, (i < length (xyz t))%nat -> exists p q, pose_at t i = Some p /\ pose_at u i = Some q /\
         nth_error (tstamps t) i = Some (p_t p) /\ nth_error (xyz t) i = Some (p_xyz p) /\ nth_error (arc t) i = Some (p_arc p) /\ nth_error (speed t) i = Some (p_speed p) /\
         nth_error (tstamps u) i = Some (p_t q) /\ nth_error (xyz u) i = Some (p_xyz q) /\ nth_error (arc u) i = Some (p_arc q) /\ nth_error (speed u) i = Some (p_speed q) /\
         (forall a, rot t = Some a -> nth_error a i = p_rot p) /\ (forall a, rot u = Some a -> nth_error a i = p_rot q)).
      { intros i I.
        assert (GE : forall B (l : list B), (i < length l)%nat -> exists x, nth_error l i = Some x).
        { intros B l H. destruct (nth_error l i) eqn:E; [eauto|]. apply nth_error_None in E. lia. }
        destruct (GE _ (tstamps t)) as [t1 e1]; [lia|]. destruct (GE _ (xyz t)) as [t2 e2]; [lia|].
        destruct (GE _ (arc t)) as [t3 e3]; [lia|]. destruct (GE _ (speed t)) as [t4 e4]; [lia|].
        destruct (GE _ (tstamps u)) as [u1 f1]; [lia|]. destruct (GE _ (xyz u)) as [u2 f2]; [lia|].
        destruct (GE _ (arc u)) as [u3 f3]; [lia|]. destruct (GE _ (speed u)) as [u4 f4]; [lia|].
        unfold pose_at. rewrite e1, e2, e3, e4, f1, f2, f3, f4.
        assert (exists o, (match rot t with None => Some (mkPose t1 t2 (@None Q) t3 t4) | Some q => match nth_error q i with Some r => Some (mkPose t1 t2 (Some r) t3 t4) | None => None end end)
            = Some (mkPose t1 t2 o t3 t4) /\ forall a, rot t = Some a -> nth_error a i = o) as [o [O1 O2]].
        { destruct (rot t) as [a|]; [|exists None; split; [reflexivity|intros a H; discriminate H]].
          destruct (GE _ a) as [x X]; [lia|]. exists (Some x). rewrite X. split; [reflexivity|]. intros a' [= <-]. exact X. }
        assert (exists o, (match rot u with None => Some (mkPose u1 u2 (@None Q) u3 u4) | Some q => match nth_error q i with Some r => Some (mkPose u1 u2 (Some r) u3 u4) | None => None end end)
            = Some (mkPose u1 u2 o u3 u4) /\ forall a, rot u = Some a -> nth_error a i = o) as [o' [O3 O4]].
        { destruct (rot u) as [a|]; [|exists None; split; [reflexivity|intros a H; discriminate H]].
          destruct (GE _ a) as [x X]; [lia|]. exists (Some x). rewrite X. split; [reflexivity|]. intros a' [= <-]. exact X. }
        rewrite O1, O3. do 2 eexists. split; [reflexivity|]. split; [reflexivity|]. cbn. repeat split; auto. }
      assert (LT : forall B (l : list B) i (x : B), nth_error l i = Some x -> (i < length l)%nat)
        by (intros B l i x E; apply nth_error_Some; congruence).
      split; [|split; [split; [exact RN|]|split; [|split; [|split]]]].
      * intros i x y X Y. destruct (PA i) as (p & q & P1 & P2 & A1 & A2 & A3 & A4 & B1 & B2 & B3 & B4 & _); [eapply LT; eauto|].
        rewrite A2 in X. rewrite B2 in Y. injection X as <-. injection Y as <-. apply row_v3. apply (F i p q P1 P2).
      * intros a b Ra Rb i x y X Y. destruct (PA i) as (p & q & P1 & P2 & A1 & A2 & A3 & A4 & B1 & B2 & B3 & B4 & C1 & C2).
        { apply LT in X. rewrite Ra in T2. lia. }
        pose proof (F i p q P1 P2) as (_ & _ & _ & _ & W).
        rewrite <- (C1 a Ra), <- (C2 b Rb), X, Y in W. exact W.
      * intros i x y X Y. destruct (PA i) as (p & q & P1 & P2 & A1 & A2 & A3 & A4 & B1 & B2 & B3 & B4 & _); [apply LT in X; lia|].
        rewrite A1 in X. rewrite B1 in Y. injection X as <-. injection Y as <-. apply row_scalar. apply (F i p q P1 P2).
      * intros i x y X Y. destruct (PA i) as (p & q & P1 & P2 & A1 & A2 & A3 & A4 & B1 & B2 & B3 & B4 & _); [apply LT in X; lia|].
        rewrite A3 in X. rewrite B3 in Y. injection X as <-. injection Y as <-. apply row_scalar. apply (F i p q P1 P2).
      * intros i x y X Y. destruct (PA i) as (p & q & P1 & P2 & A1 & A2 & A3 & A4 & B1 & B2 & B3 & B4 & _); [apply LT in X; lia|].
        rewrite A4 in X. rewrite B4 in Y. injection X as <-. injection Y as <-. apply row_v3. apply (F i p q P1 P2).
      * exact N.
Qed.

Lemma traj_eq_lengths {Q} (quat : Q -> V4) t u : consistent t -> consistent u -> tlen t <> tlen u -> tlen t <> 1%nat -> tlen u <> 1%nat ->
  traj_eq quat t u = Err ValueError.
Proof.
  unfold tlen. intros [T1 [T2 [T3 T4]]] [U1 [U2 [U3 U4]]] L N M. unfold traj_eq.
  destruct (rot t) as [a|]; destruct (rot u) as [b|]; cbn [bind].
  - rewrite allclose_error by lia. reflexivity.
  - rewrite (allclose_error v3_entries) by lia. reflexivity.
  - rewrite (allclose_error v3_entries) by lia. reflexivity.
  - rewrite (allclose_error v3_entries) by lia. reflexivity.
Qed.

Lemma close_delay x d : 10 ^ 9 <= x -> Rabs d <= 9000 -> close x (x + d).
Proof.
  intros X D. unfold close. replace (x - (x + d)) with (- d) by ring. rewrite Rabs_Ropp.
  assert (-9000 <= d <= 9000) by (split; [pose proof (Rle_abs (- d)) as K; rewrite Rabs_Ropp in K; lra | pose proof (Rle_abs d); lra]).
  rewrite (Rabs_pos_eq (x + d)) by lra. lra.
Qed.

Lemma traj_eq_delayed {Q} (quat : Q -> V4) (t : traj Q) d : Forall (fun x => 10 ^ 9 <= x) (tstamps t) -> Rabs d <= 9000 ->
  traj_eq quat t (delayed d t) = Ok true.
Proof.
  intros F D. unfold traj_eq, delayed, set_tstamps. cbn [rot xyz tstamps arc speed name].
  assert (np_allclose scalar (tstamps t) (map (fun x => x + d) (tstamps t)) = Ok true) as E.
  { destruct (allclose_same scalar (tstamps t) (map (fun x => x + d) (tstamps t))) as [b [E I]]; [now rewrite map_length|].
    rewrite E. f_equal. apply I. intros i x y X Y. rewrite (map_nth_error (fun x => x + d) _ _ X) in Y. injection Y as <-.
    apply row_scalar, close_delay; auto. eapply Forall_forall; [exact F|]. eapply nth_error_In, X. }
  rewrite E. destruct (rot t); rewrite !allclose_refl; cbn [bind and_then]; rewrite ?allclose_refl; cbn; rewrite String.eqb_refl; reflexivity.
Qed.

(** * Alignment results *)
Lemma est_eqb_iff a b : est_eqb a b = true <-> a = b.
Proof.
  destruct a, b. unfold est_eqb, est_flags. cbn. rewrite !andb_true_iff, !Bool.eqb_true_iff. split.
  - intros. repeat match goal with H : _ /\ _ |- _ => destruct H end. subst. reflexivity.
  - intros [=]. subst. repeat split.
Qed.

Lemma values_length s : length (values s) = length (ps_params s).
Proof.
  unfold values, ps_get. rewrite map_length. f_equal.
  induction (ps_params s) as [|p l IH]; simpl; auto. rewrite andb_false_r. simpl. f_equal. exact IH.
Qed.

Lemma result_eq_never_false a b : result_eq a b <> Ok false.
Proof.
  unfold result_eq, assert_true. intro H.
  repeat (first [apply bind_ok in H as [? [? H]] | discriminate H]).
Qed.

Lemma row_close_map (f g : nat -> R) (l : list nat) :
  row_close (map f l) (map g l) = true <-> forall j, In j l -> close (f j) (g j).
Proof.
  unfold row_close. induction l as [|a l IH]; cbn [map combine forallb fst snd In]; [split; auto; intros _ j []|].
  rewrite andb_true_iff, np_isclose_iff, IH. split.
  - intros [A B] j [<-|I]; auto.
  - intro F. split; [apply F; auto|]. intros j I. apply F. auto.
Qed.

Lemma result_eq_exact a b :
  shaped 11 (position_parameters a) -> shaped 11 (position_parameters b) ->
  shaped 3 (rotation_parameters a) -> shaped 3 (rotation_parameters b) ->
  (same_result a b -> result_eq a b = Ok true) /\ (~ same_result a b -> result_eq a b = Err AssertionError).
Proof.
  intros [A1 [A2 A3]] [B1 [B2 B3]] [C1 _] [D1 _].
  destruct (allclose_same scalar (values (position_parameters a)) (values (position_parameters b))) as [b1 [E1 I1]]; [rewrite !values_length; lia|].
  destruct (allclose_same scalar (values (rotation_parameters a)) (values (rotation_parameters b))) as [b3 [E3 I3]]; [rewrite !values_length; lia|].
  destruct (allclose_same (fun r => r) (mat_entries (ps_cov (position_parameters a))) (mat_entries (ps_cov (position_parameters b)))) as [b2 [E2 I2]];
    [unfold mat_entries; rewrite !map_length, !seq_length; lia|].
  assert (S : same_result a b <-> (b1 = true /\ b2 = true /\ b3 = true /\ est_eqb (estimation_of a) (estimation_of b) = true)).
  { unfold same_result. rewrite I1, I2, I3, est_eqb_iff.
    assert ((forall i j, (i < 11)%nat -> (j < 11)%nat -> close (m_at (ps_cov (position_parameters a)) i j) (m_at (ps_cov (position_parameters b)) i j))
      <-> (forall i x y, nth_error (mat_entries (ps_cov (position_parameters a))) i = Some x -> nth_error (mat_entries (ps_cov (position_parameters b))) i = Some y -> row_close x y = true)) as M.
    { unfold mat_entries. rewrite A2, B2. split.
      - intros F i x y X Y. assert (i < 11)%nat as L.
        { assert (i < length (map (cov_row (ps_cov (position_parameters a))) (seq 0 11)))%nat by (apply nth_error_Some; congruence).
          rewrite map_length, seq_length in H. exact H. }
        assert (SQ : nth_error (seq 0 11) i = Some i).
        { assert (K : nth i (seq 0 11) 0%nat = i) by (rewrite seq_nth by lia; lia).
          destruct (nth_error (seq 0 11) i) eqn:EE; [|apply nth_error_None in EE; rewrite seq_length in EE; lia].
          erewrite nth_error_nth in K by exact EE. congruence. }
        rewrite (map_nth_error _ _ _ SQ) in X. rewrite (map_nth_error _ _ _ SQ) in Y. injection X as <-. injection Y as <-.
        unfold cov_row. rewrite A3, B3. apply row_close_map. intros j J. apply in_seq in J. apply F; lia.
      - intros F i j L J.
        assert (SQ : nth_error (seq 0 11) i = Some i).
        { assert (K : nth i (seq 0 11) 0%nat = i) by (rewrite seq_nth by lia; lia).
          destruct (nth_error (seq 0 11) i) eqn:EE; [|apply nth_error_None in EE; rewrite seq_length in EE; lia].
          erewrite nth_error_nth in K by exact EE. congruence. }
        specialize (F i _ _ (map_nth_error _ _ _ SQ) (map_nth_error _ _ _ SQ)). unfold cov_row in F. rewrite A3, B3 in F.
        apply (proj1 (row_close_map _ _ _) F j). apply in_seq. lia. }
    rewrite M. split.
    - intros (X & Y & Z & W). repeat split; auto; intros i x y U V; apply row_scalar; eauto.
    - intros (X & Y & Z & W). repeat split; auto; intros i x y U V; apply row_scalar; eauto. }
  unfold result_eq, assert_true, get_covariance. rewrite E1, E3. cbn [bind]. rewrite E2. cbn [bind].
  split; intro H; rewrite S in H.
  - destruct H as (-> & -> & -> & ->). reflexivity.
  - destruct b1, b2, b3, (est_eqb (estimation_of a) (estimation_of b)); try reflexivity. exfalso. apply H. auto.
Qed.
