(** Proofs about spatial sorting. *)
From Verif Require Import Base BaseFacts NumpyModel NumpyFacts TrajModel TrajSpec TrajFacts TrajFacts2 TrajFacts3
  SortModel SortSpec.

(** ** Trees *)
Lemma reach_trans E u v w : reachable E u v -> reachable E v w -> reachable E u w.
Proof. intros H K. induction K as [|x y K IH A]; [exact H|]. eapply reach_step; eauto. Qed.
Lemma reach_sym E u v : reachable E u v -> reachable E v u.
Proof.
  intro H. induction H as [|x y H IH A]; [constructor|]. eapply reach_trans; [|exact IH].
  eapply reach_step; [constructor|]. tauto.
Qed.
Lemma reach_incl E E' u v : incl E E' -> reachable E u v -> reachable E' u v.
Proof. intros I H. induction H as [|x y H IH A]; [constructor|]. eapply reach_step; [exact IH|]. destruct A; [left|right]; apply I; assumption. Qed.

Lemma tree_endpoints V E : tree V E -> forall a b, In (a, b) E -> In a V /\ In b V.
Proof.
  intro T. induction T as [v|V E V' E' u v T IH Hu Hv PV PE]; intros a b H; [destruct H|].
  assert (K : In (a, b) E \/ (In a V' /\ In b V')).
  { assert (U : In u V') by (apply (Permutation_in _ (Permutation_sym PV)); right; exact Hu).
    assert (W : In v V') by (apply (Permutation_in _ (Permutation_sym PV)); left; reflexivity).
    destruct PE as [PE|PE]; apply (Permutation_in _ PE) in H; destruct H as [H|H]; auto; injection H as <- <-; auto. }
  destruct K as [K|K]; [|exact K]. destruct (IH a b K). split; apply (Permutation_in _ (Permutation_sym PV)); right; assumption.
Qed.

Lemma tree_nodup V E : tree V E -> NoDup V /\ V <> [].
Proof.
  intro T. induction T as [v|V E V' E' u v T IH Hu Hv PV PE].
  - split; [repeat constructor; auto | discriminate].
  - split; [|intros ->; apply Permutation_nil in PV; discriminate].
    apply (Permutation_NoDup (Permutation_sym PV)). constructor; [exact Hv | apply IH].
Qed.

Lemma tree_connected V E : tree V E -> forall a b, In a V -> In b V -> reachable E a b.
Proof.
  intro T. induction T as [v|V E V' E' u v T IH Hu Hv PV PE]; intros a b Ha Hb.
  - destruct Ha as [<-|[]], Hb as [<-|[]]. constructor.
  - assert (I : incl E E').
    { intros e He. destruct PE as [PE|PE]; apply (Permutation_in _ (Permutation_sym PE)); right; exact He. }
    assert (UV : reachable E' u v).
    { eapply reach_step; [constructor|]. destruct PE as [PE|PE]; [left|right]; apply (Permutation_in _ (Permutation_sym PE)); left; reflexivity. }
    assert (G : forall x, In x V' -> reachable E' u x).
    { intros x Hx. apply (Permutation_in _ PV) in Hx as [<-|Hx]; [exact UV|]. apply (reach_incl E); auto. }
    eapply reach_trans; [apply reach_sym, G, Ha | apply G, Hb].
Qed.

Lemma tree_reach V E a b : tree V E -> In a V -> reachable E a b -> In b V.
Proof.
  intros T Ha H. induction H as [|x y H IH A]; [exact Ha|]. destruct A as [A|A]; apply (tree_endpoints V E T) in A; tauto.
Qed.

Lemma degree_perm E E' v : Permutation E E' -> degree E v = degree E' v.
Proof.
  intro P. unfold degree. induction P as [|e l l' P IH|e f l|l l' l'' P IH P' IH']; cbn.
  - reflexivity.
  - destruct (endpoint v e); cbn; congruence.
  - destruct (endpoint v e), (endpoint v f); cbn; reflexivity.
  - congruence.
Qed.

Lemma degree_cons e E v : degree (e :: E) v = ((if endpoint v e then 1 else 0) + degree E v)%nat.
Proof. unfold degree. cbn. destruct (endpoint v e); reflexivity. Qed.

Lemma degree_zero E v : (forall e, In e E -> endpoint v e = false) -> degree E v = 0%nat.
Proof.
  intro H. unfold degree. induction E as [|e E IH]; [reflexivity|]. cbn. rewrite (H e (or_introl eq_refl)). apply IH. intros; apply H; right; assumption.
Qed.

Lemma degree_pos E v : degree E v <> 0%nat -> exists e, In e E /\ endpoint v e = true.
Proof.
  unfold degree. intro H. destruct (filter (endpoint v) E) as [|e l] eqn:F; [contradiction|].
  assert (I : In e (filter (endpoint v) E)) by (rewrite F; left; reflexivity). apply filter_In in I. eauto.
Qed.

Lemma endpoint_spec v e : endpoint v e = true <-> fst e = v \/ snd e = v.
Proof. unfold endpoint. rewrite orb_true_iff, !Nat.eqb_eq. reflexivity. Qed.

(** A tree with two vertices has a leaf. *)
Lemma tree_has_leaf V E a b : tree V E -> In a V -> In b V -> a <> b -> exists v, In v V /\ degree E v = 1%nat.
Proof.
  intros T Ha Hb N. destruct T as [v|V E V' E' u v T Hu Hv PV PE].
  - destruct Ha as [<-|[]], Hb as [<-|[]]. contradiction.
  - exists v. split; [apply (Permutation_in _ (Permutation_sym PV)); left; reflexivity|].
    assert (Z : degree E v = 0%nat).
    { apply degree_zero. intros [x y] He. destruct (tree_endpoints V E T x y He) as [Hx Hy].
      apply not_true_is_false. intro K. apply endpoint_spec in K as [K|K]; cbn in K; subst; contradiction. }
    destruct PE as [PE|PE]; rewrite (degree_perm _ _ _ PE), degree_cons, Z; unfold endpoint; cbn; rewrite Nat.eqb_refl;
      [rewrite orb_true_r|]; reflexivity.
Qed.

(** ** The order found in the tree *)
Lemma last_of_in l a : last_of l = Ok a -> In a l.
Proof.
  unfold last_of. destruct (rev l) as [|x r] eqn:E; [discriminate|]. intro H. injection H as <-.
  apply in_rev. rewrite E. left. reflexivity.
Qed.
Lemma last_of_ok l : l <> [] -> exists a, last_of l = Ok a.
Proof.
  intro H. unfold last_of. destruct (rev l) as [|x r] eqn:E; [|eauto].
  exfalso. apply H. apply length_zero_iff_nil. rewrite <- rev_length, E. reflexivity.
Qed.

Lemma existsb_endpoint v edges : existsb (endpoint v) edges = true <-> exists e, In e edges /\ (fst e = v \/ snd e = v).
Proof. rewrite existsb_exists. split; intros (e & H & K); exists e; split; auto; apply endpoint_spec; exact K. Qed.

Lemma mst_sorting_ok env pts : mst_contract env pts ->
  exists order missing, mst_sorting env pts = Ok (order, missing) /\ NoDup order /\
    (forall v, In v order <-> triangulated env pts v) /\ Forall (fun v => (v < length pts)%nat) order /\
    Permutation (order ++ missing) (seq 0 (length pts)) /\
    missing = filter (fun v => negb (existsb (fun o => (o =? v)%nat) order)) (seq 0 (length pts)).
Proof.
  intros (edges & V & Et & Hloop & HV & HB & T & B). set (mst := spanning_tree env pts edges) in *.
  assert (Hd : forall a b, In (a, b) edges -> In a V /\ In b V).
  { intros a b H. split; apply HV; exists (a, b); auto. }
  unfold mst_sorting, compute_mst. rewrite Et. cbn [bind]. fold mst.
  assert (Leaf : exists v, In v (filter (fun v => (degree mst v =? 1)%nat) (seq 0 (length pts)))).
  { destruct Hloop as (a & b & He & N). destruct (Hd a b He) as [Ia Ib].
    destruct (tree_has_leaf V mst a b T Ia Ib N) as (v & Hv & D). exists v. apply filter_In.
    rewrite in_seq, D. specialize (HB v Hv). split; [lia | reflexivity]. }
  assert (InV : forall v, In v (filter (fun v => (degree mst v =? 1)%nat) (seq 0 (length pts))) -> In v V).
  { intros v Hv. apply filter_In in Hv as [_ Hv]. apply Nat.eqb_eq in Hv. destruct (degree_pos mst v) as ([x y] & He & K); [lia|].
    destruct (tree_endpoints V mst T x y He). apply endpoint_spec in K as [K|K]; cbn in K; subst; assumption. }
  set (d1 := filter (fun v => (degree mst v =? 1)%nat) (seq 0 (length pts))) in *.
  assert (Bf : forall r, In r V -> forall v, In v (bfs env mst r) <-> In v V).
  { intros r Hr v. rewrite (proj2 (B r) v). split; [apply (tree_reach V mst r v T Hr) | apply (tree_connected V mst T); exact Hr]. }
  assert (Bn : forall r, In r V -> bfs env mst r <> []).
  { intros r Hr Z. assert (K : In r (bfs env mst r)) by (apply Bf; assumption). rewrite Z in K. destruct K. }
  assert (Root : exists r, In r V /\
     match d1 with
      | [a; b] => Ok a
      | [] => Err IndexError
      | a :: _ => let! far := last_of (bfs env mst a) in last_of (bfs env mst far)
      end = Ok r).
  { assert (G : forall a, In a V -> exists r, In r V /\ (let! far := last_of (bfs env mst a) in last_of (bfs env mst far)) = Ok r).
    { intros a Ha. destruct (last_of_ok _ (Bn a Ha)) as [f Ef]. rewrite Ef. cbn [bind].
      assert (If : In f V) by (apply (Bf a Ha), last_of_in, Ef). destruct (last_of_ok _ (Bn f If)) as [r Er]. exists r. split; [|exact Er].
      apply (Bf f If), last_of_in, Er. }
    destruct d1 as [|a [|b [|c d]]] eqn:Ed.
    - destruct Leaf as [v []].
    - apply G, InV. left; reflexivity.
    - exists a. split; [apply InV; left; reflexivity | reflexivity].
    - apply G, InV. left; reflexivity. }
  destruct Root as (r & Hr & Er).
  exists (bfs env mst r), (filter (fun v => negb (existsb (endpoint v) edges)) (seq 0 (length pts))).
  assert (Tri : forall v, In v V <-> triangulated env pts v).
  { intro v. rewrite HV. split.
    - intros (e & He & K). exists edges, e. auto.
    - intros (ed & e & E' & He & K). exists e. split; [congruence | exact K]. }
  split; [|split; [apply B|split; [|split; [|split]]]].
  - clear -Er. destruct d1 as [|a [|b [|c d]]]; try discriminate; rewrite Er; reflexivity.
  - intro v. rewrite (Bf r Hr v). apply Tri.
  - apply Forall_forall. intros v Hv. apply HB, (Bf r Hr), Hv.
  - apply NoDup_Permutation.
    + assert (D : NoDup (filter (fun v => negb (existsb (endpoint v) edges)) (seq 0 (length pts)))) by apply NoDup_filter, seq_NoDup.
      assert (Dis : forall v, In v (bfs env mst r) -> ~ In v (filter (fun v => negb (existsb (endpoint v) edges)) (seq 0 (length pts)))).
      { intros v Hv K. apply filter_In in K as [_ K]. apply (Bf r Hr), HV, existsb_endpoint in Hv. rewrite Hv in K. discriminate. }
      revert D Dis. generalize (filter (fun v => negb (existsb (endpoint v) edges)) (seq 0 (length pts))). destruct (B r) as [BN _]. revert BN.
      clear. induction (bfs env mst r) as [|x l IH]; intros BN m D Dis; [exact D|]. cbn. inversion BN; subst. constructor.
      * rewrite in_app_iff. intros [K|K]; [contradiction | apply (Dis x); [left; reflexivity | exact K]].
      * apply IH; auto. intros v Hv. apply Dis. right. exact Hv.
    + apply seq_NoDup.
    + intro v. rewrite in_app_iff, in_seq, filter_In, in_seq. rewrite (Bf r Hr v). split.
      * intros [Hv|[Hv _]]; [specialize (HB v Hv); lia | lia].
      * intro L. destruct (existsb (endpoint v) edges) eqn:Ee; [left; apply HV, existsb_endpoint, Ee | right; split; [lia | reflexivity]].
  - apply filter_ext_in. intros v Hv. f_equal.
    apply eq_true_iff_eq. rewrite existsb_endpoint, <- HV, <- (Bf r Hr v). rewrite existsb_exists. split.
    + intro H. exists v. split; [exact H | apply Nat.eqb_refl].
    + intros (o & Ho & E). apply Nat.eqb_eq in E. subst. exact Ho.
Qed.

(** ** Inserting missing points *)
Lemma py_insert_perm {A} i (x : A) l : Permutation (py_insert i x l) (x :: l).
Proof. unfold py_insert. rewrite <- (firstn_skipn i l) at 3. symmetry. apply Permutation_middle. Qed.

Lemma insert_all_perm env (ms : list (nat * V3)) acc :
  Permutation (fst (fold_left (fun acc mp => insert_point env (fst mp) (snd mp) acc) ms acc)) (fst acc ++ map fst ms).
Proof.
  revert acc. induction ms as [|[m p] ms IH]; intro acc; cbn [fold_left map fst snd].
  - rewrite app_nil_r. reflexivity.
  - rewrite IH. destruct acc as [idx ps]. unfold insert_point. destruct (two_nearest env ps p) as [i j]. cbn [fst].
    rewrite py_insert_perm. cbn. rewrite Permutation_middle. reflexivity.
Qed.

Lemma kept_app {A} (P : A -> Prop) l1 l1' l2 l2' : kept P l1 l1' -> kept P l2 l2' -> kept P (l1 ++ l2) (l1' ++ l2').
Proof. intros H K. induction H; cbn; [exact K | constructor; assumption | constructor; assumption]. Qed.
Lemma kept_insert {A} (P : A -> Prop) i x l l' : ~ P x -> kept P l l' -> kept P (py_insert i x l) l'.
Proof.
  intros N H. unfold py_insert. revert i. induction H as [|a l l' Pa H IH|a l l' Pa H IH]; intros [|i]; cbn;
    try (apply kept_no; [exact N|]); auto using kept_nil, kept_yes, kept_no.
Qed.
Lemma kept_self {A} (P : A -> Prop) l : (forall x, In x l -> P x) -> kept P l l.
Proof. induction l as [|a l IH]; intro H; [constructor|]. constructor; [apply H; left; reflexivity|]. apply IH. intros; apply H; right; assumption. Qed.
Lemma insert_all_kept env (P : nat -> Prop) order (ms : list (nat * V3)) : (forall m, In m (map fst ms) -> ~ P m) ->
  forall acc, kept P (fst acc) order -> kept P (fst (fold_left (fun acc mp => insert_point env (fst mp) (snd mp) acc) ms acc)) order.
Proof.
  induction ms as [|[m p] ms IH]; intros N acc H; [exact H|]. cbn [fold_left fst snd]. apply IH.
  - intros m' Hm. apply N. right. exact Hm.
  - destruct acc as [idx ps]. unfold insert_point. destruct (two_nearest env ps p) as [i j]. cbn [fst]. apply kept_insert; [apply N; left; reflexivity | exact H].
Qed.

(** ** Start position *)
Lemma argmax_from_spec l : forall i best m pre,
  length pre = i -> nth_error pre best = Some m -> (forall x, In x pre -> x <= m) ->
  (forall j x, (j < best)%nat -> nth_error pre j = Some x -> x < m) ->
  exists r, nth_error (pre ++ l) (argmax_from i best m l) = Some r /\ (forall x, In x (pre ++ l) -> x <= r) /\
    (forall j x, (j < argmax_from i best m l)%nat -> nth_error (pre ++ l) j = Some x -> x < r).
Proof.
  induction l as [|y l IH]; intros i best m pre Hl Hb Hm Hf; cbn [argmax_from].
  - rewrite app_nil_r. exists m. auto.
  - replace (pre ++ y :: l) with ((pre ++ [y]) ++ l) by (rewrite <- app_assoc; reflexivity).
    assert (L : length (pre ++ [y]) = S i) by (rewrite app_length; cbn; lia).
    destruct (Rltb m y) eqn:E; [apply Rltb_true in E | apply Rltb_false in E].
    + apply (IH (S i) i y (pre ++ [y])).
      * exact L.
      * rewrite nth_error_app2 by lia. replace (i - length pre)%nat with 0%nat by lia. reflexivity.
      * intros x Hx. apply in_app_iff in Hx as [Hx|[<-|[]]]; [specialize (Hm x Hx); lra | lra].
      * intros j x Hj Hx. rewrite nth_error_app1 in Hx by lia. apply nth_error_In in Hx. specialize (Hm x Hx). lra.
    + apply (IH (S i) best m (pre ++ [y])).
      * exact L.
      * rewrite nth_error_app1; [exact Hb | eapply nth_error_Some_lt, Hb].
      * intros x Hx. apply in_app_iff in Hx as [Hx|[<-|[]]]; auto.
      * intros j x Hj Hx. apply nth_error_Some_lt in Hb. rewrite nth_error_app1 in Hx by lia. eapply Hf; eassumption.
Qed.

Lemma argmax_highest pts i : argmax (map vz pts) = Ok i -> highest pts i.
Proof.
  destruct pts as [|p pts]; [discriminate|]. cbn [map argmax]. intro H. injection H as H.
  destruct (argmax_from_spec (map vz pts) 1 0 (vz p) [vz p]) as (r & H1 & H2 & H3); cbn; auto.
  - intros x [<-|[]]. lra.
  - intros [|j] x L; [lia|lia].
  - rewrite H in *. change ([vz p] ++ map vz pts) with (map vz (p :: pts)) in *. rewrite nth_error_map' in H1.
    destruct (nth_error (p :: pts) i) as [q|] eqn:E; [|discriminate]. cbn [option_map] in H1. injection H1 as <-.
    exists q. split; [exact E|]. split.
    + intros s Hs. apply H2. apply (in_map vz) in Hs. exact Hs.
    + intros j s Hj Hs. apply (H3 j); [exact Hj|]. change (vz p :: map vz pts) with (map vz (p :: pts)). rewrite nth_error_map', Hs. reflexivity.
Qed.

Lemma argmax_ok pts : pts <> [] -> exists i, argmax (map vz pts) = Ok i /\ highest pts i.
Proof.
  intro H. destruct pts as [|p pts]; [contradiction|]. eexists. split; [reflexivity|]. apply argmax_highest. reflexivity.
Qed.

Lemma index_of_ok v l : In v l -> exists a b, l = a ++ v :: b /\ ~ In v a /\ index_of v l = Ok (length a).
Proof.
  induction l as [|x l IH]; intro H; [destruct H|]. cbn. destruct (Nat.eqb_spec x v) as [->|N].
  - exists [], l. auto.
  - destruct H as [H|H]; [contradiction|]. destruct (IH H) as (a & b & -> & Na & E). exists (x :: a), b. rewrite E. cbn. repeat split; auto.
    intros [K|K]; contradiction.
Qed.
Lemma index_of_absent v l : ~ In v l -> index_of v l = Err ValueError.
Proof.
  induction l as [|x l IH]; intro H; [reflexivity|]. cbn. destruct (Nat.eqb_spec x v) as [->|N]; [exfalso; apply H; left; reflexivity|].
  rewrite IH; [reflexivity|]. intro K. apply H. right. exact K.
Qed.

Lemma begin_with_ok idx v : In v idx -> exists a b, idx = a ++ v :: b /\ begin_with idx v = Ok (v :: b ++ a).
Proof.
  intro H. destruct (index_of_ok v idx H) as (a & b & -> & _ & E). exists a, b. split; [reflexivity|].
  unfold begin_with. rewrite E. cbn [bind]. f_equal.
  rewrite skipn_app, skipn_all, Nat.sub_diag. rewrite firstn_app, firstn_all, Nat.sub_diag. cbn. rewrite app_nil_r. reflexivity.
Qed.

(** ** The sort index *)
Lemma started_perm v path idx : started_at v path idx -> Permutation idx path.
Proof.
  intros (a & b & -> & [->| ->]).
  - rewrite app_comm_cons. apply Permutation_app_comm.
  - rewrite <- Permutation_rev. rewrite app_comm_cons. apply Permutation_app_comm.
Qed.

Lemma sort_spec env pts discard :
  mst_contract env pts ->
  exists order path top, highest pts top /\
    NoDup order /\ (forall v, In v order <-> triangulated env pts v) /\
    (discard = true -> path = order) /\
    (discard = false -> Permutation path (seq 0 (length pts))) /\
    Forall (fun v => (v < length pts)%nat) path /\ NoDup path /\ kept (triangulated env pts) path order /\
    ((In top path -> exists idx, sort env pts discard = Ok idx /\ started_at top path idx) /\
     (~ In top path -> sort env pts discard = Err ValueError)).
Proof.
  intro M. destruct (mst_sorting_ok env pts M) as (order & missing & E & ND & Tri & Rg & P & _).
  assert (Np : pts <> []).
  { destruct M as (edges & V & _ & (a & b & He & _) & HV & HB & _). intros ->.
    assert (Ia : In a V) by (apply HV; exists (a, b); auto). specialize (HB a Ia). cbn in HB. lia. }
  destruct (argmax_ok pts Np) as (top & Et & Ht).
  assert (Ap : exists path, (if negb (length missing =? 0)%nat && negb discard then
        let! missing_points := np_take pts (map Z.of_nat missing) in
        let! xyz_sorted := np_take pts (map Z.of_nat order) in
        Ok (fst (fold_left (fun acc mp => insert_point env (fst mp) (snd mp) acc)
                           (combine missing missing_points) (order, xyz_sorted)))
      else Ok order) = Ok path /\ (discard = true -> path = order) /\ (discard = false -> Permutation path (order ++ missing)) /\
      kept (triangulated env pts) path order).
  { assert (KS : kept (triangulated env pts) order order) by (apply kept_self; intros x Hx; apply Tri, Hx). destruct discard; cbn [negb]; [rewrite andb_false_r; exists order; split; [reflexivity|]; split; [reflexivity|]; split; [discriminate | exact KS]|]. rewrite andb_true_r.
    destruct missing as [|m0 ms] eqn:Em; cbn [length Nat.eqb negb].
    - exists order. split; [reflexivity|]. split; [discriminate|]. split; [intros _; rewrite app_nil_r; reflexivity | exact KS].
    - rewrite <- Em in *. assert (Rm : Forall (fun i => (i < length pts)%nat) missing).
      { apply Forall_forall. intros v Hv. assert (K : In v (seq 0 (length pts))) by (apply (Permutation_in _ P), in_app_iff; right; exact Hv).
        apply in_seq in K. lia. }
      destruct (np_take_nat pts missing Rm) as (mp & E1 & Nm). destruct (np_take_nat pts order Rg) as (so & E2 & _). rewrite E1, E2. cbn [bind].
      assert (Lm : length missing = length mp) by (apply np_take_length in E1; rewrite E1, map_length; reflexivity).
      eexists. split; [reflexivity|]. split; [discriminate|]. split.
      + intros _. rewrite insert_all_perm. cbn [fst]. rewrite map_fst_combine; [reflexivity | exact Lm].
      + apply insert_all_kept; [|exact KS]. rewrite map_fst_combine by exact Lm. intros m Hm K. apply Tri in K.
        assert (ND0 : NoDup (order ++ missing)) by (apply (Permutation_NoDup (Permutation_sym P)), seq_NoDup).
        apply in_split in K as (o1 & o2 & ->). rewrite <- app_assoc in ND0. apply NoDup_remove_2 in ND0. apply ND0.
        rewrite !in_app_iff. auto. }
  destruct Ap as (path & Ep & Pd & Pk & KP). exists order, path, top.
  assert (Perm : Permutation path order \/ Permutation path (order ++ missing)).
  { destruct discard; [left; rewrite Pd; reflexivity | right; apply Pk; reflexivity]. }
  assert (ND2 : NoDup (order ++ missing)) by (apply (Permutation_NoDup (Permutation_sym P)), seq_NoDup).
  assert (Rp : Forall (fun v => (v < length pts)%nat) path).
  { destruct discard; [rewrite (Pd eq_refl); exact Rg|]. apply Forall_forall. intros v Hv.
    apply (Permutation_in _ (Pk eq_refl)), (Permutation_in _ P), in_seq in Hv. lia. }
  assert (NDp : NoDup path).
  { destruct discard; [rewrite (Pd eq_refl); exact ND | apply (Permutation_NoDup (Permutation_sym (Pk eq_refl))), ND2]. }
  split; [exact Ht|]. split; [exact ND|]. split; [exact Tri|]. split; [exact Pd|]. split; [intro Hd; rewrite (Pk Hd); exact P|].
  split; [exact Rp|]. split; [exact NDp|]. split; [exact KP|].
  unfold sort. rewrite E. cbn [bind]. rewrite Ep. cbn [bind]. rewrite Et. cbn [bind]. split; intro Hin.
  - destruct (begin_with_ok path top Hin) as (a & b & Es & Eb). rewrite Eb. cbn [bind].
    assert (R2 : Forall (fun v => (v < length pts)%nat) (top :: b ++ a)).
    { rewrite Es in Rp. apply Forall_app in Rp as [R1 R2]. rewrite app_comm_cons. apply Forall_app. auto. }
    destruct (np_take_nat pts _ R2) as (ps & E3 & _). rewrite E3. cbn [bind].
    destruct (Z.eqb _ _); (eexists; split; [reflexivity|]); exists a, b; auto.
  - unfold begin_with. rewrite (index_of_absent top path Hin). reflexivity.
Qed.

(** ** Sorted copies of index lists *)
Lemma insert_sorted_perm a l : Permutation (insert_sorted a l) (a :: l).
Proof.
  induction l as [|b l IH]; [reflexivity|]. cbn. destruct (a <=? b)%nat; [reflexivity|]. rewrite IH. apply perm_swap.
Qed.
Lemma py_sorted_perm l : Permutation (py_sorted l) l.
Proof. induction l as [|a l IH]; [constructor|]. cbn. rewrite insert_sorted_perm, IH. reflexivity. Qed.
Lemma insert_sorted_sorted a l : StronglySorted le l -> StronglySorted le (insert_sorted a l).
Proof.
  induction l as [|b l IH]; intro S; cbn; [repeat constructor|]. destruct (Nat.leb_spec a b) as [H|H].
  - constructor; [exact S|]. inversion S as [|? ? S' F]; subst. constructor; [exact H|]. eapply Forall_impl; [|exact F]. intros; lia.
  - inversion S as [|? ? S' F]; subst. constructor; [apply IH, S'|]. rewrite Forall_forall in *. intros x Hx.
    apply (Permutation_in _ (insert_sorted_perm a l)) in Hx as [<-|Hx]; [lia | apply F, Hx].
Qed.
Lemma py_sorted_sorted l : StronglySorted le (py_sorted l).
Proof. induction l as [|a l IH]; [constructor|]. apply insert_sorted_sorted, IH. Qed.

(** Sorting a list by argsort and by [sorted] agree position by position. *)
Lemma sorted_le_unique l m : StronglySorted le l -> StronglySorted le m -> Permutation l m -> l = m.
Proof.
  revert m. induction l as [|a l IH]; intros m Sl Sm P.
  - apply Permutation_nil in P. congruence.
  - destruct m as [|b m]; [symmetry in P; apply Permutation_nil in P; discriminate|].
    inversion Sl as [|? ? Sl' Fl]; inversion Sm as [|? ? Sm' Fm]; subst. rewrite Forall_forall in *.
    assert (a = b).
    { assert (A : In a (b :: m)) by (apply (Permutation_in _ P); left; reflexivity).
      assert (B : In b (a :: l)) by (apply (Permutation_in _ (Permutation_sym P)); left; reflexivity).
      destruct A as [A|A]; [auto|]. destruct B as [B|B]; [auto|]. specialize (Fl _ B). specialize (Fm _ A). lia. }
    subst b. f_equal. apply IH; auto. eapply Permutation_cons_inv, P.
Qed.

Lemma argsort_py_sorted argsort (s : list nat) j i :
  argsort_contract argsort -> nth_error (py_sorted s) j = Some i ->
  exists k, nth_error (argsort (map INR s)) j = Some k /\ nth_error s k = Some i.
Proof.
  intros Ha Hj. set (idx := argsort (map INR s)).
  assert (Rg := argsort_range argsort (map INR s) Ha). rewrite map_length in Rg. fold idx in Rg.
  destruct (np_take_perm s idx) as (s' & _ & P & N).
  { assert (K := proj1 (Ha (map INR s))). rewrite map_length in K. exact K. }
  assert (S' : StronglySorted le s').
  { assert (L := argsort_take_sorted argsort (map INR s) (map INR s') Ha).
    assert (K : StronglySorted Rle (map INR s')).
    { apply L. intro p. rewrite nth_error_map', N. fold idx. destruct (nth_error idx p) as [q|]; [rewrite nth_error_map'; reflexivity | reflexivity]. }
    rewrite StronglySorted_nth in K. apply StronglySorted_nth. intros a b x y Hab Hx Hy. apply INR_le.
    apply (K a b); [exact Hab | rewrite nth_error_map', Hx; reflexivity | rewrite nth_error_map', Hy; reflexivity]. }
  assert (Es : py_sorted s = s').
  { apply sorted_le_unique; [apply py_sorted_sorted | exact S' |]. rewrite py_sorted_perm. symmetry. exact P. }
  rewrite Es, N in Hj. destruct (nth_error idx j) as [k|]; [|discriminate]. eauto.
Qed.

Lemma sorted_Rle_unique (l m : list R) : StronglySorted Rle l -> StronglySorted Rle m -> Permutation l m -> l = m.
Proof.
  revert m. induction l as [|a l IH]; intros m Sl Sm P.
  - apply Permutation_nil in P. congruence.
  - destruct m as [|b m]; [symmetry in P; apply Permutation_nil in P; discriminate|].
    inversion Sl as [|? ? Sl' Fl]; inversion Sm as [|? ? Sm' Fm]; subst. rewrite Forall_forall in *.
    assert (a = b).
    { assert (A : In a (b :: m)) by (apply (Permutation_in _ P); left; reflexivity).
      assert (B : In b (a :: l)) by (apply (Permutation_in _ (Permutation_sym P)); left; reflexivity).
      destruct A as [A|A]; [auto|]. destruct B as [B|B]; [auto|]. specialize (Fl _ B). specialize (Fm _ A). lra. }
    subst b. f_equal. apply IH; auto. eapply Permutation_cons_inv, P.
Qed.

Section Spatial.
  Context {Q : Type}.
  Implicit Types t : traj Q.
  Variable env : sort_env.
  Hypothesis Ha : argsort_contract (np_argsort env).
  Hypothesis Hmls : forall p, length (mls env p) = length p.

  Lemma pose_at_set_arc t al j p l :
    pose_at t j = Some p -> nth_error al j = Some l -> pose_at (set_srt SortArc (set_arc al t)) j = Some (with_arc l p).
  Proof.
    intros H L. unfold pose_at in *. cbn. rewrite L. destruct (nth_error (tstamps t) j); [|discriminate].
    destruct (nth_error (xyz t) j); [|discriminate]. destruct (nth_error (arc t) j); [|discriminate].
    destruct (nth_error (speed t) j); [|discriminate]. destruct (rot t) as [q|]; [|injection H as <-; reflexivity].
    destruct (nth_error q j); [|discriminate]. injection H as <-. reflexivity.
  Qed.

  Lemma sort_spatially_spec t discard s :
    consistent t -> sort env (mls env (xyz t)) discard = Ok s ->
    s <> [] -> NoDup s -> Forall (fun i => (i < tlen t)%nat) s ->
    exists t' smoothed,
      sort_spatially env t discard = Ok t' /\ consistent t' /\ srt t' = SortArc /\ name t' = name t /\ epsg t' = epsg t /\
      tlen t' = length s /\ np_take (mls env (xyz t)) (map Z.of_nat s) = Ok smoothed /\
      (forall j i, nth_error (py_sorted s) j = Some i -> exists k l p, nth_error s k = Some i /\
         nth_error (lengths_from_xyz smoothed) k = Some l /\ pose_at t i = Some p /\ pose_at t' j = Some (with_arc l p)).
  Proof.
    intros Hc Es Ns ND Rg. unfold sort_spatially, sort_mls. rewrite Es. cbn [bind].
    destruct (np_take_nat (mls env (xyz t)) s) as (sm & E1 & N1).
    { rewrite Hmls. exact Rg. }
    rewrite E1. cbn [bind].
    assert (Rs : Forall (fun i => (i < tlen t)%nat) (py_sorted s)).
    { rewrite Forall_forall in *. intros i Hi. apply Rg, (Permutation_in _ (py_sorted_perm s)), Hi. }
    assert (A1 : exists t1, apply_index t (IInt (map Z.of_nat (py_sorted s))) = Ok t1).
    { destruct (np_take_nat (poses t) (py_sorted s)) as (ps & E & _); [rewrite (poses_length t Hc); exact Rs|].
      destruct (apply_index_total t (IInt (map Z.of_nat (py_sorted s))) ps Hc E) as (t1 & E' & _). eauto. }
    destruct A1 as [t1 E2]. rewrite E2. cbn [bind].
    destruct (apply_index_int_spec t _ t1 Hc E2) as (Hc1 & (M1 & M2 & M3 & M4) & L1 & P1).
    assert (Lsm : length sm = length s) by (apply np_take_length in E1; rewrite E1, map_length; reflexivity).
    assert (Nsm : sm <> []) by (intros ->; destruct s; [contradiction | discriminate]).
    assert (Ll : length (lengths_from_xyz sm) = length s) by (rewrite lengths_length; auto).
    assert (Ra : Forall (fun i => (i < length (lengths_from_xyz sm))%nat) (np_argsort env (map INR s))).
    { assert (K := argsort_range _ (map INR s) Ha). rewrite map_length in K. rewrite Ll. exact K. }
    destruct (np_take_nat (lengths_from_xyz sm) _ Ra) as (al & E3 & N3). rewrite E3. cbn [bind].
    assert (Lp : length (py_sorted s) = length s) by (apply Permutation_length, py_sorted_perm).
    assert (Lal : length al = length s).
    { apply np_take_length in E3. rewrite E3, map_length, argsort_length, map_length by exact Ha. reflexivity. }
    assert (L1' : tlen t1 = length s) by (rewrite L1, map_length; exact Lp).
    exists (set_srt SortArc (set_arc al t1)), sm. split; [reflexivity|]. split.
    { destruct Hc1 as (C1 & C2 & C3 & C4). unfold tlen in L1'. repeat split; cbn; auto. lia. }
    split; [reflexivity|]. split; [exact M2|]. split; [exact M3|]. split; [exact L1'|]. split; [reflexivity|].
    intros j i Hj. destruct (argsort_py_sorted _ s j i Ha Hj) as (k & Hk & Hki).
    assert (Kl : (k < length (lengths_from_xyz sm))%nat) by (rewrite Ll; eapply nth_error_Some_lt, Hki).
    apply nth_error_lt_Some in Kl as [l Hl]. destruct (P1 j (Z.of_nat i)) as (i' & Hi' & Ei & Pi & Pn).
    { rewrite nth_error_map', Hj. reflexivity. }
    assert (i' = i) by lia. subst i'. destruct (pose_at t i) as [p|] eqn:Ep; [|congruence].
    exists k, l, p. split; [exact Hki|]. split; [exact Hl|]. split; [reflexivity|]. apply pose_at_set_arc; [exact Pi|].
    rewrite N3, Hk. exact Hl.
  Qed.

  Lemma pose_at_xyz_arc t i p : pose_at t i = Some p -> nth_error (xyz t) i = Some (p_xyz p) /\ nth_error (arc t) i = Some (p_arc p).
  Proof.
    unfold pose_at. destruct (nth_error (tstamps t) i); [|discriminate]. destruct (nth_error (xyz t) i); [|discriminate].
    destruct (nth_error (arc t) i); [|discriminate]. destruct (nth_error (speed t) i); [|discriminate].
    destruct (rot t) as [q|]; [destruct (nth_error q i); [|discriminate]|]; intro H; injection H as <-; auto.
  Qed.

  (** Reading the sorted trajectory along its arc lengths gives the positions in sort order. *)
  Lemma spatial_view t t' s smoothed :
    consistent t -> consistent t' -> srt t' = SortArc -> NoDup s -> tlen t' = length s -> length smoothed = length s ->
    s <> [] -> StronglySorted Rlt (lengths_from_xyz smoothed) ->
    (forall j i, nth_error (py_sorted s) j = Some i -> exists k l p, nth_error s k = Some i /\
         nth_error (lengths_from_xyz smoothed) k = Some l /\ pose_at t i = Some p /\ pose_at t' j = Some (with_arc l p)) ->
    xyz_sorted (np_argsort env) t' = np_take (xyz t) (map Z.of_nat s).
  Proof.
    intros Hc Hc' Hs ND L Ls Ns Sl H. unfold xyz_sorted, sorting_index. rewrite Hs.
    set (lens := lengths_from_xyz smoothed) in *. set (sg := np_argsort env (arc t')).
    assert (Ll : length lens = length s) by (unfold lens; rewrite lengths_length; [exact Ls | intros ->; destruct s; [contradiction | discriminate]]).
    assert (La : length (arc t') = length s) by (destruct Hc' as (_ & _ & C & _); unfold tlen in L; lia).
    assert (Lp : length (py_sorted s) = length s) by (apply Permutation_length, py_sorted_perm).
    (* position in [s] of the j-th stored pose *)
    assert (K : forall j, (j < length s)%nat -> exists k i l q, nth_error (py_sorted s) j = Some i /\ nth_error s k = Some i /\
        nth_error lens k = Some l /\ nth_error (arc t') j = Some l /\ nth_error (xyz t') j = Some q /\ nth_error (xyz t) i = Some q).
    { intros j Hj. rewrite <- Lp in Hj. apply nth_error_lt_Some in Hj as [i Hi]. destruct (H j i Hi) as (k & l & p & Hk & Hl & Hp & Hp').
      apply pose_at_xyz_arc in Hp as [X _]. apply pose_at_xyz_arc in Hp' as [X' A']. cbn in X', A'. exists k, i, l, (p_xyz p). auto 10. }
    assert (Plens : Permutation (arc t') lens).
    { (* both are duplicate free and have the same elements *)
      assert (NDl : NoDup lens).
      { apply NoDup_nth_error. intros a b Hab E. apply nth_error_lt_Some in Hab as [x Hx]. rewrite Hx in E. symmetry in E.
        rewrite StronglySorted_nth in Sl. destruct (Nat.lt_trichotomy a b) as [G|[G|G]]; [|exact G|].
        - specialize (Sl _ _ _ _ G Hx E). lra.
        - specialize (Sl _ _ _ _ G E Hx). lra. }
      symmetry. apply NoDup_Permutation_bis; [exact NDl | lia|].
      intros x Hx. apply In_nth_error in Hx as [k Hk]. assert (Kl : (k < length s)%nat) by (rewrite <- Ll; eapply nth_error_Some_lt, Hk).
      apply nth_error_lt_Some in Kl as [i Hi].
      assert (Ii : In i (py_sorted s)) by (apply (Permutation_in _ (Permutation_sym (py_sorted_perm s))); eapply nth_error_In, Hi).
      apply In_nth_error in Ii as [j Hj]. assert (Jl : (j < length s)%nat) by (rewrite <- Lp; eapply nth_error_Some_lt, Hj).
      destruct (K j Jl) as (k' & i' & l & q & E1 & E2 & E3 & E4 & _). assert (i' = i) by congruence. subst i'.
      assert (k = k').
      { rewrite NoDup_nth_error in ND. apply ND; [eapply nth_error_Some_lt, Hi | congruence]. }
      subst k'. assert (l = x) by congruence. subst l. eapply nth_error_In, E4. }
    destruct (np_take_perm (arc t') sg) as (v & _ & Pv & Nv); [apply Ha|].
    assert (Sv : StronglySorted Rle v) by (apply (argsort_take_sorted (np_argsort env) (arc t') v Ha); exact Nv).
    assert (Ev : v = lens).
    { apply sorted_Rle_unique; [exact Sv | apply strictly_sorted_sorted, Sl | rewrite Pv; exact Plens]. }
    assert (Rsg : Forall (fun i => (i < length (xyz t'))%nat) sg).
    { assert (G := argsort_range _ (arc t') Ha). unfold tlen in L. rewrite L, <- La. exact G. }
    assert (Rs : Forall (fun i => (i < length (xyz t))%nat) s).
    { apply Forall_forall. intros i Hi. apply (Permutation_in _ (Permutation_sym (py_sorted_perm s))) in Hi. apply In_nth_error in Hi as [j Hj].
      assert (Jl : (j < length s)%nat) by (rewrite <- Lp; eapply nth_error_Some_lt, Hj). destruct (K j Jl) as (k & i' & l & q & E1 & _ & _ & _ & _ & E6).
      assert (i' = i) by congruence. subst i'. eapply nth_error_Some_lt, E6. }
    destruct (np_take_nat (xyz t') sg Rsg) as (a & Ea & Na). destruct (np_take_nat (xyz t) s Rs) as (b & Eb & Nb). rewrite Ea, Eb. f_equal.
    apply nth_error_ext. intro m. rewrite Na, Nb. specialize (Nv m). rewrite Ev in Nv.
    destruct (Nat.lt_ge_cases m (length s)) as [Hm|Hm].
    - destruct (nth_error_lt_Some lens m) as [l Hl]; [lia|]. rewrite Hl in Nv.
      fold sg in Nv. destruct (nth_error sg m) as [j|] eqn:Ej; [|discriminate].
      assert (Jl : (j < length s)%nat) by (rewrite <- La; eapply nth_error_Some_lt; symmetry; exact Nv).
      destruct (K j Jl) as (k & i & l' & q & E1 & E2 & E3 & E4 & E5 & E6). assert (l' = l) by congruence. subst l'.
      assert (k = m).
      { rewrite StronglySorted_nth in Sl. destruct (Nat.lt_trichotomy k m) as [G|[G|G]]; [|exact G|].
        - specialize (Sl _ _ _ _ G E3 Hl). lra.
        - specialize (Sl _ _ _ _ G Hl E3). lra. }
      subst k. rewrite E2, E5, E6. reflexivity.
    - rewrite (proj2 (nth_error_None s m)) by exact Hm. rewrite (proj2 (nth_error_None sg m)); [reflexivity|].
      unfold sg. rewrite argsort_length by exact Ha. lia.
  Qed.
End Spatial.
