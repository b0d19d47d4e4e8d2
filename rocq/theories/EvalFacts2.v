(** Pose pairs and the relative comparison as a whole. *)
From Verif Require Import Base BaseFacts NumpyModel NumpyFacts TrajModel TrajSpec VecFacts TrajFacts
  GeomModel GeomSpec GeomFacts GeomFacts2 EvalModel EvalSpec EvalFacts.

(** ** arange *)
Lemma Rceil_spec x : IZR (Rceil x) - 1 < x <= IZR (Rceil x).
Proof. unfold Rceil. rewrite opp_IZR. destruct (base_Int_part (- x)). lra. Qed.

Lemma ceil_count x i : ((i < Z.to_nat (Rceil x))%nat <-> INR i < x).
Proof.
  destruct (Rceil_spec x) as [A B]. rewrite INR_IZR_INZ. split; intro H.
  - assert (Z.of_nat i + 1 <= Rceil x)%Z as L by lia. apply IZR_le in L. rewrite plus_IZR in L. lra.
  - assert (IZR (Z.of_nat i) < IZR (Rceil x)) as L by lra. apply lt_IZR in L. lia.
Qed.

Lemma np_arange_pos z a b s : 0 < s -> exists l, np_arange z a b s = Ok l /\
  (forall i, ((i < length l)%nat <-> a + INR i * s < b)) /\
  (forall i, (i < length l)%nat -> nth_error l i = Some (a + INR i * s)).
Proof.
  intro Hs. unfold np_arange. destruct (Reqb_spec s 0) as [|_]; [lra|]. eexists. split; [reflexivity|].
  rewrite map_length, seq_length. split.
  - intro i. rewrite ceil_count. assert (E : (b - a) / s * s = b - a) by (field; lra). split; intro H.
    + apply (Rmult_lt_compat_r s) in H; [lra | exact Hs].
    + apply (Rmult_lt_reg_r s); lra.
  - intros i Hi. rewrite nth_error_map', nth_error_seq. destruct (Nat.ltb_spec i (Z.to_nat (Rceil ((b - a) / s)))); [reflexivity | lia].
Qed.

(** ** searchsorted *)
Lemma searchsorted_first ds x j :
  StronglySorted Rle ds -> (first_at_least ds x j <-> (j < length ds)%nat /\ searchsorted_left ds x = j).
Proof.
  intro S. split.
  - intros [(d & Hd & Hx) H]. assert (L := nth_error_Some_lt _ _ _ Hd). split; [exact L|].
    assert (A := searchsorted_left_spec ds x j d S Hd). destruct (Nat.lt_trichotomy (searchsorted_left ds x) j) as [K|[K|K]]; [|exact K|].
    + destruct (nth_error_lt_Some ds (searchsorted_left ds x)) as [d' Hd']; [lia|]. specialize (H _ _ K Hd').
      apply (searchsorted_left_spec ds x _ d' S Hd') in H. lia.
    + apply A in K. lra.
  - intros [L <-]. split.
    + destruct (nth_error_lt_Some ds _ L) as [d Hd]. exists d. split; [exact Hd|].
      destruct (Rle_lt_dec x d) as [K|K]; [exact K|]. apply (searchsorted_left_spec ds x _ d S Hd) in K. lia.
    + intros i d Hi Hd. apply (searchsorted_left_spec ds x i d S Hd), Hi.
Qed.

Lemma searchsorted_exists ds x dl :
  StronglySorted Rle ds -> last_distance ds dl -> x <= dl -> (searchsorted_left ds x < length ds)%nat.
Proof.
  intros S Hl Hx. assert (A := searchsorted_left_spec ds x _ dl S Hl). assert (L := nth_error_Some_lt _ _ _ Hl).
  destruct (Nat.lt_ge_cases (length ds - 1) (searchsorted_left ds x)) as [K|K]; [apply A in K; lra | lia].
Qed.

Lemma first_at_least_lt ds x d i j :
  StronglySorted Rle ds -> nth_error ds i = Some d -> d < x -> first_at_least ds x j -> (i < j)%nat.
Proof.
  intros S Hd Hx [(e & He & Le) _]. destruct (Nat.lt_ge_cases i j) as [K|K]; [exact K|].
  rewrite StronglySorted_nth in S. destruct (Nat.eq_dec i j) as [->|N]; [replace e with d in * by congruence; lra|].
  assert (e <= d) by (eapply (S j i); eauto; lia). lra.
Qed.

Lemma last_of_list ds dl : last_distance ds dl -> last ds 0 = dl.
Proof.
  unfold last_distance. induction ds as [|d ds IH]; [discriminate|]. destruct ds as [|e ds]; [cbn; congruence|].
  intro H. change (last (d :: e :: ds) 0) with (last (e :: ds) 0). apply IH. cbn in *. rewrite Nat.sub_0_r in *. exact H.
Qed.

Lemma enumerate_sorted {A} (l : list A) (f : nat * A -> bool) : StronglySorted lt (map fst (filter f (enumerate l))).
Proof.
  assert (H : StronglySorted (fun a b : nat * A => (fst a < fst b)%nat) (enumerate l)).
  { apply StronglySorted_nth. intros i j a b Hij Ha Hb. rewrite enumerate_nth in Ha, Hb.
    destruct (nth_error l i); [|discriminate]. destruct (nth_error l j); [|discriminate]. injection Ha as <-. injection Hb as <-. exact Hij. }
  apply (StronglySorted_filter _ f) in H. induction H as [|a r _ IH F]; [constructor|]. cbn. constructor; [exact IH|].
  rewrite Forall_forall in *. intros b Hb. apply in_map_iff in Hb as (x & <- & Hx). apply F, Hx.
Qed.

Lemma all_pairs_spec ds dist dl :
  StronglySorted Rle ds -> 0 < dist -> last_distance ds dl ->
  exists l, get_pair_indices ds true dist = Ok l /\
    (forall i j, In (i, j) l <-> exists d, nth_error ds i = Some d /\ d + dist < dl /\ first_at_least ds (d + dist) j) /\
    StronglySorted lt (map fst l) /\ (forall i j, In (i, j) l -> (i < j < length ds)%nat).
Proof.
  intros S Hd Hl. unfold get_pair_indices. rewrite (last_of_list ds dl Hl). eexists. split; [reflexivity|].
  assert (K : forall i j, In (i, j) (map (fun ia => (fst ia, searchsorted_left ds (snd ia + dist)))
      (filter (fun ia => Rltb (snd ia + dist) dl) (enumerate ds))) <->
      exists d, nth_error ds i = Some d /\ d + dist < dl /\ first_at_least ds (d + dist) j).
  { intros i j. rewrite in_map_iff. split.
    - intros ([i' d] & E & H). cbn in E. injection E as <- <-. apply filter_In in H as [H1 H2]. apply In_enumerate in H1. cbn in H2.
      apply Rltb_true in H2. exists d. split; [exact H1|]. split; [exact H2|]. apply (searchsorted_first ds _ _ S).
      split; [|reflexivity]. apply (searchsorted_exists ds _ dl S Hl). lra.
    - intros (d & H1 & H2 & H3). exists (i, d). cbn. apply (searchsorted_first ds _ _ S) in H3 as [_ ->]. split; [reflexivity|].
      apply filter_In. split; [apply In_enumerate, H1 | apply Rltb_true, H2]. }
  split; [exact K|]. split.
  - rewrite map_map. cbn. apply enumerate_sorted.
  - intros i j H. apply K in H as (d & H1 & H2 & H3). assert (H4 := H3). apply (searchsorted_first ds _ _ S) in H4 as [H4 _].
    split; [|exact H4]. apply (first_at_least_lt ds (d + dist) d i j S H1); [lra | exact H3].
Qed.

Lemma np_get_of_nat {A} (l : list A) k a : np_get l (Z.of_nat k) = Ok a <-> nth_error l k = Some a.
Proof.
  split; [|apply np_get_nat]. intro H. apply np_get_ok in H as (k' & E & H). unfold py_index in E.
  destruct (Z.leb_spec 0 (Z.of_nat k)); [|lia]. destruct (Z.ltb_spec (Z.of_nat k) (Z.of_nat (length l))); [|discriminate].
  injection E as <-. rewrite Nat2Z.id in H. exact H.
Qed.

Lemma np_get_last (ds : list R) dl : last_distance ds dl -> np_get ds (-1) = Ok dl.
Proof.
  intro H. assert (L := nth_error_Some_lt _ _ _ H). apply np_get_ok. exists (length ds - 1)%nat. split; [|exact H].
  unfold py_index. cbn [Z.leb Z.compare]. destruct (Z.leb_spec (- Z.of_nat (length ds)) (-1)); [f_equal; lia | lia].
Qed.

Lemma consecutive_spec ds dist d0 dl :
  StronglySorted Rle ds -> 0 < dist -> nth_error ds 0 = Some d0 -> last_distance ds dl ->
  exists l, get_pair_indices ds false dist = Ok l /\
    (forall k i j, nth_error l k = Some (i, j) <->
       d0 + INR (S k) * dist < dl /\ first_at_least ds (d0 + INR k * dist) i /\ first_at_least ds (d0 + INR (S k) * dist) j).
Proof.
  intros S Hd H0 Hl. unfold get_pair_indices. rewrite (np_get_nat ds 0 d0 H0 : np_get ds 0 = _). cbn [bind]. rewrite (np_get_last ds dl Hl). cbn [bind].
  destruct (np_arange_pos ValueError d0 dl dist Hd) as (l & -> & L1 & L2). cbn [bind]. eexists. split; [reflexivity|].
  intros k i j. rewrite pairs_nth, !nth_error_map'.
  assert (Sk := S_INR k). split.
  - intro H. destruct (nth_error l k) as [a|] eqn:Ea; [|discriminate].
    destruct (nth_error l (Datatypes.S k)) as [b|] eqn:Eb; [|discriminate]. cbn [option_map] in H. injection H as <- <-.
    assert (Lk := nth_error_Some_lt _ _ _ Eb). assert (La := nth_error_Some_lt _ _ _ Ea). rewrite L2 in Ea, Eb by assumption.
    injection Ea as <-. injection Eb as <-. apply L1 in Lk. split; [exact Lk|].
    split; apply (searchsorted_first ds _ _ S); (split; [apply (searchsorted_exists ds _ dl S Hl) | reflexivity]).
    + apply L1 in La. lra.
    + apply Rlt_le. exact Lk.
  - intros (H1 & H2 & H3). apply L1 in H1. rewrite !L2 by lia. cbn [option_map].
    apply (searchsorted_first ds _ _ S) in H2 as [_ ->]. apply (searchsorted_first ds _ _ S) in H3 as [_ ->]. reflexivity.
Qed.

Lemma consecutive_le ds x y i j :
  StronglySorted Rle ds -> x <= y -> first_at_least ds x i -> first_at_least ds y j -> (i <= j)%nat.
Proof.
  intros S H [_ A] [(d & Hd & Ly) _]. destruct (Nat.lt_ge_cases j i) as [K|K]; [|exact K]. specialize (A j d K Hd). lra.
Qed.

Lemma consecutive_gap ds x dist i j d0 :
  StronglySorted Rle ds -> 0 < dist -> nth_error ds 0 = Some d0 -> d0 <= x ->
  (forall k a b, nth_error ds k = Some a -> nth_error ds (S k) = Some b -> b - a <= dist) ->
  first_at_least ds x i -> first_at_least ds (x + dist) j -> (i < j)%nat.
Proof.
  intros S Hd H0 Hx G [(d & Hd' & Lx) A] F. apply (first_at_least_lt ds (x + dist) d i j S Hd'); [|exact F].
  destruct i as [|i].
  - replace d with d0 by congruence. lra.
  - destruct (nth_error_lt_Some ds i) as [c Hc]; [apply nth_error_Some_lt in Hd'; lia|].
    specialize (G i c d Hc Hd'). specialize (A i c (Nat.lt_succ_diag_r i) Hc). lra.
Qed.

(** ** The whole comparison *)
Lemma mapM_Forall2 {A B} (f : A -> result B) l l' : mapM f l = Ok l' -> Forall2 (fun a b => f a = Ok b) l l'.
Proof.
  revert l'. induction l as [|a l IH]; intros l' H; cbn in H.
  - injection H as <-. constructor.
  - apply bind_ok in H as (b & Hb & H). apply bind_ok in H as (bs & Hbs & H). injection H as <-. constructor; auto.
Qed.

Lemma mapM_total {A B} (f : A -> result B) l : (forall a, In a l -> exists b, f a = Ok b) -> exists l', mapM f l = Ok l'.
Proof.
  induction l as [|a l IH]; intro H; [exists []; reflexivity|]. destruct (H a) as [b Hb]; [left; reflexivity|].
  destruct IH as [bs Hbs]; [intros; apply H; right; assumption|]. exists (b :: bs). cbn. rewrite Hb. cbn. rewrite Hbs. reflexivity.
Qed.

Section Whole.
  Context {Q : Type} (ops : rot_ops Q) (C : rot_contract ops).
  Implicit Types test ref : traj Q.

  Lemma se3_nth t i P : consistent t -> has_orientation t = true ->
    (nth_error (se3 ops t) i = Some P <-> pose_matrix ops t i P).
  Proof.
    intros Hc Ho. unfold has_orientation in Ho. destruct (rot t) as [q|] eqn:E; [|discriminate].
    rewrite (se3_some ops t q Hc E), nth_error_map', nth_error_combine. unfold pose_matrix. rewrite E. split.
    - intro H. destruct (nth_error (xyz t) i) as [p|]; [|discriminate]. destruct (nth_error q i) as [r|] eqn:Er; [|discriminate].
      cbn in H. injection H as <-. exists q, p, r. auto.
    - intros (q' & p & r & Eq & H1 & H2 & ->). injection Eq as <-. rewrite H1, H2. reflexivity.
  Qed.

  Lemma compare_pair_rot test ref ds i j e :
    consistent test -> consistent ref -> has_orientation ref = true -> has_orientation test = true ->
    compare_pair ops test ref ds (i, j) = Ok e ->
    exists di dj Pi Pj Ti Tj, nth_error ds i = Some di /\ nth_error ds j = Some dj /\
      pose_matrix ops ref i Pi /\ pose_matrix ops ref j Pj /\ pose_matrix ops test i Ti /\ pose_matrix ops test j Tj /\
      e = mkEntry (np_div (translation_error (pose_error Pi Pj Ti Tj)) (dj - di))
                  (Some (np_div (rotation_error (pose_error Pi Pj Ti Tj)) (dj - di))) (dj - di).
  Proof.
    intros Ct Cr Or Ot H. unfold compare_pair in H. rewrite Or, Ot in H. cbn [fst snd andb] in H.
    apply bind_ok in H as (dj & Hdj & H). apply bind_ok in H as (di & Hdi & H). apply bind_ok in H as (Pi & HPi & H).
    apply bind_ok in H as (Pj & HPj & H). apply bind_ok in H as (Ti & HTi & H). apply bind_ok in H as (Tj & HTj & H). injection H as <-.
    apply np_get_of_nat in Hdj, Hdi, HPi, HPj, HTi, HTj. rewrite (se3_nth ref) in HPi, HPj by assumption. rewrite (se3_nth test) in HTi, HTj by assumption.
    exists di, dj, Pi, Pj, Ti, Tj. auto 10.
  Qed.

  Lemma compare_pair_plain test ref ds i j e :
    (has_orientation ref && has_orientation test)%bool = false ->
    compare_pair ops test ref ds (i, j) = Ok e ->
    exists di dj ri rj ti tj, nth_error ds i = Some di /\ nth_error ds j = Some dj /\
      nth_error (xyz ref) i = Some ri /\ nth_error (xyz ref) j = Some rj /\
      nth_error (xyz test) i = Some ti /\ nth_error (xyz test) j = Some tj /\
      e = mkEntry (np_div (Rabs (vdist rj ri - vdist tj ti)) (dj - di)) None (dj - di).
  Proof.
    intros O H. unfold compare_pair in H. rewrite O in H. cbn [fst snd] in H.
    apply bind_ok in H as (dj & Hdj & H). apply bind_ok in H as (di & Hdi & H). apply bind_ok in H as (rj & Hrj & H).
    apply bind_ok in H as (ri & Hri & H). apply bind_ok in H as (tj & Htj & H). apply bind_ok in H as (ti & Hti & H). injection H as <-.
    apply np_get_of_nat in Hdj, Hdi, Hrj, Hri, Htj, Hti. exists di, dj, ri, rj, ti, tj. auto 10.
  Qed.

  Lemma se3_length t : consistent t -> length (se3 ops t) = tlen t.
  Proof.
    intro Hc. destruct (rot t) as [q|] eqn:E.
    - rewrite (se3_some ops t q Hc E), map_length, combine_length. destruct Hc as (_ & H & _). rewrite E in H. unfold tlen. lia.
    - rewrite (se3_none ops t E), map_length. reflexivity.
  Qed.

  Lemma compare_pair_total test ref ds i j :
    consistent test -> consistent ref -> tlen test = tlen ref -> length ds = tlen ref -> (i < tlen ref)%nat -> (j < tlen ref)%nat ->
    exists e, compare_pair ops test ref ds (i, j) = Ok e.
  Proof.
    intros Ct Cr L Ld Hi Hj. unfold compare_pair. cbn [fst snd].
    assert (G : forall A (l : list A) k, length l = tlen ref -> (k < tlen ref)%nat -> exists a, np_get l (Z.of_nat k) = Ok a).
    { intros A l k Hl Hk. rewrite <- Hl in Hk. apply nth_error_lt_Some in Hk as [a Ha]. exists a. apply np_get_nat, Ha. }
    destruct (G R ds j Ld Hj) as [dj ->]. destruct (G R ds i Ld Hi) as [di ->]. cbn [bind].
    destruct (_ && _)%bool.
    - destruct (G _ (se3 ops ref) i (se3_length ref Cr) Hi) as [a ->]. destruct (G _ (se3 ops ref) j (se3_length ref Cr) Hj) as [b ->].
      assert (Ls : length (se3 ops test) = tlen ref) by (rewrite se3_length by exact Ct; exact L).
      destruct (G _ (se3 ops test) i Ls Hi) as [c ->]. destruct (G _ (se3 ops test) j Ls Hj) as [d ->]. cbn [bind]. eauto.
    - destruct (G _ (xyz ref) j eq_refl Hj) as [a ->]. destruct (G _ (xyz ref) i eq_refl Hi) as [b ->].
      destruct (G _ (xyz test) j L Hj) as [c ->]. destruct (G _ (xyz test) i L Hi) as [d ->]. cbn [bind]. eauto.
  Qed.

  (** The blocks of a successful comparison. *)
  Lemma compare_relative_ok test ref s r :
    compare_relative ops test ref s = Ok r ->
    pair_min_distance s <= pair_max_distance s /\ rpe_unit r = pair_distance_unit s /\
    rpe_name r = (name test ++ " vs. " ++ name ref)%string /\
    (exists k es, In (k, es) (rpe_pairs r) /\ es <> []) /\
    (forall k es, In (k, es) (rpe_pairs r) -> exists ds idx, pair_distances ref (pair_distance_unit s) = Ok ds /\
        get_pair_indices ds (use_all_pose_pairs s) k = Ok idx /\ Forall2 (fun ij e => compare_pair ops test ref ds ij = Ok e) idx es) /\
    np_arange ZeroDivisionError (pair_min_distance s) (pair_max_distance s + pair_distance_step s) (pair_distance_step s)
      = Ok (map fst (rpe_pairs r)).
  Proof.
    unfold compare_relative. destruct (Rltb_spec (pair_max_distance s) (pair_min_distance s)) as [|N]; [discriminate|].
    intro H. apply bind_ok in H as (ks & Hk & H). apply bind_ok in H as (bl & Hb & H).
    destruct (forallb _ bl) eqn:Ef; [discriminate|]. injection H as <-. cbn. apply mapM_Forall2 in Hb.
    split; [lra|]. split; [reflexivity|]. split; [reflexivity|]. split.
    { clear - Ef. induction bl as [|[k es] bl IH]; [discriminate|]. cbn in Ef. apply Bool.andb_false_iff in Ef as [E|E].
      - exists k, es. split; [left; reflexivity|]. intros ->. discriminate.
      - destruct (IH E) as (k' & es' & H & N). exists k', es'. split; [right; exact H | exact N]. }
    split.
    { intros k es Hi. clear - Hb Hi. induction Hb as [|k' b ks bl H Hb IH]; [contradiction|]. destruct Hi as [->|Hi]; [|apply IH, Hi].
      apply bind_ok in H as (ds & H1 & H). apply bind_ok in H as (idx & H2 & H). apply bind_ok in H as (en & H3 & H). injection H as -> ->.
      exists ds, idx. split; [exact H1|]. split; [exact H2|]. apply mapM_Forall2, H3. }
    rewrite Hk. f_equal. clear - Hb. induction Hb as [|k b ks bl H Hb IH]; [reflexivity|]. cbn. f_equal; [|exact IH].
    apply bind_ok in H as (ds & _ & H). apply bind_ok in H as (idx & _ & H). apply bind_ok in H as (en & _ & H). injection H as <-. reflexivity.
  Qed.

  Lemma pairs_in_range ds all k idx :
    StronglySorted Rle ds -> get_pair_indices ds all k = Ok idx -> (all = true \/ 0 < k) ->
    Forall (fun ij => (fst ij < length ds)%nat /\ (snd ij < length ds)%nat) idx.
  Proof.
    intros S H Hk. destruct ds as [|d0 ds0] eqn:Eds.
    - destruct all; cbn in H; [injection H as <-; constructor | discriminate].
    - rewrite <- Eds in *. assert (Hl : exists dl, last_distance ds dl) by (apply nth_error_lt_Some; rewrite Eds; cbn; lia). destruct Hl as [dl Hl].
      destruct all.
      + unfold get_pair_indices in H. rewrite (last_of_list ds dl Hl) in H. injection H as <-. apply Forall_forall. intros [i j] Hi.
        apply in_map_iff in Hi as ([i' d] & E & Hi). cbn in E. injection E as <- <-. apply filter_In in Hi as [Hi Hd]. cbn in Hd |- *.
        apply Rltb_true in Hd. apply In_enumerate in Hi. split; [eapply nth_error_Some_lt, Hi|]. apply (searchsorted_exists ds _ dl S Hl). lra.
      + destruct Hk as [|Hk]; [discriminate|]. destruct (consecutive_spec ds k d0 dl S Hk) as (l & E & K); [rewrite Eds; reflexivity | exact Hl|].
        rewrite E in H. injection H as <-. apply Forall_forall. intros [i j] Hi. apply In_nth_error in Hi as [m Hm]. apply K in Hm as (_ & A & B).
        apply (searchsorted_first ds _ _ S) in A as [A _]. apply (searchsorted_first ds _ _ S) in B as [B _]. split; assumption.
  Qed.

  Lemma get_pairs_ok ds all k : (all = true \/ (0 < k /\ ds <> [])) -> exists idx, get_pair_indices ds all k = Ok idx.
  Proof.
    intros [->|[Hk Nd]]; [eexists; reflexivity|]. destruct all; [eexists; reflexivity|]. unfold get_pair_indices.
    destruct ds as [|d0 ds0]; [contradiction|]. rewrite (np_get_nat (d0 :: ds0) 0 d0 eq_refl : np_get (d0 :: ds0) 0 = _). cbn [bind].
    destruct (nth_error_lt_Some (d0 :: ds0) (length (d0 :: ds0) - 1)) as [dl Hl]; [cbn; lia|].
    rewrite (np_get_last _ dl Hl). cbn [bind]. destruct (np_arange_pos ValueError d0 dl k Hk) as (l & -> & _). eexists. reflexivity.
  Qed.

  (** A comparison of matched trajectories returns or, when there is no pair, raises ValueError. *)
  Lemma compare_relative_total test ref s ds :
    consistent test -> consistent ref -> tlen test = tlen ref ->
    pair_distances ref (pair_distance_unit s) = Ok ds -> StronglySorted Rle ds ->
    pair_min_distance s <= pair_max_distance s -> 0 < pair_distance_step s ->
    (use_all_pose_pairs s = true \/ (0 < pair_min_distance s /\ ds <> [])) ->
    (forall k i idx, k = pair_min_distance s + INR i * pair_distance_step s -> k < pair_max_distance s + pair_distance_step s ->
       get_pair_indices ds (use_all_pose_pairs s) k = Ok idx -> idx <> [] -> exists r, compare_relative ops test ref s = Ok r) /\
    ((exists r, compare_relative ops test ref s = Ok r) \/ compare_relative ops test ref s = Err ValueError).
  Proof.
    intros Ct Cr L Ed S Hm Hs Hall.
    assert (Ld : length ds = tlen ref).
    { destruct Cr as (C1 & _ & C3 & _). unfold pair_distances in Ed. unfold tlen. destruct (pair_distance_unit s); try discriminate; injection Ed as <-; congruence. }
    unfold compare_relative. destruct (Rltb_spec (pair_max_distance s) (pair_min_distance s)) as [|_]; [lra|].
    destruct (np_arange_pos ZeroDivisionError (pair_min_distance s) (pair_max_distance s + pair_distance_step s) (pair_distance_step s) Hs)
      as (ks & -> & K1 & K2). cbn [bind].
    assert (Hpos : forall k, In k ks -> use_all_pose_pairs s = true \/ (0 < k /\ ds <> [])).
    { intros k Hk. destruct Hall as [->|[H1 H2]]; [left; reflexivity|]. right. split; [|exact H2]. apply In_nth_error in Hk as [i Hi].
      assert (Li := nth_error_Some_lt _ _ _ Hi). rewrite K2 in Hi by exact Li. injection Hi as <-. assert (0 <= INR i) by apply pos_INR.
      assert (0 <= INR i * pair_distance_step s) by (apply Rmult_le_pos; lra). lra. }
    rewrite Ed. cbn [bind].
    set (body := fun pair_dist => let! pair_indices := get_pair_indices ds (use_all_pose_pairs s) pair_dist in
       let! entries := mapM (compare_pair ops test ref ds) pair_indices in Ok (pair_dist, entries)).
    assert (T : forall k, In k ks -> exists idx es, get_pair_indices ds (use_all_pose_pairs s) k = Ok idx /\ length es = length idx /\ body k = Ok (k, es)).
    { intros k Hk. destruct (get_pairs_ok ds (use_all_pose_pairs s) k (Hpos k Hk)) as [idx Ei].
      assert (Rg : Forall (fun ij => (fst ij < length ds)%nat /\ (snd ij < length ds)%nat) idx).
      { apply (pairs_in_range ds (use_all_pose_pairs s) k idx S Ei). destruct (Hpos k Hk) as [|[]]; auto. }
      destruct (mapM_total (compare_pair ops test ref ds) idx) as [es Ee].
      { intros [i j] Hij. rewrite Forall_forall in Rg. specialize (Rg _ Hij) as [R1 R2]. cbn in R1, R2. apply compare_pair_total; auto; lia. }
      exists idx, es. split; [exact Ei|]. split; [eapply mapM_length, Ee|]. unfold body. rewrite Ei. cbn [bind]. rewrite Ee. reflexivity. }
    destruct (mapM_total body ks) as [bl Eb]; [intros k Hk; destruct (T k Hk) as (_ & es & _ & _ & H); eauto|].
    fold body. rewrite Eb. cbn [bind]. split.
    - intros k i idx Ek Hk Ei Ni. destruct (forallb _ bl) eqn:Ef; [|eauto]. exfalso.
      assert (Li : (i < length ks)%nat) by (apply K1; rewrite <- Ek; exact Hk). assert (Hi := K2 i Li). rewrite <- Ek in Hi.
      assert (Ik := nth_error_In _ _ Hi). destruct (T k Ik) as (idx' & es & Ei' & Le & Bk). rewrite Ei in Ei'. injection Ei' as <-.
      apply mapM_Forall2 in Eb. rewrite forallb_forall in Ef.
      assert (In (k, es) bl).
      { clear - Eb Ik Bk. induction Eb as [|a b ks bl H Eb IH]; [contradiction|]. destruct Ik as [->|Ik]; [left; congruence | right; auto]. }
      specialize (Ef _ H). cbn in Ef. apply Nat.eqb_eq in Ef. rewrite Ef in Le. destruct idx; [contradiction | discriminate].
    - destruct (forallb _ bl); eauto.
  Qed.
End Whole.
