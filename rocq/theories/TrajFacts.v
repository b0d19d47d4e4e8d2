(** Proofs about the trajectory operations. *)
From Verif Require Import Base BaseFacts NumpyModel NumpyFacts TrajModel TrajSpec.

(** ** Indexing several arrays alike *)
Lemma np_get_combine {A B} (l : list A) (m : list B) z a b :
  length l = length m -> np_get l z = Ok a -> np_get m z = Ok b -> np_get (combine l m) z = Ok (a, b).
Proof.
  intros Hlen Ha Hb. apply np_get_ok in Ha as [k [Hk Ha]]. apply np_get_ok in Hb as [k' [Hk' Hb]].
  rewrite Hlen in Hk. assert (k = k') by congruence; subst k'.
  apply np_get_ok. exists k. rewrite combine_length, Hlen, Nat.min_id. split; [exact Hk'|].
  rewrite nth_error_combine, Ha, Hb; reflexivity.
Qed.

Lemma np_index_combine {A B} (l : list A) (m : list B) ix l' m' :
  length l = length m -> np_index l ix = Ok l' -> np_index m ix = Ok m' ->
  np_index (combine l m) ix = Ok (combine l' m').
Proof.
  intros Hlen. destruct ix as [i|[|b k]]; cbn [np_index].
  - unfold np_take. revert l' m'. induction i as [|z i IH]; intros l' m' Hl Hm; cbn [mapM] in *.
    + injection Hl as <-; injection Hm as <-; reflexivity.
    + inv_bind Hl; inv_bind Hl; inv_bind Hm; inv_bind Hm.
      injection Hl as <-; injection Hm as <-.
      rewrite (np_get_combine l m z _ _ Hlen Ha Ha1); cbn [bind].
      rewrite (IH _ _ Ha0 Ha2); reflexivity.
  - intros Hl Hm; injection Hl as <-; injection Hm as <-; reflexivity.
  - intros Hl Hm. apply np_mask_spec in Hl as [El ->], Hm as [Em ->].
    unfold np_mask. rewrite combine_length, <- Hlen, Nat.min_id, El, Nat.eqb_refl. f_equal.
    clear El Em. generalize (b :: k) as msk. clear b k.
    revert m Hlen. induction l as [|x l IH]; intros [|y m] Hlen msk; cbn in Hlen; try discriminate; [reflexivity|].
    injection Hlen as Hlen. destruct msk as [|c msk]; [reflexivity|]. cbn. destruct c; cbn; rewrite (IH m Hlen msk); reflexivity.
Qed.

Lemma np_index_map {A B} (f : A -> B) (l : list A) ix :
  np_index (map f l) ix = rmap (map f) (np_index l ix).
Proof.
  destruct ix as [i|[|b k]]; cbn [np_index].
  - unfold np_take. induction i as [|z i IH]; cbn [mapM]; [reflexivity|].
    rewrite IH.
    assert (E : np_get (map f l) z = rmap f (np_get l z)).
    { unfold np_get. rewrite map_length. destruct (py_index (length l) z) as [n|]; [|reflexivity].
      rewrite nth_error_map'. destruct (nth_error l n); reflexivity. }
    rewrite E. destruct (np_get l z); cbn; [|reflexivity]. destruct (mapM (np_get l) i); reflexivity.
  - reflexivity.
  - unfold np_mask. rewrite map_length. destruct (_ =? _)%nat; [|reflexivity]. cbn [rmap]. f_equal.
    generalize (b :: k). clear. induction l as [|x l IH]; intros [|c m]; cbn; auto.
    destruct c; cbn; rewrite IH; reflexivity.
Qed.

(** Length of an index result, depending only on the index and array length. *)
Lemma mask_filter_eq {A} (f : A -> bool) (l : list A) :
  map fst (filter snd (combine l (map f l))) = filter f l.
Proof. induction l as [|a l IH]; cbn; [reflexivity|]. destruct (f a); cbn; rewrite IH; reflexivity. Qed.

Lemma np_index_mask_filter {A} (f : A -> bool) (l : list A) :
  np_index l (IMask (map f l)) = Ok (filter f l).
Proof.
  destruct l as [|a l]; [reflexivity|]. unfold np_index.
  change (map f (a :: l)) with (f a :: map f l) at 1. cbv iota.
  unfold np_mask. rewrite map_length, Nat.eqb_refl. f_equal. apply mask_filter_eq.
Qed.

(** Taking the positions where a test holds filters the array. *)
Lemma enumerate_filter_positions {A} (f : A -> bool) (l : list A) s :
  map fst (filter (fun p => f (snd p)) (combine (seq s (length l)) l)) =
  map fst (filter snd (combine (seq s (length l)) (map f l))).
Proof.
  revert s; induction l as [|a l IH]; intro s; cbn; [reflexivity|].
  destruct (f a); cbn; rewrite IH; reflexivity.
Qed.

Lemma positions_range {A} (f : A -> bool) (l : list A) :
  Forall (fun i => (i < length l)%nat) (map fst (filter (fun p => f (snd p)) (enumerate l))).
Proof.
  rewrite Forall_forall; intros i Hi. apply in_map_iff in Hi as [[k a] [<- H]].
  apply filter_In in H as [H _]. apply In_enumerate in H. cbn. eapply nth_error_Some_lt; eassumption.
Qed.

Lemma np_take_positions {A} (f : A -> bool) (l : list A) :
  np_take l (map Z.of_nat (map fst (filter (fun p => f (snd p)) (enumerate l)))) = Ok (filter f l).
Proof.
  unfold np_take.
  assert (H : forall sub, (forall p, In p sub -> In p (enumerate l)) ->
    mapM (np_get l) (map Z.of_nat (map fst sub)) = Ok (map snd sub)).
  { induction sub as [|[i a] sub IH]; intros Hs; cbn [map mapM]; [reflexivity|].
    cbn [fst]. rewrite (np_get_nat l i a).
    - cbn [bind]. rewrite IH; [reflexivity|]. intros; apply Hs; right; assumption.
    - apply In_enumerate. apply Hs. left; reflexivity. }
  rewrite H.
  - f_equal. rewrite <- (enumerate_map_snd l) at 2. rewrite filter_map. reflexivity.
  - intros p Hp. apply filter_In in Hp; tauto.
Qed.

Section Facts.
  Context {Q : Type}.
  Implicit Types t : traj Q.

  Lemma rots_of_length t : consistent t -> length (rots_of t) = length (xyz t).
  Proof.
    intros [_ [H _]]. unfold rots_of. destruct (rot t); rewrite map_length; auto.
  Qed.

  Lemma poses_length t : consistent t -> length (poses t) = tlen t.
  Proof.
    intro H. assert (Hr := rots_of_length t H). destruct H as [H1 [_ [H3 H4]]].
    unfold poses, tlen. rewrite map_length, !combine_length. lia.
  Qed.

  Lemma poses_nth t i : consistent t -> nth_error (poses t) i = pose_at t i.
  Proof.
    intro H. destruct H as [H1 [H2 [H3 H4]]].
    unfold poses, pose_at. rewrite nth_error_map', !nth_error_combine. unfold rots_of.
    destruct (nth_error (tstamps t) i) eqn:E1; [|reflexivity].
    destruct (nth_error (xyz t) i) eqn:E2; [|reflexivity].
    destruct (rot t) as [q|].
    - rewrite nth_error_map'. destruct (nth_error q i); cbn;
        destruct (nth_error (arc t) i); cbn; try reflexivity;
        destruct (nth_error (speed t) i); reflexivity.
    - rewrite nth_error_map', E2. cbn.
      destruct (nth_error (arc t) i); cbn; try reflexivity;
        destruct (nth_error (speed t) i); reflexivity.
  Qed.

  (** The components read off the poses. *)
  Lemma poses_components t : consistent t ->
    map p_t (poses t) = tstamps t /\ map p_xyz (poses t) = xyz t /\
    map p_rot (poses t) = rots_of t /\ map p_arc (poses t) = arc t /\ map p_speed (poses t) = speed t.
  Proof.
    intro H. assert (Hr := rots_of_length t H). destruct H as [H1 [_ [H3 H4]]].
    unfold poses. rewrite !map_map.
    set (ts := tstamps t) in *. set (ps := xyz t) in *. set (q := rots_of t) in *.
    set (al := arc t) in *. set (sp := speed t) in *. clearbody ts ps q al sp. clear t.
    revert ts q al sp H1 Hr H3 H4. induction ps as [|p ps IH]; intros [|a ts] [|r q] [|l al] [|v sp] H1 Hr H3 H4;
      cbn in *; try discriminate; auto.
    injection H1 as H1; injection Hr as Hr; injection H3 as H3; injection H4 as H4.
    destruct (IH ts q al sp H1 Hr H3 H4) as [E1 [E2 [E3 [E4 E5]]]].
    rewrite E1, E2, E3, E4, E5; auto.
  Qed.

  Lemma map_Some_inj_opt (q1 q2 : list Q) : map Some q1 = map Some q2 -> q1 = q2.
  Proof. apply map_Some_inj. Qed.

  (** A consistent trajectory is determined by its poses and attributes. *)
  Lemma traj_ext t t' :
    consistent t -> consistent t' -> poses t = poses t' -> same_meta t t' -> t = t'.
  Proof.
    intros Hc Hc' Hp [Hm1 [Hm2 [Hm3 Hm4]]].
    destruct (poses_components t Hc) as [E1 [E2 [E3 [E4 E5]]]].
    destruct (poses_components t' Hc') as [F1 [F2 [F3 [F4 F5]]]].
    rewrite Hp in *.
    assert (Hr : rot t = rot t').
    { rewrite E3 in F3. unfold rots_of in F3.
      destruct (rot t) as [q|] eqn:Er, (rot t') as [q'|] eqn:Er'; auto.
      - f_equal. apply map_Some_inj. exact F3.
      - destruct Hm4 as [Hm4 _]. specialize (Hm4 eq_refl). discriminate.
      - destruct Hm4 as [_ Hm4]. specialize (Hm4 eq_refl). discriminate. }
    destruct t, t'; cbn in *. congruence.
  Qed.

  (** ** apply_index *)
  Lemma rots_of_index t ix ps q :
    np_index (xyz t) ix = Ok ps ->
    match rot t with Some r => rmap Some (np_index r ix) | None => Ok None end = Ok q ->
    np_index (rots_of t) ix = Ok (match q with Some r => map Some r | None => map (fun _ => None) ps end).
  Proof.
    intros Hp Hq. unfold rots_of. destruct (rot t) as [r|].
    - rewrite np_index_map. destruct (np_index r ix); cbn in *; [|discriminate].
      injection Hq as <-; reflexivity.
    - injection Hq as <-. rewrite np_index_map, Hp. reflexivity.
  Qed.

  Lemma apply_index_ok t ix t' :
    consistent t -> apply_index t ix = Ok t' ->
    consistent t' /\ same_meta t t' /\ np_index (poses t) ix = Ok (poses t').
  Proof.
    intros Hc H. assert (Hr := rots_of_length t Hc).
    destruct Hc as [H1 [H2 [H3 H4]]]. unfold apply_index in H.
    inv_bind H; inv_bind H; inv_bind H; inv_bind H; inv_bind H.
    injection H as <-. rename a into ts, a0 into ps, a1 into q, a2 into al, a3 into sp.
    assert (L1 : length ts = length ps) by (eapply np_index_length; [|eassumption|eassumption]; auto).
    assert (L3 : length al = length ps) by (eapply np_index_length; [|eassumption|eassumption]; auto).
    assert (L4 : length sp = length ps) by (eapply np_index_length; [|eassumption|eassumption]; auto).
    assert (Hq := rots_of_index t ix ps q Ha0 Ha1).
    assert (L2 : match q with Some r => length r = length ps | None => True end).
    { destruct q as [r|]; [|exact I]. destruct (rot t) as [r0|] eqn:Er; [|discriminate].
      destruct (np_index r0 ix) eqn:E; [|discriminate]. cbn in Ha1. injection Ha1 as <-.
      eapply np_index_length; [|eassumption|eassumption]. auto. }
    split; [|split].
    - repeat split; cbn; auto.
    - repeat split; cbn; auto; intro E.
      + destruct (rot t) as [r0|]; [|reflexivity]. destruct (np_index r0 ix); cbn in Ha1; congruence.
      + rewrite E in Ha1. congruence.
    - unfold poses, rots_of; cbn [tstamps xyz rot arc speed]. rewrite np_index_map.
      fold (rots_of t).
      rewrite (np_index_combine _ _ ix
                 (combine (combine (combine ts ps) (match q with Some r => map Some r | None => map (fun _ => None) ps end)) al) sp).
      + reflexivity.
      + rewrite !combine_length. lia.
      + apply np_index_combine; [rewrite !combine_length; lia | | assumption].
        apply np_index_combine; [rewrite !combine_length; lia | | assumption].
        apply np_index_combine; [lia | assumption | assumption].
      + assumption.
  Qed.

  Lemma apply_index_total t ix ps' :
    consistent t -> np_index (poses t) ix = Ok ps' -> exists t', apply_index t ix = Ok t' /\ poses t' = ps'.
  Proof.
    intros Hc H. destruct (poses_components t Hc) as [E1 [E2 [E3 [E4 E5]]]].
    assert (Hex : exists t', apply_index t ix = Ok t').
    { assert (Hlen := poses_length t Hc). unfold tlen in Hlen.
      destruct Hc as [H1 [H2 [H3 H4]]]. unfold apply_index.
      destruct (np_index_ok_transfer (poses t) (tstamps t) ix ps') as [ts ->]; [lia|exact H|].
      destruct (np_index_ok_transfer (poses t) (xyz t) ix ps') as [ps ->]; [lia|exact H|].
      destruct (np_index_ok_transfer (poses t) (arc t) ix ps') as [al ->]; [lia|exact H|].
      destruct (np_index_ok_transfer (poses t) (speed t) ix ps') as [sp ->]; [lia|exact H|].
      cbn [bind]. destruct (rot t) as [r|]; [|cbn; eauto].
      destruct (np_index_ok_transfer (poses t) r ix ps') as [q ->]; [lia|exact H|]. cbn. eauto. }
    destruct Hex as [t' Ht']. exists t'; split; [exact Ht'|].
    destruct (apply_index_ok t ix t' Hc Ht') as [_ [_ Hp]]. congruence.
  Qed.

  Lemma apply_index_err t ix e :
    consistent t -> apply_index t ix = Err e -> e = IndexError /\ np_index (poses t) ix = Err IndexError.
  Proof.
    intros Hc H. destruct (np_index (poses t) ix) as [ps'|e'] eqn:E.
    - destruct (apply_index_total t ix ps' Hc E) as [t' [Ht' _]]. congruence.
    - assert (Ee : e' = IndexError) by (eapply np_index_err; eassumption). subst e'. split; [|reflexivity].
      unfold apply_index in H.
      destruct (np_index (tstamps t) ix) eqn:X1; cbn [bind] in H; [|injection H as <-; eapply np_index_err; eassumption].
      destruct (np_index (xyz t) ix) eqn:X2; cbn [bind] in H; [|injection H as <-; eapply np_index_err; eassumption].
      destruct (rot t) as [r|].
      + destruct (np_index r ix) eqn:X3; cbn [bind rmap] in H; [|injection H as <-; eapply np_index_err; eassumption].
        destruct (np_index (arc t) ix) eqn:X4; cbn [bind] in H; [|injection H as <-; eapply np_index_err; eassumption].
        destruct (np_index (speed t) ix) eqn:X5; cbn [bind] in H; [discriminate|injection H as <-; eapply np_index_err; eassumption].
      + cbn [bind] in H.
        destruct (np_index (arc t) ix) eqn:X4; cbn [bind] in H; [|injection H as <-; eapply np_index_err; eassumption].
        destruct (np_index (speed t) ix) eqn:X5; cbn [bind] in H; [discriminate|injection H as <-; eapply np_index_err; eassumption].
  Qed.

  (** Integer index: pose i of the result is pose index[i] of the input. *)
  Lemma apply_index_int_spec t idx t' :
    consistent t -> apply_index t (IInt idx) = Ok t' ->
    consistent t' /\ same_meta t t' /\ tlen t' = length idx /\
    forall i z, nth_error idx i = Some z ->
      exists k, (k < tlen t)%nat /\ (z = Z.of_nat k \/ z = (Z.of_nat k - Z.of_nat (tlen t))%Z) /\
                pose_at t' i = pose_at t k /\ pose_at t k <> None.
  Proof.
    intros Hc H. destruct (apply_index_ok t _ t' Hc H) as [Hc' [Hm Hp]]. cbn [np_index] in Hp.
    assert (Hlen := poses_length t Hc). assert (Hlen' := poses_length t' Hc').
    split; [exact Hc'|]. split; [exact Hm|]. split.
    - apply np_take_length in Hp. lia.
    - intros i z Hz. assert (Hn := np_take_nth _ _ _ Hp i). rewrite Hz, Hlen in Hn.
      assert (Hi : (i < length (poses t'))%nat).
      { rewrite (np_take_length _ _ _ Hp). eapply nth_error_Some_lt; eassumption. }
      destruct (nth_error_lt_Some _ _ Hi) as [po Hpo]. rewrite Hpo in Hn.
      destruct (py_index (tlen t) z) as [k|] eqn:Ek; [|discriminate].
      apply py_index_Some in Ek as [Hk Hzk]. exists k; repeat split; auto.
      + rewrite <- (poses_nth t' i Hc'), <- (poses_nth t k Hc). congruence.
      + rewrite <- (poses_nth t k Hc). congruence.
  Qed.

  Lemma apply_index_mask_spec t m t' :
    consistent t -> apply_index t (IMask m) = Ok t' -> m <> [] ->
    length m = tlen t /\ consistent t' /\ same_meta t t' /\
    poses t' = map fst (filter snd (combine (poses t) m)).
  Proof.
    intros Hc H Hne. destruct (apply_index_ok t _ t' Hc H) as [Hc' [Hm Hp]].
    destruct m as [|b m]; [contradiction|]. cbn [np_index] in Hp.
    apply np_mask_spec in Hp as [Hl Hp]. rewrite (poses_length t Hc) in Hl. auto.
  Qed.

  (** ** crop *)
  Definition in_span (a b : R) (inverse : bool) (p : pose Q) : bool :=
    let inside := Rleb a (p_t p) && Rleb (p_t p) b in if inverse then negb inside else inside.

  Lemma crop_spec t a b inverse :
    consistent t ->
    exists t', crop t a b inverse = Ok t' /\ consistent t' /\ same_meta t t' /\
      poses t' = filter (in_span a b inverse) (poses t).
  Proof.
    intro Hc. destruct (poses_components t Hc) as [E1 _].
    assert (Hix : np_index (poses t)
              (IMask (if inverse then map (fun x => negb (Rleb a x && Rleb x b)) (tstamps t)
                      else map (fun x => Rleb a x && Rleb x b) (tstamps t)))
            = Ok (filter (in_span a b inverse) (poses t))).
    { rewrite <- E1. rewrite !map_map. destruct inverse.
      - apply (np_index_mask_filter (in_span a b true)).
      - apply (np_index_mask_filter (in_span a b false)). }
    destruct (apply_index_total t _ _ Hc Hix) as [t' [Ht' Hp]].
    exists t'. unfold crop. split; [exact Ht'|].
    destruct (apply_index_ok t _ t' Hc Ht') as [Hc' [Hm _]]. auto.
  Qed.

  Lemma in_span_true a b p : in_span a b false p = true <-> a <= p_t p <= b.
  Proof. unfold in_span. rewrite andb_true_iff, !Rleb_true. tauto. Qed.

  Lemma in_span_inverse a b p : in_span a b true p = negb (in_span a b false p).
  Proof. reflexivity. Qed.

  Lemma crop_partition t a b t1 t2 :
    consistent t -> crop t a b false = Ok t1 -> crop t a b true = Ok t2 ->
    Permutation (poses t1 ++ poses t2) (poses t).
  Proof.
    intros Hc H1 H2.
    destruct (crop_spec t a b false Hc) as [t1' [E1 [_ [_ P1]]]].
    destruct (crop_spec t a b true Hc) as [t2' [E2 [_ [_ P2]]]].
    rewrite H1 in E1; injection E1 as <-. rewrite H2 in E2; injection E2 as <-.
    rewrite P1, P2. apply Permutation_filter_split.
  Qed.

  Lemma crop_idempotent t a b inverse t1 :
    consistent t -> crop t a b inverse = Ok t1 -> crop t1 a b inverse = Ok t1.
  Proof.
    intros Hc H1.
    destruct (crop_spec t a b inverse Hc) as [t1' [E1 [Hc1 [M1 P1]]]].
    rewrite H1 in E1; injection E1 as <-.
    destruct (crop_spec t1 a b inverse Hc1) as [t2 [E2 [Hc2 [M2 P2]]]].
    rewrite E2. f_equal. symmetry. apply traj_ext; auto.
    rewrite P2, P1, filter_filter. apply filter_ext. intro p. destruct (in_span a b inverse p); reflexivity.
  Qed.

  (** ** common time span *)
  Lemma np_get_head {A} (l : list A) a : nth_error l 0 = Some a -> np_get l 0 = Ok a.
  Proof. intro H. apply (np_get_nat l 0 a H). Qed.

  Lemma np_get_last {A} (l : list A) a : l <> [] -> nth_error l (length l - 1) = Some a -> np_get l (-1) = Ok a.
  Proof.
    intros Hne H. apply np_get_ok. exists (length l - 1)%nat. split; [|exact H].
    apply py_index_Some. assert (0 < length l)%nat by (destruct l; [contradiction | cbn; lia]). lia.
  Qed.

  Lemma sorted_ends l : l <> [] ->
    exists a b, np_get (np_sort l) 0 = Ok a /\ np_get (np_sort l) (-1) = Ok b /\ is_min l a /\ is_max l b.
  Proof.
    intro Hne. assert (Hs := np_sort_sorted l). assert (Hp := np_sort_perm l).
    assert (Hlen := np_sort_length l).
    assert (Hl : (0 < length l)%nat) by (destruct l; [contradiction | cbn; lia]).
    assert (Hne' : np_sort l <> []) by (intro E; rewrite E in Hlen; cbn in Hlen; lia).
    destruct (nth_error_lt_Some (np_sort l) 0) as [a Ha]; [lia|].
    destruct (nth_error_lt_Some (np_sort l) (length (np_sort l) - 1)) as [b Hb]; [lia|].
    exists a, b. split; [apply np_get_head; exact Ha|]. split; [apply np_get_last; auto|].
    rewrite StronglySorted_nth in Hs. split; split.
    - apply In_np_sort. eapply nth_error_In; exact Ha.
    - intros y Hy. apply In_np_sort in Hy. apply In_nth_error in Hy as [k Hk].
      destruct k as [|k]; [replace y with a by congruence; lra|]. apply (Hs 0%nat (S k) a y); auto; lia.
    - apply In_np_sort. eapply nth_error_In; exact Hb.
    - intros y Hy. apply In_np_sort in Hy. apply In_nth_error in Hy as [k Hk].
      destruct (Nat.eq_dec k (length (np_sort l) - 1)) as [->|Hne2]; [replace y with b by congruence; lra|].
      apply (Hs k (length (np_sort l) - 1)%nat y b); auto.
      apply nth_error_Some_lt in Hk. lia.
  Qed.

  Lemma is_min_unique l a b : is_min l a -> is_min l b -> a = b.
  Proof. intros [H1 H2] [H3 H4]. apply Rle_antisym; auto. Qed.
  Lemma is_max_unique l a b : is_max l a -> is_max l b -> a = b.
  Proof. intros [H1 H2] [H3 H4]. apply Rle_antisym; auto. Qed.

  Lemma common_time_span_spec l1 l2 a0 a1 b0 b1 :
    is_min l1 a0 -> is_max l1 a1 -> is_min l2 b0 -> is_max l2 b1 ->
    common_time_span l1 l2 =
      Ok (if Rleb (Rmax a0 b0) (Rmin a1 b1) then Some (Rmax a0 b0, Rmin a1 b1) else None).
  Proof.
    intros Hm1 HM1 Hm2 HM2.
    assert (Hne1 : l1 <> []) by (intro E; subst; destruct Hm1 as [[] _]).
    assert (Hne2 : l2 <> []) by (intro E; subst; destruct Hm2 as [[] _]).
    destruct (sorted_ends l1 Hne1) as [x0 [x1 [G0 [G1 [X0 X1]]]]].
    destruct (sorted_ends l2 Hne2) as [y0 [y1 [K0 [K1 [Y0 Y1]]]]].
    rewrite (is_min_unique _ _ _ Hm1 X0), (is_max_unique _ _ _ HM1 X1).
    rewrite (is_min_unique _ _ _ Hm2 Y0), (is_max_unique _ _ _ HM2 Y1).
    unfold common_time_span. rewrite G0, K0, G1, K1. cbn [bind].
    assert (x0 <= x1) by (apply X1, X0). assert (y0 <= y1) by (apply Y1, Y0).
    unfold Rmax, Rmin. destruct (Rle_dec x0 y0), (Rle_dec x1 y1);
    destruct (Rleb_spec x0 y0), (Rleb_spec y0 x1), (Rleb_spec x0 y1), (Rleb_spec y1 x1),
             (Rleb_spec y0 x0), (Rleb_spec x1 y1); cbn [andb orb negb]; try lra;
    try reflexivity;
    match goal with |- context [Rleb ?u ?v] => destruct (Rleb_spec u v) end; try reflexivity; try lra.
  Qed.

  Lemma common_time_span_empty l1 l2 :
    (l1 = [] \/ l2 = []) <-> common_time_span l1 l2 = Err IndexError.
  Proof.
    split.
    - intros [->| ->]; [reflexivity|]. unfold common_time_span; cbn [np_sort fold_right].
      destruct (np_get (np_sort l1) 0) eqn:E; cbn; [reflexivity|].
      apply np_get_err in E; congruence.
    - intro H. destruct l1 as [|x l1]; [auto|]. destruct l2 as [|y l2]; [auto|]. exfalso.
      destruct (sorted_ends (x :: l1)) as [x0 [x1 [G0 [G1 [X0 X1]]]]]; [discriminate|].
      destruct (sorted_ends (y :: l2)) as [y0 [y1 [K0 [K1 [Y0 Y1]]]]]; [discriminate|].
      rewrite (common_time_span_spec _ _ _ _ _ _ X0 X1 Y0 Y1) in H. discriminate.
  Qed.

  (** Existence of extremes. *)
  Lemma min_exists l : l <> [] -> exists a, is_min l a.
  Proof. intro H. destruct (sorted_ends l H) as [a [b [_ [_ [Ha _]]]]]. eauto. Qed.
  Lemma max_exists l : l <> [] -> exists a, is_max l a.
  Proof. intro H. destruct (sorted_ends l H) as [a [b [_ [_ [_ Hb]]]]]. eauto. Qed.

  Lemma common_time_span_sym l1 l2 : common_time_span l1 l2 = common_time_span l2 l1.
  Proof.
    destruct l1 as [|x l1]; destruct l2 as [|y l2]; try reflexivity.
    - transitivity (@Err (option (R*R)) IndexError); [|symmetry]; apply common_time_span_empty; auto.
    - transitivity (@Err (option (R*R)) IndexError); [|symmetry]; apply common_time_span_empty; auto.
    - destruct (min_exists (x :: l1)) as [a0 A0]; [discriminate|].
      destruct (max_exists (x :: l1)) as [a1 A1]; [discriminate|].
      destruct (min_exists (y :: l2)) as [b0 B0]; [discriminate|].
      destruct (max_exists (y :: l2)) as [b1 B1]; [discriminate|].
      rewrite (common_time_span_spec _ _ _ _ _ _ A0 A1 B0 B1).
      rewrite (common_time_span_spec _ _ _ _ _ _ B0 B1 A0 A1).
      rewrite (Rmax_comm b0 a0), (Rmin_comm b1 a1). reflexivity.
  Qed.

  Lemma common_time_span_perm l1 l1' l2 : Permutation l1 l1' -> common_time_span l1 l2 = common_time_span l1' l2.
  Proof. intro H. unfold common_time_span. rewrite (np_sort_perm_eq l1 l1' H). reflexivity. Qed.

  (** ** intersect *)
  Lemma gap_ok_spec ts gap x a0 a1 :
    is_min ts a0 -> is_max ts a1 -> a0 <= x <= a1 ->
    exists b, gap_ok (np_sort ts) gap x (Z.of_nat (searchsorted_right (np_sort ts) x) - 1) = Ok b /\
              (b = true <-> supported ts gap x).
  Proof.
    intros Hmin Hmax Hx. set (s := np_sort ts).
    assert (Hs : StronglySorted Rle s) by apply np_sort_sorted.
    assert (HIn : forall y, In y s <-> In y ts) by (intro; apply In_np_sort).
    set (k := searchsorted_right s x).
    assert (Hspec : forall i a, nth_error s i = Some a -> (a <= x <-> (i < k)%nat))
      by (intros; apply searchsorted_right_spec; auto).
    assert (Hk0 : (0 < k)%nat).
    { destruct Hmin as [Hm _]. apply HIn in Hm. apply In_nth_error in Hm as [i Hi].
      apply (Hspec i a0) in Hi. lia || (destruct Hi as [Hi _]; specialize (Hi (proj1 Hx)); lia). }
    assert (Hkl : (k <= length s)%nat) by apply count_le_length.
    destruct (nth_error_lt_Some s (k - 1)) as [low Hlow]; [lia|].
    assert (Hlowx : low <= x) by (apply (Hspec (k - 1)%nat low Hlow); lia).
    unfold gap_ok. replace (Z.of_nat k - 1)%Z with (Z.of_nat (k - 1)) by lia.
    rewrite (np_get_nat s (k - 1) low Hlow); cbn [bind].
    assert (Hno : forall y, In y s -> low < y -> x < y).
    { intros y Hy Hly. apply In_nth_error in Hy as [i Hi].
      destruct (Rlt_le_dec x y) as [|Hyx]; [assumption|]. apply (Hspec i y Hi) in Hyx.
      rewrite StronglySorted_nth in Hs.
      destruct (Nat.eq_dec i (k - 1)) as [->|]; [replace y with low in Hly by congruence; lra|].
      assert (y <= low) by (apply (Hs i (k - 1)%nat y low); auto; lia). lra. }
    destruct (Reqb_spec low x) as [E|E].
    - exists true; split; [reflexivity|]. split; [intros _|auto].
      left. apply HIn. subst x. eapply nth_error_In; exact Hlow.
    - assert (Hk : (k < length s)%nat).
      { destruct Hmax as [HM1 HM2]. apply HIn in HM1. apply In_nth_error in HM1 as [i Hi].
        destruct (Nat.lt_ge_cases k (length s)) as [|Hge]; [assumption|]. exfalso.
        assert (Hle : a1 <= x) by (apply (Hspec i a1 Hi); apply nth_error_Some_lt in Hi; lia).
        assert (low = a1).
        { apply Rle_antisym.
          - apply HM2. apply HIn. eapply nth_error_In; exact Hlow.
          - rewrite StronglySorted_nth in Hs.
            destruct (Nat.eq_dec i (k - 1)) as [->|]; [replace a1 with low by congruence; lra|].
            apply (Hs i (k - 1)%nat a1 low); auto. apply nth_error_Some_lt in Hi; lia. }
        lra. }
      destruct (nth_error_lt_Some s k Hk) as [up Hup].
      replace (Z.of_nat (k - 1) + 1)%Z with (Z.of_nat k) by lia.
      rewrite (np_get_nat s k up Hup); cbn [bind].
      exists (Rleb (up - low) gap); split; [reflexivity|].
      assert (Hupx : x < up).
      { destruct (Rlt_le_dec x up) as [|Hle]; [assumption|]. apply (Hspec k up Hup) in Hle. lia. }
      assert (Hnb : neighbours ts low up).
      { repeat split; try (apply HIn; eapply nth_error_In; eassumption); [lra|].
        intros y Hy [H1 H2]. apply HIn in Hy. assert (Hxy := Hno y Hy H1).
        apply In_nth_error in Hy as [i Hi]. rewrite StronglySorted_nth in Hs.
        assert (~ (i < k)%nat) by (intro Hik; apply (Hspec i y Hi) in Hik; lra).
        destruct (Nat.eq_dec i k) as [->|]; [replace y with up in H2 by congruence; lra|].
        assert (up <= y) by (apply (Hs k i up y); auto; lia). lra. }
      rewrite Rleb_true. split.
      + intro Hg. right. exists low, up. split; [exact Hnb|]. split; lra.
      + intros [Hin|[a [b [[Ha [Hb [Hab Hbetween]]] [Hx2 Hg]]]]].
        * exfalso. apply HIn in Hin. destruct (Rle_lt_or_eq_dec low x Hlowx) as [Hlt|]; [|congruence].
          specialize (Hno x Hin Hlt). lra.
        * assert (a = low).
          { apply HIn in Ha. destruct (Rtotal_order a low) as [H|[H|H]]; [|exact H|].
            - exfalso. apply (Hbetween low); [apply HIn; eapply nth_error_In; exact Hlow|]. lra.
            - exfalso. specialize (Hno a Ha H). lra. }
          assert (b = up).
          { destruct (Rtotal_order b up) as [H'|[H'|H']]; [|exact H'|].
            - exfalso. destruct Hnb as [_ [_ [_ Hnb]]]. apply (Hnb b Hb). lra.
            - exfalso. apply (Hbetween up); [apply HIn; eapply nth_error_In; exact Hup|]. lra. }
          subst; exact Hg.
  Qed.

  Lemma filter_positions_of_mapM {A} (g : A -> result bool) (f : A -> bool) (l : list A) keep :
    mapM g l = Ok keep -> (forall a, In a l -> g a = Ok (f a)) -> keep = map f l.
  Proof. intros H Hf. rewrite (mapM_ok_map g f l Hf) in H. congruence. Qed.

  (** The kept poses, and the only failures. *)
  Lemma intersect_spec t ts gap a0 a1 b0 b1 :
    consistent t -> is_min ts a0 -> is_max ts a1 ->
    is_min (tstamps t) b0 -> is_max (tstamps t) b1 ->
    Rmax a0 b0 <= Rmin a1 b1 ->
    exists t' keep, intersect t ts gap = Ok t' /\ consistent t' /\ same_meta t t' /\
      poses t' = filter keep (poses t) /\
      (forall p, In p (poses t) ->
         (keep p = true <-> (Rmax a0 b0 <= p_t p <= Rmin a1 b1) /\ supported ts gap (p_t p))).
  Proof.
    intros Hc A0 A1 B0 B1 Hov.
    unfold intersect. rewrite (common_time_span_spec _ _ _ _ _ _ A0 A1 B0 B1). cbn [bind].
    destruct (Rleb_spec (Rmax a0 b0) (Rmin a1 b1)) as [_|]; [|contradiction].
    destruct (crop_spec t (Rmax a0 b0) (Rmin a1 b1) false Hc) as [c [-> [Hcc [Hmc Hpc]]]].
    cbn [bind].
    destruct (poses_components c Hcc) as [Ec _].
    set (s := np_sort ts).
    set (low := fun x => (Z.of_nat (searchsorted_right s x) - 1)%Z).
    assert (Hcomb : combine (tstamps c) (map low (tstamps c)) = map (fun x => (x, low x)) (tstamps c)).
    { generalize (tstamps c). intro l. induction l as [|x l IH]; cbn; [reflexivity | rewrite IH; reflexivity]. }
    change (map (fun x => (Z.of_nat (searchsorted_right s x) - 1)%Z) (tstamps c)) with (map low (tstamps c)).
    rewrite Hcomb.
    (* a total decision function for the timestamps of the cropped trajectory *)
    assert (Hin_c : forall x, In x (tstamps c) -> a0 <= x <= a1).
    { intros x Hx. rewrite <- Ec in Hx. apply in_map_iff in Hx as [p [<- Hp]].
      rewrite Hpc in Hp. apply filter_In in Hp as [_ Hp]. apply in_span_true in Hp.
      assert (H1 := Rmax_l a0 b0). assert (H2 := Rmin_l a1 b1). lra. }
    set (dec := fun x => match gap_ok s gap x (low x) with Ok b => b | Err _ => false end).
    assert (Hdec : forall x, In x (tstamps c) -> gap_ok s gap x (low x) = Ok (dec x) /\
                       (dec x = true <-> supported ts gap x)).
    { intros x Hx. destruct (gap_ok_spec ts gap x a0 a1 A0 A1 (Hin_c x Hx)) as [b [Hb Hiff]].
      fold s in Hb. fold (low x) in Hb. unfold dec. rewrite Hb. auto. }
    rewrite (mapM_ok_map _ (fun p => dec (fst p))).
    2:{ intros [x z] Hxz. apply in_map_iff in Hxz as [y [E Hy]]. injection E as -> <-.
        cbn [fst snd]. apply Hdec; exact Hy. }
    cbn [bind].
    replace (map (fun p => dec (fst p)) (map (fun x => (x, low x)) (tstamps c))) with (map dec (tstamps c))
      by (rewrite map_map; reflexivity).
    assert (Hidx : map fst (filter snd (enumerate (map dec (tstamps c)))) =
                   map fst (filter (fun p => dec (p_t (snd p))) (enumerate (poses c)))).
    { rewrite <- Ec, map_map. unfold enumerate. rewrite map_length.
      symmetry. apply (enumerate_filter_positions (fun p => dec (p_t p))). }
    rewrite Hidx.
    assert (Htake : np_index (poses c)
              (IInt (map Z.of_nat (map fst (filter (fun p => dec (p_t (snd p))) (enumerate (poses c))))))
            = Ok (filter (fun p => dec (p_t p)) (poses c))).
    { cbn [np_index]. apply (np_take_positions (fun p => dec (p_t p))). }
    destruct (apply_index_total c _ _ Hcc Htake) as [t' [Ht' Hp']].
    destruct (apply_index_ok c _ t' Hcc Ht') as [Hc' [Hm' _]].
    exists t', (fun p => in_span (Rmax a0 b0) (Rmin a1 b1) false p && dec (p_t p)).
    split; [exact Ht'|]. split; [exact Hc'|]. split.
    { destruct Hmc as [M1 [M2 [M3 M4]]], Hm' as [N1 [N2 [N3 N4]]].
      repeat split; try congruence; tauto. }
    split.
    - rewrite Hp', Hpc, filter_filter. reflexivity.
    - intros p Hp. rewrite andb_true_iff, in_span_true. split.
      + intros [H1 H2]. split; [exact H1|]. apply Hdec; [|exact H2].
        rewrite <- Ec. apply in_map. rewrite Hpc. apply filter_In. split; [exact Hp|]. apply in_span_true; exact H1.
      + intros [H1 H2]. split; [exact H1|]. apply Hdec; [|exact H2].
        rewrite <- Ec. apply in_map. rewrite Hpc. apply filter_In. split; [exact Hp|]. apply in_span_true; exact H1.
  Qed.

  Lemma intersect_no_overlap t ts gap a0 a1 b0 b1 :
    is_min ts a0 -> is_max ts a1 -> is_min (tstamps t) b0 -> is_max (tstamps t) b1 ->
    Rmin a1 b1 < Rmax a0 b0 -> intersect t ts gap = Err ValueError.
  Proof.
    intros A0 A1 B0 B1 H. unfold intersect.
    rewrite (common_time_span_spec _ _ _ _ _ _ A0 A1 B0 B1). cbn [bind].
    destruct (Rleb_spec (Rmax a0 b0) (Rmin a1 b1)); [lra|]. reflexivity.
  Qed.

  Lemma intersect_empty t ts gap :
    ts = [] \/ tstamps t = [] -> intersect t ts gap = Err IndexError.
  Proof.
    intro H. unfold intersect. rewrite (proj1 (common_time_span_empty ts (tstamps t)) H). reflexivity.
  Qed.

  (** ** match_timestamps *)
  Lemma intersect1d_in a b i :
    In i (intersect1d_idx a b) <->
    exists v, nth_error a i = Some v /\ In v b /\ (forall k, nth_error a k = Some v -> (i <= k)%nat).
  Proof.
    unfold intersect1d_idx. rewrite in_map_iff. split.
    - intros [[v k] [E H]]. cbn in E; subst k. apply filter_In in H as [H1 H2].
      apply np_unique_in in H1 as [H1 H3]. cbn in H2. apply existsb_exists in H2 as [w [Hw E]].
      apply Reqb_true in E; subst w. eauto.
    - intros [v [H1 [H2 H3]]]. exists (v, i). split; [reflexivity|]. apply filter_In. split.
      + apply np_unique_in; auto.
      + cbn. apply existsb_exists. exists v; split; [exact H2 | apply Reqb_refl].
  Qed.

  Lemma intersect1d_range a b : Forall (fun i => (i < length a)%nat) (intersect1d_idx a b).
  Proof.
    rewrite Forall_forall; intros i Hi. apply intersect1d_in in Hi as [v [H _]].
    eapply nth_error_Some_lt; eassumption.
  Qed.

  Lemma intersect1d_values a b :
    exists vs, np_take a (map Z.of_nat (intersect1d_idx a b)) = Ok vs /\ StronglySorted Rlt vs /\
      (forall v, In v vs <-> In v a /\ In v b).
  Proof.
    set (u := filter (fun p => existsb (Reqb (fst p)) b) (np_unique_index a)).
    exists (map fst u).
    assert (Hu : forall p, In p u -> nth_error a (snd p) = Some (fst p)).
    { intros [v k] Hp. apply filter_In in Hp as [Hp _]. apply np_unique_in in Hp. tauto. }
    split; [|split].
    - unfold intersect1d_idx. fold u. clearbody u. unfold np_take. induction u as [|p u IH]; cbn [map mapM]; [reflexivity|].
      rewrite (np_get_nat a (snd p) (fst p)) by (apply Hu; left; reflexivity). cbn [bind].
      rewrite IH by (intros; apply Hu; right; assumption). reflexivity.
    - assert (Hs : StronglySorted val_lt u) by (apply StronglySorted_filter, np_unique_sorted).
      clearbody u. induction Hs as [|p u Hs IH Hf]; cbn; [constructor|]. constructor.
      + apply IH. intros; apply Hu; right; assumption.
      + rewrite Forall_forall in *. intros v Hv. apply in_map_iff in Hv as [p' [<- Hp']].
        apply (Hf p' Hp').
    - intro v. rewrite in_map_iff. split.
      + intros [[v' k] [E H]]. cbn in E; subst v'. apply filter_In in H as [H1 H2].
        apply np_unique_in in H1 as [H1 _]. cbn in H2. apply existsb_exists in H2 as [w [Hw E]].
        apply Reqb_true in E; subst w. split; [eapply nth_error_In; exact H1 | exact Hw].
      + intros [H1 H2]. apply In_nth_error in H1 as [k Hk].
        destruct (first_occurrence a k v Hk) as [k0 [K1 [_ K3]]].
        exists (v, k0). split; [reflexivity|]. apply filter_In. split; [apply np_unique_in; auto|].
        cbn. apply existsb_exists. exists v; split; [exact H2 | apply Reqb_refl].
  Qed.

  Lemma match_timestamps_spec t ts :
    consistent t ->
    exists t', match_timestamps t ts = Ok t' /\ consistent t' /\ same_meta t t' /\
      strictly_time_sorted t' /\
      (forall v, In v (tstamps t') <-> In v (tstamps t) /\ In v ts) /\
      (forall p, In p (poses t') ->
         exists k, pose_at t k = Some p /\ (forall k', nth_error (tstamps t) k' = Some (p_t p) -> (k <= k')%nat)).
  Proof.
    intro Hc. unfold match_timestamps.
    set (idx := intersect1d_idx (tstamps t) ts).
    assert (Hlen := poses_length t Hc).
    assert (Hr : Forall (fun i => (i < length (poses t))%nat) idx).
    { assert (H := intersect1d_range (tstamps t) ts). fold idx in H.
      destruct Hc as [H1 _]. unfold tlen in Hlen. rewrite Hlen, <- H1. exact H. }
    destruct (np_take_nat (poses t) idx Hr) as [ps [Hps Hn]].
    destruct (apply_index_total t (IInt (map Z.of_nat idx)) ps Hc Hps) as [t' [Ht' Hp']].
    destruct (apply_index_ok t _ t' Hc Ht') as [Hc' [Hm' _]].
    exists t'. split; [exact Ht'|]. split; [exact Hc'|]. split; [exact Hm'|].
    destruct (poses_components t' Hc') as [E' _]. destruct (poses_components t Hc) as [E _].
    destruct (intersect1d_values (tstamps t) ts) as [vs [Hvs [Hsorted Hin]]]. fold idx in Hvs.
    assert (Hts : tstamps t' = vs).
    { rewrite <- E', Hp'. assert (Hmap := np_index_map p_t (poses t) (IInt (map Z.of_nat idx))).
      rewrite E in Hmap. cbn [np_index] in Hmap. rewrite Hvs, Hps in Hmap. cbn in Hmap. congruence. }
    split; [unfold strictly_time_sorted; rewrite Hts; exact Hsorted|].
    split; [rewrite Hts; exact Hin|].
    intros p Hp. rewrite Hp' in Hp. apply In_nth_error in Hp as [q Hq]. rewrite Hn in Hq.
    destruct (nth_error idx q) as [k|] eqn:Ek; [|discriminate]. exists k.
    rewrite <- (poses_nth t k Hc). split; [exact Hq|].
    apply nth_error_In in Ek. apply intersect1d_in in Ek as [v [V1 [_ V3]]].
    assert (v = p_t p).
    { rewrite <- E, nth_error_map', Hq in V1. cbn in V1. congruence. }
    subst v. exact V3.
  Qed.
End Facts.

Lemma kept_filter {A} (P : A -> Prop) (f : A -> bool) (l : list A) :
  (forall a, In a l -> (f a = true <-> P a)) -> kept P l (filter f l).
Proof.
  induction l as [|a l IH]; intro H; [constructor|]. cbn. destruct (f a) eqn:E.
  - constructor; [apply H; [left; reflexivity|exact E]|]. apply IH. intros; apply H; right; assumption.
  - constructor; [intro HP; apply H in HP; [congruence|left; reflexivity]|]. apply IH. intros; apply H; right; assumption.
Qed.
