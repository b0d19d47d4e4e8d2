(** Lemmas about the numpy primitives. *)
From Verif Require Import Base BaseFacts NumpyModel.

(** ** Indexing *)
Lemma py_index_nat n k : (k < n)%nat -> py_index n (Z.of_nat k) = Some k.
Proof.
  intro H; unfold py_index.
  destruct (Z.leb_spec 0 (Z.of_nat k)); [|lia].
  destruct (Z.ltb_spec (Z.of_nat k) (Z.of_nat n)); [|lia].
  rewrite Nat2Z.id; reflexivity.
Qed.

Lemma py_index_Some n z k :
  py_index n z = Some k <->
  (k < n)%nat /\ (z = Z.of_nat k \/ z = (Z.of_nat k - Z.of_nat n)%Z).
Proof.
  unfold py_index.
  destruct (Z.leb_spec 0 z); [destruct (Z.ltb_spec z (Z.of_nat n)) |
                              destruct (Z.leb_spec (- Z.of_nat n) z)];
    (split; [intro Hs; inversion Hs; subst; lia | intros [Hk Hz]; try (f_equal; lia); try lia]).
Qed.

Lemma py_index_None n z :
  py_index n z = None <-> (z < - Z.of_nat n \/ Z.of_nat n <= z)%Z.
Proof.
  unfold py_index.
  destruct (Z.leb_spec 0 z); [destruct (Z.ltb_spec z (Z.of_nat n)) |
                              destruct (Z.leb_spec (- Z.of_nat n) z)];
    (split; [intro Hs; try discriminate; lia | intros ?; try reflexivity; lia]).
Qed.

Lemma np_get_ok {A} (l : list A) z a :
  np_get l z = Ok a <-> exists k, py_index (length l) z = Some k /\ nth_error l k = Some a.
Proof.
  unfold np_get. destruct (py_index (length l) z) as [k|] eqn:E.
  - destruct (nth_error l k) eqn:E2; split.
    + intro H; injection H as <-; eauto.
    + intros [k' [Hk Ha]]; injection Hk as <-; congruence.
    + discriminate.
    + intros [k' [Hk Ha]]; injection Hk as <-; congruence.
  - split; [discriminate | intros [k [Hk _]]; discriminate].
Qed.

Lemma np_get_err {A} (l : list A) z e : np_get l z = Err e -> e = IndexError.
Proof.
  unfold np_get. destruct (py_index _ _); [destruct (nth_error _ _)|]; intro H; congruence.
Qed.

Lemma np_get_nat {A} (l : list A) k a :
  nth_error l k = Some a -> np_get l (Z.of_nat k) = Ok a.
Proof.
  intro H; apply np_get_ok; exists k; split; [|exact H].
  apply py_index_nat; eapply nth_error_Some_lt; eassumption.
Qed.

Lemma np_get_in_range {A} (l : list A) z :
  (exists a, np_get l z = Ok a) <-> (- Z.of_nat (length l) <= z < Z.of_nat (length l))%Z.
Proof.
  split.
  - intros [a H]. apply np_get_ok in H as [k [Hk _]]. apply py_index_Some in Hk. lia.
  - intro H. destruct (py_index (length l) z) as [k|] eqn:E.
    + assert (Hk := E). apply py_index_Some in Hk as [Hk _].
      destruct (nth_error_lt_Some l k Hk) as [a Ha]. exists a. apply np_get_ok; eauto.
    + apply py_index_None in E; lia.
Qed.

Lemma np_take_nth {A} (l : list A) idx l' :
  np_take l idx = Ok l' ->
  forall i, nth_error l' i =
    match nth_error idx i with
    | Some z => match py_index (length l) z with Some k => nth_error l k | None => None end
    | None => None
    end.
Proof.
  intros H i. unfold np_take in H. assert (Hn := mapM_nth_error _ _ _ i H).
  destruct (nth_error idx i); [|exact Hn].
  destruct Hn as [b [Hb ->]]. apply np_get_ok in Hb as [k [-> ->]]. reflexivity.
Qed.

Lemma np_take_length {A} (l : list A) idx l' : np_take l idx = Ok l' -> length l' = length idx.
Proof. apply mapM_length. Qed.

Lemma np_take_err {A} (l : list A) idx e : np_take l idx = Err e -> e = IndexError.
Proof. intro H. apply mapM_Err in H as [z [_ H]]. eapply np_get_err; eassumption. Qed.

(** Success only depends on the length of the array. *)
Lemma np_take_ok_iff {A} (l : list A) idx :
  (exists l', np_take l idx = Ok l') <->
  Forall (fun z => (- Z.of_nat (length l) <= z < Z.of_nat (length l))%Z) idx.
Proof.
  unfold np_take. induction idx as [|z idx IH]; cbn [mapM].
  - split; [constructor | eauto].
  - split.
    + intros [l' H]. inv_bind H. inv_bind H. constructor.
      * apply np_get_in_range; eauto.
      * apply IH; eauto.
    + intro H; inversion H as [|? ? Hz Hr]; subst.
      apply np_get_in_range in Hz as [a Ha]. apply IH in Hr as [l' Hl'].
      rewrite Ha; cbn. rewrite Hl'; cbn. eauto.
Qed.

Lemma np_take_ok_transfer {A B} (l : list A) (m : list B) idx l' :
  length m = length l -> np_take l idx = Ok l' -> exists m', np_take m idx = Ok m'.
Proof.
  intros Hlen H. apply np_take_ok_iff. rewrite Hlen. apply np_take_ok_iff; eauto.
Qed.

Lemma np_mask_spec {A} (l : list A) m l' :
  np_mask l m = Ok l' -> length m = length l /\ l' = map fst (filter snd (combine l m)).
Proof.
  unfold np_mask. destruct (Nat.eqb_spec (length m) (length l)); intro H; [|discriminate].
  injection H as <-; auto.
Qed.

Lemma filter_mask_length {A B} (l : list A) (m : list B) (k : list bool) :
  length l = length m ->
  length (map fst (filter snd (combine l k))) = length (map fst (filter snd (combine m k))).
Proof.
  revert m k; induction l as [|a l IH]; intros [|b m] [|c k]; cbn; try discriminate; auto.
  intro H; injection H as H. destruct c; cbn; rewrite (IH m k H); reflexivity.
Qed.

Lemma np_index_length {A B} (l : list A) (m : list B) ix l' m' :
  length l = length m -> np_index l ix = Ok l' -> np_index m ix = Ok m' -> length l' = length m'.
Proof.
  intros Hlen. destruct ix as [i|[|b k]]; cbn [np_index].
  - intros Hl Hm. apply np_take_length in Hl, Hm. lia.
  - intros Hl Hm; injection Hl as <-; injection Hm as <-; reflexivity.
  - intros Hl Hm. apply np_mask_spec in Hl as [_ ->], Hm as [_ ->].
    apply filter_mask_length; exact Hlen.
Qed.

Lemma np_index_ok_transfer {A B} (l : list A) (m : list B) ix l' :
  length m = length l -> np_index l ix = Ok l' -> exists m', np_index m ix = Ok m'.
Proof.
  intro Hlen. destruct ix as [i|[|b k]]; cbn [np_index].
  - apply np_take_ok_transfer; exact Hlen.
  - eauto.
  - unfold np_mask. rewrite Hlen. destruct (_ =? _)%nat; [eauto | discriminate].
Qed.

Lemma np_index_err {A} (l : list A) ix e : np_index l ix = Err e -> e = IndexError.
Proof.
  destruct ix as [i|[|b k]]; cbn [np_index].
  - apply np_take_err.
  - discriminate.
  - unfold np_mask. destruct (_ =? _)%nat; intro H; congruence.
Qed.

(** Taking a list of in-range naturals. *)
Lemma np_take_nat {A} (l : list A) (idx : list nat) :
  Forall (fun i => (i < length l)%nat) idx ->
  exists l', np_take l (map Z.of_nat idx) = Ok l' /\
    (forall p, nth_error l' p = match nth_error idx p with Some i => nth_error l i | None => None end).
Proof.
  intro H. destruct (proj2 (np_take_ok_iff l (map Z.of_nat idx))) as [l' Hl'].
  { rewrite Forall_forall in *. intros z Hz. apply in_map_iff in Hz as [i [<- Hi]].
    specialize (H i Hi). lia. }
  exists l'; split; [exact Hl'|]. intro p.
  rewrite (np_take_nth _ _ _ Hl' p), nth_error_map'.
  destruct (nth_error idx p) as [i|] eqn:E; cbn; [|reflexivity].
  rewrite py_index_nat; [reflexivity|].
  rewrite Forall_forall in H. apply H. eapply nth_error_In; eassumption.
Qed.

Lemma map_option_nth {A} (l : list A) (idx : list nat) (l' : list A) :
  (forall p, nth_error l' p = match nth_error idx p with Some i => nth_error l i | None => None end) ->
  Forall (fun i => (i < length l)%nat) idx ->
  map Some l' = map (nth_error l) idx.
Proof.
  intros Hn Hr. apply nth_error_ext; intro p. rewrite !nth_error_map', Hn.
  destruct (nth_error idx p) as [i|] eqn:E; cbn; [|reflexivity].
  destruct (nth_error l i) eqn:E2; [reflexivity|].
  exfalso. apply nth_error_None in E2. rewrite Forall_forall in Hr.
  apply nth_error_In in E. specialize (Hr i E). lia.
Qed.

Lemma map_nth_error_seq {A} (l : list A) : map (nth_error l) (seq 0 (length l)) = map Some l.
Proof.
  apply nth_error_ext; intro p. rewrite !nth_error_map', nth_error_seq.
  destruct (Nat.ltb_spec p (length l)) as [H|H]; cbn.
  - destruct (nth_error_lt_Some l p H) as [a ->]; reflexivity.
  - apply nth_error_None in H; rewrite H; reflexivity.
Qed.

Lemma map_Some_inj {A} (l1 l2 : list A) : map Some l1 = map Some l2 -> l1 = l2.
Proof.
  revert l2; induction l1 as [|a l1 IH]; intros [|b l2] H; cbn in H; try discriminate; auto.
  injection H as -> H; f_equal; auto.
Qed.

Lemma Permutation_map_Some {A} (l1 l2 : list A) :
  Permutation (map Some l1) (map Some l2) -> Permutation l1 l2.
Proof.
  intro H. apply Permutation_map_inv in H as [l3 [H3 H4]].
  apply map_Some_inj in H3. subst. symmetry. exact H4.
Qed.

Lemma perm_seq_range idx n : Permutation idx (seq 0 n) -> Forall (fun i => (i < n)%nat) idx.
Proof.
  intro H. rewrite Forall_forall; intros i Hi.
  apply (Permutation_in _ H) in Hi. apply in_seq in Hi. lia.
Qed.

(** Indexing with a permutation of all indices rearranges the array. *)
Lemma np_take_perm {A} (l : list A) (idx : list nat) :
  Permutation idx (seq 0 (length l)) ->
  exists l', np_take l (map Z.of_nat idx) = Ok l' /\ Permutation l' l /\
    (forall p, nth_error l' p = match nth_error idx p with Some i => nth_error l i | None => None end).
Proof.
  intro H. assert (Hr := perm_seq_range _ _ H).
  destruct (np_take_nat l idx Hr) as [l' [Hl' Hn]].
  exists l'; repeat split; auto.
  apply Permutation_map_Some. rewrite (map_option_nth l idx l' Hn Hr).
  rewrite <- (map_nth_error_seq l). apply Permutation_map. exact H.
Qed.

(** ** Sorting *)
Lemma insert_perm x l : Permutation (insert x l) (x :: l).
Proof.
  induction l as [|y l IH]; cbn; [reflexivity|].
  destruct (Rleb x y); [reflexivity|].
  rewrite IH. apply perm_swap.
Qed.

Lemma insert_sorted x l : StronglySorted Rle l -> StronglySorted Rle (insert x l).
Proof.
  induction 1 as [|y l Hs IH Hf]; cbn; [repeat constructor|].
  rewrite Forall_forall in Hf.
  destruct (Rleb_spec x y) as [H|H].
  - constructor; [constructor; auto; rewrite Forall_forall; auto|].
    rewrite Forall_forall; intros z [<-|Hz]; [exact H|]. specialize (Hf z Hz); lra.
  - constructor; [exact IH|]. rewrite Forall_forall; intros z Hz.
    apply (Permutation_in _ (insert_perm x l)) in Hz as [<-|Hz]; [lra | auto].
Qed.

Lemma np_sort_perm l : Permutation (np_sort l) l.
Proof.
  induction l as [|x l IH]; cbn; [reflexivity|]. rewrite insert_perm. constructor. exact IH.
Qed.

Lemma np_sort_sorted l : StronglySorted Rle (np_sort l).
Proof. induction l as [|x l IH]; cbn; [constructor|]. apply insert_sorted; exact IH. Qed.

Lemma np_sort_length l : length (np_sort l) = length l.
Proof. apply Permutation_length, np_sort_perm. Qed.

Lemma In_np_sort x l : In x (np_sort l) <-> In x l.
Proof.
  split; intro H; [eapply Permutation_in; [apply np_sort_perm | exact H] |
                   eapply Permutation_in; [symmetry; apply np_sort_perm | exact H]].
Qed.

Lemma np_sort_id l : StronglySorted Rle l -> np_sort l = l.
Proof.
  induction 1 as [|x l Hs IH Hf]; cbn; [reflexivity|]. fold (np_sort l). rewrite IH.
  destruct l as [|y l]; cbn; [reflexivity|].
  inversion Hf; subst. destruct (Rleb_spec x y); [reflexivity | contradiction].
Qed.

(** A sorted list is determined by its elements. *)
Lemma sorted_perm_eq l1 l2 :
  StronglySorted Rle l1 -> StronglySorted Rle l2 -> Permutation l1 l2 -> l1 = l2.
Proof.
  revert l2; induction l1 as [|a l1 IH]; intros l2 H1 H2 Hp.
  - apply Permutation_nil in Hp; congruence.
  - destruct l2 as [|b l2]; [symmetry in Hp; apply Permutation_nil in Hp; discriminate|].
    inversion H1 as [|? ? Hs1 Hf1]; inversion H2 as [|? ? Hs2 Hf2]; subst.
    rewrite Forall_forall in *.
    assert (a = b).
    { assert (Hab : In b (a :: l1)) by (eapply Permutation_in; [symmetry; exact Hp | left; reflexivity]).
      assert (Hba : In a (b :: l2)) by (eapply Permutation_in; [exact Hp | left; reflexivity]).
      destruct Hab as [->|Hab]; [reflexivity|]. destruct Hba as [->|Hba]; [reflexivity|].
      apply Rle_antisym; auto. }
    subst b. f_equal. apply IH; auto. eapply Permutation_cons_inv; exact Hp.
Qed.

Lemma np_sort_perm_eq l1 l2 : Permutation l1 l2 -> np_sort l1 = np_sort l2.
Proof.
  intro H. apply sorted_perm_eq; try apply np_sort_sorted.
  rewrite !np_sort_perm. exact H.
Qed.

(** ** argsort *)
Lemma insert_key_perm x l : Permutation (insert_key x l) (x :: l).
Proof.
  induction l as [|y l IH]; cbn; [reflexivity|].
  destruct (Rleb _ _); [reflexivity|]. rewrite IH. apply perm_swap.
Qed.

Definition key_le (a b : R * nat) := fst a <= fst b.

Lemma insert_key_sorted x l : StronglySorted key_le l -> StronglySorted key_le (insert_key x l).
Proof.
  induction 1 as [|y l Hs IH Hf]; cbn; [repeat constructor|].
  rewrite Forall_forall in Hf. unfold key_le in *.
  destruct (Rleb_spec (fst x) (fst y)) as [H|H].
  - constructor; [constructor; auto; rewrite Forall_forall; auto|].
    rewrite Forall_forall; intros z [<-|Hz]; [exact H|]. specialize (Hf z Hz); lra.
  - constructor; [exact IH|]. rewrite Forall_forall; intros z Hz.
    apply (Permutation_in _ (insert_key_perm x l)) in Hz as [<-|Hz]; [lra | auto].
Qed.

Lemma fold_insert_key_perm l : Permutation (fold_right insert_key [] l) l.
Proof. induction l; cbn; [reflexivity|]. rewrite insert_key_perm; constructor; assumption. Qed.
Lemma fold_insert_key_sorted l : StronglySorted key_le (fold_right insert_key [] l).
Proof. induction l; cbn; [constructor|]; apply insert_key_sorted; assumption. Qed.

Lemma stable_argsort_contract : argsort_contract stable_argsort.
Proof.
  intro keys. unfold stable_argsort.
  set (kl := map (fun p => (snd p, fst p)) (enumerate keys)).
  assert (Hkl : forall k i, In (k, i) kl -> nth_error keys i = Some k).
  { intros k i H. unfold kl in H. apply in_map_iff in H as [[i' k'] [E H]]; cbn in E.
    injection E as -> ->. apply In_enumerate; exact H. }
  split.
  - rewrite (Permutation_map snd (fold_insert_key_perm kl)).
    unfold kl. rewrite map_map; cbn. change (fun x : nat * R => fst x) with (@fst nat R).
    rewrite enumerate_map_fst. reflexivity.
  - intros p q i j ki kj Hpq Hp Hq Hi Hj.
    apply map_nth_error_Some in Hp as [[k1 i1] [Hp E1]]; cbn in E1; subst i1.
    apply map_nth_error_Some in Hq as [[k2 i2] [Hq E2]]; cbn in E2; subst i2.
    assert (Hs := proj1 (StronglySorted_nth _ _) (fold_insert_key_sorted kl) p q _ _ Hpq Hp Hq).
    unfold key_le in Hs; cbn in Hs.
    apply nth_error_In in Hp, Hq.
    apply (Permutation_in _ (fold_insert_key_perm kl)) in Hp, Hq.
    apply Hkl in Hp, Hq. congruence.
Qed.

Lemma argsort_length argsort keys : argsort_contract argsort -> length (argsort keys) = length keys.
Proof.
  intro H. destruct (H keys) as [Hp _]. apply Permutation_length in Hp.
  rewrite seq_length in Hp; exact Hp.
Qed.

Lemma argsort_range argsort keys :
  argsort_contract argsort -> Forall (fun i => (i < length keys)%nat) (argsort keys).
Proof. intro H. apply perm_seq_range. apply (proj1 (H keys)). Qed.

(** Keys read through their argsort are sorted. *)
Lemma argsort_take_sorted argsort keys keys' :
  argsort_contract argsort ->
  (forall p, nth_error keys' p =
     match nth_error (argsort keys) p with Some i => nth_error keys i | None => None end) ->
  StronglySorted Rle keys'.
Proof.
  intros Ha Hn. destruct (Ha keys) as [_ Hs]. apply StronglySorted_nth.
  intros p q a b Hpq Hp Hq. rewrite Hn in Hp, Hq.
  destruct (nth_error (argsort keys) p) as [i|] eqn:Ei; [|discriminate].
  destruct (nth_error (argsort keys) q) as [j|] eqn:Ej; [|discriminate].
  eapply Hs; eassumption.
Qed.

(** Inverse permutation: the argsort of a permutation inverts it. *)
Lemma argsort_of_perm_inverse argsort n (idx : list nat) :
  argsort_contract argsort -> Permutation idx (seq 0 n) ->
  forall p, (p < n)%nat ->
    exists i, nth_error (argsort (map INR idx)) p = Some i /\ nth_error idx i = Some p.
Proof.
  intros Ha Hp p Hlt.
  destruct (Ha (map INR idx)) as [Hperm Hs]. rewrite map_length in Hperm.
  assert (Hlen : length idx = n) by (rewrite (Permutation_length Hp); apply seq_length).
  set (srt := argsort (map INR idx)) in *.
  assert (Hsl : length srt = n) by (rewrite (Permutation_length Hperm), seq_length; exact Hlen).
  assert (Hrange : Forall (fun i => (i < length idx)%nat) srt) by (apply perm_seq_range; exact Hperm).
  destruct (np_take_nat idx srt Hrange) as [l' [_ Hn]].
  assert (Hl' : l' = seq 0 n).
  { assert (Hpl : Permutation l' (seq 0 n)).
    { apply Permutation_map_Some. rewrite (map_option_nth idx srt l' Hn Hrange).
      rewrite (Permutation_map (nth_error idx) Hperm), map_nth_error_seq.
      apply Permutation_map; exact Hp. }
    assert (Hsorted : StronglySorted Rle (map INR l')).
    { apply StronglySorted_nth. intros a b x y Hab Hx Hy.
      apply map_nth_error_Some in Hx as [i' [Hx <-]]. apply map_nth_error_Some in Hy as [j' [Hy <-]].
      rewrite Hn in Hx, Hy.
      destruct (nth_error srt a) as [i|] eqn:Ei; [|discriminate].
      destruct (nth_error srt b) as [j|] eqn:Ej; [|discriminate].
      apply (Hs a b i j _ _ Hab Ei Ej).
      - rewrite nth_error_map', Hx; reflexivity.
      - rewrite nth_error_map', Hy; reflexivity. }
    assert (Hss : StronglySorted Rle (map INR (seq 0 n))).
    { apply StronglySorted_nth. intros a b x y Hab Hx Hy.
      apply map_nth_error_Some in Hx as [i' [Hx <-]]. apply map_nth_error_Some in Hy as [j' [Hy <-]].
      rewrite nth_error_seq in Hx, Hy.
      destruct (a <? n)%nat; [|discriminate]. destruct (b <? n)%nat; [|discriminate].
      injection Hx as <-; injection Hy as <-. apply le_INR; lia. }
    assert (E := sorted_perm_eq _ _ Hsorted Hss (Permutation_map INR Hpl)).
    clear - E. revert E. generalize (seq 0 n). induction l' as [|a l' IH]; intros [|b l] E; cbn in E; try discriminate; auto.
    assert (Ea : INR a = INR b) by congruence. assert (Et : map INR l' = map INR l) by congruence.
    apply INR_eq in Ea; subst. f_equal; auto. }
  specialize (Hn p). rewrite Hl', nth_error_seq in Hn.
  destruct (Nat.ltb_spec p n); [|lia].
  destruct (nth_error srt p) as [i|] eqn:Ei; [|discriminate].
  exists i; split; [reflexivity|]. symmetry; exact Hn.
Qed.

(** ** searchsorted *)
Lemma count_le_length {A} (p : A -> bool) l : (count p l <= length l)%nat.
Proof. unfold count. induction l as [|a l IH]; cbn; [lia|]. destruct (p a); cbn; lia. Qed.

(** On a sorted list a downward-closed test holds exactly on a prefix. *)
Lemma count_prefix (p : R -> bool) l :
  (forall x y, x <= y -> p y = true -> p x = true) ->
  StronglySorted Rle l ->
  forall i a, nth_error l i = Some a -> (p a = true <-> (i < count p l)%nat).
Proof.
  intros Hd Hs. unfold count. induction Hs as [|x l Hs IH Hf]; intros i a Ha.
  - destruct i; discriminate.
  - rewrite Forall_forall in Hf. cbn [filter].
    destruct (p x) eqn:Ex.
    + destruct i as [|i]; cbn in Ha |- *.
      * injection Ha as <-. split; [lia | auto].
      * rewrite (IH i a Ha). lia.
    + assert (Hn : filter p l = []).
      { apply filter_none. intros b Hb. destruct (p b) eqn:Eb; [|reflexivity].
        rewrite (Hd x b) in Ex; auto. }
      rewrite Hn. split; [|cbn; lia]. intro Hp.
      destruct i as [|i]; cbn in Ha; [congruence|].
      exfalso. apply nth_error_In in Ha. rewrite (Hd x a) in Ex; auto. discriminate.
Qed.

Lemma searchsorted_right_spec l x i a :
  StronglySorted Rle l -> nth_error l i = Some a -> (a <= x <-> (i < searchsorted_right l x)%nat).
Proof.
  intros Hs Ha. unfold searchsorted_right.
  rewrite <- (count_prefix (fun y => Rleb y x) l) with (a := a); auto.
  - rewrite Rleb_true; reflexivity.
  - intros u v Huv Hv. rewrite Rleb_true in *; lra.
Qed.

Lemma searchsorted_left_spec l x i a :
  StronglySorted Rle l -> nth_error l i = Some a -> (a < x <-> (i < searchsorted_left l x)%nat).
Proof.
  intros Hs Ha. unfold searchsorted_left.
  rewrite <- (count_prefix (fun y => Rltb y x) l) with (a := a); auto.
  - rewrite Rltb_true; reflexivity.
  - intros u v Huv Hv. rewrite Rltb_true in *; lra.
Qed.

(** ** unique *)
Definition val_lt (a b : R * nat) := fst a < fst b.

Lemma insert_unique_in x i l v k :
  StronglySorted val_lt l ->
  In (v, k) (insert_unique x i l) <-> (v = x /\ k = i) \/ (v <> x /\ In (v, k) l).
Proof.
  induction 1 as [|[y j] l Hs IH Hf]; cbn [insert_unique].
  - cbn. split; [intros [H|[]]; injection H as -> ->; auto | intros [[-> ->]|[_ []]]; auto].
  - rewrite Forall_forall in Hf. unfold val_lt in Hf; cbn in Hf.
    destruct (Rltb_spec x y) as [H|H]; [|destruct (Reqb_spec x y) as [H'|H']].
    + cbn [In]. split.
      * intros [E|[E|E]].
        -- injection E as -> ->; auto.
        -- injection E as <- <-. right; split; [lra | auto].
        -- right; split; [specialize (Hf _ E); cbn in Hf; lra | auto].
      * intros [[-> ->]|[Hv E]]; auto.
    + subst y. cbn [In]. split.
      * intros [E|E]; [injection E as -> ->; auto|].
        right; split; [specialize (Hf _ E); cbn in Hf; lra | auto].
      * intros [[-> ->]|[Hv [E|E]]]; auto. injection E as E _; congruence.
    + cbn [In]. rewrite IH. split.
      * intros [E|[E|[Hv E]]]; auto. injection E as <- <-. right; split; [congruence | auto].
      * intros [E|[Hv [E|E]]]; auto.
Qed.

Lemma insert_unique_sorted x i l :
  StronglySorted val_lt l -> StronglySorted val_lt (insert_unique x i l).
Proof.
  induction 1 as [|[y j] l Hs IH Hf]; cbn [insert_unique]; [repeat constructor|].
  rewrite Forall_forall in Hf. unfold val_lt in *; cbn in *.
  destruct (Rltb_spec x y) as [H|H]; [|destruct (Reqb_spec x y) as [H'|H']].
  - constructor; [constructor; auto; rewrite Forall_forall; auto|].
    rewrite Forall_forall; intros z [<-|Hz]; cbn; [exact H|]. specialize (Hf z Hz); lra.
  - subst y. constructor; auto. rewrite Forall_forall; auto.
  - constructor; [exact IH|]. rewrite Forall_forall; intros [v k] Hz.
    apply (insert_unique_in x i l v k Hs) in Hz as [[-> ->]|[_ Hz]]; cbn; [lra|].
    apply (Hf _ Hz).
Qed.

(** [unique_spec l u]: [u] lists the distinct values of [l], ascending, with first indices. *)
Lemma np_unique_sorted l : StronglySorted val_lt (np_unique_index l).
Proof.
  unfold np_unique_index. induction (enumerate l) as [|[i x] e IH]; cbn; [constructor|].
  apply insert_unique_sorted; exact IH.
Qed.

Lemma fold_unique_in (e : list (nat * R)) v k :
  (forall p q a b, (p < q)%nat -> nth_error e p = Some a -> nth_error e q = Some b -> (fst a < fst b)%nat) ->
  In (v, k) (fold_right (fun p acc => insert_unique (snd p) (fst p) acc) [] e) <->
  (In (k, v) e /\ forall k', In (k', v) e -> (k <= k')%nat).
Proof.
  induction e as [|[i x] e IH]; intros Hinc; cbn [fold_right fst snd].
  - cbn; tauto.
  - assert (Hinc' : forall p q a b, (p < q)%nat -> nth_error e p = Some a ->
                     nth_error e q = Some b -> (fst a < fst b)%nat)
      by (intros p q a b Hpq Ha Hb; apply (Hinc (S p) (S q) a b); auto; lia).
    assert (Hgt : forall k' v', In (k', v') e -> (i < k')%nat).
    { intros k' v' Hin. apply In_nth_error in Hin as [q Hq].
      exact (Hinc 0%nat (S q) (i, x) (k', v') ltac:(lia) eq_refl Hq). }
    assert (Hsorted : StronglySorted val_lt
              (fold_right (fun p acc => insert_unique (snd p) (fst p) acc) [] e)).
    { clear. induction e as [|[j y] e IHe]; cbn; [constructor|]. apply insert_unique_sorted; exact IHe. }
    rewrite insert_unique_in by exact Hsorted. rewrite (IH Hinc'). cbn [In]. split.
    + intros [[-> ->]|[Hv [Hin Hmin]]].
      * split; [auto|]. intros k' [E|E]; [injection E as <-; lia|]. specialize (Hgt _ _ E); lia.
      * split; [auto|]. intros k' [E|E]; [injection E as _ E; congruence | auto].
    + intros [[E|Hin] Hmin].
      * injection E as -> ->; auto.
      * destruct (Req_EM_T v x) as [->|Hv].
        -- exfalso. specialize (Hmin i (or_introl eq_refl)). specialize (Hgt _ _ Hin). lia.
        -- right; repeat split; auto.
Qed.

Lemma np_unique_in l v k :
  In (v, k) (np_unique_index l) <->
  nth_error l k = Some v /\ (forall k', nth_error l k' = Some v -> (k <= k')%nat).
Proof.
  unfold np_unique_index. rewrite fold_unique_in.
  - rewrite In_enumerate. split; intros [H1 H2]; split; auto; intros k' Hk';
      apply H2; apply In_enumerate; exact Hk'.
  - intros p q a b Hpq Ha Hb. rewrite enumerate_nth in Ha, Hb.
    destruct (nth_error l p); [|discriminate]. destruct (nth_error l q); [|discriminate].
    injection Ha as <-; injection Hb as <-; cbn; lia.
Qed.

(** Every value has a first occurrence. *)
Lemma first_occurrence (l : list R) k v :
  nth_error l k = Some v ->
  exists k0, nth_error l k0 = Some v /\ (k0 <= k)%nat /\
             (forall k', nth_error l k' = Some v -> (k0 <= k')%nat).
Proof.
  revert k; induction l as [|x l IH]; intros k Hk; [destruct k; discriminate|].
  destruct (Req_EM_T x v) as [->|Hx].
  - exists 0%nat; repeat split; auto; intros; lia.
  - destruct k as [|k]; cbn in Hk; [congruence|].
    destruct (IH k Hk) as [k0 [H1 [H2 H3]]]. exists (S k0); repeat split; auto; [lia|].
    intros [|k'] Hk'; cbn in Hk'; [congruence|]. specialize (H3 k' Hk'); lia.
Qed.

(** ** pairs / diff / cumsum *)
Lemma pairs_length {A} (l : list A) : length (pairs l) = (length l - 1)%nat.
Proof. unfold pairs. rewrite combine_length. destruct l as [|a l]; cbn [tl length]; lia. Qed.

Lemma pairs_nth {A} (l : list A) i :
  nth_error (pairs l) i =
  match nth_error l i, nth_error l (S i) with Some a, Some b => Some (a, b) | _, _ => None end.
Proof.
  unfold pairs. rewrite nth_error_combine. destruct l as [|x l]; cbn [tl].
  - destruct i; reflexivity.
  - reflexivity.
Qed.

Lemma cumsum_from_length acc l : length (cumsum_from acc l) = length l.
Proof. revert acc; induction l; intro acc; cbn; auto. Qed.

(** ** interp *)
Lemma np_interp_length x xp fp l : np_interp x xp fp = Ok l -> length l = length x.
Proof.
  unfold np_interp. destruct (_ =? 0)%nat; [discriminate|].
  destruct (negb _); [discriminate|]. intro H; injection H as <-. apply map_length.
Qed.

Lemma slerp_length {Q} (seg : Q -> Q -> R -> Q) times rots x l :
  slerp seg times rots x = Ok l -> length l = length x.
Proof.
  unfold slerp. destruct (_ <=? 1)%nat; [discriminate|].
  destruct (negb _); [discriminate|]. destruct (negb _); [discriminate|]. apply mapM_length.
Qed.
