(** General lemmas about the common vocabulary. *)
From Verif Require Import Base.

Lemma Rleb_spec x y : reflect (x <= y) (Rleb x y).
Proof. unfold Rleb; destruct (Rle_dec x y); constructor; assumption. Qed.
Lemma Rltb_spec x y : reflect (x < y) (Rltb x y).
Proof. unfold Rltb; destruct (Rlt_dec x y); constructor; assumption. Qed.
Lemma Reqb_spec x y : reflect (x = y) (Reqb x y).
Proof. unfold Reqb; destruct (Req_EM_T x y); constructor; assumption. Qed.

Lemma Rleb_true x y : Rleb x y = true <-> x <= y.
Proof. destruct (Rleb_spec x y); split; intro; try congruence; auto; contradiction. Qed.
Lemma Rleb_false x y : Rleb x y = false <-> y < x.
Proof. destruct (Rleb_spec x y); split; intro; try congruence; auto; lra. Qed.
Lemma Rltb_true x y : Rltb x y = true <-> x < y.
Proof. destruct (Rltb_spec x y); split; intro; try congruence; auto; contradiction. Qed.
Lemma Rltb_false x y : Rltb x y = false <-> y <= x.
Proof. destruct (Rltb_spec x y); split; intro; try congruence; auto; lra. Qed.
Lemma Reqb_true x y : Reqb x y = true <-> x = y.
Proof. destruct (Reqb_spec x y); split; intro; try congruence; auto; contradiction. Qed.
Lemma Reqb_false x y : Reqb x y = false <-> x <> y.
Proof. destruct (Reqb_spec x y); split; intro; try congruence; auto; contradiction. Qed.
Lemma Reqb_refl x : Reqb x x = true.
Proof. apply Reqb_true; reflexivity. Qed.

(** Evaluate comparisons between concrete reals inside a goal. *)
Ltac rb1 :=
  match goal with
  | |- context [Rleb ?a ?b] =>
      first [ replace (Rleb a b) with true by (symmetry; apply Rleb_true; lra)
            | replace (Rleb a b) with false by (symmetry; apply Rleb_false; lra) ]
  | |- context [Rltb ?a ?b] =>
      first [ replace (Rltb a b) with true by (symmetry; apply Rltb_true; lra)
            | replace (Rltb a b) with false by (symmetry; apply Rltb_false; lra) ]
  | |- context [Reqb ?a ?b] =>
      first [ replace (Reqb a b) with true by (symmetry; apply Reqb_true; lra)
            | replace (Reqb a b) with false by (symmetry; apply Reqb_false; lra) ]
  end.
Ltac posnat1 :=
  match goal with
  | |- context [Pos.to_nat ?p] => let n := eval vm_compute in (Pos.to_nat p) in change (Pos.to_nat p) with n
  end.
Ltac rb := repeat (first [rb1 | posnat1]; cbn).

Lemma V3_eq a b : vx a = vx b -> vy a = vy b -> vz a = vz b -> a = b.
Proof. destruct a, b; cbn; intros; subst; reflexivity. Qed.
Ltac v3 := apply V3_eq; cbn.

(** ** results *)
Lemma bind_ok {A B} (r : result A) (f : A -> result B) b :
  bind r f = Ok b -> exists a, r = Ok a /\ f a = Ok b.
Proof. destruct r; cbn; [eauto | discriminate]. Qed.

Ltac inv_bind H :=
  let a := fresh "a" in let Ha := fresh "Ha" in
  apply bind_ok in H; destruct H as [a [Ha H]].

Lemma mapM_length {A B} (f : A -> result B) l l' : mapM f l = Ok l' -> length l' = length l.
Proof.
  revert l'; induction l as [|a l IH]; cbn; intros l' H.
  - injection H as <-; reflexivity.
  - inv_bind H; inv_bind H; injection H as <-; cbn; f_equal; auto.
Qed.

Lemma mapM_nth_error {A B} (f : A -> result B) l l' i :
  mapM f l = Ok l' ->
  match nth_error l i with
  | Some a => exists b, f a = Ok b /\ nth_error l' i = Some b
  | None => nth_error l' i = None
  end.
Proof.
  revert l' i; induction l as [|a l IH]; cbn; intros l' i H.
  - injection H as <-; destruct i; reflexivity.
  - inv_bind H; inv_bind H; injection H as <-.
    destruct i; cbn; [eauto | apply IH; assumption].
Qed.

Lemma mapM_ok_map {A B} (f : A -> result B) (g : A -> B) l :
  (forall a, In a l -> f a = Ok (g a)) -> mapM f l = Ok (map g l).
Proof.
  induction l as [|a l IH]; cbn; intros H; [reflexivity|].
  rewrite H by auto; cbn; rewrite IH; [reflexivity|]; intros; apply H; auto.
Qed.

Lemma mapM_Err {A B} (f : A -> result B) l e :
  mapM f l = Err e -> exists a, In a l /\ f a = Err e.
Proof.
  induction l as [|a l IH]; cbn; intros H; [discriminate|].
  destruct (f a) eqn:E; cbn in H.
  - destruct (mapM f l) eqn:E2; cbn in H; [discriminate|].
    injection H as ->; destruct IH as [a' [? ?]]; eauto.
  - injection H as ->; eauto.
Qed.

Lemma mapM_app {A B} (f : A -> result B) l1 l2 :
  mapM f (l1 ++ l2) = (let! a := mapM f l1 in let! b := mapM f l2 in Ok (a ++ b)).
Proof.
  induction l1 as [|x l1 IH]; cbn.
  - destruct (mapM f l2); reflexivity.
  - destruct (f x); cbn; [|reflexivity]. rewrite IH.
    destruct (mapM f l1); cbn; [|reflexivity]. destruct (mapM f l2); reflexivity.
Qed.

(** ** lists *)
Lemma nth_error_ext {A} (l1 l2 : list A) :
  (forall i, nth_error l1 i = nth_error l2 i) -> l1 = l2.
Proof.
  revert l2; induction l1 as [|a l1 IH]; intros l2 H.
  - destruct l2; [reflexivity | specialize (H 0%nat); discriminate].
  - destruct l2 as [|b l2]; [specialize (H 0%nat); discriminate|].
    f_equal; [specialize (H 0%nat); cbn in H; congruence|].
    apply IH; intro i; exact (H (S i)).
Qed.

Lemma nth_error_map' {A B} (f : A -> B) l i :
  nth_error (map f l) i = option_map f (nth_error l i).
Proof. revert i; induction l; intros [|i]; cbn; auto. Qed.

Lemma nth_error_seq s n i : nth_error (seq s n) i = if (i <? n)%nat then Some (s + i)%nat else None.
Proof.
  revert s i; induction n as [|n IH]; intros s i; cbn [seq].
  - destruct i; reflexivity.
  - destruct i as [|i]; cbn [nth_error].
    + cbn; f_equal; lia.
    + rewrite IH. replace (S i <? S n)%nat with (i <? n)%nat by reflexivity.
      destruct (i <? n)%nat; [f_equal; lia | reflexivity].
Qed.

Lemma nth_error_combine {A B} (l1 : list A) (l2 : list B) i :
  nth_error (combine l1 l2) i =
  match nth_error l1 i, nth_error l2 i with Some a, Some b => Some (a, b) | _, _ => None end.
Proof.
  revert l2 i; induction l1 as [|a l1 IH]; intros l2 i.
  - cbn. destruct i; reflexivity.
  - destruct l2 as [|b l2]; destruct i as [|i]; cbn; try reflexivity.
    + destruct (nth_error l1 i); reflexivity.
    + apply IH.
Qed.

Lemma enumerate_nth {A} (l : list A) i :
  nth_error (enumerate l) i = option_map (fun a => (i, a)) (nth_error l i).
Proof.
  unfold enumerate. rewrite nth_error_combine, nth_error_seq.
  destruct (Nat.ltb_spec i (length l)) as [H|H].
  - destruct (nth_error l i) eqn:E; reflexivity.
  - apply nth_error_None in H; rewrite H; reflexivity.
Qed.

Lemma enumerate_length {A} (l : list A) : length (enumerate l) = length l.
Proof. unfold enumerate. rewrite combine_length, seq_length. lia. Qed.

Lemma In_enumerate {A} (l : list A) i a : In (i, a) (enumerate l) <-> nth_error l i = Some a.
Proof.
  split.
  - intro H. apply In_nth_error in H as [k Hk]. rewrite enumerate_nth in Hk.
    destruct (nth_error l k) eqn:E; cbn in Hk; [|discriminate]. injection Hk as <- <-. exact E.
  - intro H. apply nth_error_In with (n := i). rewrite enumerate_nth, H. reflexivity.
Qed.

Lemma enumerate_map_fst {A} (l : list A) : map fst (enumerate l) = seq 0 (length l).
Proof.
  apply nth_error_ext; intro i. rewrite nth_error_map', enumerate_nth, nth_error_seq.
  destruct (Nat.ltb_spec i (length l)) as [H|H].
  - destruct (nth_error l i) eqn:E; [reflexivity|]. apply nth_error_None in E; lia.
  - apply nth_error_None in H; rewrite H; reflexivity.
Qed.

Lemma enumerate_map_snd {A} (l : list A) : map snd (enumerate l) = l.
Proof.
  apply nth_error_ext; intro i. rewrite nth_error_map', enumerate_nth.
  destruct (nth_error l i); reflexivity.
Qed.

Lemma combine_seq_shift {A} (l : list A) s :
  combine (seq (S s) (length l)) l = map (fun p => (S (fst p), snd p)) (combine (seq s (length l)) l).
Proof.
  revert s; induction l as [|a l IH]; intro s; cbn; [reflexivity|]. f_equal. apply IH.
Qed.

Lemma enumerate_cons {A} (a : A) l :
  enumerate (a :: l) = (0%nat, a) :: map (fun p => (S (fst p), snd p)) (enumerate l).
Proof. unfold enumerate. cbn. f_equal. apply combine_seq_shift. Qed.

Lemma filter_map {A B} (f : A -> B) (p : B -> bool) l :
  filter p (map f l) = map f (filter (fun a => p (f a)) l).
Proof. induction l as [|a l IH]; cbn; [reflexivity|]; destruct (p (f a)); cbn; rewrite IH; reflexivity. Qed.

Lemma filter_filter {A} (p q : A -> bool) l :
  filter p (filter q l) = filter (fun a => q a && p a) l.
Proof.
  induction l as [|a l IH]; cbn; [reflexivity|].
  destruct (q a); cbn; [destruct (p a)|]; cbn; rewrite IH; reflexivity.
Qed.

Lemma filter_true {A} (p : A -> bool) l : (forall a, In a l -> p a = true) -> filter p l = l.
Proof.
  induction l as [|a l IH]; cbn; intro H; [reflexivity|].
  rewrite H by auto. f_equal. apply IH; auto.
Qed.

Lemma filter_none {A} (p : A -> bool) l : (forall a, In a l -> p a = false) -> filter p l = [].
Proof.
  induction l as [|a l IH]; cbn; intro H; [reflexivity|].
  rewrite H by auto. apply IH; auto.
Qed.

Lemma Permutation_filter_split {A} (p : A -> bool) l :
  Permutation (filter p l ++ filter (fun a => negb (p a)) l) l.
Proof.
  induction l as [|a l IH]; cbn; [constructor|].
  destruct (p a); cbn; [constructor; exact IH|].
  etransitivity; [|constructor; exact IH].
  symmetry; apply Permutation_middle.
Qed.

Lemma StronglySorted_filter {A} (Rel : A -> A -> Prop) p l :
  StronglySorted Rel l -> StronglySorted Rel (filter p l).
Proof.
  induction 1 as [|a l Hs IH Hf]; cbn; [constructor|].
  destruct (p a); [|exact IH]. constructor; [exact IH|].
  rewrite Forall_forall in *; intros x Hx; apply filter_In in Hx; apply Hf; tauto.
Qed.

Lemma StronglySorted_app {A} (Rel : A -> A -> Prop) l1 l2 :
  StronglySorted Rel (l1 ++ l2) <->
  StronglySorted Rel l1 /\ StronglySorted Rel l2 /\ (forall a b, In a l1 -> In b l2 -> Rel a b).
Proof.
  induction l1 as [|a l1 IH]; cbn.
  - split; [intro H; repeat split; auto; try constructor; intros; contradiction | tauto].
  - split.
    + intro H; inversion H as [|? ? Hs Hf]; subst. apply IH in Hs as [H1 [H2 H3]].
      rewrite Forall_forall in Hf. repeat split; auto.
      * constructor; auto. rewrite Forall_forall; intros; apply Hf; apply in_or_app; auto.
      * intros x y [<-|Hx] Hy; [apply Hf; apply in_or_app; auto | auto].
    + intros [H1 [H2 H3]]; inversion H1 as [|? ? Hs Hf]; subst. constructor.
      * apply IH; repeat split; auto.
      * rewrite Forall_forall in *; intros x Hx; apply in_app_or in Hx as [Hx|Hx]; auto.
Qed.

Lemma StronglySorted_nth {A} (Rel : A -> A -> Prop) l :
  StronglySorted Rel l <->
  (forall i j a b, (i < j)%nat -> nth_error l i = Some a -> nth_error l j = Some b -> Rel a b).
Proof.
  induction l as [|x l IH].
  - split; [intros _ [|i] j a b ? H; discriminate | constructor].
  - split.
    + intro H; inversion H as [|? ? Hs Hf]; subst. rewrite Forall_forall in Hf.
      intros [|i] [|j] a b Hij Ha Hb; cbn in *; try lia.
      * injection Ha as ->. apply Hf. eapply nth_error_In; eassumption.
      * eapply (proj1 IH Hs i j); eauto; lia.
    + intro H; constructor.
      * apply IH; intros i j a b Hij Ha Hb; apply (H (S i) (S j) a b); auto; lia.
      * rewrite Forall_forall; intros y Hy; apply In_nth_error in Hy as [j Hj].
        apply (H 0%nat (S j) x y); auto; lia.
Qed.

Lemma nth_error_Some_lt {A} (l : list A) i a : nth_error l i = Some a -> (i < length l)%nat.
Proof. intro H; apply nth_error_Some; congruence. Qed.

Lemma nth_error_lt_Some {A} (l : list A) i : (i < length l)%nat -> exists a, nth_error l i = Some a.
Proof. intro H; destruct (nth_error l i) eqn:E; [eauto|]. apply nth_error_None in E; lia. Qed.

Lemma map_nth_error_Some {A B} (f : A -> B) l i b :
  nth_error (map f l) i = Some b <-> exists a, nth_error l i = Some a /\ f a = b.
Proof.
  rewrite nth_error_map'. destruct (nth_error l i); cbn; split.
  - intro H; injection H as <-; eauto.
  - intros [a' [Ha <-]]; congruence.
  - discriminate.
  - intros [a' [Ha _]]; discriminate.
Qed.

Lemma NoDup_nth_error_inj {A} (l : list A) i j a :
  NoDup l -> nth_error l i = Some a -> nth_error l j = Some a -> i = j.
Proof.
  intros Hn Hi Hj. rewrite NoDup_nth_error in Hn. apply Hn.
  - eapply nth_error_Some_lt; eassumption.
  - congruence.
Qed.
