(** Reading relative results from files that were cut off. *)
From Verif Require Import Base BaseFacts EstModel TextModel TextFacts HeaderModel HeaderFacts NumpyModel TrajModel GeomModel IoModel IoSpec IoFacts EvalModel RpeModel RpeSpec RpeFacts RpeFacts2 RpeFacts3 TornModel TornFacts CutModel CutSpec CutFacts.
Local Open Scope string_scope.

Lemma put_sources k b d e : In e (put k b d) -> snd e = b \/ In (snd e) (map snd d).
Proof.
  induction d as [|[k' b'] d IH]; cbn [put]; [intros [<-|[]]; left; reflexivity|].
  assert (In e ((k', b') :: put k b d) -> snd e = b \/ In (snd e) (map snd ((k', b') :: d))) as G.
  { intros [<-|I]; [right; left; reflexivity|]. destruct (IH I) as [H|H]; [left; exact H|right; right; exact H]. }
  destruct k as [x|]; [|exact G]. destruct k' as [y|]; [|exact G]. destruct (Reqb x y); [|exact G].
  intros [<-|I]; [left; reflexivity|]. right. right. apply in_map, I.
Qed.

Lemma zip2_nth a b i f : nth_error (zip2 a b) i = Some f -> nth_error a i = Some (nth 0 f 0) /\ nth_error b i = Some (nth 1 f 0).
Proof. revert b i. induction a as [|x a IH]; intros [|y b] [|i] H; cbn in H; try discriminate; [injection H as <-; split; reflexivity|]. apply (IH b i H). Qed.
Lemma zip3r_nth a b c i f : nth_error (zip3r a b c) i = Some f ->
  nth_error a i = Some (nth 0 f 0) /\ nth_error b i = Some (nth 1 f 0) /\ nth_error c i = Some (nth 2 f 0).
Proof. revert b c i. induction a as [|x a IH]; intros [|y b] [|z c] [|i] H; cbn in H; try discriminate; [injection H as <-; repeat split; reflexivity|]. apply (IH b c i H). Qed.

(** Columns from their values *)
Lemma firstn_nth_error {A} m (l : list A) i : (i < m)%nat -> nth_error (firstn m l) i = nth_error l i.
Proof. revert l i. induction m as [|m IH]; intros l i L; [lia|]. destruct l as [|x l]; [destruct i; reflexivity|]. destruct i as [|i]; [reflexivity|]. cbn. apply IH. lia. Qed.
Lemma forall2_nth (P : R -> R -> Prop) l x : length l = length x -> (forall i a b, nth_error l i = Some a -> nth_error x i = Some b -> P a b) -> Forall2 P l x.
Proof.
  revert x. induction l as [|a l IH]; intros [|b x] L H; cbn in L; try lia; constructor; [apply (H 0%nat); reflexivity|].
  apply IH; [lia|]. intros i a' b' A B. apply (H (S i)); assumption.
Qed.
Lemma near_forall2 l x : Forall2 near12 l x -> near_but_last l x.
Proof.
  intro F. split; [clear - F; induction F; cbn; congruence|]. intros i a b A B. left. revert i A B. induction F as [|u v l x N F IH]; intros [|i] A B; cbn in A, B; try discriminate; [congruence|]. apply (IH i A B).
Qed.

Section Cut2.
  Context (T : text_ops) (show12 : R -> string) (TC : text_contract T) (FC : format12 T show12).

  Lemma columns_near m (l x : list R) rows (j w : nat) : (m <= length rows)%nat -> length l = length rows -> length x = m ->
    (forall i f, nth_error rows i = Some f -> nth_error l i = Some (nth j f 0)) ->
    (forall i f y, nth_error rows i = Some f -> nth_error x i = Some y -> near12 (nth j f 0) y \/ (j = w - 1 /\ S i = m)%nat) ->
    near_but_last (firstn m l) x /\ (j <> (w - 1)%nat -> Forall2 near12 (firstn m l) x).
  Proof.
    intros LM LL LX C V. assert (length (firstn m l) = m) as LF by (rewrite firstn_length; lia).
    assert (forall i a y, nth_error (firstn m l) i = Some a -> nth_error x i = Some y -> near12 a y \/ (j = w - 1 /\ S i = m)%nat) as G.
    { intros i a y A Y. assert (i < m)%nat as LI by (apply nth_error_Some_lt in A; lia). rewrite firstn_nth_error in A by exact LI.
      destruct (nth_error rows i) as [f|] eqn:F; [|apply nth_error_None in F; lia]. rewrite (C i f F) in A. injection A as <-. apply (V i f y F Y). }
    split.
    - split; [congruence|]. intros i a y A Y. destruct (G i a y A Y) as [N|[_ N]]; [left; exact N|right; congruence].
    - intro NJ. apply forall2_nth; [congruence|]. intros i a y A Y. destruct (G i a y A Y) as [N|[N _]]; [exact N|contradiction].
  Qed.

  Notation begun := (begun show12).
  Definition width (rot : bool) : nat := length (names_of rot).

  Lemma block_rows_wide rot b : Forall (fun f => length f = width rot) (block_rows rot b).
  Proof. apply rows_width. Qed.

  Definition valued (j : nat) (got : list (list cell)) (x : list R) : Prop :=
    Forall2 (fun row y => exists v, nth j row None = Some v /\ number T v = Some (Fin y)) got x.
  Lemma valued_some j got x : valued j got x -> Forall (fun g => nth j g None <> None) got.
  Proof. induction 1 as [|g y got x [v [V _]] F IH]; constructor; [|exact IH]. intro N. assert (Some v = None :> cell) by (etransitivity; [symmetry; exact V|exact N]). discriminate. Qed.

  (** One block *)
  Lemma first_pairs_read rot b got x y z : fits rot b -> begun (width rot) (block_rows rot b) got ->
    valued 0 got x -> valued 1 got y -> (if rot then valued 2 got z else z = []) -> first_pairs b (mkBlock x y z).
  Proof.
    intros F B X Y Z. pose proof F as [LP LR]. pose proof (block_rows_length rot b F) as LB.
    assert (Forall (fun g => nth (width rot - 1) g None <> None) got) as NN by (destruct rot; [apply (valued_some _ _ _ Z)|apply (valued_some _ _ _ Y)]).
    pose proof (block_rows_wide rot b) as W.
    destruct (begun_column T show12 FC (width rot) 0 _ got x B W ltac:(destruct rot; cbn; lia) NN X) as (LX & LG & VX).
    destruct (begun_column T show12 FC (width rot) 1 _ got y B W ltac:(destruct rot; cbn; lia) NN Y) as (LY & _ & VY).
    rewrite LB in LG. exists (length got). split; [exact LG|]. cbn [b_dist b_pos b_rot].
    assert (forall i f, nth_error (block_rows rot b) i = Some f -> nth_error (b_dist b) i = Some (nth 0 f 0) /\ nth_error (b_pos b) i = Some (nth 1 f 0)) as C.
    { intros i f E. unfold block_rows in E. destruct rot; [apply zip3r_nth in E as (E1 & E2 & _); split; assumption|apply zip2_nth in E as (E1 & E2); split; assumption]. }
    destruct (columns_near (length got) (b_dist b) x (block_rows rot b) 0 (width rot) ltac:(lia) ltac:(lia) LX (fun i f E => proj1 (C i f E)) VX) as [_ D].
    destruct (columns_near (length got) (b_pos b) y (block_rows rot b) 1 (width rot) ltac:(lia) ltac:(lia) LY (fun i f E => proj2 (C i f E)) VY) as [P1 P2].
    split; [apply D; destruct rot; cbn; lia|]. split; [exact P1|]. destruct rot.
    - split; [intros _; apply P2; cbn; lia|]. destruct (begun_column T show12 FC (width true) 2 _ got z B W ltac:(cbn; lia) NN Z) as (LZ & _ & VZ).
      assert (forall i f, nth_error (block_rows true b) i = Some f -> nth_error (b_rot b) i = Some (nth 2 f 0)) as C2.
      { intros i f E. unfold block_rows in E. apply zip3r_nth in E as (_ & _ & E3). exact E3. }
      destruct (columns_near (length got) (b_rot b) z (block_rows true b) 2 (width true) ltac:(lia) ltac:(lia) LZ C2 VZ) as [Q1 _]. exact Q1.
    - split; [intro H; congruence|]. subst z. rewrite LR, firstn_nil. split; [reflexivity|]. intros [|i]; discriminate.
  Qed.

  (** All blocks *)
  Lemma blocks_read rot bs : Forall (fits rot) bs -> forall got d d',
    begun (width rot) (concat (map (block_rows rot) bs)) got ->
    read_blocks T (names_of rot) got (map (fun b => Z.of_nat (length (b_dist b))) bs) d = Ok (Some d') ->
    forall e, In e d' -> In (snd e) (map snd d) \/ exists b, In b bs /\ first_pairs b (snd e).
  Proof.
    induction 1 as [|b bs F FS IH]; intros got d d' B H e I; cbn [map read_blocks] in H.
    - injection H as <-. left. apply in_map, I.
    - cbn [map concat] in B. apply begun_split in B as [B1 B2]. rewrite (block_rows_length rot b F) in B1, B2. rewrite Nat2Z.id in H.
      apply bind_ok in H as [ds [DS H]]. apply bind_ok in H as [ps [PS H]]. apply bind_ok in H as [rs [RS H]].
      destruct (all_some (map finite ds)) as [x|] eqn:X; [|discriminate]. destruct (all_some (map finite ps)) as [y|] eqn:Y; [|discriminate]. destruct (all_some (map finite rs)) as [z|] eqn:Z; [|discriminate].
      destruct (IH _ _ _ B2 H e I) as [J|(b' & J & FP)]; [|right; exists b'; split; [right; exact J|exact FP]].
      apply in_map_iff in J as [e' [E J]]. apply put_sources in J as [J|J]; [|left; rewrite <- E; exact J].
      right. exists b. split; [left; reflexivity|]. rewrite <- E, J.
      destruct (column_read T _ _ _ _ _ DS X) as (j0 & J0 & C0). destruct (column_read T _ _ _ _ _ PS Y) as (j1 & J1 & C1).
      assert (j0 = 0%nat) as -> by (destruct rot; cbn in J0; congruence). assert (j1 = 1%nat) as -> by (destruct rot; cbn in J1; congruence).
      apply (first_pairs_read rot b _ x y z F B1 C0 C1). destruct rot.
      + change (member "rot_dev" (names_of true)) with true in RS. cbv iota in RS. destruct (column_read T _ _ _ _ _ RS Z) as (j2 & J2 & C2).
        assert (j2 = 2%nat) as -> by (cbn in J2; congruence). exact C2.
      + change (member "rot_dev" (names_of false)) with false in RS. injection RS as <-. cbn in Z. congruence.
  Qed.

  (** No rows *)
  Lemma nothing_read names counts : forall d d', read_blocks T names [] counts d = Ok (Some d') -> forall e, In e d' -> In (snd e) (map snd d) \/ snd e = mkBlock [] [] [].
  Proof.
    induction counts as [|z counts IH]; intros d d' H e I; cbn [read_blocks] in H; [injection H as <-; left; apply in_map, I|].
    rewrite firstn_nil, skipn_nil in H. apply bind_ok in H as [ds [DS H]]. apply bind_ok in H as [ps [PS H]]. apply bind_ok in H as [rs [RS H]].
    assert (forall nm l, frame_column T names [] nm = Ok l -> l = []) as N.
    { intros nm l E. unfold frame_column in E. destruct (index_of nm names); [|discriminate]. cbn in E. congruence. }
    apply N in DS as ->. apply N in PS as ->. assert (rs = []) as -> by (destruct (member "rot_dev" names); [apply (N _ _ RS)|congruence]). cbn [map all_some] in H.
    destruct (IH _ _ H e I) as [J|J]; [|right; exact J]. apply in_map_iff in J as [e' [E J]]. apply put_sources in J as [J|J]; [right; congruence|left; congruence].
  Qed.
  Lemma nothing_first b : first_pairs b (mkBlock [] [] []).
  Proof. exists 0%nat. cbn. split; [lia|]. split; [constructor|]. split; [split; [reflexivity|intros [|i]; discriminate]|]. split; [constructor|]. split; [reflexivity|intros [|i]; discriminate]. Qed.
End Cut2.
