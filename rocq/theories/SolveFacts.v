(** Gaussian elimination: a solver that meets both parts of the contract. *)
From Verif Require Import Base BaseFacts LsqModel LsqSpec LsqFacts SolveSpec GhmFacts.
From Coq Require Import Permutation.

(** Rows with their right hand sides *)
Definition system := list (list R * R).

(** The first row whose first entry is not zero, and the other rows *)
Fixpoint pick (rows : system) : option ((list R * R) * system) :=
  match rows with
  | [] => None
  | q :: rest =>
      if Req_EM_T (hd 0 (fst q)) 0
      then match pick rest with Some (p, others) => Some (p, q :: others) | None => None end
      else Some (q, rest)
  end.
Definition reduce (p q : list R * R) : list R * R :=
  let f := hd 0 (fst q) / hd 0 (fst p) in
  (vminus (tl (fst q)) (vtimes f (tl (fst p))), snd q - f * snd p).
Fixpoint eliminate (n : nat) (rows : system) : result (list R) :=
  match n with
  | O => Ok []
  | S k =>
      match pick rows with
      | None => Err ValueError
      | Some (p, others) =>
          let! y := eliminate k (map (reduce p) others) in
          Ok ((snd p - dot (tl (fst p)) y) / hd 0 (fst p) :: y)
      end
  end.
Definition gauss (N : mat) (b : vec) : result vec :=
  if shaped (length b) (length b) N then eliminate (length b) (combine N b) else Err ValueError.

Lemma pick_spec rows p others : pick rows = Some (p, others) -> hd 0 (fst p) <> 0 /\ Permutation rows (p :: others).
Proof.
  revert p others. induction rows as [|q rest IH]; intros p others H; [discriminate|]. cbn in H.
  destruct (Req_EM_T (hd 0 (fst q)) 0) as [Z|NZ].
  - destruct (pick rest) as [[p' o']|] eqn:E; [|discriminate]. injection H as <- <-. destruct (IH p' o' eq_refl) as [A B]. split; [exact A|].
    eapply perm_trans; [apply perm_skip, B | apply perm_swap].
  - injection H as <- <-. split; [exact NZ | apply Permutation_refl].
Qed.
Lemma pick_none rows : pick rows = None -> forall q, In q rows -> hd 0 (fst q) = 0.
Proof.
  induction rows as [|r rest IH]; intros H q I; [destruct I|]. cbn in H. destruct (Req_EM_T (hd 0 (fst r)) 0) as [Z|NZ].
  - destruct (pick rest) as [[p' o']|]; [discriminate|]. destruct I as [<-|I]; [exact Z | exact (IH eq_refl q I)].
  - discriminate.
Qed.

Lemma reduce_length n p q : length (fst p) = S n -> length (fst q) = S n -> length (fst (reduce p q)) = n.
Proof.
  intros Lp Lq. unfold reduce. cbn [fst]. destruct p as [[|p0 p] bp], q as [[|q0 q] bq]; cbn [fst tl length hd] in *; try discriminate.
  rewrite vminus_length by (rewrite vtimes_length; lia). lia.
Qed.
Lemma reduce_dot n p q y : length (fst p) = S n -> length (fst q) = S n -> length y = n -> hd 0 (fst p) <> 0 ->
  dot (fst (reduce p q)) y = dot (tl (fst q)) y - hd 0 (fst q) / hd 0 (fst p) * dot (tl (fst p)) y.
Proof.
  intros Lp Lq Ly NZ. unfold reduce. cbn [fst]. destruct p as [[|p0 p] bp], q as [[|q0 q] bq]; cbn [fst tl length hd] in *; try discriminate.
  rewrite dot_minus_l by (rewrite vtimes_length; lia). rewrite dot_times_l. reflexivity.
Qed.
Lemma dot_head r x0 y : (0 < length r)%nat -> dot r (x0 :: y) = hd 0 r * x0 + dot (tl r) y.
Proof. destruct r; cbn; [lia|]. reflexivity. Qed.

Lemma eliminate_sound n rows x : Forall (fun q => length (fst q) = n) rows -> length rows = n -> eliminate n rows = Ok x ->
  length x = n /\ forall q, In q rows -> dot (fst q) x = snd q.
Proof.
  revert rows x. induction n as [|n IH]; intros rows x F L H; cbn in H.
  - injection H as <-. destruct rows; [|discriminate]. split; [reflexivity|]. intros q [].
  - destruct (pick rows) as [[p others]|] eqn:E; [|discriminate]. apply bind_ok in H as [y [HY H]]. injection H as <-.
    destruct (pick_spec rows p others E) as [NZ PM].
    assert (F' : Forall (fun q => length (fst q) = S n) (p :: others)) by (apply (Permutation_Forall PM), F).
    assert (L' := Permutation_length PM). cbn in L'. inversion F' as [|? ? Lp Fo]; subst.
    assert (FR : Forall (fun q => length (fst q) = n) (map (reduce p) others)).
    { apply Forall_map. revert Fo. apply Forall_impl. intros q Lq. apply reduce_length; assumption. }
    destruct (IH (map (reduce p) others) y FR ltac:(rewrite map_length; lia) HY) as [LY S].
    split; [cbn; lia|]. intros q I. apply (Permutation_in q PM) in I.
    assert (Dp : dot (fst p) ((snd p - dot (tl (fst p)) y) / hd 0 (fst p) :: y) = snd p).
    { rewrite dot_head by lia. field. exact NZ. }
    destruct I as [<-|I]; [exact Dp|]. rewrite Forall_forall in Fo. assert (Lq := Fo q I).
    assert (K := S (reduce p q) (in_map _ _ _ I)). rewrite (reduce_dot n) in K by assumption. cbn [snd reduce] in K.
    rewrite dot_head by lia. set (z := (snd p - dot (tl (fst p)) y) / hd 0 (fst p)).
    assert (Ez : z * hd 0 (fst p) = snd p - dot (tl (fst p)) y) by (unfold z; field; exact NZ).
    assert (Eq : snd q = dot (tl (fst q)) y - hd 0 (fst q) / hd 0 (fst p) * dot (tl (fst p)) y + hd 0 (fst q) / hd 0 (fst p) * snd p) by lra.
    rewrite Eq. replace (snd p) with (z * hd 0 (fst p) + dot (tl (fst p)) y) by lra. field. exact NZ.
Qed.

Lemma eliminate_complete n rows : Forall (fun q => length (fst q) = n) rows -> length rows = n ->
  (forall y, length y = n -> (forall q, In q rows -> dot (fst q) y = 0) -> y = repeat 0 n) -> exists x, eliminate n rows = Ok x.
Proof.
  revert rows. induction n as [|n IH]; intros rows F L K; cbn; [eexists; reflexivity|].
  destruct (pick rows) as [[p others]|] eqn:E.
  - destruct (pick_spec rows p others E) as [NZ PM].
    assert (F' : Forall (fun q => length (fst q) = S n) (p :: others)) by (apply (Permutation_Forall PM), F).
    assert (L' := Permutation_length PM). cbn in L'. inversion F' as [|? ? Lp Fo]; subst.
    assert (FR : Forall (fun q => length (fst q) = n) (map (reduce p) others)).
    { apply Forall_map. revert Fo. apply Forall_impl. intros q Lq. apply reduce_length; assumption. }
    destruct (IH (map (reduce p) others) FR ltac:(rewrite map_length; lia)) as [y ->]; [|cbn; eexists; reflexivity].
    intros y Ly Hy. rewrite Forall_forall in Fo.
    assert (Z : - dot (tl (fst p)) y / hd 0 (fst p) :: y = repeat 0 (S n)).
    { apply K; [cbn; lia|]. intros q I. apply (Permutation_in q PM) in I. destruct I as [<-|I].
      - rewrite dot_head by lia. field. exact NZ.
      - assert (Lq := Fo q I). assert (D := Hy (reduce p q) (in_map _ _ _ I)). rewrite (reduce_dot n) in D by assumption.
        rewrite dot_head by lia. replace (dot (tl (fst q)) y) with (hd 0 (fst q) / hd 0 (fst p) * dot (tl (fst p)) y) by lra. field. exact NZ. }
    cbn in Z. injection Z as _ Z. exact Z.
  - exfalso. assert (Z : 1 :: repeat 0 n = repeat 0 (S n)).
    { apply K; [cbn; rewrite repeat_length; reflexivity|]. intros q I. rewrite Forall_forall in F. rewrite dot_head by (rewrite (F q I); lia).
      rewrite (pick_none rows E q I), dot_zeros_r. ring. }
    cbn in Z. injection Z as Z. lra.
Qed.

Lemma combine_rows (N : mat) (b : vec) n : length N = n -> length b = n -> Forall (fun r => length r = n) N ->
  Forall (fun q => length (fst q) = n) (combine N b) /\ length (combine N b) = n.
Proof.
  intros L1 L2 F. split; [|rewrite combine_length; lia]. apply Forall_forall. intros [r x] I. rewrite Forall_forall in F. apply F. apply in_combine_l in I. exact I.
Qed.

Lemma gauss_contract : solve_contract gauss.
Proof.
  intros N b x H. unfold gauss in H. destruct (shaped _ _ _) eqn:SH; [|discriminate]. apply shaped_spec in SH as [L F].
  destruct (combine_rows N b (length b) L eq_refl F) as [F' L'].
  destruct (eliminate_sound _ _ _ F' L' H) as [LX S]. split; [exact LX|]. clear - S L.
  revert b L S. induction N as [|r N IH]; intros [|y b] L S; try discriminate; [reflexivity|]. cbn. f_equal.
  - exact (S (r, y) (or_introl eq_refl)).
  - apply IH; [cbn in L; lia|]. intros q I. apply S. right. exact I.
Qed.
Lemma gauss_complete : solve_complete gauss.
Proof.
  intros n N b [[L F] K] Lb. unfold gauss. rewrite Lb.
  assert (SH : shaped n n N = true).
  { unfold shaped. rewrite L, Nat.eqb_refl. cbn. apply forallb_forall. intros r I. rewrite Forall_forall in F. rewrite (F r I). apply Nat.eqb_refl. }
  rewrite SH. destruct (combine_rows N b n L Lb F) as [F' L']. apply eliminate_complete; [exact F' | exact L'|].
  intros y Ly H. apply K; [exact Ly|]. clear - H L Lb. subst n. revert b Lb H. induction N as [|r N IH]; intros b Lb H; [reflexivity|].
  destruct b as [|z b]; [discriminate|]. cbn. f_equal.
  - exact (H (r, z) (or_introl eq_refl)).
  - apply (IH b); [cbn in Lb; lia|]. intros q I. apply H. right. exact I.
Qed.
