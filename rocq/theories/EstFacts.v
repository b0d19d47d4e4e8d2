(** Proofs about the adjustment loops. *)
From Verif Require Import Base BaseFacts NumpyModel ParamModel DataModel EstModel EstSpec.

Lemma exceeds_false d th : exceeds d th = false <-> not_beyond d th.
Proof.
  unfold not_beyond, within. destruct d as [r| |]; cbn.
  - rewrite Rltb_false. split; [intro H; left; exists r; split; [reflexivity|lra]|]. intros [[r' [[= <-] H]]|H]; [lra|discriminate].
  - split; [discriminate|]. intros [[r [H _]]|H]; discriminate.
  - split; [now right|reflexivity].
Qed.

Lemma any_exceeds_false u ths : any_exceeds u ths = false <-> settled ths u.
Proof.
  unfold any_exceeds, settled. split.
  - intros H i d th Hd Ht. apply exceeds_false. destruct (exceeds d th) eqn:E; [|reflexivity].
    rewrite <- H. symmetry. apply existsb_exists. exists (d, th). split; [|exact E].
    apply nth_error_In with i. now rewrite nth_error_combine, Hd, Ht.
  - intro H. destruct (existsb _ _) eqn:E; [|reflexivity]. apply existsb_exists in E as [[d th] [Hin E]].
    apply In_nth_error in Hin as [i Hi]. rewrite nth_error_combine in Hi.
    destruct (nth_error u i) as [d'|] eqn:U; [|discriminate]. destruct (nth_error ths i) as [th'|] eqn:T; [|discriminate].
    injection Hi as -> ->. assert (N := H i d th U T). apply exceeds_false in N. cbn in E. congruence.
Qed.
Lemma any_exceeds_true u ths : any_exceeds u ths = true <-> ~ settled ths u.
Proof. rewrite <- any_exceeds_false. destruct (any_exceeds u ths); split; congruence. Qed.

Lemma last_cons' {A} (l : list A) : forall x d, last (x :: l) d = last l x.
Proof.
  induction l as [|a r IH]; intros x d; [reflexivity|]. change (last (a :: r) d = last (a :: r) x). now rewrite !IH.
Qed.

Section Loops.
  Context {P L : Type} (s : solver P L) (ths : list R).

  Definition kept_data (d d' : adata) : Prop := a_est d' = a_est d /\ a_obs d' = a_obs d.

  Lemma iterate_spec : forall left p d w delta lin p' d' conv lin' tr,
    iterate s ths left p d w delta lin = Ok (p', d', conv, lin', tr) ->
    kept_data d d' /\ (length tr <= left)%nat /\ (tr = [] -> lin' = lin) /\ (tr <> [] -> lin' <> None) /\
    (conv = true <-> settled ths (last tr delta)) /\
    (conv = false -> length tr = left) /\
    (forall i u, nth_error (delta :: tr) i = Some u -> (i < length tr)%nat -> ~ settled ths u).
  Proof.
    induction left as [|left IH]; intros p d w delta lin p' d' conv lin' tr; cbn [iterate]; destruct (any_exceeds delta ths) eqn:E.
    - intros [= <- <- <- <- <-]. apply any_exceeds_true in E. cbn. repeat split; try reflexivity; try lia; try congruence.
      all: intros; try (exfalso; tauto); cbn in *; try tauto; try lia; try (intro; lia).
    - intros [= <- <- <- <- <-]. apply any_exceeds_false in E. cbn. repeat split; try reflexivity; try lia; try congruence.
      all: intros; try (exfalso; tauto); cbn in *; try tauto; try lia; try (intro; lia).
    - intro H. apply bind_ok in H as [l [_ H]]. apply bind_ok in H as [dl [_ H]]. apply bind_ok in H as [r [_ H]].
      apply bind_ok in H as [d1 [D1 H]]. apply bind_ok in H as [p1 [_ H]]. apply bind_ok in H as [f [_ H]]. apply bind_ok in H as [w1 [_ H]].
      apply bind_ok in H as [[[[[p2 d2] c2] l2] tr2] [X H]]. cbn in H. injection H as <- <- <- <- <-.
      apply IH in X as [[K1 K2] [X1 [X2 [X3 [X4 [X5 X6]]]]]]. apply any_exceeds_true in E.
      unfold set_res in D1. destruct (divisible _ _); [|discriminate]. injection D1 as <-. cbn in K1, K2.
      split; [now split|]. split; [cbn; lia|]. split; [discriminate|]. split.
      { intros _. destruct tr2; [now rewrite X2|apply X3; discriminate]. }
      split; [rewrite last_cons'; exact X4|]. split; [intro C; cbn; now rewrite X5|].
      intros [|i] u Hu Hi; [injection Hu as <-; exact E|]. cbn in Hu, Hi. apply (X6 i u); [exact Hu|lia].
    - intros [= <- <- <- <- <-]. apply any_exceeds_false in E. cbn. repeat split; try reflexivity; try lia; try congruence.
      all: intros; try (exfalso; tauto); cbn in *; try tauto; try lia; try (intro; lia).
  Qed.

  Lemma adjustment_spec p d p' d' conv tr : ths <> [] -> adjustment s ths p d = Ok (p', d', conv, tr) ->
    kept_data d d' /\ (1 <= length tr <= 16)%nat /\
    exists front final, tr = front ++ [final] /\ Forall (fun u => ~ settled ths u) front /\
      (conv = true <-> settled ths final) /\ (conv = false -> length tr = 16%nat).
  Proof.
    intros NE H. unfold adjustment in H. apply bind_ok in H as [w [_ H]]. apply bind_ok in H as [[[[[p1 d1] c1] l1] t1] [X H]].
    apply iterate_spec in X as [[K1 K2] [X1 [X2 [X3 [X4 [X5 X6]]]]]]. destruct l1 as [l|]; [|discriminate].
    apply bind_ok in H as [p2 [_ H]]. injection H as <- <- <- <-. cbn in K1, K2.
    assert (T1 : t1 <> []) by (intro N; specialize (X2 N); discriminate).
    split; [now split|]. assert (1 <= length t1)%nat by (destruct t1; [congruence|cbn; lia]). split; [lia|].
    destruct (exists_last T1) as [front [final ->]]. exists front, final. split; [reflexivity|].
    rewrite last_last in X4. split; [|split; assumption].
    apply Forall_forall. intros u Hu. apply In_nth_error in Hu as [i Hi]. assert (Li := nth_error_Some_lt _ _ _ Hi).
    apply (X6 (S i) u); [cbn; rewrite nth_error_app1; assumption|rewrite app_length; cbn; lia].
  Qed.

  Lemma recompute_spec (Hne : ths <> []) ve : forall left p d conv0 p' d' conv trs,
    recompute s ths ve (S left) p d conv0 = Ok (p', d', conv, trs) ->
    kept_data d d' /\ (1 <= length trs <= S left)%nat /\ (ve = false -> length trs = 1%nat) /\
    Forall (fun tr => 1 <= length tr <= 16)%nat trs /\
    exists before tr front final, trs = before ++ [tr] /\ tr = front ++ [final] /\ Forall (fun u => ~ settled ths u) front /\
      (conv = true <-> settled ths final) /\ (conv = false -> length tr = 16%nat).
  Proof.
    induction left as [|left IH]; intros p d conv0 p' d' conv trs H.
    - cbn [recompute] in H. apply bind_ok in H as [[[[p1 d1] c1] tr] [A H]]. apply bind_ok in H as [f [_ H]].
      apply (adjustment_spec _ _ _ _ _ _ Hne) in A as [[K1 K2] [LT [front [final [T [F [C1 C2]]]]]]].
      assert (E : kept_data d d' /\ conv = c1 /\ trs = [tr]).
      { destruct (negb ve); [injection H as <- <- <- <-; now split|]. destruct (off_one f).
        - cbn in H. injection H as <- <- <- <-. now split.
        - injection H as <- <- <- <-. now split. }
      destruct E as [K [-> ->]]. split; [exact K|]. split; [cbn; lia|]. split; [reflexivity|]. split; [constructor; [exact LT|constructor]|].
      exists [], tr, front, final. repeat split; tauto.
    - remember (S left) as m eqn:Em. cbn [recompute] in H. apply bind_ok in H as [[[[p1 d1] c1] tr] [A H]]. apply bind_ok in H as [f [_ H]].
      apply (adjustment_spec _ _ _ _ _ _ Hne) in A as [[K1 K2] [LT [front [final [T [F [C1 C2]]]]]]].
      assert (ONE : forall d2, kept_data d d2 -> Ok (p1, d2, c1, [tr]) = Ok (p', d', conv, trs) ->
        kept_data d d' /\ (1 <= length trs <= S m)%nat /\ (ve = false -> length trs = 1%nat) /\
        Forall (fun tr => 1 <= length tr <= 16)%nat trs /\
        exists before tr front final, trs = before ++ [tr] /\ tr = front ++ [final] /\ Forall (fun u => ~ settled ths u) front /\
          (conv = true <-> settled ths final) /\ (conv = false -> length tr = 16%nat)).
      { intros d2 K [= <- <- <- <-]. split; [exact K|]. split; [cbn; lia|]. split; [reflexivity|]. split; [constructor; [exact LT|constructor]|].
        exists [], tr, front, final. repeat split; tauto. }
      destruct ve; cbn [negb] in H; [|apply (ONE d1); [now split|exact H]].
      destruct (off_one f); [|eapply ONE; [|exact H]; now split].
      apply bind_ok in H as [[[[p2 d2] c2] tr2] [X H]]. cbn in H. injection H as <- <- <- <-.
      apply IH in X as [[K3 K4] [X1 [X2 [X3 [before [tr' [front' [final' [B [T' [F' [C3 C4]]]]]]]]]]]]. cbn in K3, K4.
      split; [split; congruence|]. split; [cbn; lia|]. split; [discriminate|]. split; [constructor; [exact LT|exact X3]|].
      exists (tr :: before), tr', front', final'. subst tr2. repeat split; tauto.
  Qed.
End Loops.
