(** Facts about the computations behind the plots. *)
From Verif Require Import Base BaseFacts GeomFacts2 NumpyModel NumpyFacts TrajModel EvalModel EvalSpec EvalStats PlotModel PlotSpec.

Lemma count_not {A} (p : A -> bool) l : (count p l + count (fun x => negb (p x)) l = length l)%nat.
Proof. unfold count. induction l as [|a l IH]; cbn; [reflexivity|]. destruct (p a); cbn; lia. Qed.

Lemma edf_nth devs i x y : nth_error (edf_points devs) i = Some (x, y) ->
  nth_error (np_sort devs) i = Some x /\ y = INR i / INR (length devs) /\ (i < length devs)%nat.
Proof.
  unfold edf_points. rewrite np_sort_length. intro H. assert (K := nth_error_Some_lt _ _ _ H). rewrite combine_length, np_sort_length, map_length, seq_length, Nat.min_id in K.
  destruct (nth_error (np_sort devs) i) as [a|] eqn:A; [|apply nth_error_None in A; rewrite np_sort_length in A; lia].
  assert (B : nth_error (map (fun j => INR j / INR (length devs)) (seq 0 (length devs))) i = Some (INR i / INR (length devs))).
  { apply (map_nth_error (fun j => INR j / INR (length devs))). rewrite (nth_error_nth' _ 0%nat) by (rewrite seq_length; exact K). now rewrite seq_nth by exact K. }
  rewrite (nth_error_combine_some _ _ i a _ A B) in H. injection H as <- <-. auto.
Qed.

Lemma sorted_counts devs i x : nth_error (np_sort devs) i = Some x ->
  (count (fun y => Rltb y x) devs <= i)%nat /\ (i < count (fun y => Rleb y x) devs)%nat.
Proof.
  intro H. assert (S := np_sort_sorted devs). rewrite StronglySorted_nth in S. assert (K := nth_error_Some_lt _ _ _ H).
  rewrite <- !(count_perm _ _ _ (np_sort_perm devs)). split.
  - assert (C := count_not (fun y => Rltb y x) (np_sort devs)).
    assert (G : (length (np_sort devs) - i <= count (fun y => negb (Rltb y x)) (np_sort devs))%nat); [|lia].
    apply count_suffix_ge. intros j a Hj Ha. replace (Rltb a x) with false; [reflexivity|]. symmetry. apply Rltb_false.
    destruct (Nat.eq_dec i j) as [<-|N]; [rewrite H in Ha; injection Ha as <-; lra|]. apply (S i j); [lia|assumption..].
  - apply count_prefix_ge; [lia|]. intros j a Hj Ha. apply Rleb_true.
    destruct (Nat.eq_dec j i) as [->|N]; [rewrite H in Ha; injection Ha as <-; lra|]. apply (S j i); [lia|assumption..].
Qed.

Lemma clip_in lo hi x : lo <= hi -> lo <= clip lo hi x <= hi.
Proof. intro H. unfold clip, Rmin, Rmax. repeat destruct Rle_dec; lra. Qed.
Lemma clip_id lo hi x : lo <= x <= hi -> clip lo hi x = x.
Proof. intros [A B]. unfold clip. rewrite Rmax_right by exact A. apply Rmin_right, B. Qed.

Lemma tick_set_in d k v k' v' : In (k', v') (tick_set d k v) -> In (k', v') d \/ (k' = k /\ v' = v).
Proof.
  induction d as [|[a b] d IH]; cbn; [intros [E|[]]; injection E as -> ->; auto|].
  destruct (Reqb a k) eqn:E; cbn; intros [H|H]; auto.
  - injection H as <- <-. apply Reqb_true in E. subst. auto.
  - destruct (IH H); auto.
Qed.
Lemma tick_set_key d k v : exists v', In (k, v') (tick_set d k v) .
Proof.
  induction d as [|[a b] d [v' IH]]; cbn; [exists v; auto|]. destruct (Reqb a k) eqn:E; [apply Reqb_true in E; subst; exists v; left; reflexivity|]. exists v'. right. exact IH.
Qed.
Lemma tick_set_keeps d k v k0 : (exists v0, In (k0, v0) d) -> exists v0, In (k0, v0) (tick_set d k v).
Proof.
  induction d as [|[a b] d IH]; cbn; intros [v0 H]; [destruct H|]. destruct (Reqb a k) eqn:E.
  - destruct H as [H|H]; [injection H as -> ->; exists v; left; reflexivity|exists v0; right; exact H].
  - destruct H as [H|H]; [exists v0; left; exact H|]. destruct IH as [v1 IH]; [exists v0; exact H|]. exists v1. right. exact IH.
Qed.

Section Ticks.
  Variables (s : cbar_settings) (shown : R -> string) (lo range : R).
  Let add d i := tick_set d (cbar_tick s lo range i) (tick_mark s i ++ shown (cbar_tick s lo range i)).

  Lemma ticks_in is d k v : In (k, v) (fold_left add is d) -> In (k, v) d \/ exists i, In i is /\ k = cbar_tick s lo range i /\ v = (tick_mark s i ++ shown k)%string.
  Proof.
    revert d. induction is as [|i is IH]; intros d H; [left; exact H|]. cbn in H. apply IH in H as [H|(j & J & K)]; [|right; exists j; split; [right; exact J|exact K]].
    apply tick_set_in in H as [H|[-> ->]]; [left; exact H|right; exists i; split; [left; reflexivity|auto]].
  Qed.
  Lemma ticks_have is d i : In i is -> exists v, In (cbar_tick s lo range i, v) (fold_left add is d).
  Proof.
    assert (KEEP : forall is d k, (exists v0, In (k, v0) d) -> exists v0, In (k, v0) (fold_left add is d)).
    { induction is0 as [|j js IH]; intros d0 k H; [exact H|]. cbn. apply IH, tick_set_keeps, H. }
    revert d. induction is as [|j js IH]; intros d H; [destruct H|]. cbn. destruct H as [->|H]; [|apply IH, H]. apply KEEP, tick_set_key.
  Qed.
End Ticks.

Lemma tick_between s lo range i : (0 < scatter_cbar_steps s)%nat -> (i <= scatter_cbar_steps s)%nat -> 0 <= range -> lo <= cbar_tick s lo range i <= lo + range.
Proof.
  intros N I P. unfold cbar_tick. assert (0 < INR (scatter_cbar_steps s)) by (apply lt_0_INR, N). assert (INR i <= INR (scatter_cbar_steps s)) by (apply le_INR, I). pose proof (pos_INR i).
  assert (A : 0 <= INR i / INR (scatter_cbar_steps s)) by (apply Rmult_le_pos; [lra|left; apply Rinv_0_lt_compat; lra]).
  assert (B : INR i / INR (scatter_cbar_steps s) <= 1) by (apply (Rmult_le_reg_r (INR (scatter_cbar_steps s))); [lra|]; unfold Rdiv; rewrite Rmult_assoc, Rinv_l; lra).
  split; [assert (0 <= INR i / INR (scatter_cbar_steps s) * range) by (apply Rmult_le_pos; assumption); lra|].
  assert (INR i / INR (scatter_cbar_steps s) * range <= 1 * range) by (apply Rmult_le_compat_r; assumption). lra.
Qed.
