(** Angles of orientation deviations. *)
From Verif Require Import Base BaseFacts VecFacts NumpyModel TrajModel TrajSpec GeomModel GeomSpec GeomFacts GeomFacts2 EvalModel EvalSpec EvalFacts EvalFacts4 EvalStats AngModel AngSpec AngFacts.

Section Angles.
  Context {Q : Type} (ops : rot_ops Q) (rv : Q -> V3).
  Hypothesis C : rot_contract ops.
  Hypothesis V : rotvec_contract ops rv.

  Lemma rotangle_turn q : exists u, vdot u u = 1 /\ 0 <= rotangle rv q <= PI /\ as_matrix ops q = turn u (rotangle rv q).
  Proof.
    destruct (V q) as (u & a & U & A & E & M). exists u. assert (rotangle rv q = a); [|subst; auto].
    unfold rotangle. rewrite E, vnorm_scale, Rabs_pos_eq by lra. unfold vnorm. rewrite U, sqrt_1. ring.
  Qed.
  Lemma rotangle_angle q : angle_of (as_matrix ops q) (rotangle rv q).
  Proof. destruct (rotangle_turn q) as (u & U & A & M). split; [exact A|]. rewrite M at 1. apply turn_trace, U. Qed.
  Lemma rotangle_trace p q : mtrace (as_matrix ops p) = mtrace (as_matrix ops q) -> rotangle rv p = rotangle rv q.
  Proof. intro E. apply (angle_unique (as_matrix ops p)); [apply rotangle_angle|]. destruct (rotangle_angle q) as [A B]. split; [exact A|]. lra. Qed.
  Lemma rotangle_mul p q r : as_matrix ops r = mmul (as_matrix ops p) (as_matrix ops q) -> rotangle rv r <= rotangle rv p + rotangle rv q.
  Proof.
    intro E. destruct (rotangle_turn p) as (u & U & A & M). destruct (rotangle_turn q) as (v & W & B & N). assert (K := rotangle_angle r). rewrite E, M, N in K.
    exact (turn_triangle u v _ _ _ U W A B K).
  Qed.

  (** The angles of a comparison *)
  Lemma compare_angles test ref q q' : consistent test -> consistent ref -> tlen test = tlen ref -> rot ref = Some q -> rot test = Some q' ->
    exists r d, compare_absolute ops test ref = Ok r /\ rot_dev r = Some d /\ length d = tlen ref /\ length (pos_dev r) = tlen ref /\
      forall i a b, nth_error q i = Some a -> nth_error q' i = Some b -> nth_error d i = Some (rot_sub ops a b).
  Proof.
    intros Ct Cr L E E'. destruct (compare_absolute_ok ops test ref Ct Cr L) as (r & K & _ & _ & LP & _ & _ & _ & _ & H). rewrite E, E' in H. destruct H as (d & Ed & Ld & Hd). exists r, d. auto.
  Qed.
End Angles.

(** ** Errors of three trajectories *)
Lemma forall2_nth (l m : list R) : length l = length m -> (forall i a b, nth_error l i = Some a -> nth_error m i = Some b -> a <= b) -> Forall2 Rle l m.
Proof.
  revert m. induction l as [|x l IH]; intros [|y m] L H; try discriminate L; constructor.
  - exact (H 0%nat x y eq_refl eq_refl).
  - apply IH; [injection L as L; exact L|]. intros i a b A B. exact (H (S i) a b A B).
Qed.
Lemma zipw_nth l m i c : nth_error (zipw Rplus l m) i = Some c -> exists a b, nth_error l i = Some a /\ nth_error m i = Some b /\ c = a + b.
Proof.
  unfold zipw. rewrite nth_error_map'. destruct (nth_error (combine l m) i) as [[a b]|] eqn:E; [|discriminate]. cbn. intros [= <-]. exists a, b. 
  destruct (nth_error l i) as [a'|] eqn:A; [|apply nth_error_None in A; assert (K := nth_error_Some_lt _ _ _ E); rewrite combine_length in K; lia].
  destruct (nth_error m i) as [b'|] eqn:B; [|apply nth_error_None in B; assert (K := nth_error_Some_lt _ _ _ E); rewrite combine_length in K; lia].
  rewrite (nth_error_combine_some _ _ i a' b' A B) in E. injection E as -> ->. auto.
Qed.

Lemma error_triangle l m s : l <> [] -> length m = length l -> length s = length l -> (forall y, In y l \/ In y m \/ In y s -> 0 <= y) ->
  (forall i a b c, nth_error l i = Some a -> nth_error m i = Some b -> nth_error s i = Some c -> c <= a + b) ->
  exists ml mm ms ql qm qs hl hm hs,
    np_mean l = Some ml /\ np_mean m = Some mm /\ np_mean s = Some ms /\ ms <= ml + mm /\
    rms l = Some ql /\ rms m = Some qm /\ rms s = Some qs /\ qs <= ql + qm /\
    np_max l = Ok hl /\ np_max m = Ok hm /\ np_max s = Ok hs /\ hs <= hl + hm.
Proof.
  intros N Lm Ls P H. assert (Nm : m <> []) by (destruct l, m; cbn in *; congruence). assert (Ns : s <> []) by (destruct l, s; cbn in *; congruence).
  assert (K := len_pos l N). assert (LZ : length (zipw Rplus l m) = length l) by (unfold zipw; rewrite map_length, combine_length, Lm; apply Nat.min_id).
  assert (F : Forall2 Rle s (zipw Rplus l m)). { apply forall2_nth; [congruence|]. intros i c x A B. destruct (zipw_nth _ _ _ _ B) as (a & b & E1 & E2 & ->). eapply H; eassumption. }
  rewrite !np_mean_some by assumption. destruct (np_max_spec l N) as (hl & El & Gl). destruct (np_max_spec m Nm) as (hm & Em & Gm). destruct (np_max_spec s Ns) as (hs & Es & Gs).
  unfold rms. rewrite !np_mean_some by (apply map_nonempty; assumption). cbn [option_map]. rewrite !map_length, Lm, Ls.
  eexists _, _, _, _, _, _, _, _, _. split; [reflexivity|]. split; [reflexivity|]. split; [reflexivity|]. split.
  { rewrite <- Rdiv_plus_distr. unfold Rdiv. apply Rmult_le_compat_r; [left; apply Rinv_0_lt_compat, K|]. rewrite <- sum_plus by congruence. apply sum_le, F. }
  split; [reflexivity|]. split; [reflexivity|]. split; [reflexivity|]. split.
  { rewrite !sqrt_div_alt by exact K. rewrite <- Rdiv_plus_distr. unfold Rdiv. apply Rmult_le_compat_r; [left; apply Rinv_0_lt_compat, sqrt_lt_R0, K|].
    change (fun x => x * x) with sq. apply minkowski; [congruence|congruence| |exact F]. intros y Y. apply P. auto. }
  split; [exact El|]. split; [exact Em|]. split; [exact Es|]. destruct Gs as [Gs _]. apply In_nth_error in Gs as [i Gs].
  assert (I := nth_error_Some_lt _ _ _ Gs). destruct (nth_error_lt_Some l i ltac:(lia)) as [a A]. destruct (nth_error_lt_Some m i ltac:(lia)) as [b B].
  assert (T := H i a b hs A B Gs). destruct Gl as [_ Gl], Gm as [_ Gm]. specialize (Gl a (nth_error_In _ _ A)). specialize (Gm b (nth_error_In _ _ B)). lra.
Qed.
