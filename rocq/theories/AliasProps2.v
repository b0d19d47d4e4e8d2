(** Property C146, continued: settings objects do not share their contents. *)
From Verif Require Import Base BaseFacts ParamModel AliasModel AliasProps.

(** The estimation settings of a settings object *)
Definition settings_of {X Out} (o : objects X Out) (s : nat) : option est_settings :=
  match nth_error (setts o) s with Some (a, _) => nth_error (ests o) a | None => None end.

Section Separate.
  Context {X D Out : Type} (align : est_settings -> X -> D -> result Out).
  Implicit Types o : objects X Out.

  Lemma act_separate o a : well_formed o -> NoDup (map fst (setts o)) -> NoDup (map fst (setts (act align o a))).
  Proof.
    intros [W _] N. destruct a as [e x|s d|s f|i f]; cbn [act].
    - cbn. rewrite map_app. cbn. apply (NoDup_Add (a := length (ests o)) (l := map fst (setts o))).
      + replace (map fst (setts o) ++ [length (ests o)]) with (map fst (setts o) ++ length (ests o) :: []) by reflexivity. rewrite <- (app_nil_r (map fst (setts o))) at 1. apply Add_app.
      + split; [exact N|]. intro I. apply in_map_iff in I as (z & E & I). rewrite Forall_forall in W. specialize (W z I). lia.
    - destruct (nth_error (setts o) _) as [[b x]|]; [|exact N]. destruct (nth_error (ests o) b) as [e|]; [|exact N]. destruct (align e x d); exact N.
    - destruct (nth_error (setts o) s) as [[b x]|]; exact N.
    - destruct (nth_error (outcomes o) i) as [[b x]|]; exact N.
  Qed.
  Lemma acts_separate l : forall o, well_formed o -> NoDup (map fst (setts o)) -> NoDup (map fst (setts (acts align o l))).
  Proof.
    induction l as [|a l IH]; intros o W N; [exact N|]. cbn. apply IH; [apply act_grows, W|apply act_separate; assumption].
  Qed.
  Lemma update_same {A} (l : list A) i f a : nth_error l i = Some a -> nth_error (update l i f) i = Some (f a).
  Proof. revert i. induction l as [|b l IH]; intros [|i] H; try discriminate; cbn in *; [injection H as ->; reflexivity|apply IH, H]. Qed.
End Separate.

(** In every history: new settings have what they were given, an assignment to one settings object changes this one only, and what does not
    assign changes none. *)
Theorem C146_separate : forall X D Out (align : est_settings -> X -> D -> result Out) defaults x history,
  let o := acts align (imported defaults x) history in
  (forall e y, settings_of (act align o (NewSettings e y)) (length (setts o)) = Some e) /\
  (forall s f e, settings_of o s = Some e -> settings_of (act align o (SetSettings s f)) s = Some (f e)) /\
  (forall s f s', s <> s' -> settings_of (act align o (SetSettings s f)) s' = settings_of o s') /\
  (forall a s e, assigns a = false -> settings_of o s = Some e -> settings_of (act align o a) s = Some e).
Proof.
  intros X D Out align defaults x history o. destruct (acts_grows align history _ (imported_well defaults x)) as (W & _). fold o in W.
  assert (N : NoDup (map fst (setts o))) by (apply acts_separate; [apply imported_well|]; cbn; repeat constructor; intros []).
  split; [|split; [|split]].
  - intros e y. unfold settings_of. cbn. rewrite nth_error_app2, Nat.sub_diag by lia. cbn. rewrite nth_error_app2, Nat.sub_diag by lia. reflexivity.
  - intros s f e H. unfold settings_of in *. cbn. destruct (nth_error (setts o) s) as [[a z]|] eqn:E; [|discriminate]. cbn. rewrite E. apply update_same, H.
  - intros s f s' ND. unfold settings_of. cbn. destruct (nth_error (setts o) s) as [[a z]|] eqn:E; [|reflexivity]. cbn. destruct (nth_error (setts o) s') as [[a' z']|] eqn:E'; [|reflexivity].
    apply update_other. intros ->. apply ND. apply (proj1 (NoDup_nth_error (map fst (setts o))) N).
    + rewrite map_length. apply nth_error_Some. congruence.
    + rewrite !nth_error_map', E, E'. reflexivity.
  - intros a s e A H. destruct (act_grows align o a W) as (_ & (s2 & S2) & _). destruct (act_quiet align o a W A) as (e2 & E2). unfold settings_of in *. rewrite S2, E2.
    destruct (nth_error (setts o) s) as [[b z]|] eqn:E; [|discriminate]. rewrite (nth_app_keep _ _ _ _ E). apply nth_app_keep, H.
Qed.
Print Assumptions C146_separate.

Example C146_separate_case : let o := acts counting (imported default_est tt) [NewSettings default_est tt; Align (Some 1%nat) 5%nat] in
  settings_of o 0 = Some default_est /\ settings_of o 1 = Some default_est /\ settings_of (act counting o (SetSettings 1 with_lever)) 1 = Some (with_lever default_est) /\
  settings_of (act counting o (SetSettings 1 with_lever)) 0 = Some default_est.
Proof. repeat split. Qed.
Print Assumptions C146_separate_case.
