(** Property C146: results and settings. *)
From Verif Require Import Base BaseFacts ParamModel AliasModel.

(** No assignment to settings or to a result in between *)
Definition assigns {X D} (a : action X D) : bool := match a with SetSettings _ _ | SetResult _ _ => true | _ => false end.

Section Facts.
  Context {X D Out : Type} (align : est_settings -> X -> D -> result Out).
  Implicit Types o : objects X Out.
  Lemma update_length {A} (l : list A) i f : length (update l i f) = length l.
  Proof. revert i. induction l as [|a l IH]; intros [|i]; cbn; [reflexivity..|]. rewrite IH. reflexivity. Qed.
  Lemma update_other {A} (l : list A) i j f : i <> j -> nth_error (update l i f) j = nth_error l j.
  Proof. revert i j. induction l as [|a l IH]; intros [|i] [|j] N; cbn; try reflexivity; [congruence|]. apply IH. congruence. Qed.

  Definition well_formed o : Prop := Forall (fun s => (fst s < length (ests o))%nat) (setts o) /\ Forall (fun r => (snd r < length (ests o))%nat) (outcomes o).
  (** Actions keep the outcomes and the addresses in place. *)
  Lemma act_grows o a : well_formed o -> well_formed (act align o a) /\ (exists s, setts (act align o a) = setts o ++ s) /\ (exists r, outcomes (act align o a) = outcomes o ++ r) /\
    (exists e, length (ests (act align o a)) = (length (ests o) + e)%nat).
  Proof.
    intros [W1 W2]. assert (Z : well_formed o /\ (exists s, setts o = setts o ++ s) /\ (exists r, outcomes o = outcomes o ++ r) /\ (exists e, length (ests o) = (length (ests o) + e)%nat)).
    { split; [split; assumption|]. split; [exists []; rewrite app_nil_r; reflexivity|]. split; [exists []; rewrite app_nil_r; reflexivity|]. exists 0%nat. lia. }
    destruct a as [e x|s d|s f|i f]; cbn [act].
    - split; [split; cbn; rewrite ?app_length; cbn|].
      + apply Forall_app. split; [eapply Forall_impl; [|exact W1]; cbn; intros; lia|]. constructor; [cbn; lia|constructor].
      + eapply Forall_impl; [|exact W2]; cbn; intros; lia.
      + cbn. split; [eexists; reflexivity|]. split; [exists []; rewrite app_nil_r; reflexivity|]. exists 1%nat. rewrite app_length. reflexivity.
    - destruct (nth_error (setts o) _) as [[b x]|] eqn:S1; [|exact Z]. destruct (nth_error (ests o) b) as [e|] eqn:E; [|exact Z]. destruct (align e x d) as [r|err]; [|exact Z].
      split; [split; cbn|]. + exact W1. + apply Forall_app. split; [exact W2|]. constructor; [cbn; apply nth_error_Some; congruence|constructor].
      + cbn. split; [exists []; rewrite app_nil_r; reflexivity|]. split; [eexists; reflexivity|]. exists 0%nat. lia.
    - destruct (nth_error (setts o) s) as [[b x]|]; [|exact Z]. split; [split; cbn; rewrite update_length; assumption|]. cbn. rewrite update_length. exact (proj2 Z).
    - destruct (nth_error (outcomes o) i) as [[b x]|]; [|exact Z]. split; [split; cbn; rewrite update_length; assumption|]. cbn. rewrite update_length. exact (proj2 Z).
  Qed.
  Lemma acts_grows l : forall o, well_formed o -> well_formed (acts align o l) /\ (exists s, setts (acts align o l) = setts o ++ s) /\ (exists r, outcomes (acts align o l) = outcomes o ++ r).
  Proof.
    induction l as [|a l IH]; intros o W; [split; [exact W|]; split; exists []; rewrite app_nil_r; reflexivity|]. cbn. destruct (act_grows o a W) as (W1 & (s1 & S1) & (r1 & R1) & _).
    destruct (IH _ W1) as (W2 & (s2 & S2) & (r2 & R2)). split; [exact W2|]. unfold acts in S2, R2. rewrite S2, R2, S1, R1, <- !app_assoc. split; eexists; reflexivity.
  Qed.
  Lemma act_quiet o a : well_formed o -> assigns a = false -> exists e, ests (act align o a) = ests o ++ e.
  Proof.
    intros W A. destruct a as [e x|s d|s f|i f]; try discriminate; cbn [act]; [exists [e]; reflexivity|]. assert (Z : exists e, ests o = ests o ++ e) by (exists []; rewrite app_nil_r; reflexivity).
    destruct (nth_error (setts o) _) as [[b x]|]; [|exact Z]. destruct (nth_error (ests o) b) as [e|]; [|exact Z]. destruct (align e x d); exact Z.
  Qed.
  Lemma acts_quiet l : forall o, well_formed o -> forallb (fun a => negb (assigns a)) l = true -> exists e, ests (acts align o l) = ests o ++ e.
  Proof.
    induction l as [|a l IH]; intros o W Q; [exists []; rewrite app_nil_r; reflexivity|]. cbn in Q. apply andb_true_iff in Q as [Q1 Q2]. apply negb_true_iff in Q1. cbn.
    destruct (act_quiet o a W Q1) as (e1 & E1). destruct (IH _ (proj1 (act_grows o a W)) Q2) as (e2 & E2). unfold acts in E2. exists (e1 ++ e2). rewrite E2, E1, app_assoc. reflexivity.
  Qed.
  Lemma imported_well defaults x : well_formed (imported defaults x : objects X Out).
  Proof. split; cbn; repeat constructor. Qed.
  Lemma nth_app_keep {A} (l r : list A) i a : nth_error l i = Some a -> nth_error (l ++ r) i = Some a.
  Proof. intro H. rewrite nth_error_app1; [exact H|]. apply nth_error_Some. congruence. Qed.
End Facts.

(** The parameters of a result never change, whatever happens afterwards. *)
Theorem C146_parameters : forall X D Out (align : est_settings -> X -> D -> result Out) defaults x before after i r a,
  nth_error (outcomes (acts align (imported defaults x) before)) i = Some (r, a) ->
  nth_error (outcomes (acts align (imported defaults x) (before ++ after))) i = Some (r, a).
Proof.
  intros X D Out align defaults x before after i r a H. unfold acts. rewrite fold_left_app.
  destruct (acts_grows align before _ (imported_well defaults x)) as (W & _). destruct (acts_grows align after _ W) as (_ & _ & (r2 & R2)). unfold acts in R2, H. rewrite R2. apply nth_app_keep, H.
Qed.
Print Assumptions C146_parameters.

(** As long as nobody assigns to settings or results, an alignment without settings is made with the defaults, and every
    result says by which settings it was made. *)
Theorem C146_settings_partial : forall X D Out (align : est_settings -> X -> D -> result Out) defaults x before d after r,
  forallb (fun a => negb (assigns a)) (before ++ after) = true -> align defaults x d = Ok r ->
  let i := length (outcomes (acts align (imported defaults x) before)) in
  let o := acts align (imported defaults x) (before ++ Align None d :: after) in
  (exists a, nth_error (outcomes o) i = Some (r, a)) /\ estimation_of o i = Some defaults.
Proof.
  intros X D Out align defaults x before d after r Q E i o. rewrite forallb_app in Q. apply andb_true_iff in Q as [Q1 Q2].
  set (o1 := acts align (imported defaults x) before) in *. destruct (acts_grows align before _ (imported_well defaults x)) as (W & (s & S1) & _). fold o1 in W, S1.
  destruct (acts_quiet align before _ (imported_well defaults x) Q1) as (e & E1). fold o1 in E1.
  assert (A : act align o1 (Align None d) = mkObjects (ests o1) (setts o1) (outcomes o1 ++ [(r, 0%nat)])).
  { cbn [act]. rewrite S1. cbn. rewrite E1. cbn. rewrite E. reflexivity. }
  assert (OO : o = acts align (act align o1 (Align None d)) after).
  { unfold o, o1, acts. rewrite fold_left_app. reflexivity. }
  destruct (acts_grows align after _ (proj1 (act_grows align o1 (Align None d) W))) as (_ & _ & (r2 & R2)).
  destruct (acts_quiet align after _ (proj1 (act_grows align o1 (Align None d) W)) Q2) as (e2 & E2). rewrite <- OO in R2, E2. rewrite A in R2, E2. cbn in R2, E2.
  assert (N : nth_error (outcomes o) i = Some (r, 0%nat)).
  { rewrite R2. apply nth_app_keep. rewrite nth_error_app2; [|unfold i; fold o1; lia]. unfold i. fold o1. rewrite Nat.sub_diag. reflexivity. }
  split; [exists 0%nat; exact N|]. unfold estimation_of. rewrite N, E2, E1. reflexivity.
Qed.
Print Assumptions C146_settings_partial.

(** The same with settings of one's own. *)
Theorem C146_own_settings_partial : forall X D Out (align : est_settings -> X -> D -> result Out) defaults x before s a e y d after r,
  forallb (fun a => negb (assigns a)) after = true ->
  nth_error (setts (acts align (imported defaults x) before)) s = Some (a, y) -> nth_error (ests (acts align (imported defaults x) before)) a = Some e -> align e y d = Ok r ->
  let i := length (outcomes (acts align (imported defaults x) before)) in
  let o := acts align (imported defaults x) (before ++ Align (Some s) d :: after) in
  nth_error (outcomes o) i = Some (r, a) /\ estimation_of o i = Some e.
Proof.
  intros X D Out align defaults x before s a e y d after r Q2 S1 E1 E i o.
  set (o1 := acts align (imported defaults x) before) in *. destruct (acts_grows align before _ (imported_well defaults x)) as (W & _). fold o1 in W.
  assert (A : act align o1 (Align (Some s) d) = mkObjects (ests o1) (setts o1) (outcomes o1 ++ [(r, a)])).
  { cbn [act]. rewrite S1, E1, E. reflexivity. }
  assert (OO : o = acts align (act align o1 (Align (Some s) d)) after) by (unfold o, o1, acts; rewrite fold_left_app; reflexivity).
  destruct (acts_grows align after _ (proj1 (act_grows align o1 (Align (Some s) d) W))) as (_ & _ & (r2 & R2)).
  destruct (acts_quiet align after _ (proj1 (act_grows align o1 (Align (Some s) d) W)) Q2) as (e2 & E2). rewrite <- OO in R2, E2. rewrite A in R2, E2. cbn in R2, E2.
  assert (N : nth_error (outcomes o) i = Some (r, a)).
  { rewrite R2. apply nth_app_keep. rewrite nth_error_app2; [|unfold i; fold o1; lia]. unfold i. fold o1. rewrite Nat.sub_diag. reflexivity. }
  split; [exact N|]. unfold estimation_of. rewrite N, E2. apply nth_app_keep, E1.
Qed.
Print Assumptions C146_own_settings_partial.

Definition default_est : est_settings := mkEst true true true true true true false false true true true false false false false false.
Definition with_lever (e : est_settings) : est_settings :=
  mkEst (trans_x e) (trans_y e) (trans_z e) (rot_x e) (rot_y e) (rot_z e) (scale e) (time_shift e) (use_x_speed e) (use_y_speed e) (use_z_speed e) true true true (sensor_rotation e) (auto_update e).

(** REFUTED: assigning to a result changes what later alignments without settings estimate. *)
Theorem C146_default_refuted : forall X D Out (align : est_settings -> X -> D -> result Out) x d r r',
  align default_est x d = Ok r -> align (with_lever default_est) x d = Ok r' ->
  map fst (outcomes (acts align (imported default_est x) [Align None d; SetResult 0 with_lever; Align None d])) = [r; r'].
Proof. intros X D Out align x d r r' E E'. unfold acts. cbn. rewrite E. cbn. rewrite E'. reflexivity. Qed.
Print Assumptions C146_default_refuted.

(** REFUTED: a result says by which settings it was made only until these are changed for the next alignment. *)
Theorem C146_result_refuted : forall X D Out (align : est_settings -> X -> D -> result Out) x y d r r',
  align default_est y d = Ok r -> align (with_lever default_est) y d = Ok r' ->
  let o := acts align (imported default_est x) [NewSettings default_est y; Align (Some 1%nat) d; SetSettings 1 with_lever; Align (Some 1%nat) d] in
  map fst (outcomes o) = [r; r'] /\ estimation_of o 0 = Some (with_lever default_est) /\ with_lever default_est <> default_est.
Proof. intros X D Out align x y d r r' E E' o. unfold o, acts. cbn. rewrite E. cbn. rewrite E'. split; [reflexivity|]. split; [reflexivity|discriminate]. Qed.
Print Assumptions C146_result_refuted.

(** An alignment that counts the parameters it estimates *)
Definition counting (e : est_settings) (x : unit) (d : nat) : result nat := if leverarm_enabled e then Ok (3 + d)%nat else Ok d.
Example C146_case : map fst (outcomes (acts counting (imported default_est tt) [Align None 6%nat; SetResult 0 with_lever; Align None 6%nat])) = [6; 9]%nat /\
  estimation_of (acts counting (imported default_est tt) [NewSettings (with_lever default_est) tt; Align None 6%nat; Align (Some 1%nat) 5%nat]) 0 = Some default_est /\
  forallb (fun a => negb (assigns a)) [NewSettings (X := unit) (D := nat) (with_lever default_est) tt; Align (Some 1%nat) 5%nat] = true.
Proof. split; [reflexivity|]. split; reflexivity. Qed.
Print Assumptions C146_case.
