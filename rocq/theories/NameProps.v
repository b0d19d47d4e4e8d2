(** Property C145: names of trajectories. *)
From Verif Require Import Base BaseFacts NumpyModel TrajModel TrajSpec ApproxModel ApproxFacts2 NameModel.
Open Scope string_scope.

Section Facts.
  Context {Q : Type} (loc : list V3 -> list V3).
  Lemma new_traj_name pos ep (r : option (list Q)) ts nm al sp so t : new_traj loc pos ep r ts nm al sp so = Ok t -> name t = nm.
  Proof.
    unfold new_traj. intro H. destruct (match r with Some q => _ | None => _ end); [discriminate|]. apply bind_ok in H as (v & _ & H). injection H as <-. reflexivity.
  Qed.
  Lemma new_traj_any_name pos ep (r : option (list Q)) ts nm nm' al sp so : new_traj loc pos ep r ts nm' al sp so =
    rmap (fun t => mkTraj (tstamps t) (xyz t) (rot t) (arc t) (speed t) (srt t) nm' (epsg t)) (new_traj loc pos ep r ts nm al sp so).
  Proof.
    unfold new_traj. destruct (match r with Some q => _ | None => _ end); [reflexivity|]. destruct (match sp with Some _ => _ | None => _ end); reflexivity.
  Qed.
  Lemma named n (c : creation Q) k r : create loc n c = (k, r) -> (n <= k)%nat /\ (forall t, r = Ok t -> k = Datatypes.S n /\ name t = if String.eqb (cr_name c) "" then "Trajectory " ++ show_nat n else cr_name c).
  Proof.
    unfold create. destruct (new_traj _ _ _ _ _ _ _ _ _) as [t|e] eqn:E; intro H; injection H as <- <-; split; try lia; [|discriminate].
    intros t' X. injection X as <-. split; [reflexivity|]. apply new_traj_name in E. exact E.
  Qed.
  (** The names given automatically carry numbers that were not used before. *)
  Lemma later_number : forall (cs : list (creation Q)) n i c t, nth_error cs i = Some c -> cr_name c = "" -> nth_error (creations loc n cs) i = Some (Ok t) ->
    exists k, (n <= k)%nat /\ name t = "Trajectory " ++ show_nat k.
  Proof.
    induction cs as [|c0 cs IH]; intros n i c t HC E HT; [destruct i; discriminate|]. cbn in HT. destruct (create loc n c0) as [n' r] eqn:C.
    destruct (named n c0 n' r C) as [L N]. destruct i as [|i]; cbn in HC, HT.
    - injection HC as ->. injection HT as ->. destruct (N t eq_refl) as [-> X]. exists n. rewrite E in X. split; [lia|exact X].
    - destruct (IH n' i c t HC E HT) as (k & K & X). exists k. split; [lia|exact X].
  Qed.
  Lemma prefix_inj a b : "Trajectory " ++ a = "Trajectory " ++ b -> a = b.
  Proof. intro H. cbn in H. injection H as H. exact H. Qed.
  Lemma distinct_names : forall (cs : list (creation Q)) n i j c d t u, (i < j)%nat -> nth_error cs i = Some c -> nth_error cs j = Some d -> cr_name c = "" -> cr_name d = "" ->
    nth_error (creations loc n cs) i = Some (Ok t) -> nth_error (creations loc n cs) j = Some (Ok u) -> name t <> name u.
  Proof.
    induction cs as [|c0 cs IH]; intros n i j c d t u L HC HD EC ED HT HU; [destruct i; discriminate|]. cbn in HT, HU. destruct (create loc n c0) as [n' r] eqn:C.
    destruct (named n c0 n' r C) as [_ N]. destruct j as [|j]; [lia|]. cbn in HD, HU. destruct i as [|i]; cbn in HC, HT.
    - injection HC as ->. injection HT as ->. destruct (N t eq_refl) as [-> X]. rewrite EC in X. cbn in X.
      destruct (later_number cs (Datatypes.S n) j d u HD ED HU) as (k & K & Y). intro Z. rewrite X, Y in Z. apply prefix_inj, show_nat_inj in Z. lia.
    - apply (IH n' i j c d t u); try assumption. lia.
  Qed.
End Facts.

(** Two trajectories that were created without a name, at any two moments of any history of creations (with and without
    names, successful or not), have different names. *)
Theorem C145_distinct_partial : forall Q loc (cs : list (creation Q)) i j c d t u,
  i <> j -> nth_error cs i = Some c -> nth_error cs j = Some d -> cr_name c = "" -> cr_name d = "" ->
  nth_error (creations loc first_counter cs) i = Some (Ok t) -> nth_error (creations loc first_counter cs) j = Some (Ok u) ->
  name t <> name u /\ name t <> "".
Proof.
  intros Q loc cs i j c d t u N HC HD EC ED HT HU. split.
  - destruct (Nat.lt_trichotomy i j) as [L|[E|L]]; [|contradiction|]; [apply (distinct_names loc cs first_counter i j c d t u)|intro X; symmetry in X; revert X; apply (distinct_names loc cs first_counter j i d c u t)]; assumption.
  - destruct (later_number loc cs first_counter i c t HC EC HT) as (k & _ & X). rewrite X. discriminate.
Qed.
Print Assumptions C145_distinct_partial.

(** A name that is given is kept, and nothing else depends on the names or on the history. *)
Theorem C145_given : forall Q loc (cs : list (creation Q)) i c r, nth_error cs i = Some c -> nth_error (creations loc first_counter cs) i = Some r ->
  (forall t, r = Ok t -> cr_name c <> "" -> name t = cr_name c) /\
  exists nm, r = new_traj loc (cr_pos c) (cr_epsg c) (cr_rot c) (cr_tstamps c) nm (cr_arc c) (cr_speed c) (cr_sorting c).
Proof.
  intros Q loc cs. generalize first_counter. induction cs as [|c0 cs IH]; intros n i c r HC HR; [destruct i; discriminate|]. cbn in HR. destruct (create loc n c0) as [n' r0] eqn:C. destruct i as [|i]; cbn in HC, HR.
  - injection HC as ->. injection HR as ->. split.
    + intros t E N. destruct (named loc n c n' r C) as [_ X]. destruct (X t E) as [_ ->]. destruct (String.eqb_spec (cr_name c) ""); [contradiction|reflexivity].
    + unfold create in C. destruct (new_traj _ _ _ _ _ _ _ _ _) as [t|e] eqn:E in C; injection C as <- <-; eexists; symmetry; exact E.
  - apply (IH n' i c r HC HR).
Qed.
Print Assumptions C145_given.

Definition untitled (nm : string) : creation nat := mkCreation [mkV3 0 0 0; mkV3 1 0 0] 0 None None nm None (Some [vzero; vzero]) SortTime.

(** REFUTED (the name of a trajectory created without one is new): it may be the name another one was given before. *)
Theorem C145_taken_refuted : exists t u, creations (fun p => p) first_counter [untitled "Trajectory 2"; untitled ""] = [Ok t; Ok u] /\ name t = name u.
Proof. eexists. eexists. split; [vm_compute; reflexivity|reflexivity]. Qed.
Print Assumptions C145_taken_refuted.

(** Without names, with a failing creation in between *)
Example C145_case : exists t u, creations (fun p => p) first_counter [untitled ""; mkCreation [vzero] 0 (Some [1; 2]%nat) None "" None None SortTime; untitled ""] = [Ok t; Err ValueError; Ok u] /\
  name t = "Trajectory 1" /\ name u = "Trajectory 2".
Proof. eexists. eexists. split; [unfold creations, create; cbn; reflexivity|]. split; reflexivity. Qed.
Print Assumptions C145_case.
