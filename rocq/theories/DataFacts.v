(** Lemmas about the observation vectors. *)
From Verif Require Import Base BaseFacts NumpyModel NumpyFacts TrajModel TrajSpec ParamModel DataModel DataSpec.

Local Arguments Nat.ltb : simpl never.
Local Arguments Nat.leb : simpl never.
Local Arguments leverarm_enabled : simpl never.
Local Arguments time_shift_enabled : simpl never.
Local Arguments num_obs_per_epoch : simpl never.

Lemma stride_count_eq m k i : (i < k)%nat -> stride_count (m * k) i k = m.
Proof.
  intro H. unfold stride_count. destruct m as [|m].
  - cbn. apply Nat.div_small. lia.
  - replace (S m * k - i + (k - 1))%nat with ((k - 1 - i) + S m * k)%nat by nia.
    rewrite Nat.div_add by lia. rewrite Nat.div_small by lia. lia.
Qed.

Lemma pos_lt i j k m : (i < k)%nat -> (j < m)%nat -> (i + k * j < m * k)%nat.
Proof. nia. Qed.
Lemma pos_mod i j k : (i < k)%nat -> ((i + k * j) mod k = i)%nat.
Proof. intro H. rewrite Nat.mul_comm, Nat.mod_add by lia. now apply Nat.mod_small. Qed.
Lemma pos_div i j k : (i < k)%nat -> ((i + k * j) / k = j)%nat.
Proof. intro H. rewrite Nat.mul_comm, Nat.div_add by lia. rewrite Nat.div_small; lia. Qed.

Lemma flat_map_some {A B} (f : A -> option B) (l : list A) : (forall a, In a l -> f a <> None) ->
  map Some (flat_map (fun a => match f a with Some x => [x] | None => [] end) l) = map f l.
Proof.
  induction l as [|a r IH]; intro H; [reflexivity|]. cbn. destruct (f a) eqn:E; [|exfalso; apply (H a); [now left|exact E]].
  cbn. f_equal. apply IH. intros a2 Ha2. apply H. now right.
Qed.

Lemma strided_spec {A} (l : list A) m k i : (i < k)%nat -> length l = (m * k)%nat ->
  length (strided l i k) = m /\ forall j, (j < m)%nat -> nth_error (strided l i k) j = nth_error l (i + k * j)%nat.
Proof.
  intros Hi HL. unfold strided. rewrite HL, stride_count_eq by exact Hi.
  assert (E := flat_map_some (fun j => nth_error l (i + k * j)%nat) (seq 0 m)).
  set (s := flat_map _ _) in *. cbv beta in E.
  assert (E' : map Some s = map (fun j => nth_error l (i + k * j)%nat) (seq 0 m)).
  { apply E. intros j Hj. apply in_seq in Hj. apply nth_error_Some. rewrite HL. apply pos_lt; lia. }
  assert (length s = m) as L. { apply (f_equal (@length _)) in E'. now rewrite !map_length, seq_length in E'. }
  split; [exact L|]. intros j Hj.
  assert (N : nth_error (map Some s) j = Some (nth_error l (i + k * j)%nat)).
  { rewrite E', nth_error_map', nth_error_seq. apply Nat.ltb_lt in Hj. now rewrite Hj. }
  rewrite nth_error_map' in N. destruct (nth_error s j); cbn in N; congruence.
Qed.

Lemma set_strided_spec {A} (l : list A) m k i vals : (i < k)%nat -> length l = (m * k)%nat -> length vals = m ->
  exists l', set_strided l i k vals = Ok l' /\ length l' = (m * k)%nat /\
    forall i' j, (i' < k)%nat -> (j < m)%nat ->
      nth_error l' (i' + k * j)%nat = if (i' =? i)%nat then nth_error vals j else nth_error l (i' + k * j)%nat.
Proof.
  intros Hi HL HV. unfold set_strided. rewrite HL, stride_count_eq, HV, Nat.eqb_refl by exact Hi. eexists. split; [reflexivity|].
  split; [now rewrite map_length, enumerate_length|].
  intros i' j Hi' Hj. rewrite nth_error_map'. rewrite enumerate_nth.
  destruct (nth_error_lt_Some l (i' + k * j)%nat) as [x Hx]; [rewrite HL; now apply pos_lt|]. rewrite Hx. cbn [option_map fst snd].
  destruct (Nat.eqb_spec i' i) as [->|NE].
  - replace (i <=? i + k * j)%nat with true by (symmetry; apply Nat.leb_le; lia).
    replace (i + k * j - i)%nat with (j * k)%nat by lia. rewrite Nat.mod_mul, Nat.div_mul by lia. cbn.
    destruct (nth_error_lt_Some vals j) as [v Hv]; [lia|]. now rewrite Hv.
  - destruct (Nat.leb_spec i (i' + k * j)) as [Hle|]; [|reflexivity]. cbn [andb].
    replace (((i' + k * j - i) mod k =? 0)%nat) with false; [reflexivity|]. symmetry. apply Nat.eqb_neq. intro Z.
    apply Nat.mod_divides in Z as [c Hc]; [|lia].
    assert (i' + k * j = i + k * c)%nat as X by lia.
    apply NE. rewrite <- (pos_mod i' j k Hi'), X. now apply pos_mod.
Qed.

Lemma set_columns_spec k m : forall cols v a, (a + length cols <= k)%nat -> length v = (m * k)%nat ->
  Forall (fun c => length c = m) cols ->
  exists v', set_columns k v a cols = Ok v' /\ length v' = (m * k)%nat /\
    forall i j, (i < k)%nat -> (j < m)%nat ->
      nth_error v' (i + k * j)%nat =
        if ((a <=? i) && (i <? a + length cols))%nat%bool
        then match nth_error cols (i - a) with Some c => nth_error c j | None => None end
        else nth_error v (i + k * j)%nat.
Proof.
  induction cols as [|c r IH]; intros v a Ha HL HF.
  - exists v. split; [reflexivity|]. split; [exact HL|]. intros i j Hi Hj. cbn [length].
    destruct (Nat.leb_spec a i); cbn [andb]; [|reflexivity]. destruct (Nat.ltb_spec i (a + 0)); [lia|reflexivity].
  - inversion HF as [|? ? Hc HF']; subst. cbn [length] in Ha.
    destruct (set_strided_spec v (length c) k a c) as [v1 [E1 [L1 N1]]]; [lia|exact HL|reflexivity|].
    destruct (IH v1 (S a)) as [v2 [E2 [L2 N2]]]; [lia|exact L1|exact HF'|].
    exists v2. cbn. rewrite E1. cbn. split; [exact E2|]. split; [exact L2|].
    intros i j Hi Hj. rewrite N2 by assumption.
    destruct (Nat.leb_spec (S a) i) as [H1|H1]; cbn [andb].
    + destruct (Nat.leb_spec a i); [|lia]. change (length (c :: r)) with (S (length r)). cbn [andb].
      destruct (Nat.ltb_spec i (S a + length r)) as [H2|H2].
      * destruct (Nat.ltb_spec i (a + S (length r))); [|lia].
        replace (i - a)%nat with (S (i - S a)) by lia. reflexivity.
      * destruct (Nat.ltb_spec i (a + S (length r))); [lia|]. rewrite N1 by assumption.
        destruct (Nat.eqb_spec i a); [lia|reflexivity].
    + rewrite N1 by assumption. destruct (Nat.eqb_spec i a) as [->|NE].
      * rewrite Nat.leb_refl, Nat.sub_diag. cbn [andb nth_error length]. destruct (Nat.ltb_spec a (a + S (length r))); [reflexivity|lia].
      * destruct (Nat.leb_spec a i); [lia|reflexivity].
Qed.

(** ** Places of the quantities in an epoch *)
Definition place (e : est_settings) (q : quantity) : nat :=
  match q with
  | FromX => 0 | FromY => 1 | FromZ => 2 | ToX => 3 | ToY => 4 | ToZ => 5
  | Roll => 6 | Pitch => 7 | Yaw => 8
  | SpeedX => if leverarm_enabled e then 9 else 6
  | SpeedY => if leverarm_enabled e then 10 else 7
  | SpeedZ => if leverarm_enabled e then 11 else 8
  end.

Lemma place_lt e q : observed e q -> (place e q < num_obs_per_epoch e)%nat.
Proof.
  unfold num_obs_per_epoch, observed, place. intro H. destruct (leverarm_enabled e), (time_shift_enabled e), q; try discriminate H; cbn; lia.
Qed.
Lemma place_inj e q q' : observed e q -> observed e q' -> place e q = place e q' -> q = q'.
Proof.
  unfold observed, place. intros H H' E.
  destruct (leverarm_enabled e), q, q'; try discriminate H; try discriminate H'; try discriminate E; reflexivity.
Qed.

Lemma group_some e g : available e g ->
  exists a b, observation_group e g = Some (a, b) /\ (b - a)%nat = length (parts g) /\ (a + length (parts g) <= num_obs_per_epoch e)%nat /\
    map (place e) (parts g) = seq a (length (parts g)).
Proof.
  intro H. unfold num_obs_per_epoch, available, observation_group in *.
  assert (H1 : In Roll (parts g) -> leverarm_enabled e = true) by apply (H Roll).
  assert (H2 : In Yaw (parts g) -> leverarm_enabled e = true) by apply (H Yaw).
  assert (H3 : In SpeedX (parts g) -> time_shift_enabled e = true) by apply (H SpeedX). clear H.
  destruct g; cbn [parts In] in H1, H2, H3; unfold place, parts; destruct (leverarm_enabled e), (time_shift_enabled e);
    try (exfalso; intuition discriminate); cbn; do 2 eexists; repeat split; cbn; try reflexivity; lia.
Qed.
Lemma group_none e g : ~ available e g -> observation_group e g = None.
Proof.
  intro H. unfold available in H. destruct g; cbn in *; try solve [exfalso; apply H; intros q Hq; cbn in Hq; intuition (subst; cbn; auto)].
  - destruct (leverarm_enabled e) eqn:L; [exfalso; apply H; intros q Hq; intuition (subst; cbn; auto)|reflexivity].
  - destruct (leverarm_enabled e) eqn:L; [exfalso; apply H; intros q Hq; intuition (subst; cbn; auto)|reflexivity].
  - destruct (leverarm_enabled e) eqn:L; [exfalso; apply H; intros q Hq; intuition (subst; cbn; auto)|reflexivity].
  - destruct (time_shift_enabled e) eqn:L; [exfalso; apply H; intros q Hq; intuition (subst; cbn; auto)|reflexivity].
Qed.
Lemma available_dec e g : {available e g} + {~ available e g}.
Proof.
  unfold available. destruct g; cbn;
  try solve [left; intros q Hq; intuition (subst; cbn; auto)].
  - destruct (leverarm_enabled e) eqn:L; [left; intros q Hq; intuition (subst; cbn; auto)|right; intro H; specialize (H Roll (or_introl eq_refl)); cbn in H; congruence].
  - destruct (leverarm_enabled e) eqn:L; [left; intros q Hq; intuition (subst; cbn; auto)|right; intro H; specialize (H Yaw (or_introl eq_refl)); cbn in H; congruence].
  - destruct (leverarm_enabled e) eqn:L; [left; intros q Hq; intuition (subst; cbn; auto)|right; intro H; specialize (H Roll (or_introl eq_refl)); cbn in H; congruence].
  - destruct (time_shift_enabled e) eqn:L; [left; intros q Hq; intuition (subst; cbn; auto)|right; intro H; specialize (H SpeedX (or_introl eq_refl)); cbn in H; congruence].
Qed.

Lemma k_pos e : (0 < num_obs_per_epoch e)%nat.
Proof. unfold num_obs_per_epoch. lia. Qed.

(** Reading a group: one column per quantity. *)
Lemma extract_spec e v g : available e g ->
  extract_from_vector e v g = Ok (map (fun q => strided v (place e q) (num_obs_per_epoch e)) (parts g)).
Proof.
  intro H. destruct (group_some e g H) as [a [b [E [L [_ P]]]]]. unfold extract_from_vector. rewrite E, L, <- P, map_map. reflexivity.
Qed.
Lemma extract_none e v g : ~ available e g -> extract_from_vector e v g = Err ValueError.
Proof. intro H. unfold extract_from_vector. now rewrite group_none. Qed.

Lemma set_spec e v g cols m : available e g -> length v = (m * num_obs_per_epoch e)%nat ->
  length cols = length (parts g) -> Forall (fun c => length c = m) cols ->
  exists v', set_vector_components e v cols g = Ok v' /\ length v' = length v /\
    forall q j, observed e q -> (j < m)%nat ->
      (forall i, nth_error (parts g) i = Some q ->
         nth_error v' (place e q + num_obs_per_epoch e * j)%nat = match nth_error cols i with Some c => nth_error c j | None => None end) /\
      (~ In q (parts g) -> nth_error v' (place e q + num_obs_per_epoch e * j)%nat = nth_error v (place e q + num_obs_per_epoch e * j)%nat).
Proof.
  intros HA HL HC HF. destruct (group_some e g HA) as [a [b [E [L [B P]]]]].
  unfold set_vector_components. rewrite E, L, HC, Nat.eqb_refl. cbn [negb].
  destruct (set_columns_spec (num_obs_per_epoch e) m cols v a) as [v' [E' [L' N]]]; [lia|exact HL|exact HF|].
  exists v'. split; [exact E'|]. split; [lia|]. intros q j Hq Hj.
  rewrite N by (try apply place_lt; assumption). rewrite HC.
  assert (PL : forall i, nth_error (parts g) i = Some q -> place e q = (a + i)%nat /\ (i < length (parts g))%nat).
  { intros i Hi. assert (nth_error (map (place e) (parts g)) i = Some (place e q)) as X by (now rewrite nth_error_map', Hi).
    rewrite P, nth_error_seq in X. destruct (Nat.ltb_spec i (length (parts g))); [injection X as X; lia|discriminate]. }
  split.
  - intros i Hi. destruct (PL i Hi) as [X Y]. rewrite X.
    destruct (Nat.leb_spec a (a + i)); [|lia]. destruct (Nat.ltb_spec (a + i) (a + length (parts g))); [|lia]. cbn.
    now replace (a + i - a)%nat with i by lia.
  - intro NI. destruct (Nat.leb_spec a (place e q)) as [H1|]; [|reflexivity]. cbn [andb].
    destruct (Nat.ltb_spec (place e q) (a + length (parts g))) as [H2|]; [|reflexivity]. exfalso. apply NI.
    assert (In (place e q) (map (place e) (parts g))) as X by (rewrite P; apply in_seq; lia).
    apply in_map_iff in X as [q' [X Y]]. apply place_inj in X; [now subst|now apply HA|exact Hq].
Qed.

Lemma set_err e v g cols : (~ available e g \/ length cols <> length (parts g)) -> set_vector_components e v cols g = Err ValueError.
Proof.
  intro H. destruct (available_dec e g) as [A|A].
  - destruct H as [H|H]; [contradiction|]. destruct (group_some e g A) as [a [b [E [L _]]]]. unfold set_vector_components.
    rewrite E, L. apply Nat.eqb_neq in H. now rewrite H.
  - unfold set_vector_components. now rewrite group_none.
Qed.

(** ** Reading after writing *)
Lemma read_after_write e v v' g cols m : length v = (m * num_obs_per_epoch e)%nat ->
  Forall (fun c => length c = m) cols -> set_vector_components e v cols g = Ok v' ->
  length v' = length v /\
  forall g' c q, available e g' -> nth_error (parts g') c = Some q ->
    exists new old, extract_from_vector e v' g' = Ok new /\ extract_from_vector e v g' = Ok old /\
      (forall i, nth_error (parts g) i = Some q -> nth_error new c = nth_error cols i) /\
      (~ In q (parts g) -> nth_error new c = nth_error old c).
Proof.
  intros HL HF HS.
  destruct (available_dec e g) as [A|A]; [|rewrite set_err in HS by (now left); discriminate].
  destruct (Nat.eq_dec (length cols) (length (parts g))) as [LC|LC]; [|rewrite set_err in HS by (now right); discriminate].
  destruct (set_spec e v g cols m A HL LC HF) as [v1 [E1 [L1 N1]]]. rewrite E1 in HS. injection HS as ->.
  split; [exact L1|]. intros g' c q A' Hc.
  assert (Hq : observed e q) by (apply A'; eapply nth_error_In; eauto).
  do 2 eexists. split; [apply extract_spec; exact A'|]. split; [apply extract_spec; exact A'|].
  rewrite !nth_error_map', Hc. cbn [option_map].
  destruct (strided_spec v' m (num_obs_per_epoch e) (place e q)) as [S1 S2]; [now apply place_lt|lia|].
  destruct (strided_spec v m (num_obs_per_epoch e) (place e q)) as [S3 S4]; [now apply place_lt|lia|].
  split.
  - intros i Hi. destruct (nth_error_lt_Some cols i) as [col Hcol].
    { rewrite LC. eapply nth_error_Some_lt; eauto. }
    rewrite Hcol. f_equal. rewrite Forall_forall in HF. assert (length col = m) as Lc by (apply HF; eapply nth_error_In; eauto).
    apply nth_error_ext. intro j. destruct (Nat.lt_ge_cases j m) as [Hj|Hj].
    + rewrite S2 by exact Hj. destruct (N1 q j Hq Hj) as [N _]. rewrite (N i Hi), Hcol. reflexivity.
    + rewrite (proj2 (nth_error_None _ _)) by lia. symmetry. apply nth_error_None. lia.
  - intro NI. f_equal. apply nth_error_ext. intro j. destruct (Nat.lt_ge_cases j m) as [Hj|Hj].
    + rewrite S2, S4 by exact Hj. now apply (N1 q j Hq Hj).
    + rewrite !(proj2 (nth_error_None _ _)) by lia. reflexivity.
Qed.

(** ** The vectors built from trajectories *)
Lemma concat_rows {A} (rows : list (list A)) k : Forall (fun r => length r = k) rows ->
  length (concat rows) = (length rows * k)%nat /\
  forall i j, (i < k)%nat -> nth_error (concat rows) (i + k * j)%nat = match nth_error rows j with Some r => nth_error r i | None => None end.
Proof.
  induction rows as [|r rs IH]; intro H.
  - split; [reflexivity|]. intros i j Hi. cbn. destruct j; destruct (i + k * _)%nat; reflexivity.
  - inversion H as [|? ? Hr Hrs]; subst. destruct (IH Hrs) as [L N]. split; [cbn; rewrite app_length, L; reflexivity|].
    intros i j Hi. cbn [concat]. destruct j as [|j].
    + rewrite Nat.mul_0_r, Nat.add_0_r. cbn. now rewrite nth_error_app1.
    + rewrite nth_error_app2 by lia. replace (i + length r * S j - length r)%nat with (i + length r * j)%nat by lia. cbn. now apply N.
Qed.

Lemma hstack_ok a b r : hstack a b = Ok r -> length a = length b /\ r = map (fun ab => fst ab ++ snd ab) (combine a b).
Proof. unfold hstack. destruct (Nat.eqb_spec (length a) (length b)); [intros [= <-]; auto|discriminate]. Qed.
Lemma hstack_total a b : length a = length b -> hstack a b = Ok (map (fun ab => fst ab ++ snd ab) (combine a b)).
Proof. intro H. unfold hstack. now rewrite H, Nat.eqb_refl. Qed.
Lemma hstack_err a b : length a <> length b -> hstack a b = Err ValueError.
Proof. intro H. unfold hstack. apply Nat.eqb_neq in H. now rewrite H. Qed.

(** The row of an epoch. *)
Definition epoch_row (e : est_settings) (f t r s : V3) : list R :=
  coords f ++ coords t ++ (if leverarm_enabled e then coords r else []) ++ (if time_shift_enabled e then coords s else []).

Lemma combine_map_l {A B C} (f : A -> C) (a : list A) (b : list B) : combine (map f a) b = map (fun ab => (f (fst ab), snd ab)) (combine a b).
Proof. revert b; induction a as [|x a IH]; intros [|y b]; cbn; [reflexivity..|]. now rewrite IH. Qed.
Lemma combine_map_r {A B C} (f : B -> C) (a : list A) (b : list B) : combine a (map f b) = map (fun ab => (fst ab, f (snd ab))) (combine a b).
Proof. revert b; induction a as [|x a IH]; intros [|y b]; cbn; [reflexivity..|]. now rewrite IH. Qed.

Definition zip4 (f t r s : list V3) : list (V3 * V3 * V3 * V3) := combine (combine (combine f t) r) s.
Definition angles_or (n : nat) (rpy : option (list V3)) : list V3 := match rpy with Some r => r | None => repeat vzero n end.

Lemma build_ok e f t rpy s obs : build_obs_vector e f t rpy s = Ok obs ->
  fitting e f t rpy s (length f) /\
  exists r' s', length r' = length f /\ length s' = length f /\
    (leverarm_enabled e = true -> rpy = Some r') /\ (time_shift_enabled e = true -> s = s') /\
    obs = concat (map (fun x => match x with (a, b, c, d) => epoch_row e a b c d end) (zip4 f t r' s')).
Proof.
  unfold build_obs_vector, fitting, blank_speed, epoch_row. intro H.
  apply bind_ok in H as [o1 [H1 H]]. apply bind_ok in H as [o2 [H2 H]]. apply bind_ok in H as [o3 [H3 H]]. injection H as <-.
  apply hstack_ok in H1 as [L1 ->]. rewrite !map_length in L1.
  assert (R1 : exists r', length r' = length f /\ (leverarm_enabled e = true -> rpy = Some r') /\
     o2 = map (fun x => coords (fst (fst x)) ++ coords (snd (fst x)) ++ (if leverarm_enabled e then coords (snd x) else [])) (combine (combine f t) r')).
  { destruct (leverarm_enabled e).
    - destruct rpy as [r|]; [|discriminate]. apply hstack_ok in H2 as [L2 ->]. rewrite !map_length, combine_length, !map_length in L2.
      exists r. split; [lia|]. split; [reflexivity|].
      repeat first [rewrite combine_map_l | rewrite combine_map_r | rewrite map_map].
      apply map_ext. intros [[a b] c]. cbn [fst snd]. now rewrite <- !app_assoc.
    - injection H2 as <-. exists (repeat vzero (length f)). split; [apply repeat_length|]. split; [discriminate|].
      repeat first [rewrite combine_map_l | rewrite combine_map_r | rewrite map_map]. cbn [fst snd].
      assert (LC : length (combine f t) = length f) by (rewrite combine_length; lia).
      rewrite <- LC. generalize (combine f t) as l. clear. intro l. induction l as [|[a b] l IH]; [reflexivity|]. cbn in *. now rewrite IH. }
  destruct R1 as [r' [Lr [Er ->]]].
  assert (LC : length (combine (combine f t) r') = length f) by (rewrite !combine_length; lia).
  split.
  - split; [reflexivity|]. split; [lia|]. split.
    + intro HE. specialize (Er HE). exists r'. auto.
    + intro HE. rewrite HE in H3. apply hstack_ok in H3 as [L3 _]. rewrite !map_length in L3. destruct (length (time_shift_filter e) =? 0)%nat eqn:F.
      * rewrite map_length in L3. lia.
      * lia.
  - assert (NF : (length (time_shift_filter e) =? 0)%nat = false) by (unfold time_shift_filter; destruct (negb _); reflexivity).
    rewrite NF in H3. destruct (time_shift_enabled e).
    + apply hstack_ok in H3 as [L3 ->]. rewrite !map_length in L3. exists r', s. split; [exact Lr|]. split; [lia|].
      split; [exact Er|]. split; [reflexivity|]. unfold zip4. f_equal. repeat first [rewrite combine_map_l | rewrite combine_map_r | rewrite map_map].
      apply map_ext. intros [[[a b] c] d]. cbn [fst snd]. now rewrite <- !app_assoc.
    + injection H3 as <-. exists r', (repeat vzero (length f)). split; [exact Lr|]. split; [apply repeat_length|].
      split; [exact Er|]. split; [discriminate|]. f_equal. unfold zip4. rewrite <- LC.
      generalize (combine (combine f t) r') as l. clear. intro l. induction l as [|[[a b] c] l IH]; [reflexivity|].
      cbn [map combine repeat length]. rewrite IH. f_equal. cbn [fst snd]. now rewrite app_nil_r.
Qed.

Lemma build_total e f t rpy s n : fitting e f t rpy s n -> exists obs, build_obs_vector e f t rpy s = Ok obs.
Proof.
  intros [L1 [L2 [L3 L4]]]. unfold build_obs_vector. rewrite hstack_total by (rewrite !map_length; lia). cbn [bind].
  set (o1 := map _ (combine _ _)). assert (length o1 = n) as Lo by (unfold o1; rewrite map_length, combine_length, !map_length; lia).
  assert (exists o2, (if leverarm_enabled e then match rpy with Some r => hstack o1 (map coords r) | None => Err ValueError end else Ok o1) = Ok o2 /\ length o2 = n) as [o2 [-> Lo2]].
  { destruct (leverarm_enabled e); [|eauto]. destruct (L3 eq_refl) as [r [-> Lr]]. rewrite hstack_total by (rewrite map_length; lia).
    eexists. split; [reflexivity|]. rewrite map_length, combine_length, map_length. lia. }
  cbn [bind]. destruct (time_shift_enabled e); [|cbn; eauto].
  rewrite hstack_total; [cbn; eauto|]. rewrite map_length. unfold blank_speed. destruct (_ =? 0)%nat; rewrite ?map_length; rewrite L4 by reflexivity; lia.
Qed.

Lemma build_error e f t rpy s er : build_obs_vector e f t rpy s = Err er -> er = ValueError.
Proof.
  unfold build_obs_vector. assert (HS : forall a b x, hstack a b = Err x -> x = ValueError).
  { intros a b x. unfold hstack. destruct (_ =? _)%nat; congruence. }
  destruct (hstack (map coords f) (map coords t)) eqn:E1; cbn [bind]; [|intros [= <-]; eauto].
  destruct (leverarm_enabled e).
  - destruct rpy as [r|]; [|cbn; congruence]. destruct (hstack a (map coords r)) eqn:E2; cbn [bind]; [|intros [= <-]; eauto].
    destruct (time_shift_enabled e); [|cbn; discriminate]. destruct (hstack a0 _) eqn:E3; cbn; [discriminate|intros [= <-]; eauto].
  - cbn [bind]. destruct (time_shift_enabled e); [|cbn; discriminate]. destruct (hstack a _) eqn:E3; cbn; [discriminate|intros [= <-]; eauto].
Qed.

Lemma epoch_row_length e a b c d : length (epoch_row e a b c d) = num_obs_per_epoch e.
Proof. unfold epoch_row, num_obs_per_epoch. destruct (leverarm_enabled e), (time_shift_enabled e); reflexivity. Qed.

Definition coordinate (q : quantity) (f t r s : V3) : R :=
  match q with
  | FromX => vx f | FromY => vy f | FromZ => vz f | ToX => vx t | ToY => vy t | ToZ => vz t
  | Roll => vx r | Pitch => vy r | Yaw => vz r | SpeedX => vx s | SpeedY => vy s | SpeedZ => vz s
  end.
Lemma epoch_row_nth e q f t r s : observed e q -> nth_error (epoch_row e f t r s) (place e q) = Some (coordinate q f t r s).
Proof.
  unfold epoch_row. destruct q; cbn; intro H; try rewrite H; destruct (leverarm_enabled e); cbn; reflexivity.
Qed.
Lemma measured_nth f t r s q j a b c d : nth_error f j = Some a -> nth_error t j = Some b -> nth_error r j = Some c -> nth_error s j = Some d ->
  nth_error (measured f t r s q) j = Some (coordinate q a b c d).
Proof. intros Ha Hb Hc Hd. destruct q; cbn; rewrite nth_error_map', ?Ha, ?Hb, ?Hc, ?Hd; reflexivity. Qed.
Lemma measured_length f t r s q n : length f = n -> length t = n -> length r = n -> length s = n -> length (measured f t r s q) = n.
Proof. destruct q; cbn; intros; now rewrite map_length. Qed.
Lemma zip4_nth f t r s j a b c d : nth_error f j = Some a -> nth_error t j = Some b -> nth_error r j = Some c -> nth_error s j = Some d ->
  nth_error (zip4 f t r s) j = Some (a, b, c, d).
Proof. intros Ha Hb Hc Hd. unfold zip4. now rewrite !nth_error_combine, Ha, Hb, Hc, Hd. Qed.

Lemma build_layout e f t rpy s obs : build_obs_vector e f t rpy s = Ok obs ->
  length obs = (length f * num_obs_per_epoch e)%nat /\
  forall g, available e g ->
    extract_from_vector e obs g = Ok (map (measured f t (angles_or (length f) rpy) s) (parts g)).
Proof.
  intro H. destruct (build_ok e f t rpy s obs H) as [[_ [Lt [FL FT]]] [r' [s' [Lr [Ls [Er [Es ->]]]]]]].
  set (rows := map _ (zip4 f t r' s')).
  assert (LR : length rows = length f) by (unfold rows, zip4; rewrite map_length, !combine_length; lia).
  assert (HR : Forall (fun r => length r = num_obs_per_epoch e) rows).
  { unfold rows. apply Forall_forall. intros x Hx. apply in_map_iff in Hx as [[[[a b] c] d] [<- _]]. apply epoch_row_length. }
  destruct (concat_rows rows _ HR) as [LC N]. split; [now rewrite LC, LR|]. intros g A. rewrite extract_spec by exact A.
  f_equal. apply map_ext_in. intros q Hq. specialize (A q Hq).
  destruct (strided_spec (concat rows) (length f) (num_obs_per_epoch e) (place e q)) as [S1 S2]; [now apply place_lt|now rewrite LC, LR|].
  assert (EM : measured f t (angles_or (length f) rpy) s q = measured f t r' s' q).
  { destruct q; cbn in *; try reflexivity; try (rewrite (Er A); reflexivity); rewrite (Es A); reflexivity. }
  rewrite EM. apply nth_error_ext. intro j. destruct (Nat.lt_ge_cases j (length f)) as [Hj|Hj].
  - destruct (nth_error_lt_Some f j) as [a Ha]; [lia|]. destruct (nth_error_lt_Some t j) as [b Hb]; [lia|].
    destruct (nth_error_lt_Some r' j) as [c Hc]; [lia|]. destruct (nth_error_lt_Some s' j) as [d Hd]; [lia|].
    rewrite S2, N by (try apply place_lt; assumption). unfold rows. rewrite nth_error_map', (zip4_nth _ _ _ _ _ _ _ _ _ Ha Hb Hc Hd). cbn [option_map].
    rewrite epoch_row_nth by exact A. symmetry. now apply measured_nth.
  - rewrite !(proj2 (nth_error_None _ _)); [reflexivity| |lia]. rewrite (measured_length _ _ _ _ _ (length f)); auto; lia.
Qed.

(** Epoch j as a block of the vector. *)
Lemma build_epoch e f t rpy s obs j a b : build_obs_vector e f t rpy s = Ok obs ->
  nth_error f j = Some a -> nth_error t j = Some b ->
  exists c d, (leverarm_enabled e = true -> exists r, rpy = Some r /\ nth_error r j = Some c) /\
    (time_shift_enabled e = true -> nth_error s j = Some d) /\
    firstn (num_obs_per_epoch e) (skipn (j * num_obs_per_epoch e) obs) = epoch_row e a b c d.
Proof.
  intros H Ha Hb. destruct (build_ok e f t rpy s obs H) as [_ [r' [s' [Lr [Ls [Er [Es ->]]]]]]].
  assert (Hj := nth_error_Some_lt _ _ _ Ha).
  destruct (nth_error_lt_Some r' j) as [c Hc]; [lia|]. destruct (nth_error_lt_Some s' j) as [d Hd]; [lia|].
  exists c, d. split; [intro HE; exists r'; auto|]. split; [intro HE; now rewrite (Es HE)|].
  set (rows := map _ (zip4 f t r' s')).
  assert (HR : Forall (fun r => length r = num_obs_per_epoch e) rows).
  { unfold rows. apply Forall_forall. intros x Hx. apply in_map_iff in Hx as [[[[a' b'] c'] d'] [<- _]]. apply epoch_row_length. }
  assert (NR : nth_error rows j = Some (epoch_row e a b c d)).
  { unfold rows. rewrite nth_error_map', (zip4_nth _ _ _ _ _ _ _ _ _ Ha Hb Hc Hd). reflexivity. }
  clearbody rows. clear - HR NR. revert j NR. induction rows as [|r rs IH]; intros j NR; [destruct j; discriminate|].
  inversion HR as [|? ? Hr Hrs]; subst. destruct j as [|j].
  - cbn [nth_error] in NR. injection NR as ->. cbn [concat]. rewrite Nat.mul_0_l. cbn [skipn].
    rewrite firstn_app, Hr, Nat.sub_diag, firstn_O, app_nil_r.
    rewrite <- Hr. apply firstn_all.
  - cbn [concat]. rewrite skipn_app. rewrite (skipn_all2 r) by (rewrite Hr; cbn; lia). cbn [app].
    rewrite Hr. replace (S j * num_obs_per_epoch e - num_obs_per_epoch e)%nat with (j * num_obs_per_epoch e)%nat by (cbn; lia).
    apply (IH Hrs j). exact NR.
Qed.

(** ** Variances *)
Lemma write_column e v v' g cols m q i : length v = (m * num_obs_per_epoch e)%nat -> Forall (fun c => length c = m) cols ->
  set_vector_components e v cols g = Ok v' -> observed e q ->
  (nth_error (parts g) i = Some q -> forall c, nth_error cols i = Some c -> strided v' (place e q) (num_obs_per_epoch e) = c) /\
  (~ In q (parts g) -> strided v' (place e q) (num_obs_per_epoch e) = strided v (place e q) (num_obs_per_epoch e)).
Proof.
  intros HL HF HS Hq.
  destruct (available_dec e g) as [A|A]; [|rewrite set_err in HS by (now left); discriminate].
  destruct (Nat.eq_dec (length cols) (length (parts g))) as [LC|LC]; [|rewrite set_err in HS by (now right); discriminate].
  destruct (set_spec e v g cols m A HL LC HF) as [v1 [E1 [L1 N1]]]. rewrite E1 in HS. injection HS as ->.
  destruct (strided_spec v' m (num_obs_per_epoch e) (place e q)) as [S1 S2]; [now apply place_lt|lia|].
  destruct (strided_spec v m (num_obs_per_epoch e) (place e q)) as [S3 S4]; [now apply place_lt|lia|].
  split.
  - intros Hi c Hc. rewrite Forall_forall in HF. assert (length c = m) as Lc by (apply HF; eapply nth_error_In; eauto).
    apply nth_error_ext. intro j. destruct (Nat.lt_ge_cases j m) as [Hj|Hj].
    + rewrite S2 by exact Hj. destruct (N1 q j Hq Hj) as [N _]. now rewrite (N i Hi), Hc.
    + rewrite !(proj2 (nth_error_None _ _)) by lia. reflexivity.
  - intro NI. apply nth_error_ext. intro j. destruct (Nat.lt_ge_cases j m) as [Hj|Hj].
    + rewrite S2, S4 by exact Hj. now apply (N1 q j Hq Hj).
    + rewrite !(proj2 (nth_error_None _ _)) by lia. reflexivity.
Qed.

Lemma var_spec e s obs m : length obs = (m * num_obs_per_epoch e)%nat ->
  exists var, build_var_vector e s obs = Ok var /\ length var = length obs /\
    forall q, observed e q -> strided var (place e q) (num_obs_per_epoch e) = repeat (std_of s q ^ 2) m.
Proof.
  intro HL. unfold build_var_vector, number_of_epochs. rewrite HL, Nat.div_mul by (pose proof (k_pos e); lia).
  set (k := num_obs_per_epoch e) in *.
  assert (AF : available e XYZ_FROM) by (intros q Hq; cbn in Hq; intuition (subst; exact I)).
  assert (AT : available e XYZ_TO) by (intros q Hq; cbn in Hq; intuition (subst; exact I)).
  assert (F3 : forall x z : R, Forall (fun c : list R => length c = m) [repeat (x ^ 2) m; repeat (x ^ 2) m; repeat (z ^ 2) m])
    by (intros; repeat constructor; apply repeat_length).
  destruct (set_spec e (repeat 1 (m * k)) XYZ_FROM [repeat (std_xy_from s ^ 2) m; repeat (std_xy_from s ^ 2) m; repeat (std_z_from s ^ 2) m] m)
    as [v1 [E1 [L1 _]]]; [exact AF|apply repeat_length|reflexivity|apply F3|].
  rewrite E1. cbn [bind]. rewrite repeat_length in L1.
  destruct (set_spec e v1 XYZ_TO [repeat (std_xy_to s ^ 2) m; repeat (std_xy_to s ^ 2) m; repeat (std_z_to s ^ 2) m] m)
    as [v2 [E2 [L2 _]]]; [exact AT|exact L1|reflexivity|apply F3|].
  rewrite E2. cbn [bind]. rewrite L1 in L2.
  assert (exists v3, (if leverarm_enabled e then set_vector_components e v2 [repeat (std_roll_pitch s ^ 2) m; repeat (std_roll_pitch s ^ 2) m; repeat (std_yaw s ^ 2) m] RPY else Ok v2) = Ok v3 /\ length v3 = (m * k)%nat) as [v3 [E3 L3]].
  { destruct (leverarm_enabled e) eqn:LE; [|eauto].
    destruct (set_spec e v2 RPY [repeat (std_roll_pitch s ^ 2) m; repeat (std_roll_pitch s ^ 2) m; repeat (std_yaw s ^ 2) m] m) as [v3 [E3 [L3 _]]];
      [intros q Hq; cbn in Hq; intuition (subst; exact LE)|exact L2|reflexivity|apply F3|]. exists v3. split; [exact E3|lia]. }
  rewrite E3. cbn [bind].
  assert (exists v4, (if time_shift_enabled e then set_vector_components e v3 [repeat (std_speed s ^ 2) m; repeat (std_speed s ^ 2) m; repeat (std_speed s ^ 2) m] SPEED else Ok v3) = Ok v4 /\ length v4 = (m * k)%nat) as [v4 [E4 L4]].
  { destruct (time_shift_enabled e) eqn:LE; [|eauto].
    destruct (set_spec e v3 SPEED [repeat (std_speed s ^ 2) m; repeat (std_speed s ^ 2) m; repeat (std_speed s ^ 2) m] m) as [v4 [E4 [L4 _]]];
      [intros q Hq; cbn in Hq; intuition (subst; exact LE)|exact L3|reflexivity|apply F3|]. exists v4. split; [exact E4|lia]. }
  exists v4. split; [exact E4|]. split; [exact L4|]. intros q Hq.
  (* step by step *)
  assert (K4 : ~ In q (parts SPEED) -> strided v4 (place e q) k = strided v3 (place e q) k).
  { intro NI. destruct (time_shift_enabled e); [|now injection E4 as <-].
    exact (proj2 (write_column e v3 v4 SPEED _ m q 0 L3 (F3 _ _) E4 Hq) NI). }
  assert (K3 : ~ In q (parts RPY) -> strided v3 (place e q) k = strided v2 (place e q) k).
  { intro NI. destruct (leverarm_enabled e); [|now injection E3 as <-].
    exact (proj2 (write_column e v2 v3 RPY _ m q 0 L2 (F3 _ _) E3 Hq) NI). }
  assert (K2 : ~ In q (parts XYZ_TO) -> strided v2 (place e q) k = strided v1 (place e q) k).
  { intro NI. exact (proj2 (write_column e v1 v2 XYZ_TO _ m q 0 L1 (F3 _ _) E2 Hq) NI). }
  assert (L0 : length (repeat 1 (m * k)) = (m * k)%nat) by apply repeat_length.
  destruct q; cbn [std_of].
  - rewrite K4, K3, K2 by (cbn; intuition discriminate). exact (proj1 (write_column e _ v1 XYZ_FROM _ m FromX 0 L0 (F3 _ _) E1 I) eq_refl _ eq_refl).
  - rewrite K4, K3, K2 by (cbn; intuition discriminate). exact (proj1 (write_column e _ v1 XYZ_FROM _ m FromY 1 L0 (F3 _ _) E1 I) eq_refl _ eq_refl).
  - rewrite K4, K3, K2 by (cbn; intuition discriminate). exact (proj1 (write_column e _ v1 XYZ_FROM _ m FromZ 2 L0 (F3 _ _) E1 I) eq_refl _ eq_refl).
  - rewrite K4, K3 by (cbn; intuition discriminate). exact (proj1 (write_column e _ v2 XYZ_TO _ m ToX 0 L1 (F3 _ _) E2 I) eq_refl _ eq_refl).
  - rewrite K4, K3 by (cbn; intuition discriminate). exact (proj1 (write_column e _ v2 XYZ_TO _ m ToY 1 L1 (F3 _ _) E2 I) eq_refl _ eq_refl).
  - rewrite K4, K3 by (cbn; intuition discriminate). exact (proj1 (write_column e _ v2 XYZ_TO _ m ToZ 2 L1 (F3 _ _) E2 I) eq_refl _ eq_refl).
  - rewrite K4 by (cbn; intuition discriminate). rewrite Hq in E3. exact (proj1 (write_column e _ v3 RPY _ m Roll 0 L2 (F3 _ _) E3 Hq) eq_refl _ eq_refl).
  - rewrite K4 by (cbn; intuition discriminate). rewrite Hq in E3. exact (proj1 (write_column e _ v3 RPY _ m Pitch 1 L2 (F3 _ _) E3 Hq) eq_refl _ eq_refl).
  - rewrite K4 by (cbn; intuition discriminate). rewrite Hq in E3. exact (proj1 (write_column e _ v3 RPY _ m Yaw 2 L2 (F3 _ _) E3 Hq) eq_refl _ eq_refl).
  - rewrite Hq in E4. exact (proj1 (write_column e _ v4 SPEED _ m SpeedX 0 L3 (F3 _ _) E4 Hq) eq_refl _ eq_refl).
  - rewrite Hq in E4. exact (proj1 (write_column e _ v4 SPEED _ m SpeedY 1 L3 (F3 _ _) E4 Hq) eq_refl _ eq_refl).
  - rewrite Hq in E4. exact (proj1 (write_column e _ v4 SPEED _ m SpeedZ 2 L3 (F3 _ _) E4 Hq) eq_refl _ eq_refl).
Qed.

Lemma divisible_iff e v : divisible e v = true <-> exists m, length v = (m * num_obs_per_epoch e)%nat.
Proof.
  unfold divisible. rewrite Nat.eqb_eq, Nat.mod_divides by (pose proof (k_pos e); lia). split; intros [m H]; exists m; lia.
Qed.

Lemma make_total e s f t rpy sp n : fitting e f t rpy sp n ->
  exists obs var, make_data e s f t rpy sp = Ok (mkData e obs var (build_res_vector obs)) /\
    build_obs_vector e f t rpy sp = Ok obs /\ length obs = (n * num_obs_per_epoch e)%nat /\ length var = length obs /\
    forall q, observed e q -> strided var (place e q) (num_obs_per_epoch e) = repeat (std_of s q ^ 2) n.
Proof.
  intro F. destruct (build_total _ _ _ _ _ _ F) as [obs E]. destruct (build_layout _ _ _ _ _ _ E) as [L _].
  destruct F as [Lf _]. rewrite Lf in L. destruct (var_spec e s obs n L) as [var [EV [LV NV]]].
  exists obs, var. unfold make_data. rewrite E. cbn [bind].
  rewrite (proj2 (divisible_iff e obs)) by eauto. cbn [negb]. rewrite EV. cbn [bind].
  rewrite (proj2 (divisible_iff e var)) by (exists n; lia). cbn [negb].
  rewrite (proj2 (divisible_iff e (build_res_vector obs))) by (exists n; unfold build_res_vector; now rewrite repeat_length).
  cbn [negb]. auto.
Qed.
