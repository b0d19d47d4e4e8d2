(** Lemmas about settings objects. *)
From Verif Require Import Base BaseFacts SettModel SettSpec.

Scheme cls_mut := Induction for cls Sort Prop
  with fields_mut := Induction for fields Sort Prop
  with ftype_mut := Induction for ftype Sort Prop.
Combined Scheme class_ind from cls_mut, fields_mut, ftype_mut.

Lemma eqb_neq' a b : a <> b -> String.eqb a b = false.
Proof. apply String.eqb_neq. Qed.

(** ** Reading depends on the listed attributes only *)
Lemma from_fields_ext fs d d' : (forall n, In n (names fs) -> lookup n d = lookup n d') -> from_fields fs d = from_fields fs d'.
Proof.
  induction fs as [|n t r IH]; intro H; [reflexivity|]. cbn. rewrite (H n) by (now left).
  destruct (lookup n d'); [|reflexivity]. rewrite IH; [reflexivity|]. intros m Hm. apply H. now right.
Qed.

Lemma find_member_err e x n er : find_member e x n = Err er -> er = ValueError.
Proof.
  induction n as [|n IH]; cbn [find_member]; [congruence|]. destruct (Reqb _ _); [|exact IH].
  unfold member. destruct (_ && _)%bool; congruence.
Qed.
Lemma member_err e k er : member e k = Err er -> er = ValueError.
Proof. unfold member. destruct (_ && _)%bool; congruence. Qed.
Lemma decode_err e v er : decode_enum e v = Err er -> er = ValueError.
Proof.
  destruct v; cbn; try congruence; try apply member_err; try apply find_member_err.
  destruct (String.eqb _ _); [apply member_err|congruence].
Qed.

Lemma from_errors :
  (forall c d er, from_dict c d = Err er -> er = ValueError) /\
  (forall fs d er, from_fields fs d = Err er -> er = ValueError) /\
  (forall t v er, from_field t v = Err er -> er = ValueError).
Proof.
  apply class_ind.
  - intros name fs IH d er H. cbn in H. destruct (from_fields fs d) eqn:E; [discriminate|]. cbn in H. injection H as <-. eauto.
  - intros d er H. discriminate.
  - intros n t IHt r IHr d er H. cbn in H. destruct (lookup n d) as [v|]; [|congruence].
    destruct (from_field t v) eqn:E; cbn in H; [|injection H as <-; eauto].
    destruct (from_fields r d) eqn:E2; cbn in H; [discriminate|injection H as <-; eauto].
  - intros v er H. discriminate.
  - intros e v er H. eapply decode_err; eauto.
  - intros c IH v er H. destruct v; cbn in H; try discriminate. eauto.
Qed.

Lemma from_fields_missing fs d n : In n (names fs) -> lookup n d = None -> from_fields fs d = Err ValueError.
Proof.
  intros H L. destruct (from_fields fs d) as [a|e] eqn:E; [exfalso|f_equal; exact (proj1 (proj2 from_errors) fs d e E)].
  revert a E. induction fs as [|m t r IH]; intros a E; [destruct H|]. cbn in E.
  destruct H as [->|H].
  - rewrite L in E. discriminate.
  - destruct (lookup m d) as [v|]; [|discriminate]. apply bind_ok in E as [x [_ E]]. apply bind_ok in E as [r' [E _]]. eauto.
Qed.

(** ** Round trip *)
Definition field_to_dict (fs : fields) (k : string) (v : val) : result val :=
  match v with VObj _ _ => to_dict v | _ => encode fs k v end.

Lemma attrs_to_dict_cons fs k v r :
  attrs_to_dict fs (KCons k v r) = (let! x := field_to_dict fs k v in let! r' := attrs_to_dict fs r in Ok (KCons k x r')).
Proof. reflexivity. Qed.

Lemma decode_member e k : (1 <= k <= en_size e)%Z -> decode_enum e (VInt k) = Ok (VEnum (en_name e) k).
Proof.
  intros [A B]. cbn. unfold member. apply Z.leb_le in A, B. now rewrite A, B.
Qed.

Definition fields_in (fs FS : fields) : Prop := forall n t, field_type n fs = Some t -> field_type n FS = Some t.

Lemma field_type_In n fs t : field_type n fs = Some t -> In n (names fs).
Proof.
  induction fs as [|m t' r IH]; cbn; [discriminate|]. destruct (String.eqb_spec n m) as [->|]; [auto|right; auto].
Qed.

Lemma round_trip :
  (forall c, good_class c -> forall v, conforms c v ->
     exists d, to_dict v = Ok (VDict d) /\ json_ok_all d = true /\ from_dict c d = Ok v) /\
  (forall fs, good_fields fs -> NoDup (names fs) -> forall FS attrs, fields_in fs FS -> conforms_fields fs attrs ->
     exists d, attrs_to_dict FS attrs = Ok d /\ json_ok_all d = true /\
     forall d', (forall n, In n (names fs) -> lookup n d' = lookup n d) -> from_fields fs d' = Ok attrs) /\
  (forall t, good_type t -> forall FS n v, field_type n FS = Some t -> conforms_type t v ->
     exists x, field_to_dict FS n v = Ok x /\ json_ok x = true /\ from_field t x = Ok v).
Proof.
  apply class_ind.
  - intros nm fs IH [ND G] v [attrs [-> C]].
    destruct (IH G ND fs attrs (fun n t H => H) C) as [d [E [J F]]].
    exists d. split; [cbn; now rewrite E|]. split; [exact J|]. cbn. rewrite (F d) by reflexivity. reflexivity.
  - intros _ _ FS attrs _ ->. exists KNil. split; [reflexivity|]. split; reflexivity.
  - intros n t IHt r IHr [Gt Gr] ND FS attrs HI [v [rest [-> [Cv Cr]]]]. inversion ND as [|? ? NI ND']; subst.
    destruct (IHt Gt FS n v) as [x [Ex [Jx Fx]]]; [apply HI; cbn; now rewrite String.eqb_refl|exact Cv|].
    destruct (IHr Gr ND' FS rest) as [d [Ed [Jd Fd]]]; [|exact Cr|].
    { intros m tm Hm. apply HI. cbn. destruct (String.eqb_spec m n) as [->|]; [|exact Hm].
      apply field_type_In in Hm. contradiction. }
    exists (KCons n x d). rewrite attrs_to_dict_cons, Ex. cbn [bind]. rewrite Ed. cbn [bind].
    split; [reflexivity|]. split; [cbn; now rewrite Jx, Jd|].
    intros d' H. cbn. rewrite (H n) by (now left). cbn. rewrite String.eqb_refl, Fx. cbn [bind].
    rewrite Fd; [reflexivity|]. intros m Hm. rewrite (H m) by (now right). cbn.
    rewrite eqb_neq'; [reflexivity|]. intros ->. contradiction.
  - intros _ FS n v HF C. cbn in C. exists v. split.
    { unfold field_to_dict, encode. rewrite HF. destruct v; try reflexivity. discriminate. }
    split; [exact C|reflexivity].
  - intros e _ FS n v HF [k [-> H]]. exists (VInt k). split; [unfold field_to_dict, encode; now rewrite HF|].
    split; [reflexivity|]. now apply decode_member.
  - intros c IH G FS n v HF C. cbn in C. destruct (IH G v C) as [d [E [J F]]].
    exists (VDict d). assert (exists a, v = VObj c a) as [a ->].
    { destruct c as [nm fs]. destruct C as [a [-> _]]. eauto. }
    split; [exact E|]. split; [exact J|]. exact F.
Qed.

(** ** Updating *)
Fixpoint kapp (a b : kvs) : kvs := match a with KNil => b | KCons k v r => KCons k v (kapp r b) end.
Fixpoint keys (d : kvs) : list string := match d with KNil => [] | KCons k _ r => k :: keys r end.

Lemma lookup_kapp n a b : lookup n (kapp a b) = match lookup n a with Some v => Some v | None => lookup n b end.
Proof. induction a as [|k v r IH]; cbn; [reflexivity|]. destruct (String.eqb n k); [reflexivity|exact IH]. Qed.
Lemma lookup_None n d : ~ In n (keys d) -> lookup n d = None.
Proof.
  induction d as [|k v r IH]; cbn; [reflexivity|]. intro H. rewrite eqb_neq' by (intros ->; apply H; now left).
  apply IH. tauto.
Qed.
Lemma set_attr_kapp n v pre old rest : ~ In n (keys pre) ->
  set_attr n v (kapp pre (KCons n old rest)) = kapp (kapp pre (KCons n v KNil)) rest.
Proof.
  induction pre as [|k w r IH]; cbn; intro H.
  - now rewrite String.eqb_refl.
  - rewrite eqb_neq' by (intros ->; apply H; now left). f_equal. apply IH. tauto.
Qed.
Lemma kapp_assoc a b c : kapp (kapp a b) c = kapp a (kapp b c).
Proof. induction a; cbn; congruence. Qed.
Lemma keys_kapp a b : keys (kapp a b) = keys a ++ keys b.
Proof. induction a; cbn; congruence. Qed.
Lemma conforms_keys fs attrs : conforms_fields fs attrs -> keys attrs = names fs.
Proof.
  revert attrs; induction fs as [|n t r IH]; cbn; intros attrs H; [now subst|].
  destruct H as [v [rest [-> [_ H]]]]. cbn. f_equal. now apply IH.
Qed.

Lemma assoc_updaters n attrs : assoc_updater n (updaters attrs) = match lookup n attrs with Some v => updater v | None => None end.
Proof.
  unfold assoc_updater. induction attrs as [|k v r IH]; [reflexivity|]. cbn. destruct (String.eqb n k); [reflexivity|exact IH].
Qed.

(** What an update does to the attributes of an object, in field order. *)
Inductive updates : fields -> kvs -> kvs -> kvs -> option err -> Prop :=
| upd_nil d : updates FNil KNil d KNil None
| upd_missing n t r v rest d : lookup n d = None ->
    updates (FCons n t r) (KCons n v rest) d (KCons n v rest) (Some ValueError)
| upd_bad n t r v rest d x er v' : lookup n d = Some x -> from_field t x = Err er ->
    (v' = v \/ exists c dd, t = FNested c /\ x = VDict dd) ->
    updates (FCons n t r) (KCons n v rest) d (KCons n v' rest) (Some er)
| upd_ok n t r v rest d x y rest' e : lookup n d = Some x -> from_field t x = Ok y ->
    updates r rest d rest' e -> updates (FCons n t r) (KCons n v rest) d (KCons n y rest') e.

Lemma updates_from fs attrs d attrs' e : updates fs attrs d attrs' e ->
  from_fields fs d = match e with None => Ok attrs' | Some er => Err er end.
Proof.
  induction 1; cbn.
  - reflexivity.
  - now rewrite H.
  - now rewrite H, H0.
  - rewrite H, H0. cbn. rewrite IHupdates. destruct e; reflexivity.
Qed.

Lemma update_spec :
  (forall c, good_class c -> forall v, conforms c v -> forall d,
     exists v' e, update_from_dict v d = (v', e) /\
     from_dict c d = match e with None => Ok v' | Some er => Err er end /\
     exists attrs attrs', v = VObj c attrs /\ v' = VObj c attrs' /\ updates (class_fields c) attrs d attrs' e) /\
  (forall fs, good_fields fs -> NoDup (names fs) -> forall pre cur ups d,
     conforms_fields fs cur -> (forall n, In n (names fs) -> ~ In n (keys pre)) ->
     (forall n, In n (names fs) -> assoc_updater n ups = match lookup n cur with Some v => updater v | None => None end) ->
     exists cur' e, update_fields fs ups (kapp pre cur) d = (kapp pre cur', e) /\ updates fs cur d cur' e) /\
  (forall t, good_type t -> forall c v dd, t = FNested c -> conforms_type t v ->
     exists f v' e, updater v = Some f /\ f dd = (v', e) /\ from_dict c dd = match e with None => Ok v' | Some er => Err er end).
Proof.
  apply class_ind.
  - intros nm fs IH [ND G] v [attrs [-> C]] d.
    destruct (IH G ND KNil attrs (updaters attrs) d C) as [cur' [e [E U]]].
    + cbn. tauto.
    + intros n _. apply assoc_updaters.
    + cbn [kapp] in E. unfold update_from_dict. cbn [updater]. cbv zeta. rewrite E. cbn [fst snd].
      exists (VObj (Cls nm fs) cur'), e. split; [reflexivity|]. split; [|eauto 6].
      cbn. rewrite (updates_from _ _ _ _ _ U). destruct e; reflexivity.
  - intros _ _ pre cur ups d -> _ _. exists KNil, None. split; [reflexivity|constructor].
  - intros n t IHt r IHr [Gt Gr] ND pre cur ups d C HP HU. cbn in C. destruct C as [v [rest [-> [Cv Cr]]]].
    inversion ND as [|? ? NI ND']; subst. cbn [update_fields].
    destruct (lookup n d) as [x|] eqn:L.
    2: { exists (KCons n v rest), (Some ValueError). split; [reflexivity|]. now constructor. }
    assert (HPn : ~ In n (keys pre)) by (apply HP; now left).
    assert (Step : forall y, from_field t x = Ok y ->
       exists cur' e, update_fields r ups (set_attr n y (kapp pre (KCons n v rest))) d = (kapp pre cur', e) /\
         updates (FCons n t r) (KCons n v rest) d cur' e).
    { intros y Hy. rewrite set_attr_kapp by exact HPn.
      destruct (IHr Gr ND' (kapp pre (KCons n y KNil)) rest ups d Cr) as [cur' [e [E U]]].
      - intros m Hm. rewrite keys_kapp. intro X. apply in_app_or in X as [X|X].
        + revert X. apply HP. now right.
        + cbn in X. destruct X as [->|[]]. contradiction.
      - intros m Hm. rewrite HU by (now right). cbn. rewrite eqb_neq'; [reflexivity|]. intros ->. contradiction.
      - exists (KCons n y cur'), e. split; [rewrite E, kapp_assoc; reflexivity|]. econstructor; eauto. }
    destruct t as [|en|c].
    + destruct (Step x eq_refl) as [cur' [e [E U]]]. eauto.
    + destruct (decode_enum en x) as [y|er] eqn:D.
      * destruct (Step y D) as [cur' [e [E U]]]. eauto.
      * exists (KCons n v rest), (Some er). split; [reflexivity|]. eapply upd_bad; eauto.
    + destruct x as [| b | z | xr | s | dd | en k | oc oa]; try (destruct (Step _ eq_refl) as [cur' [e [E U]]]; now eauto).
      rewrite HU by (now left). cbn [lookup]. rewrite String.eqb_refl.
      destruct (IHt Gt c v dd eq_refl Cv) as [f [v' [e [Hf [Hfd HFD]]]]]. rewrite Hf, Hfd.
      destruct e as [er|].
      * exists (KCons n v' rest), (Some er). split; [rewrite set_attr_kapp, kapp_assoc by exact HPn; reflexivity|].
        eapply upd_bad; [exact L|exact HFD|eauto].
      * destruct (Step v' HFD) as [cur' [e [E U]]]. eauto.
  - intros _ c v dd H. discriminate.
  - intros e _ c v dd H. discriminate.
  - intros c IH G c' v dd [= <-] C. cbn in C. destruct (IH G v C dd) as [v' [e [E [F _]]]].
    unfold update_from_dict in E. destruct (updater v) as [f|] eqn:U.
    + eauto 6.
    + destruct c as [nm fs]. destruct C as [a [-> _]]. discriminate.
Qed.

(** ** Positions *)
Lemma updates_split fs attrs d attrs' e : NoDup (names fs) -> updates fs attrs d attrs' (Some e) ->
  exists pre n post, names fs = pre ++ n :: post /\
    (forall m, In m pre -> exists t x y, field_type m fs = Some t /\ lookup m d = Some x /\ from_field t x = Ok y /\ lookup m attrs' = Some y) /\
    (forall m, In m post -> lookup m attrs' = lookup m attrs) /\
    (lookup n attrs' = lookup n attrs \/ exists c dd, field_type n fs = Some (FNested c) /\ lookup n d = Some (VDict dd)) /\
    (lookup n d = None \/ exists t x, field_type n fs = Some t /\ lookup n d = Some x /\ from_field t x = Err e).
Proof.
  intros ND H. remember (Some e) as oe eqn:Heq. revert ND Heq.
  induction H as [d|n t r v rest d HL|n t r v rest d x er v' HL HF HV|n t r v rest d x y rest' e' HL HF HU IH]; intros ND Heq.
  - discriminate.
  - exists [], n, (names r). split; [reflexivity|]. split; [intros m []|]. split; [reflexivity|].
    split; [now left|now left].
  - injection Heq as ->. inversion ND as [|? ? NI ND']; subst.
    exists [], n, (names r). split; [reflexivity|]. split; [intros m []|]. split.
    + intros m Hm. cbn. rewrite eqb_neq'; [reflexivity|]. intros ->. contradiction.
    + cbn. rewrite String.eqb_refl. split.
      * destruct HV as [->|[c [dd [-> ->]]]]; [now left|right; eauto].
      * right. eauto.
  - inversion ND as [|? ? NI ND']; subst. destruct (IH ND' eq_refl) as [pre [k [post [E [A [B [C D]]]]]]].
    assert (HN : forall m, In m (names r) -> String.eqb m n = false) by (intros m Hm; apply eqb_neq'; intros ->; contradiction).
    exists (n :: pre), k, post. split; [cbn; now rewrite E|]. split; [|split; [|split]].
    + intros m [<-|Hm].
      * exists t, x, y. cbn. rewrite String.eqb_refl. auto.
      * assert (In m (names r)) as Hm' by (rewrite E; apply in_or_app; now left).
        destruct (A m Hm) as [tm [xm [ym [A1 [A2 [A3 A4]]]]]]. exists tm, xm, ym. cbn. rewrite (HN m Hm'). auto.
    + intros m Hm. assert (In m (names r)) as Hm' by (rewrite E; apply in_or_app; right; now right).
      cbn. rewrite (HN m Hm'). now apply B.
    + assert (In k (names r)) as Hk by (rewrite E; apply in_or_app; right; now left). cbn. rewrite (HN k Hk). exact C.
    + assert (In k (names r)) as Hk by (rewrite E; apply in_or_app; right; now left). cbn. rewrite (HN k Hk). exact D.
Qed.
