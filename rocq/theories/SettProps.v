(** Properties C40, C41 and C69: settings objects, dictionaries and files. *)
From Verif Require Import Base BaseFacts SettModel SettSpec SettFacts.
Local Open Scope string_scope.

(** Every settings class of the package has distinct attribute names. *)
Lemma all_classes_good : Forall good_class all_classes.
Proof.
  repeat (constructor; [cbn; repeat (split || constructor || (cbn; intuition congruence))|]). constructor.
Qed.

(** ** C40: settings survive a dictionary / JSON round trip *)
Theorem C40_round_trip : forall c v, In c all_classes -> conforms c v ->
  exists d, to_dict v = Ok (VDict d) /\ from_dict c d = Ok v.
Proof.
  intros c v Hc C. pose proof all_classes_good as G. rewrite Forall_forall in G.
  destruct (proj1 round_trip c (G c Hc) v C) as [d [E [_ F]]]. eauto.
Qed.
Print Assumptions C40_round_trip.

(** The same for any settings class one might write, through a file, whatever the file held before. *)
Theorem C40_file_round_trip : forall c v old, good_class c -> conforms c v ->
  exists f, settings_to_file v old = (f, Ok tt) /\ settings_from_file c f = Ok v.
Proof.
  intros c v old G C. destruct (proj1 round_trip c G v C) as [d [E [J F]]].
  exists (Document (VDict d)). unfold settings_to_file, to_json. rewrite E. cbn [bind json_ok]. rewrite J. auto.
Qed.
Print Assumptions C40_file_round_trip.

(** Only the values under the attribute names of the class count: order and extra keys do not. *)
Theorem C40_extra_keys : forall c d d',
  (forall n, In n (names (class_fields c)) -> lookup n d = lookup n d') -> from_dict c d = from_dict c d'.
Proof. intros [nm fs] d d' H. cbn in *. now rewrite (from_fields_ext fs d d' H). Qed.
Print Assumptions C40_extra_keys.

(** A missing key raises ValueError, and reading raises nothing else. *)
Theorem C40_missing_key : forall c d n, In n (names (class_fields c)) -> lookup n d = None -> from_dict c d = Err ValueError.
Proof. intros [nm fs] d n H L. cbn in *. now rewrite (from_fields_missing fs d n H L). Qed.
Print Assumptions C40_missing_key.

Theorem C40_only_value_errors : forall c d e, from_dict c d = Err e -> e = ValueError.
Proof. exact (proj1 from_errors). Qed.
Print Assumptions C40_only_value_errors.

(** What reading accepts it has taken from the dictionary, attribute by attribute. *)
Theorem C40_attributes : forall c d v, NoDup (names (class_fields c)) -> from_dict c d = Ok v ->
  forall n t, field_type n (class_fields c) = Some t -> exists x y, lookup n d = Some x /\ attr v n = Some y /\
    match t with
    | FPlain => y = x
    | FEnum e => exists k, y = VEnum (en_name e) k /\ (1 <= k <= en_size e)%Z
    | FNested c' => match x with VDict dd => from_dict c' dd = Ok y | _ => y = x end
    end.
Proof.
  intros [nm fs] d v ND E n t HT. cbn in *. apply bind_ok in E as [a [E Ev]]. injection Ev as <-. cbn [attr].
  revert a E. induction fs as [|m tm r IH]; intros a E; [discriminate|]. cbn in E, HT, ND. inversion ND as [|? ? NI ND']; subst.
  destruct (lookup m d) as [x|] eqn:L; [|discriminate]. apply bind_ok in E as [y [Ey E]]. apply bind_ok in E as [a' [E Ea]].
  injection Ea as <-. destruct (String.eqb_spec n m) as [->|NE].
  - injection HT as ->. exists x, y. split; [exact L|]. cbn. rewrite String.eqb_refl. split; [reflexivity|].
    destruct t as [|e|c']; cbn in Ey.
    + now injection Ey.
    + assert (M : forall k z, member e k = Ok z -> exists k0, z = VEnum (en_name e) k0 /\ (1 <= k0 <= en_size e)%Z).
      { intros k z H. unfold member in H. destruct ((1 <=? k)%Z && (k <=? en_size e)%Z)%bool eqn:B; [|discriminate].
        apply andb_prop in B as [B1 B2]. injection H as <-. exists k. split; [reflexivity|lia]. }
      destruct x; cbn in Ey; try discriminate; eauto.
      * revert Ey. generalize (Z.to_nat (en_size e)) as q. induction q as [|q IHq]; cbn [find_member]; [discriminate|].
        destruct (Reqb _ _); [apply M|exact IHq].
      * destruct (String.eqb _ _); [eauto|discriminate].
    + destruct x; try (now injection Ey); exact Ey.
  - destruct (IH ND' HT a' E) as [x' [y' [L' [A' H']]]]. exists x', y'. split; [exact L'|]. split; [|exact H'].
    cbn. now rewrite eqb_neq'.
Qed.
Print Assumptions C40_attributes.

(** But nested settings are not checked: whatever is not a dictionary is taken as it is, and the result
    is no settings object of the class. *)
Theorem C40_nested_not_checked_refuted :
  ~ (forall c d v, In c all_classes -> json_ok_all d = true -> from_dict c d = Ok v -> conforms c v).
Proof.
  intro H.
  specialize (H AlignmentSettings
    (KCons "preprocessing" VNull (KCons "estimation_settings" (VInt 3) (KCons "stochastics" (VStr "none")
      (KCons "metric_threshold" (VNum 0) (KCons "time_threshold" (VNum 0) KNil))))) _ ltac:(cbn; tauto) eq_refl eq_refl).
  cbn in H. destruct H as [attrs [E H]]. injection E as <-. destruct H as [v [rest [E [H _]]]]. injection E as <- <-.
  destruct H as [a [E _]]. discriminate.
Qed.
Print Assumptions C40_nested_not_checked_refuted.

(** The default matching, sorting and relative comparison settings. *)
Definition default_matching : val :=
  VObj MatchingSettings (KCons "method" (VEnum "MatchingMethod" 1) (KCons "max_time_diff" (VNum (1 / 100))
    (KCons "max_distance" (VNum 0) (KCons "k_nearest" (VInt 10) KNil)))).
Definition default_export : kvs -> val := VObj ExportSettings.
Definition some_alignment : val :=
  VObj AlignmentSettings
    (KCons "preprocessing" (VObj AlignmentPreprocessing
        (KCons "min_speed" (VNum 0) (KCons "time_start" (VNum 0) (KCons "time_end" (VNum 2) KNil))))
    (KCons "estimation_settings" (VObj AlignmentEstimationSettings
        (KCons "trans_x" (VBool true) (KCons "trans_y" (VBool true) (KCons "trans_z" (VBool true) (KCons "rot_x" (VBool true)
        (KCons "rot_y" (VBool true) (KCons "rot_z" (VBool true) (KCons "scale" (VBool false) (KCons "time_shift" (VBool false)
        (KCons "use_x_speed" (VBool true) (KCons "use_y_speed" (VBool true) (KCons "use_z_speed" (VBool true)
        (KCons "lever_x" (VBool false) (KCons "lever_y" (VBool false) (KCons "lever_z" (VBool false)
        (KCons "sensor_rotation" (VBool false) (KCons "auto_update" (VBool false) KNil)))))))))))))))))
    (KCons "stochastics" (VObj AlignmentStochastics
        (KCons "std_xy_from" (VNum 1) (KCons "std_z_from" (VNum 1) (KCons "std_xy_to" (VNum 1) (KCons "std_z_to" (VNum 1)
        (KCons "std_roll_pitch" (VNum 1) (KCons "std_yaw" (VNum 1) (KCons "std_speed" (VNum 1)
        (KCons "error_probability" (VNum (1 / 20)) (KCons "variance_estimation" (VBool false) KNil))))))))))
    (KCons "metric_threshold" (VNum (1 / 10000)) (KCons "time_threshold" (VNum (1 / 10000)) KNil))))).
Ltac conform := cbn; repeat first [lia | reflexivity | eexists | split].
Example C40_case_enum : In MatchingSettings all_classes /\ conforms MatchingSettings default_matching.
Proof. split; [cbn; tauto|]. conform. Qed.
Example C40_case_nested : In AlignmentSettings all_classes /\ conforms AlignmentSettings some_alignment.
Proof. split; [cbn; tauto|]. conform. Qed.

(** ** C41: a failed settings update changes nothing *)
Theorem C41_update_atomic_refuted :
  ~ (forall c v d v' e, In c all_classes -> conforms c v -> update_from_dict v d = (v', Some e) -> v' = v).
Proof.
  intro H.
  specialize (H MatchingSettings default_matching (KCons "method" (VInt 2) KNil) _ _ ltac:(cbn; tauto) (proj2 C40_case_enum) eq_refl).
  injection H as H. discriminate.
Qed.
Print Assumptions C41_update_atomic_refuted.

(** An update succeeds exactly when the dictionary could be read as a new object, and then gives that
    object; otherwise it raises the same exception. *)
Theorem C41_update_is_reading_partial : forall c v d, good_class c -> conforms c v ->
  match from_dict c d with
  | Ok w => update_from_dict v d = (w, None)
  | Err e => exists v', update_from_dict v d = (v', Some e) /\ e = ValueError
  end.
Proof.
  intros c v d G C. destruct (proj1 update_spec c G v C d) as [v' [e [E [F _]]]]. rewrite F. destruct e as [er|].
  - exists v'. split; [exact E|]. apply (proj1 from_errors c d). exact F.
  - exact E.
Qed.
Print Assumptions C41_update_is_reading_partial.

(** After a failed update the attributes before the offending one have their new values, the offending one
    is unchanged (unless it is a nested settings object that was itself updated in part) and the attributes
    after it are unchanged.  It is still a settings object of the same class. *)
Theorem C41_failed_update_partial : forall c v d v' e, good_class c -> conforms c v ->
  update_from_dict v d = (v', Some e) ->
  (exists attrs, v' = VObj c attrs) /\
  exists before n after, names (class_fields c) = (before ++ n :: after)%list /\
    (forall m, In m before -> exists t x y, field_type m (class_fields c) = Some t /\ lookup m d = Some x /\
        from_field t x = Ok y /\ attr v' m = Some y) /\
    (forall m, In m after -> attr v' m = attr v m) /\
    (attr v' n = attr v n \/ exists c' dd, field_type n (class_fields c) = Some (FNested c') /\ lookup n d = Some (VDict dd)) /\
    (lookup n d = None \/ exists t x, field_type n (class_fields c) = Some t /\ lookup n d = Some x /\ from_field t x = Err e).
Proof.
  intros c v d v' e G C E. destruct (proj1 update_spec c G v C d) as [v1 [e1 [E1 [_ [a [a' [-> [-> U]]]]]]]].
  rewrite E in E1. injection E1 as -> <-. split; [eauto|]. cbn [attr]. destruct c as [nm fs]. cbn in *. destruct G as [ND _].
  exact (updates_split fs a d a' e ND U).
Qed.
Print Assumptions C41_failed_update_partial.

(** In particular nothing changes when the first attribute is the one that is missing. *)
Theorem C41_first_missing_partial : forall nm n t r v d, good_class (Cls nm (FCons n t r)) -> conforms (Cls nm (FCons n t r)) v ->
  lookup n d = None -> update_from_dict v d = (v, Some ValueError).
Proof.
  intros nm n t r v d G C L. destruct C as [attrs [-> C]]. unfold update_from_dict. cbn. now rewrite L.
Qed.
Print Assumptions C41_first_missing_partial.

Example C41_case_ok :
  update_from_dict default_matching (KCons "k_nearest" (VInt 4) (KCons "method" (VInt 2) (KCons "max_distance" (VInt 1) (KCons "max_time_diff" (VInt 5) KNil))))
  = (VObj MatchingSettings (KCons "method" (VEnum "MatchingMethod" 2) (KCons "max_time_diff" (VInt 5)
      (KCons "max_distance" (VInt 1) (KCons "k_nearest" (VInt 4) KNil)))), None).
Proof. reflexivity. Qed.
Example C41_case_failed : exists v', update_from_dict some_alignment
    (KCons "preprocessing" (VDict (KCons "min_speed" (VNum 7) KNil)) KNil) = (v', Some ValueError) /\ v' <> some_alignment.
Proof. eexists. split; [reflexivity|]. intro H. injection H as H. lra. Qed.

(** ** C69: a failed save leaves the file as it was *)
Theorem C69_failed_save_refuted :
  ~ (forall v old f e, settings_to_file v (Some old) = (f, Err e) -> f = old).
Proof.
  intro H. specialize (H (VObj MatchingSettings (KCons "method" (VInt 2) KNil)) (Document (VDict KNil)) _ _ eq_refl).
  discriminate.
Qed.
Print Assumptions C69_failed_save_refuted.

(** It always loses the file: nothing can be read from it afterwards, by any class. *)
Theorem C69_failed_save_destroys_refuted : forall v old f e c, settings_to_file v old = (f, Err e) ->
  settings_from_file c f = Err ValueError.
Proof.
  intros v old f e c H. unfold settings_to_file in H. destruct (to_json v); [discriminate|]. injection H as <- _. reflexivity.
Qed.
Print Assumptions C69_failed_save_destroys_refuted.

(** Saving fails only for objects with attributes of the wrong kind. *)
Theorem C69_save_partial : forall c v old, good_class c -> conforms c v -> exists f, settings_to_file v old = (f, Ok tt).
Proof. intros c v old G C. destruct (C40_file_round_trip c v old G C) as [f [E _]]. eauto. Qed.
Print Assumptions C69_save_partial.
Example C69_case : settings_to_file (VObj MatchingSettings (KCons "method" (VInt 2) KNil)) (Some (Document (VDict KNil))) = (Empty, Err AttributeError)
  /\ good_class MatchingSettings /\ conforms MatchingSettings default_matching.
Proof.
  split; [reflexivity|]. split; [|apply C40_case_enum]. pose proof all_classes_good as G. rewrite Forall_forall in G. apply G. cbn; tauto.
Qed.
