(** C142: settings files as text, also if writing them is interrupted. *)
From Verif Require Import Base BaseFacts TextModel TextFacts SettModel SettSpec SettFacts SettProps TornModel TornFacts ParamModel ParamSpec ParamFacts3 StoreFacts5 StoreFacts6
  JsonModel JsonSpec JsonFacts JsonFacts2 JsonFacts3.
Local Open Scope string_scope.

(** Settings of any class, also with texts that need escaping, are read from the characters of the file as they were saved. *)
Theorem C142_round_trip : forall show float is_float c v, float_format show float is_float -> good_class c -> conforms c v -> storable is_float v ->
  exists text, settings_text show v = Ok text /\ settings_from_text float c text = Ok v.
Proof.
  intros show float is_float c v FC G C ST. destruct (proj1 round_trip c G v C) as [d [E [J F]]].
  pose proof (proj1 (storable_dict is_float) c G v C ST d E) as SD. exists (dumps show 0 (VDict d)). unfold settings_text, to_json. rewrite E. cbn [bind json_ok]. rewrite J.
  split; [reflexivity|]. unfold settings_from_text. rewrite (loads_dumps show float is_float FC d J SD). exact F.
Qed.
Print Assumptions C142_round_trip.

(** Saving is stopped at any point: either the file is as it was, or it holds all settings, or every reader refuses it with a
    ValueError; nobody reads settings that were never saved. *)
Theorem C142_interrupted : forall show float is_float c v before n, float_format show float is_float -> good_class c -> conforms c v -> storable is_float v ->
  exists text, settings_text show v = Ok text /\
  let now := settings_interrupted show before v n in
  (n = 0 -> now = before)%nat /\
  (0 < n <= String.length text -> forall c', settings_from_text float c' now = Err ValueError)%nat /\
  (String.length text < n -> now = text /\ settings_from_text float c now = Ok v)%nat.
Proof.
  intros show float is_float c v before n FC G C ST. destruct (C142_round_trip show float is_float c v FC G C ST) as [text [T R]]. exists text. split; [exact T|].
  unfold settings_interrupted. rewrite T. split; [intros ->; reflexivity|]. split.
  - intros [N L] c'. destruct n as [|k]; [lia|]. unfold on_disk, opened. cbn [append]. destruct (proj1 round_trip c G v C) as [d [E [J _]]].
    pose proof (proj1 (storable_dict is_float) c G v C ST d E) as SD. unfold settings_text, to_json in T. rewrite E in T. cbn [bind json_ok] in T. rewrite J in T. cbn [bind] in T. injection T as <-.
    destruct (take_split (dumps show 0 (VDict d)) k) as [q Q]. unfold settings_from_text. rewrite (beginning_refused show float is_float FC d _ q J SD Q); [reflexivity|].
    intros ->. rewrite append_nil in Q. apply (f_equal String.length) in Q. rewrite take_length in Q by lia. lia.
  - intro L. destruct n as [|k]; [lia|]. unfold on_disk, opened. cbn [append]. rewrite take_whole by lia. auto.
Qed.
Print Assumptions C142_interrupted.

(** Settings that cannot be saved leave a file that every reader refuses. *)
Theorem C142_not_saved : forall show float c before v n e, settings_text show v = Err e -> (0 < n)%nat ->
  settings_from_text float c (settings_interrupted show before v n) = Err ValueError.
Proof. intros show float c before v n e E N. unfold settings_interrupted. rewrite E. destruct n as [|k]; [lia|]. destruct k; reflexivity. Qed.
Print Assumptions C142_not_saved.

(** ** Cases *)
Definition odd_report : val :=
  VObj ExportSettings (KCons "format" (VStr (String quote (String backslash (String newline (String (ascii_of_nat 176) "{"))))) (KCons "height" (VInt (-500))
    (KCons "width" (VNum (1 / 100)) (KCons "scale" (VDict (KCons "a" VNull (KCons "b" (VBool true) KNil))) KNil)))).
Lemma hundredth : fifteen (1 / 100).
Proof.
  unfold fifteen. replace (1 / 100) with (IZR 10000000000000 * / 10 ^ 15) by (cbn; field). apply (proj2 (round_decimals_format 15) 10000000000000%Z).
Qed.
Example C142_case : float_format exp_show exp_float fifteen /\ good_class ExportSettings /\ conforms ExportSettings odd_report /\ storable fifteen odd_report /\
  settings_text exp_show (VObj ExportSettings (KCons "format" (VStr "p{""") (KCons "height" (VInt (-5)) (KCons "width" VNull (KCons "scale" (VDict KNil) KNil))))) =
    Ok ("{" ++ String newline "    ""format"": ""p{\"""""
        ++ "," ++ String newline "    ""height"": -5," ++ String newline "    ""width"": null," ++ String newline "    ""scale"": {}" ++ String newline "}").
Proof.
  split; [exact exp_float_format|]. split; [pose proof all_classes_good as G; rewrite Forall_forall in G; apply G; cbn; tauto|]. split; [conform|]. split; [|reflexivity].
  cbn. pose proof hundredth. repeat split; try assumption. repeat constructor; cbn; intuition discriminate.
Qed.
