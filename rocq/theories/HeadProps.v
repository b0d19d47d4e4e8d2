(** C46, continued: how reading a header fails. *)
From Verif Require Import Base BaseFacts EstModel TextModel TextFacts HeaderModel NumpyModel TrajModel TrajSpec GeomModel GeomSpec IoModel IoSpec HeaderFacts IoFacts IoFacts2 IoFacts3 IoFacts4 IoProps.
Local Open Scope string_scope.

Lemma handler_fails T k l e : tag_line k l -> handler T k l = Err e ->
  ((k = "epsg" \/ k = "gps_week") /\ says_int T l = None \/ k = "time_offset" /\ says_num T l = None) /\
  (e = IndexError /\ words l = ["#" ++ k] \/ e = ValueError /\ exists w ws, words l = ("#" ++ k) :: w :: ws).
Proof.
  intros [_ [ws W]] H.
  assert (I : (k = "epsg" \/ k = "gps_week") -> handler T k l = integer_line_handler T l) by (intros [-> | ->]; reflexivity).
  assert (N : k = "time_offset" -> handler T k l = float_line_handler T l) by (intros ->; reflexivity).
  destruct (string_dec k "epsg") as [E1|N1]; [|destruct (string_dec k "gps_week") as [E2|N2]; [|destruct (string_dec k "time_offset") as [E3|N3]; [|destruct (string_dec k "delimiter") as [E4|N4]]]].
  1,2: rewrite I in H by tauto; unfold integer_line_handler in H; unfold says_int; rewrite W in H |- *; destruct ws as [|w ws]; cbn [nth_error] in H;
    [injection H as <-; split; [left; tauto|left; tauto]|destruct (integer T w) eqn:Z; [discriminate|]; injection H as <-; split; [left; tauto|right; eauto]].
  - rewrite N in H by tauto; unfold float_line_handler in H; unfold says_num; rewrite W in H |- *; destruct ws as [|w ws]; cbn [nth_error] in H;
    [injection H as <-; split; [right; tauto|left; tauto]|destruct (number T w) eqn:Z; [discriminate|]; injection H as <-; split; [right; tauto|right; eauto]].
  - subst k. discriminate H.
  - rewrite (handler_text k l) in H by assumption. discriminate H.
Qed.

Lemma reads_int T k l v : k = "epsg" \/ k = "gps_week" -> handler T k l = Ok v -> exists z, says_int T l = Some z.
Proof.
  intros K V. assert (handler T k l = integer_line_handler T l) as E by (destruct K as [-> | ->]; reflexivity). rewrite E in V. unfold integer_line_handler in V. unfold says_int.
  destruct (words l) as [|a [|w ws]]; cbn in V; try discriminate. destruct (integer T w) as [z|]; [exists z; reflexivity|discriminate].
Qed.
Lemma reads_num T l v : handler T "time_offset" l = Ok v -> exists z, says_num T l = Some z.
Proof.
  intro V. change (handler T "time_offset" l) with (float_line_handler T l) in V. unfold float_line_handler in V. unfold says_num.
  destruct (words l) as [|a [|w ws]]; cbn in V; try discriminate. destruct (number T w) as [z|]; [exists z; reflexivity|discriminate].
Qed.

(** Reading stops at the first epsg, gps_week or time_offset line without a readable number: with IndexError if nothing follows the
    tag, with ValueError if what follows is not a number. *)
Theorem C46_failure : forall T text e, header_from_file T text = Err e ->
  exists before l after k, file_lines text = (before ++ l :: after)%list /\ tag_line k l /\
    (forall l', In l' before -> (tag_line "epsg" l' \/ tag_line "gps_week" l' -> exists z, says_int T l' = Some z) /\ (tag_line "time_offset" l' -> exists x, says_num T l' = Some x)) /\
    ((k = "epsg" \/ k = "gps_week") /\ says_int T l = None \/ k = "time_offset" /\ says_num T l = None) /\
    (e = IndexError /\ words l = ["#" ++ k] \/ e = ValueError /\ exists w ws, words l = ("#" ++ k) :: w :: ws).
Proof.
  intros T text e H. unfold header_from_file in H.
  assert (G : forall ls h, handle_lines T h ls = Err e -> exists before l after k h', ls = (before ++ l :: after)%list /\ handle_lines T h before = Ok h' /\ tag_line k l /\ handler T k l = Err e).
  { induction ls as [|l ls IH]; intros h E; [discriminate|]. cbn [handle_lines] in E.
    destruct (handle_line_cases T h l) as [(k & K & TL & EL)|[_ EL]].
    - rewrite EL in E. destruct (handler T k l) as [v|e'] eqn:Hh.
      + cbn [bind] in E. destruct (IH _ E) as (b & l' & a & k' & h' & -> & B & TL' & HE). exists (l :: b), l', a, k', h'.
        split; [reflexivity|]. split; [cbn [handle_lines]; rewrite EL, ?Hh; exact B|]. auto.
      + cbn [bind] in E. injection E as ->. exists [], l, ls, k, h. split; [reflexivity|]. split; [reflexivity|]. auto.
    - rewrite EL in E. cbn [bind] in E. destruct (IH _ E) as (b & l' & a & k' & h' & -> & B & TL' & HE). exists (l :: b), l', a, k', h'.
      split; [reflexivity|]. split; [cbn [handle_lines]; rewrite EL; exact B|]. auto. }
  destruct (G _ _ H) as (b & l & a & k & h & E & B & TL & HE). destruct (handler_fails T k l e TL HE) as [X Y].
  exists b, l, a, k. split; [exact E|]. split; [exact TL|]. split; [|auto].
  assert (R := proj1 (handle_lines_ok T b []) (ex_intro _ h B)). intros l' I. split.
  - intros [Z|Z]; [destruct (R l' "epsg" I ltac:(cbn; tauto) Z) as [v V]|destruct (R l' "gps_week" I ltac:(cbn; tauto) Z) as [v V]]; eapply reads_int; try exact V; tauto.
  - intro Z. destruct (R l' "time_offset" I ltac:(cbn; tauto) Z) as [v V]. exact (reads_num T l' v V).
Qed.
Print Assumptions C46_failure.

Example C46_failure_case :
  header_from_file sample_text ("#name a" ++ String newline ("#time_offset" ++ String newline ("#epsg x" ++ String newline ""))) = Err IndexError /\
  header_from_file sample_text ("#time_offset later" ++ String newline ("#epsg" ++ String newline "")) = Err ValueError.
Proof. split; vm_compute; reflexivity. Qed.
