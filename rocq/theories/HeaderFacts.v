(** Facts about header parsing. *)
From Verif Require Import Base BaseFacts EstModel TextModel TextFacts HeaderModel NumpyModel TrajModel TrajSpec GeomModel GeomSpec IoModel IoSpec.
Local Open Scope string_scope.
Local Arguments Ascii.eqb : simpl never.
Local Opaque newline return_char.

Lemma words_cons c r : is_space c = false -> exists w ws, words (String c r) = String c w :: ws.
Proof.
  intro H. cbn [words]. rewrite H. destruct r as [|c' r']; [eexists; eexists; reflexivity|].
  destruct (is_space c'); [eexists; eexists; reflexivity|].
  destruct (words (String c' r')); eexists; eexists; reflexivity.
Qed.

Definition known (k : string) : bool := existsb (String.eqb k) HEADER_KEYS.
Lemma known_in k : known k = true <-> In k HEADER_KEYS.
Proof.
  unfold known. rewrite existsb_exists. split.
  - intros [x [I E]]. apply String.eqb_eq in E as ->. exact I.
  - intro I. exists k. split; [exact I|apply String.eqb_refl].
Qed.

(** A line carries at most one tag. *)
Lemma tag_unique k k' l : tag_line k l -> tag_line k' l -> k = k'.
Proof. intros [_ [a A]] [_ [b B]]. rewrite A in B. inversion B. reflexivity. Qed.

(** What one line does *)
Lemma handle_line_cases T h l :
  (exists k, In k HEADER_KEYS /\ tag_line k l /\ handle_line T h l = let! v := handler T k l in Ok ((k, v) :: h)) \/
  ((forall k, In k HEADER_KEYS -> ~ tag_line k l) /\ handle_line T h l = Ok h).
Proof.
  unfold handle_line. destruct (strip_prefix "#" l) as [r|] eqn:P.
  - apply strip_prefix_some in P. subst l. change ("#" ++ r) with (String "#" r).
    destruct (words_cons "#" r eq_refl) as [k [ws W]]. rewrite W. fold (known k).
    destruct (known k) eqn:K.
    + left. exists k. split; [apply known_in; exact K|]. split; [|reflexivity].
      split; [exists r; reflexivity|exists ws; exact W].
    + right. split; [|reflexivity]. intros k' I [_ [ws' W']].
      rewrite W in W'. inversion W'; subst k'.
      apply known_in in I. congruence.
  - right. split; [|reflexivity]. intros k _ [[r ->] _]. rewrite strip_prefix_app in P. discriminate.
Qed.

Lemma get_cons k k' v h : get ((k', v) :: h) k = if String.eqb k' k then Some v else get h k.
Proof. unfold get. cbn. destruct (String.eqb k' k); reflexivity. Qed.

Lemma untagged_cons k l ls : untagged k (l :: ls) <-> ~ tag_line k l /\ untagged k ls.
Proof.
  split.
  - intro U. split; [apply U; left; reflexivity|intros x I; apply U; right; exact I].
  - intros [A B] x [<-|I]; [exact A|apply B; exact I].
Qed.

Lemma tag_dec k l : {tag_line k l} + {~ tag_line k l}.
Proof.
  destruct (strip_prefix "#" l) as [r|] eqn:P.
  - apply strip_prefix_some in P. destruct (words l) as [|w ws] eqn:W.
    + right. intros [_ [ws' W']]. congruence.
    + destruct (string_dec w ("#" ++ k)) as [->|N].
      * left. split; [exists r; exact P|exists ws; exact W].
      * right. intros [_ [ws' W']]. congruence.
  - right. intros [[r ->] _]. rewrite strip_prefix_app in P. discriminate.
Qed.

Lemma untagged_dec k ls : {untagged k ls} + {~ untagged k ls}.
Proof.
  induction ls as [|l ls IH]; [left; intros x []|].
  destruct (tag_dec k l) as [Y|N]; [right; intro U; apply (U l); [left; reflexivity|exact Y]|].
  destruct IH as [Y|N']; [left; apply untagged_cons; split; assumption|].
  right. intro U. apply untagged_cons in U as [_ U]. exact (N' U).
Qed.

Lemma tagged_last k ls : ~ untagged k ls -> exists l, last_tagged k ls l.
Proof.
  induction ls as [|l ls IH]; intro N; [exfalso; apply N; intros x []|].
  destruct (untagged_dec k ls) as [U|N'].
  - destruct (tag_dec k l) as [Y|X].
    + exists l, [], ls. repeat split; try exact U; apply Y.
    + exfalso. apply N. apply untagged_cons. split; assumption.
  - destruct (IH N') as [x [b [a [E [Y U]]]]]. exists x, (l :: b), a. rewrite E. repeat split; try exact U; apply Y.
Qed.

Lemma last_tagged_cons k l ls x : last_tagged k (l :: ls) x -> last_tagged k ls x \/ (x = l /\ tag_line k l /\ untagged k ls).
Proof.
  intros [b [a [E [Y U]]]]. destruct b as [|y b]; cbn in E; inversion E; subst.
  - right. repeat split; try exact U; apply Y.
  - left. exists b, a. repeat split; try exact U; apply Y.
Qed.

Lemma handle_lines_get T : forall ls h h', handle_lines T h ls = Ok h' -> forall k, In k HEADER_KEYS ->
  (untagged k ls -> get h' k = get h k) /\
  (forall l, last_tagged k ls l -> exists v, handler T k l = Ok v /\ get h' k = Some v).
Proof.
  induction ls as [|l ls IH]; intros h h' H k I.
  - cbn in H. injection H as <-. split; [reflexivity|]. intros l [b [a [E _]]]. destruct b; discriminate.
  - cbn [handle_lines] in H. apply bind_ok in H as [h1 [H1 H]]. specialize (IH _ _ H k I) as [IU IL].
    destruct (handle_line_cases T h l) as [[k' [I' [Y E]]]|[N E]]; rewrite E in H1.
    + apply bind_ok in H1 as [v [V H1]]. injection H1 as <-. split.
      * intro U. apply untagged_cons in U as [N U]. rewrite (IU U), get_cons.
        destruct (String.eqb k' k) eqn:K; [|reflexivity]. apply String.eqb_eq in K. subst k'. contradiction.
      * intros x L. apply last_tagged_cons in L as [L|[-> [Y' U]]]; [exact (IL x L)|].
        assert (k = k') as <- by (eapply tag_unique; eassumption). exists v. split; [exact V|].
        rewrite (IU U), get_cons, String.eqb_refl. reflexivity.
    + injection H1 as <-. split.
      * intro U. apply untagged_cons in U as [_ U]. exact (IU U).
      * intros x L. apply last_tagged_cons in L as [L|[-> [Y' U]]]; [exact (IL x L)|].
        exfalso. exact (N k I Y').
Qed.

(** Parsing succeeds exactly if every known tag's line can be handled. *)
Lemma handle_lines_ok T : forall ls h,
  (exists h', handle_lines T h ls = Ok h') <->
  (forall l k, In l ls -> In k HEADER_KEYS -> tag_line k l -> exists v, handler T k l = Ok v).
Proof.
  induction ls as [|l ls IH]; intro h.
  - split; [intros _ l k []|intros _; exists h; reflexivity].
  - cbn [handle_lines]. split.
    + intros [h' H]. apply bind_ok in H as [h1 [H1 H]]. intros x k [<-|I] K Y.
      * destruct (handle_line_cases T h l) as [[k' [I' [Y' E]]]|[N E]]; [|exfalso; exact (N k K Y)].
        rewrite E in H1. apply bind_ok in H1 as [v [V _]].
        assert (k = k') as -> by (eapply tag_unique; eassumption). exists v. exact V.
      * exact (proj1 (IH h1) (ex_intro _ h' H) x k I K Y).
    + intro A. destruct (handle_line_cases T h l) as [[k [I [Y E]]]|[N E]]; rewrite E.
      * destruct (A l k (or_introl eq_refl) I Y) as [v V]. rewrite V. cbn [bind].
        apply IH. intros x k' I'. apply A. right. exact I'.
      * cbn [bind]. apply IH. intros x k' I'. apply A. right. exact I'.
Qed.

(** Values of the tags *)
Lemma handler_text k l : k <> "epsg" -> k <> "delimiter" -> k <> "gps_week" -> k <> "time_offset" ->
  forall T, handler T k l = Ok (HStr (join " " (tl (words l)))).
Proof.
  intros A B C D T. unfold handler. apply String.eqb_neq in A, B, C, D. rewrite A, B, C, D. reflexivity.
Qed.

Section Values.
  Context (T : text_ops) (ls : list string) (h : header) (H : handle_lines T [] ls = Ok h).

  Lemma text_value k d : In k HEADER_KEYS -> k <> "epsg" -> k <> "delimiter" -> k <> "gps_week" -> k <> "time_offset" ->
    tag_value ls k d says_text (get_str h k d).
  Proof.
    intros I A B C D. destruct (handle_lines_get T ls [] h H k I) as [U L]. split.
    - intro X. unfold get_str. rewrite (U X). reflexivity.
    - intros l X. destruct (L l X) as [v [V G]]. rewrite handler_text in V by assumption. injection V as <-.
      unfold get_str. rewrite G. reflexivity.
  Qed.

  Lemma tag_value_map {A B} k (d : A) (f : A -> B) says v : tag_value ls k d says v ->
    tag_value ls k (f d) (fun l => option_map f (says l)) (f v).
  Proof. intros [U L]. split; [intro X; rewrite (U X); reflexivity|intros l X; rewrite (L l X); reflexivity]. Qed.

  Lemma int_value k (d : Z) : In k ["epsg"; "gps_week"] ->
    tag_value ls k d (says_int T) (match get h k with Some (HInt z) => z | _ => d end).
  Proof.
    intro I. assert (In k HEADER_KEYS) as I' by (cbn in I |- *; intuition auto).
    destruct (handle_lines_get T ls [] h H k I') as [U L]. split.
    - intro X. rewrite (U X). reflexivity.
    - intros l X. destruct (L l X) as [v [V G]]. rewrite G.
      assert (handler T k l = integer_line_handler T l) as E.
      { destruct I as [<-|[<-|[]]]; reflexivity. }
      rewrite E in V. unfold integer_line_handler in V. unfold says_int.
      destruct (words l) as [|a [|w ws]]; cbn in V; try discriminate.
      destruct (integer T w); [|discriminate]. injection V as <-. reflexivity.
  Qed.

  Lemma offset_value : tag_value ls "time_offset" (Fin 0) (says_num T) (h_time_offset h).
  Proof.
    assert (In "time_offset" HEADER_KEYS) as I by (cbn; tauto).
    destruct (handle_lines_get T ls [] h H _ I) as [U L]. unfold h_time_offset. split.
    - intro X. rewrite (U X). reflexivity.
    - intros l X. destruct (L l X) as [v [V G]]. rewrite G.
      change (handler T "time_offset" l) with (float_line_handler T l) in V.
      unfold float_line_handler in V. unfold says_num.
      destruct (words l) as [|a [|w ws]]; cbn in V; try discriminate.
      destruct (number T w); [|discriminate]. injection V as <-. reflexivity.
  Qed.

  Lemma delimiter_value : tag_value ls "delimiter" ","
    (fun l => Some (match search_delimiter l with Some d => String d "" | None => "," end)) (h_delimiter h).
  Proof.
    assert (In "delimiter" HEADER_KEYS) as I by (cbn; tauto).
    destruct (handle_lines_get T ls [] h H _ I) as [U L]. unfold h_delimiter, get_str. split.
    - intro X. rewrite (U X). reflexivity.
    - intros l X. destruct (L l X) as [v [V G]]. rewrite G.
      change (handler T "delimiter" l) with (delimiter_line_handler l) in V. injection V as <-. reflexivity.
  Qed.
End Values.

(** The delimiter of a well-formed delimiter line *)
Lemma search_delimiter_regular a b d rest : is_quote a = true -> is_quote b = true ->
  search_delimiter ("#delimiter " ++ String a (String d (String b rest))) = Some d.
Proof. intros A B. cbn. unfold Ascii.eqb. cbn. rewrite A, B. reflexivity. Qed.
