(** Facts about the text functions. *)
From Verif Require Import Base TextModel.
Local Open Scope string_scope.
Local Arguments Ascii.eqb : simpl never.
Local Opaque newline return_char.

Lemma append_nil s : s ++ "" = s.
Proof. induction s as [|c s IH]; cbn; congruence. Qed.
Lemma append_assoc (a b c : string) : (a ++ b) ++ c = a ++ b ++ c.
Proof. induction a as [|x a IH]; cbn; congruence. Qed.

Lemma eqb_neq_ascii a b : Ascii.eqb a b = false <-> a <> b.
Proof. apply Ascii.eqb_neq. Qed.

Lemma has_char_app ch a b : has_char ch (a ++ b) = (has_char ch a || has_char ch b)%bool.
Proof. induction a as [|c a IH]; cbn; [reflexivity|rewrite IH, orb_assoc; reflexivity]. Qed.

(** No character that separates words *)
Fixpoint spaceless (s : string) : bool :=
  match s with "" => true | String c r => (negb (is_space c) && spaceless r)%bool end.
Definition word (w : string) : Prop := w <> "" /\ spaceless w = true.

Lemma spaceless_app a b : spaceless (a ++ b) = (spaceless a && spaceless b)%bool.
Proof. induction a as [|c a IH]; cbn; [reflexivity|rewrite IH, andb_assoc; reflexivity]. Qed.

Lemma words_space c s : is_space c = true -> words (String c s) = words s.
Proof. intro H. cbn. rewrite H. reflexivity. Qed.

Lemma words_word w : word w -> words w = [w].
Proof.
  intros [N S]. induction w as [|c w IH]; [congruence|].
  cbn in S. apply andb_prop in S as [C S]. apply negb_true_iff in C.
  cbn [words]. rewrite C. destruct w as [|c' w']; [reflexivity|].
  assert (is_space c' = false) as C' by (cbn in S; apply andb_prop in S as [X _]; apply negb_true_iff in X; exact X).
  rewrite C', IH; [reflexivity|congruence|exact S].
Qed.

Lemma words_app_space w c s : word w -> is_space c = true -> words (w ++ String c s) = w :: words s.
Proof.
  intros [N S] HC. induction w as [|a w IH]; [congruence|].
  cbn in S. apply andb_prop in S as [C S]. apply negb_true_iff in C.
  destruct w as [|b w'].
  - cbn. rewrite C, HC. reflexivity.
  - assert (is_space b = false) as C' by (cbn in S; apply andb_prop in S as [X _]; apply negb_true_iff in X; exact X).
    specialize (IH ltac:(congruence) S).
    change ((String a (String b w')) ++ String c s) with (String a (String b w' ++ String c s)).
    remember (String b w' ++ String c s) as rest eqn:E.
    assert (rest = String b (w' ++ String c s)) as E' by exact E.
    cbn [words]. rewrite C, IH. rewrite E' in *. rewrite C'. reflexivity.
Qed.

Lemma words_first_space c s : words (String c s) = [] -> is_space c = true.
Proof.
  cbn. destruct (is_space c) eqn:E; [reflexivity|]. intro H. exfalso.
  destruct s as [|c' s']; [discriminate|]. destruct (is_space c'); [discriminate|].
  destruct (words (String c' s')); discriminate.
Qed.

Lemma words_words s : Forall word (words s).
Proof.
  induction s as [|c s IH]; [constructor|].
  cbn [words]. destruct (is_space c) eqn:E; [exact IH|].
  destruct s as [|c' s'].
  - constructor; [split; [congruence|cbn; rewrite E; reflexivity]|constructor].
  - destruct (is_space c') eqn:E'.
    + constructor; [split; [congruence|cbn; rewrite E; reflexivity]|exact IH].
    + destruct (words (String c' s')) as [|w ws] eqn:W.
      * constructor; [split; [congruence|cbn; rewrite E; reflexivity]|constructor].
      * inversion IH as [|? ? [N S] F]; subst. constructor; [|exact F].
        split; [congruence|cbn; rewrite E, S; reflexivity].
Qed.

Lemma words_join l : Forall word l -> words (join " " l) = l.
Proof.
  induction l as [|w l IH]; [reflexivity|]. intro F. inversion F as [|? ? W F']; subst.
  destruct l as [|w' l']; [apply words_word; exact W|].
  change (join " " (w :: w' :: l')) with (w ++ String " "%char (join " " (w' :: l'))).
  rewrite words_app_space; [rewrite IH; [reflexivity|exact F']|exact W|reflexivity].
Qed.

(** Text without irregular white space: what joining its words gives back. *)
Definition regular (s : string) : Prop := join " " (words s) = s.
Lemma regular_collapse s : regular (join " " (words s)).
Proof. unfold regular. rewrite words_join; [reflexivity|apply words_words]. Qed.

Lemma split_on_none ch w : has_char ch w = false -> split_on ch w = [w].
Proof.
  induction w as [|c w IH]; [reflexivity|]. cbn. intro H. apply orb_false_iff in H as [A B].
  rewrite Ascii.eqb_sym, A, (IH B). reflexivity.
Qed.
Lemma split_on_cut ch w s : has_char ch w = false -> split_on ch (w ++ String ch s) = w :: split_on ch s.
Proof.
  induction w as [|c w IH]; cbn.
  - intros _. rewrite Ascii.eqb_refl. reflexivity.
  - intro H. apply orb_false_iff in H as [A B]. rewrite Ascii.eqb_sym, A, (IH B). reflexivity.
Qed.
Lemma split_on_join ch l : l <> [] -> Forall (fun w => has_char ch w = false) l ->
  split_on ch (join (String ch "") l) = l.
Proof.
  induction l as [|w l IH]; [congruence|]. intros _ F. inversion F as [|? ? W F']; subst.
  destruct l as [|w' l']; [apply split_on_none; exact W|].
  change (join (String ch "") (w :: w' :: l')) with (w ++ String ch (join (String ch "") (w' :: l'))).
  rewrite split_on_cut; [rewrite IH; [reflexivity|congruence|exact F']|exact W].
Qed.

(** A text without line ends *)
Definition one_line (s : string) : Prop := has_char newline s = false /\ has_char return_char s = false.

Lemma file_lines_cut l s : one_line l -> file_lines (l ++ String newline s) = l :: file_lines s.
Proof.
  intros [A B]. induction l as [|c l IH].
  - cbn. destruct s as [|c' s']; [reflexivity|]. reflexivity.
  - cbn in A, B. apply orb_false_iff in A as [A1 A2]. apply orb_false_iff in B as [B1 B2].
    change (String c l ++ String newline s) with (String c (l ++ String newline s)).
    cbn [file_lines]. rewrite (Ascii.eqb_sym c newline), A1, (Ascii.eqb_sym c return_char), B1. cbn [orb].
    specialize (IH A2 B2).
    destruct (l ++ String newline s) as [|x y] eqn:E; [destruct l; discriminate|].
    rewrite IH. reflexivity.
Qed.

Lemma one_line_app a b : one_line a -> one_line b -> one_line (a ++ b).
Proof. intros [A B] [C D]. split; rewrite has_char_app; [rewrite A, C|rewrite B, D]; reflexivity. Qed.

Lemma file_lines_text lines rest : Forall one_line lines ->
  file_lines (fold_right (fun l s => (l ++ String newline "") ++ s) rest lines) = (lines ++ file_lines rest)%list.
Proof.
  induction 1 as [|l ls H F IH]; [reflexivity|].
  cbn [fold_right]. rewrite append_assoc. cbn [append]. rewrite file_lines_cut by exact H. rewrite IH. reflexivity.
Qed.

Lemma strip_prefix_app p s : strip_prefix p (p ++ s) = Some s.
Proof. induction p as [|c p IH]; [reflexivity|]. cbn. rewrite Ascii.eqb_refl. exact IH. Qed.
Lemma strip_prefix_some p s r : strip_prefix p s = Some r <-> s = p ++ r.
Proof.
  split; [|intros ->; apply strip_prefix_app].
  revert s. induction p as [|c p IH]; intros s; cbn; [congruence|].
  destruct s as [|d s]; [congruence|]. destruct (Ascii.eqb c d) eqn:E; [|congruence].
  apply Ascii.eqb_eq in E as ->. intro H. rewrite (IH _ H). reflexivity.
Qed.

(** Characters of joined texts *)
Lemma has_char_join ch sep l : has_char ch sep = false -> Forall (fun w => has_char ch w = false) l ->
  has_char ch (join sep l) = false.
Proof.
  intros S F. induction F as [|w l H F IH]; [reflexivity|].
  destruct l as [|w' l']; [exact H|].
  change (join sep (w :: w' :: l')) with (w ++ sep ++ join sep (w' :: l')).
  rewrite !has_char_app, H, S, IH. reflexivity.
Qed.

Lemma spaceless_char ch s : spaceless s = true -> is_space ch = true -> has_char ch s = false.
Proof.
  intros S C. induction s as [|c s IH]; [reflexivity|]. cbn in *. apply andb_prop in S as [A S].
  apply orb_false_iff. split; [|exact (IH S)]. apply Ascii.eqb_neq. intros ->. rewrite C in A. discriminate.
Qed.
Lemma spaceless_one_line s : spaceless s = true -> one_line s.
Proof. intro S. split; apply spaceless_char; try exact S; reflexivity. Qed.
