(** JSON text is read as it was written. *)
From Coq Require Import DecimalString DecimalZ Decimal.
From Verif Require Import Base BaseFacts TextModel TextFacts IoFacts4 TornFacts SettModel SettSpec JsonModel JsonSpec JsonFacts.
Local Open Scope string_scope.

(** ** Quoted texts *)
Lemma scan_escaped c t : scan_string (escaped c ++ t) = match scan_string t with Some (x, r) => Some (String c x, r) | None => None end.
Proof. destruct c as [b0 b1 b2 b3 b4 b5 b6 b7]; destruct b0, b1, b2, b3, b4, b5, b6, b7; reflexivity. Qed.
Lemma scan_escape_all s t : scan_string (escape_all s ++ String quote t) = Some (s, t).
Proof. induction s as [|c s IH]; [reflexivity|]. cbn [escape_all]. rewrite append_assoc, scan_escaped, IH. reflexivity. Qed.

(** ** Numbers *)
Definition stop (s : string) : Prop := match s with "" => True | String c _ => c = ","%char \/ c = newline end.
Lemma digit_run_app s t : stop t -> digit_run (s ++ t) = (fst (digit_run s), snd (digit_run s) ++ t).
Proof.
  intro T. induction s as [|c s IH]; cbn [append digit_run].
  - destruct t as [|c t]; [reflexivity|]. cbn [digit_run]. destruct T as [->| ->]; reflexivity.
  - destruct (is_digit c); [|reflexivity]. rewrite IH. destruct (digit_run s). reflexivity.
Qed.
Lemma int_token_app s t i r : stop t -> int_token s = Some (i, r) -> int_token (s ++ t) = Some (i, r ++ t).
Proof.
  intros T. destruct s as [|c s]; [discriminate|]. cbn [append int_token]. destruct (Ascii.eqb c "0"); [intro E; injection E as <- <-; reflexivity|].
  destruct (is_digit c). { rewrite digit_run_app by exact T. destruct (digit_run s). intro E. injection E as <- <-. reflexivity. }
  destruct (Ascii.eqb c "-"); [|discriminate]. destruct s as [|c' s]; [discriminate|]. cbn [append]. destruct (Ascii.eqb c' "0"); [intro E; injection E as <- <-; reflexivity|].
  destruct (is_digit c'); [|discriminate]. rewrite digit_run_app by exact T. destruct (digit_run s). intro E. injection E as <- <-. reflexivity.
Qed.
Lemma frac_stop t : stop t -> frac_token t = ("", t).
Proof. destruct t as [|c t]; [reflexivity|]. intros [->| ->]; reflexivity. Qed.
Lemma exp_stop t : stop t -> exp_token t = ("", t).
Proof. destruct t as [|c t]; [reflexivity|]. intros [->| ->]; reflexivity. Qed.
Lemma frac_token_app s t f r : stop t -> frac_token s = (f, r) -> frac_token (s ++ t) = (f, r ++ t).
Proof.
  intros T. destruct s as [|c s]; [intro E; injection E as <- <-; apply frac_stop; exact T|]. cbn [append frac_token].
  destruct (Ascii.eqb c "."); [|intro E; injection E as <- <-; reflexivity]. rewrite digit_run_app by exact T. destruct (digit_run s) as [d u]. cbn [fst snd].
  destruct d; intro E; injection E as <- <-; reflexivity.
Qed.
Lemma exp_token_app s t f r : stop t -> exp_token s = (f, r) -> exp_token (s ++ t) = (f, r ++ t).
Proof.
  intros T. destruct s as [|c s]; [intro E; injection E as <- <-; apply exp_stop; exact T|]. cbn [append exp_token].
  destruct (Ascii.eqb c "e" || Ascii.eqb c "E")%bool; [|intro E; injection E as <- <-; reflexivity].
  destruct s as [|c' s]; cbn [append].
  - intro E. injection E as <- <-. destruct t as [|c' t]; [reflexivity|]. destruct T as [->| ->]; reflexivity.
  - destruct (Ascii.eqb c' "-" || Ascii.eqb c' "+")%bool.
    + rewrite digit_run_app by exact T. destruct (digit_run s) as [d u]. cbn [fst snd]. destruct d; intro E; injection E as <- <-; reflexivity.
    + change (String c' (s ++ t)) with (String c' s ++ t). rewrite digit_run_app by exact T. destruct (digit_run (String c' s)) as [d u]. cbn [fst snd].
      destruct d; intro E; injection E as <- <-; reflexivity.
Qed.
Lemma number_token_app s t i f e r : stop t -> number_token s = Some (i, f, e, r) -> number_token (s ++ t) = Some (i, f, e, r ++ t).
Proof.
  intros T. unfold number_token. destruct (int_token s) as [[i0 r0]|] eqn:A; [|discriminate]. rewrite (int_token_app _ _ _ _ T A).
  destruct (frac_token r0) as [f0 r1] eqn:B. rewrite (frac_token_app _ _ _ _ T B). destruct (exp_token r1) as [e0 r2] eqn:C. rewrite (exp_token_app _ _ _ _ T C).
  intro E. injection E as <- <- <- <-. reflexivity.
Qed.
Lemma number_first s x : number_token s = Some x -> exists c r, s = String c r /\ (is_digit c = true \/ c = "-"%char).
Proof.
  unfold number_token. destruct (int_token s) as [[i0 r0]|] eqn:A; [|discriminate]. intros _. destruct s as [|c r]; [discriminate|]. exists c, r. split; [reflexivity|].
  cbn [int_token] in A. destruct (Ascii.eqb_spec c "0") as [->|]; [left; reflexivity|]. destruct (is_digit c); [left; reflexivity|].
  destruct (Ascii.eqb_spec c "-") as [->|]; [right; reflexivity|discriminate].
Qed.

Lemma uint_digits d : digit_run (NilEmpty.string_of_uint d) = (NilEmpty.string_of_uint d, "").
Proof. induction d; cbn [NilEmpty.string_of_uint digit_run]; try (rewrite IHd); reflexivity. Qed.
Lemma nzhead_not_zero d e : nzhead d <> D0 e.
Proof. induction d; cbn; try discriminate. exact IHd. Qed.
Lemma int_token_show z : int_token (int_show z) = Some (int_show z, "").
Proof.
  unfold int_show. assert (Decimal.norm (Z.to_int z) = Z.to_int z) as N by (rewrite <- DecimalZ.to_of, DecimalZ.of_to; reflexivity).
  destruct (Z.to_int z) as [u|u]; cbn [Decimal.norm] in N.
  - injection N as N. unfold unorm in N. pose proof (nzhead_not_zero u) as Z0. cbn [NilZero.string_of_int].
    destruct (nzhead u) as [|w|w|w|w|w|w|w|w|w|w]; rewrite <- N; try reflexivity; try (exfalso; exact (Z0 w eq_refl));
      (cbn [NilZero.string_of_uint NilEmpty.string_of_uint int_token]; rewrite uint_digits; reflexivity).
  - pose proof (nzhead_not_zero u) as Z0. destruct (nzhead u) as [|w|w|w|w|w|w|w|w|w|w]; try discriminate; try (exfalso; exact (Z0 w eq_refl)); injection N as N; rewrite <- N;
      (cbn [NilZero.string_of_int NilZero.string_of_uint NilEmpty.string_of_uint int_token]; rewrite uint_digits; reflexivity).
Qed.
Lemma number_token_int z : number_token (int_show z) = Some (int_show z, "", "", "").
Proof. unfold number_token. rewrite int_token_show. reflexivity. Qed.

Section Written.
Variable show : R -> string.
Variable float : string -> R.
Variable is_float : R -> Prop.
Hypothesis FC : float_format show float is_float.

Lemma scan_number_int z t : stop t -> scan_number float (int_show z ++ t) = Some (VInt z, t).
Proof.
  intro T. unfold scan_number. rewrite (number_token_app _ _ _ _ _ _ T (number_token_int z)). cbn [String.eqb andb]. pose proof (read_shown z) as E. unfold int_show.
  destruct (NilZero.int_of_string (NilZero.string_of_int (Z.to_int z))) as [i|]; [|discriminate]. cbn in E |- *. injection E as E. rewrite E. reflexivity.
Qed.
Lemma scan_number_float x t : is_float x -> stop t -> scan_number float (show x ++ t) = Some (VNum x, t).
Proof.
  intros F T. destruct (FC x F) as (E & i & f & e & N & NE). unfold scan_number. rewrite (number_token_app _ _ _ _ _ _ T N).
  destruct (number_token_parts _ _ _ _ _ N) as (P & _). rewrite append_nil in P. rewrite <- P, E.
  destruct (String.eqb_spec f "") as [->|]; [|reflexivity]. destruct (String.eqb_spec e "") as [->|]; [|reflexivity]. destruct NE; congruence.
Qed.
Lemma scan_digit n c r : is_digit c = true \/ c = "-"%char -> scan float (S n) (String c r) = scan_number float (String c r).
Proof.
  intro H. rewrite scan_S. assert (Ascii.eqb c quote = false /\ Ascii.eqb c "{" = false /\ Ascii.eqb "n" c = false /\ Ascii.eqb "t" c = false /\ Ascii.eqb "f" c = false) as (A & B & C & D & E).
  { destruct H as [H| ->]; [|repeat split; reflexivity]. repeat split; apply Ascii.eqb_neq; intro X; subst c; discriminate. }
  rewrite A, B. cbn [strip_prefix]. rewrite C, D, E. reflexivity.
Qed.
Lemma scan_number_at n s t x v : number_token s = Some x -> scan_number float (s ++ t) = Some (v, t) -> scan float (S n) (s ++ t) = Some (v, t).
Proof. intros N E. destruct (number_first _ _ N) as (c & r & -> & C). cbn [append] in *. rewrite scan_digit by exact C. exact E. Qed.

Lemma skip_spaces n t : skip (spaces n ++ t) = skip t.
Proof. induction n as [|n IH]; [reflexivity|]. exact IH. Qed.
Lemma skip_indent l t : skip (newline_indent l ++ t) = skip t.
Proof. unfold newline_indent. cbn [append]. change (skip (String newline (spaces (4 * l) ++ t))) with (skip (spaces (4 * l) ++ t)). apply skip_spaces. Qed.
Lemma skip_dumps l v t : json_ok v = true -> storable is_float v -> skip (dumps show l v ++ t) = dumps show l v ++ t.
Proof.
  assert (forall s x, number_token s = Some x -> skip (s ++ t) = s ++ t) as NUM.
  { intros s x N. destruct (number_first _ _ N) as (c & r & -> & C). cbn [append skip]. replace (is_white c) with false; [reflexivity|].
    symmetry. destruct C as [C| ->]; [|reflexivity]. destruct (is_white c) eqn:W; [|reflexivity]. exfalso. revert C W.
    destruct c as [b0 b1 b2 b3 b4 b5 b6 b7]; destruct b0, b1, b2, b3, b4, b5, b6, b7; vm_compute; congruence. }
  intros J S. destruct v; try discriminate; try reflexivity.
  - destruct b; reflexivity.
  - exact (NUM _ _ (number_token_int z)).
  - destruct (FC x S) as (_ & i & f & e & N & _). exact (NUM _ _ N).
  - cbn [dumps]. destruct d; reflexivity.
Qed.

(** ** Dictionaries *)
Fixpoint kapp (a b : kvs) : kvs := match a with KNil => b | KCons k v r => KCons k v (kapp r b) end.
Lemma kapp_nil a : kapp a KNil = a.
Proof. induction a as [|k v r IH]; [reflexivity|]. cbn. rewrite IH. reflexivity. Qed.
Lemma kapp_assoc a b c : kapp (kapp a b) c = kapp a (kapp b c).
Proof. induction a as [|k v r IH]; [reflexivity|]. cbn. rewrite IH. reflexivity. Qed.
Lemma keys_app a b : keys (kapp a b) = (keys a ++ keys b)%list.
Proof. induction a as [|k v r IH]; [reflexivity|]. cbn. rewrite IH. reflexivity. Qed.
Lemma set_new k v a : ~ In k (keys a) -> set_attr k v a = kapp a (KCons k v KNil).
Proof.
  induction a as [|k' w r IH]; intro N; [reflexivity|]. cbn in N |- *. destruct (String.eqb_spec k k') as [->|]; [exfalso; auto|]. rewrite IH by tauto. reflexivity.
Qed.

Definition read_back (v : val) : Prop := json_ok v = true -> storable is_float v -> forall l n t, stop t -> (String.length (dumps show l v) < n)%nat ->
  scan float n (dumps show l v ++ t) = Some (v, t).
Definition read_items (d : kvs) : Prop := json_ok_all d = true -> storable_all is_float d -> d <> KNil -> forall l m n acc t, NoDup (keys acc ++ keys d) ->
  (String.length (dump_items show l d) <= n)%nat ->
  scan_members float n (skip (dump_items show l d ++ newline_indent m ++ String "}" t)) acc = Some (kapp acc d, t).

Lemma members_first n k x acc :
  scan_members float (S n) (quoted k ++ ": " ++ x) acc =
  match scan float n (skip x) with
  | None => None
  | Some (v, r) =>
      match skip r with
      | String c t => if Ascii.eqb c "}" then Some (set_attr k v acc, t) else if Ascii.eqb c "," then scan_members float n (skip t) (set_attr k v acc) else None
      | "" => None
      end
  end.
Proof.
  rewrite members_S. unfold quoted. cbn [append strip_prefix]. change (Ascii.eqb quote quote) with true. cbn match. rewrite append_assoc. cbn [append].
  rewrite scan_escape_all. reflexivity.
Qed.
Lemma dump_items_cons l k v r : dump_items show l (KCons k v r) =
  newline_indent l ++ quoted k ++ ": " ++ dumps show l v ++ (match r with KNil => "" | _ => "," ++ dump_items show l r end).
Proof. reflexivity. Qed.
Lemma read_written : (forall v, read_back v) /\ (forall d, read_items d).
Proof.
  apply val_kvs_ind.
  - intros _ _ l n t T L. destruct n; [lia|]. reflexivity.
  - intros b _ _ l n t T L. destruct n; [lia|]. destruct b; reflexivity.
  - intros z _ _ l n t T L. destruct n; [lia|]. exact (scan_number_at _ _ _ _ _ (number_token_int z) (scan_number_int z t T)).
  - intros x _ S l n t T L. destruct n; [lia|]. destruct (FC x S) as (_ & i & f & e & N & _). exact (scan_number_at _ _ _ _ _ N (scan_number_float x t S T)).
  - intros s _ _ l n t T L. destruct n; [lia|]. rewrite scan_S. cbn [dumps]. unfold quoted. cbn [append]. change (Ascii.eqb quote quote) with true. cbn match. rewrite append_assoc. cbn [append].
    rewrite scan_escape_all. reflexivity.
  - intros d IH J [ND S] l n t T L. destruct d as [|k v r].
    { destruct n; [lia|]. reflexivity. }
    set (dd := KCons k v r) in *.
    assert (dumps show l (VDict dd) = "{" ++ dump_items show (1 + l) dd ++ newline_indent l ++ "}") as D by reflexivity. rewrite D in L |- *.
    destruct n; [lia|]. rewrite scan_S. cbn [append]. change (Ascii.eqb "{" quote) with false. change (Ascii.eqb "{" "{") with true. cbn match.
    rewrite !append_assoc. cbn [append].
    assert (exists x, skip (dump_items show (1 + l) dd ++ newline_indent l ++ String "}" t) = String quote x) as [x F].
    { unfold dd. rewrite dump_items_cons, append_assoc, skip_indent. unfold quoted. cbn [append skip]. change (is_white quote) with false. cbn match. eexists. reflexivity. }
    pose proof (IH J S ltac:(discriminate) (1 + l)%nat l n KNil t) as R. cbn [keys app] in R. specialize (R ND). rewrite !length_append in L. cbn [String.length] in L.
    specialize (R ltac:(lia)). rewrite F in R |- *.
    change (Ascii.eqb quote "}") with false. cbn match. rewrite R. reflexivity.
  - intros; discriminate.
  - intros; discriminate.
  - intros _ _ N. congruence.
  - intros k v IHv r IHr J [S1 S2] _ l m n acc t ND L. cbn [json_ok_all] in J. apply andb_prop in J as [J1 J2].
    rewrite dump_items_cons in L |- *. rewrite append_assoc, skip_indent, append_assoc.
    assert (skip (quoted k ++ (": " ++ dumps show l v ++ match r with KNil => "" | _ => "," ++ dump_items show l r end) ++ newline_indent m ++ String "}" t) =
      quoted k ++ ": " ++ dumps show l v ++ (match r with KNil => "" | _ => "," ++ dump_items show l r end) ++ newline_indent m ++ String "}" t) as ->.
    { unfold quoted. cbn [append skip]. change (is_white quote) with false. cbn match. rewrite !append_assoc. reflexivity. }
    rewrite !length_append in L. destruct n; [unfold newline_indent in L at 1; cbn [String.length] in L; lia|]. rewrite members_first.
    rewrite skip_dumps by assumption.
    rewrite IHv; [|exact J1|exact S1| |].
    + assert (~ In k (keys acc)) as NI.
      { cbn [keys] in ND. apply NoDup_remove_2 in ND. intro X. apply ND. apply in_or_app. left. exact X. }
      destruct r as [|k2 v2 r2].
      * cbn [append]. rewrite skip_indent. cbn [skip]. change (is_white "}") with false. cbn match. rewrite set_new by exact NI. reflexivity.
      * set (rr := KCons k2 v2 r2) in *. cbn [append skip]. change (is_white ",") with false. cbn match. change (Ascii.eqb "," "}") with false. change (Ascii.eqb "," ",") with true. cbn match.
        rewrite IHr; [|exact J2|exact S2|discriminate| |].
        -- rewrite set_new by exact NI. rewrite kapp_assoc. reflexivity.
        -- rewrite set_new by exact NI. rewrite keys_app, <- app_assoc. exact ND.
        -- unfold rr in L |- *. cbn match in L. rewrite !length_append in L. unfold newline_indent in L at 1. cbn [String.length] in L. lia.
    + destruct r as [|k2 v2 r2]; [right; reflexivity|left; reflexivity].
    + unfold newline_indent in L at 1. cbn [String.length] in L. lia.
Qed.
Lemma loads_dumps d : json_ok_all d = true -> storable is_float (VDict d) -> loads float (dumps show 0 (VDict d)) = Some (VDict d).
Proof.
  intros J S. unfold loads. assert (json_ok (VDict d) = true) as J' by exact J.
  pose proof (skip_dumps 0 (VDict d) "" J' S) as K. rewrite append_nil in K. rewrite K.
  pose proof (proj1 read_written (VDict d) J' S 0%nat (Datatypes.S (String.length (dumps show 0 (VDict d)))) "" I ltac:(lia)) as R. rewrite append_nil in R.
  rewrite R. reflexivity.
Qed.

(** ** Beginnings *)
Lemma level_number s x : number_token s = Some (x, "") -> level s.
Proof.
  destruct x as [[i f] e]. intro N. destruct (number_token_parts _ _ _ _ _ N) as (-> & A & B & C). apply level_calm. rewrite append_nil, !all_calm_app, A, B, C. reflexivity.
Qed.
Lemma level_indent l : level (newline_indent l).
Proof. apply level_calm. unfold newline_indent. cbn [all_calm]. change (calm newline) with true. cbn. induction (l + (l + (l + (l + 0))))%nat as [|n IH]; [reflexivity|exact IH]. Qed.
Lemma level_braces s : level s -> level ("{" ++ s ++ "}") /\ (forall a b, "{" ++ s ++ "}" = a ++ b -> a <> "" -> b <> "" -> forall d, run (d, Outside) a <> (d, Outside)).
Proof.
  intro L. split.
  - intro d. destruct (L (1 + d)%nat) as [A B]. cbn [append]. split.
    + change (run (d, Outside) (String "{" (s ++ "}"))) with (run (1 + d, Outside)%nat (s ++ "}")). rewrite run_app, A. reflexivity.
    + cbn [above]. split; [apply le_n|]. change (step (d, Outside) "{") with (1 + d, Outside)%nat.
      assert (above d (1 + d, Outside)%nat s) as B'.
      { revert B. generalize (1 + d, Outside)%nat as st. induction s as [|c s' IHs]; intros st [H1 H2]; (split; [lia|]); [exact I|]. clear L A. revert H2. generalize (step st c). clear IHs.
        intros st2. revert st2. induction s' as [|c' s'' IHs]; intros st2 [H3 H4]; (split; [lia|]); [exact I|]. apply IHs. exact H4. }
      apply above_app; [exact B'|]. rewrite A. cbn. lia.
  - intros a b E NA NB d R. destruct a as [|c a]; [congruence|]. cbn [append] in E. injection E as <- E.
    change (run (d, Outside) (String "{" a)) with (run (1 + d, Outside)%nat a) in R.
    assert (exists b', s = a ++ b') as [b' ->].
    { clear - E NB. revert a E. induction s as [|c s IH]; intros a E; cbn [append] in E.
      - destruct a as [|c' a]; [exists ""; reflexivity|]. injection E as _ E. destruct a; [|discriminate]. cbn in E. congruence.
      - destruct a as [|c' a]; [exists (String c s); reflexivity|]. cbn [append] in E. injection E as <- E. destruct (IH a E) as [b' ->]. exists b'. reflexivity. }
    destruct (L (1 + d)%nat) as [_ B]. apply above_begin in B. rewrite R in B. cbn in B. lia.
Qed.
Lemma level_written : (forall v, json_ok v = true -> storable is_float v -> forall l, level (dumps show l v)) /\
  (forall d, json_ok_all d = true -> storable_all is_float d -> forall l, level (dump_items show l d)).
Proof.
  apply val_kvs_ind; try (intros; discriminate).
  - intros _ _ l. apply level_calm. reflexivity.
  - intros b _ _ l. apply level_calm. destruct b; reflexivity.
  - intros z _ _ l. exact (level_number _ _ (number_token_int z)).
  - intros x _ S l. destruct (FC x S) as (_ & i & f & e & N & _). exact (level_number _ _ N).
  - intros s _ _ l. apply level_quoted.
  - intros d IH J [_ S] l. destruct d as [|k v r]; [exact (proj1 (level_braces "" level_nil))|]. change (dumps show l (VDict (KCons k v r))) with ("{" ++ dump_items show (1 + l) (KCons k v r) ++ newline_indent l ++ "}").
    rewrite <- append_assoc with (a := dump_items _ _ _). apply level_braces. apply level_app; [apply IH; assumption|apply level_indent].
  - intros _ _ l. apply level_nil.
  - intros k v IHv r IHr J [S1 S2] l. cbn [json_ok_all] in J. apply andb_prop in J as [J1 J2]. rewrite dump_items_cons.
    apply level_app; [apply level_indent|]. apply level_app; [apply level_quoted|]. apply level_app; [apply level_calm; reflexivity|]. apply level_app; [apply IHv; assumption|].
    destruct r as [|k2 v2 r2]; [apply level_nil|]. apply level_app; [apply level_calm; reflexivity|]. apply IHr; assumption.
Qed.
Lemma beginning_refused d a b : json_ok_all d = true -> storable is_float (VDict d) -> dumps show 0 (VDict d) = a ++ b -> b <> "" -> loads float a = None.
Proof.
  intros J [_ S] E NB. destruct (loads float a) as [w|] eqn:L; [|reflexivity]. exfalso. destruct (loads_stays _ _ _ L) as [R NA].
  assert (exists s, dumps show 0 (VDict d) = "{" ++ s ++ "}" /\ level s) as (s & D & LS).
  { destruct d as [|k v r]; [exists ""; split; [reflexivity|apply level_nil]|]. exists (dump_items show 1 (KCons k v r) ++ newline_indent 0). split; [rewrite append_assoc; reflexivity|].
    apply level_app; [apply level_written; assumption|apply level_indent]. }
  rewrite D in E. exact (proj2 (level_braces s LS) a b E NA NB 0%nat (R 0%nat)).
Qed.
End Written.
