(** Braces and quotation marks in JSON text. *)
From Coq Require Import DecimalString DecimalZ Decimal.
From Verif Require Import Base BaseFacts TextModel TextFacts SettModel SettSpec JsonModel JsonSpec.
Local Open Scope string_scope.

Scheme val_mut := Induction for val Sort Prop with kvs_mut := Induction for kvs Sort Prop.
Combined Scheme val_kvs_ind from val_mut, kvs_mut.

(** Depth of braces, and whether one is in a quoted text *)
Inductive mode := Outside | Inside | Escape.
Definition step (st : nat * mode) (c : ascii) : nat * mode :=
  let (d, m) := st in
  match m with
  | Outside => if Ascii.eqb c quote then (d, Inside) else if Ascii.eqb c "{" then (S d, Outside) else if Ascii.eqb c "}" then (pred d, Outside) else st
  | Inside => if Ascii.eqb c quote then (d, Outside) else if Ascii.eqb c backslash then (d, Escape) else st
  | Escape => (d, Inside)
  end.
Fixpoint run (st : nat * mode) (s : string) : nat * mode := match s with "" => st | String c r => run (step st c) r end.
Fixpoint above (D : nat) (st : nat * mode) (s : string) : Prop :=
  (D <= fst st)%nat /\ match s with "" => True | String c r => above D (step st c) r end.
Lemma run_app a : forall st b, run st (a ++ b) = run (run st a) b.
Proof. induction a as [|c a IH]; intros st b; [reflexivity|]. cbn. apply IH. Qed.
Lemma above_here D st s : above D st s -> (D <= fst st)%nat.
Proof. destruct s; intros [H _]; exact H. Qed.
Lemma above_app a : forall D st b, above D st a -> above D (run st a) b -> above D st (a ++ b).
Proof. induction a as [|c a IH]; intros D st b A B; [exact B|]. cbn in A |- *. split; [apply A|]. apply IH; [apply A|exact B]. Qed.
Lemma above_begin a : forall D st b, above D st (a ++ b) -> (D <= fst (run st a))%nat.
Proof. induction a as [|c a IH]; intros D st b A; [exact (above_here _ _ _ A)|]. cbn in A |- *. eapply IH. apply A. Qed.

(** Texts that end where they began, and never go below that *)
Definition level (s : string) : Prop := forall d, run (d, Outside) s = (d, Outside) /\ above d (d, Outside) s.
Lemma level_nil : level "".
Proof. intro d. split; [reflexivity|]. split; [apply le_n|exact I]. Qed.
Lemma level_app a b : level a -> level b -> level (a ++ b).
Proof.
  intros A B d. destruct (A d) as [A1 A2], (B d) as [B1 B2]. split; [rewrite run_app, A1; exact B1|]. apply above_app; [exact A2|]. rewrite A1. exact B2.
Qed.
Definition calm (c : ascii) : bool := negb (Ascii.eqb c quote || Ascii.eqb c "{" || Ascii.eqb c "}").
Fixpoint all_calm (s : string) : bool := match s with "" => true | String c r => calm c && all_calm r end.
Lemma level_calm s : all_calm s = true -> level s.
Proof.
  intros H d. induction s as [|c s IH]; [apply level_nil|]. cbn in H. apply andb_prop in H as [C H]. unfold calm in C.
  apply negb_true_iff in C. apply orb_false_iff in C as [C C3]. apply orb_false_iff in C as [C1 C2].
  cbn [run above step]. rewrite C1, C2, C3. destruct (IH H) as [A B]. split; [exact A|]. split; [apply le_n|exact B].
Qed.
Lemma all_calm_app a b : all_calm (a ++ b) = (all_calm a && all_calm b)%bool.
Proof. induction a as [|c a IH]; [reflexivity|]. cbn. rewrite IH, andb_assoc. reflexivity. Qed.

Lemma run_escaped c d : run (d, Inside) (escaped c) = (d, Inside) /\ above d (d, Inside) (escaped c).
Proof. destruct c as [b0 b1 b2 b3 b4 b5 b6 b7]; destruct b0, b1, b2, b3, b4, b5, b6, b7; (split; [reflexivity|cbn; repeat split; apply le_n]). Qed.
Lemma run_escape_all s d : run (d, Inside) (escape_all s) = (d, Inside) /\ above d (d, Inside) (escape_all s).
Proof.
  induction s as [|c s [IH1 IH2]]; [cbn; auto|]. destruct (run_escaped c d) as [A B]. cbn [escape_all]. split; [rewrite run_app, A; exact IH1|].
  apply above_app; [exact B|]. rewrite A. exact IH2.
Qed.
Lemma level_quoted s : level (quoted s).
Proof.
  intro d. destruct (run_escape_all s d) as [A B]. unfold quoted. cbn [run above step]. change (Ascii.eqb quote quote) with true. cbn [andb].
  split; [rewrite run_app, A; reflexivity|]. split; [apply le_n|]. apply above_app; [exact B|]. rewrite A. cbn. auto.
Qed.

(** The characters of numbers *)
Lemma digit_calm c : is_digit c = true -> calm c = true.
Proof. destruct c as [b0 b1 b2 b3 b4 b5 b6 b7]; destruct b0, b1, b2, b3, b4, b5, b6, b7; vm_compute; intro; congruence. Qed.
Lemma digit_run_parts s : forall d t, digit_run s = (d, t) -> s = d ++ t /\ all_calm d = true.
Proof.
  induction s as [|c s IH]; intros d t E; cbn in E; [injection E as <- <-; auto|]. destruct (is_digit c) eqn:D; [|injection E as <- <-; auto].
  destruct (digit_run s) as [d' t'] eqn:F. injection E as <- <-. destruct (IH _ _ eq_refl) as [-> A]. split; [reflexivity|]. cbn. rewrite (digit_calm c D), A. reflexivity.
Qed.
Lemma int_token_parts s i t : int_token s = Some (i, t) -> s = i ++ t /\ all_calm i = true.
Proof.
  unfold int_token. destruct s as [|c r]; [discriminate|]. destruct (Ascii.eqb_spec c "0") as [->|_]; [intro E; injection E as <- <-; auto|].
  destruct (is_digit c) eqn:D.
  - destruct (digit_run r) as [d u] eqn:F. intro E. injection E as <- <-. destruct (digit_run_parts _ _ _ F) as [-> A]. split; [reflexivity|]. cbn. rewrite (digit_calm c D), A. reflexivity.
  - destruct (Ascii.eqb_spec c "-") as [->|_]; [|discriminate]. destruct r as [|c' r']; [discriminate|].
    destruct (Ascii.eqb_spec c' "0") as [->|_]; [intro E; injection E as <- <-; auto|]. destruct (is_digit c') eqn:D'; [|discriminate].
    destruct (digit_run r') as [d u] eqn:F. intro E. injection E as <- <-. destruct (digit_run_parts _ _ _ F) as [-> A]. split; [reflexivity|]. cbn. rewrite (digit_calm c' D'), A. reflexivity.
Qed.
Lemma frac_token_parts s f t : frac_token s = (f, t) -> s = f ++ t /\ all_calm f = true.
Proof.
  unfold frac_token. destruct s as [|c r]; [intro E; injection E as <- <-; auto|]. destruct (Ascii.eqb_spec c ".") as [->|_]; [|intro E; injection E as <- <-; auto].
  destruct (digit_run r) as [d u] eqn:F. destruct (digit_run_parts _ _ _ F) as [-> A]. destruct d; intro E; injection E as <- <-; [auto|]. split; [reflexivity|]. exact A.
Qed.
Lemma exp_token_parts s f t : exp_token s = (f, t) -> s = f ++ t /\ all_calm f = true.
Proof.
  unfold exp_token. destruct s as [|c r]; [intro E; injection E as <- <-; auto|].
  destruct (Ascii.eqb c "e" || Ascii.eqb c "E")%bool eqn:C; [|intro E; injection E as <- <-; auto].
  assert (calm c = true) as CC by (apply orb_prop in C as [C|C]; apply Ascii.eqb_eq in C as ->; reflexivity).
  destruct r as [|c' r']; [intro E; injection E as <- <-; auto|]. destruct (Ascii.eqb c' "-" || Ascii.eqb c' "+")%bool eqn:C'.
  - assert (calm c' = true) as CC' by (apply orb_prop in C' as [C'|C']; apply Ascii.eqb_eq in C' as ->; reflexivity).
    destruct (digit_run r') as [d u] eqn:F. destruct (digit_run_parts _ _ _ F) as [-> A]. destruct d; intro E; injection E as <- <-; [auto|]. split; [reflexivity|].
    change (calm c && (calm c' && all_calm (String a d)) = true)%bool. rewrite CC, CC', A. reflexivity.
  - destruct (digit_run (String c' r')) as [d u] eqn:F. destruct (digit_run_parts _ _ _ F) as [X A]. rewrite X. destruct d; intro E; injection E as <- <-; [auto|]. split; [reflexivity|].
    change (calm c && all_calm (String a d) = true)%bool. rewrite CC, A. reflexivity.
Qed.
Lemma number_token_parts s i f e t : number_token s = Some (i, f, e, t) -> s = i ++ f ++ e ++ t /\ all_calm i = true /\ all_calm f = true /\ all_calm e = true.
Proof.
  unfold number_token. destruct (int_token s) as [[i0 r0]|] eqn:A; [|discriminate]. destruct (frac_token r0) as [f0 r1] eqn:B. destruct (exp_token r1) as [e0 r2] eqn:C.
  intro E. injection E as <- <- <- <-. destruct (int_token_parts _ _ _ A) as [-> ?], (frac_token_parts _ _ _ B) as [-> ?], (exp_token_parts _ _ _ C) as [-> ?]. auto.
Qed.

(** ** What the reader accepts is level *)
Lemma hex_plain c n : hex_value c = Some n -> c <> quote /\ c <> backslash.
Proof. intro H. split; intros ->; vm_compute in H; discriminate. Qed.
Lemma run_plain h c d : h <> quote -> h <> backslash -> run (d, Inside) (String h c) = run (d, Inside) c.
Proof. intros A B. cbn [run step]. rewrite (proj2 (Ascii.eqb_neq h quote) A), (proj2 (Ascii.eqb_neq h backslash) B). reflexivity. Qed.
Lemma scan_string_level s : forall x r, scan_string s = Some (x, r) -> exists c, s = c ++ r /\ forall d, run (d, Inside) c = (d, Outside).
Proof.
  induction s as [s IH] using (well_founded_induction (Wf_nat.well_founded_ltof _ String.length)). unfold Wf_nat.ltof in IH. intros x r H.
  destruct s as [|c s]; [discriminate|]. cbn [scan_string] in H. destruct (Ascii.eqb_spec c quote) as [->|NQ].
  { injection H as <- <-. exists (String quote ""). split; [reflexivity|]. reflexivity. }
  destruct (Ascii.eqb_spec c backslash) as [->|NB].
  - destruct s as [|e s]; [discriminate|]. destruct (Ascii.eqb_spec e "u") as [->|NU].
    + destruct s as [|h1 [|h2 [|h3 [|h4 s]]]]; try discriminate. destruct (hex_value h1) as [n1|] eqn:H1; [|discriminate]. destruct n1; [|discriminate].
      destruct (hex_value h2) as [n2|] eqn:H2; [|discriminate]. destruct n2; [|discriminate].
      destruct (hex_value h3) as [n3|] eqn:H3; [|discriminate]. destruct (hex_value h4) as [n4|] eqn:H4; [|discriminate].
      destruct (scan_string s) as [[y t]|] eqn:E; [|discriminate]. injection H as _ <-. destruct (IH s ltac:(cbn; lia) _ _ E) as (c & -> & R).
      exists (String backslash (String "u" (String h1 (String h2 (String h3 (String h4 c)))))). split; [reflexivity|]. intro d.
      transitivity (run (d, Inside) (String h1 (String h2 (String h3 (String h4 c))))); [reflexivity|].
      rewrite !run_plain by (first [exact (proj1 (hex_plain _ _ H1))|exact (proj2 (hex_plain _ _ H1))|exact (proj1 (hex_plain _ _ H2))|exact (proj2 (hex_plain _ _ H2))|
        exact (proj1 (hex_plain _ _ H3))|exact (proj2 (hex_plain _ _ H3))|exact (proj1 (hex_plain _ _ H4))|exact (proj2 (hex_plain _ _ H4))]).
      apply R.
    + destruct (backslash_char e) as [e'|]; [|discriminate]. destruct (scan_string s) as [[y t]|] eqn:E; [|discriminate]. injection H as _ <-.
      destruct (IH s ltac:(cbn; lia) _ _ E) as (c & -> & R). exists (String backslash (String e c)). split; [reflexivity|]. exact R.
  - destruct (nat_of_ascii c <? 32)%nat; [discriminate|]. destruct (scan_string s) as [[y t]|] eqn:E; [|discriminate]. injection H as _ <-.
    destruct (IH s ltac:(cbn; lia) _ _ E) as (a & -> & R). exists (String c a). split; [reflexivity|]. intro d. cbn [run step].
    rewrite (proj2 (Ascii.eqb_neq c quote) NQ), (proj2 (Ascii.eqb_neq c backslash) NB). apply R.
Qed.
Definition stays (c : string) : Prop := forall d, run (d, Outside) c = (d, Outside).
Lemma stays_app a b : stays a -> stays b -> stays (a ++ b).
Proof. intros A B d. rewrite run_app, A. apply B. Qed.
Lemma level_stays a : level a -> stays a.
Proof. intros L d. apply L. Qed.
Lemma white_calm c : is_white c = true -> calm c = true.
Proof. destruct c as [b0 b1 b2 b3 b4 b5 b6 b7]; destruct b0, b1, b2, b3, b4, b5, b6, b7; vm_compute; intro; congruence. Qed.
Lemma skip_stays s : exists w, s = w ++ skip s /\ stays w.
Proof.
  induction s as [|c s (w & E & W)]; [exists ""; split; [reflexivity|intro; reflexivity]|]. cbn [skip]. destruct (is_white c) eqn:C.
  - exists (String c w). split; [cbn; congruence|]. apply (stays_app (String c "") w); [|exact W]. apply level_stays, level_calm. cbn. rewrite (white_calm c C). reflexivity.
  - exists "". split; [reflexivity|intro; reflexivity].
Qed.
Lemma prefix_parts p s t : strip_prefix p s = Some t -> s = p ++ t.
Proof.
  revert s. induction p as [|a p IH]; intros s H; cbn in H; [injection H as ->; reflexivity|]. destruct s as [|b s]; [discriminate|].
  destruct (Ascii.eqb_spec a b) as [->|]; [|discriminate]. cbn. rewrite (IH s H). reflexivity.
Qed.
Lemma scan_S float n s : scan float (S n) s =
        match s with
        | "" => None
        | String c r =>
            if Ascii.eqb c quote then match scan_string r with Some (x, t) => Some (VStr x, t) | None => None end
            else if Ascii.eqb c "{" then
              match skip r with
              | String c' r' =>
                  if Ascii.eqb c' "}" then Some (VDict KNil, r')
                  else match scan_members float n (String c' r') KNil with Some (d, t) => Some (VDict d, t) | None => None end
              | "" => None
              end
            else
              match strip_prefix "null" s, strip_prefix "true" s, strip_prefix "false" s with
              | Some t, _, _ => Some (VNull, t)
              | _, Some t, _ => Some (VBool true, t)
              | _, _, Some t => Some (VBool false, t)
              | _, _, _ => scan_number float s
              end
        end.
Proof. reflexivity. Qed.
Lemma members_S float n s d : scan_members float (S n) s d =
        match strip_prefix (String quote "") s with
        | None => None
        | Some r =>
            match scan_string r with
            | None => None
            | Some (k, r) =>
                match strip_prefix ":" (skip r) with
                | None => None
                | Some r =>
                    match scan float n (skip r) with
                    | None => None
                    | Some (v, r) =>
                        match skip r with
                        | String c t =>
                            if Ascii.eqb c "}" then Some (set_attr k v d, t)
                            else if Ascii.eqb c "," then scan_members float n (skip t) (set_attr k v d)
                            else None
                        | "" => None
                        end
                    end
                end
            end
        end.
Proof. reflexivity. Qed.
Section Scan.
Variable float : string -> R.
Lemma scan_number_level s v r : scan_number float s = Some (v, r) -> exists c, s = c ++ r /\ stays c.
Proof.
  unfold scan_number. destruct (number_token s) as [[[[i f] e] t]|] eqn:E; [|discriminate]. destruct (number_token_parts _ _ _ _ _ E) as (-> & A & B & C).
  intro H. exists (i ++ f ++ e). assert (t = r) as <-.
  { destruct (String.eqb f "" && String.eqb e "")%bool; [destruct (NilZero.int_of_string i); [injection H as _ <-; reflexivity|discriminate]|injection H as _ <-; reflexivity]. }
  split; [rewrite !append_assoc; reflexivity|]. apply level_stays, level_calm. rewrite !all_calm_app, A, B, C. reflexivity.
Qed.
Lemma scan_level n :
  (forall s v r, scan float n s = Some (v, r) -> exists c, s = c ++ r /\ stays c) /\
  (forall s d d' r, scan_members float n s d = Some (d', r) -> exists c, s = c ++ r /\ forall k, run (S k, Outside) c = (k, Outside)).
Proof.
  induction n as [|n [IH1 IH2]]; [split; intros; discriminate|]. split.
  - intros s v r H. rewrite scan_S in H. destruct s as [|c s]; [discriminate|]. destruct (Ascii.eqb_spec c quote) as [->|NQ].
    { destruct (scan_string s) as [[x t]|] eqn:E; [|discriminate]. injection H as _ <-. destruct (scan_string_level _ _ _ E) as (a & -> & R).
      exists (String quote a). split; [reflexivity|]. intro d. cbn [run step]. change (Ascii.eqb quote quote) with true. apply R. }
    destruct (Ascii.eqb_spec c "{") as [->|NO].
    { destruct (skip_stays s) as (w & E & W). destruct (skip s) as [|c' s'] eqn:SK; [discriminate|]. rewrite E. destruct (Ascii.eqb_spec c' "}") as [->|NC].
      - injection H as _ <-. exists (String "{" (w ++ String "}" "")). split; [cbn; rewrite append_assoc; reflexivity|]. intro d. cbn [run step].
        change (Ascii.eqb "{" quote) with false. change (Ascii.eqb "{" "{") with true. cbn match. rewrite run_app, W. reflexivity.
      - destruct (scan_members float n (String c' s') KNil) as [[d t]|] eqn:M; [|discriminate]. injection H as _ <-. destruct (IH2 _ _ _ _ M) as (a & -> & R).
        exists (String "{" (w ++ a)). split; [cbn; rewrite append_assoc; reflexivity|]. intro k. cbn [run step].
        change (Ascii.eqb "{" quote) with false. change (Ascii.eqb "{" "{") with true. cbn match. rewrite run_app, W. apply R. }
    destruct (strip_prefix "null" (String c s)) as [t|] eqn:E1.
    { injection H as _ <-. apply prefix_parts in E1. exists "null". split; [exact E1|intro; reflexivity]. }
    destruct (strip_prefix "true" (String c s)) as [t|] eqn:E2.
    { injection H as _ <-. apply prefix_parts in E2. exists "true". split; [exact E2|intro; reflexivity]. }
    destruct (strip_prefix "false" (String c s)) as [t|] eqn:E3.
    { injection H as _ <-. apply prefix_parts in E3. exists "false". split; [exact E3|intro; reflexivity]. }
    exact (scan_number_level _ _ _ H).
  - intros s d d' r H. rewrite members_S in H. destruct (strip_prefix (String quote "") s) as [s1|] eqn:E1; [|discriminate]. apply prefix_parts in E1 as ->.
    destruct (scan_string s1) as [[k s2]|] eqn:E2; [|discriminate]. destruct (scan_string_level _ _ _ E2) as (a & -> & A).
    destruct (skip_stays s2) as (w1 & -> & W1). destruct (strip_prefix ":" (skip s2)) as [s3|] eqn:E3; [|discriminate]. apply prefix_parts in E3. rewrite E3. clear E3.
    destruct (skip_stays s3) as (w2 & W2E & W2). destruct (scan float n (skip s3)) as [[v s4]|] eqn:E4; [|discriminate].
    destruct (IH1 _ _ _ E4) as (b & BE & B). rewrite W2E, BE. clear W2E BE E4. destruct (skip_stays s4) as (w3 & W3E & W3). destruct (skip s4) as [|c t] eqn:E5; [discriminate|]. rewrite W3E. clear W3E.
    assert (forall k0 z, run (S k0, Outside) (String quote a ++ w1 ++ ":" ++ w2 ++ b ++ w3 ++ z) = run (S k0, Outside) z) as RUN.
    { intros k0 z. rewrite run_app. cbn [run step]. change (Ascii.eqb quote quote) with true. cbn match. rewrite A, run_app, W1, run_app.
      change (run (S k0, Outside) ":") with (S k0, Outside). rewrite run_app, W2, run_app, B, run_app, W3. reflexivity. }
    destruct (Ascii.eqb_spec c "}") as [->|NC].
    + injection H as _ <-. exists (String quote a ++ w1 ++ ":" ++ w2 ++ b ++ w3 ++ "}"). split; [cbn; rewrite !append_assoc; cbn; rewrite !append_assoc; reflexivity|].
      intro k0. rewrite RUN. reflexivity.
    + destruct (Ascii.eqb_spec c ",") as [->|NM]; [|discriminate]. destruct (skip_stays t) as (w4 & W4E & W4). destruct (IH2 _ _ _ _ H) as (e & EE & EL). rewrite W4E, EE.
      exists (String quote a ++ w1 ++ ":" ++ w2 ++ b ++ w3 ++ "," ++ w4 ++ e). split; [cbn; rewrite !append_assoc; cbn; rewrite !append_assoc; cbn; rewrite !append_assoc; reflexivity|].
      intro k0. rewrite RUN. change (run (S k0, Outside) (w4 ++ e) = (k0, Outside)). rewrite run_app, W4. apply EL.
Qed.
Lemma loads_stays s v : loads float s = Some v -> stays s /\ s <> "".
Proof.
  unfold loads. intro H. destruct (scan float (S (String.length s)) (skip s)) as [[w r]|] eqn:E; [|discriminate]. destruct (String.eqb_spec (skip r) "") as [F|]; [|discriminate].
  destruct (skip_stays s) as (a & -> & A). destruct (proj1 (scan_level _) _ _ _ E) as (b & EB & B). rewrite EB.
  destruct (skip_stays r) as (c & ER & C). rewrite F in ER. rewrite ER, append_nil.
  split; [apply stays_app; [exact A|apply stays_app; assumption]|].
  intro N. destruct a; [|discriminate]. cbn in N. rewrite EB in E. destruct b; [|discriminate]. destruct c; [|discriminate]. subst r. discriminate.
Qed.
End Scan.
