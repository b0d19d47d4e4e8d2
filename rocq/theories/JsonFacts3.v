(** Dictionaries of settings can be stored; the bound on the depth of calls is no restriction; a witness. *)
From Coq Require Import DecimalString DecimalZ Decimal.
From Verif Require Import Base BaseFacts TextModel TextFacts TornFacts IoFacts4 SettModel SettSpec SettFacts ParamFacts3 RpeFacts3 StoreFacts6 JsonModel JsonSpec JsonFacts JsonFacts2.
Local Open Scope string_scope.

Lemma storable_dict is_float :
  (forall c, good_class c -> forall v, conforms c v -> storable is_float v -> forall d, to_dict v = Ok (VDict d) -> storable is_float (VDict d)) /\
  (forall fs, good_fields fs -> NoDup (names fs) -> forall FS attrs, fields_in fs FS -> conforms_fields fs attrs -> storable_all is_float attrs ->
     forall d, attrs_to_dict FS attrs = Ok d -> JsonSpec.keys d = names fs /\ storable_all is_float d) /\
  (forall t, good_type t -> forall FS n v, field_type n FS = Some t -> conforms_type t v -> storable is_float v -> forall x, field_to_dict FS n v = Ok x -> storable is_float x).
Proof.
  apply class_ind.
  - intros nm fs IH [ND G] v [attrs [-> C]] ST d E. cbn [to_dict] in E. apply bind_ok in E as [d' [E X]]. injection X as <-.
    destruct (IH G ND fs attrs (fun n t H => H) C ST d' E) as [K SA]. cbn [storable]. rewrite K. split; [exact ND|exact SA].
  - intros _ _ FS attrs _ C _ d E. cbn in C. subst attrs. idtac. assert (d = KNil) as -> by (cbn in E; congruence). split; [reflexivity|exact I].
  - intros n t IHt r IHr [Gt Gr] ND FS attrs HI [v [rest [-> [Cv Cr]]]] [S1 S2] d E. inversion ND as [|? ? NI ND']; subst.
    rewrite attrs_to_dict_cons in E. apply bind_ok in E as [x [Ex E]]. apply bind_ok in E as [r' [Er E]]. injection E as <-.
    assert (storable is_float x) as SX by (apply (IHt Gt FS n v); [apply HI; cbn; now rewrite String.eqb_refl|exact Cv|exact S1|exact Ex]).
    destruct (IHr Gr ND' FS rest) with (d := r') as [K SA]; [|exact Cr|exact S2|exact Er|].
    { intros m tm Hm. apply HI. cbn. destruct (String.eqb_spec m n) as [->|]; [|exact Hm]. apply field_type_In in Hm. contradiction. }
    cbn. rewrite K. auto.
  - intros _ FS n v HF C ST x E. unfold field_to_dict, encode in E. rewrite HF in E. cbn in C. destruct v; try discriminate; injection E as <-; exact ST.
  - intros e _ FS n v HF [k [-> H]] ST x E. unfold field_to_dict, encode in E. rewrite HF in E. injection E as <-. exact I.
  - intros c IH G FS n v HF C ST x E. cbn in C. assert (exists a, v = VObj c a) as [a ->] by (destruct c as [nm fs]; destruct C as [a [-> _]]; eauto).
    destruct (proj1 round_trip c G _ C) as [d [ED _]]. unfold field_to_dict in E. rewrite ED in E. injection E as <-. exact (IH G _ C ST d ED).
Qed.

(** ** The bound on the depth *)
Lemma skip_length s : (String.length (skip s) <= String.length s)%nat.
Proof. induction s as [|c s IH]; [apply le_n|]. cbn. destruct (is_white c); [lia|apply le_n]. Qed.
Lemma rest_shorter s c r : s = c ++ r -> (String.length r <= String.length s)%nat.
Proof. intros ->. rewrite length_append. lia. Qed.
Lemma scan_enough float : forall n m,
  (forall s, (String.length s < n)%nat -> (String.length s < m)%nat -> scan float n s = scan float m s) /\
  (forall s d, (String.length s <= n)%nat -> (String.length s <= m)%nat -> (0 < n)%nat -> (0 < m)%nat -> scan_members float n s d = scan_members float m s d).
Proof.
  induction n as [|n IH]; intro m; [split; intros; lia|]. destruct m as [|m]; [split; intros; lia|]. destruct (IH m) as [IH1 IH2]. split.
  - intros s A B. rewrite !scan_S. destruct s as [|c s]; [reflexivity|]. cbn [String.length] in A, B. destruct (Ascii.eqb c quote); [reflexivity|]. destruct (Ascii.eqb c "{"); [|reflexivity].
    pose proof (skip_length s) as K. destruct (skip s) as [|c' s']; [reflexivity|]. destruct (Ascii.eqb c' "}"); [reflexivity|]. rewrite IH2; [reflexivity|..]; cbn in K |- *; lia.
  - intros s d A B _ _. rewrite !members_S. destruct (strip_prefix (String quote "") s) as [s1|] eqn:E1; [|reflexivity].
    apply prefix_parts, (f_equal String.length) in E1. rewrite length_append in E1. cbn [String.length] in E1.
    destruct (scan_string s1) as [[k s2]|] eqn:E2; [|reflexivity]. destruct (scan_string_level _ _ _ E2) as (a & L2 & _). apply rest_shorter in L2.
    destruct (strip_prefix ":" (skip s2)) as [s3|] eqn:E3; [|reflexivity]. apply prefix_parts, (f_equal String.length) in E3. rewrite length_append in E3. cbn [String.length] in E3.
    pose proof (skip_length s2). pose proof (skip_length s3). rewrite (IH1 (skip s3)) by lia. destruct (scan float m (skip s3)) as [[v s4]|] eqn:E4; [|reflexivity].
    destruct (proj1 (scan_level float _) _ _ _ E4) as (b & L4 & _). apply rest_shorter in L4. pose proof (skip_length s4) as K4. destruct (skip s4) as [|c t]; [reflexivity|]. cbn [String.length] in K4.
    destruct (Ascii.eqb c "}"); [reflexivity|]. destruct (Ascii.eqb c ","); [|reflexivity]. pose proof (skip_length t). apply IH2; lia.
Qed.

(** ** A witness: multiples of 1e-15, written as whole numbers followed by "e-15" *)
Definition exp_float (s : string) : R :=
  match split_on "e" s with
  | [m; _] => match int_number m with Some z => IZR z * / 10 ^ 15 | None => 0 end
  | _ => 0
  end.
Definition fifteen (x : R) : Prop := round_decimals 15 x = x.
Lemma int_token_cut z s : is_digit (match s with String c _ => c | "" => "e"%char end) = false -> int_token (int_show z ++ s) = Some (int_show z, s).
Proof.
  intro T. assert (forall d, digit_run (NilEmpty.string_of_uint d ++ s) = (NilEmpty.string_of_uint d, s)) as U.
  { assert (digit_run s = ("", s)) as D by (destruct s as [|c s]; [reflexivity|cbn [digit_run]; rewrite T; reflexivity]).
    induction d; cbn [NilEmpty.string_of_uint append digit_run]; [exact D|..]; rewrite IHd; reflexivity. }
  unfold int_show. assert (Decimal.norm (Z.to_int z) = Z.to_int z) as N by (rewrite <- DecimalZ.to_of, DecimalZ.of_to; reflexivity).
  destruct (Z.to_int z) as [u|u]; cbn [Decimal.norm] in N.
  - injection N as N. unfold unorm in N. pose proof (nzhead_not_zero u) as Z0. cbn [NilZero.string_of_int].
    destruct (nzhead u) as [|w|w|w|w|w|w|w|w|w|w]; rewrite <- N; try reflexivity; try (exfalso; exact (Z0 w eq_refl));
      (cbn [NilZero.string_of_uint NilEmpty.string_of_uint append int_token]; rewrite U; reflexivity).
  - pose proof (nzhead_not_zero u) as Z0. destruct (nzhead u) as [|w|w|w|w|w|w|w|w|w|w]; try discriminate; try (exfalso; exact (Z0 w eq_refl)); injection N as N; rewrite <- N;
      (cbn [NilZero.string_of_int NilZero.string_of_uint NilEmpty.string_of_uint append int_token]; rewrite U; reflexivity).
Qed.
Lemma exp_float_format : float_format exp_show exp_float fifteen.
Proof.
  intros x F. split.
  - unfold exp_float, exp_show. change (int_text (Int_part (x * 10 ^ 15 + / 2)) ++ "e-15") with (int_text (Int_part (x * 10 ^ 15 + / 2)) ++ String "e" "-15").
    rewrite split_on_cut by (apply digits_char; [apply digits_int|reflexivity]). cbn [split_on Ascii.eqb Bool.eqb]. unfold int_number, int_text. rewrite read_shown. exact F.
  - exists (int_show (Int_part (x * 10 ^ 15 + / 2))), "", "e-15". split; [|right; discriminate]. unfold number_token, exp_show.
    change (int_text (Int_part (x * 10 ^ 15 + / 2))) with (int_show (Int_part (x * 10 ^ 15 + / 2))). rewrite int_token_cut by reflexivity. reflexivity.
Qed.
