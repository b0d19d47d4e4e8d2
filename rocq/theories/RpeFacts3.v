(** RPE results of relative comparisons, and a witness of the text contracts. *)
From Coq Require Import DecimalString DecimalZ Decimal.
From Verif Require Import Base BaseFacts EstModel TextModel TextFacts HeaderModel NumpyModel TrajModel GeomModel IoModel IoSpec IoFacts4 EvalModel EvalFacts2 RpeModel RpeSpec RpeFacts.
Local Open Scope string_scope.

(** ** Witness *)
Definition picos (x : R) : Z := up (x * 10 ^ 12 - 1 / 2).
Definition int_text (z : Z) : string := NilZero.string_of_int (Z.to_int z).
(** Numbers written as whole multiples of 1e-12 *)
Definition fine_text : text_ops := mkTextOps
  (fun s => option_map (fun i => Fin (IZR (Z.of_int i) / 10 ^ 12)) (NilZero.int_of_string s))
  (fun s => option_map Z.of_int (NilZero.int_of_string s))
  int_text
  (fun x => int_text (picos x)).
Definition fine_show (x : R) : string := int_text (picos x).

Lemma picos_near x : Rabs (IZR (picos x) / 10 ^ 12 - x) <= 5 / 10 ^ 13.
Proof.
  unfold picos. destruct (archimed (x * 10 ^ 12 - 1 / 2)) as [A B].
  replace (IZR (up (x * 10 ^ 12 - 1 / 2)) / 10 ^ 12 - x) with ((IZR (up (x * 10 ^ 12 - 1 / 2)) - x * 10 ^ 12) / 10 ^ 12) by field.
  set (u := IZR (up (x * 10 ^ 12 - 1 / 2))) in *. set (y := x * 10 ^ 12) in *. apply Rabs_le. lra.
Qed.
Lemma fine_read x : exists y, number fine_text (int_text (picos x)) = Some (Fin y) /\ Rabs (y - x) <= 5 / 10 ^ 13.
Proof.
  exists (IZR (picos x) / 10 ^ 12). split; [|apply picos_near]. cbn [number fine_text]. unfold int_text. pose proof (read_shown (picos x)) as H.
  destruct (NilZero.int_of_string (NilZero.string_of_int (Z.to_int (picos x)))) as [i|]; [|discriminate].
  cbn in *. injection H as ->. reflexivity.
Qed.
Lemma int_word z : word (int_text z).
Proof. split; [apply nonempty_int|apply digits_spaceless, digits_int]. Qed.
Lemma fine_text_contract : text_contract fine_text.
Proof.
  constructor; cbn [integer show_int show9 fine_text].
  - apply read_shown.
  - apply int_word.
  - intro x. destruct (fine_read x) as [y [E N]]. exists y. split; [exact E|]. lra.
  - intro x. apply int_word.
  - intro x. apply digits_char; [apply digits_int|reflexivity].
  - intro x. apply digits_char; [apply digits_int|reflexivity].
Qed.
Lemma fine_format : format12 fine_text fine_show.
Proof.
  constructor.
  - apply fine_read.
  - intro x. apply int_word.
  - intro x. apply digits_char; [apply digits_int|reflexivity].
  - intro x. apply digits_char; [apply digits_int|reflexivity].
  - intro z. apply digits_char; [apply digits_int|reflexivity].
Qed.

(** ** Comparisons *)
Lemma all_some_length {A} (l : list (option A)) m : all_some l = Some m -> length m = length l.
Proof.
  revert m. induction l as [|[x|] l IH]; intros m H; cbn in H; [injection H as <-; reflexivity| |discriminate].
  destruct (all_some l) as [s|]; [|discriminate]. injection H as <-. cbn. rewrite (IH s eq_refl). reflexivity.
Qed.
Lemma all_some_in {A} (l : list (option A)) m x : all_some l = Some m -> In x m -> In (Some x) l.
Proof.
  revert m. induction l as [|[y|] l IH]; intros m H I; cbn in H; [injection H as <-; destruct I| |discriminate].
  destruct (all_some l) as [s|]; [|discriminate]. injection H as <-. destruct I as [->|I]; [left; reflexivity|right; apply (IH s eq_refl I)].
Qed.
Lemma all_some_map_in {A B} (f : A -> option B) l m a : all_some (map f l) = Some m -> In a l -> exists b, f a = Some b /\ In b m.
Proof.
  revert m. induction l as [|x l IH]; intros m H I; [destruct I|]. cbn in H. destruct (f x) as [y|] eqn:E; [|discriminate].
  destruct (all_some (map f l)) as [s|] eqn:F; [|discriminate]. injection H as <-. destruct I as [->|I].
  - exists y. split; [exact E|left; reflexivity].
  - destruct (IH s eq_refl I) as [b [X Y]]. exists b. split; [exact X|right; exact Y].
Qed.

Section Comparison.
  Context {Q : Type} (ops : rot_ops Q).

  Lemma entry_rot test ref ds ij e : compare_pair ops test ref ds ij = Ok e ->
    (exists x, e_rot e = Some x) <-> (has_orientation ref && has_orientation test)%bool = true.
  Proof.
    unfold compare_pair. intro H. apply bind_ok in H as (d1 & _ & H). apply bind_ok in H as (d0 & _ & H).
    destruct (has_orientation ref && has_orientation test)%bool.
    - do 4 (apply bind_ok in H as (? & _ & H)). injection H as <-. cbn. split; [reflexivity|]. intros _. eexists. reflexivity.
    - do 4 (apply bind_ok in H as (? & _ & H)). injection H as <-. cbn. split; [intros [? ?]; discriminate|discriminate].
  Qed.

  Lemma comparison_matching test ref s c r : compare_relative ops test ref s = Ok c -> of_comparison c = Some r ->
    matching r /\ used_blocks r <> [] /\ (r_unit r = METER \/ r_unit r = SECOND) /\ r_name r = (name test ++ " vs. " ++ name ref).
  Proof.
    intros H C. destruct (compare_relative_ok ops test ref s c H) as (_ & UN & NM & (k & es & I & NE) & B & _).
    unfold of_comparison in C. destruct (all_some _) as [bs|] eqn:A; [|discriminate]. cbn in C. injection C as <-.
    set (both := (has_orientation ref && has_orientation test)%bool).
    assert (forall b, In b (map snd bs) -> exists k es, In (k, es) (rpe_pairs c) /\ entry_block es = Some b) as SRC.
    { intros b J. apply in_map_iff in J as [[k0 b0] [E J]]. cbn in E. subst b0. apply (all_some_in _ _ _ A) in J.
      apply in_map_iff in J as [[k1 es1] [E J]]. exists k1, es1. split; [exact J|]. cbn in E. destruct (entry_block es1); [|discriminate].
      cbn in E. congruence. }
    assert (forall b, In b (map snd bs) -> length (b_pos b) = length (b_dist b) /\ (both = true -> length (b_rot b) = length (b_dist b)) /\ (both = false -> b_rot b = [])) as LEN.
    { intros b J. destruct (SRC b J) as (k0 & es0 & J0 & E). destruct (B k0 es0 J0) as (ds & idx & _ & _ & F).
      unfold entry_block in E. destruct (all_some (map e_pos es0)) as [p|] eqn:P; [|discriminate].
      destruct (all_some (flat_map _ es0)) as [q|] eqn:QQ; [|discriminate]. injection E as <-. cbn [b_pos b_dist b_rot].
      apply all_some_length in P. apply all_some_length in QQ. rewrite map_length in P |- *. split; [exact P|].
      assert (forall e, In e es0 -> (exists x, e_rot e = Some x) <-> both = true) as ER.
      { clear - F. induction F as [|ij e idx es X F IH]; intros e' I; [destruct I|]. destruct I as [<-|I]; [eapply entry_rot, X|apply IH, I]. }
      split; intro BO.
      - rewrite QQ. clear - ER BO. induction es0 as [|e es IH]; [reflexivity|]. cbn. rewrite app_length, IH by (intros; apply ER; right; assumption).
        destruct (proj2 (ER e (or_introl eq_refl)) BO) as [x ->]. reflexivity.
      - destruct q as [|y q]; [reflexivity|]. exfalso. destruct es0 as [|e more]; [discriminate|]. 
        assert (forall e', In e' (e :: more) -> e_rot e' = None) as NO.
        { intros e' I'. destruct (e_rot e') as [x|] eqn:X; [|reflexivity]. rewrite (proj1 (ER e' I') (ex_intro _ x X)) in BO. discriminate. }
        clear - QQ NO. assert (flat_map (fun e => match e_rot e with Some x => [x] | None => [] end) (e :: more) = []) as E.
        { clear QQ. induction (e :: more) as [|a l IH]; [reflexivity|]. cbn. rewrite (NO a (or_introl eq_refl)). apply IH. intros. apply NO. right. assumption. }
        rewrite E in QQ. discriminate. }
    split; [|split; [|split]].
    - split; [apply Forall_forall; intros b J; apply LEN, J|]. unfold blocks. cbn [r_blocks]. destruct both eqn:BO.
      + left. apply Forall_forall. intros b J. apply (LEN b J). reflexivity.
      + right. apply Forall_forall. intros b J. apply (LEN b J). reflexivity.
    - destruct (all_some_map_in _ _ _ _ A I) as [kb [E J]]. cbn in E. destruct (entry_block es) as [b|] eqn:EB; [|discriminate]. cbn in E. injection E as <-.
      intro U. assert (In b (used_blocks (mkRpeResult (rpe_name c) bs (unit_of_kind (rpe_unit c))))) as IN; [|rewrite U in IN; destruct IN].
      unfold used_blocks. apply filter_In. split; [apply (in_map snd) in J; exact J|].
      unfold entry_block in EB. destruct (all_some (map e_pos es)); [|discriminate]. destruct (all_some (flat_map _ es)); [|discriminate].
      injection EB as <-. cbn. destruct es; [congruence|reflexivity].
    - cbn [r_unit]. rewrite UN. destruct (B k es I) as (ds & _ & PD & _). unfold pair_distances in PD.
      destruct (pair_distance_unit s); try discriminate; [left|right]; reflexivity.
    - exact NM.
  Qed.
End Comparison.
