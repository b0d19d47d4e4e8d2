(** A witness of the number formats of alignment results. *)
From Coq Require Import DecimalString DecimalZ Decimal.
From Verif Require Import Base BaseFacts EstModel TextModel TextFacts HeaderModel NumpyModel EvalModel ParamModel ParamSpec ParamFacts3 GeomModel IoModel IoSpec IoFacts4 RpeFacts3 StoreModel StoreSpec.
Local Open Scope string_scope.

(** Numbers are whole numbers, or whole numbers followed by "e-15". *)
Definition int_number (s : string) : option Z := option_map Z.of_int (NilZero.int_of_string s).
Definition exp_text : text_ops := mkTextOps
  (fun s => match split_on "e" s with
            | [m] => option_map (fun z => Fin (IZR z)) (int_number m)
            | [m; "-15"] => option_map (fun z => Fin (IZR z * / 10 ^ 15)) (int_number m)
            | _ => None
            end)
  int_number int_text (fun x => int_text (picos x)).
Definition exp_show (x : R) : string := int_text (Int_part (x * 10 ^ 15 + / 2)) ++ "e-15".

Lemma exp_number x : number exp_text (exp_show x) = Some (Fin (round_decimals 15 x)).
Proof.
  unfold exp_show, number, exp_text. change (int_text (Int_part (x * 10 ^ 15 + / 2)) ++ "e-15") with (int_text (Int_part (x * 10 ^ 15 + / 2)) ++ String "e" "-15").
  rewrite split_on_cut by (apply digits_char; [apply digits_int|reflexivity]). cbn [split_on Ascii.eqb Bool.eqb].
  unfold int_number, int_text. rewrite read_shown. reflexivity.
Qed.
Lemma exp_format : format15 exp_text exp_show exp_show (round_decimals 15).
Proof.
  assert (forall x, word (exp_show x)) as W.
  { intro x. unfold exp_show. destruct (int_word (Int_part (x * 10 ^ 15 + / 2))) as [A B]. split; [destruct (int_text _); [congruence|discriminate]|]. rewrite spaceless_app, B. reflexivity. }
  assert (forall c x, (c = "," \/ c = "#")%char -> has_char c (exp_show x) = false) as H.
  { intros c x C. unfold exp_show. rewrite has_char_app. apply orb_false_iff.
    split; [apply digits_char; [apply digits_int|]|]; destruct C as [->| ->]; reflexivity. }
  constructor; try exact W; try (intro x; apply H; auto); try reflexivity.
  - apply round_decimals_format.
  - apply exp_number.
Qed.
Lemma exp_exact x : round_decimals 15 x = x -> number exp_text (exp_show x) = Some (Fin x).
Proof. intro E. rewrite exp_number, E. reflexivity. Qed.
