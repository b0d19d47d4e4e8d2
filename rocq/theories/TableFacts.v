From Verif Require Import Base BaseFacts NumpyModel EvalModel ParamModel DataModel EstModel TextModel TextFacts TableModel TableSpec.
Local Open Scope string_scope.

Lemma all_chars_app f a b : all_chars f (a ++ b) = (all_chars f a && all_chars f b)%bool.
Proof. induction a as [|c a IH]; cbn; [reflexivity|]. rewrite IH. apply andb_assoc. Qed.
Lemma all_chars_has f s ch : all_chars f s = true -> f ch = false -> has_char ch s = false.
Proof.
  intros A F. induction s as [|c s IH]; [reflexivity|]. cbn in *. apply andb_true_iff in A as [A1 A2]. rewrite (IH A2), orb_false_r.
  apply eqb_neq_ascii. intros <-. congruence.
Qed.
Lemma all_chars_mono (f g : ascii -> bool) s : (forall c, f c = true -> g c = true) -> all_chars f s = true -> all_chars g s = true.
Proof. intros H. induction s as [|c s IH]; [reflexivity|]. cbn. intros A. apply andb_true_iff in A as [A1 A2]. rewrite (H _ A1). exact (IH A2). Qed.
Lemma spaces_all n : all_chars (fun c => Ascii.eqb c " ") (spaces n) = true.
Proof. induction n; [reflexivity|]. exact IHn. Qed.
Lemma space_is c : Ascii.eqb c " " = true -> is_space c = true.
Proof. intros H. apply Ascii.eqb_eq in H as ->. reflexivity. Qed.

Definition dark (c : ascii) : bool := negb (is_space c).
Lemma number_dark c : number_char c = true -> dark c = true.
Proof.
  intros H. unfold dark. destruct (is_space c) eqn:E; [|reflexivity]. exfalso. destruct c as [[] [] [] [] [] [] [] []]; vm_compute in H, E; congruence.
Qed.

Lemma lstrip_spaces g s : all_chars is_space g = true -> lstrip (g ++ s) = lstrip s.
Proof. induction g as [|c g IH]; [reflexivity|]. cbn. intros A. apply andb_true_iff in A as [-> A2]. exact (IH A2). Qed.
Lemma lstrip_dark w s : w <> "" -> all_chars dark w = true -> lstrip (w ++ s) = w ++ s.
Proof. destruct w as [|c w]; [congruence|]. intros _ A. cbn in *. apply andb_true_iff in A as [A1 A2]. unfold dark in A1. destruct (is_space c); [discriminate|reflexivity]. Qed.
Lemma rstrip_spaces g : all_chars is_space g = true -> rstrip g = "".
Proof. induction g as [|c g IH]; [reflexivity|]. cbn. intros A. apply andb_true_iff in A as [A1 A2]. rewrite (IH A2), A1. reflexivity. Qed.
Lemma rstrip_app a w : rstrip w <> "" -> rstrip (a ++ w) = a ++ rstrip w.
Proof. intros N. induction a as [|c a IH]; [reflexivity|]. cbn. rewrite IH. destruct a as [|x a]; cbn; [|reflexivity]. destruct (rstrip w); [congruence|reflexivity]. Qed.
Lemma rstrip_dark w g : w <> "" -> all_chars dark w = true -> all_chars is_space g = true -> rstrip (w ++ g) = w.
Proof.
  intros N A G. induction w as [|c w IH]; [congruence|]. cbn in *. apply andb_true_iff in A as [A1 A2]. destruct w as [|x w].
  - cbn. rewrite (rstrip_spaces g G). unfold dark in A1. destruct (is_space c); [discriminate|reflexivity].
  - rewrite IH; [reflexivity|discriminate|exact A2].
Qed.

Lemma strip_cell n gap u g g' : n <> "" -> u <> "" -> all_chars dark n = true -> all_chars dark u = true -> all_chars is_space g = true -> all_chars is_space g' = true ->
  strip (g ++ n ++ gap ++ u ++ g') = n ++ gap ++ u.
Proof.
  intros Nn Nu An Au G G'. unfold strip. rewrite (lstrip_spaces g _ G), (lstrip_dark n _ Nn An).
  assert (E := rstrip_dark u g' Nu Au G'). rewrite <- (append_assoc n), rstrip_app, E; [apply append_assoc|rewrite E; exact Nu].
Qed.

Lemma number_no fixed ch d x : number_format fixed -> number_char ch = false -> has_char ch (fixed d x) = false.
Proof. intros F N. exact (all_chars_has _ _ _ (proj2 (F d x)) N). Qed.
Lemma spaces_no ch n : ch <> " "%char -> has_char ch (spaces n) = false.
Proof. intros N. apply (all_chars_has _ _ _ (spaces_all n)), eqb_neq_ascii, N. Qed.
Lemma spaces_space n : all_chars is_space (spaces n) = true.
Proof. exact (all_chars_mono _ _ _ space_is (spaces_all n)). Qed.
Lemma number_is_dark fixed d x : number_format fixed -> all_chars dark (fixed d x) = true.
Proof. intros F. exact (all_chars_mono _ _ _ number_dark (proj2 (F d x))). Qed.
Lemma ljust_no ch n s : ch <> " "%char -> has_char ch s = false -> has_char ch (ljust n s) = false.
Proof. intros N H. unfold ljust. rewrite has_char_app, H. apply spaces_no, N. Qed.

Lemma split_on_app2 ch a s b : a ++ s = b -> has_char ch a = false -> exists w ws, split_on ch b = (a ++ w) :: ws /\ split_on ch s = w :: ws.
Proof.
  intros <- H. induction a as [|c a IH]; cbn.
  - destruct (split_on ch s) as [|w ws] eqn:E; [|eauto]. exfalso. destruct s as [|c s]; cbn in E; [discriminate|]. destruct (Ascii.eqb c ch); [discriminate|]. destruct (split_on ch s); discriminate.
  - cbn in H. apply orb_false_iff in H as [H1 H2]. destruct (IH H2) as (w & ws & E & S). exists w, ws. rewrite E. rewrite Ascii.eqb_sym in H1. rewrite H1. auto.
Qed.

Lemma rules_value u : rule_normal u = value_unit u.
Proof. destruct u; reflexivity. Qed.
Lemma rules_deviation u : rule_precise u = deviation_unit u.
Proof. destruct u; reflexivity. Qed.

Lemma extract_value_ok fixed p f u d : number_format fixed -> has_char "=" (p_name p) = false -> value_unit (p_unit p) = (f, u, d) ->
  exists cell, extract_value (param_str fixed p) = Ok cell /\ shows cell (fixed d (Fin (p_value p * f))) (match p_unit p with U_SECOND => "m" | _ => u end).
Proof.
  intros F N E. unfold param_str. rewrite rules_value, rules_deviation, E. destruct (deviation_unit (p_unit p)) as [[f' u'] d'] eqn:E'. cbn [num_scale].
  set (n1 := fixed d _). set (n2 := fixed d' _). unfold extract_value.
  set (tail := ljust 8 n1 ++ ljust 4 u ++ "  s-dev.: " ++ ljust 8 n2 ++ ljust 4 u').
  replace (ljust 16 (p_name p) ++ " = " ++ tail) with ((ljust 16 (p_name p) ++ " ") ++ String "=" (" " ++ tail)) by (rewrite append_assoc; reflexivity).
  rewrite split_on_cut by (rewrite has_char_app, ljust_no by (discriminate || exact N); reflexivity).
  assert (U1 : has_char "=" u = false) by (destruct (p_unit p); injection E as <- <- <-; reflexivity).
  assert (U2 : has_char "=" u' = false) by (destruct (p_unit p); injection E' as <- <- <-; reflexivity).
  assert (T : has_char "=" (" " ++ tail) = false).
  { unfold tail. rewrite !has_char_app, !ljust_no; try reflexivity; try discriminate; try assumption; apply (number_no fixed); try exact F; reflexivity. }
  rewrite (split_on_none _ _ T). cbn [nth_error].
  assert (M : has_char "s" n1 = false) by (apply (number_no fixed); [exact F|reflexivity]).
  assert (D : all_chars dark n1 = true) by (apply (number_is_dark fixed), F). assert (Z : n1 <> "") by apply F.
  unfold shows, tail, ljust. set (k := (8 - String.length n1)%nat). clearbody n1 n2.
  destruct (p_unit p) eqn:PU; cbn in E; injection E as <- <- <-;
  match goal with |- context [split_on "s" (" " ++ (_ ++ spaces k) ++ (?u ++ spaces ?m) ++ "  s-dev.: " ++ ?r)] =>
    match u with
    | "ms" => replace (" " ++ (n1 ++ spaces k) ++ (u ++ spaces m) ++ "  s-dev.: " ++ r) with ((" " ++ n1 ++ spaces k ++ "m" ++ "") ++ String "s" (spaces m ++ "  s-dev.: " ++ r)) by (rewrite !append_assoc; reflexivity)
    | _ => replace (" " ++ (n1 ++ spaces k) ++ (u ++ spaces m) ++ "  s-dev.: " ++ r) with ((" " ++ n1 ++ spaces k ++ u ++ (spaces m ++ "  ")) ++ String "s" ("-dev.: " ++ r)) by (rewrite !append_assoc; reflexivity)
    end
  end;
  (rewrite split_on_cut by (rewrite !has_char_app, M, ?spaces_no by discriminate; reflexivity));
  (eexists; split; [rewrite strip_cell; [reflexivity|exact Z|discriminate|exact D|reflexivity|reflexivity|try reflexivity; rewrite all_chars_app, spaces_space; reflexivity]|]; exists (spaces k); split; [apply spaces_all|reflexivity]).
Qed.

Lemma extract_std_ok fixed p f u d : number_format fixed -> deviation_unit (p_unit p) = (f, u, d) ->
  exists cell, extract_std (param_str fixed p) = Ok cell /\ shows cell (fixed d (if Rltb (p_variance p) 0 then NaN else Fin (sqrt (p_variance p) * f))) u.
Proof.
  intros F E. unfold param_str. rewrite rules_value, rules_deviation, E. destruct (value_unit (p_unit p)) as [[f' u'] d'] eqn:E'. unfold extract_std.
  replace (num_scale f (np_sqrt (p_variance p))) with (if Rltb (p_variance p) 0 then NaN else Fin (sqrt (p_variance p) * f)) by (unfold np_sqrt; destruct (Rltb (p_variance p) 0); reflexivity).
  set (n2 := fixed d (if Rltb (p_variance p) 0 then _ else _)). set (n1 := fixed d' _).
  assert (U2 : has_char ":" u = false) by (destruct (p_unit p); injection E as <- <- <-; reflexivity).
  assert (DU : all_chars dark u = true /\ u <> "") by (destruct (p_unit p); injection E as <- <- <-; split; (reflexivity || discriminate)).
  assert (M : has_char ":" n2 = false) by (apply (number_no fixed); [exact F|reflexivity]).
  assert (D : all_chars dark n2 = true) by (apply (number_is_dark fixed), F). assert (Z : n2 <> "") by apply F. clearbody n1 n2.
  replace (ljust 16 (p_name p) ++ " = " ++ ljust 8 n1 ++ ljust 4 u' ++ "  s-dev.: " ++ ljust 8 n2 ++ ljust 4 u)
    with ((ljust 16 (p_name p) ++ " = " ++ ljust 8 n1 ++ ljust 4 u' ++ "  s-dev.") ++ String ":" (" " ++ ljust 8 n2 ++ ljust 4 u)) by (rewrite !append_assoc; reflexivity).
  set (pre := ljust 16 _ ++ _).
  assert (L : exists l, split_on ":" (pre ++ String ":" (" " ++ ljust 8 n2 ++ ljust 4 u)) = (l ++ [(" " ++ ljust 8 n2 ++ ljust 4 u)%string])%list).
  { clearbody pre. assert (S : has_char ":" (" " ++ ljust 8 n2 ++ ljust 4 u) = false) by (rewrite !has_char_app, !ljust_no by (discriminate || assumption); reflexivity).
    set (r := " " ++ _) in *. clearbody r. induction pre as [|c pre [l IH]].
    - exists [""]. cbn. rewrite (split_on_none _ _ S). reflexivity.
    - cbn [append split_on]. rewrite IH. destruct (Ascii.eqb c ":"); [exists ("" :: l); reflexivity|]. destruct l as [|w l]; cbn.
      + exfalso. clear -IH S. cbn in IH.
        assert (forall a, (2 <= length (split_on ":" (a ++ String ":" r)))%nat) as H.
        { induction a as [|x a IHa]; cbn; [destruct (split_on ":" r) eqn:X; [|cbn; lia]|].
          - destruct r as [|x r]; cbn in X; [discriminate|]. destruct (Ascii.eqb x ":"); [discriminate|]. destruct (split_on ":" r); discriminate.
          - destruct (Ascii.eqb x ":"); cbn; [lia|]. destruct (split_on ":" (a ++ String ":" r)); cbn in *; lia. }
        specialize (H pre). rewrite IH in H. cbn in H. lia.
      + exists (String c w :: l). reflexivity. }
  destruct L as [l ->]. rewrite rev_app_distr. cbn [rev List.app]. unfold ljust. rewrite append_assoc, strip_cell; try tauto; try reflexivity; try apply spaces_space.
  eexists. split; [reflexivity|]. exists (spaces (8 - String.length n2)). split; [apply spaces_all|reflexivity].
Qed.

(** * Sums over sparse vectors *)
Local Open Scope R_scope.
Lemma sum_to_S n f : sum_to (S n) f = sum_to n f + f n.
Proof.
  unfold sum_to. rewrite seq_S, map_app, fold_right_app. cbn. generalize (map f (seq 0 n)). intros l. induction l as [|a l IH]; cbn; [lra|rewrite IH; lra].
Qed.
Lemma sum_to_ext n f g : (forall i, (i < n)%nat -> f i = g i) -> sum_to n f = sum_to n g.
Proof. induction n as [|n IH]; intros H; [reflexivity|]. rewrite !sum_to_S, IH, H by (intros; try apply H; lia). reflexivity. Qed.
Lemma sum_to_zero n : sum_to n (fun _ => 0) = 0.
Proof. induction n as [|n IH]; [reflexivity|]. rewrite sum_to_S, IH. lra. Qed.
Lemma sum_to_plus n f g : sum_to n (fun i => f i + g i) = sum_to n f + sum_to n g.
Proof. induction n as [|n IH]; [unfold sum_to; cbn; lra|]. rewrite !sum_to_S, IH. lra. Qed.
Lemma sum_to_one n i f : (i < n)%nat -> sum_to n (fun k => if (k =? i)%nat then f k else 0) = f i.
Proof.
  induction n as [|n IH]; intros L; [lia|]. rewrite sum_to_S. destruct (Nat.eq_dec i n) as [->|N].
  - rewrite Nat.eqb_refl, (sum_to_ext n _ (fun _ => 0)), sum_to_zero; [lra|]. intros k K. destruct (k =? n)%nat eqn:E; [apply Nat.eqb_eq in E; lia|reflexivity].
  - rewrite IH by lia. destruct (n =? i)%nat eqn:E; [apply Nat.eqb_eq in E; lia|lra].
Qed.

(** The quadratic form of a vector with two entries *)
Lemma quad_two n (m : nat -> nat -> R) i j a b : (i < n)%nat -> (j < n)%nat -> (forall k l, (k < n)%nat -> (l < n)%nat -> m k l = m l k) ->
  sum_to n (fun k => sum_to n (fun l => ((if (k =? i)%nat then a else 0) + (if (k =? j)%nat then b else 0)) * m k l * ((if (l =? i)%nat then a else 0) + (if (l =? j)%nat then b else 0))))
  = a * a * m i i + 2 * a * b * m i j + b * b * m j j.
Proof.
  intros I J S. rewrite (sum_to_ext n _ (fun k => (if (k =? i)%nat then a * (m k i * a + m k j * b) else 0) + (if (k =? j)%nat then b * (m k i * a + m k j * b) else 0))).
  - rewrite sum_to_plus, (sum_to_one n i (fun k => a * (m k i * a + m k j * b)) I), (sum_to_one n j (fun k => b * (m k i * a + m k j * b)) J), (S j i J I). ring.
  - intros k K. set (c := _ + _). rewrite (sum_to_ext n _ (fun l => (if (l =? i)%nat then c * m k l * a else 0) + (if (l =? j)%nat then c * m k l * b else 0))) by (intros l _; destruct (l =? i)%nat, (l =? j)%nat; ring).
    rewrite sum_to_plus, (sum_to_one n i (fun l => c * m k l * a) I), (sum_to_one n j (fun l => c * m k l * b) J). unfold c. destruct (k =? i)%nat, (k =? j)%nat; ring.
Qed.

Lemma covariance_diag m i : is_covariance m -> (i < m_rows m)%nat -> 0 <= m_at m i i.
Proof.
  intros (_ & S & P) I. specialize (P (fun k => (if (k =? i)%nat then 1 else 0) + (if (k =? i)%nat then 0 else 0))). cbn beta in P. rewrite (quad_two _ (m_at m) i i 1 0 I I S) in P. lra.
Qed.
Lemma covariance_minor m i j : is_covariance m -> (i < m_rows m)%nat -> (j < m_rows m)%nat -> m_at m i j * m_at m i j <= m_at m i i * m_at m j j.
Proof.
  intros C I J. assert (D := covariance_diag m i C I). assert (D' := covariance_diag m j C J). destruct C as (_ & S & P).
  assert (Q : forall a b, 0 <= a * a * m_at m i i + 2 * a * b * m_at m i j + b * b * m_at m j j) by (intros a b; rewrite <- (quad_two _ (m_at m) i j a b I J S); apply P).
  destruct (Req_dec (m_at m i i) 0) as [Z|Z].
  - rewrite Z. destruct (Req_dec (m_at m i j) 0) as [Y|Y]; [rewrite Y; lra|]. exfalso.
    specialize (Q (- (1 + m_at m j j) / m_at m i j) 1). rewrite Z in Q. replace (_ + _ + _) with (-2 - m_at m j j) in Q by (field; exact Y). lra.
  - specialize (Q (- m_at m i j) (m_at m i i)). apply (Rmult_le_reg_l (m_at m i i)); [lra|]. 
    replace (- m_at m i j * - m_at m i j * m_at m i i + 2 * - m_at m i j * m_at m i i * m_at m i j + m_at m i i * m_at m i i * m_at m j j)
      with (m_at m i i * (m_at m i i * m_at m j j) - m_at m i i * (m_at m i j * m_at m i j)) in Q by ring. lra.
Qed.
