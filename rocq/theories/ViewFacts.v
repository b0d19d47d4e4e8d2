From Verif Require Import Base BaseFacts NumpyModel NumpyFacts TrajModel TrajSpec GeomModel GeomFacts2 MatchModel EvalModel EvalStats EvalFacts3 ParamModel DataModel EstModel TextModel TextFacts IoModel AngModel ViewModel ViewSpec.

Lemma np_c_ok (blocks : list (list (list R))) n : blocks <> [] -> Forall (fun b => length b = n) blocks ->
  exists rows, np_c blocks = Ok rows /\ length rows = n /\ forall i, (i < n)%nat -> nth_error rows i = Some (concat (map (fun b => nth i b []) blocks)).
Proof.
  intros N F. destruct blocks as [|b r]; [congruence|]. unfold np_c. assert (Lb : length b = n) by (inversion F; assumption).
  assert (E : forallb (fun c => length c =? length b)%nat r = true). { apply forallb_forall. intros c I. apply Nat.eqb_eq. rewrite Lb. inversion F as [|? ? _ G]. rewrite Forall_forall in G. auto. }
  rewrite E. eexists. split; [reflexivity|]. clear N E. generalize dependent (b :: r). intros blocks F.
  induction F as [|c blocks Lc F [IL IH]]; [cbn; split; [rewrite map_length; exact Lb|]; intros i I; rewrite nth_error_map'; destruct (nth_error_lt_Some b i ltac:(lia)) as [x ->]; reflexivity|].
  cbn [fold_right]. split; [rewrite map_length, combine_length; lia|]. intros i I. destruct (nth_error_lt_Some c i ltac:(lia)) as [x X].
  rewrite nth_error_map', (nth_error_combine_some _ _ _ _ _ X (IH i I)). cbn [map concat fst snd option_map]. rewrite (nth_error_nth _ _ [] X). reflexivity.
Qed.

Lemma nth_map_some {A B} (f : A -> B) l i x d : nth_error l i = Some x -> nth i (map f l) d = f x.
Proof. intros H. apply nth_error_nth. rewrite nth_error_map', H. reflexivity. Qed.

Lemma rows_ok {Q} as_quat (t : traj Q) : consistent t -> exists rows,
  (match rot t with
   | Some q => np_c [block1 (tstamps t); block1 (arc t); block3 (xyz t); block4 (map as_quat q); block3 (speed t)]
   | None => np_c [block1 (tstamps t); block1 (arc t); block3 (xyz t); block3 (speed t)] end) = Ok rows /\
  length rows = tlen t /\ forall i, (i < tlen t)%nat -> exists row, nth_error rows i = Some row /\ table_row as_quat t i row /\ length row = length (table_columns t).
Proof.
  intros (C1 & C2 & C3 & C4). unfold tlen, table_columns, table_row. destruct (rot t) as [q|].
  - destruct (np_c_ok [block1 (tstamps t); block1 (arc t); block3 (xyz t); block4 (map as_quat q); block3 (speed t)] (length (xyz t))) as (rows & E & L & H); [discriminate|repeat apply Forall_cons; try apply Forall_nil; unfold block1, block3, block4; rewrite ?map_length; auto|].
    exists rows. split; [exact E|]. split; [exact L|]. intros i I. rewrite (H i I). eexists. split; [reflexivity|].
    destruct (nth_error_lt_Some (tstamps t) i ltac:(lia)) as [ts T]. destruct (nth_error_lt_Some (arc t) i ltac:(lia)) as [a A]. destruct (nth_error_lt_Some (xyz t) i I) as [p P]. destruct (nth_error_lt_Some (speed t) i ltac:(lia)) as [v V]. destruct (nth_error_lt_Some q i ltac:(lia)) as [x X].
    cbn [map concat]. unfold block1, block3, block4. rewrite (nth_map_some _ _ _ _ _ T), (nth_map_some _ _ _ _ _ A), (nth_map_some _ _ _ _ _ P), (nth_map_some _ _ _ _ _ V), map_map, (nth_map_some _ _ _ _ _ X).
    split; [|reflexivity]. exists ts, a, p, v. repeat (split; [assumption|]). exists x. split; [exact X|reflexivity].
  - destruct (np_c_ok [block1 (tstamps t); block1 (arc t); block3 (xyz t); block3 (speed t)] (length (xyz t))) as (rows & E & L & H); [discriminate|repeat apply Forall_cons; try apply Forall_nil; unfold block1, block3, block4; rewrite ?map_length; auto|].
    exists rows. split; [exact E|]. split; [exact L|]. intros i I. rewrite (H i I). eexists. split; [reflexivity|].
    destruct (nth_error_lt_Some (tstamps t) i ltac:(lia)) as [ts T]. destruct (nth_error_lt_Some (arc t) i ltac:(lia)) as [a A]. destruct (nth_error_lt_Some (xyz t) i I) as [p P]. destruct (nth_error_lt_Some (speed t) i ltac:(lia)) as [v V].
    cbn [map concat]. unfold block1, block3, block4. rewrite (nth_map_some _ _ _ _ _ T), (nth_map_some _ _ _ _ _ A), (nth_map_some _ _ _ _ _ P), (nth_map_some _ _ _ _ _ V).
    split; [|reflexivity]. exists ts, a, p, v. repeat (split; [assumption|]). reflexivity.
Qed.

Lemma position_of_in x l : In x l -> exists c, position_of x l = Some c /\ nth_error l c = Some x.
Proof.
  induction l as [|y l IH]; [intros []|]. cbn. intros H. destruct (String.eqb x y) eqn:E; [apply String.eqb_eq in E as ->; exists 0%nat; auto|].
  destruct H as [->|H]; [rewrite String.eqb_refl in E; discriminate|]. destruct (IH H) as (c & -> & N). exists (S c). auto.
Qed.
Lemma position_of_out x l : ~ In x l -> position_of x l = None.
Proof.
  induction l as [|y l IH]; [reflexivity|]. cbn. intros H. destruct (String.eqb x y) eqn:E; [apply String.eqb_eq in E as ->; exfalso; auto|]. rewrite IH by auto. reflexivity.
Qed.

Lemma sort_values_ok argsort columns rows by_ n : argsort_contract argsort -> In by_ columns -> length rows = n -> (forall row, In row rows -> length row = length columns) ->
  exists sorted order c, sort_values argsort columns rows by_ = Ok sorted /\ nth_error columns c = Some by_ /\ Permutation order (seq 0 n) /\ length sorted = n /\
    (forall k i, nth_error order k = Some i -> nth_error sorted k = nth_error rows i) /\
    (forall k l row row' x y, (k < l)%nat -> nth_error sorted k = Some row -> nth_error sorted l = Some row' -> nth_error row c = Some x -> nth_error row' c = Some y -> x <= y).
Proof.
  intros C I L W. destruct (position_of_in _ _ I) as (c & P & NC). unfold sort_values. rewrite P.
  set (f := fun row : list R => match nth_error row c with Some x => Ok x | None => Err IndexError end).
  assert (M : mapM f rows = Ok (map (fun row => nth c row 0) rows)).
  { apply mapM_ok_map. intros row Hr. unfold f. destruct (nth_error_lt_Some row c) as [x X]; [rewrite (W row Hr); apply nth_error_Some_lt in NC; exact NC|]. rewrite X, (nth_error_nth _ _ _ X). reflexivity. }
  rewrite M. cbn [bind]. set (keys := map _ rows). assert (LK : length keys = n) by (unfold keys; rewrite map_length; exact L).
  assert (R : Forall (fun i => (i < length rows)%nat) (argsort keys)) by (rewrite L, <- LK; apply argsort_range, C).
  destruct (np_take_nat rows (argsort keys) R) as (sorted & E & H). exists sorted, (argsort keys), c. split; [exact E|]. split; [exact NC|].
  destruct (C keys) as [PM SO]. rewrite LK in PM. split; [exact PM|].
  assert (LA : length (argsort keys) = n) by (apply Permutation_length in PM; rewrite seq_length in PM; exact PM).
  split; [rewrite <- LA, <- (map_length Z.of_nat); unfold np_take in E; exact (mapM_length _ _ _ E)|].
  split; [intros k i K; rewrite (H k), K; reflexivity|].
  intros k l row row' x y KL Hk Hl X Y. rewrite (H k) in Hk. rewrite (H l) in Hl. destruct (nth_error (argsort keys) k) as [i|] eqn:Ei; [|discriminate]. destruct (nth_error (argsort keys) l) as [j|] eqn:Ej; [|discriminate].
  apply (SO k l i j x y KL Ei Ej); unfold keys; rewrite nth_error_map'; [rewrite Hk|rewrite Hl]; cbn; f_equal; apply nth_error_nth; assumption.
Qed.

(** * Data rate *)
Lemma np_diff_sum x l : np_sum (np_diff (x :: l)) = last (x :: l) 0 - x.
Proof.
  revert x. induction l as [|y l IH]; intros x; [cbn; ring|]. unfold np_diff, pairs in *. cbn [tl combine map] in *. unfold np_sum in *. cbn [fold_right snd fst] in *.
  change (tl (y :: l)) with l in IH. rewrite (IH y). destruct l; cbn; ring.
Qed.

Lemma sorted_last l x : StronglySorted Rle (x :: l) -> greatest (x :: l) (last (x :: l) 0) /\ least (x :: l) x.
Proof.
  intros S. split.
  - revert x S. induction l as [|y l IH]; intros x S; [split; [left; reflexivity|]; intros y [->|[]]; apply Rle_refl|]. inversion S as [|? ? S' F]; subst. destruct (IH y S') as [I G].
    change (last (x :: y :: l) 0) with (last (y :: l) 0). split; [right; exact I|]. intros z [->|Z]; [|exact (G z Z)]. rewrite Forall_forall in F. exact (F _ I).
  - inversion S as [|? ? S' F]; subst. split; [left; reflexivity|]. intros y [->|Y]; [lra|]. rewrite Forall_forall in F. exact (F y Y).
Qed.

Lemma data_rate_ok {Q} (t : traj Q) : match tstamps t with
  | [] | [_] => data_rate t = NaN
  | _ => forall lo hi, least (tstamps t) lo -> greatest (tstamps t) hi -> data_rate t = if Reqb (hi - lo) 0 then Inf else Fin (INR (length (tstamps t) - 1) / (hi - lo))
  end.
Proof.
  unfold data_rate. destruct (tstamps t) as [|a [|b l]] eqn:E; [reflexivity..|]. rewrite <- E. intros lo hi [L1 L2] [H1 H2].
  assert (P := np_sort_perm (tstamps t)). assert (S := np_sort_sorted (tstamps t)). assert (N := np_sort_length (tstamps t)). rewrite E in N at 2. cbn [length] in N.
  destruct (np_sort (tstamps t)) as [|x [|y r]] eqn:K; [discriminate N|discriminate N|].
  assert (LD : length (np_diff (x :: y :: r)) = Datatypes.S (length r)) by (unfold np_diff, pairs; rewrite map_length, combine_length; cbn [tl length]; lia).
  assert (EM : np_mean (np_diff (x :: y :: r)) = Some (np_sum (np_diff (x :: y :: r)) / INR (length (np_diff (x :: y :: r))))) by reflexivity.
  rewrite EM, LD, np_diff_sum. destruct (sorted_last (y :: r) x S) as [[G1 G2] [M1 M2]]. set (z := last (x :: y :: r) 0) in *.
  assert (lo = x) as ->. { apply Rle_antisym; [apply L2, (Permutation_in x P); left; reflexivity|apply M2, (Permutation_in lo (Permutation_sym P)), L1]. }
  assert (hi = z) as ->. { apply Rle_antisym; [apply G2, (Permutation_in hi (Permutation_sym P)), H1|apply H2, (Permutation_in z P), G1]. }
  assert (LT : length (tstamps t) = Datatypes.S (Datatypes.S (length r))) by (apply Permutation_length in P; cbn in P; congruence). rewrite LT.
  replace (Datatypes.S (Datatypes.S (length r)) - 1)%nat with (Datatypes.S (length r)) by lia.
  assert (PI0 : 0 < INR (Datatypes.S (length r))) by (apply lt_0_INR; lia). destruct (Reqb (z - x) 0) eqn:Z.
  - apply Reqb_true in Z. rewrite Z. unfold Rdiv at 1. rewrite Rmult_0_l, (proj2 (Reqb_true 0 0) eq_refl). reflexivity.
  - apply Reqb_false in Z. rewrite (proj2 (Reqb_false _ _)); [f_equal; field; split; lra|]. intro W. apply Z. apply (Rmult_eq_reg_r (/ INR (Datatypes.S (length r)))); [unfold Rdiv in W; rewrite W; ring|apply Rinv_neq_0_compat; lra].
Qed.

(** * Names *)
Local Open Scope string_scope.
Lemma before_vs_cut s : (~ contains "vs" s -> before_vs s = s) /\ (forall rest, ~ contains "vs" s -> before_vs (s ++ " vs" ++ rest) = s ++ " ").
Proof.
  induction s as [|c s [I1 I2]]; [split; reflexivity|].
  assert (D : ~ contains "vs" (String c s) -> ~ contains "vs" s) by (intros N (a & b & E); apply N; exists (String c a), b; rewrite E; reflexivity).
  assert (P : ~ contains "vs" (String c s) -> strip_prefix "vs" (String c s) = None).
  { intros N. destruct (strip_prefix "vs" (String c s)) as [r|] eqn:E; [|reflexivity]. exfalso. apply N. exists "", r. apply strip_prefix_some in E. exact E. }
  split.
  - intros N. cbn [before_vs]. rewrite (P N), (I1 (D N)). reflexivity.
  - intros rest N. change (String c s ++ " vs" ++ rest) with (String c (s ++ " vs" ++ rest)). cbn [before_vs].
    destruct (strip_prefix "vs" (String c (s ++ " vs" ++ rest))) as [r|] eqn:E; [|rewrite (I2 rest (D N)); reflexivity]. exfalso.
    apply strip_prefix_some in E. cbn in E. injection E as -> E. destruct s as [|d s]; cbn in E; [discriminate|]. injection E as -> _. apply N. exists "", s. reflexivity.
Qed.

Lemma contains_cut s : contains "vs" s -> exists a b, s = a ++ "vs" ++ b /\ (forall rest, before_vs (s ++ rest) = a).
Proof.
  intros H. induction s as [|c s IH]; [destruct H as (a & b & E); destruct a; discriminate|].
  destruct (strip_prefix "vs" (String c s)) as [r|] eqn:E.
  - apply strip_prefix_some in E. exists "", r. split; [exact E|]. intros rest. rewrite E. reflexivity.
  - destruct IH as (a & b & E1 & E2).
    + destruct H as (a & b & H). destruct a as [|d a]; [cbn in H; injection H as -> ->; discriminate E|]. injection H as <- ->. exists a, b. reflexivity.
    + exists (String c a), b. split; [rewrite E1; reflexivity|]. intros rest. change (String c s ++ rest) with (String c (s ++ rest)). cbn [before_vs].
      destruct (strip_prefix "vs" (String c (s ++ rest))) as [r|] eqn:F; [|rewrite E2; reflexivity]. exfalso. apply strip_prefix_some in F. cbn in F. injection F as -> F.
      destruct s as [|d s]; [destruct a; discriminate E1|]. cbn in F. injection F as -> _. discriminate E.
Qed.

Lemma in_sorting_order_perm {Q} (t : traj Q) p : in_sorting_order t p -> Permutation p (xyz t).
Proof.
  intros (idx & P & L & N & _). assert (LI : length idx = length (xyz t)) by (rewrite (Permutation_length P); apply seq_length).
  assert (E : map Some p = map (nth_error (xyz t)) idx).
  { apply nth_error_ext. intro k. rewrite !nth_error_map'. destruct (nth_error idx k) as [i|] eqn:K.
    - cbn. rewrite (N k i K). assert (I : In i (seq 0 (length (xyz t)))) by (apply (Permutation_in _ P), (nth_error_In _ _ K)). apply in_seq in I. destruct (nth_error_lt_Some (xyz t) i ltac:(lia)) as [x ->]. reflexivity.
    - apply nth_error_None in K. rewrite (proj2 (nth_error_None p k)) by lia. reflexivity. }
  assert (F : map (nth_error (xyz t)) (seq 0 (length (xyz t))) = map Some (xyz t)).
  { apply nth_error_ext. intro k. rewrite !nth_error_map'. destruct (Nat.lt_ge_cases k (length (xyz t))) as [K|K].
    - rewrite (nth_error_nth' _ 0%nat) by (rewrite seq_length; exact K). rewrite seq_nth by exact K. cbn. destruct (nth_error_lt_Some (xyz t) k K) as [x ->]. reflexivity.
    - rewrite (proj2 (nth_error_None (seq 0 (length (xyz t))) k)) by (rewrite seq_length; exact K). rewrite (proj2 (nth_error_None (xyz t) k)) by exact K. reflexivity. }
  assert (PP : Permutation (map Some p) (map Some (xyz t))) by (rewrite E, <- F; apply Permutation_map, P).
  apply (Permutation_map (fun o : option V3 => match o with Some v => v | None => vzero end)) in PP. rewrite !map_map, !map_id in PP. exact PP.
Qed.

Lemma axes_ok order : Forall is_axis (list_ascii_of_string order) ->
  exists axes, axes_indices order = Ok axes /\ length axes = length (list_ascii_of_string order) /\
    (forall m c i p, nth_error (list_ascii_of_string order) m = Some c -> nth_error axes m = Some i -> Forall2 (coordinate c) p (column i p)).
Proof.
  assert (X : forall c, is_axis c -> exists i, axis_index c = Ok i /\ forall p, Forall2 (coordinate c) p (column i p)).
  { intros c [-> | [-> | -> ] ]; cbn; eexists; (split; [reflexivity|]); intros p; induction p as [|v p IH]; constructor; auto; unfold coordinate; auto. }
  induction order as [|c r IH]; intros F; [exists []; split; [reflexivity|]; split; [reflexivity|]; intros [|m] ? ? ? H; discriminate H|].
  cbn in F. inversion F as [|? ? F1 F2]; subst. destruct (X c F1) as (i & E & Hi). destruct (IH F2) as (l & E' & L & H). exists (i :: l). cbn [axes_indices]. rewrite E. cbn [bind]. rewrite E'. split; [reflexivity|].
  split; [cbn; rewrite L; reflexivity|]. intros [|m] c' i' p Hc Hm; cbn in Hc, Hm.
  - injection Hc as <-. injection Hm as <-. apply Hi.
  - eapply H; eauto.
Qed.

Lemma axes_bad order : ~ Forall is_axis (list_ascii_of_string order) -> axes_indices order = Err ValueError.
Proof.
  induction order as [|c r IH]; intros N; [exfalso; apply N; constructor|]. cbn [axes_indices]. destruct (axis_index c) as [i|e] eqn:E.
  - cbn [bind]. rewrite IH; [reflexivity|]. intro F. apply N. cbn. constructor; [|exact F]. unfold axis_index in E. unfold is_axis.
    destruct (Ascii.eqb_spec c "x"); [auto|]. destruct (Ascii.eqb_spec c "y"); [auto|]. destruct (Ascii.eqb_spec c "z"); [auto|discriminate].
  - unfold axis_index in E. destruct (Ascii.eqb c "x"); [discriminate|]. destruct (Ascii.eqb c "y"); [discriminate|]. destruct (Ascii.eqb c "z"); [discriminate|]. injection E as <-. reflexivity.
Qed.

Lemma ascii_length s : length (list_ascii_of_string s) = String.length s.
Proof. induction s; cbn; congruence. Qed.

Lemma axis_dec c : {is_axis c} + {~ is_axis c}.
Proof.
  destruct (ascii_dec c "x"); [left; unfold is_axis; auto|]. destruct (ascii_dec c "y"); [left; unfold is_axis; auto|]. destruct (ascii_dec c "z"); [left; unfold is_axis; auto|]. right. unfold is_axis. tauto.
Qed.

Lemma coordinate_map p col : (Forall2 (coordinate "x") p col -> col = map vx p) /\ (Forall2 (coordinate "y") p col -> col = map vy p) /\ (Forall2 (coordinate "z") p col -> col = map vz p).
Proof.
  repeat split; intros F; induction F as [|v x p col H F IH]; cbn; auto; destruct H as [[? ?]|[[? ?]|[? ?]]]; congruence.
Qed.

Lemma contains_dec pat s : {contains pat s} + {~ contains pat s}.
Proof.
  induction s as [|c s IH].
  - destruct pat as [|d pat]; [left; exists "", ""; reflexivity|]. right. intros (a & b & E). destruct a; discriminate.
  - destruct (strip_prefix pat (String c s)) as [r|] eqn:E; [left; apply strip_prefix_some in E; exists "", r; exact E|]. destruct IH as [H|H].
    + left. destruct H as (a & b & ->). exists (String c a), b. reflexivity.
    + right. intros (a & b & X). destruct a as [|d a]; [|injection X as <- X; apply H; exists a, b; exact X]. cbn in X. rewrite X, strip_prefix_app in E. discriminate.
Qed.

Lemma mapM_map {A B C} (f : B -> result C) (g : A -> B) l : mapM f (map g l) = mapM (fun a => f (g a)) l.
Proof. induction l as [|a l IH]; cbn; [reflexivity|]. rewrite IH. reflexivity. Qed.

Lemma np_sum_ge l lo : (forall y, In y l -> (lo <= y)%R) -> (lo * INR (length l) <= np_sum l)%R.
Proof.
  induction l as [|a l IH]; intros H; [cbn; lra|]. cbn [length]. rewrite S_INR. change (np_sum (a :: l)) with (a + np_sum l)%R. assert (X := H a (or_introl eq_refl)). assert (Y := IH (fun y I => H y (or_intror I))). lra.
Qed.

Lemma np_take_map {A B} (f : A -> B) l idx l' : np_take l idx = Ok l' -> np_take (map f l) idx = Ok (map f l').
Proof.
  unfold np_take. revert l'. induction idx as [|i idx IH]; cbn; intros l' E; [injection E as <-; reflexivity|]. apply bind_ok in E as (x & X & E). apply bind_ok in E as (r & Y & E). injection E as <-.
  rewrite (IH r Y). unfold np_get in *. rewrite map_length. destruct (py_index (length l) i) as [k|]; [|discriminate]. rewrite nth_error_map'. destruct (nth_error l k); [|discriminate]. injection X as ->. reflexivity.
Qed.

Lemma mean_strict l lo m x : l <> [] -> (forall y, In y l -> (lo <= y)%R) -> In x l -> x <> lo -> np_mean l = Some m -> (lo < m)%R.
Proof.
  intros N H I X E. rewrite (np_mean_some l N) in E. injection E as <-. assert (P := len_pos l N).
  assert (S : (lo * INR (length l) < np_sum l)%R).
  { clear N P. induction l as [|a l IH]; [destruct I|]. cbn [length]. rewrite S_INR. change (np_sum (a :: l)) with (a + np_sum l)%R. destruct (Req_EM_T a lo) as [->|Na].
    - assert (In x l) by (destruct I; [congruence|assumption]). assert (Q := IH (fun y Hy => H y (or_intror Hy)) H0). lra.
    - assert (lo < a)%R by (assert (Q := H a (or_introl eq_refl)); lra). assert (lo * INR (length l) <= np_sum l)%R by (apply (np_sum_ge l lo); intros y Hy; apply H; right; exact Hy). lra. }
  apply (Rmult_lt_reg_r (INR (length l))); [exact P|]. unfold Rdiv. rewrite Rmult_assoc, Rinv_l, Rmult_1_r by lra. exact S.
Qed.

Lemma forall2_impl {A B} (P P' : A -> B -> Prop) l l' : (forall a b, P a b -> P' a b) -> Forall2 P l l' -> Forall2 P' l l'.
Proof. intros H F. induction F; constructor; auto. Qed.
