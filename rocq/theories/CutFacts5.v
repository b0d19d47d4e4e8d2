(** Absolute results read from files that were cut off. *)
From Verif Require Import Base BaseFacts EstModel TextModel TextFacts HeaderModel HeaderFacts NumpyModel TrajModel TrajSpec TrajFacts2 GeomModel GeomSpec IoModel IoSpec IoFacts IoFacts2 EvalModel RpeModel RpeSpec RpeFacts RpeFacts2 RpeFacts3 AteModel AteSpec AteFacts AteFacts2 TornModel TornFacts CutModel CutSpec CutFacts CutFacts2 CutFacts3.
Local Open Scope string_scope.

Lemma forall2_pointwise {A B} (P : A -> B -> Prop) l x : length l = length x -> (forall i a b, nth_error l i = Some a -> nth_error x i = Some b -> P a b) -> Forall2 P l x.
Proof.
  revert x. induction l as [|a l IH]; intros [|b x] L H; cbn in L; try lia; constructor; [apply (H 0%nat); reflexivity|].
  apply IH; [lia|]. intros i a' b' X Y. apply (H (S i)); assumption.
Qed.
Lemma v3_of_nth x y z i v : nth_error (v3_of [x; y; z]) i = Some v -> nth_error x i = Some (vx v) /\ nth_error y i = Some (vy v) /\ nth_error z i = Some (vz v).
Proof.
  cbn [v3_of]. revert y z i. induction x as [|a x IH]; intros [|b y] [|c z] [|i] H; cbn in H; try discriminate; [injection H as <-; auto|]. apply (IH y z i H).
Qed.
Lemma v3_of_length x y z : length y = length x -> length z = length x -> length (v3_of [x; y; z]) = length x.
Proof. intros A B. cbn [v3_of]. rewrite map_length, !combine_length. lia. Qed.
Lemma v4_of_nth x y z w i v : nth_error (v4_of [x; y; z; w]) i = Some v -> nth_error x i = Some (q_x v) /\ nth_error y i = Some (q_y v) /\ nth_error z i = Some (q_z v) /\ nth_error w i = Some (q_w v).
Proof.
  cbn [v4_of]. revert y z w i. induction x as [|a x IH]; intros [|b y] [|c z] [|d w] [|i] H; cbn in H; try discriminate; [injection H as <-; auto|]. apply (IH y z w i H).
Qed.
Lemma v4_of_length x y z w : length y = length x -> length z = length x -> length w = length x -> length (v4_of [x; y; z; w]) = length x.
Proof. intros A B C. cbn [v4_of]. rewrite map_length, !combine_length. lia. Qed.

Section Cut5.
  Context (T : text_ops) (show12 : R -> string) (TC : text_contract T) (FC : format12 T show12).
  Notation begun := (begun show12).

  Lemma columns_valued names got wanted cols : frame_columns T names got wanted = Ok (Some cols) ->
    Forall2 (fun nm x => exists j, index_of nm names = Ok j /\ valued T j got x) wanted cols.
  Proof.
    unfold frame_columns. intro H. apply bind_ok in H as [cs [C H]]. injection H as H. revert cs cols C H.
    induction wanted as [|a wanted IH]; intros cs cols C H; cbn in C; [injection C as <-; cbn in H; injection H as <-; constructor|].
    apply bind_ok in C as [c [A C]]. apply bind_ok in C as [cs' [B C]]. injection C as <-. cbn in H. destruct (all_finite c) as [x|] eqn:X; [|discriminate].
    destruct (all_some (map all_finite cs')) as [xs|] eqn:XS; [|discriminate]. injection H as <-. constructor; [|apply (IH cs' xs B XS)].
    apply (column_read T names got a c x A X).
  Qed.

  Context (w : nat) (rows : list (list R)) (got : list (list cell)) (B : begun w rows got) (W : wide w rows) (NN : Forall (fun g => nth (w - 1) g None <> None) got).
  Notation m := (length got).

  Lemma got_short : (m <= length rows)%nat.
  Proof.
    clear NN W. revert got B. induction rows as [|f full IH]; intros [|g gs] BB; try (cbn; lia); cbn in BB; [contradiction|]. cbn. destruct BB as [[_ BB]|[-> _]]; [specialize (IH gs BB); lia|cbn; lia].
  Qed.
  Lemma col_value j i f : nth_error rows i = Some f -> nth_error (col j rows) i = Some (nth j f 0).
  Proof. intro E. unfold col. rewrite nth_error_map, E. reflexivity. Qed.

  (** A column, given by its place *)
  Lemma column_value j l x : (j < w)%nat -> col j rows = l -> valued T j got x ->
    length x = m /\ forall i a y, nth_error (firstn m l) i = Some a -> nth_error x i = Some y -> near12 a y \/ (j = w - 1 /\ S i = m)%nat.
  Proof.
    intros J <- V. destruct (begun_column T show12 FC w j rows got x B W J NN V) as (LX & LG & H). split; [exact LX|]. intros i a y A Y.
    assert (i < m)%nat as LI by (apply nth_error_Some_lt in Y; lia). rewrite firstn_nth_error in A by exact LI.
    destruct (nth_error rows i) as [f|] eqn:F; [|apply nth_error_None in F; lia]. rewrite (col_value j i f F) in A. injection A as <-. apply (H i f y F Y).
  Qed.
  Lemma column_length j l : col j rows = l -> length (firstn m l) = m.
  Proof. intros <-. unfold col. rewrite firstn_length, map_length. pose proof got_short. lia. Qed.
  Lemma column_near j l x : (S j < w)%nat -> col j rows = l -> valued T j got x -> Forall2 near12 (firstn m l) x.
  Proof.
    intros J C V. destruct (column_value j l x ltac:(lia) C V) as [LX H]. apply forall2_pointwise; [rewrite LX; apply (column_length j l C)|].
    intros i a y A Y. destruct (H i a y A Y) as [N|[N _]]; [exact N|lia].
  Qed.

  (** Vectors *)
  Lemma three_near k (l : list V3) x y z : (k + 2 < w)%nat -> inside k 3 (map v3_values l) rows -> valued T k got x -> valued T (k + 1) got y -> valued T (k + 2) got z ->
    all_but_last near12_v3 (firstn m l) (v3_of [x; y; z]) /\ ((k + 3 < w)%nat -> Forall2 near12_v3 (firstn m l) (v3_of [x; y; z])).
  Proof.
    intros K I X Y Z. destruct (col_v3 l) as (CX & CY & CZ).
    assert (col k rows = map vx l) as C0 by (rewrite <- CX, <- (I 0%nat) by lia; f_equal; lia).
    assert (col (k + 1) rows = map vy l) as C1 by (rewrite <- CY; apply I; lia).
    assert (col (k + 2) rows = map vz l) as C2 by (rewrite <- CZ; apply I; lia).
    destruct (column_value k _ x ltac:(lia) C0 X) as [LX HX]. destruct (column_value (k + 1) _ y ltac:(lia) C1 Y) as [LY HY]. destruct (column_value (k + 2) _ z ltac:(lia) C2 Z) as [LZ HZ].
    assert (length (firstn m l) = m) as LF by (pose proof (column_length k _ C0) as H; rewrite firstn_length, map_length in H; rewrite firstn_length; exact H).
    assert (length (v3_of [x; y; z]) = m) as LV by (rewrite v3_of_length; congruence).
    assert (forall i a v, nth_error (firstn m l) i = Some a -> nth_error (v3_of [x; y; z]) i = Some v -> near12_v3 a v \/ (k + 2 = w - 1 /\ S i = m)%nat) as G.
    { intros i a v A V. apply v3_of_nth in V as (V1 & V2 & V3). rewrite firstn_map in HX, HY, HZ.
      destruct (HX i (vx a) (vx v)) as [N1|[? _]]; [rewrite nth_error_map, A; reflexivity|exact V1| |lia].
      destruct (HY i (vy a) (vy v)) as [N2|[? _]]; [rewrite nth_error_map, A; reflexivity|exact V2| |lia].
      destruct (HZ i (vz a) (vz v)) as [N3|N3]; [rewrite nth_error_map, A; reflexivity|exact V3|left; repeat split; assumption|right; exact N3]. }
    split.
    - split; [congruence|]. intros i a v A V. destruct (G i a v A V) as [N|[_ N]]; [left; exact N|right; congruence].
    - intro K3. apply forall2_pointwise; [congruence|]. intros i a v A V. destruct (G i a v A V) as [N|[N _]]; [exact N|lia].
  Qed.

  (** Rotations *)
  Context {Q : Type} (ops : rot_ops Q) (qops : quat_ops Q) (QC : quat_contract ops qops).
  Lemma quat_near q v q' : near12 (q_x (as_quat qops q)) (q_x v) -> near12 (q_y (as_quat qops q)) (q_y v) -> near12 (q_z (as_quat qops q)) (q_z v) -> near12 (q_w (as_quat qops q)) (q_w v) ->
    from_quat qops v = Some q' -> near12_quat (as_quat qops q) (as_quat qops q').
  Proof.
    set (u := as_quat qops q). intros N1 N2 N3 N4 F. assert (qnorm u = 1) as U by apply (qc_unit ops qops QC). set (e := 5 / 10 ^ 13).
    assert (0 <= e < 1 / 4) as E by (unfold e; lra).
    assert (1 - 2 * e <= qnorm v <= 1 + 2 * e) as N by (apply norm_near with (v := u); [exact U|exact E|..]; assumption).
    assert (0 < qnorm v) as P by lra. destruct (qc_from ops qops QC v) as [q'' [F' G]]; [lra|]. assert (q'' = q') as -> by congruence.
    rewrite G. unfold near12_quat, qscale. cbn [q_x q_y q_z q_w].
    assert (forall x, In x [q_x v; q_y v; q_z v; q_w v] -> Rabs x <= qnorm v) as C by (intros x I; apply component_le_norm; exact I).
    replace (15 / 10 ^ 13) with (3 * e) by (unfold e; lra).
    repeat split; apply scaled_component_gen; try apply E; try assumption; try (apply C; cbn; tauto).
  Qed.
  Lemma four_near k (l : list Q) x y z v l' : (k + 3 < w)%nat -> inside k 4 (quat_rows qops l) rows -> valued T k got x -> valued T (k + 1) got y -> valued T (k + 2) got z -> valued T (k + 3) got v ->
    mapM (fun v => match from_quat qops v with Some q => Ok q | None => Err ValueError end) (v4_of [x; y; z; v]) = Ok l' ->
    all_but_last (fun a b => near12_quat (as_quat qops a) (as_quat qops b)) (firstn m l) l' /\
    ((k + 4 < w)%nat -> Forall2 (fun a b => near12_quat (as_quat qops a) (as_quat qops b)) (firstn m l) l').
  Proof.
    intros K I X Y Z V MM. pose proof (col_quats qops l) as CQ. unfold qcols in CQ. injection CQ as CX CY CZ CW.
    assert (col k rows = map (fun q => q_x (as_quat qops q)) l) as C0 by (rewrite <- CX, <- (I 0%nat) by lia; f_equal; lia).
    assert (col (k + 1) rows = map (fun q => q_y (as_quat qops q)) l) as C1 by (rewrite <- CY; apply I; lia).
    assert (col (k + 2) rows = map (fun q => q_z (as_quat qops q)) l) as C2 by (rewrite <- CZ; apply I; lia).
    assert (col (k + 3) rows = map (fun q => q_w (as_quat qops q)) l) as C3 by (rewrite <- CW; apply I; lia).
    destruct (column_value k _ x ltac:(lia) C0 X) as [LX HX]. destruct (column_value (k + 1) _ y ltac:(lia) C1 Y) as [LY HY]. destruct (column_value (k + 2) _ z ltac:(lia) C2 Z) as [LZ HZ].
    destruct (column_value (k + 3) _ v ltac:(lia) C3 V) as [LW HW].
    assert (length (firstn m l) = m) as LF by (pose proof (column_length k _ C0) as H; rewrite firstn_length, map_length in H; rewrite firstn_length; exact H).
    assert (length l' = m) as LV by (apply mapM_length in MM; rewrite MM, v4_of_length; congruence).
    assert (forall i a b, nth_error (firstn m l) i = Some a -> nth_error l' i = Some b -> near12_quat (as_quat qops a) (as_quat qops b) \/ (k + 3 = w - 1 /\ S i = m)%nat) as G.
    { intros i a b A E. rewrite firstn_map in HX, HY, HZ, HW.
      destruct (nth_error (v4_of [x; y; z; v]) i) as [u|] eqn:U.
      2: { apply nth_error_None in U. apply nth_error_Some_lt in E. rewrite v4_of_length in U by congruence. lia. }
      pose proof (mapM_nth_error _ _ _ i MM) as FB. rewrite U, E in FB. destruct (from_quat qops u) as [b'|] eqn:FQ; [|destruct FB as [? [? ?]]; discriminate]. destruct FB as [b'' [FB FE]]. assert (b' = b) as -> by congruence.
      apply v4_of_nth in U as (V1 & V2 & V3 & V4).
      destruct (HX i _ (q_x u) ltac:(rewrite nth_error_map, A; reflexivity) V1) as [N1|[? _]]; [|lia].
      destruct (HY i _ (q_y u) ltac:(rewrite nth_error_map, A; reflexivity) V2) as [N2|[? _]]; [|lia].
      destruct (HZ i _ (q_z u) ltac:(rewrite nth_error_map, A; reflexivity) V3) as [N3|[? _]]; [|lia].
      destruct (HW i _ (q_w u) ltac:(rewrite nth_error_map, A; reflexivity) V4) as [N4|N4]; [|right; exact N4].
      left. apply (quat_near a u b N1 N2 N3 N4 FQ). }
    split.
    - split; [congruence|]. intros i a b A E. destruct (G i a b A E) as [N|[_ N]]; [left; exact N|right; congruence].
    - intro K3. apply forall2_pointwise; [congruence|]. intros i a b A E. destruct (G i a b A E) as [N|[N _]]; [exact N|lia].
  Qed.
End Cut5.
