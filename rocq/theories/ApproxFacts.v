From Coq Require Import DecimalString DecimalNat DecimalFacts.
From Verif Require Import Base BaseFacts NumpyModel NumpyFacts LsqModel LsqSpec LsqFacts GeomModel MatchModel MatchSpec MatchFacts2 ApproxModel ApproxSpec.

(** ** Rounding *)

Lemma floor_spec x : IZR (Int_part x) <= x < IZR (Int_part x) + 1.
Proof. destruct (base_Int_part x). lra. Qed.
Lemma floor_unique x z : IZR z <= x < IZR z + 1 -> Int_part x = z.
Proof.
  intros [A B]. pose proof (floor_spec x) as [C D].
  assert (IZR (Int_part x) < IZR (z + 1)) as E by (rewrite plus_IZR; lra).
  assert (IZR z < IZR (Int_part x + 1)) as F by (rewrite plus_IZR; lra).
  apply lt_IZR in E. apply lt_IZR in F. lia.
Qed.

Lemma rndodd_spec s : Z.odd (rndodd s) = true /\ s - 1 < IZR (rndodd s) <= s + 1.
Proof.
  unfold rndodd. pose proof (floor_spec s) as [A B]. pose proof (floor_spec (s / 2)) as [C D].
  set (h := Int_part (s / 2)) in *. set (f := Int_part s) in *.
  unfold Rltb. destruct (Rlt_dec (s - 2 * IZR h) 1) as [L|L].
  - assert (f = 2 * h)%Z as ->.
    { apply floor_unique. rewrite mult_IZR. lra. }
    rewrite plus_IZR. split; [|lra]. rewrite Z.odd_add, Z.odd_mul. reflexivity.
  - assert (f = 2 * h + 1)%Z as E.
    { apply floor_unique. rewrite plus_IZR, mult_IZR. lra. }
    split; [|lra]. rewrite E, Z.odd_add, Z.odd_mul. reflexivity.
Qed.
Lemma rndodd_unique s z : Z.odd z = true -> s - 1 < IZR z <= s + 1 -> z = rndodd s.
Proof.
  intros O [A B]. destruct (rndodd_spec s) as [O' [C D]].
  assert (IZR z < IZR (rndodd s + 2)) as E by (rewrite plus_IZR; lra).
  assert (IZR (rndodd s) < IZR (z + 2)) as F by (rewrite plus_IZR; lra).
  apply lt_IZR in E. apply lt_IZR in F.
  assert (z = rndodd s + 1 \/ z = rndodd s - 1 \/ z = rndodd s)%Z as [G|[G|G]] by lia; [| |exact G].
  - rewrite G, Z.odd_add, O' in O. discriminate.
  - rewrite G, Z.odd_sub, O' in O. discriminate.
Qed.

(** ** Windows *)

Section Window.
  Context {A : Type}.
  Variable mean : list A -> result A.
  Variable zero : A.

  Lemma at_indices_from k P (l : list A) :
    map snd (filter (fun jx => P (fst jx)) (combine (seq k (length l)) l)) = at_indices (fun j => P (j + k)%nat) l.
  Proof.
    unfold at_indices, enumerate. revert k P. induction l as [|x l IH]; intros k P; cbn; [reflexivity|].
    specialize (IH (S k) P) as I1.
    specialize (IH 1%nat (fun j => P (j + k)%nat)) as I2.
    assert (filter (fun jx : nat * A => P (fst jx + S k)%nat) (combine (seq 0 (length l)) l)
            = filter (fun jx => P (fst jx + 1 + k)%nat) (combine (seq 0 (length l)) l)) as E.
    { apply filter_ext. intros [j y]. cbn. f_equal. lia. }
    destruct (P k); cbn; rewrite I1, I2, E; reflexivity.
  Qed.
  Lemma at_indices_cons P (x : A) l : at_indices P (x :: l) = (if P 0%nat then [x] else []) ++ at_indices (fun j => P (S j)) l.
  Proof.
    unfold at_indices at 1, enumerate. cbn. pose proof (at_indices_from 1 P l) as E.
    assert (at_indices (fun j => P (j + 1)%nat) l = at_indices (fun j => P (S j)) l) as E2.
    { unfold at_indices. f_equal. apply filter_ext. intros [j y]. cbn. f_equal. lia. }
    rewrite E2 in E. destruct (P 0%nat); cbn; rewrite E; reflexivity.
  Qed.
  Lemma at_indices_ext P P' (l : list A) : (forall j, (j < length l)%nat -> P j = P' j) -> at_indices P l = at_indices P' l.
  Proof.
    revert P P'. induction l as [|x l IH]; intros P P' E; [reflexivity|]. rewrite !at_indices_cons.
    rewrite (E 0%nat) by (cbn; lia). f_equal. apply IH. intros j J. apply E. cbn. lia.
  Qed.
  Lemma at_indices_none (l : list A) : at_indices (fun _ => false) l = [].
  Proof. induction l as [|x l IH]; [reflexivity|]. rewrite at_indices_cons. exact IH. Qed.
  Lemma at_indices_app P (l l' : list A) : at_indices P (l ++ l') = at_indices P l ++ at_indices (fun j => P (j + length l)%nat) l'.
  Proof.
    revert P. induction l as [|x l IH]; intro P; cbn [app].
    - unfold at_indices at 1. cbn. fold (at_indices P l'). apply at_indices_ext. intros. f_equal. cbn. lia.
    - rewrite !at_indices_cons, IH, app_assoc. f_equal. apply at_indices_ext. intros. f_equal. cbn. lia.
  Qed.

  Lemma slice_at (l : list A) a b : slice l a b = at_indices (fun j => ((a <=? j) && (j <? b))%nat) l.
  Proof.
    unfold slice. revert a b. induction l as [|x l IH]; intros a b.
    - rewrite skipn_nil, firstn_nil. reflexivity.
    - rewrite at_indices_cons. destruct a as [|a].
      + destruct b as [|b].
        * cbn. rewrite <- (at_indices_none l). apply at_indices_ext. reflexivity.
        * cbn [skipn]. replace (S b - 0)%nat with (S (b - 0)) by lia. cbn [firstn]. cbn [Nat.leb Nat.ltb andb app]. f_equal.
          specialize (IH 0%nat b). cbn [skipn] in IH. rewrite IH. apply at_indices_ext. intros j J. reflexivity.
      + cbn [skipn]. cbn [Nat.leb andb app]. destruct b as [|b].
        * cbn. rewrite <- (at_indices_none l). apply at_indices_ext. intros. rewrite andb_false_r. reflexivity.
        * replace (S b - S a)%nat with (b - a)%nat by lia. rewrite IH. apply at_indices_ext. intros j J. reflexivity.
  Qed.

  (** What the code averages for pose [i] of [n] *)
  Definition averaged (n i ext j : nat) : bool := ((i <=? j + ext) && (j <? i + ext) && (j + 1 <? n))%nat.

  Lemma code_window (quat : list A) i ext : (i < length quat)%nat ->
    slice quat (i - ext) (Nat.min (length quat - 1) (i + ext)) = at_indices (averaged (length quat) i ext) quat.
  Proof.
    intro I. rewrite slice_at. apply at_indices_ext. intros j J. unfold averaged.
    destruct (Nat.leb_spec (i - ext) j), (Nat.leb_spec i (j + ext)), (Nat.ltb_spec j (Nat.min (length quat - 1) (i + ext))),
      (Nat.ltb_spec j (i + ext)), (Nat.ltb_spec (j + 1) (length quat)); cbn; try reflexivity; lia.
  Qed.

  Lemma mapM_nth {B C} (f : B -> result C) l r i c : mapM f l = Ok r -> nth_error r i = Some c ->
    exists b, nth_error l i = Some b /\ f b = Ok c.
  Proof.
    revert r i. induction l as [|b l IH]; intros r i H N; cbn in H.
    - injection H as <-. destruct i; discriminate.
    - apply bind_ok in H as [c' [F H]]. apply bind_ok in H as [r' [M H]]. injection H as <-.
      destruct i as [|i]; cbn in N; [injection N as <-; exists b; split; [reflexivity|exact F]|]. exact (IH r' i M N).
  Qed.
  Lemma mapM_len {B C} (f : B -> result C) l r : mapM f l = Ok r -> length r = length l.
  Proof.
    revert r. induction l as [|b l IH]; intros r H; cbn in H; [injection H as <-; reflexivity|].
    apply bind_ok in H as [c' [F H]]. apply bind_ok in H as [r' [M H]]. injection H as <-. cbn. f_equal. apply IH, M.
  Qed.
  Lemma mapM_same {B C} (f g : B -> result C) l : (forall b, In b l -> f b = g b) -> mapM f l = mapM g l.
  Proof.
    induction l as [|b l IH]; intro H; [reflexivity|]. cbn. rewrite (H b) by (left; reflexivity).
    rewrite IH by (intros; apply H; right; assumption). reflexivity.
  Qed.
  Lemma mapM_all {B C} (f : B -> result C) l : (forall b, In b l -> exists c, f b = Ok c) -> exists r, mapM f l = Ok r.
  Proof.
    induction l as [|b l IH]; intro H; cbn; [eexists; reflexivity|].
    destruct (H b (or_introl eq_refl)) as [c ->]. destruct IH as [r ->]; [intros; apply H; right; assumption|]. eexists. reflexivity.
  Qed.

  Lemma window_spec f quat w ext r : length quat = length f -> window_ext f w = Ok ext ->
    rot_average_window mean zero f quat w = Ok r ->
    (ext = 0%nat -> r = quat) /\
    (ext <> 0%nat -> length r = length quat /\
       forall i q, nth_error r i = Some q -> mean (at_indices (averaged (length quat) i ext) quat) = Ok q).
  Proof.
    intros L E H. unfold rot_average_window in H. rewrite E in H. cbn [bind] in H.
    destruct (Nat.eqb_spec ext 0) as [Z|Z]; [injection H as <-; split; [reflexivity|contradiction]|].
    split; [contradiction|]. intros _. apply bind_ok in H as [rows [M H]]. rewrite L, Nat.sub_diag in H. cbn [repeat] in H.
    rewrite app_nil_r in H. injection H as <-. split; [rewrite (mapM_len _ _ _ M), seq_length; reflexivity|].
    intros i q N. destruct (mapM_nth _ _ _ _ _ M N) as [k [K F]].
    assert ((i < length quat)%nat) as I.
    { rewrite <- (seq_length (length quat) 0). apply nth_error_Some. rewrite K. discriminate. }
    rewrite nth_error_nth' with (d := 0%nat) in K by (rewrite seq_length; exact I). rewrite seq_nth in K by exact I. injection K as <-.
    cbn [plus] in F. apply bind_ok in F as [q' [MQ F]]. rewrite code_window in MQ by exact I.
    destruct (Nat.ltb_spec i (length f)); [|lia]. congruence.
  Qed.

  Lemma window_two f w ext : window_ext f w = Ok ext -> ext <> 0%nat -> (2 <= length f)%nat.
  Proof.
    unfold window_ext. set (bins := distinct _). destruct (Nat.eqb_spec bins 0) as [Z|Z]; [discriminate|].
    intros H N. injection H as <-. set (x := INR (length f) / INR bins) in *.
    destruct (rndodd_spec x) as [_ [XA XB']].
    assert (2 <= rndodd x)%Z as T.
    { destruct (Z_lt_le_dec (rndodd x) 2) as [C|C]; [|exact C]. exfalso. apply N.
      destruct (Z_lt_le_dec (rndodd x) 0) as [D|D].
      - assert (rndodd x / 2 < 0)%Z by (apply Z.div_lt_upper_bound; lia). lia.
      - rewrite Z.div_small by lia. reflexivity. }
    assert (1 < x \/ x <= 1) as [X|X] by lra.
    - destruct (le_lt_dec 2 (length f)) as [Y|Y]; [exact Y|]. exfalso.
      assert (1 <= INR bins) as BI by (apply (le_INR 1); lia).
      assert (INR (length f) <= 1) as LF by (apply (le_INR _ 1); lia).
      assert (x * INR bins = INR (length f)) as XB by (unfold x; field; lra).
      pose proof (Rmult_le_compat_l x 1 (INR bins) ltac:(lra) BI). lra.
    - apply IZR_le in T. assert (rndodd x = 2)%Z as T2.
      { apply le_IZR in T. assert (IZR (rndodd x) < IZR 3) as U by lra. apply lt_IZR in U. lia. }
      destruct (rndodd_spec x) as [O _]. rewrite T2 in O. discriminate.
  Qed.

  Lemma window_nonempty (quat : list A) n i ext : length quat = n -> (2 <= n)%nat -> (i < n)%nat -> ext <> 0%nat ->
    at_indices (averaged n i ext) quat <> [].
  Proof.
    intros L N I E. set (j := if (i =? n - 1)%nat then (i - 1)%nat else i).
    assert (averaged n i ext j = true) as AV.
    { unfold averaged, j. destruct (Nat.eqb_spec i (n - 1)).
      - destruct (Nat.leb_spec i (i - 1 + ext)), (Nat.ltb_spec (i - 1) (i + ext)), (Nat.ltb_spec (i - 1 + 1) n); cbn; try reflexivity; lia.
      - destruct (Nat.leb_spec i (i + ext)), (Nat.ltb_spec i (i + ext)), (Nat.ltb_spec (i + 1) n); cbn; try reflexivity; lia. }
    assert ((j < length quat)%nat) as J by (unfold j; destruct (Nat.eqb_spec i (n - 1)); lia).
    destruct (nth_error quat j) as [q|] eqn:Q; [|apply nth_error_None in Q; lia].
    apply nth_error_split in Q as [l1 [l2 [-> Q2]]]. rewrite at_indices_app, at_indices_cons.
    cbn [plus]. rewrite Q2, AV. cbn [app]. intro H. apply app_eq_nil in H as [_ H]. discriminate.
  Qed.

  Lemma window_total f quat w : length quat = length f -> f <> [] -> (forall l, l <> [] -> exists q, mean l = Ok q) ->
    exists r, rot_average_window mean zero f quat w = Ok r.
  Proof.
    intros L N T. unfold rot_average_window.
    assert (exists ext, window_ext f w = Ok ext) as [ext E].
    { unfold window_ext, distinct. destruct f as [|x f]; [congruence|].
      set (l := map _ (x :: f)). destruct (Nat.eqb_spec (length (nodup Z.eq_dec l)) 0) as [Z|Z]; [|eexists; reflexivity].
      exfalso. apply length_zero_iff_nil in Z. assert (In (np_round (x / w)) (nodup Z.eq_dec l)) as I.
      { apply nodup_In. left. reflexivity. }
      rewrite Z in I. destruct I. }
    rewrite E. cbn [bind]. destruct (Nat.eqb_spec ext 0) as [Z|Z]; [eexists; reflexivity|].
    pose proof (window_two _ _ _ E Z) as TW.
    match goal with |- context [mapM ?g ?s] => destruct (mapM_all g s) as [rows ->] end.
    - intros i I. apply in_seq in I. rewrite code_window by lia.
      destruct (T (at_indices (averaged (length quat) i ext) quat)) as [q ->]; [apply window_nonempty; lia|].
      cbn [bind]. destruct (Nat.ltb_spec i (length f)); [|lia]. eexists. reflexivity.
    - eexists. reflexivity.
  Qed.

  Lemma window_ignores_last f quat q q' w ext : window_ext f w = Ok ext -> ext <> 0%nat ->
    rot_average_window mean zero f (quat ++ [q]) w = rot_average_window mean zero f (quat ++ [q']) w.
  Proof.
    intros E N. unfold rot_average_window. rewrite E. cbn [bind]. destruct (Nat.eqb_spec ext 0); [contradiction|].
    rewrite !app_length. cbn [length]. f_equal.
    match goal with |- mapM ?f1 ?l = mapM ?f2 ?l => assert (forall i, In i l -> f1 i = f2 i) as EX end.
    - intros i I. apply in_seq in I. cbn beta. f_equal. f_equal.
      pose proof (code_window (quat ++ [q]) i ext) as C1. pose proof (code_window (quat ++ [q']) i ext) as C2.
      rewrite app_length in C1, C2. cbn [length] in C1, C2. rewrite C1, C2 by lia. rewrite !at_indices_app. f_equal.
      rewrite !at_indices_cons. unfold averaged.
      destruct (Nat.ltb_spec (0 + length quat + 1) (length quat + 1)); [lia|]. rewrite !andb_false_r. reflexivity.
    - apply mapM_same, EX.
  Qed.
End Window.
