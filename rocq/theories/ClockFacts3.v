(** The absolute trajectory error under another origin of time, and search trees and sorting routines that do not see it. *)
From Verif Require Import Base BaseFacts VecFacts NumpyModel NumpyFacts TrajModel TrajFacts EvalModel EvalFacts ViewFacts ParamModel DataModel EstModel MergeModel MatchModel MatchSpec MatchFacts GeomModel JacModel JacSpec LsqModel DirectModel GhmModel InitModel AlignModel ClockSpec ClockFacts ClockFacts2.

Section Delay.
  Variable d : R.
  Context {Q : Type} (ops : rot_ops Q).
  Implicit Types t from to gt est : traj Q.
  Notation late := (map (fun x => x + d)).

  Lemma speed_filter_delayed m t : speed_filter m (delayed d t) = rmap (delayed d) (speed_filter m t).
  Proof. apply index_delayed. Qed.
  Lemma get_late l z : np_get (late l) z = rmap (fun x => x + d) (np_get l z).
  Proof. apply np_get_map. Qed.
  Lemma preprocess_delayed p from to : preprocess p (delayed d from) (delayed d to) = rmap (both (delayed d)) (preprocess p from to).
  Proof.
    unfold preprocess. rewrite !speed_filter_delayed. destruct (speed_filter (min_speed p) to) as [to1|]; cbn [rmap bind]; [|reflexivity].
    destruct (speed_filter (min_speed p) from) as [f1|]; cbn [rmap bind]; [|reflexivity].
    destruct (_ || _)%bool.
    - change (tstamps (delayed d f1)) with (late (tstamps f1)). rewrite get_late. destruct (np_get (tstamps f1) 0) as [t0|]; cbn [rmap bind]; [|reflexivity].
      replace (t0 + d + time_start p) with (t0 + time_start p + d) by ring. replace (t0 + d + time_end p) with (t0 + time_end p + d) by ring.
      rewrite !crop_delayed. destruct (crop to1 _ _ _) as [to2|]; cbn [rmap bind]; [|reflexivity]. destruct (crop f1 _ _ _) as [f2|]; cbn [rmap bind]; [|reflexivity].
      cbn [fst snd]. change (tlen (delayed d f2)) with (tlen f2). change (tlen (delayed d to2)) with (tlen to2). destruct (_ || _)%bool; reflexivity.
    - cbn [bind fst snd]. change (tlen (delayed d f1)) with (tlen f1). change (tlen (delayed d to1)) with (tlen to1). destruct (_ || _)%bool; reflexivity.
  Qed.

  Lemma align_delayed p e inplace t : apply_alignment ops p e inplace (delayed d t) = rmap (delayed d) (apply_alignment ops p e inplace t).
  Proof.
    unfold apply_alignment. destruct inplace; [reflexivity|]. change (rot (delayed d t)) with (rot t). change (speed (delayed d t)) with (speed t). change (xyz (delayed d t)) with (xyz t).
    destruct (match rot t with Some q => _ | None => _ end) as [sh|]; cbn [rmap bind]; [|reflexivity]. destruct (iadd (xyz t) sh) as [mv|]; cbn [rmap bind]; [|reflexivity].
    set (t1 := apply_transformation ops (sim3_matrix ops p) (set_xyz mv t)). change (apply_transformation ops (sim3_matrix ops p) (set_xyz mv (delayed d t))) with (delayed d t1).
    change (rot (delayed d t1)) with (rot t1). destruct (rot t1); reflexivity.
  Qed.
  Lemma absolute_delayed test ref : compare_absolute ops (delayed d test) (delayed d ref) = rmap (retimed_ate d) (compare_absolute (Q:=Q) ops test ref).
  Proof.
    unfold compare_absolute. change (xyz (delayed d ref)) with (xyz ref). change (xyz (delayed d test)) with (xyz test). change (rot (delayed d ref)) with (rot ref). change (rot (delayed d test)) with (rot test).
    destruct (np_zip _ _ _) as [pd|]; cbn [rmap bind]; [|reflexivity]. destruct (get_directed_deviations _ _ _ _) as [dd|]; cbn [rmap bind]; [|reflexivity].
    destruct (match rot ref with Some _ => _ | None => _ end) as [rd|]; reflexivity.
  Qed.

  Variable svd : M3 -> result (M3 * V3 * M3).
  Variable solve : list (list R) -> list R -> result (list R).
  Variable egrad : (list R -> R) -> nat -> list R -> R.
  Variable pinv : list (list R) -> list (list R).
  Variable mean : list Q -> result Q.
  Variable matched : matching_settings -> traj Q -> traj Q -> result (traj Q * traj Q).
  Hypothesis ME : forall ms gt est, matched ms (delayed d gt) (delayed d est) = rmap (both (delayed d)) (matched ms gt est).

  Lemma prepared_delayed s ms from to : prepared matched s ms (delayed d from) (delayed d to) = rmap (both (delayed d)) (prepared matched s ms from to).
  Proof.
    unfold prepared. rewrite preprocess_delayed. destruct (preprocess _ from to) as [[f t]|]; cbn [rmap bind]; [|reflexivity]. unfold both at 1. cbn [fst snd].
    unfold both at 1. cbn [fst snd]. rewrite ME. destruct (matched ms t f) as [[a b]|]; cbn [rmap bind both fst snd]; [|reflexivity].
    change (tstamps (delayed d a)) with (late (tstamps a)). rewrite get_late. destruct (np_get (tstamps a) (-1)); reflexivity.
  Qed.
  Lemma estimate_delayed s ms from to :
    estimate_alignment ops svd solve egrad pinv mean matched s ms (delayed d from) (delayed d to) = estimate_alignment ops svd solve egrad pinv mean matched s ms from to.
  Proof.
    unfold estimate_alignment. rewrite prepared_delayed. destruct (prepared matched s ms from to) as [[a b]|]; cbn [rmap bind both fst snd]; reflexivity.
  Qed.
  Lemma ate_delayed s ms gt est :
    ate ops svd solve egrad pinv mean matched s ms (delayed d gt) (delayed d est)
    = rmap (fun r => (retimed_ate d (fst r), snd r)) (ate ops svd solve egrad pinv mean matched s ms gt est).
  Proof.
    unfold ate. rewrite ME. destruct (matched ms gt est) as [[a b]|]; cbn [rmap bind both fst snd]; [|reflexivity]. rewrite estimate_delayed.
    destruct (estimate_alignment _ _ _ _ _ _ _ _ _ a b) as [al|]; cbn [rmap bind]; [|reflexivity]. unfold apply_result. rewrite align_delayed.
    destruct (apply_alignment _ _ _ _ a) as [a'|]; cbn [rmap bind]; [|reflexivity]. rewrite absolute_delayed. destruct (compare_absolute ops a' b); reflexivity.
  Qed.
End Delay.

(** ** Implementations with the assumed behaviour *)
Definition keyed (f : R -> R) (p : R * nat) : R * nat := (f (fst p), snd p).
Lemma insert_key_mono f x l : (forall a b, Rleb (f a) (f b) = Rleb a b) -> insert_key (keyed f x) (map (keyed f) l) = map (keyed f) (insert_key x l).
Proof. intro H. induction l as [|y l IH]; cbn; [reflexivity|]. rewrite H. destruct (Rleb (fst x) (fst y)); cbn; [reflexivity|]. f_equal. exact IH. Qed.
Lemma fold_insert_mono f l : (forall a b, Rleb (f a) (f b) = Rleb a b) -> fold_right insert_key [] (map (keyed f) l) = map (keyed f) (fold_right insert_key [] l).
Proof. intro H. induction l as [|x l IH]; cbn; [reflexivity|]. rewrite IH. apply insert_key_mono, H. Qed.

Lemma stable_comparison : comparison_sort stable_argsort.
Proof.
  intros s d l S0. unfold stable_argsort. rewrite enumerate_map, map_map. cbn [fst snd].
  replace (map (fun x : nat * R => (on_clock s d (snd x), fst x)) (enumerate l)) with (map (keyed (on_clock s d)) (map (fun p => (snd p, fst p)) (enumerate l))) by (rewrite map_map; reflexivity).
  rewrite fold_insert_mono by (intros; apply tm_leb, S0). rewrite map_map. apply map_ext. intros []; reflexivity.
Qed.

Lemma brute_moves : moves_along (brute dist2).
Proof.
  intros s d ref ub k p S0 HR HP. unfold brute.
  assert (C : candidates dist2 (map (fun r => (on_clock s d (fst r), snd r)) ref) (option_map (Rmult s) ub) (on_clock s d (fst p), snd p) = map (keyed (Rmult s)) (candidates dist2 ref ub p)).
  { unfold candidates. rewrite <- fold_insert_mono by (intros; apply scaled_leb, S0). f_equal. rewrite enumerate_map, map_map. cbn [fst snd].
    replace (map (fun x : nat * (R * R) => (dist2 (on_clock s d (fst (snd x)), snd (snd x)) (on_clock s d (fst p), snd p), fst x)) (enumerate ref))
      with (map (keyed (Rmult s)) (map (fun ir => (dist2 (snd ir) p, fst ir)) (enumerate ref))).
    - rewrite (filter_map (keyed (Rmult s))). apply (f_equal (map (keyed (Rmult s)))). apply filter_ext. intros [x i]. unfold keyed. cbn [fst snd]. destruct ub as [u|]; cbn; [|reflexivity]. apply scaled_ltb, S0.
    - rewrite map_map. apply map_ext_in. intros [i [x y]] Hi. unfold keyed. cbn [fst snd]. f_equal. assert (Y : y = 0).
      { apply (HR (x, y)). unfold enumerate in Hi. apply in_combine_r in Hi. exact Hi. }
      destruct p as [px py]. cbn in HP. subst y py. unfold dist2. cbn [fst snd]. rewrite tm_diff.
      replace (s * (x - px) * (s * (x - px)) + (0 - 0) * (0 - 0)) with ((s * s) * ((x - px) * (x - px) + (0 - 0) * (0 - 0))) by ring.
      rewrite sqrt_mult_alt by nra. rewrite sqrt_square by lra. reflexivity. }
  cbn [fst snd] in C. rewrite C. rewrite firstn_map, !map_app, !map_map, !map_length. f_equal. generalize (k - length (firstn k (candidates dist2 ref ub p)))%nat. intro n. induction n as [|n IH]; cbn; [reflexivity|]. rewrite <- IH. reflexivity.
Qed.
