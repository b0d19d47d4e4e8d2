(** Piecewise cubics: evaluation. *)
From Coq Require Import Sorting.Sorted.
From Verif Require Import Base BaseFacts VecFacts NumpyModel NumpyFacts LsqModel LsqSpec LsqFacts GeomModel MatchModel ApproxModel ApproxSpec ApproxFacts ApproxFacts2 ApproxFacts4.

Definition eval_at (ap : cubic) (x : R) : result R :=
  let k := Z.of_nat (searchsorted_left (interval_steps ap) x) in
  let! a := np_get (interval_steps ap) (k - 1) in
  let! b := np_get (interval_steps ap) k in
  let! c := compute_c x a b in
  let! f0 := np_get (evens (parameters ap)) (k - 1) in
  let! d0 := np_get (odds (parameters ap)) (k - 1) in
  let! f1 := np_get (evens (parameters ap)) k in
  let! d1 := np_get (odds (parameters ap)) k in
  Ok (f0 * cf0 c + d0 * cf1 c + f1 * cf2 c + d1 * cf3 c).

Lemma eval_body ap locs out : mapM (eval_at ap) locs = Ok out ->
  (let interval_indices := map (fun x => Z.of_nat (searchsorted_left (interval_steps ap) x)) locs in
    let! int_start := np_take (interval_steps ap) (map (fun k => (k - 1)%Z) interval_indices) in
    let! int_end := np_take (interval_steps ap) interval_indices in
    let! c := mapM (fun p => compute_c (fst p) (fst (snd p)) (snd (snd p))) (combine locs (combine int_start int_end)) in
    let! f0 := np_take (evens (parameters ap)) (map (fun k => (k - 1)%Z) interval_indices) in
    let! d0 := np_take (odds (parameters ap)) (map (fun k => (k - 1)%Z) interval_indices) in
    let! f1 := np_take (evens (parameters ap)) interval_indices in
    let! d1 := np_take (odds (parameters ap)) interval_indices in
    Ok (map (fun p => match p with (c, (a, b, d, e)) => a * cf0 c + b * cf1 c + d * cf2 c + e * cf3 c end)
            (combine c (combine (combine (combine f0 d0) f1) d1)))) = Ok out.
Proof.
  cbv zeta. revert out. induction locs as [|x locs IH]; intros out H.
  - cbn in H. injection H as <-. reflexivity.
  - cbn [mapM] in H. apply bind_ok in H as [y [Y H]]. apply bind_ok in H as [ys [YS H]]. injection H as <-. specialize (IH ys YS).
    apply bind_ok in IH as [s [S IH]]. apply bind_ok in IH as [e [E IH]]. apply bind_ok in IH as [c [C IH]].
    apply bind_ok in IH as [f0 [F0 IH]]. apply bind_ok in IH as [d0 [D0 IH]]. apply bind_ok in IH as [f1 [F1 IH]]. apply bind_ok in IH as [d1 [D1 IH]].
    injection IH as IH.
    unfold eval_at in Y. cbv zeta in Y. apply bind_ok in Y as [a [A Y]]. apply bind_ok in Y as [b [B Y]]. apply bind_ok in Y as [c' [C' Y]].
    apply bind_ok in Y as [f0' [F0' Y]]. apply bind_ok in Y as [d0' [D0' Y]]. apply bind_ok in Y as [f1' [F1' Y]]. apply bind_ok in Y as [d1' [D1' Y]].
    injection Y as Y.
    cbn [map]. unfold np_take in *. cbn [mapM]. rewrite A, S. cbn [bind]. rewrite B, E. cbn [bind combine mapM fst snd]. rewrite C', C. cbn [bind].
    rewrite F0', F0. cbn [bind]. rewrite D0', D0. cbn [bind]. rewrite F1', F1. cbn [bind]. rewrite D1', D1. cbn [bind].
    cbn [combine map]. rewrite Y, IH. reflexivity.
Qed.

Lemma evens_nth {A} (l : list A) k : nth_error (evens l) k = nth_error l (2 * k).
Proof.
  revert k. assert (forall n l, (length l <= n)%nat -> forall k, nth_error (evens l) k = nth_error (A := A) l (2 * k)) as G.
  { induction n as [|n IH]; intros l' L k.
    - destruct l'; [|cbn in L; lia]. destruct k; reflexivity.
    - destruct l' as [|x [|y l']]; [destruct k; reflexivity|destruct k as [|[|k]]; reflexivity|].
      destruct k as [|k]; [reflexivity|]. replace (2 * S k)%nat with (S (S (2 * k))) by lia. cbn [evens nth_error]. apply IH. cbn in L. lia. }
  apply (G (length l)). lia.
Qed.
Lemma odds_nth {A} (l : list A) k : nth_error (odds l) k = nth_error l (2 * k + 1).
Proof.
  unfold odds. rewrite evens_nth. replace (2 * k + 1)%nat with (S (2 * k)) by lia. destruct l as [|x l]; [|reflexivity]. destruct (2 * k)%nat; reflexivity.
Qed.
Lemma evens_length {A} (l : list A) n : length l = (2 * n)%nat -> length (evens l) = n.
Proof.
  revert l. induction n as [|n IH]; intros l L; [destruct l; [reflexivity|discriminate]|].
  destruct l as [|x [|y l]]; cbn in L; try lia. cbn. rewrite IH; lia.
Qed.

Lemma np_get_minus1 {A} (l : list A) : l <> [] -> np_get l (-1) = match nth_error l (length l - 1) with Some x => Ok x | None => Err IndexError end.
Proof.
  intro N. unfold np_get, py_index. destruct l as [|x l]; [congruence|]. set (m := x :: l).
  assert ((0 < length m)%nat) by (cbn; lia).
  destruct (Z.leb_spec 0 (-1)); [lia|]. destruct (Z.leb_spec (- Z.of_nat (length m)) (-1)); [|lia].
  replace (Z.to_nat (-1 + Z.of_nat (length m))) with (length m - 1)%nat by lia. reflexivity.
Qed.

Lemma hermite_end a b f0 d0 f1 d1 : a <> b -> hermite a b f0 d0 f1 d1 b = f1 /\ hermite a b f0 d0 f1 d1 a = f0.
Proof. intro N. unfold hermite. split; field; lra. Qed.

Lemma sorted_nth (l : list R) : StronglySorted Rlt l -> forall i j x y, (i < j)%nat -> nth_error l i = Some x -> nth_error l j = Some y -> x < y.
Proof.
  induction 1 as [|a l S IH F]; intros i j x y L X Y; [destruct i; discriminate|]. rewrite Forall_forall in F.
  destruct j as [|j]; [lia|]. cbn in Y. destruct i as [|i]; cbn in X.
  - injection X as <-. apply F. eapply nth_error_In; exact Y.
  - apply (IH i j); [lia|exact X|exact Y].
Qed.
Lemma sorted_weak l : StronglySorted Rlt l -> StronglySorted Rle l.
Proof. induction 1 as [|a l S IH F]; constructor; [exact IH|]. apply Forall_forall. intros x I. rewrite Forall_forall in F. left. apply F, I. Qed.

Lemma eval_value ap x lo hi : StronglySorted Rlt (interval_steps ap) -> (2 <= length (interval_steps ap))%nat ->
  length (parameters ap) = (2 * length (interval_steps ap))%nat ->
  nth_error (interval_steps ap) 0 = Some lo -> nth_error (interval_steps ap) (length (interval_steps ap) - 1) = Some hi -> lo <= x <= hi ->
  exists y, eval_at ap x = Ok y /\ curve_value (interval_steps ap) (parameters ap) x y.
Proof.
  intros SO L2 LP LO HI [X1 X2]. set (st := interval_steps ap) in *. set (pr := parameters ap) in *. set (k := searchsorted_left st x).
  assert (forall i a, nth_error st i = Some a -> (a < x <-> (i < k)%nat)) as SS.
  { intros i a. apply searchsorted_left_spec, sorted_weak, SO. }
  assert (forall i, (i < length st)%nat -> exists a, nth_error st i = Some a) as EX by (intros i Hi; apply nth_error_lt_Some, Hi).
  assert (forall i, (i < 2 * length st)%nat -> exists a, nth_error pr i = Some a) as EP by (intros i Hi; apply nth_error_lt_Some; lia).
  unfold eval_at. fold st pr. change (searchsorted_left st x) with k.
  destruct k as [|k'] eqn:K.
  - assert (x = lo) as ->. { destruct (Req_EM_T lo x); [congruence|]. assert ((0 < 0)%nat) by (apply (SS 0%nat lo LO); lra). lia. }
    change (Z.of_nat 0 - 1)%Z with (-1)%Z.
    assert (lo < hi) as LH by (apply (sorted_nth st SO 0 (length st - 1)); [lia|exact LO|exact HI]).
    rewrite np_get_minus1 by (intros E; rewrite E in L2; cbn in L2; lia). rewrite HI. cbn [bind].
    rewrite (np_get_nat st 0 lo LO). cbn [bind].
    destruct (compute_c_ok lo hi lo) as [c C]; [lra|]. rewrite C. cbn [bind].
    assert (length (evens pr) = length st) as LE by (apply evens_length; lia).
    assert (length (odds pr) = length st) as LD.
    { unfold odds. destruct pr as [|p0 pr'] eqn:EPR; [cbn in LP; lia|]. cbn [tl]. cbn in LP.
      assert (forall n (l : list R), length l = (2 * n + 1)%nat -> length (evens l) = S n) as G.
      { clear. induction n as [|n IH]; intros l L; [destruct l as [|a [|]]; cbn in L; try lia; reflexivity|].
        destruct l as [|a [|b l]]; cbn in L; try lia. cbn. rewrite IH; lia. }
      rewrite (G (length st - 1)%nat); lia. }
    destruct (EP (2 * (length st - 1))%nat) as [f0 F0]; [lia|]. destruct (EP (2 * (length st - 1) + 1)%nat) as [d0 D0]; [lia|].
    destruct (EP 0%nat) as [f1 F1]; [lia|]. destruct (EP 1%nat) as [d1 D1]; [lia|].
    rewrite np_get_minus1 by (intros E; rewrite E in LE; cbn in LE; lia). rewrite evens_nth, LE, F0. cbn [bind].
    rewrite np_get_minus1 by (intros E; rewrite E in LD; cbn in LD; lia). rewrite odds_nth, LD, D0. cbn [bind].
    rewrite (np_get_nat (evens pr) 0 f1) by (rewrite evens_nth; exact F1). cbn [bind].
    rewrite (np_get_nat (odds pr) 0 d1) by (rewrite odds_nth; exact D1). cbn [bind].
    destruct (compute_c_hermite lo hi lo c f0 d0 f1 d1 C) as [_ HE]. rewrite HE.
    exists f1. split; [|left; split; assumption]. f_equal. apply hermite_end. lra.
  - assert ((S k' < length st)%nat) as KL.
    { destruct (le_lt_dec (length st) (S k')) as [G|G]; [|exact G]. exfalso.
      assert (hi < x) by (apply (SS _ _ HI); lia). lra. }
    destruct (EX k') as [a A]; [lia|]. destruct (EX (S k')) as [b B]; [lia|].
    assert (a < x) as AX by (apply (SS _ _ A); lia).
    assert (x <= b) as XB. { destruct (Rle_dec x b) as [Y|Y]; [exact Y|]. exfalso. assert ((S k' < S k')%nat) by (apply (SS _ _ B); lra). lia. }
    replace (Z.of_nat (S k') - 1)%Z with (Z.of_nat k') by lia.
    rewrite (np_get_nat st k' a A). cbn [bind]. rewrite (np_get_nat st (S k') b B). cbn [bind].
    destruct (compute_c_ok x a b) as [c C]; [lra|]. rewrite C. cbn [bind].
    destruct (EP (2 * k')%nat) as [f0 F0]; [lia|]. destruct (EP (2 * k' + 1)%nat) as [d0 D0]; [lia|].
    destruct (EP (2 * k' + 2)%nat) as [f1 F1]; [lia|]. destruct (EP (2 * k' + 3)%nat) as [d1 D1]; [lia|].
    rewrite (np_get_nat (evens pr) k' f0) by (rewrite evens_nth; exact F0). cbn [bind].
    rewrite (np_get_nat (odds pr) k' d0) by (rewrite odds_nth; exact D0). cbn [bind].
    rewrite (np_get_nat (evens pr) (S k') f1) by (rewrite evens_nth; replace (2 * S k')%nat with (2 * k' + 2)%nat by lia; exact F1). cbn [bind].
    rewrite (np_get_nat (odds pr) (S k') d1) by (rewrite odds_nth; replace (2 * S k' + 1)%nat with (2 * k' + 3)%nat by lia; exact D1). cbn [bind].
    destruct (compute_c_hermite x a b c f0 d0 f1 d1 C) as [_ HE]. rewrite HE.
    eexists. split; [reflexivity|]. right. exists k', a, b, f0, d0, f1, d1. repeat split; assumption.
Qed.

Lemma sorted_bounds (l : list R) lo hi : StronglySorted Rlt l -> nth_error l 0 = Some lo -> nth_error l (length l - 1) = Some hi ->
  list_min l = Ok lo /\ list_max l = Ok hi.
Proof.
  intros S LO HI. destruct l as [|x l]; [discriminate|]. cbn in LO. injection LO as ->. split.
  - destruct (list_min (lo :: l)) as [m|] eqn:E; [|discriminate]. f_equal. apply list_min_spec in E as [I MN].
    destruct I as [<-|I]; [reflexivity|]. inversion S as [|? ? S' F]; subst. rewrite Forall_forall in F. specialize (F m I). specialize (MN lo (or_introl eq_refl)). lra.
  - destruct (list_max (lo :: l)) as [m|] eqn:E; [|discriminate]. f_equal. apply list_max_spec in E as [I MX].
    pose proof (MX hi (nth_error_In _ _ HI)) as LE. apply In_nth_error in I as [j J].
    assert ((j < length (lo :: l))%nat) as JL by (apply nth_error_Some; congruence).
    destruct (Nat.eq_dec j (length (lo :: l) - 1)) as [->|NE]; [congruence|].
    assert (m < hi) by (apply (sorted_nth _ S j (length (lo :: l) - 1)); [lia|exact J|exact HI]). lra.
Qed.

Lemma eval_spec ap locs lo hi : StronglySorted Rlt (interval_steps ap) -> (2 <= length (interval_steps ap))%nat ->
  length (parameters ap) = (2 * length (interval_steps ap))%nat ->
  nth_error (interval_steps ap) 0 = Some lo -> nth_error (interval_steps ap) (length (interval_steps ap) - 1) = Some hi ->
  locs <> [] -> Forall (fun x => lo <= x <= hi) locs ->
  exists out, cubic_eval ap locs = Ok out /\ Forall2 (curve_value (interval_steps ap) (parameters ap)) locs out.
Proof.
  intros S L2 LP LO HI N F.
  assert (exists out, mapM (eval_at ap) locs = Ok out /\ Forall2 (curve_value (interval_steps ap) (parameters ap)) locs out) as [out [M C]].
  { clear N. induction F as [|x locs X F [out [M C]]]; [exists []; split; [reflexivity|constructor]|].
    destruct (eval_value ap x lo hi S L2 LP LO HI X) as [y [Y V]]. exists (y :: out). cbn [mapM]. rewrite Y, M. split; [reflexivity|]. constructor; assumption. }
  exists out. split; [|exact C]. destruct (sorted_bounds _ lo hi S LO HI) as [MN MX].
  unfold cubic_eval. destruct locs as [|x locs]; [congruence|].
  destruct (list_min (x :: locs)) as [a|] eqn:A; [|discriminate]. destruct (list_max (x :: locs)) as [b|] eqn:B; [|discriminate].
  cbn [bind]. rewrite MN, MX. cbn [bind]. apply list_min_spec in A as [IA _]. apply list_max_spec in B as [IB _]. rewrite Forall_forall in F.
  pose proof (F a IA). pose proof (F b IB). unfold Rltb. destruct (Rlt_dec hi a); [lra|]. destruct (Rlt_dec b lo); [lra|]. cbn [orb].
  apply eval_body, M.
Qed.
