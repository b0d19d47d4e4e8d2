(** Property C123: smoothing and reduction of deviations.  Properties C124 and C125: laps and cross products. *)
From Verif Require Import Base BaseFacts VecFacts NumpyModel NumpyFacts TrajModel EvalModel GeomModel GeomSpec DirectSpec DirectFacts2 GeomFacts SmoothModel SmoothSpec SmoothFacts.

(** The values returned are window sums divided by the filter size, at the positions [idx] in increasing order, together with their abscissae.  Away from the borders the
    value is the mean of its window.  A position is left out if and only if an earlier one has the same abscissa and the same rounded value.
    Missing: near the borders the value is no mean, data shorter than the filter are refused, and different abscissae are never merged ([C123_refuted]). *)
Theorem C123_partial (rint : R -> R) (function_of : list (list R)) (data : list R) (resolution : R) (w : nat) :
  length function_of = length data -> (0 < w <= length data)%nat ->
  exists s idx f d,
    round_to_precision rint function_of data resolution w = Ok (f, d) /\
    length s = length data /\ StronglySorted lt idx /\ entries_at function_of s idx f d /\
    (forall i x, nth_error s i = Some x -> x = fold_right Rplus 0 (window w data i) / INR w) /\
    (forall i x, nth_error s i = Some x -> interior w (length data) i -> length (window w data i) = w /\ x = mean_of (window w data i)) /\
    (forall i, In i idx <-> (i < length data)%nat /\
       forall j, (j < i)%nat -> ~ (nth_error function_of j = nth_error function_of i /\
         exists x y, nth_error s j = Some x /\ nth_error s i = Some y /\ rint (x / resolution) * resolution = rint (y / resolution) * resolution)).
Proof.
  intros L W. destruct (round_spec rint function_of data resolution w L W) as (s & f & d & _ & Rd & Ls & Sp & En).
  exists s, (first_rows (keyed rint resolution function_of s)), f, d.
  split; [exact Rd|]. split; [exact Ls|]. split; [apply first_rows_sorted|]. split; [exact En|].
  assert (V : forall i x, nth_error s i = Some x -> x = np_sum (window w data i) / INR w).
  { intros i x X. assert (Hi : (i < length s)%nat) by (apply nth_error_Some; congruence). rewrite Sp in X by lia. congruence. }
  split; [exact V|]. split.
  - intros i x X I. pose proof (window_length w data i ltac:(lia) I) as WL. split; [exact WL|].
    unfold mean_of. rewrite WL. apply V, X.
  - intro i. rewrite first_rows_in, keyed_length by congruence. rewrite Ls.
    split; intros [Hi H]; (split; [exact Hi|]); intros j Hj.
    + intros (E & x & y & X & Y & Z). apply (H j Hj).
      destruct (nth_error function_of i) as [fi|] eqn:Fi; [|apply nth_error_None in Fi; lia].
      rewrite (keyed_nth rint resolution function_of s j fi x), (keyed_nth rint resolution function_of s i fi y) by (congruence || assumption).
      rewrite Z. reflexivity.
    + intro E. apply (H j Hj).
      destruct (nth_error function_of i) as [fi|] eqn:Fi; [|apply nth_error_None in Fi; lia].
      destruct (nth_error function_of j) as [fj|] eqn:Fj; [|apply nth_error_None in Fj; lia].
      destruct (nth_error s i) as [y|] eqn:Y; [|apply nth_error_None in Y; lia].
      destruct (nth_error s j) as [x|] eqn:X; [|apply nth_error_None in X; lia].
      rewrite (keyed_nth rint resolution function_of s j fj x), (keyed_nth rint resolution function_of s i fi y) in E by (congruence || assumption).
      apply app_inj_tail in E as [E1 E2]. split; [congruence|]. exists x, y. repeat split; try reflexivity; exact E2.
Qed.
Print Assumptions C123_partial.

Example C123_case : length [[1]; [1]; [2]] = length [4; 4; 4] /\ (0 < 1 <= length [4; 4; 4])%nat /\ interior 1 3 2 /\
  round_to_precision (fun x => x) [[1]; [1]; [2]] [4; 4; 4] 1 1 = Ok ([[1]; [2]], [4; 4]).
Proof.
  split; [reflexivity|]. split; [cbn; lia|]. split; [split; cbn; lia|].
  assert (E : 1 / INR 1 = 1) by (cbn; lra).
  assert (C : convolve_same [4; 4; 4] [1] = Ok [4; 4; 4]).
  { unfold convolve_same. cbn -[Rplus Rmult padded np_sum]. unfold np_sum, padded. cbn -[Rplus Rmult Pos.to_nat].
    change (Pos.to_nat 1) with 1%nat. change (Pos.to_nat 2) with 2%nat. repeat f_equal; lra. }
  unfold round_to_precision. cbn [Nat.eqb repeat]. rewrite E, C.
  unfold first_rows. cbn -[Rplus Rmult Rdiv Reqb np_take].
  rewrite !(proj2 (Reqb_true _ _) eq_refl). rewrite !(proj2 (Reqb_false 1 2)) by lra. reflexivity.
Qed.

(** Constant data do not stay constant; data shorter than the filter raise an error; whatever the resolution, nothing is removed if the abscissae differ. *)
Theorem C123_refuted (rint : R -> R) (function_of : list (list R)) (resolution : R) (w : nat) :
  (forall c n, c <> 0 -> length function_of = n -> (2 <= w <= n)%nat ->
     exists f x d, round_to_precision rint function_of (repeat c n) resolution w = Ok (f, x :: d) /\ Rabs x < Rabs c) /\
  (forall data, length function_of = length data -> data <> [] -> (length data < w)%nat -> round_to_precision rint function_of data resolution w = Err ValueError) /\
  (forall data, length function_of = length data -> (0 < w <= length data)%nat -> NoDup function_of ->
     exists d, round_to_precision rint function_of data resolution w = Ok (function_of, d)).
Proof.
  split; [|split].
  - intros c n C L W. assert (Ln : length function_of = length (repeat c n)) by (rewrite repeat_length; exact L).
    destruct (round_spec rint function_of (repeat c n) resolution w Ln ltac:(rewrite repeat_length; lia)) as (s & f & d & _ & Rd & Ls & Sp & En).
    rewrite repeat_length in Ls, Sp.
    assert (K : exists tl, first_rows (keyed rint resolution function_of s) = 0%nat :: tl).
    { unfold first_rows. rewrite keyed_length by congruence. rewrite Ls. destruct n as [|n]; [lia|]. cbn [seq filter existsb negb]. eexists. reflexivity. }
    destruct K as [tl K]. assert (E0 : nth_error d 0 = nth_error s 0) by (rewrite (proj2 (En 0%nat)), K; reflexivity). rewrite Sp in E0 by lia.
    destruct d as [|x d]; [discriminate|]. injection E0 as ->.
    eexists _, _, _. split; [exact Rd|].
    unfold window. replace (0 + (w - 1) / 2 + 1 - w)%nat with 0%nat by (pose proof (half_split w ltac:(lia)); lia). cbn [skipn].
    set (k := ((w - 1) / 2 + 1)%nat).
    assert (Kw : (k < w)%nat).
    { unfold k. pose proof (half_split w ltac:(lia)). pose proof (Nat.div_le_mono 2 w 2 ltac:(lia) ltac:(lia)) as D. change (2 / 2)%nat with 1%nat in D. lia. }
    assert (Ks : np_sum (firstn (0 + (w - 1) / 2 + 1) (repeat c n)) = INR k * c).
    { change (0 + (w - 1) / 2 + 1)%nat with k. assert (Kn : (k <= n)%nat) by lia. clearbody k. clear - Kn. revert n Kn. induction k as [|k IH]; intros n Kn.
      - cbn. lra.
      - destruct n as [|n]; [lia|]. cbn [repeat firstn]. rewrite S_INR. unfold np_sum in *. cbn [fold_right]. rewrite IH by lia. lra. }
    rewrite Ks. pose proof (lt_INR _ _ Kw) as KR. pose proof (pos_INR k) as K0.
    unfold Rdiv. rewrite Rabs_mult, Rabs_mult, (Rabs_pos_eq (INR k)), (Rabs_pos_eq (/ INR w)); [|left; apply Rinv_0_lt_compat; lra|exact K0].
    pose proof (Rabs_pos_lt c C) as CP. apply (Rmult_lt_reg_r (INR w)); [lra|]. rewrite Rmult_assoc, Rinv_l by lra. nra.
  - intros data L NE W. unfold round_to_precision. replace (w =? 0)%nat with false by (symmetry; apply Nat.eqb_neq; lia).
    unfold convolve_same. rewrite repeat_length. replace (length data <? w)%nat with true by (symmetry; apply Nat.ltb_lt; lia).
    replace (length data =? 0)%nat with false by (symmetry; apply Nat.eqb_neq; destruct data; [congruence|discriminate]).
    cbn [bind]. rewrite !map_length, seq_length, repeat_length. replace (length function_of =? w)%nat with false by (symmetry; apply Nat.eqb_neq; lia). reflexivity.
  - intros data L W ND. destruct (round_spec rint function_of data resolution w L W) as (s & f & d & _ & Rd & Ls & Sp & En).
    exists d. rewrite Rd. repeat f_equal. apply nth_error_ext. intro p. rewrite (proj1 (En p)).
    assert (K : first_rows (keyed rint resolution function_of s) = seq 0 (length data)).
    { unfold first_rows. rewrite keyed_length by congruence. rewrite Ls. apply filter_true. intros i Hi. apply in_seq in Hi. apply Bool.negb_true_iff, Bool.not_true_iff_false.
      intro E. apply existsb_exists in E as [j [Hj E]]. apply in_seq in Hj. apply row_eqb_true in E.
      destruct (nth_error function_of i) as [fi|] eqn:Fi; [|apply nth_error_None in Fi; lia].
      destruct (nth_error function_of j) as [fj|] eqn:Fj; [|apply nth_error_None in Fj; lia].
      destruct (nth_error s i) as [y|] eqn:Y; [|apply nth_error_None in Y; lia].
      destruct (nth_error s j) as [x|] eqn:X; [|apply nth_error_None in X; lia].
      rewrite (keyed_nth rint resolution function_of s j fj x), (keyed_nth rint resolution function_of s i fi y) in E by (congruence || assumption).
      apply app_inj_tail in E as [E1 _]. assert (j = i); [|lia]. apply (proj1 (NoDup_nth_error function_of) ND); [lia|congruence]. }
    rewrite K. destruct (Nat.lt_ge_cases p (length data)) as [P|P].
    + rewrite (nth_error_nth' (seq 0 (length data)) 0%nat) by (rewrite seq_length; exact P). rewrite seq_nth by exact P. reflexivity.
    + rewrite (proj2 (nth_error_None (seq 0 (length data)) p)) by (rewrite seq_length; exact P). symmetry. apply nth_error_None. lia.
Qed.
Print Assumptions C123_refuted.

Example C123_refuted_case : 5 <> 0 /\ length [[1]; [2]; [3]] = 3%nat /\ (2 <= 2 <= 3)%nat /\ NoDup [[1]; [2]; [3]].
Proof.
  split; [lra|]. split; [reflexivity|]. split; [lia|].
  repeat constructor; cbn; intros H; repeat (destruct H as [H|H]; [injection H; lra|]); exact H.
Qed.

(** A lap is complete if and only if its ends are closer than the threshold.  The answer does not change when the path is moved or turned, when its direction
    is reversed, or whatever lies in between; a larger threshold accepts every lap that a smaller one accepts. *)
Theorem C124_lap (p q : V3) (between : list V3) (th : R) :
  (exists b, complete_lap_dist (p :: between ++ [q]) th = Ok b /\ (b = true <-> vdist p q < th)) /\
  complete_lap_dist (rev (p :: between ++ [q])) th = complete_lap_dist (p :: between ++ [q]) th /\
  (forall m t, is_rot m -> complete_lap_dist (map (fun x => vadd (mapply m x) t) (p :: between ++ [q])) th = complete_lap_dist (p :: between ++ [q]) th) /\
  (forall th', th <= th' -> complete_lap_dist (p :: between ++ [q]) th = Ok true -> complete_lap_dist (p :: between ++ [q]) th' = Ok true) /\
  (forall th', complete_lap_dist [p] th' = Ok (Rltb 0 th')) /\ complete_lap_dist [] th = Err IndexError.
Proof.
  assert (Lst : forall a b (l : list V3) d, last (a :: l ++ [b]) d = b).
  { intros a b l d. change (a :: l ++ [b]) with ((a :: l) ++ [b]). generalize (a :: l). intro k. induction k as [|x k IH]; [reflexivity|].
    cbn. destruct k; [reflexivity|]. exact IH. }
  assert (E : forall a b l h, complete_lap_dist (a :: l ++ [b]) h = Ok (Rltb (vdist a b) h)).
  { intros a b l h. unfold complete_lap_dist. rewrite Lst. reflexivity. }
  split; [|split; [|split; [|split; [|split]]]].
  - rewrite E. eexists. split; [reflexivity|]. apply Rltb_true.
  - replace (rev (p :: between ++ [q])) with (q :: rev between ++ [p]) by (cbn; rewrite rev_app_distr; reflexivity).
    rewrite !E. unfold vdist, vnorm. do 3 f_equal. unfold vdot, vsub. cbn. ring.
  - intros m t M. cbn [map]. rewrite map_app. cbn [map]. rewrite !E. do 2 f_equal.
    unfold vdist. rewrite <- (rot_norm m (vsub p q) M). f_equal. destruct m as [[] [] []], p, q, t. unfold mapply, vadd, vsub, vdot. cbn. f_equal; ring.
  - intros th' H. rewrite !E. intro T. injection T as T. f_equal. apply Rltb_true. apply Rltb_true in T. lra.
  - intro th'. unfold complete_lap_dist. cbn [last]. do 2 f_equal. unfold vnorm, vdot, vsub. cbn.
    replace (_ + _) with 0 by ring. apply sqrt_0.
  - reflexivity.
Qed.
Print Assumptions C124_lap.

Example C124_case : complete_lap_dist [mkV3 0 0 0; mkV3 9 0 0; mkV3 1 0 0] 2 = Ok true /\ complete_lap_dist [mkV3 0 0 0; mkV3 9 0 0; mkV3 1 0 0] 1 = Ok false.
Proof.
  unfold complete_lap_dist. cbn [last].
  replace (vnorm _) with 1; [|unfold vnorm, vdot, vsub; cbn; replace (_ + _) with 1 by ring; symmetry; apply sqrt_1].
  split; f_equal; [apply Rltb_true; lra|apply Rltb_false; lra].
Qed.

(** The matrix of a vector applied to another vector is the cross product; it is skew-symmetric, linear in the vector, annihilates the vector itself, and
    turns with the vector. *)
Theorem C125_cross (v w : V3) :
  mapply (skew_symmetric_matrix v) w = mkV3 (vy v * vz w - vz v * vy w) (vz v * vx w - vx v * vz w) (vx v * vy w - vy v * vx w) /\
  mtrans (skew_symmetric_matrix v) = mscale (-1) (skew_symmetric_matrix v) /\
  (forall a b, skew_symmetric_matrix (vadd (vscale a v) (vscale b w)) = madd (mscale a (skew_symmetric_matrix v)) (mscale b (skew_symmetric_matrix w))) /\
  mapply (skew_symmetric_matrix v) v = vzero /\
  (forall m, is_rot m -> mmul m (mmul (skew_symmetric_matrix v) (mtrans m)) = skew_symmetric_matrix (mapply m v)) /\
  (forall n, skew_symmetric_matrix v = skew_symmetric_matrix n -> v = n).
Proof.
  assert (A : forall x y, mapply (skew_symmetric_matrix x) y = vcross x y).
  { intros [] []. unfold mapply, skew_symmetric_matrix, vcross, vdot. cbn. f_equal; ring. }
  split; [|split; [|split; [|split; [|split]]]].
  - rewrite A. reflexivity.
  - destruct v. unfold mtrans, skew_symmetric_matrix, mscale, vscale, col1, col2, col3. cbn. f_equal; f_equal; ring.
  - intros a b. destruct v, w. unfold skew_symmetric_matrix, madd, mscale, vscale, vadd. cbn. f_equal; f_equal; ring.
  - rewrite A. destruct v. unfold vcross, vzero. cbn. f_equal; ring.
  - intros m M.
    assert (X : forall y, mapply (mmul m (mmul (skew_symmetric_matrix v) (mtrans m))) y = mapply (skew_symmetric_matrix (mapply m v)) y).
    { intro y. rewrite !mapply_mmul, !A, cross_rot by exact M. f_equal. rewrite <- mapply_mmul.
      rewrite (is_rot_right m M). apply mapply_ident. }
    apply mapply_ext, X.
  - intros n E. destruct v, n. unfold skew_symmetric_matrix in E. cbn in E. injection E. intros. f_equal; lra.
Qed.
Print Assumptions C125_cross.
