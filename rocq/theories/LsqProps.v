(** Least squares properties. *)
From Verif Require Import Base BaseFacts LsqModel LsqSpec LsqFacts.

(** ** C72: least squares adjustments minimise the weighted squared residuals *)

(** A returned solution has one value per column, the adjusted observations are those of the solution, the residuals are
    adjusted minus observed, and no other parameter vector has a smaller weighted sum of squared residuals. *)
Theorem C72_optimal : forall solve n A obs sigma x l v, solve_contract solve -> weight_matrix (length obs) sigma -> sigma <> [] ->
  least_squares solve n A obs sigma = Ok (x, l, v) ->
  length x = n /\ l = mv A x /\ v = vminus l obs /\
  forall y, length y = n -> weighted_square sigma v <= weighted_square sigma (vminus (mv A y) obs).
Proof.
  intros solve n A obs sigma x l v SC W N H. destruct (least_squares_spec _ _ _ _ _ _ _ _ SC H) as [LX [-> [-> [LA [FA [LP NE]]]]]].
  assert (weights_of (length obs) sigma = sigma) as E by (destruct sigma; [congruence|reflexivity]). rewrite E in NE.
  repeat (split; [first [assumption | reflexivity]|]).
  intros y LY. exact (proj1 (normal_optimal (length obs) n A sigma obs x y W LA FA eq_refl LX LY NE)).
Qed.
Print Assumptions C72_optimal.

(** Without weights, for both implementations: the plain sum of squares is minimal, and observations that fit the model
    exactly are reproduced. *)
Theorem C72_unweighted : forall solve n A obs x l v, solve_contract solve ->
  least_squares solve n A obs [] = Ok (x, l, v) \/ sparse_least_squares solve n A obs = Ok (x, l, v) ->
  length x = n /\ l = mv A x /\ v = vminus l obs /\
  (forall y, length y = n -> sum_square v <= sum_square (vminus (mv A y) obs)) /\
  (forall z, length z = n -> obs = mv A z -> l = obs).
Proof.
  intros solve n A obs x l v SC H. set (P := diagonal (repeat 1 (length obs))).
  assert (length x = n /\ l = mv A x /\ v = vminus l obs /\ length A = length obs /\ Forall (fun r => length r = n) A /\
    mv (mm n (mm (length obs) (transpose n A) P) A) x = mv (mm (length obs) (transpose n A) P) obs) as [LX [-> [-> [LA [FA NE]]]]].
  { destruct H as [H|H].
    - destruct (least_squares_spec _ _ _ _ _ _ _ _ SC H) as [LX [-> [-> [LA [FA [LP NE]]]]]].
      repeat (split; [first [assumption | reflexivity]|]). exact NE.
    - destruct (sparse_spec _ _ _ _ _ _ _ SC H) as [LX [-> [-> [LA [FA NE]]]]].
      repeat (split; [first [assumption | reflexivity]|]). apply sparse_normal; assumption. }
  repeat (split; [first [assumption | reflexivity]|]). split.
  - intros y LY. pose proof (proj1 (normal_optimal _ n A P obs x y (ones_weights _) LA FA eq_refl LX LY NE)) as O.
    unfold P in O. rewrite !ones_square in O by (rewrite vminus_length; rewrite mv_length; lia). exact O.
  - intros z LZ E. pose proof (proj1 (normal_optimal _ n A P obs x z (ones_weights _) LA FA eq_refl LX LZ NE)) as O.
    unfold P in O. rewrite !ones_square in O by (rewrite vminus_length; rewrite mv_length; lia).
    apply vminus_zero; [rewrite mv_length; exact LA|]. apply dot_self_zero. apply Rle_antisym; [|apply dot_self_nonneg].
    eapply Rle_trans; [exact O|]. rewrite <- E. right. unfold sum_square.
    assert (forall u, vminus u u = repeat 0 (length u)) as Z by (induction u as [|a u IH]; cbn; [reflexivity|]; f_equal; [ring|exact IH]).
    rewrite Z. apply dot_zeros_r.
Qed.
Print Assumptions C72_unweighted.

(** [fit_line_2d] with non-negative weights returns the slope and the intercept of the best line. *)
Theorem C72_line : forall solve x y weights s l v, solve_contract solve -> Forall (fun w => 0 <= w) weights ->
  fit_line_2d solve x y weights = Ok (s, l, v) -> y <> [] ->
  exists a b w, s = [a; b] /\ (weights = [] /\ w = repeat 1 (length y) \/ weights <> [] /\ w = weights) /\
    l = map (fun xi => a * xi + b) x /\
    forall a' b', line_error x y w a b <= line_error x y w a' b'.
Proof.
  intros solve x y weights s l v SC WP H NY. unfold fit_line_2d in H.
  set (w := match weights with [] => repeat 1 (length y) | _ => weights end) in *.
  assert (Forall (fun c => 0 <= c) w) as WW.
  { unfold w. destruct weights; [|exact WP]. apply Forall_forall. intros c I. apply repeat_spec in I. subst. lra. }
  destruct (least_squares_spec _ _ _ _ _ _ _ _ SC H) as [LX [L [_ [LA [FA [LP NE]]]]]].
  rewrite map_length in LA.
  assert (weights_of (length y) (diagonal w) = diagonal w /\ length w = length y) as [E LW].
  { unfold weights_of in *. destruct (diagonal w) as [|r d] eqn:D.
    - exfalso. assert (length (diagonal w) = length w) as Q by apply (diagonal_weights w WW). rewrite D in Q.
      unfold w in Q. destruct weights; cbn in Q; [rewrite repeat_length in Q|]; destruct y; cbn in Q; try congruence; lia.
    - split; [reflexivity|]. rewrite <- D in LP. rewrite <- LP. symmetry. apply (diagonal_weights w WW). }
  rewrite E in NE. destruct s as [|a [|b [|? ?]]]; try discriminate LX.
  exists a, b, w. split; [reflexivity|]. split.
  { unfold w. destruct weights; [left; split; reflexivity|right; split; [discriminate|reflexivity]]. }
  split.
  { rewrite L. unfold mv. rewrite map_map. apply map_ext. intro c. cbn. ring. }
  intros a' b'. rewrite <- !line_error_square by lia.
  pose proof (diagonal_weights w WW) as W. rewrite LW in W.
  refine (proj1 (normal_optimal (length y) 2 _ (diagonal w) y [a; b] [a'; b'] W _ FA eq_refl eq_refl eq_refl NE)).
  rewrite map_length. exact LA.
Qed.
Print Assumptions C72_line.

(** A solver for two unknowns, and a line through three points. *)
Definition solve2 (N : mat) (b : vec) : result vec :=
  match N, b with
  | [[a11; a12]; [a21; a22]], [b1; b2] =>
      let d := a11 * a22 - a12 * a21 in
      if Reqb d 0 then Err ValueError else Ok [(a22 * b1 - a12 * b2) / d; (a11 * b2 - a21 * b1) / d]
  | _, _ => Err ValueError
  end.
Lemma solve2_contract : solve_contract solve2.
Proof.
  intros N b x H. unfold solve2 in H.
  repeat (match type of H with context [match ?u with _ => _ end] => is_var u; destruct u; try discriminate H end).
  match type of H with context [Reqb ?a 0] => destruct (Req_EM_T a 0) as [Z|Z] end.
  - unfold Reqb in H. destruct (Req_EM_T _ 0); [discriminate|contradiction].
  - unfold Reqb in H. destruct (Req_EM_T _ 0); [contradiction|]. injection H as <-. split; [reflexivity|].
    unfold mv. cbn. f_equal; [|f_equal]; field; exact Z.
Qed.
Example C72_case : solve_contract solve2 /\ fit_line_2d solve2 [0; 1; 2] [0; 2; 1] [] = Ok ([1 / 2; 1 / 2], [1 / 2; 1; 3 / 2], [1 / 2; -1; 1 / 2]).
Proof.
  split; [exact solve2_contract|]. unfold fit_line_2d, least_squares. cbn -[Reqb]. unfold Reqb.
  match goal with |- context [Req_EM_T ?a 0] => destruct (Req_EM_T a 0) as [Z|Z]; [exfalso; lra|] end.
  cbn [bind]. apply f_equal. apply f_equal2; [apply f_equal2|]; unfold mv; cbn; repeat (apply (f_equal2 cons); [field|]); reflexivity.
Qed.
