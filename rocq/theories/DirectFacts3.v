(** Lever arm, time shift and sensor rotation: facts. *)
From Verif Require Import Base BaseFacts VecFacts NumpyModel TrajModel GeomModel GeomSpec GeomFacts GeomFacts2 LsqModel LsqSpec LsqFacts DirectModel DirectSpec DirectFacts.

Lemma dot_app a b c d : length a = length c -> dot (a ++ b) (c ++ d) = dot a c + dot b d.
Proof. revert c. induction a as [|x a IH]; intros [|y c] L; cbn in *; try lia; [lra|]. rewrite IH by lia. ring. Qed.
Lemma weighted_sum_app a b c d : length a = length c -> weighted_sum (a ++ b) (c ++ d) = weighted_sum a c + weighted_sum b d.
Proof. revert c. induction a as [|x a IH]; intros [|y c] L; cbn in *; try lia; [lra|]. rewrite IH by lia. ring. Qed.
Lemma vminus_app a b c d : length a = length c -> vminus (a ++ b) (c ++ d) = vminus a c ++ vminus b d.
Proof. revert c. induction a as [|x a IH]; intros [|y c] L; cbn in *; try lia; [reflexivity|]. rewrite IH by lia. reflexivity. Qed.
Lemma weighted_diagonal w u : length w = length u -> weighted_square (diagonal w) u = weighted_sum w u.
Proof.
  intro L. unfold weighted_square. rewrite diagonal_mv by exact L. revert u L. induction w as [|x w IH]; intros [|y u] L; cbn in *; try lia; [reflexivity|].
  rewrite IH by lia. ring.
Qed.
Lemma weighted_sum_nonneg w u : Forall (fun x => 0 <= x) w -> 0 <= weighted_sum w u.
Proof. intro F. revert u. induction F as [|x w X F IH]; intros [|y u]; cbn; try lra. specialize (IH u). pose proof (Rmult_le_pos x (y ^ 2) X (pow2_ge_0 y)). cbn in *. lra. Qed.
Lemma weighted_sum_zero w u : length w = length u -> Forall (fun x => 0 < x) w -> weighted_sum w u = 0 -> Forall (fun x => x = 0) u.
Proof.
  intros L F. revert u L. induction F as [|x w X F IH]; intros [|y u] L Z; cbn in *; try lia; [constructor|].
  assert (0 <= weighted_sum w u) by (apply weighted_sum_nonneg; eapply Forall_impl; [|exact F]; cbn; intros; lra).
  assert (0 <= x * (y * (y * 1))) by (apply Rmult_le_pos; [lra|]; replace (y * (y * 1)) with (y ^ 2) by (cbn; ring); apply pow2_ge_0).
  constructor; [|apply IH; [lia|lra]]. assert (x * (y * (y * 1)) = 0) as Q by lra. apply Rmult_integral in Q as [Q|Q]; [lra|]. nra.
Qed.

Lemma by_axis_length l : length (by_axis l) = (3 * length l)%nat.
Proof. unfold by_axis. rewrite !app_length, !map_length. lia. Qed.
Lemma axis_error_sum wx wy wz d : length wx = length d -> length wy = length d -> length wz = length d ->
  axis_error wx wy wz d = weighted_sum (wx ++ wy ++ wz) (by_axis d).
Proof. intros A B C. unfold axis_error, by_axis. rewrite !weighted_sum_app by (rewrite map_length; congruence). ring. Qed.
Lemma vminus_axis p d : length p = length d -> vminus (by_axis p) (by_axis d) = by_axis (map (fun x => vsub (fst x) (snd x)) (combine p d)).
Proof.
  intro L. unfold by_axis. rewrite !vminus_app by (rewrite !map_length; exact L). f_equal; [|f_equal]; rewrite map_map;
  revert d L; induction p as [|a p IH]; intros [|b d] L; cbn in *; try lia; try reflexivity; f_equal; apply IH; lia.
Qed.

(** Rows of the design matrix *)
Lemma row_x e l : dot (lever_row_x e) [vx l; vy l; vz l] = vx (mapply (euler_matrix e) l).
Proof. rewrite euler_matrix_entries. destruct e, l. cbn. unfold vdot. cbn. ring. Qed.
Lemma row_y e l : dot (lever_row_y e) [vx l; vy l; vz l] = vy (mapply (euler_matrix e) l).
Proof. rewrite euler_matrix_entries. destruct e, l. cbn. unfold vdot. cbn. ring. Qed.
Lemma row_z e l : dot (lever_row_z e) [vx l; vy l; vz l] = vz (mapply (euler_matrix e) l).
Proof. rewrite euler_matrix_entries. destruct e, l. cbn. unfold vdot. cbn. ring. Qed.
Definition lever_rows (rpy : list V3) : mat := map lever_row_x rpy ++ map lever_row_y rpy ++ map lever_row_z rpy.
Lemma lever_rows_mv rpy l : mv (lever_rows rpy) [vx l; vy l; vz l] = by_axis (map (fun e => mapply (euler_matrix e) l) rpy).
Proof.
  unfold mv, lever_rows, by_axis. rewrite !map_app, !map_map. f_equal; [|f_equal]; apply map_ext; intro e; [apply row_x|apply row_y|apply row_z].
Qed.
Lemma lever_rows_length rpy : length (lever_rows rpy) = (3 * length rpy)%nat.
Proof. unfold lever_rows. rewrite !app_length, !map_length. lia. Qed.
Lemma combine_app {A B} (a1 a2 : list A) (b1 b2 : list B) : length a1 = length b1 -> combine (a1 ++ a2) (b1 ++ b2) = combine a1 b1 ++ combine a2 b2.
Proof. revert b1. induction a1 as [|x a1 IH]; intros [|y b1] L; cbn in *; try lia; [reflexivity|]. rewrite IH by lia. reflexivity. Qed.
Lemma timed_rows_mv rpy v dt l : length v = length rpy ->
  mv (map (fun p => fst p :: snd p) (combine (by_axis v) (lever_rows rpy))) [dt; vx l; vy l; vz l]
  = by_axis (map (fun p => vadd (vscale dt (snd p)) (mapply (euler_matrix (fst p)) l)) (combine rpy v)).
Proof.
  intro L. unfold mv, lever_rows, by_axis. rewrite !combine_app by (rewrite !map_length; exact L). rewrite !map_app, !map_map.
  f_equal; [|f_equal]; revert v L; induction rpy as [|e rpy IH]; intros [|s v] L; cbn [map combine length] in *; try lia; try reflexivity;
    (apply cons_eq; [|apply IH; lia]); cbn [fst snd]; match goal with |- dot (?a :: ?r) (_ :: ?y) = _ => change (dot (a :: r) (dt :: y)) with (a * dt + dot r y) end;
    [rewrite row_x|rewrite row_y|rewrite row_z]; destruct (mapply (euler_matrix e) l), s; cbn; ring.
Qed.

Lemma rests_form dt l to from rpy v : length to = length from -> length rpy = length from -> length v = length from ->
  map (fun x => vsub (fst x) (snd x)) (combine (map (fun p => vadd (vscale dt (snd p)) (mapply (euler_matrix (fst p)) l)) (combine rpy v))
    (map (fun p => vsub (fst p) (snd p)) (combine to from))) = lever_rests dt l to from rpy v.
Proof.
  revert from rpy v. induction to as [|q to IH]; intros [|p from] [|e rpy] [|s v] A B C; cbn in *; try lia; try reflexivity.
  apply cons_eq; [reflexivity|]. apply IH; lia.
Qed.
Lemma rests_length dt l to from rpy v : length to = length from -> length rpy = length from -> length v = length from -> length (lever_rests dt l to from rpy v) = length from.
Proof. revert from rpy v. induction to as [|q to IH]; intros [|p from] [|e rpy] [|s v] A B C; cbn in *; try lia. rewrite IH; lia. Qed.

(** Least squares with diagonal weights, as a weighted sum *)
Lemma weighted_ls solve n A obs w x l v : solve_contract solve -> Forall (fun c => 0 <= c) w -> length w = length obs ->
  least_squares solve n A obs (diagonal w) = Ok (x, l, v) ->
  length x = n /\ v = vminus (mv A x) obs /\ length A = length obs /\
  forall y, length y = n -> weighted_sum w (vminus (mv A x) obs) <= weighted_sum w (vminus (mv A y) obs).
Proof.
  intros SC WW LW H. destruct (least_squares_spec _ _ _ _ _ _ _ _ SC H) as [LX [L [V [LA [FA [LP NE]]]]]].
  assert (length (diagonal w) = length w) as LD by apply (diagonal_weights w WW).
  assert (weights_of (length obs) (diagonal w) = diagonal w) as E.
  { unfold weights_of. destruct (diagonal w) as [|r d] eqn:D; [|reflexivity]. cbn in LD. rewrite <- LW, <- LD. reflexivity. }
  split; [exact LX|]. split; [rewrite V, L; reflexivity|]. split; [exact LA|]. intros y LY. rewrite E in NE.
  pose proof (diagonal_weights w WW) as W. rewrite LW in W.
  assert (forall z, length w = length (vminus (mv A z) obs)) as LM by (intro z; rewrite vminus_length; rewrite mv_length; congruence).
  rewrite <- !weighted_diagonal by apply LM.
  exact (proj1 (normal_optimal (length obs) n A (diagonal w) obs x y W LA FA eq_refl LX LY NE)).
Qed.
