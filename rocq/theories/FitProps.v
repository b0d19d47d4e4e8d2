(** C162: piecewise cubic approximation in another frame. *)
From Coq Require Import Permutation Sorting.
From Verif Require Import Base BaseFacts VecFacts NumpyModel NumpyFacts GeomModel GeomFacts TrajModel TrajSpec TrajFacts TrajFacts2 TrajFacts3 LsqModel LsqSpec LsqFacts LsqProps MatchModel MatchSpec ApproxModel ApproxSpec ApproxFacts ApproxFacts2 ApproxFacts3
  ApproxFacts4 ApproxFacts5 ApproxFacts6 ApproxFacts7 ApproxFacts8 SolveSpec SolveFacts FitSpec.

Lemma dot_nil_r u : dot u [] = 0. Proof. destruct u; reflexivity. Qed.
Lemma mv_plus n A x y : Forall (fun r => length r = n) A -> length x = n -> length y = n -> mv A (vplus x y) = vplus (mv A x) (mv A y).
Proof. intros F LX LY. induction F as [|r A L F IH]; cbn; [reflexivity|]. rewrite dot_plus_r by lia. f_equal. exact IH. Qed.
Lemma mv_times A s x : mv A (vtimes s x) = vtimes s (mv A x).
Proof. unfold mv, vtimes. rewrite map_map. apply map_ext. intro r. apply dot_times_r. Qed.
Lemma vtimes_length s x : length (vtimes s x) = length x. Proof. apply map_length. Qed.

(** Fitted values are determined: they lie in the range of the design matrix, and the residuals are orthogonal to it. *)
Definition projects (n : nat) (A : mat) (obs l : vec) : Prop :=
  (exists x, length x = n /\ l = mv A x) /\ length l = length obs /\ forall y, length y = n -> dot (mv A y) l = dot (mv A y) obs.

Lemma vplus_opp u v : length u = length v -> Forall (fun x => x = 0) (vplus u (vtimes (-1) v)) -> u = v.
Proof.
  revert v. induction u as [|a u IH]; intros [|b v] L F; cbn in L; try lia; [reflexivity|]. cbn in F. inversion F as [|? ? E F']; subst. f_equal; [lra|]. apply IH; [lia|exact F'].
Qed.

Lemma projects_unique n A obs l l' : Forall (fun r => length r = n) A -> projects n A obs l -> projects n A obs l' -> l = l'.
Proof.
  intros FA ((x & LX & ->) & LL & OX) ((y & LY & ->) & LL' & OY). set (z := vplus x (vtimes (-1) y)).
  assert (LZ : length z = n) by (unfold z; rewrite vplus_length; [exact LX|rewrite vtimes_length; lia]).
  assert (E : mv A z = vplus (mv A x) (vtimes (-1) (mv A y))) by (unfold z; rewrite (mv_plus n) by (try rewrite vtimes_length; assumption); rewrite mv_times; reflexivity).
  apply vplus_opp; [lia|]. rewrite <- E. apply dot_self_zero. rewrite E at 2. rewrite dot_plus_r by (rewrite vtimes_length; lia). rewrite dot_times_r, (OX z LZ), (OY z LZ). ring.
Qed.

Lemma projects_plus n A o l o' l' : Forall (fun r => length r = n) A -> projects n A o l -> projects n A o' l' -> length o = length o' -> projects n A (vplus o o') (vplus l l').
Proof.
  intros FA ((x & LX & ->) & LL & OX) ((y & LY & ->) & LL' & OY) LO. split; [|split].
  - exists (vplus x y). split; [rewrite vplus_length; lia|]. symmetry. apply (mv_plus n); assumption.
  - rewrite !vplus_length by lia. exact LL.
  - intros z LZ. rewrite !dot_plus_r by lia. rewrite (OX z LZ), (OY z LZ). reflexivity.
Qed.
Lemma projects_times n A o l s : projects n A o l -> projects n A (vtimes s o) (vtimes s l).
Proof.
  intros ((x & LX & ->) & LL & OX). split; [|split].
  - exists (vtimes s x). split; [rewrite vtimes_length; exact LX|]. symmetry. apply mv_times.
  - rewrite !vtimes_length. exact LL.
  - intros z LZ. rewrite !dot_times_r, (OX z LZ). reflexivity.
Qed.

Lemma normal_projects n A obs x : length A = length obs -> Forall (fun r => length r = n) A -> length x = n -> mv (mm n (transpose n A) A) x = mv (transpose n A) obs -> projects n A obs (mv A x).
Proof.
  intros LA FA LX NE. split; [exists x; auto|]. split; [rewrite mv_length; exact LA|]. intros y LY.
  rewrite mm_mv in NE; [|exact FA|apply transpose_rows|exact LX].
  rewrite <- (transpose_adjoint n A y (mv A x) FA LY (mv_length A x)). rewrite NE. apply transpose_adjoint; [exact FA|exact LY|lia].
Qed.

(** The approximation of values at given positions, as a projection that depends on the positions only *)
Lemma cubic_projects solve f vals size mo ap steps s : solve_contract solve -> cubic_fit f size mo = Ok (steps, s) -> cubic_approx solve f vals size mo = Ok ap ->
  let A := design_matrix (rev (coefficients_rev s)) in let n := (2 * length (rev (coefficients_rev s)) + 2)%nat in
  Forall (fun r => length r = n) A /\ length A = length vals /\ projects n A vals (est_obs ap) /\ interval_steps ap = steps.
Proof.
  intros SC F H A n. unfold cubic_approx in H. rewrite F in H. cbn [bind] in H. apply bind_ok in H as [[[x l] r] [E H]]. injection H as <-. cbn [est_obs interval_steps].
  destruct (sparse_spec _ _ _ _ _ _ _ SC E) as (LX & -> & _ & LA & FA & NE). split; [exact FA|]. split; [exact LA|]. split; [|reflexivity]. exact (normal_projects n A vals x LA FA LX NE).
Qed.

Lemma constant_projects f size mo steps s c : cubic_fit f size mo = Ok (steps, s) ->
  let A := design_matrix (rev (coefficients_rev s)) in let n := (2 * length (rev (coefficients_rev s)) + 2)%nat in projects n A (repeat c (length f)) (repeat c (length f)).
Proof.
  intros F A n. destruct (cubic_fit_spec f size mo steps s F) as [ps [C [P [_ [LC [NZ [FI _]]]]]]].
  assert (LR : length (rev (coefficients_rev s)) = length ps) by (rewrite rev_length; exact LC).
  split; [|split; [reflexivity|reflexivity]]. exists (concat (repeat [c; 0] (S (length ps)))).
  assert (G : forall m, length (concat (repeat [c; 0] m)) = (2 * m)%nat) by (induction m as [|m IH]; [reflexivity|]; cbn; rewrite IH; lia).
  split; [rewrite G; unfold n; lia|]. unfold A. rewrite design_fitted by (rewrite G; lia). rewrite FI. rewrite fitted_const by exact NZ. rewrite C. reflexivity.
Qed.


Lemma cubic_again solve f vals vals' size mo ap : matrix_decides solve -> length vals = length vals' -> cubic_approx solve f vals size mo = Ok ap -> exists ap', cubic_approx solve f vals' size mo = Ok ap'.
Proof.
  intros MD L H. unfold cubic_approx in *. destruct (cubic_fit f size mo) as [[steps s]|e]; [|discriminate]. cbn [bind] in *.
  unfold sparse_least_squares in *. rewrite <- L. destruct (shaped _ _ _); [|discriminate]. destruct (solve _ _) as [x|e] eqn:E; [|discriminate].
  assert (LB : length (mv (transpose (2 * length (rev (coefficients_rev s)) + 2) (design_matrix (rev (coefficients_rev s)))) vals) =
    length (mv (transpose (2 * length (rev (coefficients_rev s)) + 2) (design_matrix (rev (coefficients_rev s)))) vals')) by (rewrite !mv_length; reflexivity).
  destruct (MD _ _ _ _ LB E) as [x' E'].
  rewrite E'. eexists. reflexivity.
Qed.

(** One axis: approximating commutes with sums, multiples and constants. *)
Theorem C162_linear : forall solve f u v size mo a b c apu apv apw, solve_contract solve -> length u = length f -> length v = length f ->
  cubic_approx solve f u size mo = Ok apu -> cubic_approx solve f v size mo = Ok apv ->
  cubic_approx solve f (map (fun p => a * fst p + b * snd p + c) (combine u v)) size mo = Ok apw ->
  est_obs apw = map (fun p => a * fst p + b * snd p + c) (combine (est_obs apu) (est_obs apv)).
Proof.
  intros solve f u v size mo a b c apu apv apw SC LU LV U V W. destruct (cubic_fit f size mo) as [[steps s]|e] eqn:F; [|unfold cubic_approx in U; rewrite F in U; discriminate].
  destruct (cubic_projects solve f _ size mo _ steps s SC F U) as (FA & _ & PU & _). destruct (cubic_projects solve f _ size mo _ steps s SC F V) as (_ & _ & PV & _).
  destruct (cubic_projects solve f _ size mo _ steps s SC F W) as (_ & _ & PW & _). assert (PC := constant_projects f size mo steps s c F).
  assert (EQ : forall x y : vec, length x = length y -> map (fun p => a * fst p + b * snd p + c) (combine x y) = vplus (vplus (vtimes a x) (vtimes b y)) (repeat c (length x))).
  { induction x as [|x0 x IH]; intros [|y0 y] L; cbn in L; try lia; [reflexivity|]. cbn. f_equal. apply IH. lia. }
  assert (LEU : length (est_obs apu) = length f) by (destruct PU as (_ & E & _); congruence). assert (LEV : length (est_obs apv) = length f) by (destruct PV as (_ & E & _); congruence).
  rewrite EQ in PW by congruence. rewrite EQ by congruence. rewrite LU in PW. rewrite LEU.
  refine (projects_unique _ _ _ _ _ FA PW _). apply projects_plus; [exact FA| |exact PC|].
  - apply projects_plus; [exact FA|apply projects_times; exact PU|apply projects_times; exact PV|rewrite !vtimes_length; congruence].
  - rewrite vplus_length by (rewrite !vtimes_length; congruence). rewrite vtimes_length, repeat_length. exact LU.
Qed.
Print Assumptions C162_linear.

(** Positions: approximating in another frame (any rotation, scale, mirror image, shear and shift of the axes) gives the approximation
    in that frame. *)
Lemma piecewise_parts solve f vals size mo out : piecewise_cubic solve f vals size mo = Ok out <->
  exists x y z, cubic_approx solve f (map vx vals) size mo = Ok x /\ cubic_approx solve f (map vy vals) size mo = Ok y /\ cubic_approx solve f (map vz vals) size mo = Ok z /\
    out = map (fun p => mkV3 (fst (fst p)) (snd (fst p)) (snd p)) (combine (combine (est_obs x) (est_obs y)) (est_obs z)).
Proof.
  unfold piecewise_cubic. split.
  - intro H. apply bind_ok in H as (x & X & H). apply bind_ok in H as (y & Y & H). apply bind_ok in H as (z & Z & H). injection H as <-. exists x, y, z. auto.
  - intros (x & y & z & X & Y & Z & ->). rewrite X, Y, Z. reflexivity.
Qed.

Theorem C162_frame : forall solve f vals size mo M t out, solve_contract solve -> matrix_decides solve -> length vals = length f ->
  piecewise_cubic solve f vals size mo = Ok out -> piecewise_cubic solve f (map (reframed M t) vals) size mo = Ok (map (reframed M t) out).
Proof.
  intros solve f vals size mo M t out SC MD LV H. apply piecewise_parts in H as (x & y & z & X & Y & Z & ->).
  destruct (cubic_fit f size mo) as [[steps s]|e] eqn:F; [|unfold cubic_approx in X; rewrite F in X; discriminate].
  destruct (cubic_projects solve f _ size mo _ steps s SC F X) as (FA & _ & PX & _). destruct (cubic_projects solve f _ size mo _ steps s SC F Y) as (_ & _ & PY & _).
  destruct (cubic_projects solve f _ size mo _ steps s SC F Z) as (_ & _ & PZ & _).
  assert (LX : length (est_obs x) = length f) by (destruct PX as (_ & E & _); rewrite E, map_length; exact LV).
  assert (LY : length (est_obs y) = length f) by (destruct PY as (_ & E & _); rewrite E, map_length; exact LV).
  assert (LZ : length (est_obs z) = length f) by (destruct PZ as (_ & E & _); rewrite E, map_length; exact LV).
  set (out := map _ (combine _ _)).
  assert (EX : forall a b c d (w : vec), length w = length f -> w = map (fun p => d + (a * vx p + b * vy p + c * vz p)) vals ->
    exists ap, cubic_approx solve f w size mo = Ok ap /\ est_obs ap = map (fun p => d + (a * vx p + b * vy p + c * vz p)) out).
  { intros a b c d w LW EW. destruct (cubic_again solve f (map vx vals) w size mo x MD) as [ap AP]; [rewrite map_length; congruence|exact X|].
    exists ap. split; [exact AP|]. destruct (cubic_projects solve f _ size mo _ steps s SC F AP) as (_ & _ & PW & _). assert (PC := constant_projects f size mo steps s d F).
    assert (G : forall (u v w : vec), length u = length v -> length v = length w ->
      map (fun p => d + (a * vx p + b * vy p + c * vz p)) (map (fun p => mkV3 (fst (fst p)) (snd (fst p)) (snd p)) (combine (combine u v) w)) =
      vplus (repeat d (length u)) (vplus (vplus (vtimes a u) (vtimes b v)) (vtimes c w))).
    { clear. induction u as [|x u IH]; intros [|y v] [|z w] L1 L2; cbn in L1, L2; try lia; [reflexivity|]. cbn. f_equal. apply IH; lia. }
    assert (GV : map (fun p => d + (a * vx p + b * vy p + c * vz p)) vals = vplus (repeat d (length f)) (vplus (vplus (vtimes a (map vx vals)) (vtimes b (map vy vals))) (vtimes c (map vz vals)))).
    { rewrite <- LV. clear. induction vals as [|p l IH]; [reflexivity|]. cbn. f_equal. exact IH. }
    unfold out. rewrite G by congruence. rewrite LX. rewrite EW, GV in PW. refine (projects_unique _ _ _ _ _ FA PW _).
    apply projects_plus; [exact FA|exact PC| |].
    - apply projects_plus; [exact FA| |apply projects_times; exact PZ|].
      + apply projects_plus; [exact FA|apply projects_times; exact PX|apply projects_times; exact PY|rewrite !vtimes_length, !map_length; reflexivity].
      + rewrite vplus_length by (rewrite !vtimes_length, !map_length; reflexivity). rewrite !vtimes_length, !map_length. reflexivity.
    - rewrite !vplus_length by (rewrite ?vplus_length; rewrite ?vtimes_length, ?map_length; reflexivity). rewrite repeat_length, vtimes_length, map_length. congruence. }
  destruct M as [[a1 a2 a3] [b1 b2 b3] [c1 c2 c3]], t as [t1 t2 t3].
  destruct (EX a1 a2 a3 t1 (map vx (map (reframed (mkM3 (mkV3 a1 a2 a3) (mkV3 b1 b2 b3) (mkV3 c1 c2 c3)) (mkV3 t1 t2 t3)) vals))) as (x' & X' & EX').
  { rewrite !map_length. exact LV. } { rewrite map_map. apply map_ext. intros []. unfold reframed. munf. ring. }
  destruct (EX b1 b2 b3 t2 (map vy (map (reframed (mkM3 (mkV3 a1 a2 a3) (mkV3 b1 b2 b3) (mkV3 c1 c2 c3)) (mkV3 t1 t2 t3)) vals))) as (y' & Y' & EY').
  { rewrite !map_length. exact LV. } { rewrite map_map. apply map_ext. intros []. unfold reframed. munf. ring. }
  destruct (EX c1 c2 c3 t3 (map vz (map (reframed (mkM3 (mkV3 a1 a2 a3) (mkV3 b1 b2 b3) (mkV3 c1 c2 c3)) (mkV3 t1 t2 t3)) vals))) as (z' & Z' & EZ').
  { rewrite !map_length. exact LV. } { rewrite map_map. apply map_ext. intros []. unfold reframed. munf. ring. }
  apply piecewise_parts. exists x', y', z'. split; [exact X'|]. split; [exact Y'|]. split; [exact Z'|]. rewrite EX', EY', EZ'.
  generalize out. clear. induction out as [|[p q r] l IH]; [reflexivity|]. cbn [map combine]. rewrite IH. reflexivity.
Qed.
Print Assumptions C162_frame.

(** Whole trajectories, sorted by time or by arc length, with or without orientations *)
Lemma take_map {A B} (g : A -> B) l idx l' : np_take l idx = Ok l' -> np_take (map g l) idx = Ok (map g l').
Proof.
  unfold np_take. revert l'. induction idx as [|z idx IH]; intros l' H; cbn in *; [injection H as <-; reflexivity|].
  apply bind_ok in H as (a & G & H). apply bind_ok in H as (r & M & H). injection H as <-. rewrite (IH r M).
  unfold np_get in *. rewrite map_length. destruct (py_index (length l) z) as [k|]; [|discriminate]. destruct (nth_error l k) as [b|] eqn:N; [|discriminate]. injection G as <-.
  rewrite nth_error_map', N. reflexivity.
Qed.

Theorem C162_trajectory : forall (Q : Type) argsort solve win size mo M v (t t' : traj Q), solve_contract solve -> matrix_decides solve ->
  approximate argsort (fun f p => piecewise_cubic solve f p size mo) win t = Ok t' ->
  approximate argsort (fun f p => piecewise_cubic solve f p size mo) win (set_xyz (map (reframed M v) (xyz t)) t) = Ok (set_xyz (map (reframed M v) (xyz t')) t').
Proof.
  intros Q argsort solve win size mo M v t t' SC MD H. unfold approximate in *. set (t2 := set_xyz _ t).
  change (function_of argsort t2) with (function_of argsort t). change (sort_switching_index argsort t2) with (sort_switching_index argsort t).
  apply bind_ok in H as (f & F & H). apply bind_ok in H as (p & P & H). apply bind_ok in H as (pa & PA & H). apply bind_ok in H as (p' & P' & H). rewrite F. cbn [bind].
  assert (E2 : xyz_sorted argsort t2 = Ok (map (reframed M v) p)) by (unfold xyz_sorted, t2; cbn [xyz set_xyz]; apply take_map, P). rewrite E2. cbn [bind].
  assert (L : length p = length f) by (rewrite (np_take_length _ _ _ P), (np_take_length _ _ _ F); reflexivity).
  rewrite (C162_frame solve f p size mo M v pa SC MD L PA). cbn [bind]. rewrite (take_map _ _ _ _ P'). cbn [bind].
  change (has_orientation (set_xyz (map (reframed M v) p') t2)) with (has_orientation t). change (has_orientation (set_xyz p' t)) with (has_orientation t) in H.
  change (quat_sorted argsort t2) with (quat_sorted argsort t). destruct (negb (has_orientation t)); [injection H as <-; reflexivity|].
  apply bind_ok in H as (q & E & H). apply bind_ok in H as (qa & E' & H). apply bind_ok in H as (q' & E3 & H). injection H as <-. rewrite E. cbn [bind]. rewrite E'. cbn [bind]. rewrite E3. reflexivity.
Qed.
Print Assumptions C162_trajectory.

(** Approximating twice is approximating once. *)
Theorem C162_again : forall solve f vals size mo out, solve_contract solve -> matrix_decides solve -> length vals = length f ->
  piecewise_cubic solve f vals size mo = Ok out -> piecewise_cubic solve f out size mo = Ok out.
Proof.
  intros solve f vals size mo out SC MD LV H. apply piecewise_parts in H as (x & y & z & X & Y & Z & ->).
  destruct (cubic_fit f size mo) as [[steps s]|e] eqn:F; [|unfold cubic_approx in X; rewrite F in X; discriminate].
  assert (G : forall w ap, length w = length f -> cubic_approx solve f w size mo = Ok ap ->
    length (est_obs ap) = length f /\ exists ap', cubic_approx solve f (est_obs ap) size mo = Ok ap' /\ est_obs ap' = est_obs ap).
  { intros w ap LW W. destruct (cubic_projects solve f _ size mo _ steps s SC F W) as (FA & _ & ((x0 & L0 & E0) & LE & _) & _). split; [congruence|].
    destruct (cubic_again solve f w (est_obs ap) size mo ap MD (eq_sym LE) W) as [ap' W']. exists ap'. split; [exact W'|].
    destruct (cubic_projects solve f _ size mo _ steps s SC F W') as (_ & _ & P' & _). refine (projects_unique _ _ _ _ _ FA P' _).
    split; [exists x0; auto|]. split; [reflexivity|]. reflexivity. }
  destruct (G _ _ ltac:(rewrite map_length; exact LV) X) as (LX & x' & X' & EX). destruct (G _ _ ltac:(rewrite map_length; exact LV) Y) as (LY & y' & Y' & EY).
  destruct (G _ _ ltac:(rewrite map_length; exact LV) Z) as (LZ & z' & Z' & EZ).
  assert (C : forall a b c : vec, length a = length b -> length b = length c -> let l := map (fun p => mkV3 (fst (fst p)) (snd (fst p)) (snd p)) (combine (combine a b) c) in map vx l = a /\ map vy l = b /\ map vz l = c).
  { clear. induction a as [|i a IH]; intros [|j b] [|k c] L1 L2; cbn in L1, L2; try lia; [repeat split|]. destruct (IH b c ltac:(lia) ltac:(lia)) as (A & B & D). cbn. rewrite A, B, D. repeat split. }
  destruct (C (est_obs x) (est_obs y) (est_obs z) ltac:(congruence) ltac:(congruence)) as (CX & CY & CZ).
  apply piecewise_parts. exists x', y', z'. rewrite CX, CY, CZ, EX, EY, EZ. repeat split; assumption.
Qed.
Print Assumptions C162_again.

Lemma dot_ones l : dot (repeat 1 (length l)) l = np_sum l.
Proof. induction l as [|x l IH]; [reflexivity|]. cbn. rewrite IH. unfold np_sum. cbn. ring. Qed.
Lemma projects_sum n A o l : projects n A (repeat 1 (length o)) (repeat 1 (length o)) -> projects n A o l -> np_sum l = np_sum o.
Proof.
  intros ((x & LX & E) & _) (_ & LL & OX). rewrite <- (dot_ones l), <- (dot_ones o), LL, E. apply OX, LX.
Qed.

Lemma vsum_axes l : vsum l = mkV3 (np_sum (map vx l)) (np_sum (map vy l)) (np_sum (map vz l)).
Proof. induction l as [|p l IH]; [reflexivity|]. cbn [map]. unfold vsum in *. cbn [fold_right]. rewrite IH. destruct p. reflexivity. Qed.
Lemma vsum_permuted l l' : Permutation l l' -> vsum l = vsum l'.
Proof.
  intro P. induction P as [|p l l' P IH|p q l|l l1 l2 P1 I1 P2 I2]; [reflexivity| | |congruence]; unfold vsum in *; cbn [fold_right]; [rewrite IH; reflexivity|]. apply V3_eq; munf; ring.
Qed.

Lemma piecewise_axes solve f vals size mo out : solve_contract solve -> length vals = length f -> piecewise_cubic solve f vals size mo = Ok out ->
  exists n A, Forall (fun r => length r = n) A /\ (forall c, projects n A (repeat c (length f)) (repeat c (length f))) /\ length out = length f /\
    projects n A (map vx vals) (map vx out) /\ projects n A (map vy vals) (map vy out) /\ projects n A (map vz vals) (map vz out) /\
    (exists steps s, cubic_fit f size mo = Ok (steps, s) /\ n = (2 * length (rev (coefficients_rev s)) + 2)%nat /\ A = design_matrix (rev (coefficients_rev s))).
Proof.
  intros SC LV H. apply piecewise_parts in H as (x & y & z & X & Y & Z & ->).
  destruct (cubic_fit f size mo) as [[steps s]|e] eqn:F; [|unfold cubic_approx in X; rewrite F in X; discriminate].
  destruct (cubic_projects solve f _ size mo _ steps s SC F X) as (FA & _ & PX & _). destruct (cubic_projects solve f _ size mo _ steps s SC F Y) as (_ & _ & PY & _).
  destruct (cubic_projects solve f _ size mo _ steps s SC F Z) as (_ & _ & PZ & _).
  assert (LX : length (est_obs x) = length f) by (destruct PX as (_ & E & _); rewrite E, map_length; exact LV).
  assert (LY : length (est_obs y) = length f) by (destruct PY as (_ & E & _); rewrite E, map_length; exact LV).
  assert (LZ : length (est_obs z) = length f) by (destruct PZ as (_ & E & _); rewrite E, map_length; exact LV).
  assert (C : forall a b c : vec, length a = length b -> length b = length c -> let l := map (fun p => mkV3 (fst (fst p)) (snd (fst p)) (snd p)) (combine (combine a b) c) in map vx l = a /\ map vy l = b /\ map vz l = c).
  { clear. induction a as [|i a IH]; intros [|j b] [|k c] L1 L2; cbn in L1, L2; try lia; [repeat split|]. destruct (IH b c ltac:(lia) ltac:(lia)) as (A & B & D). cbn. rewrite A, B, D. repeat split. }
  destruct (C (est_obs x) (est_obs y) (est_obs z) ltac:(congruence) ltac:(congruence)) as (CX & CY & CZ).
  eexists _, _. split; [exact FA|]. split; [intro c; exact (constant_projects f size mo steps s c F)|]. rewrite CX, CY, CZ. split; [rewrite map_length, !combine_length; lia|].
  split; [exact PX|]. split; [exact PY|]. split; [exact PZ|]. exists steps, s. auto.
Qed.

(** Smoothing does not move the centre of the positions. *)
Theorem C162_centre : forall (Q : Type) argsort solve win size mo (t t' : traj Q), argsort_contract argsort -> consistent t -> solve_contract solve ->
  approximate argsort (fun f p => piecewise_cubic solve f p size mo) win t = Ok t' -> vmean (xyz t') = vmean (xyz t).
Proof.
  intros Q argsort solve win size mo t t' AC CT SC H. unfold approximate in H.
  apply bind_ok in H as (f & F & H). apply bind_ok in H as (p & P & H). apply bind_ok in H as (pa & PA & H). apply bind_ok in H as (p' & P' & H).
  assert (X : xyz t' = p').
  { destruct (negb _); [injection H as <-; reflexivity|]. apply bind_ok in H as (q & E & H). apply bind_ok in H as (qa & E' & H). apply bind_ok in H as (q' & E3 & H). injection H as <-. reflexivity. }
  rewrite X. clear H X. assert (L : length p = length f) by (rewrite (np_take_length _ _ _ P), (np_take_length _ _ _ F); reflexivity).
  destruct (sorted_view argsort t (xyz t) AC CT eq_refl) as (p1 & P1 & PP & _). unfold xyz_sorted in P. assert (p1 = p) by congruence. subst p1.
  destruct (piecewise_axes solve f p size mo pa SC L PA) as (n & A & _ & PC & LP & AX & AY & AZ & _).
  assert (LI : length (sorting_index argsort t) = length f) by (rewrite (np_take_length _ _ _ F), map_length; reflexivity).
  assert (PS : Permutation (sort_switching_index argsort t) (seq 0 (length pa))).
  { unfold sort_switching_index. destruct (AC (map INR (sorting_index argsort t))) as [PM _]. rewrite map_length in PM. rewrite LP, <- LI. exact PM. }
  destruct (np_take_perm pa _ PS) as (p2 & P2 & PP2 & _). assert (p2 = p') by congruence. subst p2.
  assert (LL : length p' = length (xyz t)) by (rewrite (Permutation_length PP2), LP, <- L; apply Permutation_length, PP).
  unfold vmean. rewrite LL. f_equal. rewrite (vsum_permuted _ _ PP2), <- (vsum_permuted _ _ PP), !vsum_axes.
  assert (PC1 := PC 1). rewrite <- L in PC1. f_equal; eapply projects_sum; try eassumption; rewrite map_length; exact PC1.
Qed.
Print Assumptions C162_centre.

(** Errors of the positions are not amplified: the approximations of two sets of positions are at most as far apart, in the sum of squared
    distances, as the positions. *)
Lemma projects_closer n A o o' l l' : Forall (fun r => length r = n) A -> length o = length o' -> projects n A o l -> projects n A o' l' -> sum_square (vminus l l') <= sum_square (vminus o o').
Proof.
  intros FA LO PO PO'. assert (MV : forall u v : vec, length u = length v -> vplus u (vtimes (-1) v) = vminus u v).
  { clear. induction u as [|x u IH]; intros [|y v] L; cbn in L; try lia; [reflexivity|]. cbn. f_equal; [ring|]. apply IH. lia. }
  assert (LL : length l = length l') by (destruct PO as (_ & E & _); destruct PO' as (_ & E' & _); congruence).
  assert (P := projects_plus n A o l _ _ FA PO (projects_times n A o' l' (-1) PO') ltac:(rewrite vtimes_length; exact LO)). rewrite !MV in P by assumption.
  set (d := vminus l l') in *. set (e := vminus o o') in *. destruct P as ((x & LX & E) & LD & OX). unfold sum_square.
  assert (K : dot d d = dot d e) by (specialize (OX x LX); rewrite <- E in OX; exact OX).
  clearbody d e. assert (NN := dot_self_nonneg (vminus e d)). rewrite dot_minus_l, !dot_minus_r in NN by congruence. rewrite (dot_comm e d) in NN. lra.
Qed.
Lemma apart_axes a b : length a = length b -> apart_squared a b = sum_square (vminus (map vx a) (map vx b)) + sum_square (vminus (map vy a) (map vy b)) + sum_square (vminus (map vz a) (map vz b)).
Proof.
  unfold apart_squared, sum_square. revert b. induction a as [|p a IH]; intros [|q b] L; cbn in L; try lia; [cbn; ring|]. specialize (IH b ltac:(lia)).
  cbn [combine map vminus dot]. unfold np_sum in *. cbn [fold_right fst snd]. rewrite IH. unfold vdist. replace (vnorm (vsub p q) ^ 2) with (vdot (vsub p q) (vsub p q)) by (rewrite <- vnorm_sq; ring).
  destruct p as [p1 p2 p3], q as [q1 q2 q3]. unfold vdot, vsub. cbn [vx vy vz]. ring.
Qed.
Theorem C162_closer : forall solve f vals vals' size mo out out', solve_contract solve -> length vals = length f -> length vals' = length f ->
  piecewise_cubic solve f vals size mo = Ok out -> piecewise_cubic solve f vals' size mo = Ok out' -> apart_squared out out' <= apart_squared vals vals'.
Proof.
  intros solve f vals vals' size mo out out' SC L L' H H'. destruct (piecewise_axes _ _ _ _ _ _ SC L H) as (n & A & FA & _ & LO & AX & AY & AZ & steps & s & F & -> & ->).
  destruct (piecewise_axes _ _ _ _ _ _ SC L' H') as (n' & A' & _ & _ & LO' & BX & BY & BZ & steps' & s' & F' & -> & ->).
  rewrite F in F'. injection F' as <- <-. rewrite !apart_axes by congruence.
  assert (G : forall o o' l l', length o = length o' -> projects _ _ o l -> projects _ _ o' l' -> sum_square (vminus l l') <= sum_square (vminus o o')) by (intros o o' l l'; exact (projects_closer _ _ o o' l l' FA)).
  assert (M : forall g : V3 -> R, length (map g vals) = length (map g vals')) by (intro g; rewrite !map_length; congruence).
  pose proof (G _ _ _ _ (M vx) AX BX). pose proof (G _ _ _ _ (M vy) AY BY). pose proof (G _ _ _ _ (M vz) AZ BZ). lra.
Qed.
Print Assumptions C162_closer.

(** Elimination is such a solver, and it solves the example of C51. *)
Lemma eliminate_decided n rows rows' : map fst rows = map fst rows' -> forall x, eliminate n rows = Ok x -> exists x', eliminate n rows' = Ok x'.
Proof.
  revert rows rows'. induction n as [|n IH]; intros rows rows' E x H; [exists []; reflexivity|]. cbn in *.
  assert (PK : match pick rows, pick rows' with Some (p, o), Some (p', o') => fst p = fst p' /\ map fst o = map fst o' | None, None => True | _, _ => False end).
  { clear - E. revert rows' E. induction rows as [|q rows IH]; intros [|q' rows'] E; cbn in E; try discriminate; [exact I|]. injection E as E1 E2. cbn. rewrite <- E1.
    destruct (Req_EM_T (hd 0 (fst q)) 0); [|split; assumption]. specialize (IH rows' E2). destruct (pick rows) as [[p o]|], (pick rows') as [[p' o']|]; try exact IH.
    destruct IH as [A B]. split; [exact A|]. cbn. congruence. }
  destruct (pick rows) as [[p o]|], (pick rows') as [[p' o']|]; try discriminate; [|destruct PK]. destruct PK as [EP EO]. apply bind_ok in H as (y & Y & H).
  destruct (IH (map (reduce p) o) (map (reduce p') o')) with (x := y) as [y' Y']; [|exact Y|rewrite Y'; eexists; reflexivity].
  rewrite !map_map. clear - EP EO. revert o' EO. induction o as [|q o IH]; intros [|q' o'] EO; cbn in EO; try discriminate; [reflexivity|]. injection EO as E1 E2. cbn [map]. f_equal; [unfold reduce; cbn [fst]; rewrite EP, E1; reflexivity|apply IH, E2].
Qed.
Lemma gauss_decides : matrix_decides gauss.
Proof.
  intros N b b' x L H. unfold gauss in *. rewrite <- L. destruct (shaped _ _ _) eqn:SH; [|discriminate]. apply shaped_spec in SH as [LN _].
  refine (eliminate_decided _ _ _ _ x H). clear - LN L. revert b b' LN L. induction N as [|r N IH]; intros [|x b] [|y b'] L1 L2; cbn in *; try lia; [reflexivity|]. f_equal. apply IH; lia.
Qed.

Definition ex_cs : list (list coeffs) :=
  [[mkCoeffs 1 0 0 0; mkCoeffs (27/32) (9/16) (5/32) (-3/16); mkCoeffs (5/32) (3/16) (27/32) (-9/16); mkCoeffs 0 0 1 0];
   [mkCoeffs 1 0 0 0; mkCoeffs (27/32) (9/16) (5/32) (-3/16); mkCoeffs (5/32) (3/16) (27/32) (-9/16); mkCoeffs 0 0 1 0]].
Lemma ex_fit : exists steps s, cubic_fit ex_f 4 4 = Ok (steps, s) /\ rev (coefficients_rev s) = ex_cs.
Proof.
  destruct (fit_total ex_f 4 4) as [steps [s F]]; [|lia|cbn; lia|lra|].
  { apply increasing_sorted. unfold ex_f. repeat (constructor; [|constructor; lra]). constructor; constructor. }
  exists steps, s. split; [exact F|]. destruct (cubic_fit_spec _ _ _ _ _ F) as [ps [C [P [ST [LC [NZ [FI G]]]]]]].
  assert (ps = ex_pieces) as -> by (apply (pieces_unique 4 4); [exact P|exact ex_pieces_ok|exact C]).
  inversion G as [|? c1 ? ? G1 G2]; subst. inversion G2 as [|? c2 ? ? G3 G4]; subst. inversion G4; subst. clear - G1 G3.
  assert (CC : forall x a b q, q = (x - a) / (b - a) -> b <> a -> compute_c x a b = Ok (mkCoeffs (1 - 3 * q ^ 2 + 2 * q ^ 3) ((b - a) * q * (1 - q) ^ 2) (3 * q ^ 2 - 2 * q ^ 3) ((b - a) * q * (q ^ 2 - q)))).
  { intros x a b q -> N. unfold compute_c, Reqb. destruct (Req_EM_T (b - a) 0); [lra|]. do 2 f_equal; field; lra. }
  unfold piece_coeffs, coefficients_for, ex_pieces in *. cbn [p_start p_obs last mapM] in *.
  rewrite (CC 0 0 4 0), (CC 1 0 4 (1/4)), (CC 3 0 4 (3/4)), (CC 4 0 4 1) in G1 by lra.
  rewrite (CC 5 5 9 0), (CC 6 5 9 (1/4)), (CC 8 5 9 (3/4)), (CC 9 5 9 1) in G3 by lra.
  cbn [bind] in G1, G3. injection G1 as <-. injection G3 as <-. unfold ex_cs.
  assert (MK : forall a b c d a' b' c' d', a = a' -> b = b' -> c = c' -> d = d' -> mkCoeffs a b c d = mkCoeffs a' b' c' d') by (intros; subst; reflexivity).
  repeat first [reflexivity | apply MK; field | apply (f_equal2 cons)].
Qed.

(** Elimination approximates every set of values over the positions of the example. *)
Lemma ex_total v : length v = 8%nat -> exists ap, cubic_approx gauss ex_f v 4 4 = Ok ap.
Proof.
  intro LV. destruct ex_fit as (steps & s & F & CS). unfold cubic_approx. rewrite F. cbn [bind]. rewrite CS. cbn [length ex_cs]. change (2 * 2 + 2)%nat with 6%nat.
  set (A := design_matrix ex_cs). assert (DM : A = [[1; 0; 0; 0; 0; 0]; [27/32; 9/16; 5/32; -3/16; 0; 0]; [5/32; 3/16; 27/32; -9/16; 0; 0]; [0; 0; 1; 0; 0; 0];
    [0; 0; 1; 0; 0; 0]; [0; 0; 27/32; 9/16; 5/32; -3/16]; [0; 0; 5/32; 3/16; 27/32; -9/16]; [0; 0; 0; 0; 1; 0]]) by reflexivity.
  unfold sparse_least_squares. assert (SH : shaped (length v) 6 A = true) by (rewrite LV, DM; reflexivity). rewrite SH. apply shaped_spec in SH as [LA FA].
  destruct (gauss_complete 6%nat (mm 6 (transpose 6 A) A) (mv (transpose 6 A) v)) as [x X]; [|rewrite mv_length; apply transpose_length|rewrite X; eexists; reflexivity].
  split.
  - split; [unfold mm; rewrite map_length; apply transpose_length|]. apply Forall_forall. intros r I. unfold mm in I. apply in_map_iff in I as (c & <- & _). rewrite map_length. apply transpose_length.
  - intros x LX K. rewrite mm_mv in K; [|exact FA|apply transpose_rows|exact LX].
    assert (Z : dot (mv A x) (mv A x) = 0).
    { rewrite <- (transpose_adjoint 6%nat A x (mv A x) FA LX (mv_length A x)). rewrite K. clear - LX. destruct x as [|a [|b [|c [|d [|e [|g [|]]]]]]]; cbn in LX; try lia. cbn. ring. }
    apply dot_self_zero in Z. rewrite DM in Z. destruct x as [|a [|b [|c [|d [|e [|g [|]]]]]]]; cbn in LX; try lia. cbn in Z.
    repeat match goal with H : Forall _ (_ :: _) |- _ => inversion H; subst; clear H end. cbn. repeat f_equal; lra.
Qed.

(** Eight positions on a line in two intervals, with a parameter along the line.  Approximating moves the fourth and fifth position to
    the middle between them (both ends of the gap are one node).  A quarter turn and a shift of the axes turn and shift the result. *)
Definition on_line : list V3 := map (fun x => mkV3 x 0 0) ex_f.
Definition smoothed : list V3 := map (fun x => mkV3 x 0 0) [0; 1; 3; 9/2; 9/2; 6; 8; 9].
Definition quarter_turn : M3 := mkM3 (mkV3 0 (-1) 0) (mkV3 1 0 0) (mkV3 0 0 1).
Example C162_case : solve_contract gauss /\ matrix_decides gauss /\ length on_line = length ex_f /\ piecewise_cubic gauss ex_f on_line 4 4 = Ok smoothed /\
  piecewise_cubic gauss ex_f (map (fun x => mkV3 7 x 2) ex_f) 4 4 = Ok (map (fun x => mkV3 7 x 2) [0; 1; 3; 9/2; 9/2; 6; 8; 9]) /\ vmean smoothed = vmean on_line.
Proof.
  assert (P : piecewise_cubic gauss ex_f on_line 4 4 = Ok smoothed).
  { destruct (ex_total ex_f eq_refl) as [ax X]. destruct (ex_total (repeat 0 8) eq_refl) as [a0 Z]. apply piecewise_parts. exists ax, a0, a0.
    split; [exact X|]. split; [exact Z|]. split; [exact Z|]. destruct ex_fit as (steps & s & F & CS).
    destruct (cubic_projects gauss _ _ _ _ _ _ _ gauss_contract F X) as (FA & _ & PX & _). destruct (cubic_projects gauss _ _ _ _ _ _ _ gauss_contract F Z) as (_ & _ & PZ & _).
    destruct ex_approx as (st & r & E & _). destruct (cubic_projects _ _ _ _ _ _ _ _ (candidate_contract ex_params) F E) as (_ & _ & PE & _).
    rewrite (projects_unique _ _ _ _ _ FA PX PE). rewrite (projects_unique _ _ _ _ _ FA PZ (constant_projects _ _ _ _ _ 0 F)). reflexivity. }
  split; [exact gauss_contract|]. split; [exact gauss_decides|]. split; [reflexivity|]. split; [exact P|]. split.
  - assert (H := C162_frame gauss ex_f on_line 4 4 quarter_turn (mkV3 7 0 2) smoothed gauss_contract gauss_decides eq_refl P).
    assert (E : forall l, map (reframed quarter_turn (mkV3 7 0 2)) (map (fun x => mkV3 x 0 0) l) = map (fun x => mkV3 7 x 2) l).
    { intro l. rewrite map_map. apply map_ext. intro x. unfold reframed, quarter_turn. apply V3_eq; munf; ring. }
    unfold on_line, smoothed in H. rewrite !E in H. exact H.
  - unfold vmean, vsum, smoothed, on_line, ex_f. cbn [map length fold_right]. f_equal. apply V3_eq; munf; lra.
Qed.
Print Assumptions C162_case.
