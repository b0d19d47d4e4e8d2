(** Properties of the smoothing functions. *)
From Coq Require Import Sorting.Sorted.
From Verif Require Import Base BaseFacts NumpyModel NumpyFacts LsqModel LsqSpec LsqFacts GeomModel MatchModel MatchSpec MatchFacts2 ApproxModel ApproxSpec
  ApproxFacts ApproxFacts2 ApproxFacts3 ApproxFacts4 ApproxFacts5 ApproxFacts6 ApproxFacts7 ApproxFacts8.

(** * C56: rounding to odd *)

(** The result is the odd integer in (s - 1, s + 1]. *)
Theorem C56_rndodd : forall s,
  (Z.odd (rndodd s) = true /\ Rabs (IZR (rndodd s) - s) <= 1) /\
  (forall z, Z.odd z = true -> s - 1 < IZR z <= s + 1 -> z = rndodd s) /\
  (forall z, Z.odd z = true -> s = IZR z -> rndodd s = z).
Proof.
  intro s. destruct (rndodd_spec s) as [O B]. split; [split; [exact O|apply Rabs_le; lra]|]. split; [apply rndodd_unique|].
  intros z Z E. symmetry. apply rndodd_unique; [exact Z|]. rewrite E. lra.
Qed.
Print Assumptions C56_rndodd.
Example C56_case : rndodd (29/10) = 3%Z /\ rndodd (- (3/10)) = (-1)%Z /\ rndodd 4 = 5%Z.
Proof.
  split; [symmetry; apply rndodd_unique; [reflexivity|lra]|]. split; symmetry; (apply rndodd_unique; [reflexivity|lra]).
Qed.
Print Assumptions C56_case.

(** * C52: orientation smoothing *)

(** The window of the code: the orientations at most [ext] before and fewer than [ext] after a pose, without the last pose
    of the trajectory.  What is missing: the pose [ext] later and the last pose. *)
Theorem C52_window_partial : forall (A : Type) (mean : list A -> result A) zero f quat w ext r,
  length quat = length f -> window_ext f w = Ok ext -> rot_average_window mean zero f quat w = Ok r ->
  length r = length quat /\
  (ext = 0%nat -> r = quat) /\
  (ext <> 0%nat -> forall i q, nth_error r i = Some q ->
     mean (at_indices (fun j => centred i ext j && negb (j =? i + ext)%nat && negb (j =? length quat - 1)%nat) quat) = Ok q).
Proof.
  intros A mean zero f quat w ext r L E H. destruct (window_spec mean zero f quat w ext r L E H) as [P Q].
  split; [destruct (Nat.eq_dec ext 0) as [Z|Z]; [rewrite (P Z); reflexivity|apply (Q Z)]|]. split; [exact P|].
  intros Z i q N. destruct (Q Z) as [LR QQ]. rewrite <- (QQ i q N). f_equal. apply at_indices_ext. intros j J. unfold averaged, centred.
  destruct (Nat.leb_spec i (j + ext)), (Nat.leb_spec j (i + ext)), (Nat.ltb_spec j (i + ext)), (Nat.ltb_spec (j + 1) (length quat)),
    (Nat.eqb_spec j (i + ext)), (Nat.eqb_spec j (length quat - 1)); cbn; try reflexivity; lia.
Qed.
Print Assumptions C52_window_partial.

(** Smoothing never fails for a trajectory with orientations, if averaging of one or more orientations does not. *)
Theorem C52_total : forall (A : Type) (mean : list A -> result A) zero f quat w,
  length quat = length f -> f <> [] -> (forall l, l <> [] -> exists q, mean l = Ok q) ->
  exists r, rot_average_window mean zero f quat w = Ok r.
Proof. intros A mean zero f quat w. apply window_total. Qed.
Print Assumptions C52_total.

(** Orientations that are all the same stay the same. *)
Theorem C52_constant : forall (A : Type) (mean : list A -> result A) zero f q w r,
  (forall l, l <> [] -> (forall x, In x l -> x = q) -> mean l = Ok q) ->
  rot_average_window mean zero f (repeat q (length f)) w = Ok r -> r = repeat q (length f).
Proof.
  intros A mean zero f q w r M H.
  destruct (window_ext f w) as [ext|] eqn:E; [|unfold rot_average_window in H; rewrite E in H; discriminate].
  destruct (window_spec mean zero f (repeat q (length f)) w ext r (repeat_length _ _) E H) as [P Q].
  destruct (Nat.eq_dec ext 0) as [Z|Z]; [apply P, Z|]. destruct (Q Z) as [LR QQ]. rewrite repeat_length in LR, QQ.
  rewrite <- LR. clear P Q H. assert (forall i x, nth_error r i = Some x -> x = q) as G.
  { intros i x N. specialize (QQ i x N). rewrite M in QQ; [congruence| |].
    - apply window_nonempty; [apply repeat_length|apply (window_two f w ext E Z)| |exact Z]. rewrite <- LR. apply nth_error_Some. congruence.
    - intros y I. unfold at_indices in I. apply in_map_iff in I as [[j z] [<- I]]. apply filter_In in I as [I _]. unfold enumerate in I.
      apply in_combine_r in I. apply repeat_spec in I. exact I. }
  clear - G. induction r as [|x r IH]; [reflexivity|]. cbn. f_equal; [apply (G 0%nat); reflexivity|]. apply IH. intros i y N. apply (G (S i) y N).
Qed.
Print Assumptions C52_constant.

(** REFUTED: the last orientation has no influence on any smoothed orientation, not even its own, whenever there is any
    smoothing at all. *)
Theorem C52_last_ignored_refuted : forall (A : Type) (mean : list A -> result A) zero f quat q q' w ext,
  window_ext f w = Ok ext -> ext <> 0%nat ->
  rot_average_window mean zero f (quat ++ [q]) w = rot_average_window mean zero f (quat ++ [q']) w.
Proof. intros A mean zero f quat q q' w ext. apply window_ignores_last. Qed.
Print Assumptions C52_last_ignored_refuted.

Definition average (l : list R) : result R := match l with [] => Err ValueError | _ => Ok (np_sum l / INR (length l)) end.
Lemma np_round_small x : Rabs x < 1/2 -> np_round x = 0%Z.
Proof.
  intro H. apply Rabs_def2 in H as [H1 H2]. unfold np_round. destruct (Rle_dec 0 x) as [P|P].
  - assert (Int_part x = 0%Z) as -> by (apply floor_unique; lra). unfold Rltb. destruct (Rlt_dec (x - 0) (1/2)); [reflexivity|lra].
  - assert (Int_part x = (-1)%Z) as -> by (apply floor_unique; lra). unfold Rltb.
    destruct (Rlt_dec (x - -1) (1/2)); [lra|]. destruct (Rlt_dec (1/2) (x - -1)); [reflexivity|lra].
Qed.
(** A window of three poses: the mean of 0, 0, 9 is expected for the pose in the middle. *)
Example C52_case : window_ext [0; 1/100; 2/100] (15/100) = Ok 1%nat /\
  rot_average_window average 0 [0; 1/100; 2/100] [0; 0; 9] (15/100) = Ok [0; 0; 0] /\
  average (at_indices (centred 1 1) [0; 0; 9]) = Ok 3.
Proof.
  assert (window_ext [0; 1/100; 2/100] (15/100) = Ok 1%nat) as E.
  { unfold window_ext. cbn [map].
    rewrite !np_round_small by (unfold Rabs; destruct (Rcase_abs _); lra).
    change (distinct [0%Z; 0%Z; 0%Z]) with 1%nat. cbn [Nat.eqb length].
    replace (rndodd (INR 3 / INR 1)) with 3%Z by (apply rndodd_unique; [reflexivity|cbn; lra]). reflexivity. }
  split; [exact E|]. split; [|cbn; f_equal; field].
  unfold rot_average_window. rewrite E. cbn. f_equal.
  repeat (apply (f_equal2 cons); [field|]). reflexivity.
Qed.
Print Assumptions C52_case.

(** * C53: voxels *)

(** Every point is in exactly one voxel, no voxel is empty and no identifier is used twice. *)
Theorem C53_partition : forall pts size vs, create_voxels pts size = Ok vs ->
  NoDup (map fst vs) /\ Permutation (concat (map snd vs)) pts /\ (forall id ps, In (id, ps) vs -> ps <> []) /\
  (forall i j v w p, nth_error vs i = Some v -> nth_error vs j = Some w -> In p (snd v) -> In p (snd w) -> i = j).
Proof.
  intros pts size vs V. destruct (voxel_member pts size vs V) as [lo [_ [_ [ND [PM [CT _]]]]]].
  split; [exact ND|]. split; [exact PM|]. split; [intros id ps I; apply (CT id ps I)|].
  intros i j v w p. apply (voxels_disjoint pts size vs i j v w p V).
Qed.
Print Assumptions C53_partition.

(** Voxels exist for every non-empty set of points and every positive size. *)
Theorem C53_total : forall pts size, pts <> [] -> 0 < size -> exists vs, create_voxels pts size = Ok vs.
Proof. exact voxels_total. Qed.
Print Assumptions C53_total.

(** Points in the same cell of the grid share a voxel. *)
Theorem C53_same_cell : forall pts size vs lo p q b, create_voxels pts size = Ok vs -> lower_corner pts lo -> In p pts -> In q pts ->
  in_cell3 lo size p b -> in_cell3 lo size q b -> share_voxel vs p q.
Proof. intros pts size vs lo p q b V LC IP IQ C D. apply (share_iff pts size vs lo p q b b V LC IP IQ C D). reflexivity. Qed.
Print Assumptions C53_same_cell.

(** Points that share a voxel are in the same cell, if the points span at most nine voxels in y and z.  What is missing:
    larger extents. *)
Theorem C53_separate_partial : forall pts size vs lo p q, create_voxels pts size = Ok vs -> lower_corner pts lo ->
  (forall r, In r pts -> vy r - vy lo <= 9 * size /\ vz r - vz lo <= 9 * size) ->
  share_voxel vs p q -> exists b, in_cell3 lo size p b /\ in_cell3 lo size q b.
Proof.
  intros pts size vs lo p q V LC SM [id [ps [I [J K]]]]. destruct (voxel_member pts size vs V) as [lo' [S [LC' [ND [PM [CT M]]]]]].
  rewrite <- (corner_unique _ _ _ LC LC') in M. apply (M id ps p I) in J as [IP [b [C E]]]. apply (M id ps q I) in K as [IQ [c [D E']]].
  destruct b as [[bx b_y] bz], c as [[cx c_y] cz]. exists (bx, b_y, bz). split; [exact C|].
  destruct (SM p IP) as [P1 P2]. destruct (SM q IQ) as [Q1 Q2]. pose proof C as C0. pose proof D as D0.
  destruct C0 as [_ [C1 C2]]. destruct D0 as [_ [D1 D2]]. cbn in C1, C2, D1, D2.
  rewrite (voxel_id_inj bx b_y bz cx c_y cz); [exact D| | | | |congruence]; eapply cell_small; eauto.
Qed.
Print Assumptions C53_separate_partial.

Definition far_apart : list V3 := [mkV3 0 0 0; mkV3 (1/2) (21/2) 0; mkV3 (21/2) (1/2) 0].
Lemma far_corner : lower_corner far_apart (mkV3 0 0 0).
Proof.
  split; [intros p [<-|[<-|[<-|[]]]]; cbn; lra|]. split; [|split]; exists (mkV3 0 0 0); (split; [left; reflexivity|reflexivity]).
Qed.
(** REFUTED: points far apart share a voxel, because the identifiers of cells (1, 11, 0) and (11, 1, 0) are the same. *)
Theorem C53_collision_refuted : exists pts vs p q lo b c, create_voxels pts 1 = Ok vs /\ lower_corner pts lo /\ In p pts /\ In q pts /\
  in_cell3 lo 1 p b /\ in_cell3 lo 1 q c /\ b <> c /\ vdist p q > 10 /\ share_voxel vs p q.
Proof.
  destruct (voxels_total far_apart 1) as [vs V]; [discriminate|lra|].
  exists far_apart, vs, (mkV3 (1/2) (21/2) 0), (mkV3 (21/2) (1/2) 0), (mkV3 0 0 0), (1, 11, 0)%nat, (11, 1, 0)%nat.
  assert (in_cell3 (mkV3 0 0 0) 1 (mkV3 (1/2) (21/2) 0) (1, 11, 0)%nat) as C.
  { unfold in_cell3, in_cell. cbn [fst snd vx vy vz]. rewrite !INR_IZR_INZ. cbn. lra. }
  assert (in_cell3 (mkV3 0 0 0) 1 (mkV3 (21/2) (1/2) 0) (11, 1, 0)%nat) as D.
  { unfold in_cell3, in_cell. cbn [fst snd vx vy vz]. rewrite !INR_IZR_INZ. cbn. lra. }
  split; [exact V|]. split; [exact far_corner|]. split; [right; left; reflexivity|]. split; [right; right; left; reflexivity|].
  split; [exact C|]. split; [exact D|]. split; [discriminate|]. split.
  - unfold vdist, vnorm, vdot, vsub. cbn. apply Rlt_gt. rewrite <- (sqrt_square 10) by lra. apply sqrt_lt_1; lra.
  - eapply (share_iff far_apart 1 vs (mkV3 0 0 0)); [exact V|exact far_corner|right; left; reflexivity|right; right; left; reflexivity|exact C|exact D|].
    vm_compute. reflexivity.
Qed.
Print Assumptions C53_collision_refuted.

Definition apart : list V3 := [mkV3 0 0 0; mkV3 10 0 0].
Lemma apart_corner : lower_corner apart (mkV3 0 0 0).
Proof.
  split; [intros p [<-|[<-|[]]]; cbn; lra|]. split; [|split]; exists (mkV3 0 0 0); (split; [left; reflexivity|reflexivity]).
Qed.
Example C53_case : exists vs, create_voxels apart 1 = Ok vs /\ lower_corner apart (mkV3 0 0 0) /\
  (forall r, In r apart -> vy r - 0 <= 9 * 1 /\ vz r - 0 <= 9 * 1) /\ ~ share_voxel vs (mkV3 0 0 0) (mkV3 10 0 0).
Proof.
  destruct (voxels_total apart 1) as [vs V]; [discriminate|lra|]. exists vs. split; [exact V|]. split; [exact apart_corner|].
  split; [intros r [<-|[<-|[]]]; cbn; lra|]. intro S.
  apply (share_iff apart 1 vs (mkV3 0 0 0) _ _ (0, 0, 0)%nat (10, 0, 0)%nat V apart_corner) in S.
  - vm_compute in S. discriminate.
  - left. reflexivity.
  - right. left. reflexivity.
  - unfold in_cell3, in_cell. cbn [fst snd vx vy vz]. rewrite !INR_IZR_INZ. cbn. lra.
  - unfold in_cell3, in_cell. cbn [fst snd vx vy vz]. rewrite !INR_IZR_INZ. cbn. lra.
Qed.
Print Assumptions C53_case.

(** * C73: moving least squares *)

(** The result has one point per input point; it comes from one to ten iterations, each of which projects every point on the
    line of its nearest voxels; every iteration but the last moved the points by more than the threshold on average, and the
    last one by at most the threshold unless it is the tenth. *)
Theorem C73_iterations : forall query eigh pts size k th out, knn_contract vdist query -> (2 <= k)%nat ->
  mls_iterative query eigh pts size k th = Ok out ->
  length out = length pts /\
  exists m, (1 <= m <= 10)%nat /\ smoothing_run (smoothing_step eigh size k) th m pts out /\
    (m = 10%nat \/ exists before, smoothing_step eigh size k before out /\ average_distance before out <= th).
Proof.
  intros query eigh pts size k th out KN K H. destruct (loop_sound query eigh KN 9 pts size k th out K H) as [m [L [RN D]]].
  split; [apply (run_length _ _ _ _ _ _ _ RN)|]. exists m. split; [exact L|]. split; [exact RN|exact D].
Qed.
Print Assumptions C73_iterations.

(** An iteration succeeds with at least two and at most as many neighbours as there are voxels. *)
Theorem C73_total : forall query eigh pts size k vs, knn_contract vdist query ->
  create_voxels pts size = Ok vs -> (2 <= k <= length vs)%nat ->
  exists out, mls_single query eigh pts size k = Ok (out, average_distance pts out) /\ smoothing_step eigh size k pts out.
Proof. intros query eigh pts size k vs KN. apply single_ok, KN. Qed.
Print Assumptions C73_total.

(** Points on a straight line are not moved. *)
Theorem C73_straight : forall query eigh l pts size k th vs, knn_contract vdist query ->
  (forall nb, (2 <= length nb)%nat -> top_direction (covariance nb) (eigh (covariance nb))) ->
  create_voxels pts size = Ok vs -> (2 <= k <= length vs)%nat -> 0 <= th ->
  vdot (l_dir l) (l_dir l) = 1 -> Forall (on_line l) pts ->
  mls_iterative query eigh pts size k th = Ok pts.
Proof. intros query eigh l pts size k th vs KN TOP. apply straight_all; assumption. Qed.
Print Assumptions C73_straight.

(** REFUTED (smoothing works for every trajectory): with more neighbours than voxels (four by default, so every trajectory
    within three voxels) it raises IndexError, and with one neighbour TypeError. *)
Theorem C73_few_voxels_refuted : forall query eigh pts size k th vs, knn_contract vdist query ->
  create_voxels pts size = Ok vs -> (2 <= k)%nat -> (length vs < k)%nat ->
  mls_iterative query eigh pts size k th = Err IndexError /\ mls_iterative query eigh pts size 1 th = Err TypeError.
Proof.
  intros query eigh pts size k th vs KN V K L. unfold mls_iterative. cbn [mls_loop].
  rewrite (single_few query eigh KN pts size vs k V K L), (single_one query eigh pts size vs V). split; reflexivity.
Qed.
Print Assumptions C73_few_voxels_refuted.

Example C73_case : exists vs, create_voxels apart 1 = Ok vs /\ length vs = 2%nat /\
  Forall (on_line (mkLine (mkV3 0 0 0) (mkV3 1 0 0))) apart /\ (length vs < 4)%nat.
Proof.
  destruct C53_case as [vs [V [LC [_ NS]]]]. exists vs. split; [exact V|].
  destruct (C53_partition _ _ _ V) as [ND [PM [NE _]]].
  assert (length vs = 2%nat) as L.
  { destruct vs as [|[a ps] [|[b qs] [|[c rs] vs]]]; [| |reflexivity|].
    - cbn in PM. apply Permutation_nil in PM. discriminate.
    - exfalso. apply NS. cbn in PM. rewrite app_nil_r in PM. exists a, ps. split; [left; reflexivity|].
      split; apply (Permutation_in _ (Permutation_sym PM)); [left|right; left]; reflexivity.
    - exfalso. apply Permutation_length in PM. cbn [map snd concat] in PM. rewrite !app_length in PM. cbn [apart length] in PM.
      pose proof (NE a ps (or_introl eq_refl)). pose proof (NE b qs (or_intror (or_introl eq_refl))). pose proof (NE c rs (or_intror (or_intror (or_introl eq_refl)))).
      destruct ps, qs, rs; cbn in PM; try congruence; lia. }
  split; [exact L|]. split; [|lia]. repeat constructor.
  - exists 0. unfold vadd, vscale. cbn. f_equal; ring.
  - exists 10. unfold vadd, vscale. cbn. f_equal; ring.
Qed.
Print Assumptions C73_case.

(** * C51: piecewise cubics *)

(** The intervals partition the observations in order and are closed as early as possible; the interval limits are the first
    observations of the intervals and the last observation; there is a value and a slope for each of them; the fitted values
    are those of the cubics, and no other values and slopes give a smaller sum of squares. *)
Theorem C51_fit : forall solve f vals size mo ap, solve_contract solve -> cubic_approx solve f vals size mo = Ok ap ->
  exists ps, concat (map p_obs ps) = f /\ pieces_of size mo ps /\
    (forall qs, pieces_of size mo qs -> concat (map p_obs qs) = f -> qs = ps) /\
    Forall (fun p => p_obs p <> [] /\ (mo <= length (p_obs p))%nat) ps /\
    interval_steps ap = map p_first ps ++ [last f 0] /\
    length (parameters ap) = (2 * length ps + 2)%nat /\
    est_obs ap = fitted (parameters ap) ps /\ length (est_obs ap) = length vals /\ residuals ap = vminus (est_obs ap) vals /\
    (forall y, length y = (2 * length ps + 2)%nat -> sum_square (residuals ap) <= sum_square (vminus (fitted y ps) vals)).
Proof.
  intros solve f vals size mo ap SC H. destruct (cubic_approx_spec solve f vals size mo ap SC H) as [ps [C [P [ST [LP [NZ [ES [LE [ER [OPT _]]]]]]]]]].
  exists ps. split; [exact C|]. split; [exact P|]. split; [intros qs Q E; apply (pieces_unique size mo); [exact Q|exact P|congruence]|].
  split.
  { clear - P. induction P as [p N L O S|p l m E NL NM [[C _] _] L S|p ps N [[C _] _] S H IH]; repeat constructor; try assumption.
    - rewrite E. destruct l; [congruence|discriminate].
    - rewrite E, app_length. lia. }
  repeat (split; [assumption|]). exact OPT.
Qed.
Print Assumptions C51_fit.

(** For increasing positions the intervals are found whenever there are min_obs >= 2 observations and the size is positive. *)
Theorem C51_total : forall f size mo, StronglySorted Rlt f -> (2 <= mo)%nat -> (mo <= length f)%nat -> 0 < size ->
  exists steps s, cubic_fit f size mo = Ok (steps, s).
Proof. exact fit_total. Qed.
Print Assumptions C51_total.

(** Fewer than min_obs observations always raise IndexError. *)
Theorem C51_few : forall solve f vals size mo, size <> 0 -> (length f < mo)%nat -> cubic_approx solve f vals size mo = Err IndexError.
Proof.
  intros solve f vals size mo NZ L. unfold cubic_approx, cubic_fit. destruct f as [|f0 f']; [reflexivity|]. set (f := f0 :: f') in *.
  assert (np_get f 0 = Ok f0) as -> by reflexivity. cbn [bind]. set (v := map (fun x => x - f0) f). assert (v <> []) as NV by discriminate.
  rewrite (np_get_minus1 v NV). destruct (nth_error v (length v - 1)) as [la|] eqn:LA; [|apply nth_error_None in LA; cbn in LA; lia]. cbn [bind].
  unfold Reqb. destruct (Req_EM_T size 0); [contradiction|]. destruct (length _ =? 0)%nat; [reflexivity|].
  rewrite loop_few; [reflexivity|exact NV|unfold v; rewrite map_length; exact L].
Qed.
Print Assumptions C51_few.

(** The basis functions: the cubic of an interval has the node values and the node slopes at its ends. *)
Theorem C51_basis : forall x a b c f0 d0 f1 d1, compute_c x a b = Ok c ->
  f0 * cf0 c + d0 * cf1 c + f1 * cf2 c + d1 * cf3 c = hermite a b f0 d0 f1 d1 x /\
  hermite a b f0 d0 f1 d1 a = f0 /\ hermite a b f0 d0 f1 d1 b = f1 /\
  derivable_pt_lim (hermite a b f0 d0 f1 d1) a d0 /\ derivable_pt_lim (hermite a b f0 d0 f1 d1) b d1.
Proof.
  intros x a b c f0 d0 f1 d1 H. destruct (compute_c_hermite x a b c f0 d0 f1 d1 H) as [N E].
  destruct (hermite_end a b f0 d0 f1 d1 N) as [E1 E2]. destruct (hermite_slopes a b f0 d0 f1 d1 N) as [S1 S2]. auto.
Qed.
Print Assumptions C51_basis.

(** Evaluation of an approximation of increasing positions, anywhere between the first and the last position. *)
Theorem C51_eval : forall solve f vals size mo ap locs, solve_contract solve -> cubic_approx solve f vals size mo = Ok ap ->
  StronglySorted Rlt f -> locs <> [] -> Forall (fun x => hd 0 f <= x <= last f 0) locs ->
  exists out, cubic_eval ap locs = Ok out /\ Forall2 (curve_value (interval_steps ap) (parameters ap)) locs out.
Proof.
  intros solve f vals size mo ap locs SC H SO N F.
  destruct (cubic_approx_spec solve f vals size mo ap SC H) as [ps [C [P [ST [LP [NZ _]]]]]].
  pose proof (steps_sorted size mo ps P NZ) as SS. rewrite C in SS. specialize (SS SO). rewrite <- ST in SS.
  assert (length (interval_steps ap) = (length ps + 1)%nat) as LS by (rewrite ST, app_length, map_length; reflexivity).
  pose proof (pieces_obs size mo ps P) as [NO NP].
  destruct ps as [|p ps]; [congruence|]. cbn [length] in LS, LP.
  apply (eval_spec ap locs (hd 0 f) (last f 0) SS); [lia|lia| | |exact N|exact F].
  - rewrite ST. cbn. f_equal. unfold p_first. rewrite <- C. cbn. apply Forall_inv in NO. destruct (p_obs p); [congruence|reflexivity].
  - rewrite ST, app_length, map_length. cbn [length]. rewrite nth_error_app2 by (rewrite map_length; cbn; lia). rewrite map_length. cbn [length].
    replace (S (length ps) + 1 - 1 - S (length ps))%nat with 0%nat by lia. reflexivity.
Qed.
Print Assumptions C51_eval.

(** In particular the node values are reached at the interval limits. *)
Theorem C51_nodes : forall solve f vals size mo ap k x, solve_contract solve -> cubic_approx solve f vals size mo = Ok ap ->
  StronglySorted Rlt f -> nth_error (interval_steps ap) k = Some x ->
  exists y, cubic_eval ap [x] = Ok [y] /\ nth_error (parameters ap) (2 * k) = Some y.
Proof.
  intros solve f vals size mo ap k x SC H SO X.
  destruct (cubic_approx_spec solve f vals size mo ap SC H) as [ps [C [P [ST [LP [NZ _]]]]]].
  pose proof (steps_sorted size mo ps P NZ) as SS. rewrite C in SS. specialize (SS SO).
  pose proof (pieces_enough size mo ps P) as [_ NE]. rewrite C in NE.
  assert (hd 0 f <= x <= last f 0) as B.
  { assert (In x f) as I.
    { apply nth_error_In in X. rewrite ST in X. apply in_app_iff in X as [X|[<-|[]]]; [|apply last_in, NE].
      apply in_map_iff in X as [p [<- X]]. rewrite <- C. apply in_concat. exists (p_obs p). split; [apply in_map, X|].
      pose proof (pieces_obs size mo ps P) as [NO _]. rewrite Forall_forall in NO. apply hd_in, NO, X. }
    split; [apply hd_least; assumption|]. destruct (@exists_last _ f NE) as [f' [z E]]. rewrite E, last_snoc.
    rewrite E in SO, I. destruct (sorted_app _ _ SO) as [_ [_ LT]]. apply in_app_iff in I as [I|[<-|[]]]; [|lra]. left. apply LT; [exact I|left; reflexivity]. }
  destruct (C51_eval solve f vals size mo ap [x] SC H SO) as [out [E V]]; [discriminate|constructor; [exact B|constructor]|].
  inversion V as [|? y ? o CV V']; subst. inversion V'; subst. exists y. split; [exact E|]. rewrite <- ST in SS.
  assert (forall i j a, nth_error (interval_steps ap) i = Some a -> nth_error (interval_steps ap) j = Some a -> i = j) as INJ.
  { intros i j a I J. destruct (Nat.lt_trichotomy i j) as [L|[L|L]]; [|exact L|].
    - pose proof (sorted_nth _ SS i j a a L I J). lra.
    - pose proof (sorted_nth _ SS j i a a L J I). lra. }
  destruct CV as [[X0 Y0]|[m [a [b [f0 [d0 [f1 [d1 [A [B' [[AX XB] [F0 [D0 [F1 [D1 ->]]]]]]]]]]]]]]].
  - rewrite (INJ k 0%nat x X X0). exact Y0.
  - assert (k = S m) as ->.
    { destruct (Nat.lt_trichotomy k (S m)) as [L|[L|L]]; [|exact L|].
      - destruct (Nat.eq_dec k m) as [->|NM]; [rewrite A in X; injection X as ->; lra|].
        pose proof (sorted_nth _ SS k m x a ltac:(lia) X A). lra.
      - pose proof (sorted_nth _ SS (S m) k b x L B' X). lra. }
    assert (x = b) as -> by congruence. rewrite (proj1 (hermite_end a b f0 d0 f1 d1 ltac:(lra))).
    replace (2 * S m)%nat with (2 * m + 2)%nat by lia. exact F1.
Qed.
Print Assumptions C51_nodes.

(** REFUTED: the cubic of an interval need not start at the interval limit.  Five observations with an interval of four and
    one observation left: evaluation at the first position gives the fitted value of the fourth observation. *)
Theorem C51_merged_refuted : forall solve vals ap, solve_contract solve -> cubic_approx solve [0; 1; 2; 3; 4] vals 3 4 = Ok ap ->
  interval_steps ap = [0; 4] /\ exists y, cubic_eval ap [0] = Ok [y] /\ nth_error (est_obs ap) 3 = Some y.
Proof.
  intros solve vals ap SC H. destruct (cubic_approx_spec _ _ _ _ _ _ SC H) as [ps [C [P [ST [LP [NZ [ES _]]]]]]].
  assert (ps = [mkPiece 3 [0; 1; 2; 3; 4]]) as ->.
  { apply (pieces_unique 3 4); [exact P| |exact C].
    apply pieces_merged with [0; 1; 2; 3] [4]; try reflexivity; try discriminate; [|cbn; lia].
    split; [split; [cbn; lia|cbn; lra]|apply short_open; cbn; lia]. }
  split; [rewrite ST; reflexivity|].
  destruct (C51_nodes solve [0; 1; 2; 3; 4] vals 3 4 ap 0 0 SC H) as [y [E Y]].
  - apply increasing_sorted. repeat (constructor; [|constructor; lra]). constructor; constructor.
  - rewrite ST. reflexivity.
  - exists y. split; [exact E|]. rewrite ES. cbn in LP. destruct (parameters ap) as [|f0 [|d0 [|f1 [|d1 [|]]]]]; cbn in LP; try lia.
    cbn in Y. injection Y as <-. cbn. f_equal. apply hermite_end. unfold p_last. cbn. lra.
Qed.
Print Assumptions C51_merged_refuted.

Example C51_case : StronglySorted Rlt ex_f /\ (2 <= 4 <= length ex_f)%nat /\
  exists r, cubic_approx (candidate ex_params) ex_f ex_f 4 4 = Ok (mkApprox ex_params [0; 1; 3; 9/2; 9/2; 6; 8; 9] r [0; 5; 9]) /\
    solve_contract (candidate ex_params).
Proof.
  split; [apply increasing_sorted; unfold ex_f; repeat (constructor; [|constructor; lra]); constructor; constructor|].
  split; [cbn; lia|]. destruct ex_approx as [st [r [E ->]]]. exists r. split; [exact E|apply candidate_contract].
Qed.
Print Assumptions C51_case.

(** * C74: data the approximation reproduces *)

(** Constant data are reproduced exactly. *)
Theorem C74_constant : forall solve f c size mo ap, solve_contract solve ->
  cubic_approx solve f (repeat c (length f)) size mo = Ok ap -> est_obs ap = repeat c (length f).
Proof.
  intros solve f c size mo ap SC H. destruct (cubic_approx_spec _ _ _ _ _ _ SC H) as [ps [C [P [_ [_ [NZ [_ [_ [_ [_ EX]]]]]]]]]].
  apply (EX (concat (repeat [c; 0] (S (length ps))))).
  - assert (forall n, length (concat (repeat [c; 0] n)) = (2 * n)%nat) as G by (induction n as [|n IH]; [reflexivity|]; cbn; rewrite IH; lia).
    rewrite G. lia.
  - rewrite fitted_const by exact NZ. rewrite C. reflexivity.
Qed.
Print Assumptions C74_constant.

(** Data on one cubic polynomial are reproduced, if there is a single interval.  What is missing: several intervals. *)
Theorem C74_cubic_partial : forall solve f size mo ap a b c d, solve_contract solve ->
  cubic_approx solve f (map (cubic_poly a b c d) f) size mo = Ok ap -> length (interval_steps ap) = 2%nat ->
  est_obs ap = map (cubic_poly a b c d) f.
Proof.
  intros solve f size mo ap a b c d SC H L. destruct (cubic_approx_spec _ _ _ _ _ _ SC H) as [ps [C [P [ST [_ [NZ [_ [_ [_ [_ EX]]]]]]]]]].
  rewrite ST, app_length, map_length in L. cbn in L. destruct ps as [|p [|]]; cbn in L; try lia.
  cbn in C. rewrite app_nil_r in C. pose proof (Forall_inv NZ) as N. cbn beta in N. set (s := p_start p) in *. set (e := p_last p) in *.
  apply (EX [cubic_poly a b c d s; b + 2 * c * s + 3 * d * s ^ 2; cubic_poly a b c d e; b + 2 * c * e + 3 * d * e ^ 2]); [reflexivity|].
  cbn [fitted]. rewrite app_nil_r, C. fold s e. apply map_ext. intro x. symmetry. apply hermite_cubic, N.
Qed.
Print Assumptions C74_cubic_partial.

(** The last observation of an interval and the first one of the next interval always get the same fitted value, unless the
    next interval is the last one with observations added. *)
Theorem C74_joint : forall solve f vals size mo ap ps p q qs, solve_contract solve -> cubic_approx solve f vals size mo = Ok ap ->
  pieces_of size mo (ps ++ p :: q :: qs) -> concat (map p_obs (ps ++ p :: q :: qs)) = f -> p_start q = p_first q ->
  let i := length (concat (map p_obs (ps ++ [p]))) in
  exists y, nth_error (est_obs ap) (i - 1) = Some y /\ nth_error (est_obs ap) i = Some y /\ (0 < i)%nat.
Proof.
  intros solve f vals size mo ap ps p q qs SC H PC E SQ. destruct (cubic_approx_spec _ _ _ _ _ _ SC H) as [ps' [C [P [_ [LP [NZ [ES _]]]]]]].
  assert (ps' = ps ++ p :: q :: qs) as -> by (apply (pieces_unique size mo); [exact P|exact PC|congruence]).
  cbv zeta. rewrite ES. apply fitted_joint; [exact NZ|apply (pieces_obs size mo _ P)|exact SQ|exact LP].
Qed.
Print Assumptions C74_joint.

(** REFUTED: not even a straight line sampled at eight positions is reproduced when there are two intervals; and the
    evaluation of the approximation at an observation differs from its fitted value. *)
Theorem C74_line_refuted :
  (forall solve ap, solve_contract solve -> cubic_approx solve ex_f ex_f 4 4 = Ok ap -> est_obs ap <> ex_f) /\
  exists solve ap y, solve_contract solve /\ cubic_approx solve ex_f ex_f 4 4 = Ok ap /\
    cubic_eval ap [4] = Ok [y] /\ nth_error (est_obs ap) 3 <> Some y.
Proof.
  split.
  - intros solve ap SC H E.
    destruct (C74_joint solve ex_f ex_f 4 4 ap [] (mkPiece 0 [0; 1; 3; 4]) (mkPiece 5 [5; 6; 8; 9]) [] SC H ex_pieces_ok eq_refl eq_refl) as [y [Y1 [Y2 _]]].
    rewrite E in Y1, Y2. cbn in Y1, Y2. injection Y1 as <-. injection Y2 as Y2. lra.
  - destruct C51_case as [SO [_ [r [E SC]]]].
    destruct (C51_eval _ _ _ _ _ _ [4] SC E SO) as [out [EV V]]; [discriminate|constructor; [cbn; lra|constructor]|].
    inversion V as [|? y ? o CV V']; subst. inversion V'; subst. eexists. eexists. exists y. split; [exact SC|]. split; [exact E|]. split; [exact EV|].
    cbn [est_obs]. cbn [nth_error]. intro Q. injection Q as Q. cbn [interval_steps parameters] in CV.
    destruct CV as [[X0 _]|[m [a [b [f0 [d0 [f1 [d1 [A [B [[AX XB] [F0 [D0 [F1 [D1 Y]]]]]]]]]]]]]]].
    + cbn in X0. injection X0 as X0. lra.
    + destruct m as [|[|[|m]]]; cbn in A, B; try discriminate; injection A as <-; injection B as <-; [|lra].
      cbn in F0, D0, F1, D1. injection F0 as <-. injection D0 as <-. injection F1 as <-. injection D1 as <-.
      unfold hermite in Y. lra.
Qed.
Print Assumptions C74_line_refuted.

Example C74_case : pieces_of 4 4 ex_pieces /\ concat (map p_obs ex_pieces) = ex_f /\
  Forall (fun p => p_start p = p_first p) ex_pieces /\ cubic_poly 1 2 0 1 2 = 13.
Proof.
  split; [exact ex_pieces_ok|]. split; [reflexivity|]. split; [repeat constructor|]. unfold cubic_poly. ring.
Qed.
Print Assumptions C74_case.
