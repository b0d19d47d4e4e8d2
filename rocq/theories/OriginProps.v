(** C165: origin and unit of the argument of an approximation. *)
From Coq Require Import Permutation Sorting.
From Verif Require Import Base BaseFacts VecFacts NumpyModel NumpyFacts TrajModel TrajSpec TrajFacts GeomModel GeomFacts LsqModel LsqSpec LsqFacts LsqProps MatchModel MatchSpec ApproxModel ApproxSpec ApproxFacts ApproxFacts2 ApproxFacts3
  ApproxFacts4 ApproxFacts5 ApproxFacts6 ApproxFacts7 ApproxFacts8 ApproxProps SolveSpec SolveFacts ClockSpec ClockFacts3 FitSpec FitProps OriginSpec.

Lemma get_map {A B} (g : A -> B) l i : np_get (map g l) i = rmap g (np_get l i).
Proof. unfold np_get. rewrite map_length. destruct (py_index (length l) i) as [k|]; [|reflexivity]. rewrite nth_error_map'. destruct (nth_error l k); reflexivity. Qed.

Lemma fit_origin f size mo d : cubic_fit (map (fun x => x + d) f) size mo = rmap (fun p => (map (fun x => x + d) (fst p), snd p)) (cubic_fit f size mo).
Proof.
  unfold cubic_fit. rewrite get_map. destruct (np_get f 0) as [f0|e]; [|reflexivity]. cbn [rmap bind]. rewrite map_map.
  assert (E : map (fun x => x + d - (f0 + d)) f = map (fun x => x - f0) f) by (apply map_ext; intro x; ring). rewrite E.
  destruct (np_get _ (-1)) as [la|e]; [|reflexivity]. cbn [bind]. destruct (Reqb size 0); [reflexivity|]. destruct (_ =? 0)%nat; [reflexivity|].
  destruct (cubic_loop _ _ _ _ _ _) as [s|e]; [|reflexivity]. cbn [bind rmap fst snd]. f_equal. f_equal. rewrite map_map. apply map_ext. intro x. ring.
Qed.

(** Another origin moves the nodes and nothing else, for every solver, also in case of failure. *)
Theorem C165_origin : forall solve f vals size mo d, cubic_approx solve (map (fun x => x + d) f) vals size mo = rmap (nodes_moved d) (cubic_approx solve f vals size mo).
Proof.
  intros. unfold cubic_approx. rewrite fit_origin. destruct (cubic_fit f size mo) as [[steps s]|e]; [|reflexivity]. cbn [rmap bind fst snd].
  destruct (sparse_least_squares _ _ _ _) as [[[x l] v]|e]; [|reflexivity]. reflexivity.
Qed.
Print Assumptions C165_origin.

Lemma piecewise_origin solve f vals size mo d : piecewise_cubic solve (map (fun x => x + d) f) vals size mo = piecewise_cubic solve f vals size mo.
Proof.
  unfold piecewise_cubic. rewrite !C165_origin. destruct (cubic_approx solve f (map vx vals) size mo) as [x|e]; [|reflexivity]. cbn [rmap bind].
  destruct (cubic_approx solve f (map vy vals) size mo) as [y|e]; [|reflexivity]. cbn [rmap bind]. destruct (cubic_approx solve f (map vz vals) size mo) as [z|e]; reflexivity.
Qed.

(** Another unit, with the interval size in the new unit, leaves the approximated values. *)
Definition stretch (s : R) (p : piece) : piece := mkPiece (s * p_start p) (map (Rmult s) (p_obs p)).
Lemma closed_stretch size mo s l : 0 < s -> l <> [] -> (closed_at (s * size) mo (map (Rmult s) l) <-> closed_at size mo l).
Proof.
  intros S N. unfold closed_at. rewrite map_length, hd_map, last_map by exact N. split; intros [A B]; split; try assumption; nra.
Qed.
Lemma open_stretch size mo s l : 0 < s -> open_before size mo l -> open_before (s * size) mo (map (Rmult s) l).
Proof.
  intros S O l' m N M E. apply map_split in E as [a [b [-> [-> ->]]]]. assert (a <> []) by (intros ->; apply N; reflexivity).
  rewrite closed_stretch by assumption. apply (O a b); [assumption| |reflexivity]. intros ->. apply M. reflexivity.
Qed.
Lemma first_stretch size mo s l : 0 < s -> l <> [] -> closed_first size mo l -> closed_first (s * size) mo (map (Rmult s) l).
Proof. intros S N [C O]. split; [apply closed_stretch; assumption|apply open_stretch; assumption]. Qed.
Lemma pieces_stretch size mo s ps : 0 < s -> pieces_of size mo ps -> pieces_of (s * size) mo (map (stretch s) ps).
Proof.
  intro SP. induction 1 as [p N L O S|p l m E NL NM C L S|p ps N C S H IH]; cbn [map].
  - apply pieces_last; cbn; [apply map_not_nil, N|rewrite map_length; exact L|apply open_stretch; assumption|].
    unfold p_first. cbn. rewrite hd_map, S by exact N. reflexivity.
  - apply pieces_merged with (map (Rmult s) l) (map (Rmult s) m); cbn.
    + rewrite E, map_app. reflexivity.
    + apply map_not_nil, NL.
    + apply map_not_nil, NM.
    + apply first_stretch; assumption.
    + rewrite map_length. exact L.
    + rewrite last_map, S by exact NL. reflexivity.
  - apply pieces_next; cbn; [apply map_not_nil, N|apply first_stretch; assumption| |exact IH].
    unfold p_first. cbn. rewrite hd_map, S by exact N. reflexivity.
Qed.

(** Values stay, slopes are multiplied. *)
Fixpoint slopes_times (s : R) (l : list R) : list R := match l with f :: d :: r => f :: s * d :: slopes_times s r | r => r end.
Lemma slopes_length s l : length (slopes_times s l) = length l.
Proof. induction l as [l IH] using (well_founded_induction (Wf_nat.well_founded_ltof _ (@length R))). destruct l as [|f [|d r]]; [reflexivity|reflexivity|]. cbn. rewrite IH; [reflexivity|]. unfold Wf_nat.ltof. cbn. lia. Qed.
Lemma slopes_inverse s l : s <> 0 -> slopes_times s (slopes_times (/ s) l) = l.
Proof.
  intro N. induction l as [l IH] using (well_founded_induction (Wf_nat.well_founded_ltof _ (@length R))). destruct l as [|f [|d r]]; [reflexivity|reflexivity|]. cbn.
  rewrite IH; [|unfold Wf_nat.ltof; cbn; lia]. f_equal. f_equal. field. exact N.
Qed.
Lemma hermite_stretch s a b f0 d0 f1 d1 x : s <> 0 -> b <> a -> hermite (s * a) (s * b) f0 d0 f1 d1 (s * x) = hermite a b f0 (s * d0) f1 (s * d1) x.
Proof.
  intros S N. unfold hermite. cbv zeta. assert (B : b - a <> 0) by lra. assert (D : s * b - s * a <> 0) by (replace (s * b - s * a) with (s * (b - a)) by ring; apply Rmult_integral_contrapositive_currified; assumption).
  replace ((s * x - s * a) / (s * b - s * a)) with ((x - a) / (b - a)) by (field; repeat split; assumption). ring.
Qed.
Lemma fitted_stretch s ps : s <> 0 -> Forall (fun p => p_obs p <> []) ps -> Forall (fun p => p_start p <> p_last p) ps -> forall y, fitted y (map (stretch s) ps) = fitted (slopes_times s y) ps.
Proof.
  intros S N Z. induction N as [|p ps NE N IH]; intro y; [reflexivity|]. inversion Z as [|? ? Z1 Z2]; subst. destruct y as [|f0 [|d0 [|f1 [|d1 rest]]]]; try reflexivity.
  cbn [map fitted slopes_times]. f_equal.
  - unfold stretch, p_last. cbn [p_start p_obs]. rewrite last_map, map_map by exact NE. apply map_ext. intro x. apply hermite_stretch; [exact S|]. unfold p_last in Z1. congruence.
  - exact (IH Z2 (f1 :: d1 :: rest)).
Qed.

Theorem C165_unit : forall solve f vals size mo s ap ap', solve_contract solve -> 0 < s -> cubic_approx solve f vals size mo = Ok ap -> cubic_approx solve (map (Rmult s) f) vals (s * size) mo = Ok ap' ->
  est_obs ap' = est_obs ap /\ residuals ap' = residuals ap /\ interval_steps ap' = map (Rmult s) (interval_steps ap).
Proof.
  intros solve f vals size mo s ap ap' SC SP H H'. assert (NZs : s <> 0) by lra.
  destruct (cubic_approx_spec _ _ _ _ _ _ SC H) as (ps & C & P & ST & LP & NZ & ES & LE & RE & OPT & _). destruct (cubic_approx_spec _ _ _ _ _ _ SC H') as (ps' & C' & P' & ST' & LP' & NZ' & ES' & LE' & RE' & OPT' & _).
  pose proof (pieces_obs size mo ps P) as [NO _].
  assert (EP : ps' = map (stretch s) ps).
  { apply (pieces_unique (s * size) mo _ P'); [apply pieces_stretch; assumption|]. rewrite C', map_map. rewrite <- C, concat_map, map_map. reflexivity. }
  subst ps'. rewrite map_length in *.
  assert (ST2 : interval_steps ap' = map (Rmult s) (interval_steps ap)).
  { rewrite ST', ST, map_app. cbn [map]. f_equal.
    - rewrite !map_map. apply map_ext_in. intros p I. rewrite Forall_forall in NO. unfold p_first, stretch. cbn. apply hd_map, NO, I.
    - f_equal. apply last_map. intros ->. destruct ps as [|p ps]; [inversion P|]. cbn in C. inversion NO as [|? ? N _]; subst. destruct (p_obs p); [congruence|discriminate]. }
  assert (EQ : est_obs ap' = est_obs ap); [|split; [exact EQ|split; [rewrite RE', RE, EQ; reflexivity|exact ST2]]].
  (* both fits are projections on the same values *)
  destruct (cubic_fit f size mo) as [[steps st]|e] eqn:F; [|unfold cubic_approx in H; rewrite F in H; discriminate].
  destruct (cubic_fit (map (Rmult s) f) (s * size) mo) as [[steps' st']|e] eqn:F'; [|unfold cubic_approx in H'; rewrite F' in H'; discriminate].
  destruct (cubic_projects solve f vals size mo ap steps st SC F H) as (FA & LA & PR & _). destruct (cubic_projects solve _ vals _ mo ap' steps' st' SC F' H') as (FA' & LA' & ((x' & LX' & EX') & LL' & OX') & _).
  destruct (cubic_fit_spec _ _ _ _ _ F) as (qs & QC & QP & _ & QL & _ & QF & _). destruct (cubic_fit_spec _ _ _ _ _ F') as (qs' & QC' & QP' & _ & QL' & _ & QF' & _).
  assert (qs = ps) by (apply (pieces_unique size mo _ QP _ P); congruence). subst qs. assert (qs' = map (stretch s) ps) by (apply (pieces_unique (s * size) mo _ QP' _ P'); congruence). subst qs'.
  rewrite map_length in QL'. rewrite <- rev_length in QL, QL'. rewrite QL in *. rewrite QL' in *.
  assert (D : forall y, length y = (2 * length ps + 2)%nat -> mv (design_matrix (rev (coefficients_rev st'))) y = mv (design_matrix (rev (coefficients_rev st))) (slopes_times s y)).
  { intros y LY. rewrite !design_fitted by (rewrite ?slopes_length; congruence). rewrite QF, QF'. apply fitted_stretch; assumption. }
  refine (projects_unique _ _ vals _ _ FA _ PR). split; [|split; [exact LL'|]].
  - exists (slopes_times s x'). split; [rewrite slopes_length; exact LX'|]. rewrite EX'. apply D, LX'.
  - intros y LY. assert (E : mv (design_matrix (rev (coefficients_rev st))) y = mv (design_matrix (rev (coefficients_rev st'))) (slopes_times (/ s) y)) by (rewrite D by (rewrite slopes_length; exact LY); rewrite slopes_inverse by exact NZs; reflexivity).
    rewrite E. apply OX'. rewrite slopes_length. exact LY.
Qed.
Print Assumptions C165_unit.

(** Whole trajectories: another origin of time only changes the time stamps of the smoothed trajectory, if it has no orientations or is sorted by arc length. *)
Theorem C165_trajectory_partial : forall (Q : Type) argsort solve win size mo d (t : traj Q), comparison_sort argsort -> (has_orientation t = false \/ srt t = SortArc) ->
  approximate argsort (fun f p => piecewise_cubic solve f p size mo) win (delayed d t) = rmap (delayed d) (approximate argsort (fun f p => piecewise_cubic solve f p size mo) win t).
Proof.
  intros Q argsort solve win size mo d t CS CASE. unfold approximate. set (t2 := delayed d t).
  assert (SI : sorting_index argsort t2 = sorting_index argsort t).
  { unfold sorting_index, t2, delayed. cbn [srt tstamps arc set_tstamps]. destruct (srt t); [|reflexivity]. rewrite <- (CS 1 d (tstamps t)) by lra. f_equal. apply map_ext. intro x. unfold on_clock. ring. }
  assert (SW : sort_switching_index argsort t2 = sort_switching_index argsort t) by (unfold sort_switching_index; rewrite SI; reflexivity).
  assert (XS : xyz_sorted argsort t2 = xyz_sorted argsort t) by (unfold xyz_sorted; rewrite SI; reflexivity). rewrite XS, SW.
  assert (QS : quat_sorted argsort t2 = quat_sorted argsort t) by (unfold quat_sorted; rewrite SI; reflexivity). rewrite QS.
  assert (HO : forall p', has_orientation (set_xyz p' t2) = has_orientation (set_xyz p' t)) by reflexivity.
  destruct CASE as [NO|SA].
  - assert (FO : function_of argsort t2 = match srt t with SortTime => rmap (map (fun x => x + d)) (function_of argsort t) | SortArc => function_of argsort t end).
    { unfold function_of. rewrite SI. unfold t2, delayed. cbn [srt tstamps arc set_tstamps]. destruct (srt t); [|reflexivity]. destruct (np_take (tstamps t) _) as [l|e] eqn:E; [apply take_map, E|]. cbn [rmap].
      assert (E2 := np_take_err _ _ _ E). subst e. destruct (np_take (map (fun x => x + d) (tstamps t)) _) as [l|e] eqn:E2; [|rewrite (np_take_err _ _ _ E2); reflexivity].
      exfalso. apply (take_map (fun x => x - d)) in E2. rewrite map_map in E2. replace (map (fun x => x + d - d) (tstamps t)) with (tstamps t) in E2 by (rewrite <- (map_id (tstamps t)) at 1; apply map_ext; intro x; ring). congruence. }
    rewrite FO. assert (FB : forall f, (let! p := xyz_sorted argsort t in let! pa := piecewise_cubic solve f p size mo in let! p' := np_take pa (map Z.of_nat (sort_switching_index argsort t)) in
       if negb (has_orientation (set_xyz p' t2)) then Ok (set_xyz p' t2) else let! q := quat_sorted argsort t in let! qa := win f q in let! q' := np_take qa (map Z.of_nat (sort_switching_index argsort t)) in Ok (set_rot (Some q') (set_xyz p' t2)))
       = rmap (delayed d) (let! p := xyz_sorted argsort t in let! pa := piecewise_cubic solve f p size mo in let! p' := np_take pa (map Z.of_nat (sort_switching_index argsort t)) in Ok (set_xyz p' t))).
    { intro f. destruct (xyz_sorted argsort t) as [p|e]; [|reflexivity]. cbn [bind]. destruct (piecewise_cubic solve f p size mo) as [pa|e]; [|reflexivity]. cbn [bind]. destruct (np_take pa _) as [p'|e]; [|reflexivity]. cbn [bind].
      rewrite HO. change (has_orientation (set_xyz p' t)) with (has_orientation t). rewrite NO. reflexivity. }
    assert (FB0 : forall f, (let! p := xyz_sorted argsort t in let! pa := piecewise_cubic solve f p size mo in let! p' := np_take pa (map Z.of_nat (sort_switching_index argsort t)) in
       if negb (has_orientation (set_xyz p' t)) then Ok (set_xyz p' t) else let! q := quat_sorted argsort t in let! qa := win f q in let! q' := np_take qa (map Z.of_nat (sort_switching_index argsort t)) in Ok (set_rot (Some q') (set_xyz p' t)))
       = (let! p := xyz_sorted argsort t in let! pa := piecewise_cubic solve f p size mo in let! p' := np_take pa (map Z.of_nat (sort_switching_index argsort t)) in Ok (set_xyz p' t))).
    { intro f. destruct (xyz_sorted argsort t) as [p|e]; [|reflexivity]. cbn [bind]. destruct (piecewise_cubic solve f p size mo) as [pa|e]; [|reflexivity]. cbn [bind]. destruct (np_take pa _) as [p'|e]; [|reflexivity]. cbn [bind].
      change (has_orientation (set_xyz p' t)) with (has_orientation t). rewrite NO. reflexivity. }
    destruct (function_of argsort t) as [f|e]; [|destruct (srt t); reflexivity]. cbn [rmap bind]. rewrite FB0. destruct (srt t); cbn [bind]; rewrite FB; [|reflexivity].
    destruct (xyz_sorted argsort t) as [p|e]; [|reflexivity]. cbn [bind]. rewrite piecewise_origin. reflexivity.
  - assert (FO : function_of argsort t2 = function_of argsort t) by (unfold function_of; rewrite SI; unfold t2, delayed; cbn [srt tstamps arc set_tstamps]; rewrite SA; reflexivity). rewrite FO.
    destruct (function_of argsort t) as [f|e]; [|reflexivity]. cbn [bind]. destruct (xyz_sorted argsort t) as [p|e]; [|reflexivity]. cbn [bind]. destruct (piecewise_cubic solve f p size mo) as [pa|e]; [|reflexivity]. cbn [bind].
    destruct (np_take pa _) as [p'|e]; [|reflexivity]. cbn [bind]. rewrite HO. destruct (negb _); [reflexivity|]. destruct (quat_sorted argsort t) as [q|e]; [|reflexivity]. cbn [bind].
    destruct (win f q) as [qa|e]; [|reflexivity]. cbn [bind]. destruct (np_take qa _) as [q'|e]; reflexivity.
Qed.
Print Assumptions C165_trajectory_partial.

(** Orientations: the unit does not matter, if the window is given in the new unit. *)
Theorem C165_window_unit : forall (A : Type) (mean : list A -> result A) zero f quat w s, s <> 0 -> w <> 0 -> rot_average_window mean zero (map (Rmult s) f) quat (s * w) = rot_average_window mean zero f quat w.
Proof.
  intros A mean zero f quat w s S W. assert (E : window_ext (map (Rmult s) f) (s * w) = window_ext f w).
  { unfold window_ext. rewrite map_map, map_length. replace (map (fun x => np_round (s * x / (s * w))) f) with (map (fun x => np_round (x / w)) f) by (apply map_ext; intro x; f_equal; field; auto). reflexivity. }
  unfold rot_average_window. rewrite E, map_length. reflexivity.
Qed.
Print Assumptions C165_window_unit.

(** REFUTED: the origin does.  Three orientations within less than a window are smoothed or not, depending on where they are on the clock. *)
Theorem C165_window_origin_refuted : exists f d quat r, rot_average_window average 0 f quat 1 = Ok quat /\ rot_average_window average 0 (map (fun x => x + d) f) quat 1 = Ok r /\ r <> quat.
Proof.
  exists [0; 2/5; 4/5], (3/5), [0; 3; 6], [0; 3/2; 3].
  assert (RD : forall x z, Rabs (x - IZR z) < 1/2 -> np_round x = z).
  { intros x z H. apply Rabs_def2 in H as [H1 H2]. unfold np_round. destruct (Rle_dec (IZR z) x) as [P|P].
    - assert (Int_part x = z) as -> by (apply floor_unique; lra). unfold Rltb. destruct (Rlt_dec (x - IZR z) (1/2)); [reflexivity|lra].
    - assert (Int_part x = (z - 1)%Z) as -> by (apply floor_unique; rewrite ?minus_IZR; lra). unfold Rltb. rewrite minus_IZR. destruct (Rlt_dec _ _); [lra|]. destruct (Rlt_dec _ _); [f_equal; lia|lra]. }
  assert (E0 : window_ext [0; 2/5; 4/5] 1 = Ok 0%nat).
  { unfold window_ext. cbn [map length]. rewrite (RD (0 / 1) 0%Z), (RD (2 / 5 / 1) 0%Z), (RD (4 / 5 / 1) 1%Z) by (unfold Rabs; destruct (Rcase_abs _); lra).
    change (distinct [0%Z; 0%Z; 1%Z]) with 2%nat. cbn [Nat.eqb]. rewrite <- (rndodd_unique (INR 3 / INR 2) 1%Z); [reflexivity|reflexivity|cbn; lra]. }
  assert (E1 : window_ext (map (fun x => x + 3/5) [0; 2/5; 4/5]) 1 = Ok 1%nat).
  { unfold window_ext. cbn [map length]. rewrite (RD ((0 + 3/5) / 1) 1%Z), (RD ((2 / 5 + 3/5) / 1) 1%Z), (RD ((4 / 5 + 3/5) / 1) 1%Z) by (unfold Rabs; destruct (Rcase_abs _); lra).
    change (distinct [1%Z; 1%Z; 1%Z]) with 1%nat. cbn [Nat.eqb]. rewrite <- (rndodd_unique (INR 3 / INR 1) 3%Z); [reflexivity|reflexivity|cbn; lra]. }
  unfold rot_average_window. rewrite E0, E1. cbn [bind Nat.eqb]. split; [reflexivity|]. split; [|intro H; injection H as H; lra].
  cbn. f_equal. repeat (apply (f_equal2 cons); [unfold np_sum; cbn; lra|]). reflexivity.
Qed.
Print Assumptions C165_window_origin_refuted.

(** The example of C162 in half the unit: all numbers of the argument, and the interval size, are doubled. *)
Definition ex_cs2 : list (list coeffs) :=
  [[mkCoeffs 1 0 0 0; mkCoeffs (27/32) (9/8) (5/32) (-3/8); mkCoeffs (5/32) (3/8) (27/32) (-9/8); mkCoeffs 0 0 1 0];
   [mkCoeffs 1 0 0 0; mkCoeffs (27/32) (9/8) (5/32) (-3/8); mkCoeffs (5/32) (3/8) (27/32) (-9/8); mkCoeffs 0 0 1 0]].
Lemma ex_fit2 : exists steps s, cubic_fit (map (Rmult 2) ex_f) (2 * 4) 4 = Ok (steps, s) /\ rev (coefficients_rev s) = ex_cs2.
Proof.
  destruct (fit_total (map (Rmult 2) ex_f) (2 * 4) 4) as [steps [s F]]; [|lia|cbn; lia|lra|].
  { apply increasing_sorted. unfold ex_f. cbn [map]. repeat (constructor; [|constructor; lra]). constructor; constructor. }
  exists steps, s. split; [exact F|]. destruct (cubic_fit_spec _ _ _ _ _ F) as [ps [C [P [ST [LC [NZ [FI G]]]]]]].
  assert (ps = map (stretch 2) ex_pieces) as -> by (apply (pieces_unique (2 * 4) 4); [exact P|apply pieces_stretch; [lra|exact ex_pieces_ok]|exact C]).
  inversion G as [|? c1 ? ? G1 G2]; subst. inversion G2 as [|? c2 ? ? G3 G4]; subst. inversion G4; subst. clear - G1 G3.
  assert (CC : forall x a b q, q = (x - a) / (b - a) -> b <> a -> compute_c x a b = Ok (mkCoeffs (1 - 3 * q ^ 2 + 2 * q ^ 3) ((b - a) * q * (1 - q) ^ 2) (3 * q ^ 2 - 2 * q ^ 3) ((b - a) * q * (q ^ 2 - q)))).
  { intros x a b q -> N. unfold compute_c, Reqb. destruct (Req_EM_T (b - a) 0); [lra|]. do 2 f_equal; field; lra. }
  unfold piece_coeffs, coefficients_for, ex_pieces, stretch in *. cbn [p_start p_obs last mapM map] in *.
  rewrite (CC (2 * 0) (2 * 0) (2 * 4) 0), (CC (2 * 1) (2 * 0) (2 * 4) (1/4)), (CC (2 * 3) (2 * 0) (2 * 4) (3/4)), (CC (2 * 4) (2 * 0) (2 * 4) 1) in G1 by lra.
  rewrite (CC (2 * 5) (2 * 5) (2 * 9) 0), (CC (2 * 6) (2 * 5) (2 * 9) (1/4)), (CC (2 * 8) (2 * 5) (2 * 9) (3/4)), (CC (2 * 9) (2 * 5) (2 * 9) 1) in G3 by lra.
  cbn [bind] in G1, G3. injection G1 as <-. injection G3 as <-. unfold ex_cs2.
  assert (MK : forall a b c d a' b' c' d', a = a' -> b = b' -> c = c' -> d = d' -> mkCoeffs a b c d = mkCoeffs a' b' c' d') by (intros; subst; reflexivity).
  repeat first [reflexivity | apply MK; field | apply (f_equal2 cons)].
Qed.
Lemma ex_total2 v : length v = 8%nat -> exists ap, cubic_approx gauss (map (Rmult 2) ex_f) v (2 * 4) 4 = Ok ap.
Proof.
  intro LV. destruct ex_fit2 as (steps & s & F & CS). unfold cubic_approx. rewrite F. cbn [bind]. rewrite CS. cbn [length ex_cs2]. change (2 * 2 + 2)%nat with 6%nat.
  set (A := design_matrix ex_cs2). assert (DM : A = [[1; 0; 0; 0; 0; 0]; [27/32; 9/8; 5/32; -3/8; 0; 0]; [5/32; 3/8; 27/32; -9/8; 0; 0]; [0; 0; 1; 0; 0; 0];
    [0; 0; 1; 0; 0; 0]; [0; 0; 27/32; 9/8; 5/32; -3/8]; [0; 0; 5/32; 3/8; 27/32; -9/8]; [0; 0; 0; 0; 1; 0]]) by reflexivity.
  unfold sparse_least_squares. assert (SH : shaped (length v) 6 A = true) by (rewrite LV, DM; reflexivity). rewrite SH. apply shaped_spec in SH as [LA FA].
  destruct (gauss_complete 6%nat (mm 6 (transpose 6 A) A) (mv (transpose 6 A) v)) as [x X]; [|rewrite mv_length; apply transpose_length|rewrite X; eexists; reflexivity].
  split.
  - split; [unfold mm; rewrite map_length; apply transpose_length|]. apply Forall_forall. intros r I. unfold mm in I. apply in_map_iff in I as (c & <- & _). rewrite map_length. apply transpose_length.
  - intros x LX K. rewrite mm_mv in K; [|exact FA|apply transpose_rows|exact LX].
    assert (Z : dot (mv A x) (mv A x) = 0).
    { rewrite <- (transpose_adjoint 6%nat A x (mv A x) FA LX (mv_length A x)). rewrite K. clear - LX. destruct x as [|a [|b [|c [|d [|e [|g [|]]]]]]]; cbn in LX; try lia. cbn. ring. }
    apply dot_self_zero in Z. rewrite DM in Z. destruct x as [|a [|b [|c [|d [|e [|g [|]]]]]]]; cbn in LX; try lia. cbn in Z.
    repeat match goal with H : Forall _ (_ :: _) |- _ => inversion H; subst; clear H end. cbn. repeat f_equal; lra.
Qed.

Example C165_case : solve_contract gauss /\ comparison_sort stable_argsort /\
  (exists ap ap', cubic_approx gauss ex_f ex_f 4 4 = Ok ap /\ cubic_approx gauss (map (Rmult 2) ex_f) ex_f (2 * 4) 4 = Ok ap' /\ est_obs ap' = [0; 1; 3; 9/2; 9/2; 6; 8; 9]) /\
  piecewise_cubic gauss (map (fun x => x + 100) ex_f) on_line 4 4 = Ok smoothed.
Proof.
  split; [exact gauss_contract|]. split; [exact ClockFacts3.stable_comparison|]. split.
  - destruct (ex_total ex_f eq_refl) as [ap X]. destruct (ex_total2 ex_f eq_refl) as [ap' X']. exists ap, ap'. split; [exact X|]. split; [exact X'|].
    destruct (C165_unit gauss ex_f ex_f 4 4 2 ap ap' gauss_contract ltac:(lra) X X') as (-> & _). destruct ex_fit as (steps & s & F & _).
    destruct (cubic_projects gauss _ _ _ _ _ _ _ gauss_contract F X) as (FA & _ & PX & _). destruct ex_approx as (st & r & E & _). destruct (cubic_projects _ _ _ _ _ _ _ _ (candidate_contract ex_params) F E) as (_ & _ & PE & _).
    exact (projects_unique _ _ _ _ _ FA PX PE).
  - rewrite piecewise_origin. apply C162_case.
Qed.
Print Assumptions C165_case.
