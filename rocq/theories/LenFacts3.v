(** Matching with fitted lines in another unit of length. *)
From Verif Require Import Base BaseFacts VecFacts NumpyModel NumpyFacts TrajModel TrajFacts EvalModel EvalFacts ViewFacts MatchModel MatchSpec MatchFacts GeomModel GeomSpec GeomFacts ClockSpec ClockFacts ClockFacts2 LenSpec LenFacts.

Section Len.
  Variable k : R.
  Hypothesis K0 : 0 < k.
  Notation sc := (map (vscale k)).
  Context {Q : Type}.
  Implicit Types test ref : traj Q.
  Notation en := (@enlarge Q k).
  Variable query2 : list (R * R) -> option R -> nat -> R * R -> list (option (nat * R)).
  Variable query3 : list V3 -> option R -> nat -> V3 -> list (option (nat * R)).
  Variable seg : Q -> Q -> R -> Q.
  Variable eigh : M3 -> V3.
  Variable loc : list V3 -> list V3.
  Hypothesis SQ : scales query3.
  Hypothesis UF : unit_free eigh.
  Hypothesis HL : forall l, loc (sc l) = sc (loc l).

  Lemma vsum_scaled l : vsum (sc l) = vscale k (vsum l).
  Proof. induction l as [|a l IH]; cbn; [apply V3_eq; cbn; ring|]. fold (vsum (sc l)). rewrite IH. apply vadd_scale. Qed.
  Lemma vmean_scaled l : vmean (sc l) = vscale k (vmean l).
  Proof. unfold vmean. rewrite vsum_scaled, map_length. apply V3_eq; cbn; ring. Qed.
  Lemma covariance_scaled l : covariance (sc l) = mscale (k * k) (covariance l).
  Proof.
    unfold covariance. rewrite vmean_scaled, map_length, map_map. set (c := vmean l). generalize (/ (INR (length l) - 1)). intro n.
    assert (E : msum (map (fun x => outer (vsub (vscale k x) (vscale k c)) (vsub (vscale k x) (vscale k c))) l) = mscale (k * k) (msum (map (fun p => outer (vsub p c) (vsub p c)) l))).
    { clearbody c. induction l as [|a l IH]; cbn [map msum fold_right]; [apply M3_eq; apply V3_eq; cbn; ring|]. unfold msum in IH. rewrite IH. apply M3_eq; apply V3_eq; cbn; ring. }
    rewrite E. apply M3_eq; apply V3_eq; cbn; ring.
  Qed.
  Lemma line_scaled l p : evaluate_at (from_points eigh (sc l)) (vscale k p) = vscale k (evaluate_at (from_points eigh l) p).
  Proof. unfold from_points. rewrite vmean_scaled, covariance_scaled, UF by exact K0. unfold evaluate_at. apply V3_eq; cbn; ring. Qed.
  Lemma np_take_scaled (l : list V3) ix : np_take (sc l) ix = rmap sc (np_take l ix).
  Proof. exact (np_index_map (vscale k) l (IInt ix)). Qed.

  Definition row_scaled (r : V3 * list (option (nat * R))) := (vscale k (fst r), map (option_map (fun c : nat * R => (fst c, k * snd c))) (snd r)).
  Lemma all_some_scaled l : all_some (map (option_map (fun c : nat * R => (fst c, k * snd c))) l) = option_map (map (fun c => (fst c, k * snd c))) (all_some l).
  Proof. induction l as [|[a|] l IH]; cbn; [reflexivity| |reflexivity]. rewrite IH. destruct (all_some l); reflexivity. Qed.
  Lemma line_matches_scaled (ref : list V3) rows : line_matches eigh (sc ref) (map row_scaled rows) = rmap (map (both (vscale k))) (line_matches eigh ref rows).
  Proof.
    induction rows as [|[p nn] rows IH]; [reflexivity|]. cbn [map row_scaled fst snd line_matches]. rewrite all_some_scaled. destruct (all_some nn) as [row|]; cbn [option_map]; [|exact IH].
    assert (F : map fst (map (fun c : nat * R => (fst c, k * snd c)) row) = map fst row) by (rewrite map_map; reflexivity). rewrite F. unfold neighbour_line. rewrite np_take_scaled. destruct (np_take ref (map Z.of_nat (map fst row))) as [pts|] eqn:E; cbn [rmap bind].
    - rewrite IH. clear IH. destruct (line_matches eigh ref rows); cbn [rmap bind]; [|reflexivity]. cbn [map both fst snd]. rewrite line_scaled. reflexivity.
    - reflexivity.
  Qed.
  Lemma all_missing_scaled rows :
    forallb (fun r : V3 * list (option (nat * R)) => forallb (fun o => match o with None => true | Some _ => false end) (snd r)) (map row_scaled rows)
    = forallb (fun r : V3 * list (option (nat * R)) => forallb (fun o => match o with None => true | Some _ => false end) (snd r)) rows.
  Proof.
    induction rows as [|[p nn] rows IH]; [reflexivity|]. cbn [map forallb]. rewrite IH. f_equal. cbn [row_scaled snd]. clear. induction nn as [|[a|] nn IH]; cbn; [reflexivity|reflexivity|exact IH].
  Qed.
  Lemma lines_enlarge m n test ref : match_spatial_interpolation query3 eigh loc (k * m) n (en test) (en ref) = rmap (both en) (match_spatial_interpolation query3 eigh loc m n test ref).
  Proof.
    unfold match_spatial_interpolation. cbn [xyz name enlarge]. rewrite (bound_scaled k K0), map_map.
    replace (map (fun x => (vscale k x, query3 (sc (xyz ref)) (option_map (Rmult k) (bound m)) n (vscale k x))) (xyz test))
      with (map row_scaled (map (fun p => (p, query3 (xyz ref) (bound m) n p)) (xyz test)))
      by (rewrite map_map; apply map_ext; intro p; unfold row_scaled; cbn [fst snd]; rewrite SQ by exact K0; reflexivity).
    rewrite all_missing_scaled. destruct (forallb _ _); [reflexivity|]. destruct (n =? 1)%nat; [reflexivity|]. rewrite line_matches_scaled.
    destruct (line_matches eigh (xyz ref) _) as [ms|]; cbn [rmap bind]; [|reflexivity]. destruct ms as [|x ms]; [reflexivity|]. cbn [map].
    change (both (vscale k) x :: map (both (vscale k)) ms) with (map (both (vscale k)) (x :: ms)). 
    assert (N := fun pos nm => new_enlarge k K0 (Q:=Q) loc pos 0%Z None None nm None None SortTime HL). cbn [option_map] in N.
    change (fst (both (vscale k) x) :: map fst (map (both (vscale k)) ms)) with (map fst (map (both (vscale k)) (x :: ms))). change (snd (both (vscale k) x) :: map snd (map (both (vscale k)) ms)) with (map snd (map (both (vscale k)) (x :: ms))).
    replace (map fst (map (both (vscale k)) (x :: ms))) with (sc (map fst (x :: ms))) by (rewrite !map_map; reflexivity).
    replace (map snd (map (both (vscale k)) (x :: ms))) with (sc (map snd (x :: ms))) by (rewrite !map_map; reflexivity).
    rewrite !N. cbn [map]. destruct (new_traj loc (fst x :: _) _ _ _ _ _ _ _); cbn [rmap bind]; [|reflexivity]. destruct (new_traj loc (snd x :: _) _ _ _ _ _ _ _); reflexivity.
  Qed.

  Lemma matching_enlarge m test ref :
    match_trajectories query2 query3 seg eigh loc (longer k m) (en test) (en ref) = rmap (both (both en)) (match_trajectories query2 query3 seg eigh loc m test ref).
  Proof.
    unfold match_trajectories, longer. cbn [m_method max_time_diff max_distance k_nearest]. destruct (m_method m); cbn [rmap].
    - rewrite (spatial_enlarge k K0) by exact SQ. destruct (match_spatial _ _ _ _); reflexivity.
    - rewrite temporal_enlarge. destruct (match_temporal _ _ _ _); reflexivity.
    - rewrite interpolation_enlarge. destruct (match_interpolation _ _ _); reflexivity.
    - rewrite lines_enlarge. destruct (match_spatial_interpolation _ _ _ _ _ _ _); reflexivity.
    - reflexivity.
  Qed.
  Lemma compared_enlarge m gt est :
    compared_by_metrics query2 query3 seg eigh loc (longer k m) (en gt) (en est) = rmap (both en) (compared_by_metrics query2 query3 seg eigh loc m gt est).
  Proof. unfold compared_by_metrics. rewrite matching_enlarge. destruct (match_trajectories _ _ _ _ _ _ _ _); reflexivity. Qed.
End Len.

(** A principal direction computed after dividing the matrix by its trace does not depend on the unit *)
Definition trace (m : M3) : R := vx (row1 m) + vy (row2 m) + vz (row3 m).
Definition by_trace (eigh : M3 -> V3) (m : M3) : V3 := eigh (mscale (/ trace m) m).
Lemma by_trace_free eigh : unit_free (by_trace eigh).
Proof.
  intros k m K0. unfold by_trace. f_equal. assert (T : trace (mscale (k * k) m) = k * k * trace m) by (unfold trace; cbn; ring). rewrite T, Rinv_mult.
  generalize (/ trace m). intro t. apply M3_eq; apply V3_eq; cbn; field; lra.
Qed.
Lemma by_trace_top eigh m : 0 < trace m -> top_direction (mscale (/ trace m) m) (eigh (mscale (/ trace m) m)) -> top_direction m (by_trace eigh m).
Proof.
  intros T H. unfold by_trace. destruct H as [U M]. split; [exact U|]. intros u V. specialize (M u V). set (d := eigh _) in *.
  assert (E : forall w, vdot w (mapply (mscale (/ trace m) m) w) = / trace m * vdot w (mapply m w)) by (intro w; generalize (/ trace m); intro; unfold vdot, mapply; cbn; unfold vdot; cbn; ring).
  rewrite !E in M. apply Rmult_le_reg_l with (/ trace m); [apply Rinv_0_lt_compat, T|exact M].
Qed.
