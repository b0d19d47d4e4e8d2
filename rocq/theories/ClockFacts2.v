(** Merging, matching and comparing under a change of clock. *)
From Verif Require Import Base BaseFacts VecFacts NumpyModel NumpyFacts TrajModel TrajFacts EvalModel EvalFacts ViewFacts MergeModel MatchModel MatchSpec MatchFacts GeomModel ClockSpec ClockFacts.

Lemma concat_map_map {A B} (f : A -> B) (l : list (list A)) : concat (map (map f) l) = map f (concat l).
Proof. induction l as [|a l IH]; cbn; [reflexivity|]. rewrite map_app, IH. reflexivity. Qed.

Lemma merge_nonempty {Q} argsort loc (qid : Q) pop l : l <> [] -> merge_trajectories argsort loc qid pop l =
  let! merged := new_traj loc (concat (map xyz l)) (pop (map epsg l)) (if existsb has_orientation l then Some (concat (map (rotations_or_identity qid) l)) else None)
                   (Some (concat (map tstamps l))) "Merged" None None SortTime in
  apply_index merged (IInt (map Z.of_nat (argsort (tstamps merged)))).
Proof. destruct l; [intro H; contradiction|reflexivity]. Qed.

Section Clock.
  Variables s d : R.
  Hypothesis S0 : 0 < s.
  Notation tm := (on_clock s d).
  Context {Q : Type}.
  Notation rt := (@retime Q s d).

  Lemma merge_retime argsort loc (qid : Q) pop l : comparison_sort argsort ->
    merge_trajectories argsort loc qid pop (map rt l) = rmap rt (merge_trajectories argsort loc qid pop l).
  Proof.
    intro CS. destruct l as [|t0 l0]; [reflexivity|]. assert (N1 : t0 :: l0 <> []) by discriminate. assert (N2 : map rt (t0 :: l0) <> []) by discriminate.
    revert N1 N2. generalize (t0 :: l0). intros l N1 N2. rewrite (merge_nonempty _ _ _ _ _ N1), (merge_nonempty _ _ _ _ _ N2). clear N1 N2.
    assert (E1 : map tstamps (map rt l) = map (map tm) (map tstamps l)) by (rewrite !map_map; reflexivity). assert (E2 : map epsg (map rt l) = map epsg l) by (rewrite map_map; reflexivity).
    assert (E3 : map xyz (map rt l) = map xyz l) by (rewrite map_map; reflexivity).
    assert (E4 : map (rotations_or_identity qid) (map rt l) = map (rotations_or_identity qid) l) by (rewrite map_map; reflexivity). rewrite E1, E2, E3, E4.
    replace (existsb has_orientation (map rt l)) with (existsb has_orientation l) by (clear; induction l as [|a l IH]; cbn; [reflexivity|]; rewrite <- IH; reflexivity).
    rewrite concat_map_map. assert (N := fun sp => new_retime s d loc (concat (map xyz l)) (pop (map epsg l)) (if existsb has_orientation l then Some (concat (map (rotations_or_identity qid) l)) else None) (concat (map tstamps l)) "Merged"%string None sp SortTime).
    specialize (N None). cbn [option_map] in N. rewrite N. clear N. destruct (new_traj _ _ _ _ _ _ _ _ _) as [m|]; cbn [rmap bind]; [|reflexivity].
    change (tstamps (rt m)) with (map tm (tstamps m)). rewrite CS by exact S0. apply index_retime.
  Qed.

  (** ** Matching *)
  Lemma bound_scaled m : bound (s * m) = option_map (Rmult s) (bound m).
  Proof. unfold bound. rewrite (scaled_zero s S0). destruct (Reqb m 0); reflexivity. Qed.
  Lemma temporal_retime query m (test ref : traj Q) : moves_along query ->
    match_temporal query (s * m) (rt test) (rt ref) = rmap (both rt) (match_temporal query m test ref).
  Proof.
    intro MV. unfold match_temporal. change (tstamps (rt ref)) with (map tm (tstamps ref)). change (tstamps (rt test)) with (map tm (tstamps test)).
    assert (K : kd_matcher query (map (fun x : R => (x, 0)) (map tm (tstamps ref))) (map (fun x : R => (x, 0)) (map tm (tstamps test))) (s * m)
              = kd_matcher query (map (fun x : R => (x, 0)) (tstamps ref)) (map (fun x : R => (x, 0)) (tstamps test)) m).
    { unfold kd_matcher. destruct (tstamps test) as [|t0 ts]; [reflexivity|].
      assert (HH : kd_hits query (map (fun x : R => (x, 0)) (map tm (tstamps ref))) (map (fun x : R => (x, 0)) (map tm (t0 :: ts))) (s * m)
                = kd_hits query (map (fun x : R => (x, 0)) (tstamps ref)) (map (fun x : R => (x, 0)) (t0 :: ts)) m).
      { unfold kd_hits. rewrite bound_scaled, !map_map, !enumerate_map, !flat_map_concat_map. f_equal. rewrite !map_map. apply map_ext. intros [i x]. cbn [fst snd].
        assert (E := MV s d (map (fun x : R => (x, 0)) (tstamps ref)) (bound m) 1%nat (x, 0) S0). cbn [fst snd] in E. unfold query1. rewrite map_map in E. cbn [fst snd] in E.
        rewrite E; [|intros r Hr; apply in_map_iff in Hr as [y [<- _]]; reflexivity|reflexivity].
        destruct (query (map (fun x : R => (x, 0)) (tstamps ref)) (bound m) 1%nat (x, 0)) as [|[[j w]|] l]; reflexivity. }
      change (map (fun x : R => (x, 0)) (map tm (t0 :: ts))) with ((tm t0, 0) :: map (fun x : R => (x, 0)) (map tm ts)) in HH.
      cbn [map] in *. rewrite HH. reflexivity. }
    rewrite K. clear K. destruct (kd_matcher _ _ _ _) as [ij|]; cbn [rmap bind]; [|reflexivity]. rewrite !index_retime.
    destruct (apply_index test _); cbn [rmap bind]; [|reflexivity]. destruct (apply_index ref _); reflexivity.
  Qed.
  Lemma spatial_retime query m (test ref : traj Q) : match_spatial query m (rt test) (rt ref) = rmap (both rt) (match_spatial query m test ref).
  Proof.
    unfold match_spatial. change (xyz (rt ref)) with (xyz ref). change (xyz (rt test)) with (xyz test). destruct (kd_matcher _ _ _ _) as [ij|]; cbn [rmap bind]; [|reflexivity].
    rewrite !index_retime. destruct (apply_index test _); cbn [rmap bind]; [|reflexivity]. destruct (apply_index ref _); reflexivity.
  Qed.

  (** ** Relative comparison *)
  Lemma arange_scaled e a b c : EvalModel.np_arange e (s * a) (s * b) (s * c) = rmap (map (Rmult s)) (EvalModel.np_arange e a b c).
  Proof.
    unfold EvalModel.np_arange. rewrite (scaled_zero s S0). unfold Reqb. destruct (Req_EM_T c 0) as [|N]; [reflexivity|]. cbn [rmap]. f_equal. rewrite map_map.
    replace ((s * b - s * a) / (s * c)) with ((b - a) / c) by (field; split; [exact N|lra]). apply map_ext. intro i. ring.
  Qed.
  Lemma arange_tm e a b c : EvalModel.np_arange e (tm a) (tm b) (s * c) = rmap (map tm) (EvalModel.np_arange e a b c).
  Proof.
    unfold EvalModel.np_arange. rewrite (scaled_zero s S0). unfold Reqb. destruct (Req_EM_T c 0) as [|N]; [reflexivity|]. cbn [rmap]. f_equal. rewrite map_map.
    rewrite tm_diff. replace (s * (b - a) / (s * c)) with ((b - a) / c) by (field; split; [exact N|lra]). apply map_ext. intro i. unfold on_clock. ring.
  Qed.
  Lemma pair_indices_tm l all x : get_pair_indices (map tm l) all (s * x) = get_pair_indices l all x.
  Proof.
    unfold get_pair_indices. destruct all.
    - f_equal. rewrite enumerate_map, filter_map, map_map. destruct l as [|a l]; [reflexivity|].
      assert (L : last (map tm (a :: l)) 0 = tm (last (a :: l) 0)).
      { clear. revert a. induction l as [|b l IH]; intro a; [reflexivity|]. change (last (map tm (b :: l)) 0 = tm (last (b :: l) 0)). apply IH. }
      rewrite L. rewrite (filter_ext _ (fun ia => Rltb (snd ia + x) (last (a :: l) 0))).
      + apply map_ext. intros [i y]. cbn [fst snd]. f_equal. replace (tm y + s * x) with (tm (y + x)) by (unfold on_clock; ring). apply (left_tm s d S0).
      + intros [i y]. cbn [fst snd]. replace (tm y + s * x) with (tm (y + x)) by (unfold on_clock; ring). apply (tm_ltb s d S0).
    - rewrite !get_tm. destruct (np_get l 0) as [a|]; cbn [rmap bind]; [|reflexivity]. destruct (np_get l (-1)) as [b|]; cbn [rmap bind]; [|reflexivity].
      rewrite arange_tm. destruct (EvalModel.np_arange _ a b x) as [st|]; cbn [rmap bind]; [|reflexivity]. do 2 f_equal. rewrite map_map. apply map_ext. intro. apply (left_tm s d S0).
  Qed.
  Lemma np_div_scaled x y : np_div x (s * y) = option_map (fun z => z / s) (np_div x y).
  Proof. unfold np_div. rewrite (scaled_zero s S0). unfold Reqb. destruct (Req_EM_T y 0) as [|N]; cbn; [reflexivity|]. f_equal. field. split; [exact N|lra]. Qed.
  Lemma compare_pair_tm ops (test ref : traj Q) l p : compare_pair ops (rt test) (rt ref) (map tm l) p = rmap (rescaled_entry s) (compare_pair ops test ref l p).
  Proof.
    unfold compare_pair. rewrite !get_tm. destruct (np_get l (Z.of_nat (snd p))) as [b|]; cbn [rmap bind]; [|reflexivity]. destruct (np_get l (Z.of_nat (fst p))) as [a|]; cbn [rmap bind]; [|reflexivity].
    rewrite tm_diff. change (has_orientation (rt ref)) with (has_orientation ref). change (has_orientation (rt test)) with (has_orientation test).
    change (se3 ops (rt ref)) with (se3 ops ref). change (se3 ops (rt test)) with (se3 ops test). change (xyz (rt ref)) with (xyz ref). change (xyz (rt test)) with (xyz test).
    destruct (has_orientation ref && has_orientation test)%bool; (do 4 (destruct (np_get _ _) in |- *; cbn [rmap bind]; [|reflexivity])); unfold rescaled_entry; cbn; rewrite !np_div_scaled; reflexivity.
  Qed.
  Lemma compare_pair_same ops (test ref : traj Q) l p : compare_pair ops (rt test) (rt ref) l p = compare_pair ops test ref l p.
  Proof. reflexivity. Qed.

  Lemma relative_time ops (test ref : traj Q) c : pair_distance_unit c = U_SECOND ->
    compare_relative ops (rt test) (rt ref) (rescaled s c) = rmap (rescaled_rpe s) (compare_relative ops test ref c).
  Proof.
    intro U. unfold compare_relative, rescaled. cbn [pair_min_distance pair_max_distance pair_distance_step pair_distance_unit use_all_pose_pairs]. rewrite (scaled_ltb s S0), U.
    destruct (Rltb _ _); [reflexivity|]. rewrite <- Rmult_plus_distr_l, arange_scaled. destruct (EvalModel.np_arange _ _ _ _) as [pd|]; cbn [rmap bind]; [|reflexivity].
    cbn [pair_distances bind]. change (tstamps (rt ref)) with (map tm (tstamps ref)). rewrite mapM_map.
    set (F := fun pair_dist : R => let! pair_indices := get_pair_indices (tstamps ref) (use_all_pose_pairs c) pair_dist in
                let! entries := mapM (compare_pair ops test ref (tstamps ref)) pair_indices in Ok (pair_dist, entries)).
    rewrite (mapM_ext_in _ (fun x => rmap (fun b => (s * fst b, map (rescaled_entry s) (snd b))) (F x))).
    2:{ intros x _. unfold F. rewrite pair_indices_tm. destruct (get_pair_indices _ _ x) as [pi|]; cbn [rmap bind]; [|reflexivity].
        rewrite (mapM_ext_in _ (fun p => rmap (rescaled_entry s) (compare_pair ops test ref (tstamps ref) p))) by (intros p _; apply compare_pair_tm).
        rewrite mapM_rmap. destruct (mapM _ pi); reflexivity. }
    rewrite mapM_rmap. destruct (mapM F pd) as [bl|]; cbn [rmap bind]; [|reflexivity].
    replace (forallb (fun b : R * list pair_entry => (length (snd b) =? 0)%nat) (map (fun b => (s * fst b, map (rescaled_entry s) (snd b))) bl))
      with (forallb (fun b : R * list pair_entry => (length (snd b) =? 0)%nat) bl)
      by (induction bl as [|[k es] bl IH]; cbn; [reflexivity|]; rewrite map_length, IH; reflexivity).
    destruct (forallb _ bl); reflexivity.
  Qed.
  Lemma relative_other ops (test ref : traj Q) c : pair_distance_unit c <> U_SECOND -> compare_relative ops (rt test) (rt ref) c = compare_relative ops test ref c.
  Proof.
    intro U. unfold compare_relative. destruct (Rltb _ _); [reflexivity|]. destruct (EvalModel.np_arange _ _ _ _) as [pd|]; cbn [rmap bind]; [|reflexivity].
    replace (pair_distances (rt ref) (pair_distance_unit c)) with (pair_distances ref (pair_distance_unit c)) by (destruct (pair_distance_unit c); try reflexivity; contradiction).
    reflexivity.
  Qed.
End Clock.

(** ** The origin alone *)
Lemma delayed_is {Q} d (t : traj Q) : delayed d t = retime 1 d t.
Proof.
  unfold delayed, retime, set_tstamps. f_equal.
  - apply map_ext. intro x. unfold on_clock. ring.
  - rewrite <- (map_id (speed t)) at 1. apply map_ext. intro v. apply V3_eq; cbn; field.
Qed.
Lemma later_is d l : map (fun x => x + d) l = map (on_clock 1 d) l.
Proof. apply map_ext. intro x. unfold on_clock. ring. Qed.
Lemma rmap_ext {A B} (f g : A -> B) r : (forall a, f a = g a) -> rmap f r = rmap g r.
Proof. intro H. destruct r; cbn; rewrite ?H; reflexivity. Qed.
Lemma both_ext {A B} (f g : A -> B) p : (forall a, f a = g a) -> both f p = both g p.
Proof. intro H. unfold both. rewrite !H. reflexivity. Qed.

Section Delay.
  Variable d : R.
  Context {Q : Type}.
  Implicit Types t test ref gt est : traj Q.
  Notation late := (map (fun x => x + d)).

  Lemma index_delayed t ix : apply_index (delayed d t) ix = rmap (delayed d) (apply_index t ix).
  Proof. rewrite delayed_is, index_retime. apply rmap_ext. intro. symmetry. apply delayed_is. Qed.
  Lemma crop_delayed t a b inv : crop (delayed d t) (a + d) (b + d) inv = rmap (delayed d) (crop t a b inv).
  Proof.
    rewrite delayed_is. replace (a + d) with (on_clock 1 d a) by (unfold on_clock; ring). replace (b + d) with (on_clock 1 d b) by (unfold on_clock; ring).
    rewrite crop_retime by lra. apply rmap_ext. intro. symmetry. apply delayed_is.
  Qed.
  Lemma intersect_delayed t ts g : intersect (delayed d t) (late ts) g = rmap (delayed d) (intersect t ts g).
  Proof.
    rewrite delayed_is, later_is. replace g with (1 * g) at 1 by ring. rewrite intersect_retime by lra. apply rmap_ext. intro. symmetry. apply delayed_is.
  Qed.
  Lemma interpolate_delayed seg t ts : interpolate seg (delayed d t) (late ts) = rmap (delayed d) (interpolate seg t ts).
  Proof. rewrite delayed_is, later_is, interpolate_retime by lra. apply rmap_ext. intro. symmetry. apply delayed_is. Qed.

  Lemma interpolation_delayed seg test ref : match_interpolation seg (delayed d test) (delayed d ref) = rmap (both (delayed d)) (match_interpolation seg test ref).
  Proof.
    unfold match_interpolation. change (tstamps (delayed d ref)) with (late (tstamps ref)). rewrite intersect_delayed. destruct (intersect test (tstamps ref) 2) as [t1|]; cbn [rmap bind]; [|reflexivity].
    change (tstamps (delayed d t1)) with (late (tstamps t1)). rewrite intersect_delayed. destruct (intersect ref (tstamps t1) 2) as [r1|]; cbn [rmap bind]; [|reflexivity].
    change (tstamps (delayed d r1)) with (late (tstamps r1)). rewrite interpolate_delayed. destruct (interpolate seg t1 (tstamps r1)) as [t2|]; cbn [rmap bind]; reflexivity.
  Qed.
  Lemma temporal_delayed query m test ref : moves_along query -> match_temporal query m (delayed d test) (delayed d ref) = rmap (both (delayed d)) (match_temporal query m test ref).
  Proof.
    intro MV. rewrite !delayed_is. replace m with (1 * m) at 1 by ring. rewrite temporal_retime by (lra || exact MV). apply rmap_ext. intro. apply both_ext. intro. symmetry. apply delayed_is.
  Qed.
  Lemma spatial_delayed query m test ref : match_spatial query m (delayed d test) (delayed d ref) = rmap (both (delayed d)) (match_spatial query m test ref).
  Proof. rewrite !delayed_is, spatial_retime. apply rmap_ext. intro. apply both_ext. intro. symmetry. apply delayed_is. Qed.

  Lemma match_delayed query2 query3 seg eigh loc s test ref : moves_along query2 ->
    match_trajectories query2 query3 seg eigh loc s (delayed d test) (delayed d ref)
    = rmap (fun r => (both (delayed d) (fst r), match m_method s with NearestSpatialInterpolated => snd r | _ => both (delayed d) (snd r) end))
           (match_trajectories query2 query3 seg eigh loc s test ref).
  Proof.
    intro MV. unfold match_trajectories. destruct (m_method s).
    - rewrite spatial_delayed. destruct (match_spatial _ _ _ _); reflexivity.
    - rewrite temporal_delayed by exact MV. destruct (match_temporal _ _ _ _); reflexivity.
    - rewrite interpolation_delayed. destruct (match_interpolation _ _ _); reflexivity.
    - change (match_spatial_interpolation query3 eigh loc (max_distance s) (k_nearest s) (delayed d test) (delayed d ref)) with (match_spatial_interpolation query3 eigh loc (max_distance s) (k_nearest s) test ref).
      destruct (match_spatial_interpolation _ _ _ _ _ _ _); reflexivity.
    - reflexivity.
  Qed.
  Lemma compared_delayed query2 query3 seg eigh loc s gt est : moves_along query2 ->
    compared_by_metrics query2 query3 seg eigh loc s (delayed d gt) (delayed d est) = rmap (both (delayed d)) (compared_by_metrics query2 query3 seg eigh loc s gt est).
  Proof. intro MV. unfold compared_by_metrics. rewrite match_delayed by exact MV. destruct (match_trajectories _ _ _ _ _ _ _ _); reflexivity. Qed.

  Lemma rescaled_one c : rescaled 1 c = c.
  Proof. destruct c. unfold rescaled. cbn. rewrite !Rmult_1_l. reflexivity. Qed.
  Lemma rescaled_rpe_one r : rescaled_rpe 1 r = r.
  Proof.
    destruct r as [n ps u]. unfold rescaled_rpe. cbn. f_equal. rewrite <- (map_id ps) at 2. apply map_ext. intros [k es]. cbn. rewrite Rmult_1_l. f_equal.
    rewrite <- (map_id es) at 2. apply map_ext. intros [a b x]. unfold rescaled_entry. cbn. rewrite Rmult_1_l. f_equal.
    - destruct a; cbn; [|reflexivity]. f_equal. field.
    - destruct b as [[b|]|]; cbn; try reflexivity. do 2 f_equal. field.
  Qed.
  Lemma relative_delayed ops test ref c : compare_relative ops (delayed d test) (delayed d ref) c = compare_relative ops test ref c.
  Proof.
    rewrite !delayed_is. destruct (pair_distance_unit c) eqn:U; try (apply relative_other; congruence).
    rewrite <- (rescaled_one c) at 1. rewrite relative_time by (lra || exact U). destruct (compare_relative ops test ref c); cbn; [|reflexivity]. rewrite rescaled_rpe_one. reflexivity.
  Qed.
End Delay.
