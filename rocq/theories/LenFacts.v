(** Trajectory operations, matching and comparison in another unit of length. *)
From Verif Require Import Base BaseFacts VecFacts NumpyModel NumpyFacts TrajModel TrajFacts EvalModel EvalFacts ViewFacts MergeModel MatchModel MatchSpec MatchFacts GeomModel GeomSpec GeomFacts ClockSpec ClockFacts ClockFacts2 ClockFacts3 LenSpec.

Section Len.
  Variable k : R.
  Hypothesis K0 : 0 < k.
  Notation sc := (map (vscale k)).

  Lemma vsub_scale a b : vsub (vscale k a) (vscale k b) = vscale k (vsub a b).
  Proof. v3; ring. Qed.
  Lemma vadd_scale a b : vadd (vscale k a) (vscale k b) = vscale k (vadd a b).
  Proof. v3; ring. Qed.
  Lemma norm_scale a : vnorm (vscale k a) = k * vnorm a.
  Proof. rewrite vnorm_scale, Rabs_right by lra. reflexivity. Qed.
  Lemma sqrt_scale x : sqrt (k * k * x) = k * sqrt x.
  Proof. rewrite sqrt_mult_alt by nra. rewrite sqrt_square by lra. reflexivity. Qed.

  (** ** Operations *)
  Context {Q : Type}.
  Implicit Types t test ref : traj Q.
  Notation en := (@enlarge Q k).

  Lemma index_enlarge t ix : apply_index (en t) ix = rmap en (apply_index t ix).
  Proof.
    unfold apply_index. cbn [tstamps xyz rot arc speed srt name epsg enlarge]. rewrite !np_index_map.
    destruct (np_index (tstamps t) ix); cbn [rmap bind]; [|reflexivity]. destruct (np_index (xyz t) ix); cbn [rmap bind]; [|reflexivity].
    destruct (match rot t with Some r => rmap Some (np_index r ix) | None => Ok None end); cbn [rmap bind]; [|reflexivity].
    destruct (np_index (arc t) ix); cbn [rmap bind]; [|reflexivity]. destruct (np_index (speed t) ix); cbn [rmap bind]; reflexivity.
  Qed.
  Lemma crop_enlarge t a b inv : crop (en t) a b inv = rmap en (crop t a b inv).
  Proof. unfold crop. apply index_enlarge. Qed.
  Lemma match_enlarge t ts : match_timestamps (en t) ts = rmap en (match_timestamps t ts).
  Proof. unfold match_timestamps. apply index_enlarge. Qed.
  Lemma intersect_enlarge t ts g : intersect (en t) ts g = rmap en (intersect t ts g).
  Proof.
    unfold intersect. change (tstamps (en t)) with (tstamps t). destruct (common_time_span ts (tstamps t)) as [[[a b]|]|]; cbn [rmap bind]; [|reflexivity|reflexivity].
    rewrite crop_enlarge. destruct (crop t a b false) as [c|]; cbn [rmap bind]; [|reflexivity]. change (tstamps (en c)) with (tstamps c).
    destruct (mapM _ _) as [keep|]; cbn [rmap bind]; [|reflexivity]. apply index_enlarge.
  Qed.

  Lemma interp_at_enlarge pts x : interp_at (map (fun p => (fst p, k * snd p)) pts) x = k * interp_at pts x.
  Proof.
    induction pts as [|[t v] rest IH]; [cbn; ring|]. destruct rest as [|[t' v'] rest]; [reflexivity|].
    cbn [map fst snd interp_at] in *. destruct (Rltb x t'); [|exact IH]. destruct (Rleb x t); [reflexivity|]. unfold Rdiv. ring.
  Qed.
  Lemma interp_enlarge x xp fp : np_interp x xp (map (Rmult k) fp) = rmap (map (Rmult k)) (np_interp x xp fp).
  Proof.
    unfold np_interp. rewrite map_length. destruct (_ =? _)%nat; [reflexivity|]. destruct (negb _); [reflexivity|]. cbn [rmap]. f_equal. rewrite map_map. apply map_ext. intro a.
    rewrite <- interp_at_enlarge. f_equal. clear. revert fp. induction xp as [|y xp IH]; intros [|v fp]; cbn; try reflexivity. rewrite IH. reflexivity.
  Qed.
  Lemma positions_enlarge t ts : interpolate_positions (en t) ts = rmap en (interpolate_positions t ts).
  Proof.
    unfold interpolate_positions. change (tstamps (en t)) with (tstamps t). change (xyz (en t)) with (sc (xyz t)).
    assert (C : forall f, (forall v, f (vscale k v) = k * f v) -> map f (sc (xyz t)) = map (Rmult k) (map f (xyz t))) by (intros f F; rewrite !map_map; apply map_ext; intro; apply F).
    rewrite (C vx), (C vy), (C vz) by reflexivity. rewrite !interp_enlarge.
    destruct (np_interp ts (tstamps t) (map vx (xyz t))) as [x|]; cbn [rmap bind]; [|reflexivity]. destruct (np_interp ts (tstamps t) (map vy (xyz t))) as [y|]; cbn [rmap bind]; [|reflexivity].
    destruct (np_interp ts (tstamps t) (map vz (xyz t))) as [z|]; cbn [rmap bind]; [|reflexivity]. f_equal. unfold enlarge, set_xyz. cbn. f_equal. rewrite map_map.
    clear. revert y z. induction x as [|a x IH]; intros [|b y] [|c z]; cbn; try reflexivity. rewrite IH. reflexivity.
  Qed.
  Lemma rotations_enlarge seg t ts : interpolate_rotations seg (en t) ts = rmap en (interpolate_rotations seg t ts).
  Proof.
    unfold interpolate_rotations. change (tstamps (en t)) with (tstamps t). change (rot (en t)) with (rot t). destruct (rot t); [|reflexivity]. destruct (_ =? _)%nat; [reflexivity|]. destruct (slerp _ _ _ _); reflexivity.
  Qed.
  Lemma broadcast_l {A A' B C C'} (f : A' -> B -> C') (g : A -> A') (h : C -> C') (f' : A -> B -> C) l m :
    (forall a b, f (g a) b = h (f' a b)) -> broadcast f (map g l) m = rmap (map h) (broadcast f' l m).
  Proof.
    intro H. unfold broadcast. rewrite map_length. destruct (length l =? length m)%nat.
    - cbn [rmap]. f_equal. rewrite map_map. revert m. induction l as [|a l IH]; intros [|b m]; cbn; try reflexivity. rewrite H, IH. reflexivity.
    - destruct l as [|a [|a' l]]; destruct m as [|b [|b' m]]; cbn; rewrite ?H, ?map_map; try reflexivity.
      all: do 2 apply f_equal; try (apply f_equal); apply map_ext; intro; apply H.
  Qed.
  Lemma gradient_enlarge p ts : gradient_3d (sc p) ts = rmap sc (gradient_3d p ts).
  Proof.
    unfold gradient_3d. rewrite pairs_map, map_map. cbn [fst snd].
    replace (map (fun x : V3 * V3 => vsub (vscale k (snd x)) (vscale k (fst x))) (pairs p)) with (sc (map (fun ab => vsub (snd ab) (fst ab)) (pairs p))) by (rewrite map_map; apply map_ext; intro; symmetry; apply vsub_scale).
    rewrite (broadcast_l vdiv (vscale k) (vscale k) vdiv) by (intros; unfold vdiv, vscale, Rdiv; cbn; v3; ring).
    destruct (broadcast _ _ (np_diff ts)); cbn; [|reflexivity]. rewrite map_app. cbn. do 3 f_equal. v3; ring.
  Qed.
  Lemma interpolate_enlarge seg t ts : interpolate seg (en t) ts = rmap en (interpolate seg t ts).
  Proof.
    unfold interpolate. change (tstamps (en t)) with (tstamps t). destruct (crop_request _ _) as [u|]; cbn [rmap bind]; [|reflexivity].
    rewrite positions_enlarge. destruct (interpolate_positions t u) as [t1|]; cbn [rmap bind]; [|reflexivity].
    rewrite rotations_enlarge. destruct (interpolate_rotations seg t1 u) as [t2|]; cbn [rmap bind]; [|reflexivity].
    change (xyz (en t2)) with (sc (xyz t2)). change (tstamps (en t2)) with (tstamps t2). change (arc (en t2)) with (map (Rmult k) (arc t2)).
    rewrite gradient_enlarge, interp_enlarge. destruct (gradient_3d (xyz t2) u); cbn [rmap bind]; [|reflexivity]. destruct (np_interp u (tstamps t2) (arc t2)); reflexivity.
  Qed.
  Lemma lengths_enlarge p : lengths_from_xyz (sc p) = map (Rmult k) (lengths_from_xyz p).
  Proof.
    unfold lengths_from_xyz. cbn [map]. rewrite Rmult_0_r. f_equal. rewrite pairs_map, map_map. cbn [fst snd].
    rewrite (map_ext _ (fun x => k * vnorm (vsub (snd x) (fst x)))) by (intro; rewrite vsub_scale; apply norm_scale). unfold np_cumsum.
    assert (C : forall l a, cumsum_from (k * a) (map (fun x : V3 * V3 => k * vnorm (vsub (snd x) (fst x))) l) = map (Rmult k) (cumsum_from a (map (fun ab => vnorm (vsub (snd ab) (fst ab))) l))).
    { induction l as [|x l IH]; intro a; cbn; [reflexivity|]. rewrite <- Rmult_plus_distr_l. f_equal. apply IH. }
    rewrite <- C. rewrite Rmult_0_r. reflexivity.
  Qed.
  Lemma new_enlarge loc pos ep (r : option (list Q)) ts nm al sp so : (forall l, loc (sc l) = sc (loc l)) ->
    new_traj loc (sc pos) ep r ts nm (option_map (map (Rmult k)) al) (option_map sc sp) so = rmap en (new_traj loc pos ep r ts nm al sp so).
  Proof.
    intro HL. unfold new_traj. rewrite !map_length, HL, gradient_enlarge, lengths_enlarge. destruct (match r with Some q => negb (length q =? length pos)%nat | None => false end); [reflexivity|].
    set (times := match ts with None => _ | Some t => t end). destruct sp as [sp|]; cbn [option_map].
    - rewrite map_length. destruct (length sp =? _)%nat; [|destruct (gradient_3d (loc pos) times)]; cbn [bind rmap]; [| |reflexivity];
        (destruct al as [al|]; cbn [option_map]; [rewrite map_length; destruct (length al =? _)%nat|]; reflexivity).
    - destruct (gradient_3d (loc pos) times); cbn [bind rmap]; [|reflexivity]. destruct al as [al|]; cbn [option_map]; [rewrite map_length; destruct (length al =? _)%nat|]; reflexivity.
  Qed.
  Lemma merge_enlarge argsort loc (qid : Q) pop l : (forall l, loc (sc l) = sc (loc l)) ->
    merge_trajectories argsort loc qid pop (map en l) = rmap en (merge_trajectories argsort loc qid pop l).
  Proof.
    intro HL. destruct l as [|t0 l0]; [reflexivity|]. assert (N1 : t0 :: l0 <> []) by discriminate. assert (N2 : map en (t0 :: l0) <> []) by discriminate.
    revert N1 N2. generalize (t0 :: l0). intros l N1 N2. rewrite (merge_nonempty _ _ _ _ _ N1), (merge_nonempty _ _ _ _ _ N2). clear N1 N2.
    assert (E1 : map xyz (map en l) = map sc (map xyz l)) by (rewrite !map_map; reflexivity). assert (E2 : map epsg (map en l) = map epsg l) by (rewrite map_map; reflexivity).
    assert (E3 : map tstamps (map en l) = map tstamps l) by (rewrite map_map; reflexivity).
    assert (E4 : map (rotations_or_identity qid) (map en l) = map (rotations_or_identity qid) l).
    { rewrite map_map. apply map_ext. intro t. unfold rotations_or_identity, tlen. change (has_orientation (en t)) with (has_orientation t). change (rot (en t)) with (rot t). change (xyz (en t)) with (sc (xyz t)). rewrite map_length. reflexivity. }
    assert (E5 : existsb has_orientation (map en l) = existsb has_orientation l) by (clear; induction l as [|a l IH]; cbn; [reflexivity|]; rewrite <- IH; reflexivity).
    rewrite E1, E2, E3, E4, E5, concat_map_map.
    assert (N := new_enlarge loc (concat (map xyz l)) (pop (map epsg l)) (if existsb has_orientation l then Some (concat (map (rotations_or_identity qid) l)) else None) (Some (concat (map tstamps l))) "Merged"%string None None SortTime HL).
    cbn [option_map] in N. rewrite N. clear N. destruct (new_traj _ _ _ _ _ _ _ _ _) as [m|]; cbn [rmap bind]; [|reflexivity]. apply index_enlarge.
  Qed.

  (** ** Matching *)
  Lemma kd_enlarge query (ref test : list V3) m : scales query -> kd_matcher query (sc ref) (sc test) (k * m) = kd_matcher query ref test m.
  Proof.
    intro SQ. unfold kd_matcher. destruct test as [|t0 ts]; [reflexivity|].
    assert (HH : kd_hits query (sc ref) (sc (t0 :: ts)) (k * m) = kd_hits query ref (t0 :: ts) m).
    { unfold kd_hits. rewrite (bound_scaled k K0), enumerate_map, !flat_map_concat_map. f_equal. rewrite map_map. apply map_ext. intros [i x]. cbn [fst snd].
      unfold query1. rewrite SQ by exact K0. destruct (query ref (bound m) 1%nat x) as [|[[j w]|] l]; reflexivity. }
    cbn [map] in *. rewrite HH. reflexivity.
  Qed.
  Lemma spatial_enlarge query m test ref : scales query -> match_spatial query (k * m) (en test) (en ref) = rmap (both en) (match_spatial query m test ref).
  Proof.
    intro SQ. unfold match_spatial. change (xyz (en ref)) with (sc (xyz ref)). change (xyz (en test)) with (sc (xyz test)). rewrite kd_enlarge by exact SQ. destruct (kd_matcher _ _ _ _) as [ij|]; cbn [rmap bind]; [|reflexivity].
    rewrite !index_enlarge. destruct (apply_index test _); cbn [rmap bind]; [|reflexivity]. destruct (apply_index ref _); reflexivity.
  Qed.
  Lemma temporal_enlarge query m test ref : match_temporal query m (en test) (en ref) = rmap (both en) (match_temporal query m test ref).
  Proof.
    unfold match_temporal. change (tstamps (en ref)) with (tstamps ref). change (tstamps (en test)) with (tstamps test). destruct (kd_matcher _ _ _ _) as [ij|]; cbn [rmap bind]; [|reflexivity].
    rewrite !index_enlarge. destruct (apply_index test _); cbn [rmap bind]; [|reflexivity]. destruct (apply_index ref _); reflexivity.
  Qed.
  Lemma interpolation_enlarge seg test ref : match_interpolation seg (en test) (en ref) = rmap (both en) (match_interpolation seg test ref).
  Proof.
    unfold match_interpolation. change (tstamps (en ref)) with (tstamps ref). rewrite intersect_enlarge. destruct (intersect test (tstamps ref) 2) as [t1|]; cbn [rmap bind]; [|reflexivity].
    change (tstamps (en t1)) with (tstamps t1). rewrite intersect_enlarge. destruct (intersect ref (tstamps t1) 2) as [r1|]; cbn [rmap bind]; [|reflexivity].
    change (tstamps (en r1)) with (tstamps r1). rewrite interpolate_enlarge. destruct (interpolate seg t1 (tstamps r1)) as [t2|]; cbn [rmap bind]; reflexivity.
  Qed.
End Len.

Lemma brute_scales : scales (brute vdist).
Proof.
  intros k ref ub n p K0. unfold brute.
  assert (C : candidates vdist (map (vscale k) ref) (option_map (Rmult k) ub) (vscale k p) = map (keyed (Rmult k)) (candidates vdist ref ub p)).
  { unfold candidates. rewrite <- fold_insert_mono by (intros; apply scaled_leb, K0). f_equal. rewrite enumerate_map, map_map. cbn [fst snd].
    replace (map (fun x : nat * V3 => (vdist (vscale k (snd x)) (vscale k p), fst x)) (enumerate ref)) with (map (keyed (Rmult k)) (map (fun ir => (vdist (snd ir) p, fst ir)) (enumerate ref))).
    - rewrite (filter_map (keyed (Rmult k))). apply (f_equal (map (keyed (Rmult k)))). apply filter_ext. intros [x i]. unfold keyed. cbn [fst snd]. destruct ub as [u|]; cbn; [|reflexivity]. apply scaled_ltb, K0.
    - rewrite map_map. apply map_ext. intros [i x]. unfold keyed. cbn [fst snd]. f_equal. unfold vdist. rewrite vsub_scale, norm_scale by exact K0. reflexivity. }
  rewrite C. rewrite firstn_map, !map_app, !map_map, !map_length. f_equal. generalize (n - length (firstn n (candidates vdist ref ub p)))%nat. intro m. induction m as [|m IH]; cbn; [reflexivity|]. rewrite <- IH. reflexivity.
Qed.
