(** Properties C01 - C11: the trajectory class. *)
From Verif Require Import Base BaseFacts VecFacts NumpyModel NumpyFacts TrajModel TrajSpec TrajFacts TrajFacts2 TrajFacts3.

(** A small trajectory with orientations (rotations are named by naturals here). *)
Definition demo : traj nat :=
  mkTraj [0; 1; 3] [mkV3 0 0 0; mkV3 3 4 0; mkV3 3 4 2] (Some [10; 11; 12]%nat) [0; 5; 7]
         [mkV3 3 4 0; mkV3 0 0 1; vzero] SortTime "demo" 0.
Definition demo_seg (a b : nat) (w : R) : nat := if Rleb w 0 then a else b.

Example demo_consistent : consistent demo /\ strictly_time_sorted demo.
Proof. split; [repeat split|]. unfold strictly_time_sorted; cbn. repeat constructor; lra. Qed.

(** * C01 *)
(** Integer indices: pose i of the result is pose idx[i] of the input, in every component. *)
Theorem C01_apply_index_int :
  forall (Q : Type) (t t' : traj Q) (idx : list Z),
    consistent t -> apply_index t (IInt idx) = Ok t' ->
    consistent t' /\ same_meta t t' /\ tlen t' = length idx /\
    forall i z, nth_error idx i = Some z ->
      exists k, (k < tlen t)%nat /\ (z = Z.of_nat k \/ z = (Z.of_nat k - Z.of_nat (tlen t))%Z) /\
                pose_at t' i = pose_at t k /\ pose_at t k <> None.
Proof. intros Q t t' idx. exact (apply_index_int_spec t idx t'). Qed.
Print Assumptions C01_apply_index_int.

Example C01_int_case :
  exists t', apply_index demo (IInt [-1; 0; 0]%Z) = Ok t' /\ tstamps t' = [3; 0; 0] /\ rot t' = Some [12; 10; 10]%nat.
Proof. eexists; cbn; split; [reflexivity | auto]. Qed.

(** Boolean indices keep the positions marked True, in order. *)
Theorem C01_apply_index_mask :
  forall (Q : Type) (t t' : traj Q) (m : list bool),
    consistent t -> apply_index t (IMask m) = Ok t' -> m <> [] ->
    length m = tlen t /\ consistent t' /\ same_meta t t' /\
    poses t' = map fst (filter snd (combine (poses t) m)).
Proof. intros Q t t' m. exact (apply_index_mask_spec t m t'). Qed.
Print Assumptions C01_apply_index_mask.

Example C01_mask_case :
  exists t', apply_index demo (IMask [true; false; true]) = Ok t' /\ tstamps t' = [0; 3].
Proof. eexists; cbn; split; [reflexivity | auto]. Qed.

(** The exception, and exactly when it is raised. *)
Theorem C01_apply_index_raises :
  forall (Q : Type) (t : traj Q), consistent t ->
    (forall idx,
      (apply_index t (IInt idx) = Err IndexError <->
       exists z, In z idx /\ ~ (- Z.of_nat (tlen t) <= z < Z.of_nat (tlen t))%Z) /\
      (forall e, apply_index t (IInt idx) = Err e -> e = IndexError)) /\
    (forall m, m <> [] ->
      (apply_index t (IMask m) = Err IndexError <-> length m <> tlen t) /\
      (forall e, apply_index t (IMask m) = Err e -> e = IndexError)).
Proof.
  intros Q t H. exact (conj (fun idx => apply_index_int_raises t idx H) (fun m => apply_index_mask_raises t m H)).
Qed.
Print Assumptions C01_apply_index_raises.

Example C01_raises_case : apply_index demo (IInt [3]%Z) = Err IndexError.
Proof. reflexivity. Qed.

(** * C02 *)
Theorem C02_history_consistent :
  forall (Q : Type) (slerp_seg : Q -> Q -> R -> Q) (t t' : traj Q) (ops : list op),
    consistent t -> history slerp_seg t ops t' -> consistent t' /\ same_meta t t'.
Proof. intros Q seg t t' ops. exact (history_consistent seg t ops t'). Qed.
Print Assumptions C02_history_consistent.

(** Without interpolation a history never invents or alters a pose. *)
Theorem C02_history_subset :
  forall (Q : Type) (slerp_seg : Q -> Q -> R -> Q) (t t' : traj Q) (ops : list op),
    consistent t -> Forall (fun o => ~ is_interpolate o) ops -> history slerp_seg t ops t' ->
    incl (poses t') (poses t).
Proof. intros Q seg t t' ops. exact (history_subset seg t ops t'). Qed.
Print Assumptions C02_history_subset.

(** Time order survives every history of crop, match_timestamps, intersect and interpolate. *)
Theorem C02_history_sorted :
  forall (Q : Type) (slerp_seg : Q -> Q -> R -> Q) (t t' : traj Q) (ops : list op),
    consistent t -> time_sorted t -> Forall (fun o => ~ is_index o) ops -> history slerp_seg t ops t' ->
    time_sorted t'.
Proof. intros Q seg t t' ops. exact (history_sorted seg t ops t'). Qed.
Print Assumptions C02_history_sorted.

Example C02_case :
  exists t', history demo_seg demo [OpCrop 0 1 false; OpInterpolate [1/2]] t' /\ xyz t' = [mkV3 (3/2) 2 0].
Proof.
  eexists. split.
  - eapply history_step; [|intros []|].
    + cbn. rb. reflexivity.
    + eapply history_step; [| |apply history_nil].
      * cbn [apply_op]. unfold interpolate, crop_request. cbn. rb. unfold slerp. cbn. rb. reflexivity.
      * cbn; discriminate.
  - cbn. f_equal. v3; field.
Qed.

(** * C03 *)
Theorem C03_constructor_raises :
  forall (Q : Type) loc pos ep (q : list Q) ts nm al sp so,
    length q <> length pos -> new_traj loc pos ep (Some q) ts nm al sp so = Err ValueError.
Proof. intros Q. exact new_traj_mismatch. Qed.
Print Assumptions C03_constructor_raises.

(** [loc] is the conversion of the positions to a local frame. *)
Theorem C03_constructor_consistent :
  forall (Q : Type) loc pos ep (r : option (list Q)) ts nm al sp so,
    (forall p, length (loc p) = length p) -> pos <> [] ->
    match r with Some q => length q = length pos | None => True end ->
    match ts with Some l => length l = length pos | None => True end ->
    exists t g, new_traj loc pos ep r ts nm al sp so = Ok t /\ consistent t /\
      xyz t = pos /\ rot t = r /\
      tstamps t = match ts with Some l => l | None => map INR (seq 0 (length pos)) end /\
      gradient_3d (loc pos) (tstamps t) = Ok g /\
      arc t = match al with
              | Some a => if (length a =? length pos)%nat then a else lengths_from_xyz (loc pos)
              | None => lengths_from_xyz (loc pos) end /\
      speed t = match sp with
                | Some v => if (length v =? length pos)%nat then v else g
                | None => g end /\
      srt t = so /\ name t = nm /\ epsg t = ep.
Proof. intros Q. exact new_traj_ok. Qed.
Print Assumptions C03_constructor_consistent.

Example C03_case :
  exists t, new_traj (Q := nat) (fun p => p) [mkV3 0 0 0; mkV3 1 0 0] 0 (Some [1; 2]%nat) None "n" (Some [7; 9; 11]) None SortTime
            = Ok t /\ length (arc t) = 2%nat /\ tstamps t = [0; 1].
Proof. eexists. cbn. repeat split. Qed.

(** The requirement of at least one position is needed: without positions the computed arc
    lengths and speeds have one entry. *)
Theorem C03_empty_positions_refuted :
  exists t : traj nat, new_traj (fun p => p) [] 0 None None "n" None None SortTime = Ok t /\ ~ consistent t.
Proof. eexists. split; [reflexivity|]. intros [_ [_ [H _]]]. discriminate. Qed.
Print Assumptions C03_empty_positions_refuted.

(** * C04 *)
Theorem C04_crop :
  forall (Q : Type) (t : traj Q) (a b : R), consistent t ->
    exists t1 t2, crop t a b false = Ok t1 /\ crop t a b true = Ok t2 /\
      consistent t1 /\ consistent t2 /\ same_meta t t1 /\ same_meta t t2 /\
      kept (fun p => a <= p_t p <= b) (poses t) (poses t1) /\
      kept (fun p => ~ (a <= p_t p <= b)) (poses t) (poses t2) /\
      Permutation (poses t1 ++ poses t2) (poses t) /\
      crop t1 a b false = Ok t1 /\ crop t2 a b true = Ok t2.
Proof. intros Q. exact crop_kept. Qed.
Print Assumptions C04_crop.

Example C04_case : exists t', crop demo 1 5 false = Ok t' /\ tstamps t' = [1; 3].
Proof. eexists. cbn. rb. split; reflexivity. Qed.

(** * C05 *)
Theorem C05_common_time_span :
  forall l1 l2 a0 a1 b0 b1,
    is_min l1 a0 -> is_max l1 a1 -> is_min l2 b0 -> is_max l2 b1 ->
    common_time_span l1 l2 =
      Ok (if Rleb (Rmax a0 b0) (Rmin a1 b1) then Some (Rmax a0 b0, Rmin a1 b1) else None).
Proof. exact common_time_span_spec. Qed.
Print Assumptions C05_common_time_span.

Theorem C05_common_time_span_raises :
  forall l1 l2, (l1 = [] \/ l2 = []) <-> common_time_span l1 l2 = Err IndexError.
Proof. exact common_time_span_empty. Qed.
Print Assumptions C05_common_time_span_raises.

Theorem C05_common_time_span_order :
  forall l1 l2 l1' l2', Permutation l1 l1' -> Permutation l2 l2' ->
    common_time_span l1 l2 = common_time_span l2' l1'.
Proof.
  intros l1 l2 l1' l2' H1 H2. rewrite (common_time_span_perm l1 l1' l2 H1), common_time_span_sym.
  exact (common_time_span_perm l2 l2' l1' H2).
Qed.
Print Assumptions C05_common_time_span_order.

Example C05_case : common_time_span [3; 0] [5; 1; 2] = Ok (Some (1, 3)).
Proof.
  rewrite (C05_common_time_span [3; 0] [5; 1; 2] 0 3 1 5);
    try (split; [cbn; auto | intros y Hy; cbn in Hy; intuition lra]).
  unfold Rmax, Rmin. destruct (Rle_dec 0 1); [|lra]. destruct (Rle_dec 3 5); [|lra]. rb. reflexivity.
Qed.
Example C05_case_touching : common_time_span [0; 1] [1; 2] = Ok (Some (1, 1)).
Proof.
  rewrite (C05_common_time_span [0; 1] [1; 2] 0 1 1 2);
    try (split; [cbn; auto | intros y Hy; cbn in Hy; intuition lra]).
  unfold Rmax, Rmin. destruct (Rle_dec 0 1); [|lra]. destruct (Rle_dec 1 2); [|lra]. rb. reflexivity.
Qed.

(** * C06 *)
Theorem C06_intersect :
  forall (Q : Type) (t : traj Q) ts gap a0 a1 b0 b1,
    consistent t -> is_min ts a0 -> is_max ts a1 ->
    is_min (tstamps t) b0 -> is_max (tstamps t) b1 ->
    (Rmax a0 b0 <= Rmin a1 b1 ->
     exists t', intersect t ts gap = Ok t' /\ consistent t' /\ same_meta t t' /\
       kept (fun p => Rmax a0 b0 <= p_t p <= Rmin a1 b1 /\ supported ts gap (p_t p)) (poses t) (poses t')) /\
    (Rmin a1 b1 < Rmax a0 b0 <-> intersect t ts gap = Err ValueError) /\
    (forall e, intersect t ts gap = Err e -> e = ValueError).
Proof. intros Q. exact intersect_kept. Qed.
Print Assumptions C06_intersect.

Theorem C06_intersect_empty :
  forall (Q : Type) (t : traj Q) ts gap, ts = [] \/ tstamps t = [] -> intersect t ts gap = Err IndexError.
Proof. intros Q. exact intersect_empty. Qed.
Print Assumptions C06_intersect_empty.

Example C06_case : is_min [4; 0] 0 /\ is_max [4; 0] 4 /\ is_min (tstamps demo) 0 /\ is_max (tstamps demo) 3 /\
  Rmax 0 0 <= Rmin 4 3 /\ supported [4; 0] 4 1 /\ ~ supported [4; 0] 2 1.
Proof.
  repeat split; cbn; auto; try (intros y Hy; cbn in Hy; intuition lra).
  - unfold Rmax, Rmin. destruct (Rle_dec 0 0), (Rle_dec 4 3); lra.
  - right. exists 0, 4. split; [|lra]. repeat split; cbn; auto; try lra. intros y Hy; intuition lra.
  - intros [H|[a [b [[Ha [Hb _]] [Hx Hg]]]]]; cbn in *; [intuition lra|].
    destruct Ha as [Ha|[Ha|[]]], Hb as [Hb|[Hb|[]]]; lra.
Qed.

(** * C07 *)
Theorem C07_match_timestamps :
  forall (Q : Type) (t : traj Q) ts, consistent t ->
    exists t', match_timestamps t ts = Ok t' /\ consistent t' /\ same_meta t t' /\
      strictly_time_sorted t' /\
      (forall v, In v (tstamps t') <-> In v (tstamps t) /\ In v ts) /\
      (forall p, In p (poses t') ->
         exists k, pose_at t k = Some p /\ (forall k', nth_error (tstamps t) k' = Some (p_t p) -> (k <= k')%nat)).
Proof. intros Q. exact match_timestamps_spec. Qed.
Print Assumptions C07_match_timestamps.

Example C07_case : exists t', match_timestamps demo [3; 7; 0; 3] = Ok t' /\ tstamps t' = [0; 3].
Proof. eexists. split; [|]. { unfold match_timestamps, intersect1d_idx. cbn. rb. reflexivity. } reflexivity. Qed.

(** * C08 *)
(** Which timestamps result: the requested ones inside the time range, ascending. *)
Theorem C08_interpolate_timestamps :
  forall (Q : Type) (slerp_seg : Q -> Q -> R -> Q) (t : traj Q) req lo hi,
    consistent t -> strictly_time_sorted t -> (rot t = None \/ (2 <= tlen t)%nat) ->
    is_min (tstamps t) lo -> is_max (tstamps t) hi ->
    exists t' s, interpolate slerp_seg t req = Ok t' /\
      Permutation s req /\ StronglySorted Rle s /\ kept (fun x => lo <= x <= hi) s (tstamps t') /\
      length (xyz t') = length (tstamps t') /\ same_meta t t'.
Proof. intros Q. exact interpolate_timestamps. Qed.
Print Assumptions C08_interpolate_timestamps.

(** Existing timestamps reproduce the stored position, others lie on the segment between
    their two temporal neighbours at the fraction given by time. *)
Theorem C08_interpolate_positions :
  forall (Q : Type) (slerp_seg : Q -> Q -> R -> Q) (t : traj Q) req t' i x,
    consistent t -> strictly_time_sorted t -> (rot t = None \/ (2 <= tlen t)%nat) ->
    interpolate slerp_seg t req = Ok t' -> nth_error (tstamps t') i = Some x ->
    (exists k p, nth_error (tstamps t) k = Some x /\ nth_error (xyz t) k = Some p /\ nth_error (xyz t') i = Some p) \/
    (exists k a b p q, nth_error (tstamps t) k = Some a /\ nth_error (tstamps t) (S k) = Some b /\ a < x < b /\
       nth_error (xyz t) k = Some p /\ nth_error (xyz t) (S k) = Some q /\
       nth_error (xyz t') i = Some (lerp p q ((x - a) / (b - a)))).
Proof. intros Q. exact interpolate_positions_spec. Qed.
Print Assumptions C08_interpolate_positions.

(** Uniform straight motion is reproduced exactly. *)
Theorem C08_interpolate_affine :
  forall (Q : Type) (slerp_seg : Q -> Q -> R -> Q) (t : traj Q) req t' c v i x,
    consistent t -> strictly_time_sorted t -> (rot t = None \/ (2 <= tlen t)%nat) ->
    (forall k s p, nth_error (tstamps t) k = Some s -> nth_error (xyz t) k = Some p -> p = vadd c (vscale s v)) ->
    interpolate slerp_seg t req = Ok t' -> nth_error (tstamps t') i = Some x ->
    nth_error (xyz t') i = Some (vadd c (vscale x v)).
Proof. intros Q. exact interpolate_affine. Qed.
Print Assumptions C08_interpolate_affine.

(** No position outside the segments of the path is ever produced. *)
Theorem C08_interpolate_no_extrapolation :
  forall (Q : Type) (slerp_seg : Q -> Q -> R -> Q) (t : traj Q) req t' i p,
    consistent t -> strictly_time_sorted t -> (rot t = None \/ (2 <= tlen t)%nat) ->
    interpolate slerp_seg t req = Ok t' -> nth_error (xyz t') i = Some p ->
    (exists k, nth_error (xyz t) k = Some p) \/
    (exists k a b w, nth_error (xyz t) k = Some a /\ nth_error (xyz t) (S k) = Some b /\ 0 < w < 1 /\ p = lerp a b w).
Proof. intros Q. exact interpolate_no_extrapolation. Qed.
Print Assumptions C08_interpolate_no_extrapolation.

(** Rotations and arc lengths are interpolated in the same segment at the same fraction. *)
Theorem C08_interpolate_rotations :
  forall (Q : Type) (slerp_seg : Q -> Q -> R -> Q) (t : traj Q) req t' r i x k a b p q,
    consistent t -> strictly_time_sorted t -> rot t = Some r -> interpolate slerp_seg t req = Ok t' ->
    nth_error (tstamps t') i = Some x ->
    nth_error (tstamps t) k = Some a -> nth_error (tstamps t) (S k) = Some b -> a < x <= b ->
    nth_error r k = Some p -> nth_error r (S k) = Some q ->
    exists r', rot t' = Some r' /\ nth_error r' i = Some (slerp_seg p q ((x - a) / (b - a))).
Proof. intros Q. exact interpolate_rot_segment. Qed.
Print Assumptions C08_interpolate_rotations.

Theorem C08_interpolate_arc_lengths :
  forall (Q : Type) (slerp_seg : Q -> Q -> R -> Q) (t : traj Q) req t' i x k a b p q,
    consistent t -> strictly_time_sorted t -> interpolate slerp_seg t req = Ok t' ->
    nth_error (tstamps t') i = Some x ->
    nth_error (tstamps t) k = Some a -> nth_error (tstamps t) (S k) = Some b -> a <= x <= b ->
    nth_error (arc t) k = Some p -> nth_error (arc t) (S k) = Some q ->
    nth_error (arc t') i = Some (p + (x - a) / (b - a) * (q - p)).
Proof. intros Q. exact interpolate_arc_segment. Qed.
Print Assumptions C08_interpolate_arc_lengths.

Example C08_case :
  exists t', interpolate demo_seg demo [2; 9; 1] = Ok t' /\ tstamps t' = [1; 2] /\
             rot t' = Some [11; 12]%nat /\ nth_error (xyz t') 1 = Some (mkV3 3 4 1).
Proof.
  eexists. split.
  - unfold interpolate, crop_request. cbn. rb. unfold slerp. cbn. rb. reflexivity.
  - cbn. unfold demo_seg. repeat split.
    + f_equal. f_equal; [|f_equal].
      * replace ((1 - 0) / (1 - 0)) with 1 by field. rb. reflexivity.
      * replace ((2 - 1) / (3 - 1)) with (1 / 2) by field. rb. reflexivity.
    + f_equal. v3; field.
Qed.

(** * C09 *)
(** Full statement (false of the code): after a successful interpolate the five components have
    the same length.  If some requested timestamp is inside the range it is true: *)
Theorem C09_interpolate_consistent_partial :
  forall (Q : Type) (slerp_seg : Q -> Q -> R -> Q) (t : traj Q) req t',
    interpolate slerp_seg t req = Ok t' -> tstamps t' <> [] -> consistent t'.
Proof. intros Q. exact interpolate_lengths. Qed.
Print Assumptions C09_interpolate_consistent_partial.

(** If none is, positions and timestamps vanish while the rotations stay and a speed appears. *)
Theorem C09_interpolate_consistent_refuted :
  exists (t t' : traj nat) req,
    consistent t /\ strictly_time_sorted t /\ interpolate demo_seg t req = Ok t' /\
    length (tstamps t') = 0%nat /\ length (xyz t') = 0%nat /\
    option_map (@length nat) (rot t') = Some 3%nat /\ length (speed t') = 1%nat /\ ~ consistent t'.
Proof.
  exists demo. eexists. exists [9].
  split; [apply demo_consistent|]. split; [apply demo_consistent|]. split.
  - unfold interpolate, crop_request. cbn. rb. reflexivity.
  - cbn. repeat split. intros [_ [H _]]. discriminate.
Qed.
Print Assumptions C09_interpolate_consistent_refuted.

(** * C10 *)
Theorem C10_arc_lengths :
  forall p : list V3, p <> [] ->
    length (lengths_from_xyz p) = length p /\
    nth_error (lengths_from_xyz p) 0 = Some 0 /\
    (forall i a b x y, nth_error (lengths_from_xyz p) i = Some a -> nth_error (lengths_from_xyz p) (S i) = Some b ->
       nth_error p i = Some x -> nth_error p (S i) = Some y -> b = a + vdist x y) /\
    (forall i j a b, (i <= j)%nat ->
       nth_error (lengths_from_xyz p) i = Some a -> nth_error (lengths_from_xyz p) j = Some b -> a <= b) /\
    (forall i j a b x y, (i <= j)%nat ->
       nth_error (lengths_from_xyz p) i = Some a -> nth_error (lengths_from_xyz p) j = Some b ->
       nth_error p i = Some x -> nth_error p j = Some y -> vdist x y <= b - a) /\
    match rev (lengths_from_xyz p) with [] => 0 | a :: _ => a end = path_length p.
Proof.
  intros p H. exact (conj (lengths_length p H) (conj (lengths_start p) (conj (lengths_step p)
    (conj (lengths_monotone p) (conj (lengths_chord p) (lengths_last p)))))).
Qed.
Print Assumptions C10_arc_lengths.

(** Rigid motions keep the arc lengths, similarities scale them. *)
Theorem C10_arc_lengths_similarity :
  forall (f : V3 -> V3) s p,
    (forall a b, vdist (f a) (f b) = s * vdist a b) ->
    lengths_from_xyz (map f p) = map (Rmult s) (lengths_from_xyz p).
Proof. exact lengths_similarity. Qed.
Print Assumptions C10_arc_lengths_similarity.
Theorem C10_arc_lengths_isometry :
  forall (f : V3 -> V3) p,
    (forall a b, vdist (f a) (f b) = vdist a b) -> lengths_from_xyz (map f p) = lengths_from_xyz p.
Proof. exact lengths_isometry. Qed.
Print Assumptions C10_arc_lengths_isometry.

Example C10_case : lengths_from_xyz [mkV3 0 0 0; mkV3 3 4 0; mkV3 3 4 2] = [0; 5; 7].
Proof.
  unfold lengths_from_xyz, np_cumsum, pairs. cbn [map combine tl cumsum_from fst snd].
  replace (vnorm (vsub (mkV3 3 4 0) (mkV3 0 0 0))) with 5
    by (symmetry; apply vnorm_unique; [lra | unfold vdot, vsub; cbn; ring]).
  replace (vnorm (vsub (mkV3 3 4 2) (mkV3 3 4 0))) with 2
    by (symmetry; apply vnorm_unique; [lra | unfold vdot, vsub; cbn; ring]).
  repeat f_equal; ring.
Qed.
Example C10_isometry_case : forall a b, vdist (vadd (mkV3 1 2 3) a) (vadd (mkV3 1 2 3) b) = vdist a b.
Proof. intros a b. unfold vdist. f_equal. v3; ring. Qed.

(** * C11 *)
(** For any sort implementation and any per-pose data, the sorted view rearranges the data by the
    sorting index, and the switching index restores the storage order. *)
Theorem C11_sorted_view :
  forall (Q A : Type) argsort (t : traj Q) (l : list A),
    argsort_contract argsort -> consistent t -> length l = tlen t ->
    exists l', np_take l (map Z.of_nat (sorting_index argsort t)) = Ok l' /\ Permutation l' l /\
      (forall p, nth_error l' p =
         match nth_error (sorting_index argsort t) p with Some i => nth_error l i | None => None end) /\
      np_take l' (map Z.of_nat (sort_switching_index argsort t)) = Ok l.
Proof. intros Q A. exact sorted_view. Qed.
Print Assumptions C11_sorted_view.

(** The views are ordered by time or by arc length, according to the sorting. *)
Theorem C11_sorted_keys :
  forall (Q : Type) argsort (t : traj Q), argsort_contract argsort -> consistent t ->
    exists f, function_of argsort t = Ok f /\ StronglySorted Rle f /\ Permutation f (sort_key t).
Proof. intros Q. exact sorted_view_keys. Qed.
Print Assumptions C11_sorted_keys.

(** approximate writes the value computed for the k-th entry of the sorted view back to the pose
    that entry came from, and changes nothing else. *)
Theorem C11_approximate :
  forall (Q : Type) argsort cubic win (t : traj Q),
    argsort_contract argsort -> consistent t ->
    (forall f p, length f = length p -> exists pa, cubic f p = Ok pa /\ length pa = length p) ->
    (forall f q, length f = length q -> exists qa, win f q = Ok qa /\ length qa = length q) ->
    exists t' f p pa,
      approximate argsort cubic win t = Ok t' /\
      function_of argsort t = Ok f /\ xyz_sorted argsort t = Ok p /\ cubic f p = Ok pa /\
      consistent t' /\ tstamps t' = tstamps t /\ arc t' = arc t /\ speed t' = speed t /\ same_meta t t' /\
      (forall k i, nth_error (sorting_index argsort t) k = Some i -> nth_error (xyz t') i = nth_error pa k) /\
      (match rot t with
       | None => rot t' = None
       | Some r =>
           exists r' q qa, rot t' = Some r' /\
             (r <> [] -> quat_sorted argsort t = Ok q /\ win f q = Ok qa /\
              forall k i, nth_error (sorting_index argsort t) k = Some i -> nth_error r' i = nth_error qa k)
       end).
Proof. intros Q. exact approximate_ok. Qed.
Print Assumptions C11_approximate.

Example C11_case : argsort_contract stable_argsort /\ consistent demo.
Proof. split; [exact stable_argsort_contract | apply demo_consistent]. Qed.
Example C11_case_unsorted :
  sorting_index stable_argsort (set_tstamps [2; 0; 1] demo) = [1; 2; 0]%nat /\
  sort_switching_index stable_argsort (set_tstamps [2; 0; 1] demo) = [2; 0; 1]%nat.
Proof.
  assert (E : sorting_index stable_argsort (set_tstamps [2; 0; 1] demo) = [1; 2; 0]%nat).
  { unfold sorting_index. cbn. unfold stable_argsort. cbn. rb. reflexivity. }
  split; [exact E|]. unfold sort_switching_index. rewrite E. cbn. unfold stable_argsort. cbn. rb. reflexivity.
Qed.
