(** Property C133: transforming and selecting poses commute. *)
From Verif Require Import Base BaseFacts VecFacts NumpyModel NumpyFacts TrajModel TrajSpec TrajFacts TrajFacts2 TrajProps MatchModel MergeModel MergeSpec MergeFacts MergeProps GeomModel GeomSpec GeomFacts GeomFacts2 GeomProps.

(** An operation that treats every pose on its own, keeps the time stamps and gives every pose an orientation *)
Definition posewise {Q} (F : traj Q -> traj Q) (g : pose Q -> pose Q) : Prop :=
  (forall p, p_t (g p) = p_t p) /\
  forall t, consistent t -> consistent (F t) /\ poses (F t) = map g (poses t) /\ srt (F t) = srt t /\ name (F t) = name t /\ epsg (F t) = epsg t /\ rot (F t) <> None.

Section Posewise.
  Context {Q : Type}.
  Variables (F : traj Q -> traj Q) (g : pose Q -> pose Q).
  Hypothesis PW : posewise F g.

  Lemma posewise_times t : consistent t -> tstamps (F t) = tstamps t.
  Proof.
    intro C. destruct PW as [G H]. destruct (H t C) as (C' & P & _). rewrite <- (proj1 (poses_components (F t) C')), <- (proj1 (poses_components t C)), P, map_map.
    apply map_ext, G.
  Qed.

  Lemma posewise_index t ix : consistent t -> apply_index (F t) ix = rmap F (apply_index t ix).
  Proof.
    intro C. destruct (proj2 PW t C) as (C' & P & M1 & M2 & M3 & M4). destruct (apply_index t ix) as [u|e] eqn:E.
    - destruct (apply_index_ok t ix u C E) as (Cu & (N1 & N2 & N3 & _) & I). destruct (proj2 PW u Cu) as (Cu' & Pu & K1 & K2 & K3 & K4).
      destruct (apply_index_total (F t) ix (map g (poses u)) C') as (w & W & PWs); [rewrite P, np_index_map, I; reflexivity|].
      rewrite W. cbn. f_equal. destruct (apply_index_ok (F t) ix w C' W) as (Cw & (L1 & L2 & L3 & L4) & _).
      apply traj_ext; [exact Cw|exact Cu'|congruence|]. unfold same_meta. split; [congruence|]. split; [congruence|]. split; [congruence|].
      split; intro Z; [contradiction|]. apply L4 in Z. contradiction.
    - cbn. destruct (apply_index_err t ix e C E) as (-> & I). destruct (apply_index (F t) ix) as [w|e] eqn:W.
      + exfalso. destruct (apply_index_ok (F t) ix w C' W) as (_ & _ & J). rewrite P, np_index_map, I in J. discriminate.
      + destruct (apply_index_err (F t) ix e C' W) as (-> & _). reflexivity.
  Qed.

  Lemma posewise_crop t a b inv : consistent t -> crop (F t) a b inv = rmap F (crop t a b inv).
  Proof. intro C. unfold crop. rewrite (posewise_times t C). apply posewise_index, C. Qed.
  Lemma posewise_match t ts : consistent t -> match_timestamps (F t) ts = rmap F (match_timestamps t ts).
  Proof. intro C. unfold match_timestamps. rewrite (posewise_times t C). apply posewise_index, C. Qed.
  Lemma posewise_intersect t ts gap : consistent t -> intersect (F t) ts gap = rmap F (intersect t ts gap).
  Proof.
    intro C. unfold intersect. rewrite (posewise_times t C). destruct (common_time_span ts (tstamps t)) as [[[a b]|]|e]; cbn [bind]; [|reflexivity|reflexivity].
    rewrite (posewise_crop t a b false C). destruct (crop_spec t a b false C) as (c & E & Cc & _). rewrite E. cbn [rmap bind]. rewrite (posewise_times c Cc).
    destruct (mapM _ _) as [keep|e]; cbn [bind rmap]; [|reflexivity]. apply posewise_index, Cc.
  Qed.
End Posewise.

Lemma poses_by_nth {Q} (t t' : traj Q) (g : pose Q -> pose Q) : consistent t -> consistent t' -> tlen t' = tlen t ->
  (forall i p, pose_at t i = Some p -> pose_at t' i = Some (g p)) -> poses t' = map g (poses t).
Proof.
  intros C C' L H. apply nth_error_ext. intro i. rewrite nth_error_map', (poses_nth t i C), (poses_nth t' i C'). destruct (pose_at t i) as [p|] eqn:E; cbn; [apply H, E|].
  rewrite <- (poses_nth t' i C'). apply nth_error_None. rewrite poses_length by exact C'. rewrite L, <- (poses_length t C). apply nth_error_None. rewrite (poses_nth t i C). exact E.
Qed.

(** What a transformation makes of a pose *)
Definition attitude {Q} (ops : rot_ops Q) (p : pose Q) : M3 := match p_rot p with Some r => as_matrix ops r | None => mident end.
Definition moved_pose {Q} (ops : rot_ops Q) (T : M4) (p : pose Q) : pose Q :=
  mkPose (p_t p) (vadd (mapply (lin T) (p_xyz p)) (tra T)) (Some (from_matrix ops (mmul (lin T) (attitude ops p)))) (p_arc p) (p_speed p).

Lemma transformation_posewise {Q} (ops : rot_ops Q) T : posewise (apply_transformation ops T) (moved_pose ops T).
Proof.
  split; [reflexivity|]. intros t C. assert (C' := apply_transformation_consistent ops T t C). destruct (apply_transformation_rest ops T t) as (E1 & E2 & E3 & E4 & E5 & E6).
  assert (X := apply_transformation_xyz ops T t C). split; [exact C'|]. split.
  - apply poses_by_nth; [exact C|exact C'|unfold tlen; rewrite X; apply map_length|]. intros i p. unfold pose_at. rewrite E1, E2, E3, X, nth_error_map'.
    destruct (nth_error (tstamps t) i) as [s|]; [|discriminate]. destruct (nth_error (xyz t) i) as [x|] eqn:HX; [|discriminate]. destruct (nth_error (arc t) i) as [a|]; [|discriminate].
    destruct (nth_error (speed t) i) as [v|]; [|discriminate]. destruct (rot t) as [q|] eqn:RO.
    + rewrite (apply_transformation_rot ops T t q C RO), nth_error_map'. destruct (nth_error q i) as [r|]; [|discriminate]. intros [= <-]. reflexivity.
    + rewrite (apply_transformation_rot_none ops T t RO), nth_error_map', HX. intros [= <-]. reflexivity.
  - split; [exact E4|]. split; [exact E5|]. split; [exact E6|]. destruct (rot t) as [q|] eqn:RO.
    + rewrite (apply_transformation_rot ops T t q C RO). discriminate.
    + rewrite (apply_transformation_rot_none ops T t RO). discriminate.
Qed.

Theorem C133_transformation : forall Q (ops : rot_ops Q) T (t : traj Q), consistent t ->
  (forall ix, apply_index (apply_transformation ops T t) ix = rmap (apply_transformation ops T) (apply_index t ix)) /\
  (forall a b inv, crop (apply_transformation ops T t) a b inv = rmap (apply_transformation ops T) (crop t a b inv)) /\
  (forall ts, match_timestamps (apply_transformation ops T t) ts = rmap (apply_transformation ops T) (match_timestamps t ts)) /\
  (forall ts gap, intersect (apply_transformation ops T t) ts gap = rmap (apply_transformation ops T) (intersect t ts gap)).
Proof.
  intros Q ops T t C. assert (PW := transformation_posewise ops T). split; [|split; [|split]]; intros.
  - apply (posewise_index _ _ PW), C.
  - apply (posewise_crop _ _ PW), C.
  - apply (posewise_match _ _ PW), C.
  - apply (posewise_intersect _ _ PW), C.
Qed.
Print Assumptions C133_transformation.

(** What an alignment makes of a pose: without an orientation the lever arm is left out *)
Definition aligned_pose {Q} (ops : rot_ops Q) (a : align_params) (sensor : V3) (p : pose Q) : pose Q :=
  let arm := match p_rot p with Some r => mapply (as_matrix ops r) (lever a) | None => vzero end in
  let S := sim3_matrix ops a in
  mkPose (p_t p) (vadd (mapply (lin S) (vadd (p_xyz p) (vadd arm (vscale (time_shift a) (p_speed p))))) (tra S))
    (Some (rmul ops (from_euler ops sensor) (from_matrix ops (mmul (lin S) (attitude ops p))))) (p_arc p) (p_speed p).
Definition realigned {Q} (ops : rot_ops Q) (a : align_params) (sensor : V3) (t : traj Q) : traj Q :=
  match apply_alignment ops a sensor false t with Ok t' => t' | Err _ => t end.

Lemma alignment_posewise {Q} (ops : rot_ops Q) a sensor : rot_contract ops -> posewise (realigned ops a sensor) (aligned_pose ops a sensor).
Proof.
  intro RC. split; [reflexivity|]. intros t C. destruct (apply_alignment_form ops RC a sensor t C) as (q1 & E1 & F).
  destruct (apply_alignment_ok ops RC a sensor t C) as (t' & q' & F' & (K1 & K2 & K3 & K4 & K5 & K6) & C' & RO' & _). unfold realigned. rewrite F'.
  split; [exact C'|]. split; [|split; [exact K4|split; [exact K5|split; [exact K6|congruence]]]].
  set (u := set_xyz (shifted ops a t) t) in *. assert (Cu : consistent u) by (apply set_xyz_consistent, C).
  rewrite F in F'. injection F' as <-.
  assert (X := apply_transformation_xyz ops (sim3_matrix ops a) u Cu).
  apply poses_by_nth; [exact C|exact C'| |].
  { unfold tlen. cbn [set_rot xyz]. rewrite X, map_length. unfold u. cbn [set_xyz xyz]. apply shifted_length, C. }
  intros i p. unfold pose_at. cbn [set_rot tstamps xyz arc speed rot]. rewrite X, nth_error_map'.
  assert (U := apply_transformation_rest ops (sim3_matrix ops a) u). destruct U as (U1 & U2 & U3 & _). rewrite U1, U2, U3. change (tstamps u) with (tstamps t). change (arc u) with (arc t). change (speed u) with (speed t).
  destruct (nth_error (tstamps t) i) as [s|]; [|discriminate]. destruct (nth_error (xyz t) i) as [x|] eqn:HX; [|discriminate]. destruct (nth_error (arc t) i) as [l|]; [|discriminate].
  destruct (nth_error (speed t) i) as [v|] eqn:HV; [|discriminate].
  destruct (rot t) as [q|] eqn:RO.
  - destruct (nth_error q i) as [r|] eqn:HR; [|discriminate]. intros [= <-].
    assert (Y : nth_error (xyz u) i = Some (vadd x (vadd (mapply (as_matrix ops r) (lever a)) (vscale (time_shift a) v)))).
    { unfold u, shifted. cbn [set_xyz xyz]. rewrite RO, nth_error_map', (nth_error_combine_some _ _ i (x, r) v (nth_error_combine_some _ _ i x r HX HR) HV). reflexivity. }
    rewrite Y. cbn [option_map]. assert (RU : rot u = Some q) by exact RO. rewrite (apply_transformation_rot ops (sim3_matrix ops a) u q Cu RU) in E1. injection E1 as <-.
    rewrite !nth_error_map', HR. reflexivity.
  - intros [= <-].
    assert (Y : nth_error (xyz u) i = Some (vadd x (vadd vzero (vscale (time_shift a) v)))).
    { unfold u, shifted. cbn [set_xyz xyz]. rewrite RO, nth_error_map', (nth_error_combine_some _ _ i x v HX HV). cbn. f_equal. apply V3_eq; cbn; ring. }
    rewrite Y. cbn [option_map]. assert (RU : rot u = None) by exact RO. rewrite (apply_transformation_rot_none ops (sim3_matrix ops a) u RU) in E1.
    assert (E2 : q1 = map (fun _ => from_matrix ops (mmul (lin (sim3_matrix ops a)) mident)) (xyz u)) by congruence. rewrite E2, !nth_error_map', Y. reflexivity.
Qed.

Theorem C133_alignment : forall Q (ops : rot_ops Q) a sensor (t : traj Q), rot_contract ops -> consistent t ->
  (forall ix, (let! u := apply_alignment ops a sensor false t in apply_index u ix) = (let! u := apply_index t ix in apply_alignment ops a sensor false u)) /\
  (forall x y inv, (let! u := apply_alignment ops a sensor false t in crop u x y inv) = (let! u := crop t x y inv in apply_alignment ops a sensor false u)) /\
  (forall ts, (let! u := apply_alignment ops a sensor false t in match_timestamps u ts) = (let! u := match_timestamps t ts in apply_alignment ops a sensor false u)) /\
  (forall ts gap, (let! u := apply_alignment ops a sensor false t in intersect u ts gap) = (let! u := intersect t ts gap in apply_alignment ops a sensor false u)).
Proof.
  intros Q ops a sensor t RC C. assert (PW := alignment_posewise ops a sensor RC).
  assert (RE : forall u, consistent u -> apply_alignment ops a sensor false u = Ok (realigned ops a sensor u)).
  { intros u Cu. destruct (C16_apply_alignment_partial Q ops a sensor u RC Cu) as (w & E & _). unfold realigned. rewrite E. reflexivity. }
  rewrite (RE t C). cbn [bind].
  assert (G : forall r, (forall u, r = Ok u -> consistent u) -> rmap (realigned ops a sensor) r = (let! u := r in apply_alignment ops a sensor false u)).
  { intros [u|e] H; [|reflexivity]. cbn. symmetry. apply RE, H. reflexivity. }
  split; [|split; [|split]]; intros.
  - rewrite (posewise_index _ _ PW) by exact C. apply G. intros u E. apply (apply_index_ok _ _ _ C E).
  - rewrite (posewise_crop _ _ PW) by exact C. apply G. intros u E. destruct (crop_spec t x y inv C) as (w & E' & Cw & _). rewrite E in E'. injection E' as ->. exact Cw.
  - rewrite (posewise_match _ _ PW) by exact C. apply G. intros u E. destruct (match_timestamps_spec t ts C) as (w & E' & Cw & _). rewrite E in E'. injection E' as ->. exact Cw.
  - rewrite (posewise_intersect _ _ PW) by exact C. apply G. intros u E. unfold intersect in E. apply bind_ok in E as ([[p q]|] & _ & E); [|discriminate].
    apply bind_ok in E as (c & E1 & E). apply bind_ok in E as (k & _ & E). destruct (crop_spec t p q false C) as (w & E' & Cw & _). rewrite E1 in E'. injection E' as ->.
    apply (apply_index_ok _ _ _ Cw E).
Qed.
Print Assumptions C133_alignment.

(** Interpolation: the positions of the moved trajectory are the moved positions. *)
Lemma interp_affine {A} (f g h k : A -> R) a b c d : (forall y, k y = a * f y + b * g y + c * h y + d) -> forall ts (l : list A) x, ts <> [] -> length ts = length l ->
  interp_at (combine ts (map k l)) x = a * interp_at (combine ts (map f l)) x + b * interp_at (combine ts (map g l)) x + c * interp_at (combine ts (map h l)) x + d.
Proof.
  intros H ts. induction ts as [|s ts IH]; intros l x N L; [congruence|]. destruct l as [|y l]; [discriminate|].
  destruct ts as [|s' ts]; destruct l as [|y' l]; try discriminate.
  - cbn. apply H.
  - cbn [map combine interp_at]. destruct (Rltb x s').
    + destruct (Rleb x s); rewrite !H; unfold Rdiv; ring.
    + apply (IH (y' :: l) x); [discriminate|]. cbn in *. lia.
Qed.

Theorem C133_interpolation : forall Q (ops : rot_ops Q) (seg : Q -> Q -> R -> Q) T (t : traj Q) req, consistent t -> strictly_time_sorted t -> (2 <= tlen t)%nat ->
  exists u u', interpolate seg t req = Ok u /\ interpolate seg (apply_transformation ops T t) req = Ok u' /\
    tstamps u' = tstamps u /\ xyz u' = xyz (apply_transformation ops T u) /\ arc u' = arc u.
Proof.
  intros Q ops seg T t req C SS L. destruct (interpolate_ok seg t req C SS) as (lo & hi & u & G0 & G1 & E & TS & X & A & _); [lia|right; exact L|].
  assert (C' := apply_transformation_consistent ops T t C). destruct (apply_transformation_rest ops T t) as (E1 & E2 & _).
  assert (XT := apply_transformation_xyz ops T t C).
  destruct (interpolate_ok seg (apply_transformation ops T t) req C') as (lo' & hi' & u' & G0' & G1' & E' & TS' & X' & A' & _).
  { unfold strictly_time_sorted. rewrite E1. exact SS. }
  { unfold tlen. rewrite XT, map_length. fold (tlen t). lia. }
  { right. unfold tlen. rewrite XT, map_length. exact L. }
  rewrite E1 in *. rewrite G0 in G0'. rewrite G1 in G1'. injection G0' as <-. injection G1' as <-.
  exists u, u'. split; [exact E|]. split; [exact E'|]. assert (TT : tstamps u' = tstamps u) by congruence. split; [exact TT|].
  assert (N : tstamps t <> []) by (intro Z; assert (W := proj1 C); rewrite Z in W; unfold tlen in L; cbn in W; lia).
  split; [|rewrite A', A, TT, E2; reflexivity].
  (* the positions of a transformed trajectory, without its consistency *)
  assert (XU : xyz (apply_transformation ops T u) = map (fun p => vadd (mapply (lin T) p) (tra T)) (xyz u)).
  { destruct (tstamps u) as [|x0 l0] eqn:Z.
    - unfold apply_transformation, set_se3, se3. rewrite X. reflexivity.
    - apply apply_transformation_xyz. apply (C09_interpolate_consistent_partial Q seg t req u E). congruence. }
  rewrite XU, X', X, TT, map_map, XT, !map_map. apply map_ext. intro x.
  assert (D := proj1 C). destruct (lin T) as [[m11 m12 m13] [m21 m22 m23] [m31 m32 m33]]. destruct (tra T) as [b1 b2 b3].
  apply V3_eq; cbn [vx vy vz vadd mapply row1 row2 row3 vdot].
  - apply (interp_affine vx vy vz _ m11 m12 m13 b1); [intros []; reflexivity|exact N|exact D].
  - apply (interp_affine vx vy vz _ m21 m22 m23 b2); [intros []; reflexivity|exact N|exact D].
  - apply (interp_affine vx vy vz _ m31 m32 m33 b3); [intros []; reflexivity|exact N|exact D].
Qed.
Print Assumptions C133_interpolation.

(** Merging: when and where, and which way the vehicle faced *)
Theorem C133_merging : forall Q (ops : rot_ops Q) argsort loc (qid : Q) pop T (l : list (traj Q)),
  argsort_contract argsort -> (forall p, length (loc p) = length p) -> (forall s, s <> [] -> In (pop s) s) ->
  l <> [] -> Forall consistent l -> Forall oriented l ->
  exists m m', merge_trajectories argsort loc qid pop l = Ok m /\ merge_trajectories argsort loc qid pop (map (apply_transformation ops T) l) = Ok m' /\
    tstamps m' = tstamps m /\ xyz m' = xyz (apply_transformation ops T m) /\ rot m' = rot (apply_transformation ops T m) /\ epsg m' = epsg m.
Proof.
  intros Q ops argsort loc qid pop T l Ha Hl Hp N F O. set (A := apply_transformation ops T). assert (N' : map A l <> []) by (destruct l; [contradiction|discriminate]).
  assert (F' : Forall consistent (map A l)).
  { rewrite Forall_map. apply Forall_forall. intros t I. apply apply_transformation_consistent. rewrite Forall_forall in F. apply F, I. }
  rewrite Forall_forall in F, O.
  assert (XS : forall t, In t l -> xyz (A t) = map (fun p => vadd (mapply (lin T) p) (tra T)) (xyz t)) by (intros t I; apply apply_transformation_xyz, F, I).
  assert (TS : forall t, In t l -> tstamps (A t) = tstamps t) by (intros t I; apply (apply_transformation_rest ops T t)).
  assert (EP : map epsg (map A l) = map epsg l) by (rewrite map_map; apply map_ext; reflexivity).
  assert (CX : concat (map xyz (map A l)) = map (fun p => vadd (mapply (lin T) p) (tra T)) (concat (map xyz l))).
  { rewrite concat_map, !map_map. f_equal. apply map_ext_in. exact XS. }
  assert (CT : concat (map tstamps (map A l)) = concat (map tstamps l)) by (rewrite map_map; f_equal; apply map_ext_in, TS).
  assert (NX : concat (map xyz l) <> []).
  { destruct l as [|t l]; [contradiction|]. destruct (O t (or_introl eq_refl)) as (q & r & E). destruct (F t (or_introl eq_refl)) as (_ & H & _ & _). rewrite E in H. cbn in H |- *.
    destruct (xyz t); discriminate. }
  assert (NX' : concat (map xyz (map A l)) <> []) by (rewrite CX; destruct (concat (map xyz l)); [contradiction|discriminate]).
  destruct (merged_unsorted argsort loc qid pop Hl l N ltac:(apply Forall_forall; exact F) NX) as (m0 & E & C0 & T0 & X0 & R0 & _ & _ & P0 & _).
  destruct (merged_unsorted argsort loc qid pop Hl (map A l) N' F' NX') as (m0' & E' & C0' & T0' & X0' & R0' & _ & _ & P0' & _).
  destruct (C25_merge Q argsort loc qid pop l Ha Hl Hp ltac:(apply Forall_forall; exact F) N) as (m & Em & Cm & _).
  destruct (C25_merge Q argsort loc qid pop (map A l) Ha Hl Hp F' N') as (m' & Em' & Cm' & _).
  exists m, m'. split; [exact Em|]. split; [exact Em'|].
  rewrite Em in E. rewrite Em' in E'. symmetry in E, E'. rewrite T0', CT, <- T0 in E'. set (ix := IInt _) in *.
  destruct (apply_index_ok m0 ix m C0 E) as (_ & (G1 & G2 & G3 & _) & I). destruct (apply_index_ok m0' ix m' C0' E') as (_ & (K1 & K2 & K3 & _) & I').
  (* all of them have orientations *)
  assert (OO : forall u : traj Q, oriented u -> exists q, rot u = Some q /\ rotations_or_identity qid u = q).
  { intros u (q & r & H). exists (q :: r). split; [exact H|]. unfold rotations_or_identity, has_orientation. rewrite H. reflexivity. }
  assert (OA : forall t, In t l -> exists q, rot t = Some q /\ rotations_or_identity qid t = q /\ rotations_or_identity qid (A t) = map (fun r => from_matrix ops (mmul (lin T) (as_matrix ops r))) q /\ oriented (A t)).
  { intros t It. destruct (O t It) as (q & r & H). exists (q :: r). split; [exact H|]. assert (HA := apply_transformation_rot ops T t (q :: r) (F t It) H). fold (A t) in HA.
    split; [|split]; [| |exists (from_matrix ops (mmul (lin T) (as_matrix ops q))), (map (fun r => from_matrix ops (mmul (lin T) (as_matrix ops r))) r); exact HA].
    - unfold rotations_or_identity, has_orientation. rewrite H. reflexivity.
    - unfold rotations_or_identity, has_orientation. rewrite HA. reflexivity. }
  assert (B : existsb has_orientation l = true).
  { destruct l as [|t l0]; [contradiction|]. cbn. rewrite (proj2 (oriented_bool t) (O t (or_introl eq_refl))). reflexivity. }
  assert (B' : existsb has_orientation (map A l) = true).
  { destruct l as [|t l0]; [contradiction|]. cbn [map existsb]. destruct (OA t (or_introl eq_refl)) as (_ & _ & _ & _ & Y). rewrite (proj2 (oriented_bool (A t)) Y). reflexivity. }
  rewrite B in R0. rewrite B' in R0'.
  assert (CR : concat (map (rotations_or_identity qid) (map A l)) = map (fun r => from_matrix ops (mmul (lin T) (as_matrix ops r))) (concat (map (rotations_or_identity qid) l))).
  { rewrite concat_map, !map_map. f_equal. apply map_ext_in. intros t It. destruct (OA t It) as (q & _ & -> & -> & _). reflexivity. }
  set (f := fun p : pose Q => (p_t p, p_xyz p, p_rot p)).
  assert (PP : map f (poses m0') = map f (map (moved_pose ops T) (poses m0))).
  { apply nth_error_ext. intro i. rewrite !nth_error_map', (poses_nth m0 i C0), (poses_nth m0' i C0'). unfold pose_at. rewrite T0', X0', CT, CX, <- T0, <- X0, R0', CR, R0, !nth_error_map'.
    assert (D : forall {W} (a : list W), length a = tlen m0 -> nth_error a i = None <-> (tlen m0 <= i)%nat) by (intros W a <-; apply nth_error_None).
    destruct C0 as (L1 & L2 & L3 & L4). destruct C0' as (L1' & L2' & L3' & L4'). assert (LX : length (xyz m0') = length (xyz m0)) by (rewrite X0', CX, map_length, X0; reflexivity).
    destruct (nth_error (tstamps m0) i) as [s|] eqn:H1; [|reflexivity].
    assert (LI : (i < tlen m0)%nat) by (unfold tlen; rewrite <- L1; apply nth_error_Some; congruence).
    destruct (nth_error (xyz m0) i) as [x|] eqn:H2; [|reflexivity]. cbn [option_map].
    destruct (nth_error (arc m0) i) as [a|] eqn:H3; [|apply nth_error_None in H3; unfold tlen in LI; lia].
    destruct (nth_error (arc m0') i) as [a'|] eqn:H4; [|apply nth_error_None in H4; unfold tlen in LI; lia].
    destruct (nth_error (speed m0) i) as [v|] eqn:H5; [|apply nth_error_None in H5; unfold tlen in LI; lia].
    destruct (nth_error (speed m0') i) as [v'|] eqn:H6; [|apply nth_error_None in H6; unfold tlen in LI; lia].
    destruct (nth_error (concat (map (rotations_or_identity qid) l)) i) as [r|] eqn:H7; reflexivity. }
  assert (Q1 : np_index (map f (poses m0')) ix = Ok (map f (poses m'))) by (rewrite np_index_map, I'; reflexivity).
  rewrite PP, !np_index_map, I in Q1. cbn [rmap] in Q1. injection Q1 as Q1.
  assert (PM := proj2 (transformation_posewise ops T) m Cm). destruct PM as (CA & PA & _). fold A in CA, PA. rewrite <- PA in Q1.
  destruct (poses_components m' Cm') as (Y1 & Y2 & Y3 & _). destruct (poses_components (A m) CA) as (Z1 & Z2 & Z3 & _).
  assert (W1 : tstamps m' = tstamps (A m)).
  { rewrite <- Y1, <- Z1. transitivity (map (fun x => fst (fst x)) (map f (poses m'))); [rewrite map_map; reflexivity|]. rewrite <- Q1, map_map. reflexivity. }
  assert (W2 : xyz m' = xyz (A m)).
  { rewrite <- Y2, <- Z2. transitivity (map (fun x => snd (fst x)) (map f (poses m'))); [rewrite map_map; reflexivity|]. rewrite <- Q1, map_map. reflexivity. }
  assert (W3 : rots_of m' = rots_of (A m)).
  { rewrite <- Y3, <- Z3. transitivity (map (fun x => snd x) (map f (poses m'))); [rewrite map_map; reflexivity|]. rewrite <- Q1, map_map. reflexivity. }
  split; [rewrite W1; apply (apply_transformation_rest ops T m)|]. split; [exact W2|]. split; [|congruence].
  destruct (rot (A m)) as [q'|] eqn:RA; [|exfalso; unfold A, apply_transformation, set_se3 in RA; discriminate].
  unfold rots_of in W3. rewrite RA in W3. destruct (rot m') as [q|] eqn:RM.
  - f_equal. clear -W3. revert q' W3. induction q as [|x q IH]; intros [|y q'] W; try discriminate; [reflexivity|]. cbn in W. injection W as -> W. f_equal. apply IH, W.
  - exfalso. destruct (apply_index_ok m0' ix m' C0' E') as (_ & (_ & _ & _ & SM) & _). rewrite R0' in SM. apply SM in RM. discriminate.
Qed.
Print Assumptions C133_merging.

(** Concrete case: the second of two poses, cut out and moved *)
Example C133_case : rot_contract rot_impl /\ consistent duo /\ strictly_time_sorted duo /\ oriented duo /\ (2 <= tlen duo)%nat /\
  exists u, crop duo (1/2) 2 false = Ok u /\ tstamps u = [1] /\
    crop (apply_transformation rot_impl (mkM4 mident (mkV3 1 2 3) vzero 1) duo) (1/2) 2 false = Ok (apply_transformation rot_impl (mkM4 mident (mkV3 1 2 3) vzero 1) u) /\
    xyz (apply_transformation rot_impl (mkM4 mident (mkV3 1 2 3) vzero 1) u) = [mkV3 2 2 3].
Proof.
  split; [apply rot_impl_contract|]. split; [apply duo_consistent|].
  split. { unfold strictly_time_sorted. cbn. repeat constructor. lra. }
  split; [exists unrotated, [quarter]; reflexivity|]. split; [unfold tlen; cbn; lia|].
  destruct (C133_transformation RotM rot_impl (mkM4 mident (mkV3 1 2 3) vzero 1) duo duo_consistent) as (_ & H & _).
  assert (E : exists u, crop duo (1/2) 2 false = Ok u /\ tstamps u = [1] /\ xyz u = [mkV3 1 0 0]).
  { unfold crop, apply_index, duo. cbn. repeat rb. eexists. split; [reflexivity|]. split; reflexivity. }
  destruct E as (u & E & TU & XU). exists u. split; [exact E|]. split; [exact TU|]. rewrite H, E. split; [reflexivity|].
  destruct (crop_spec duo (1/2) 2 false duo_consistent) as (w & E' & Cw & _). rewrite E in E'. injection E' as <-.
  rewrite apply_transformation_xyz by exact Cw. rewrite XU. cbn [map]. f_equal. apply V3_eq; unfold mident; munf; cbn [lin tra row1 row2 row3 vx vy vz]; ring.
Qed.
