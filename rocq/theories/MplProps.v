(** C119 to C122: histograms, scatter plots, labels and curves of figures. *)
From Verif Require Import Base BaseFacts NumpyModel NumpyFacts TrajModel TrajSpec TrajFacts TrajFacts3 GeomModel EvalModel EvalStats EvalFacts4 EstModel AngModel TextModel ViewModel ViewSpec PlotModel PlotProps PageModel PageSpec PageFacts GeomSpec GeomFacts GeomFacts2 GeomProps MplModel MplSpec.
From Verif Require DrawProps PageProps.

(** * C119 Histograms show what their legends say *)
Lemma histogram_nth : forall edges l k a b, nth_error edges k = Some a -> nth_error edges (S k) = Some b ->
  nth_error (histogram edges l) k = Some (length (filter (in_bin (S (S k) =? length edges)%nat a b) l)).
Proof.
  induction edges as [|x edges IH]; intros l k a b A B; [destruct k; discriminate|]. destruct edges as [|y r]; [destruct k as [|[|k]]; discriminate|].
  destruct k as [|k].
  - cbn in A, B. injection A as <-. injection B as <-. destruct r as [|z r]; reflexivity.
  - cbn [nth_error] in A. change (nth_error (y :: r) (S k) = Some b) in B. destruct r as [|z r]; [destruct k; discriminate B|].
    change (histogram (x :: y :: z :: r) l) with (length (filter (fun v => Rleb x v && Rltb v y)%bool l) :: histogram (y :: z :: r) l). cbn [nth_error]. rewrite (IH l k a b A B). reflexivity.
Qed.
Lemma histogram_length : forall edges l, length (histogram edges l) = pred (length edges).
Proof.
  induction edges as [|x edges IH]; intro l; [reflexivity|]. destruct edges as [|y [|z r]]; [reflexivity|reflexivity|].
  change (histogram (x :: y :: z :: r) l) with (length (filter (fun v => Rleb x v && Rltb v y)%bool l) :: histogram (y :: z :: r) l). cbn [length]. rewrite (IH l). reflexivity.
Qed.
Lemma filter_twice {A} (p q : A -> bool) (l : list A) : filter p (filter q l) = filter (fun x => andb (q x) (p x)) l.
Proof. induction l as [|x l IH]; [reflexivity|]. cbn. destruct (q x); cbn; [destruct (p x)|]; rewrite IH; reflexivity. Qed.

Lemma one_hist_right auto s (mm : bool) l : auto_contract auto -> histogram_of (if mm then 1000 else 1) l (fst (one_hist auto s mm l)) (snd (one_hist auto s mm l)).
Proof.
  intro A. assert (E : one_hist auto s mm l = norm_hist auto mm false l) by (unfold one_hist, stair_hist; destruct (hist_as_stairs s); reflexivity). rewrite E. clear E.
  unfold norm_hist. set (l' := filter (fun x => Rltb (1 / 1000000) (Rabs x)) l). cbn [fst snd]. exists (auto l'). split; [|split; [|split]].
  - destruct mm; [reflexivity|]. rewrite <- (map_id (auto l')) at 1. apply map_ext. intro x. ring.
  - apply A.
  - rewrite map_length, histogram_length. destruct (A l') as (_ & L & _). lia.
  - intros k a b Ha Hb. rewrite nth_error_map', (histogram_nth _ l' k a b Ha Hb). cbn [option_map]. unfold l'. rewrite filter_twice. reflexivity.
Qed.

(** A histogram determines how many values it counts. *)
Lemma histogram_counts unit values edges heights : histogram_of unit values edges heights ->
  exists counts, heights = map (fun c => Fin (INR c)) counts /\ fold_right Nat.add 0%nat counts = length (filter significant values).
Proof.
  intros (cuts & _ & En & L & H). exists (histogram cuts (filter significant values)). split; [|apply histogram_total, En].
  apply nth_error_ext. intro k. rewrite nth_error_map. destruct (Nat.lt_ge_cases k (length heights)) as [K|K].
  - destruct (nth_error_lt_Some cuts k ltac:(lia)) as [a A]. destruct (nth_error_lt_Some cuts (S k) ltac:(lia)) as [b B]. rewrite (H k a b A B), (histogram_nth _ _ k a b A B). cbn [option_map]. rewrite filter_twice. reflexivity.
  - rewrite (proj2 (nth_error_None heights k) K). rewrite (proj2 (nth_error_None _ k)); [reflexivity|]. rewrite histogram_length. lia.
Qed.

(** The histograms of the rotations are named correctly and in degrees, and so are those of the directed deviations, in the unit of the axis; the
    diagram of the rotations is there if and only if there are rotations. *)
Theorem C119_partial : forall Q (ops : rot_ops Q) auto s (r : ate_result Q), auto_contract auto ->
  (rot_dev r <> None -> fst (plot_rotation_hist ops auto s r) = "[°]"%string /\ map fst (snd (plot_rotation_hist ops auto s r)) = ["yaw"; "pitch"; "roll"]%string /\
     legend_right ops 1 r (snd (plot_rotation_hist ops auto s r))) /\
  (show_directed_devs s = true -> map fst (snd (plot_position_hist auto s r)) = ["vertical"; "horizontal"; "along"]%string /\
     ((ate_unit_is_mm s = true -> fst (plot_position_hist auto s r) = "[mm]"%string /\ legend_right ops 1000 r (snd (plot_position_hist auto s r))) /\
      (ate_unit_is_mm s = false -> fst (plot_position_hist auto s r) = "[m]"%string /\ legend_right ops 1 r (snd (plot_position_hist auto s r))))) /\
  (length (plot_compact_hist ops auto s r) = 2 <-> rot_dev r <> None)%nat.
Proof.
  intros Q ops auto s r A. split; [|split].
  - intro N. split; [reflexivity|]. split; [reflexivity|]. intros label edges heights I. destruct (rot_dev r) as [d|] eqn:D; [|congruence]. clear N.
    assert (M : forall f, map rad2deg (map f (rot_dev_xyz ops r)) = map (fun q => f (as_euler ops q) * (180 / PI)) d) by (intro f; unfold rot_dev_xyz; rewrite D, !map_map; reflexivity).
    unfold plot_rotation_hist in I. rewrite !M in I. cbn [snd with_legend combine In] in I.
    assert (H := fun l => one_hist_right auto s false l A). cbn beta iota in H.
    destruct I as [I|[I|[I|[]]]]; injection I as <- I; (eexists; split; [cbn; rewrite D; reflexivity|]); match type of I with one_hist _ _ _ ?l = _ => specialize (H l); rewrite I in H; exact H end.
  - intro Dir. unfold plot_position_hist. rewrite Dir. split; [reflexivity|].
    assert (G : legend_right ops (if ate_unit_is_mm s then 1000 else 1) r (with_legend ["vertical"; "horizontal"; "along"]%string
       [one_hist auto s (ate_unit_is_mm s) (map vz (directed_pos_dev r)); one_hist auto s (ate_unit_is_mm s) (map vy (directed_pos_dev r)); one_hist auto s (ate_unit_is_mm s) (map vx (directed_pos_dev r))])).
    { intros label edges heights I. cbn [with_legend combine In] in I. assert (H := fun l => one_hist_right auto s (ate_unit_is_mm s) l A).
      destruct I as [I|[I|[I|[]]]]; injection I as <- I; (eexists; split; [reflexivity|]); match type of I with one_hist _ _ _ ?l = _ => specialize (H l); rewrite I in H; exact H end. }
    cbn [fst snd]. unfold unit_str. split; intro M; rewrite M in *; split; [reflexivity|exact G|reflexivity|exact G].
  - unfold plot_compact_hist. destruct (rot_dev r); cbn; split; congruence.
Qed.
Print Assumptions C119_partial.

(** The histograms of the deviations in x, y and z are named the wrong way round: "x" counts the deviations in z and "z" those in x. *)
Theorem C119_refuted : forall Q (ops : rot_ops Q) auto s (r : ate_result Q), auto_contract auto -> show_directed_devs s = false ->
  (exists hx hy hz, snd (plot_position_hist auto s r) = [("x", hx); ("y", hy); ("z", hz)]%string /\
     histogram_of (unit_multiplier s) (map vz (pos_dev r)) (fst hx) (snd hx) /\ histogram_of (unit_multiplier s) (map vy (pos_dev r)) (fst hy) (snd hy) /\
     histogram_of (unit_multiplier s) (map vx (pos_dev r)) (fst hz) (snd hz)) /\
  (length (filter significant (map vx (pos_dev r))) <> length (filter significant (map vz (pos_dev r))) -> ~ legend_right ops (unit_multiplier s) r (snd (plot_position_hist auto s r))).
Proof.
  intros Q ops auto s r A D. unfold plot_position_hist. rewrite D. cbn [snd with_legend combine].
  assert (H := fun l => one_hist_right auto s (ate_unit_is_mm s) l A). fold (unit_multiplier s) in H. split.
  - do 3 eexists. split; [reflexivity|]. split; [apply H|]. split; apply H.
  - intros N L. set (h := one_hist auto s (ate_unit_is_mm s) (map vz (pos_dev r))) in *.
    destruct (L "x"%string (fst h) (snd h)) as (values & E & Hx); [left; rewrite <- surjective_pairing; reflexivity|]. cbn in E. injection E as <-.
    destruct (histogram_counts _ _ _ _ Hx) as (c & Ec & Tc). destruct (histogram_counts _ _ _ _ (H (map vz (pos_dev r)))) as (c' & Ec' & Tc'). fold h in Ec'. rewrite Ec' in Ec.
    assert (I : c' = c). { clear - Ec. revert c Ec. induction c' as [|k c' IH]; intros [|k0 c] E; try discriminate E; [reflexivity|]. cbn in E. injection E as E1 E2. apply INR_eq in E1. f_equal; [exact E1|apply IH, E2]. }
    subst c'. congruence.
Qed.
Print Assumptions C119_refuted.

(** In reports each histogram has the name the settings give to the axis of its values, and rotations are in degrees. *)
Theorem C119_report : forall Q (ops : rot_ops Q) n directed (r : ate_result Q) label values,
  (In (label, values) (render_pos_devs n directed r) -> exists axis, In axis [(vx, fun t => fst (fst t)); (vy, fun t => snd (fst t)); (vz, fun t => snd t)] /\
     label = snd axis (if directed then dir_names n else pos_names n) /\ Forall2 (fun d v => v = fst axis d) (if directed then directed_pos_dev r else pos_dev r) values) /\
  (forall d fig, rot_dev r = Some d -> render_rot_devs ops n r = Ok fig -> In (label, values) fig ->
     exists axis, In axis [(vx, fun t => fst (fst t)); (vy, fun t => snd (fst t)); (vz, fun t => snd t)] /\
       label = snd axis (rot_names n) /\ Forall2 (fun q v => v * PI / 180 = fst axis (as_euler ops q)) d values).
Proof.
  intros Q ops n directed r label values. split.
  - unfold render_pos_devs. set (t := if directed then dir_names n else pos_names n). set (devs := if directed then directed_pos_dev r else pos_dev r). destruct t as [[a b] c] eqn:E. intro I.
    assert (G : forall f : V3 -> R, Forall2 (fun d v => v = f d) devs (map f devs)) by (intro f; clear; clearbody devs; induction devs as [|x l IH]; [constructor|constructor; [reflexivity|exact IH]]).
    destruct I as [I|[I|[I|[]]]]; injection I as <- <-; [exists (vx, fun t => fst (fst t))|exists (vy, fun t => snd (fst t))|exists (vz, fun t => snd t)]; (split; [cbn; auto|]); (split; [reflexivity|apply G]).
  - intros d fig D E I. unfold render_rot_devs in E. rewrite D in E. destruct (rot_names n) as [[a b] c]. injection E as <-.
    assert (G : forall f : V3 -> R, Forall2 (fun q v => v * PI / 180 = f (as_euler ops q)) d (map rad2deg (map f (rot_dev_xyz ops r)))).
    { intro f. unfold rot_dev_xyz. rewrite D, !map_map. clear. induction d as [|x l IH]; [constructor|constructor; [|exact IH]]. unfold rad2deg. assert (P := PI_neq0). field. exact P. }
    destruct I as [I|[I|[I|[]]]]; injection I as <- <-; [exists (vx, fun t => fst (fst t))|exists (vy, fun t => snd (fst t))|exists (vz, fun t => snd t)]; (split; [cbn; auto|]); (split; [reflexivity|apply G]).
Qed.
Print Assumptions C119_report.

(** Comparisons with orientations, and with different numbers of deviations in x and z *)
Lemma backwards_devs : exists r, compare_absolute rot_impl (DrawProps.backwards 1) (DrawProps.backwards 2) = Ok r /\ pos_dev r = [vsub vzero vzero; vsub (mkV3 2 0 0) (mkV3 1 0 0)].
Proof.
  destruct (compare_absolute_ok rot_impl (DrawProps.backwards 1) (DrawProps.backwards 2)) as (r & E & _ & _ & L & _ & P & _); [repeat split..|]. exists r. split; [exact E|].
  assert (P0 := P 0%nat _ _ eq_refl eq_refl). assert (P1 := P 1%nat _ _ eq_refl eq_refl). destruct (pos_dev r) as [|a [|b [|]]]; try discriminate L. injection P0 as ->. injection P1 as ->. reflexivity.
Qed.
Example C119_case : auto_contract PageProps.one_bin /\ (exists r : ate_result RotM, compare_absolute rot_impl duo duo = Ok r /\ rot_dev r <> None) /\
  (exists r : ate_result RotM, compare_absolute rot_impl (DrawProps.backwards 1) (DrawProps.backwards 2) = Ok r /\
     length (filter significant (map vx (pos_dev r))) <> length (filter significant (map vz (pos_dev r)))).
Proof.
  split; [apply PageProps.C112_case|]. split.
  - destruct DrawProps.C100_plot_case as (r & E & N & _). exists r. auto.
  - destruct backwards_devs as (r & E & P). exists r. split; [exact E|]. rewrite P. cbn [map filter vx vz vsub vzero].
    assert (Z : significant (0 - 0) = false) by (apply Rltb_false; rewrite Rminus_0_r, Rabs_R0; lra). assert (O : significant (2 - 1) = true) by (apply Rltb_true; rewrite Rabs_right; lra).
    rewrite Z, O. cbn. discriminate.
Qed.

(** * C120 Scatter plots of deviations *)
Lemma coloured shown s xyz c label : c <> [] -> (0 < scatter_cbar_steps (mpl_cbar s))%nat -> 0 <= scatter_sigma_factor (mpl_cbar s) -> length xyz = length c ->
  exists fig, colored_scatter shown s xyz c label = Ok fig /\ sf_label fig = label /\ sf_axis_off fig = scatter_no_axis s /\ coloured_right xyz c fig.
Proof.
  intros NE N P L. destruct (C97 (mpl_cbar s) shown c NE N P) as (b & E & LU & LB & V & _). unfold colored_scatter. rewrite E. cbn [bind]. rewrite LB, L, Nat.eqb_refl.
  eexists. split; [reflexivity|]. split; [reflexivity|]. split; [reflexivity|]. split; [|split; [exact LU|]]; cbn [sf_points sf_lower sf_upper].
  - rewrite combine_length, map_length, LB, L. apply Nat.min_id.
  - intros i p v Hp Hv. destruct (V i v Hv) as (x & Hx & H). exists x. split; [|exact H]. apply nth_error_combine_some; [|exact Hx]. rewrite nth_error_map', Hp. reflexivity.
Qed.

(** Every pose is drawn at its own position, coloured by its own deviation in the unit of the colour bar, and results with orientation deviations get a
    second figure coloured by the angles in degrees. *)
Theorem C120_partial : forall Q rv shown s (r : ate_result Q), pos_dev r <> [] -> length (pos_dev r) = tlen (ate_trajectory r) ->
  (forall d, rot_dev r = Some d -> length d = tlen (ate_trajectory r)) ->
  exists pos rest, scatter_deviations rv shown s r = Ok (pos :: rest) /\
    (ate_unit_is_mm s = true -> sf_label pos = "Deviation [mm]"%string /\ coloured_right (xyz (ate_trajectory r)) (map (fun v => vnorm v * 1000) (pos_dev r)) pos) /\
    (ate_unit_is_mm s = false -> sf_label pos = "Deviation [m]"%string /\ coloured_right (xyz (ate_trajectory r)) (map vnorm (pos_dev r)) pos) /\
    match rot_dev r with
    | None => rest = []
    | Some d => exists rot, rest = [rot] /\ sf_label rot = "Deviation [°]"%string /\ coloured_right (xyz (ate_trajectory r)) (map (fun q => vnorm (rv q) * 180 / PI) d) rot
    end.
Proof.
  intros Q rv shown s r NE L LR. unfold scatter_deviations.
  assert (M : map (fun d => d * unit_multiplier s) (pos_dev_comb r) <> []) by (unfold pos_dev_comb; destruct (pos_dev r); [congruence|discriminate]).
  destruct (coloured shown default_mpl (xyz (ate_trajectory r)) _ ("Deviation " ++ unit_str s) M) as (pos & E & Lab & _ & H); [cbn; lia|cbn; lra|unfold pos_dev_comb; rewrite !map_length; symmetry; exact L|].
  rewrite E. cbn [bind]. unfold pos_dev_comb in H. rewrite map_map in H.
  assert (P : (ate_unit_is_mm s = true -> sf_label pos = "Deviation [mm]"%string /\ coloured_right (xyz (ate_trajectory r)) (map (fun v => vnorm v * 1000) (pos_dev r)) pos) /\
    (ate_unit_is_mm s = false -> sf_label pos = "Deviation [m]"%string /\ coloured_right (xyz (ate_trajectory r)) (map vnorm (pos_dev r)) pos)).
  { unfold unit_multiplier, unit_str in *. split; intro K; rewrite K in *; (split; [exact Lab|]); [exact H|]. rewrite (map_ext _ vnorm) in H; [exact H|]. intro v. ring. }
  destruct P as [P1 P2]. destruct (rot_dev r) as [d|] eqn:D.
  - destruct (coloured shown default_mpl (xyz (ate_trajectory r)) (map (fun q => rotangle rv q * 180 / PI) d) "Deviation [°]") as (rot & E2 & Lab2 & _ & H2); [|cbn; lia|cbn; lra|rewrite map_length; symmetry; apply LR; reflexivity|].
    { specialize (LR d eq_refl). destruct d; [|discriminate]. cbn in LR. rewrite <- L in LR. destruct (pos_dev r); [congruence|discriminate]. }
    rewrite E2. cbn [bind]. exists pos, [rot]. split; [reflexivity|]. split; [exact P1|]. split; [exact P2|]. exists rot. auto.
  - exists pos, []. auto.
Qed.
Print Assumptions C120_partial.

(** Eleven deviations of zero and one of one metre *)
Definition outlier (x : R) : traj RotM := mkTraj (map INR (seq 0 12)) (repeat vzero 11 ++ [mkV3 x 0 0]) None (repeat 0 12) (repeat vzero 12) SortTime "outlier" 0.
(** The settings of the colour bar and of the axes have no effect: two settings with the same unit give the same figures, with axes; values are cut off even
    if the settings say that the colour bar goes from the smallest to the largest value. *)
Theorem C120_refuted : (forall Q rv shown s s' (r : ate_result Q), ate_unit_is_mm s = ate_unit_is_mm s' -> scatter_deviations rv shown s r = scatter_deviations rv shown s' r) /\
  (forall Q rv shown s (r : ate_result Q) figs, scatter_deviations rv shown s r = Ok figs -> Forall (fun f => sf_axis_off f = false) figs) /\
  (forall rv shown s, scatter_sigma_factor (mpl_cbar s) = 0 -> ate_unit_is_mm s = false ->
     exists r fig, compare_absolute rot_impl (outlier 0) (outlier 1) = Ok r /\ scatter_deviations rv shown s r = Ok [fig] /\
       nth_error (map vnorm (pos_dev r)) 11 = Some 1 /\ exists p c, nth_error (sf_points fig) 11 = Some (p, c) /\ c < 1).
Proof.
  split; [|split].
  - intros Q rv shown s s' r E. unfold scatter_deviations, unit_multiplier, unit_str. rewrite E. reflexivity.
  - intros Q rv shown s r figs E. unfold scatter_deviations in E. apply bind_ok in E as (pos & E1 & E).
    assert (G : forall xyz c l f, colored_scatter shown default_mpl xyz c l = Ok f -> sf_axis_off f = false).
    { intros xyz c l f H. unfold colored_scatter in H. apply bind_ok in H as (cb & _ & H). destruct (_ =? _)%nat; [|discriminate]. injection H as <-. reflexivity. }
    destruct (rot_dev r) as [d|]; [apply bind_ok in E as (rot & E2 & E)|]; injection E as <-; repeat constructor; eapply G; eassumption.
  - intros rv shown s Z U. destruct (compare_absolute_ok rot_impl (outlier 0) (outlier 1)) as (r & E & _ & T & L & _ & P & _ & _ & RD); [repeat split..|]. exists r.
    assert (PD : map vnorm (pos_dev r) = repeat 0 11 ++ [1]).
    { assert (V0 : vnorm (vsub vzero vzero) = 0) by (unfold vnorm, vsub, vdot; cbn; replace (_ + _ + _) with 0 by ring; apply sqrt_0).
      assert (V1 : vnorm (vsub (mkV3 1 0 0) (mkV3 0 0 0)) = 1) by (unfold vnorm, vsub, vdot; cbn; replace (_ + _ + _) with 1 by ring; apply sqrt_1).
      apply nth_error_ext. intro i. rewrite nth_error_map'. do 12 (destruct i as [|i]; [erewrite P by reflexivity; cbn [option_map]; rewrite ?V0, ?V1; reflexivity|]).
      rewrite (proj2 (nth_error_None (pos_dev r) _)); [|rewrite L; cbn; lia]. destruct i; reflexivity. }
    assert (RN : rot_dev r = None) by exact RD.
    assert (NE : pos_dev r <> []) by (destruct (pos_dev r); [discriminate L|discriminate]).
    assert (LT : length (pos_dev r) = tlen (ate_trajectory r)) by (rewrite L, T; reflexivity).
    destruct (C120_partial RotM rv shown s r NE LT) as (fig & rest & EF & _ & HM & HR); [rewrite RN; discriminate|]. rewrite RN in HR. subst rest. exists fig.
    split; [exact E|]. split; [exact EF|]. rewrite PD. split; [reflexivity|].
    destruct (HM U) as (_ & _ & _ & C). rewrite PD, T in C. destruct (C 11%nat (mkV3 0 0 0) 1 eq_refl eq_refl) as (c & Hc & B & _). exists (0, 0), c. split; [exact Hc|].
    apply (Rle_lt_trans _ (sf_upper fig)); [apply B|].
    unfold scatter_deviations in EF. apply bind_ok in EF as (pos & E1 & EF). rewrite RN in EF. injection EF as ->. unfold colored_scatter in E1. apply bind_ok in E1 as (cb & E2 & E1). destruct (_ =? _)%nat; [|discriminate]. injection E1 as <-. cbn [sf_upper].
    unfold setup_cbar in E2. apply bind_ok in E2 as ([lo hi] & E3 & E2). apply bind_ok in E2 as (ticks & _ & E2). injection E2 as <-. cbn [cb_upper].
    unfold pos_dev_comb in E3. rewrite PD in E3. unfold unit_multiplier in E3. rewrite U in E3. unfold cbar_bounds in E3. apply bind_ok in E3 as (lo' & _ & E3). apply bind_ok in E3 as (hi' & _ & E3).
    cbn [mpl_cbar default_mpl scatter_sigma_factor] in E3. rewrite (proj2 (Reqb_false 3 0)) in E3 by lra.
    match type of E3 with match np_mean ?l with _ => _ end = _ => set (l0 := l) in E3 end.
    assert (Em : np_mean l0 = Some (1 / 12)) by (unfold l0; cbn; f_equal; field). unfold np_std in E3. rewrite Em in E3. cbn [option_map] in E3.
    assert (Es : np_mean (map (fun x => (x - 1 / 12) * (x - 1 / 12)) l0) = Some (11 / 144)) by (unfold l0; cbn; f_equal; field). rewrite Es in E3. cbn [option_map] in E3. injection E3 as _ <-.
    apply (Rle_lt_trans _ (1 / 12 + 3 * sqrt (11 / 144))); [apply Rmin_r|]. assert (sqrt (11 / 144) < 11 / 36); [|lra].
    rewrite <- (sqrt_square (11 / 36)) by lra. apply sqrt_lt_1; lra.
Qed.
Print Assumptions C120_refuted.
Example C120_case : exists r : ate_result RotM, compare_absolute rot_impl duo duo = Ok r /\ pos_dev r <> [] /\ length (pos_dev r) = tlen (ate_trajectory r) /\
  (forall d, rot_dev r = Some d -> length d = tlen (ate_trajectory r)) /\ rot_dev r <> None.
Proof.
  destruct (compare_absolute_ok rot_impl duo duo duo_consistent duo_consistent eq_refl) as (r & E & _ & T & L & _ & _ & _ & _ & D).
  exists r. split; [exact E|]. cbn [rot duo] in D. destruct D as (d & -> & LD & _). rewrite T. split; [destruct (pos_dev r); [discriminate L|discriminate]|]. split; [exact L|]. split; [|discriminate]. intros d' H. injection H as <-. exact LD.
Qed.

(** * C121 Labels of axes *)
Lemma forallb_Forall {A} (p : A -> bool) (P : A -> Prop) (l : list A) : (forall x, p x = true <-> P x) -> forallb p l = true <-> Forall P l.
Proof. intro H. rewrite forallb_forall, Forall_forall. split; intros G x I; apply H, G, I. Qed.

Definition sorting_dec (a b : sorting) : {a = b} + {a <> b}.
Proof. decide equality. Defined.

(** The label of the abscissa says what the curves are drawn over. *)
Theorem C121_abscissa : forall Q argsort (ts : list (traj Q)) label curves, plot_xyz argsort ts = Ok (label, curves) ->
  (label = "trajectory length [m]"%string <-> Forall (fun t => srt t = SortArc) ts) /\
  (label = "time [s]"%string <-> ts <> [] /\ Forall (fun t => srt t = SortTime) ts) /\
  (label = "time [s] / trajectory length [m]"%string <-> exists t t', In t ts /\ In t' ts /\ srt t = SortTime /\ srt t' = SortArc).
Proof.
  intros Q argsort ts label curves E. unfold plot_xyz in E. apply bind_ok in E as (c & _ & E). injection E as <- _. unfold derive_xlabel.
  assert (FA := forallb_Forall (fun s => match s with SortArc => true | SortTime => false end) (fun s => s = SortArc) (map srt ts) ltac:(intros []; split; congruence)).
  assert (FT := forallb_Forall (fun s => match s with SortTime => true | SortArc => false end) (fun s => s = SortTime) (map srt ts) ltac:(intros []; split; congruence)).
  rewrite Forall_map in FA, FT.
  destruct (forallb _ (map srt ts)) eqn:EA in *.
  - assert (A := proj1 FA eq_refl). rewrite Forall_forall in A. split; [|split].
    + split; [intros _; apply Forall_forall, A|reflexivity].
    + split; [discriminate|]. intros [N T]. destruct ts as [|t ts]; [congruence|]. inversion T; subst. rewrite (A t (or_introl eq_refl)) in *. discriminate.
    + split; [discriminate|]. intros (t & _ & I & _ & S & _). rewrite (A t I) in S. discriminate.
  - assert (NA : ~ Forall (fun t => srt t = SortArc) ts) by (intro H; apply FA in H; discriminate).
    destruct (forallb (fun s => match s with SortTime => true | SortArc => false end) (map srt ts)) eqn:ET in *.
    + assert (T := proj1 FT eq_refl). split; [split; [discriminate|contradiction]|]. split.
      * split; [intros _; split; [intros ->; apply NA; constructor|exact T]|reflexivity].
      * split; [discriminate|]. intros (_ & t & _ & I & _ & S). rewrite Forall_forall in T. rewrite (T t I) in S. discriminate.
    + assert (NT : ~ Forall (fun t => srt t = SortTime) ts) by (intro H; apply FT in H; discriminate). split; [split; [discriminate|contradiction]|]. split; [split; [discriminate|intros [_ H]; contradiction]|].
      split; [intros _|reflexivity].
      assert (X : forall s, ~ Forall (fun t => srt t = s) ts -> exists t, In t ts /\ srt t <> s).
      { intros s H. destruct (Forall_Exists_dec (fun t => srt t = s) (fun t => sorting_dec (srt t) s) ts) as [F|F]; [contradiction|]. apply Exists_exists in F. exact F. }
      destruct (X _ NA) as (t & I & S), (X _ NT) as (t' & I' & S'). exists t, t'. split; [exact I|]. split; [exact I'|]. destruct (srt t), (srt t'); split; congruence.
Qed.
Print Assumptions C121_abscissa.

(** Labels of the coordinates exist whenever the reference systems are known; trajectories without a reference system are labelled in metres; trajectories in the same
    reference system are labelled with the names and units of its axes; a unit is only given if all trajectories have it. *)
Theorem C121_partial : forall Q crs (ts : list (traj Q)), crs_contract crs -> 
  exists x y z, get_axis_label crs ts = Ok (x, y, z) /\
    (Forall (fun t => epsg t = 0%Z) ts -> (x, y, z) = ("x [m]", "y [m]", "z [m]")%string) /\
    (forall t t' u u', In t ts -> In t' ts -> first_unit crs t = Ok u -> first_unit crs t' = Ok u' -> u <> u' -> (x, y, z) = ("x", "y", "z")%string) /\
    (forall e ax ay rest, e <> 0%Z -> crs e = Some (ax :: ay :: rest) -> ts <> [] -> Forall (fun t => epsg t = e) ts ->
       x = (axis_name ax ++ " [" ++ shown_unit (axis_unit ax) ++ "]")%string /\ (axis_unit ay = axis_unit ax -> y = (axis_name ay ++ " [" ++ shown_unit (axis_unit ay) ++ "]")%string) /\
       z = match rest with az :: _ => (axis_name az ++ " [" ++ shown_unit (axis_unit az) ++ "]")%string | [] => "z [m]"%string end).
Proof.
  intros Q crs ts [C0 C]. unfold get_axis_label.
  assert (FU : forall t : traj Q, exists u, first_unit crs t = Ok u /\ (u = "unknown"%string <-> epsg t = 0%Z)).
  { intro t. unfold first_unit. destruct (Z.eq_dec (epsg t) 0) as [Z|Z].
    - rewrite Z, C0. eexists. split; [reflexivity|]. split; reflexivity.
    - destruct (C _ Z) as (ax & ay & rest & -> & N). eexists. split; [reflexivity|]. split; [contradiction|contradiction]. }
  assert (FZ := forallb_Forall (fun t : traj Q => Z.eqb (epsg t) 0) (fun t => epsg t = 0%Z) ts (fun t => Z.eqb_eq _ _)).
  destruct (forallb _ ts) eqn:E.
  - assert (A := proj1 FZ eq_refl). rewrite Forall_forall in A. do 3 eexists. split; [reflexivity|]. split; [reflexivity|]. split.
    + intros t t' u u' I I' U U' N. unfold first_unit in U, U'. rewrite (A t I), C0 in U. rewrite (A t' I'), C0 in U'. congruence.
    + intros e ax ay rest Ne Ce NE F. destruct ts as [|t ts]; [congruence|]. inversion F; subst. exfalso. apply Ne, A. left. reflexivity.
  - assert (NZ : ~ Forall (fun t => epsg t = 0%Z) ts) by (intro H; apply FZ in H; discriminate). clear FZ E.
    assert (MU : exists units, mapM (first_unit crs) ts = Ok units /\ Forall2 (fun t u => first_unit crs t = Ok u) ts units).
    { clear NZ. induction ts as [|t ts (us & E & F)]; [exists []; split; [reflexivity|constructor]|]. destruct (FU t) as (u & U & _). exists (u :: us). cbn [mapM]. rewrite U, E. split; [reflexivity|constructor; assumption]. }
    destruct MU as (units & -> & F2). cbn [bind].
    assert (IN : forall t, In t ts -> exists u, In u units /\ first_unit crs t = Ok u). { clear - F2. induction F2; intros t [].  - subst. eexists. split; [left; reflexivity|assumption]. - destruct (IHF2 t H0) as (u & I & U). exists u. split; [right; exact I|exact U]. }
    assert (NI : forall u, In u units -> exists t, In t ts /\ first_unit crs t = Ok u). { clear - F2. induction F2; intros u [].  - subst. eexists. split; [left; reflexivity|assumption]. - destruct (IHF2 u H0) as (t & I & U). exists t. split; [right; exact I|exact U]. }
    destruct (nodup string_dec units) as [|u [|u2 us]] eqn:ND.
    + exfalso. destruct ts as [|t ts]; [apply NZ; constructor|]. destruct (IN t (or_introl eq_refl)) as (u & I & _). apply (nodup_In string_dec) in I. rewrite ND in I. destruct I.
    + assert (ALL : forall t, In t ts -> first_unit crs t = Ok u). { intros t I. destruct (IN t I) as (v & J & V). apply (nodup_In string_dec) in J. rewrite ND in J. destruct J as [<-|[]]. exact V. }
      destruct ts as [|t ts]; [exfalso; apply NZ; constructor|]. assert (U0 := ALL t (or_introl eq_refl)).
      assert (Nu : u <> "unknown"%string). { intros ->. apply NZ, Forall_forall. intros t' I. destruct (FU t') as (v & V & K). rewrite (ALL t' I) in V. injection V as <-. apply K. reflexivity. }
      assert (Ne : epsg t <> 0%Z). { intro Z. destruct (FU t) as (v & V & K). rewrite U0 in V. injection V as <-. apply Nu, K, Z. }
      destruct (C _ Ne) as (ax & ay & rest & Ce & _). unfold first_unit in U0. rewrite Ce in *. cbn in U0. injection U0 as <-. cbn [nth_axis nth_error bind].
      do 3 eexists. split; [reflexivity|]. split; [intro H; contradiction|]. split.
      * intros t1 t2 u1 u2 I1 I2 U1 U2 N. rewrite (ALL t1 I1) in U1. rewrite (ALL t2 I2) in U2. congruence.
      * intros e ax' ay' rest' Ne' Ce' _ F. inversion F; subst. rewrite Ce in Ce'. injection Ce' as <- <- <-. split; [reflexivity|]. split; [intros ->; reflexivity|]. destruct rest; reflexivity.
    + do 3 eexists. split; [reflexivity|]. split; [intro H; contradiction|]. split; [reflexivity|].
      intros e ax ay rest Ne Ce NE F. exfalso. assert (K : forall v, In v units -> v = axis_unit ax). { intros v I. destruct (NI v I) as (t & J & V). rewrite Forall_forall in F. unfold first_unit in V. rewrite (F t J), Ce in V. cbn in V. congruence. }
      assert (N := NoDup_nodup string_dec units). rewrite ND in N. inversion N as [|? ? N1 _]. apply N1. left.
      rewrite (K u2), (K u); [reflexivity| |]; apply (nodup_In string_dec); rewrite ND; cbn; auto.
Qed.
Print Assumptions C121_partial.

(** Two projected systems, one with the easting first and one with the northing first, and a system with a height in feet *)
Definition sample_crs (e : Z) : option (list axis) :=
  if Z.eqb e 0 then None
  else if Z.eqb e 31467 then Some [mkAxis "Northing" "metre"; mkAxis "Easting" "metre"; mkAxis "Height" "foot"]
  else Some [mkAxis "Easting" "metre"; mkAxis "Northing" "metre"].
Definition in_system (e : Z) : traj RotM := mkTraj [0; 1] [vzero; mkV3 1 0 0] None [0; 1] [vzero; vzero] SortTime "" e.
(** With trajectories in different reference systems of the same unit the labels name the axes of the first one: what is labelled "Easting" is the
    northing of the second trajectory, and its heights in feet are labelled as metres. *)
Theorem C121_refuted : crs_contract sample_crs /\
  get_axis_label sample_crs [in_system 25832; in_system 31467] = Ok ("Easting [m]", "Northing [m]", "z [m]")%string /\
  get_axis_label sample_crs [in_system 31467] = Ok ("Northing [m]", "Easting [m]", "Height [foot]")%string.
Proof.
  split.
  - split; [reflexivity|]. intros e N. unfold sample_crs. rewrite (proj2 (Z.eqb_neq _ _) N). destruct (Z.eqb e 31467); do 3 eexists; (split; [reflexivity|discriminate]).
  - split; reflexivity.
Qed.
Print Assumptions C121_refuted.
(** * C122 Curves of trajectories *)
Lemma curve_shows {Q A} argsort (t : traj Q) (values : list A) : argsort_contract argsort -> consistent t -> length values = tlen t ->
  exists f v, function_of argsort t = Ok f /\ np_take values (map Z.of_nat (sorting_index argsort t)) = Ok v /\ length f = tlen t /\ length v = tlen t /\ shows t values (combine f v).
Proof.
  intros C K L. assert (LK := sort_key_length t K). destruct (sorted_view argsort t (sort_key t) C K LK) as (f & EF & PF & NF & _). destruct (sorted_view argsort t values C K L) as (v & EV & PV & NV & _).
  destruct (sorted_view argsort t (combine (sort_key t) values) C K) as (p & EP & PP & NP & _); [rewrite combine_length; lia|].
  destruct (sorted_view_keys argsort t C K) as (f' & EF' & SF & _). assert (F : function_of argsort t = Ok f) by exact EF. rewrite F in EF'. injection EF' as <-.
  assert (LF := Permutation_length PF). assert (LV := Permutation_length PV). exists f, v. split; [exact F|]. split; [exact EV|]. split; [lia|]. split; [lia|].
  assert (E : p = combine f v).
  { apply nth_error_ext. intro k. rewrite NP. specialize (NF k). specialize (NV k). destruct (nth_error (sorting_index argsort t) k) as [i|].
    - destruct (nth_error (sort_key t) i) as [a|] eqn:A0.
      + assert (I := nth_error_Some_lt _ _ _ A0). destruct (nth_error_lt_Some values i ltac:(lia)) as [b B]. rewrite B in NV. rewrite (nth_error_combine_some _ _ _ _ _ A0 B). symmetry. apply nth_error_combine_some; assumption.
      + apply nth_error_None in A0. rewrite (proj2 (nth_error_None (combine (sort_key t) values) i)) by (rewrite combine_length; lia). symmetry. apply nth_error_None. rewrite combine_length. apply nth_error_None in NF. lia.
    - symmetry. apply nth_error_None. rewrite combine_length. apply nth_error_None in NF. lia. }
  rewrite <- E. split; [exact PP|]. rewrite E. assert (M : map fst (combine f v) = f); [|rewrite M; exact SF]. clear - LF LV LK L. assert (X : length f = length v) by congruence. clear - X. revert v X. induction f as [|a f IH]; intros [|b v] X; try discriminate X; [reflexivity|]. cbn. f_equal. apply IH. cbn in X. lia.
Qed.

Lemma take_map {A B} (f : A -> B) (l : list A) idx v w : np_take l idx = Ok v -> np_take (map f l) idx = Ok w -> w = map f v.
Proof.
  intros E F. apply nth_error_ext. intro i. rewrite (np_take_nth _ _ _ F i), nth_error_map', (np_take_nth _ _ _ E i), map_length. destruct (nth_error idx i) as [z|]; [|reflexivity]. destruct (py_index (length l) z) as [k|]; [apply nth_error_map'|reflexivity].
Qed.

(** Angles in degrees *)
Definition degrees (v : V3) : V3 := mkV3 (vx v * (180 / PI)) (vy v * (180 / PI)) (vz v * (180 / PI)).

(** Every pose of every trajectory is drawn with its coordinates at its time (or arc length), from left to right, under the name of the trajectory; and so are
    the angles of every trajectory with orientations.  Both kinds of plots agree. *)
Theorem C122_partial : forall Q argsort (ops : rot_ops Q) (ts : list (traj Q)), argsort_contract argsort -> Forall consistent ts ->
  (exists label curves, plot_xyz argsort ts = Ok (label, curves) /\
     Forall2 (fun t c => fst c = name t /\ length (fst (snd c)) = length (snd (snd c)) /\ shows t (xyz t) (combine (fst (snd c)) (snd (snd c)))) ts curves) /\
  (exists fig fig', plot_rpy argsort ops ts = Ok fig /\ render_rot_plot argsort ops ts = Ok fig' /\ option_map snd fig = option_map snd fig' /\
     let oriented := filter (fun t => match rot t with Some q => negb (length q =? 0)%nat | None => false end) ts in
     match fig with
     | None => oriented = []
     | Some (label, curves) => oriented <> [] /\
         Forall2 (fun t c => fst c = name t /\ length (fst (snd c)) = length (snd (snd c)) /\ exists q, rot t = Some q /\ shows t (map (fun x => degrees (as_euler ops x)) q) (combine (fst (snd c)) (snd (snd c)))) oriented curves
     end).
Proof.
  intros Q argsort ops ts C F. split.
  - unfold plot_xyz. assert (M : exists curves, mapM (fun t => let! f := function_of argsort t in let! p := xyz_sorted argsort t in Ok (name t, (f, p))) ts = Ok curves /\
      Forall2 (fun t c => fst c = name t /\ length (fst (snd c)) = length (snd (snd c)) /\ shows t (xyz t) (combine (fst (snd c)) (snd (snd c)))) ts curves).
    { induction F as [|t ts K F (cs & E & G)]; [exists []; split; [reflexivity|constructor]|]. destruct (curve_shows argsort t (xyz t) C K eq_refl) as (f & v & EF & EV & LF & LV & S).
      exists ((name t, (f, v)) :: cs). cbn [mapM]. unfold xyz_sorted. rewrite EF. cbn [bind]. rewrite EV. cbn [bind]. fold (xyz_sorted (Q := Q) argsort). unfold xyz_sorted in E. rewrite E. split; [reflexivity|].
      constructor; [|exact G]. cbn [fst snd]. split; [reflexivity|]. split; [congruence|exact S]. }
    destruct M as (curves & E & G). rewrite E. cbn [bind]. do 2 eexists. split; [reflexivity|exact G].
  - unfold plot_rpy, render_rot_plot. set (sel := flat_map _ ts).
    assert (M : exists curves, mapM (fun tq => let! f := function_of argsort (fst tq) in let! a := rpy_sorted argsort ops (fst tq) (snd tq) in
                                   Ok (name (fst tq), (f, map (fun v => mkV3 (rad2deg (vx v)) (rad2deg (vy v)) (rad2deg (vz v))) a))) sel = Ok curves /\
      Forall2 (fun t c => fst c = name t /\ length (fst (snd c)) = length (snd (snd c)) /\ exists q, rot t = Some q /\ shows t (map (fun x => degrees (as_euler ops x)) q) (combine (fst (snd c)) (snd (snd c))))
        (filter (fun t => match rot t with Some q => negb (length q =? 0)%nat | None => false end) ts) curves /\
      (sel = [] <-> filter (fun t => match rot t with Some q => negb (length q =? 0)%nat | None => false end) ts = [])).
    { subst sel. induction F as [|t ts K F (cs & E & G & Z)]; [exists []; split; [reflexivity|split; [constructor|split; reflexivity]]|]. cbn [flat_map filter]. destruct (rot t) as [q|] eqn:RT; [|exists cs; auto]. destruct (length q =? 0)%nat eqn:LZ; [exists cs; auto|].
      assert (LQ : length q = tlen t) by (destruct K as (_ & K & _); rewrite RT in K; exact K).
      destruct (curve_shows argsort t q C K LQ) as (f & v & EF & EV & LF & LV & _).
      destruct (curve_shows argsort t (map (fun x => degrees (as_euler ops x)) q) C K) as (f2 & v2 & EF2 & EV2 & _ & LV2 & S); [rewrite map_length; exact LQ|]. rewrite EF in EF2. injection EF2 as <-.
      assert (V2 : v2 = map (fun x => degrees (as_euler ops x)) v). { apply (take_map (fun x => degrees (as_euler ops x)) q _ v v2 EV EV2). }
      exists ((name t, (f, v2)) :: cs). cbn [app mapM fst snd]. rewrite EF. cbn [bind]. unfold rpy_sorted at 1. rewrite EV. cbn [bind]. rewrite E. cbn [bind]. rewrite map_map. split; [f_equal; f_equal; rewrite V2; reflexivity|].
      split; [|split; discriminate]. constructor; [|exact G]. cbn [fst snd]. split; [reflexivity|]. split; [congruence|]. exists q. split; [exact RT|exact S]. }
    destruct M as (curves & E & G & Z). rewrite E. cbn [bind]. do 2 eexists. split; [reflexivity|]. split; [reflexivity|]. destruct sel as [|x0 sel0].
    + split; [reflexivity|]. apply Z. reflexivity.
    + split; [reflexivity|]. split; [intro H; apply Z in H; discriminate|exact G].
Qed.
Print Assumptions C122_partial.

(** The line through the positions of a trajectory goes through them in the current sorting if they are stored in that order; other dimensions are refused, ... *)
Theorem C122_line_partial : forall Q dim (ts : list (traj Q)),
  (dim <> 2%Z -> dim <> 3%Z -> plot_pos dim ts = Err ValueError) /\
  ((dim = 2 \/ dim = 3)%Z -> exists lines, plot_pos dim ts = Ok lines /\
     Forall2 (fun t l => fst l = name t /\ length (snd l) = Z.to_nat dim /\
       (StronglySorted Rle (sort_key t) -> consistent t -> exists p, in_sorting_order t p /\ nth_error (snd l) 0 = Some (map vx p) /\ nth_error (snd l) 1 = Some (map vy p) /\ (dim = 3%Z -> nth_error (snd l) 2 = Some (map vz p)))) ts lines).
Proof.
  intros Q dim ts. split.
  - intros N2 N3. unfold plot_pos. rewrite (proj2 (Z.eqb_neq _ _) N2), (proj2 (Z.eqb_neq _ _) N3). reflexivity.
  - intro D. assert (O : forall t : traj Q, StronglySorted Rle (sort_key t) -> consistent t -> in_sorting_order t (xyz t)).
    { intros t S K. exists (seq 0 (length (xyz t))). split; [apply Permutation_refl|]. split; [reflexivity|]. assert (NS : forall k i, nth_error (seq 0 (length (xyz t))) k = Some i -> i = k).
      { intros k i H. assert (L := nth_error_Some_lt _ _ _ H). rewrite seq_length in L. rewrite nth_error_seq in H. destruct (k <? _)%nat; [injection H; lia|discriminate]. }
      split; [intros k i H; rewrite (NS k i H); reflexivity|]. intros k l i j a b L Hi Hj A B. apply NS in Hi, Hj. subst i j. fold (sort_key t) in A, B. rewrite StronglySorted_nth in S. exact (S k l a b L A B). }
    unfold plot_pos. destruct D as [-> | ->]; cbn [Z.eqb Pos.eqb]; (eexists; split; [reflexivity|]); induction ts as [|t ts IH]; constructor; try exact IH; cbn [fst snd length]; (split; [reflexivity|]; split; [reflexivity|]); intros S K; exists (xyz t);
      (split; [apply O; assumption|]); (split; [reflexivity|]; split; [reflexivity|]); intro; [discriminate|reflexivity].
Qed.
Print Assumptions C122_line_partial.

(** ... but it goes through them as they are stored: here from the later position to the earlier one. *)
Theorem C122_refuted : consistent (DrawProps.backwards 1) /\ exists xs ys, plot_pos 2 [DrawProps.backwards 1] = Ok [("backwards"%string, [xs; ys])] /\
  ~ exists p, in_sorting_order (DrawProps.backwards 1) p /\ map vx p = xs.
Proof.
  split; [repeat split|]. exists [0; 1], [0; 0]. split; [reflexivity|]. intros (p & (idx & P & L & N & S) & X).
  destruct p as [|a [|b [|]]]; try discriminate L. cbn in X. injection X as Xa Xb. cbn in P, N, S.
  assert (LI := Permutation_length P). destruct idx as [|i [|j [|]]]; try discriminate LI.
  assert (Ni := N 0%nat i eq_refl). assert (Nj := N 1%nat j eq_refl). cbn in Ni, Nj.
  assert (I : In i [0; 1]%nat) by (apply (Permutation_in _ P); left; reflexivity). assert (J : In j [0; 1]%nat) by (apply (Permutation_in _ P); right; left; reflexivity). cbn in I, J.
  assert (Sij := S 0%nat 1%nat i j). cbn in Sij.
  destruct I as [<-|[<-|[]]], J as [<-|[<-|[]]]; cbn in *.
  - injection Ni as ->. injection Nj as ->. cbn in *. lra.
  - specialize (Sij 1 0 ltac:(lia) eq_refl eq_refl eq_refl eq_refl). lra.
  - injection Ni as ->. cbn in Xa. lra.
  - injection Ni as ->. cbn in Xa. lra.
Qed.
Print Assumptions C122_refuted.

Example C122_case : argsort_contract stable_argsort /\ Forall consistent [duo; in_system 1; DrawProps.backwards 1] /\ rot duo <> None.
Proof. split; [exact stable_argsort_contract|]. split; [|discriminate]. constructor; [exact duo_consistent|]. constructor; [repeat split|]. constructor; [repeat split|constructor]. Qed.
Example C121_case : Forall (fun t => epsg t = 25832%Z) [in_system 25832; in_system 25832] /\ shown_unit "degree" = "°"%string /\ shown_unit "metre" = "m"%string /\
  (exists label curves, plot_xyz stable_argsort [in_system 0; in_system 1] = Ok (label, curves) /\ label = "time [s]"%string).
Proof.
  split; [repeat constructor|]. split; [reflexivity|]. split; [reflexivity|].
  destruct (C122_partial RotM stable_argsort rot_impl [in_system 0; in_system 1] stable_argsort_contract) as [(label & curves & E & _) _]; [constructor; [repeat split|constructor; [repeat split|constructor]]|].
  exists label, curves. split; [exact E|]. apply (C121_abscissa RotM stable_argsort _ _ _ E). split; [discriminate|repeat constructor].
Qed.
