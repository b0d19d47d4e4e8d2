(** C103-C108: tables of trajectories, rough time offsets, trajectory reports, bar charts and colour bars of reports. *)
From Verif Require Import Base BaseFacts VecFacts NumpyModel NumpyFacts TrajModel TrajSpec TrajFacts3 GeomModel GeomSpec GeomFacts GeomFacts2 GeomProps MatchModel MatchSpec MatchFacts MatchProps EvalModel EvalSpec EvalStats EvalFacts3 EvalFacts4.
From Verif Require Import ParamModel DataModel EstModel TextModel TextFacts IoModel EqSpec ScaleModel ScaleSpec AngModel AngSpec AngFacts2 AngProps ViewModel ViewSpec ViewFacts.

(** * C103 Trajectories as tables *)
Theorem C103_table : forall Q argsort as_quat (t : traj Q) sort_by, argsort_contract argsort -> consistent t -> In (sort_column t sort_by) (table_columns t) ->
  exists rows order c, to_dataframe argsort as_quat t sort_by = Ok (table_columns t, rows) /\ nth_error (table_columns t) c = Some (sort_column t sort_by) /\
    length rows = tlen t /\ Permutation order (seq 0 (tlen t)) /\
    (forall k i, nth_error order k = Some i -> exists row, nth_error rows k = Some row /\ table_row as_quat t i row) /\
    (forall k l row row' x y, (k < l)%nat -> nth_error rows k = Some row -> nth_error rows l = Some row' -> nth_error row c = Some x -> nth_error row' c = Some y -> x <= y).
Proof.
  intros Q argsort as_quat t sort_by A C I. destruct (rows_ok as_quat t C) as (rows & E & L & H).
  destruct (sort_values_ok argsort (table_columns t) rows (sort_column t sort_by) (tlen t) A I L) as (sorted & order & c & S & NC & P & LS & HO & SO).
  { intros row Hr. apply In_nth_error in Hr as [i Hi]. destruct (H i) as (row' & Hr & _ & W); [apply nth_error_Some_lt in Hi; lia|]. congruence. }
  exists sorted, order, c. split.
  { unfold to_dataframe. replace (if String.eqb sort_by "" then sorting_text (srt t) else sort_by) with (sort_column t sort_by) by (unfold sort_column, sorting_text; destruct (srt t); reflexivity).
    unfold table_columns in *. destruct (rot t) as [q|]; rewrite E; cbn [bind app] in *; rewrite S; reflexivity. }
  split; [exact NC|]. split; [exact LS|]. split; [exact P|]. split; [|exact SO].
  intros k i K. rewrite (HO k i K). destruct (H i) as (row & Hr & T & _); [|eauto]. apply nth_error_In in K. apply (Permutation_in _ P), in_seq in K. lia.
Qed.
Print Assumptions C103_table.

(** The table can only be sorted by one of its columns, and the default is always one. *)
Theorem C103_key : forall Q argsort as_quat (t : traj Q) sort_by, consistent t ->
  In (sort_column t "") (table_columns t) /\ (~ In (sort_column t sort_by) (table_columns t) -> to_dataframe argsort as_quat t sort_by = Err KeyError).
Proof.
  intros Q argsort as_quat t sort_by C. split; [unfold sort_column, table_columns; destruct (srt t); cbn; auto|]. intros N. destruct (rows_ok as_quat t C) as (rows & E & _).
  unfold to_dataframe. replace (if String.eqb sort_by "" then sorting_text (srt t) else sort_by) with (sort_column t sort_by) by (unfold sort_column, sorting_text; destruct (srt t); reflexivity).
  apply position_of_out in N. unfold table_columns in *. destruct (rot t) as [q|]; rewrite E; cbn [bind app] in *; unfold sort_values; rewrite N; reflexivity.
Qed.
Print Assumptions C103_key.

(** The data rate is the number of intervals per second between the first and the last time stamp, in whatever order the poses are stored. *)
Theorem C103_rate : forall Q (t : traj Q) lo hi, least (tstamps t) lo -> greatest (tstamps t) hi -> lo < hi ->
  data_rate t = Fin (INR (length (tstamps t) - 1) / (hi - lo)).
Proof.
  intros Q t lo hi L H N. assert (D := data_rate_ok t). destruct (tstamps t) as [|a [|b l]] eqn:E.
  - destruct L as [[] _].
  - destruct L as [[->|[]] _], H as [[->|[]] _]. lra.
  - rewrite (D lo hi L H). rewrite (proj2 (Reqb_false (hi - lo) 0)) by lra. reflexivity.
Qed.
Print Assumptions C103_rate.

Example C103_case : argsort_contract stable_argsort /\ consistent duo /\ In (sort_column duo "speed_x") (table_columns duo) /\ ~ In (sort_column duo "speed") (table_columns duo) /\
  least (tstamps duo) 0 /\ greatest (tstamps duo) 1 /\ data_rate duo = Fin (1 / 1).
Proof.
  assert (L : least (tstamps duo) 0) by (split; [cbn; auto|]; intros y [<-|[<-|[]]]; lra). assert (G : greatest (tstamps duo) 1) by (split; [cbn; auto|]; intros y [<-|[<-|[]]]; lra).
  split; [exact stable_argsort_contract|]. split; [exact duo_consistent|]. split; [cbn; tauto|]. split; [cbn; intuition discriminate|]. split; [exact L|]. split; [exact G|].
  rewrite (C103_rate RotM duo 0 1 L G ltac:(lra)). cbn. f_equal. field.
Qed.

(** * C104 Rough time offsets *)
Lemma pose_times {Q} (t t' : traj Q) i j : pose_at t' j = pose_at t i -> pose_at t i <> None -> exists x, nth_error (tstamps t) i = Some x /\ nth_error (tstamps t') j = Some x.
Proof.
  unfold pose_at. intros E N. destruct (nth_error (tstamps t) i) as [x|]; [|congruence]. exists x. split; [reflexivity|]. destruct (nth_error (tstamps t') j) as [y|].
  - repeat match type of E with context [match ?X with Some _ => _ | None => _ end] => destruct X end; congruence.
  - exfalso. apply N. rewrite <- E. reflexivity.
Qed.

(** The offset is a median of the time differences of the poses that are paired by their positions. *)
Theorem C104 : forall Q query3 (ref test : traj Q) max, knn_contract vdist query3 -> consistent ref -> consistent test -> 0 <= max -> xyz test <> [] ->
  (exists is js m offsets, pairing vdist query3 (xyz ref) (xyz test) max js is /\ rough_timestamp_matching query3 ref test max = Ok (Fin m) /\
     length offsets = length js /\
     (forall k i j x y, nth_error is k = Some i -> nth_error js k = Some j -> nth_error (tstamps test) i = Some x -> nth_error (tstamps ref) j = Some y -> nth_error offsets k = Some (y - x)) /\
     (length offsets <= 2 * count (fun y => Rleb y m) offsets)%nat /\ (length offsets <= 2 * count (fun y => Rleb m y) offsets)%nat) \/
  (rough_timestamp_matching query3 ref test max = Err ValueError /\ forall p r, In p (xyz test) -> In r (xyz ref) -> max <> 0 /\ max <= vdist r p).
Proof.
  intros Q query3 ref test max K Cr Ct M N. destruct (C19_spatial Q query3 max test ref K Ct Cr M N) as [(t' & r' & is & js & E & P & St & Sr)|[E F]].
  - left. unfold rough_timestamp_matching. rewrite E. cbn [bind fst snd]. destruct P as (LP & NJ & P). destruct St as (Ct' & _ & Lt & Ht), Sr as (Cr' & _ & Lr & Hr). unfold tlen in *.
    assert (L1 : length (tstamps r') = length js) by (destruct Cr' as [H _]; congruence). assert (L2 : length (tstamps t') = length is) by (destruct Ct' as [H _]; congruence).
    destruct (np_zip_ok Rminus (tstamps r') (tstamps t') ltac:(congruence)) as (d & -> & Ld & Hd). cbn [bind].
    destruct (median_spec d) as (m & -> & A1 & A2 & _); [intro Z; subst d; destruct js; [congruence|cbn in *; lia]|].
    exists is, js, m, d. split; [split; [exact LP|split; [exact NJ|exact P]]|]. split; [reflexivity|]. split; [congruence|]. split; [|auto].
    intros k i j x y Hi Hj X Y. destruct (Ht k i Hi) as [T1 T2], (Hr k j Hj) as [R1 R2]. destruct (pose_times _ _ _ _ T1 T2) as (x' & X1 & X2), (pose_times _ _ _ _ R1 R2) as (y' & Y1 & Y2).
    rewrite X in X1. rewrite Y in Y1. injection X1 as <-. injection Y1 as <-. apply Hd; assumption.
  - right. unfold rough_timestamp_matching. rewrite E. split; [reflexivity|exact F].
Qed.
Print Assumptions C104.

(** If every test position is visited exactly once by the reference, d seconds later, the offset is d. *)
Theorem C104_recovered : forall Q query3 (ref test : traj Q) max d, knn_contract vdist query3 -> consistent ref -> consistent test -> 0 <= max -> xyz test <> [] -> NoDup (xyz ref) ->
  (forall i x p, nth_error (tstamps test) i = Some x -> nth_error (xyz test) i = Some p -> exists j, nth_error (tstamps ref) j = Some (x + d) /\ nth_error (xyz ref) j = Some p) ->
  rough_timestamp_matching query3 ref test max = Ok (Fin d).
Proof.
  intros Q query3 ref test max d K Cr Ct M N ND H.
  assert (LT : length (tstamps test) = length (xyz test)) by apply Ct. assert (LR : length (tstamps ref) = length (xyz ref)) by apply Cr.
  destruct (C104 Q query3 ref test max K Cr Ct M N) as [(is & js & m & offs & (LP & NJ & _ & P & _) & -> & LO & HO & A1 & A2)|[_ F]].
  - assert (Z : forall y, In y offs -> y = d).
    { intros y Hy. apply In_nth_error in Hy as [k Hk]. assert (Lk := nth_error_Some_lt _ _ _ Hk). destruct (nth_error_lt_Some js k ltac:(lia)) as [j Hj]. destruct (nth_error_lt_Some is k ltac:(lia)) as [i Hi].
      destruct (P k i j Hi Hj) as (p & Hp & (r & Hr & Near & _) & _). destruct (nth_error_lt_Some (tstamps test) i) as [x Hx]; [rewrite LT; exact (nth_error_Some_lt _ _ _ Hp)|]. destruct (H i x p Hx Hp) as (j' & Ht & Hp').
      assert (r = p). { assert (D := Near p (nth_error_In _ _ Hp')). rewrite vdist_refl in D. apply vdist_zero. assert (0 <= vdist r p) by apply vdist_nonneg. lra. }
      subst r. assert (j = j') as <-. { rewrite NoDup_nth_error in ND. apply ND; [exact (nth_error_Some_lt _ _ _ Hr)|congruence]. }
      assert (O := HO k i j x (x + d) Hi Hj Hx Ht). rewrite Hk in O. injection O as ->. ring. }
    assert (NE : offs <> []) by (intro W; subst offs; destruct js; [congruence|discriminate LO]). do 2 f_equal.
    assert (count (fun y => Rleb y m) offs <> 0%nat /\ count (fun y => Rleb m y) offs <> 0%nat) as [B1 B2] by (destruct offs; [congruence|cbn [length] in *; lia]).
    unfold count in B1, B2. destruct (filter (fun y => Rleb y m) offs) as [|u ?] eqn:F1; [cbn in B1; congruence|]. destruct (filter (fun y => Rleb m y) offs) as [|v ?] eqn:F2; [cbn in B2; congruence|].
    assert (U : In u offs /\ Rleb u m = true) by (refine (proj1 (filter_In (fun y => Rleb y m) u offs) _); rewrite F1; left; reflexivity). assert (V : In v offs /\ Rleb m v = true) by (refine (proj1 (filter_In (fun y => Rleb m y) v offs) _); rewrite F2; left; reflexivity).
    destruct U as [U1 U2], V as [V1 V2]. apply Rleb_true in U2, V2. rewrite (Z u U1) in U2. rewrite (Z v V1) in V2. lra.
  - exfalso. destruct (nth_error (xyz test) 0) as [p|] eqn:Hp; [|destruct (xyz test); [congruence|discriminate]]. destruct (nth_error_lt_Some (tstamps test) 0) as [x Hx]; [rewrite LT; exact (nth_error_Some_lt _ _ _ Hp)|].
    destruct (H 0%nat x p Hx Hp) as (j & _ & Hr). destruct (F p p (nth_error_In _ _ Hp) (nth_error_In _ _ Hr)) as [F1 F2]. rewrite vdist_refl in F2. lra.
Qed.
Print Assumptions C104_recovered.

(** The same track driven five seconds later *)
Definition later : traj RotM := mkTraj [5; 6] [mkV3 0 0 0; mkV3 1 0 0] None [0; 1] [mkV3 1 0 0; vzero] SortTime "later" 0.
Example C104_case : knn_contract vdist (brute vdist) /\ rough_timestamp_matching (brute vdist) later duo 0 = Ok (Fin 5).
Proof.
  split; [apply brute_contract|]. apply C104_recovered; [apply brute_contract|repeat split|exact duo_consistent|lra|discriminate| |].
  - cbn. apply NoDup_cons; [|apply NoDup_cons; [intros []|apply NoDup_nil]]. intros [H|[]]. injection H. lra.
  - intros [|[|i]] x p; cbn; intros Hx Hp; try (destruct i; discriminate); injection Hx as <-; injection Hp as <-; [exists 0%nat|exists 1%nat]; cbn; split; f_equal; lra.
Qed.

(** * C105 Reports leave the trajectories alone *)
Lemma pos_sorted {Q} argsort (t : traj Q) : argsort_contract argsort -> consistent t -> exists p, xyz_sorted argsort t = Ok p /\ in_sorting_order t p.
Proof.
  intros A C. assert (Hp := sorting_index_perm argsort t A C). destruct (sorted_view argsort t (xyz t) A C eq_refl) as (p & E & P & N & _). exists p. split; [exact E|].
  exists (sorting_index argsort t). split; [exact Hp|]. split; [apply Permutation_length in P; exact P|]. split.
  - intros k i K. rewrite N, K. reflexivity.
  - intros k l i j a b L Hi Hj Ha Hb. rewrite sorting_index_key in Hi, Hj. destruct (A (sort_key t)) as [_ O]. unfold sort_key in *. destruct (srt t); eapply O; eauto.
Qed.

Lemma mapM_forall2 {A B} (f : A -> result B) (R : A -> B -> Prop) l : (forall a, In a l -> exists b, f a = Ok b /\ R a b) -> exists l', mapM f l = Ok l' /\ Forall2 R l l'.
Proof.
  induction l as [|a l IH]; intros H; [exists []; split; [reflexivity|constructor]|]. destruct (H a (or_introl eq_refl)) as (b & E & Hb). destruct IH as (l' & E' & F); [intros x Hx; apply H; right; exact Hx|].
  exists (b :: l'). cbn. rewrite E. cbn. rewrite E'. split; [reflexivity|constructor; assumption].
Qed.

Lemma pos_plot_ok {Q} argsort (ts : list (traj Q)) : argsort_contract argsort -> Forall consistent ts ->
  exists traces, render_pos_plot argsort ts = Ok (Components traces) /\ Forall2 (fun t tr => fst tr = name t /\ StronglySorted Rle (fst (snd tr)) /\ Permutation (fst (snd tr)) (sort_key t) /\ in_sorting_order t (snd (snd tr))) ts traces.
Proof.
  intros A C. unfold render_pos_plot. destruct (mapM_forall2 (fun t => let! f := function_of argsort t in let! p := xyz_sorted argsort t in Ok (name t, (f, p)))
    (fun t tr => fst tr = name t /\ StronglySorted Rle (fst (snd tr)) /\ Permutation (fst (snd tr)) (sort_key t) /\ in_sorting_order t (snd (snd tr))) ts) as (l & -> & F).
  - intros t I. rewrite Forall_forall in C. destruct (sorted_view_keys argsort t A (C t I)) as (f & -> & S1 & S2). destruct (pos_sorted argsort t A (C t I)) as (p & -> & O). cbn. eauto 10.
  - exists l. split; [reflexivity|exact F].
Qed.

Lemma wgs84_consistent {Q} conv (t : traj Q) : consistent t -> consistent (to_wgs84 conv t).
Proof. unfold consistent, to_wgs84; cbn. rewrite map_length. auto. Qed.

(** Without the map, or with a trajectory in local coordinates, the trajectories keep all their data. *)
Theorem C105_partial : forall Q argsort conv mapbox order (ts ts' : list (traj Q)) plots, trajectory_report argsort conv mapbox order ts = Ok (ts', plots) ->
  (mapbox = false \/ exists t, In t ts /\ epsg t = 0%Z) -> ts' = ts.
Proof.
  intros Q argsort conv mapbox order ts ts' plots E H. unfold trajectory_report in E. apply bind_ok in E as ([us d] & E1 & E). apply bind_ok in E as (d2 & E2 & E). cbn in E. injection E as <- _.
  destruct mapbox; cbn in E1.
  - unfold render_mapbox in E1. destruct H as [H|(t & I & Z)]; [discriminate|]. replace (existsb (fun t => Z.eqb (epsg t) 0) ts) with true in E1; [injection E1 as <- _; reflexivity|].
    symmetry. apply existsb_exists. exists t. split; [exact I|]. apply Z.eqb_eq, Z.
  - apply bind_ok in E1 as (x & _ & E1). injection E1 as <- _. reflexivity.
Qed.
Print Assumptions C105_partial.

(** Drawing the map converts the trajectories of the caller to latitude, longitude and height, and the plot of the position components below the map shows these. *)
Theorem C105_refuted : forall Q argsort conv order a b rest (ts : list (traj Q)), argsort_contract argsort -> Forall consistent ts -> (forall t, In t ts -> epsg t <> 0%Z) ->
  order = String a (String b rest) -> Forall is_axis (a :: b :: list_ascii_of_string rest) ->
  exists ts' map_plot traces, trajectory_report argsort conv true order ts = Ok (ts', [map_plot; Components traces]) /\
    Forall2 (fun t t' => xyz t' = map conv (xyz t) /\ epsg t' = 4326%Z) ts ts' /\ Forall2 (fun t tr => fst tr = name t /\ Permutation (snd (snd tr)) (map conv (xyz t))) ts traces.
Proof.
  intros Q argsort conv order a b rest ts A C N -> X. unfold trajectory_report, render_mapbox.
  replace (existsb (fun t => Z.eqb (epsg t) 0) ts) with false by (symmetry; apply not_true_is_false; intro Y; apply existsb_exists in Y as (t & I & Y); apply Z.eqb_eq in Y; exact (N t I Y)).
  assert (CW : Forall consistent (map (to_wgs84 conv) ts)) by (apply Forall_forall; intros u U; apply in_map_iff in U as (t & <- & I); apply wgs84_consistent; rewrite Forall_forall in C; auto).
  destruct (axes_ok (String a (String b rest)) X) as (axes & EA & LA & _). rewrite EA. cbn [bind]. destruct axes as [|i [|j axes]]; try discriminate LA.
  destruct (mapM_forall2 (fun t : traj Q => let! p := xyz_sorted argsort t in Ok (name t, (column i p, column j p))) (fun _ _ => True) (map (to_wgs84 conv) ts)) as (l & -> & _).
  { intros t I. rewrite Forall_forall in CW. destruct (pos_sorted argsort t A (CW t I)) as (p & -> & _). cbn. eauto. }
  cbn [bind fst snd]. destruct (pos_plot_ok argsort (map (to_wgs84 conv) ts) A CW) as (traces & -> & F). cbn [bind]. exists (map (to_wgs84 conv) ts), (Map l), traces. split; [reflexivity|]. clear - F. split.
  - clear. induction ts; cbn; constructor; auto.
  - revert traces F. induction ts as [|t ts IH]; intros traces F; inversion F as [|? ? ? ? (F1 & _ & _ & F2) F3]; subst; constructor; [|apply IH; assumption]. split; [exact F1|]. exact (in_sorting_order_perm _ _ F2).
Qed.
Print Assumptions C105_refuted.

(** A trajectory in UTM coordinates: its positions are replaced by the converted ones. *)
Definition utm : traj RotM := mkTraj [0; 1] [mkV3 0 0 0; mkV3 1 0 0] None [0; 1] [mkV3 1 0 0; vzero] SortTime "utm" 25832.
Example C105_case : consistent utm /\ epsg utm <> 0%Z /\ consistent duo /\ (exists t, In t [utm; duo] /\ epsg t = 0%Z) /\
  (exists u plots, trajectory_report stable_argsort (fun v => mkV3 (vx v + 50) (vy v + 7) (vz v)) true "xyz" [utm] = Ok ([u], plots) /\ xyz u <> xyz utm).
Proof.
  assert (C : consistent utm) by (repeat split). split; [exact C|]. split; [discriminate|]. split; [exact duo_consistent|]. split; [exists duo; split; [right; left; reflexivity|reflexivity]|].
  destruct (C105_refuted RotM stable_argsort (fun v => mkV3 (vx v + 50) (vy v + 7) (vz v)) "xyz" "x" "y" "z" [utm] stable_argsort_contract) as (ts' & m & traces & E & F & _).
  - constructor; [exact C|constructor].
  - intros t [<-|[]]. discriminate.
  - reflexivity.
  - unfold is_axis. repeat (apply Forall_cons; [auto|]). apply Forall_nil.
  - inversion F as [|? u ? us (F1 & F2) F3]; subst. inversion F3; subst. exists u. eexists. split; [exact E|]. rewrite F1. cbn. intro X. injection X. lra.
Qed.

(** * C106 The chosen axes *)
Theorem C106 : forall Q argsort order (ts : list (traj Q)), argsort_contract argsort -> Forall consistent ts -> Forall is_axis (list_ascii_of_string order) -> (String.length order = 2 \/ String.length order = 3)%nat ->
  exists traces, render_trajectories argsort order ts = Ok (Scatter traces) /\
    Forall2 (fun t tr => fst tr = name t /\ length (snd tr) = String.length order /\
      exists p, in_sorting_order t p /\ forall m c, nth_error (list_ascii_of_string order) m = Some c -> exists col, nth_error (snd tr) m = Some col /\ Forall2 (coordinate c) p col) ts traces.
Proof.
  intros Q argsort order ts A C X L. destruct (axes_ok order X) as (axes & EA & LA & HA). rewrite ascii_length in LA.
  unfold render_trajectories. rewrite EA. cbn [bind].
  match goal with |- context [mapM ?f ts] => destruct (mapM_forall2 f (fun t tr => fst tr = name t /\ length (snd tr) = String.length order /\
      exists p, in_sorting_order t p /\ forall m c, nth_error (list_ascii_of_string order) m = Some c -> exists col, nth_error (snd tr) m = Some col /\ Forall2 (coordinate c) p col) ts) as (l & -> & F) end.
  - intros t I. rewrite Forall_forall in C. destruct (pos_sorted argsort t A (C t I)) as (p & -> & O). cbn [bind].
    replace ((length axes =? 2) || (length axes =? 3))%nat%bool with true by (symmetry; apply orb_true_iff; rewrite !Nat.eqb_eq; lia).
    eexists. split; [reflexivity|]. cbn [fst snd]. split; [reflexivity|]. split; [rewrite map_length; exact LA|]. exists p. split; [exact O|]. intros m c Hc.
    destruct (nth_error_lt_Some axes m) as [i Hi]; [rewrite LA, <- ascii_length; exact (nth_error_Some_lt _ _ _ Hc)|]. exists (column i p). split; [|exact (HA m c i p Hc Hi)]. rewrite nth_error_map', Hi. reflexivity.
  - exists l. split; [reflexivity|exact F].
Qed.
Print Assumptions C106.

(** Any other letter and any other number of axes is refused. *)
Theorem C106_letters : forall Q argsort order (t : traj Q) ts, argsort_contract argsort -> Forall consistent (t :: ts) ->
  ~ Forall is_axis (list_ascii_of_string order) \/ (String.length order <> 2 /\ String.length order <> 3)%nat -> render_trajectories argsort order (t :: ts) = Err ValueError.
Proof.
  intros Q argsort order t ts A C H. unfold render_trajectories. destruct (axes_indices order) as [axes|e] eqn:E.
  - destruct H as [H|H]; [rewrite (axes_bad order H) in E; discriminate|]. cbn [bind mapM]. inversion C; subst. destruct (pos_sorted argsort t A) as (p & -> & _); [assumption|]. cbn [bind].
    assert (X : length axes = String.length order). { destruct (Forall_dec is_axis axis_dec (list_ascii_of_string order)) as [X|X]; [|rewrite (axes_bad order X) in E; discriminate]. destruct (axes_ok order X) as (a & E' & L & _). rewrite E in E'. injection E' as <-. rewrite L. apply ascii_length. }
    replace ((length axes =? 2) || (length axes =? 3))%nat%bool with false by (symmetry; apply orb_false_iff; rewrite !Nat.eqb_neq; lia). reflexivity.
  - destruct (Forall_dec is_axis axis_dec (list_ascii_of_string order)) as [X|X]; [destruct (axes_ok order X) as (a & E' & _); congruence|]. rewrite (axes_bad order X) in E. injection E as <-. reflexivity.
Qed.
Print Assumptions C106_letters.

(** On the map the latitudes and longitudes are the first two chosen axes, so they are right for an order that begins with xy, ... *)
Lemma map_axes : forall Q argsort conv order a b rest (ts : list (traj Q)), argsort_contract argsort -> Forall consistent ts -> (forall t, In t ts -> epsg t <> 0%Z) ->
  order = String a (String b rest) -> Forall is_axis (list_ascii_of_string order) ->
  exists ts' traces, render_mapbox argsort conv order ts = Ok (ts', Map traces) /\
    Forall2 (fun t tr => fst tr = name t /\ exists p, in_sorting_order t p /\ Forall2 (coordinate a) (map conv p) (fst (snd tr)) /\ Forall2 (coordinate b) (map conv p) (snd (snd tr))) ts traces.
Proof.
  intros Q argsort conv order a b rest ts A C N -> X. unfold render_mapbox.
  replace (existsb (fun t => Z.eqb (epsg t) 0) ts) with false by (symmetry; apply not_true_is_false; intro Y; apply existsb_exists in Y as (t & I & Y); apply Z.eqb_eq in Y; exact (N t I Y)).
  destruct (axes_ok (String a (String b rest)) X) as (axes & EA & LA & HA). rewrite EA. cbn [bind]. destruct axes as [|i [|j axes]]; try discriminate LA.
  match goal with |- context [mapM ?f _] => destruct (mapM_forall2 (fun t => f (to_wgs84 conv t)) (fun t tr => fst tr = name t /\ exists p, in_sorting_order t p /\ Forall2 (coordinate a) (map conv p) (fst (snd tr)) /\ Forall2 (coordinate b) (map conv p) (snd (snd tr))) ts) as (l & E & F) end.
  - intros t I. rewrite Forall_forall in C. destruct (pos_sorted argsort t A (C t I)) as (p & E & O).
    assert (E' : xyz_sorted argsort (to_wgs84 conv t) = Ok (map conv p)) by (unfold xyz_sorted in *; cbn [xyz to_wgs84]; change (sorting_index argsort (to_wgs84 conv t)) with (sorting_index argsort t); apply np_take_map, E).
    cbn beta. rewrite E'. cbn [bind]. eexists. split; [reflexivity|]. cbn [fst snd name to_wgs84]. split; [reflexivity|]. exists p. split; [exact O|].
    split; [exact (HA 0%nat a i _ eq_refl eq_refl)|exact (HA 1%nat b j _ eq_refl eq_refl)].
  - rewrite mapM_map, E. cbn [bind]. eauto.
Qed.

Theorem C106_map_partial : forall Q argsort conv rest (ts : list (traj Q)), argsort_contract argsort -> Forall consistent ts -> (forall t, In t ts -> epsg t <> 0%Z) -> Forall is_axis (list_ascii_of_string rest) ->
  exists ts' traces, render_mapbox argsort conv ("xy" ++ rest)%string ts = Ok (ts', Map traces) /\
    Forall2 (fun t tr => fst tr = name t /\ exists p, in_sorting_order t p /\ snd tr = (map (fun v => vx (conv v)) p, map (fun v => vy (conv v)) p)) ts traces.
Proof.
  intros Q argsort conv rest ts A C N X. destruct (map_axes Q argsort conv ("xy" ++ rest)%string "x" "y" rest ts A C N eq_refl) as (ts' & traces & E & F).
  { cbn. unfold is_axis. repeat (apply Forall_cons; [auto|]). exact X. }
  exists ts', traces. split; [exact E|]. revert F. apply forall2_impl. intros t [n [la lo]] (H1 & p & O & H2 & H3). split; [exact H1|]. exists p. split; [exact O|]. cbn in *.
  rewrite (proj1 (coordinate_map _ _) H2), (proj1 (proj2 (coordinate_map _ _)) H3), !map_map. reflexivity.
Qed.
Print Assumptions C106_map_partial.

(** ... but the order yx swaps the two. *)
Theorem C106_refuted : forall Q argsort conv rest (ts : list (traj Q)), argsort_contract argsort -> Forall consistent ts -> (forall t, In t ts -> epsg t <> 0%Z) -> Forall is_axis (list_ascii_of_string rest) ->
  exists ts' traces, render_mapbox argsort conv ("yx" ++ rest)%string ts = Ok (ts', Map traces) /\
    Forall2 (fun t tr => fst tr = name t /\ exists p, in_sorting_order t p /\ snd tr = (map (fun v => vy (conv v)) p, map (fun v => vx (conv v)) p)) ts traces.
Proof.
  intros Q argsort conv rest ts A C N X. destruct (map_axes Q argsort conv ("yx" ++ rest)%string "y" "x" rest ts A C N eq_refl) as (ts' & traces & E & F).
  { cbn. unfold is_axis. repeat (apply Forall_cons; [auto|]). exact X. }
  exists ts', traces. split; [exact E|]. revert F. apply forall2_impl. intros t [n [la lo]] (H1 & p & O & H2 & H3). split; [exact H1|]. exists p. split; [exact O|]. cbn in *.
  rewrite (proj1 (proj2 (coordinate_map _ _)) H2), (proj1 (coordinate_map _ _) H3), !map_map. reflexivity.
Qed.
Print Assumptions C106_refuted.

Example C106_case : Forall consistent [duo; utm] /\ Forall is_axis (list_ascii_of_string "zx") /\ ~ Forall is_axis (list_ascii_of_string "xw") /\ Forall consistent [utm] /\ (forall t, In t [utm] -> epsg t <> 0%Z).
Proof.
  assert (C : consistent utm) by (repeat split). unfold is_axis. split; [constructor; [exact duo_consistent|constructor; [exact C|constructor]]|]. split; [cbn; repeat (apply Forall_cons; [auto|]); apply Forall_nil|].
  split; [intro H; cbn in H; inversion H as [|? ? _ H2]; inversion H2 as [|? ? H3]; destruct H3 as [H3|[H3|H3]]; discriminate|]. split; [constructor; [exact C|constructor]|]. intros t [<-|[]]. discriminate.
Qed.

(** * C107 Bar charts *)
(** Six bars per result, labelled and ordered *)
Definition six_bars (label : string) (rows : list (string * string * num)) (ate lo hi med rms std : R) : Prop :=
  rows = [(label, "ATE", Fin ate); (label, "ATE Min", Fin lo); (label, "ATE Max", Fin hi); (label, "ATE Median", Fin med); (label, "ATE RMS", Fin rms); (label, "ATE Std", Fin std)]%string /\
  0 <= lo <= ate /\ ate <= rms <= hi /\ lo <= med <= hi /\ 0 <= std /\ rms * rms = ate * ate + std * std.

Theorem C107_bars : forall Q (rs : list (ate_result Q)), (forall r, In r rs -> pos_dev r <> []) ->
  exists blocks, to_pos_metrics rs = Ok (concat blocks) /\
    Forall2 (fun r b => exists ate lo hi med rms std, six_bars (short_name r) b ate lo hi med rms std /\
      is_least (map vnorm (pos_dev r)) lo /\ is_greatest (map vnorm (pos_dev r)) hi /\ ate * INR (length (pos_dev r)) = np_sum (map vnorm (pos_dev r))) rs blocks.
Proof.
  intros Q rs H. unfold to_pos_metrics. match goal with |- context [mapM ?f rs] => destruct (mapM_forall2 f (fun r b => exists ate lo hi med rms std, six_bars (short_name r) b ate lo hi med rms std /\
      is_least (map vnorm (pos_dev r)) lo /\ is_greatest (map vnorm (pos_dev r)) hi /\ ate * INR (length (pos_dev r)) = np_sum (map vnorm (pos_dev r))) rs) as (l & -> & F) end; [|exists l; split; [reflexivity|exact F]].
  intros r I. unfold pos_metrics, pos_dev_min, pos_dev_max, pos_ate, pos_dev_median, pos_dev_rms, pos_dev_std, pos_dev_comb. set (d := map vnorm (pos_dev r)). assert (N : d <> []) by (apply map_nonempty, H, I).
  destruct (stats_order d N) as (lo & hi & m & s & q & -> & -> & -> & -> & -> & Slo & Shi & Sm & O1 & O2 & O3 & O4 & O5 & O6 & _); [intros y Hy; apply in_map_iff in Hy as (v & <- & _); apply sqrt_pos|].
  destruct (median_spec d N) as (med & -> & _ & _ & (x & y & Hx & Hy & Lx & Ly)). cbn [bind]. eexists. split; [reflexivity|]. exists m, lo, hi, med, q, s. assert (lo <= x) by (apply Slo, Hx). assert (y <= hi) by (apply Shi, Hy).
  unfold d in Sm. rewrite map_length in Sm. split; [|auto]. unfold six_bars. split; [reflexivity|]. repeat split; try lra.
Qed.
Print Assumptions C107_bars.

(** Orientation bars: only for results with orientations, in degrees *)
Theorem C107_orientations : forall Q (ops : rot_ops Q) rv (rs : list (ate_result Q)), rot_contract ops -> rotvec_contract ops rv -> (forall r, In r rs -> rot_dev r <> Some []) ->
  exists blocks, to_rot_metrics rv rs = Ok (concat blocks) /\
    Forall2 (fun r b => exists ate lo hi med rms std, six_bars (short_name r) b ate lo hi med rms std /\ hi <= 180 /\ rot_ate rv r = Some (ate / 180 * PI) /\ rot_dev_max rv r = Ok (hi / 180 * PI))
      (filter (fun r => match rot_dev r with Some _ => true | None => false end) rs) blocks.
Proof.
  intros Q ops rv rs C V H. unfold to_rot_metrics. change (fun r : ate_result Q => match rot_dev r with Some _ => true | None => false end) with (@has_orientation Q).
  match goal with |- context [mapM ?f ?l] => destruct (mapM_forall2 f (fun r b => exists ate lo hi med rms std, six_bars (short_name r) b ate lo hi med rms std /\ hi <= 180 /\ rot_ate rv r = Some (ate / 180 * PI) /\ rot_dev_max rv r = Ok (hi / 180 * PI)) l) as (bl & -> & F) end;
    [|exists bl; split; [reflexivity|exact F]].
  intros r I. apply filter_In in I as [I O]. unfold has_orientation in O. destruct (rot_dev r) as [d|] eqn:D; [|discriminate]. assert (N : d <> []) by (intro Z; subst; exact (H r I D)).
  destruct (C98_statistics Q ops rv r d C V D N) as (lo & hi & m & q & med & s & E1 & E2 & E3 & E4 & E5 & E6 & O1 & O2 & O3 & O4 & O5 & O6 & O7 & O8 & _).
  unfold rot_metrics. rewrite E1, E2, E3, E4, E5, E6. cbn [bind]. eexists. split; [reflexivity|]. assert (P := PI_RGT_0). set (f := 180 / PI). assert (Pf : 0 < f) by (unfold f; apply Rdiv_lt_0_compat; lra).
  exists (m * f), (lo * f), (hi * f), (med * f), (q * f), (s * f). split.
  { split; [reflexivity|]. assert (M : forall x y, x <= y -> x * f <= y * f) by (intros; apply Rmult_le_compat_r; lra). assert (0 <= lo * f) by (apply Rmult_le_pos; lra). assert (0 <= s * f) by (apply Rmult_le_pos; lra).
    assert (q * f * (q * f) = m * f * (m * f) + s * f * (s * f)) by (replace (q * f * (q * f)) with (q * q * (f * f)) by ring; rewrite O8; ring). repeat split; try assumption; apply M; lra. }
  split; [replace 180 with (PI * f) by (unfold f; field; lra); apply Rmult_le_compat_r; lra|]. split; f_equal; unfold f; field; lra.
Qed.
Print Assumptions C107_orientations.

(** The label of a comparison is the name of the test trajectory, unless the name contains the letters vs: ... *)
Theorem C107_label_partial : forall Q (ops : rot_ops Q) (test ref : traj Q) r, consistent test -> consistent ref -> tlen test = tlen ref -> compare_absolute ops test ref = Ok r ->
  ~ contains "vs" (name test) -> short_name r = (name test ++ " ")%string.
Proof.
  intros Q ops test ref r Ct Cr L E N. destruct (compare_absolute_ok ops test ref Ct Cr L) as (r' & E' & Nm & _). rewrite E in E'. injection E' as <-. unfold short_name. rewrite Nm.
  exact (proj2 (before_vs_cut (name test)) (". " ++ name ref)%string N).
Qed.
Print Assumptions C107_label_partial.

(** ... then only what stands before them is left.  Two comparisons of the same test trajectory always share their label, so their bars are stacked in one group. *)
Theorem C107_refuted : forall Q (ops : rot_ops Q) (test test' ref ref' : traj Q) r r', consistent test -> consistent ref -> tlen test = tlen ref -> compare_absolute ops test ref = Ok r ->
  consistent test' -> consistent ref' -> tlen test' = tlen ref' -> compare_absolute ops test' ref' = Ok r' ->
  (contains "vs" (name test) -> exists a b, name test = (a ++ "vs" ++ b)%string /\ short_name r = a) /\
  (name test = "uavs 1"%string -> name test' = "uavs 2"%string -> short_name r = short_name r') /\
  (name test = name test' -> short_name r = short_name r').
Proof.
  intros Q ops test test' ref ref' r r' Ct Cr L E Ct' Cr' L' E'. destruct (compare_absolute_ok ops test ref Ct Cr L) as (x & X & Nm & _). rewrite E in X. injection X as <-.
  destruct (compare_absolute_ok ops test' ref' Ct' Cr' L') as (x & X & Nm' & _). rewrite E' in X. injection X as <-. unfold short_name. rewrite Nm, Nm'. split; [|split].
  - intros H. destruct (contains_cut _ H) as (a & b & H1 & H2). exists a, b. split; [exact H1|apply H2].
  - intros -> ->. reflexivity.
  - intros <-. destruct (contains_dec "vs" (name test)) as [H|H].
    + destruct (contains_cut _ H) as (a & b & _ & H2). rewrite !H2. reflexivity.
    + rewrite (proj2 (before_vs_cut (name test)) (". " ++ name ref)%string H : before_vs (name test ++ " vs. " ++ name ref) = _). symmetry. exact (proj2 (before_vs_cut (name test)) (". " ++ name ref')%string H).
Qed.
Print Assumptions C107_refuted.

Example C107_case : exists r, compare_absolute rot_impl duo utm = Ok r /\ pos_dev r <> [] /\ ~ contains "vs" (name duo) /\ contains "vs" "uavs 1".
Proof.
  destruct (compare_absolute_ok rot_impl duo utm duo_consistent ltac:(repeat split) eq_refl) as (r & E & _ & _ & L & _). exists r. split; [exact E|]. split; [intro Z; rewrite Z in L; discriminate L|].
  split; [|exists "ua"%string, " 1"%string; reflexivity]. intros (a & b & X). cbn in X. destruct a as [|? [|? [|? [|? ?]]]]; discriminate X.
Qed.

(** * C108 Colour bars of reports *)
Theorem C108_partial : forall colors k, colors <> [] -> 0 <= k ->
  exists lo up s hi, marker_limits colors k = Ok (lo, up) /\ np_std colors = Some s /\ is_least colors lo /\ is_greatest colors hi /\ lo <= up <= hi /\ (hi <= lo + k * s -> up = hi) /\ (lo + k * s <= hi -> up = lo + k * s).
Proof.
  intros l k N K. unfold marker_limits. destruct (np_min_spec l N) as (lo & -> & Slo). destruct (np_max_spec l N) as (hi & -> & Shi). destruct (std_some l N) as (m & s & q & _ & E & _ & P & _). rewrite E. cbn [bind].
  exists lo, (Rmin hi (lo + s * k)), s, hi. split; [reflexivity|]. split; [reflexivity|]. split; [exact Slo|]. split; [exact Shi|]. assert (lo <= hi) by (apply Slo, Shi). assert (0 <= s * k) by (apply Rmult_le_pos; assumption).
  split; [split; [apply Rmin_glb; lra|apply Rmin_l]|]. split; intros; [rewrite Rmin_left|rewrite Rmin_right]; lra.
Qed.
Print Assumptions C108_partial.

(** The documentation promises the mean plus a multiple of the standard deviation (and never more than the maximum).  The limit starts from the smallest
    value instead: it is too low whenever the values are not all equal and the limit is below the maximum. *)
Theorem C108_refuted : forall colors k lo up m s hi, 0 <= k -> marker_limits colors k = Ok (lo, up) -> np_mean colors = Some m -> np_std colors = Some s -> is_greatest colors hi ->
  (exists x, In x colors /\ x <> lo) -> up < hi -> up < Rmin hi (m + k * s).
Proof.
  intros l k lo up m s hi K E M D Shi (x & I & X) U. assert (N : l <> []) by (intro Z; subst; destruct I). unfold marker_limits in E. destruct (np_min_spec l N) as (lo' & E1 & Slo). destruct (np_max_spec l N) as (hi' & E2 & Shi').
  rewrite E1, E2 in E. cbn [bind] in E. rewrite D in E. injection E as -> <-. assert (hi' = hi) as -> by (apply Rle_antisym; [apply Shi, Shi'|apply Shi', Shi]).
  assert (lo < m). { assert (B := mean_strict l lo m x N (proj2 Slo) I X M). exact B. }
  apply Rmin_glb_lt; [exact U|]. apply (Rle_lt_trans _ (lo + s * k)); [apply Rmin_r|lra].
Qed.
Print Assumptions C108_refuted.

(** Half of the values 0, 2 lie one standard deviation above the mean, but the bar ends at the mean. *)
Example C108_case : marker_limits [0; 2] 1 = Ok (0, 1) /\ np_mean [0; 2] = Some 1 /\ np_std [0; 2] = Some 1 /\ is_greatest [0; 2] 2.
Proof.
  assert (M : np_mean [0; 2] = Some 1) by (unfold np_mean; cbn; f_equal; field). assert (D : np_std [0; 2] = Some 1).
  { unfold np_std. rewrite M. cbn. f_equal. replace (((0 - 1) * (0 - 1) + ((2 - 1) * (2 - 1) + 0)) / (1 + 1)) with 1 by field. apply sqrt_1. }
  split; [|split; [exact M|split; [exact D|split; [right; left; reflexivity|intros y [<-|[<-|[]]]; lra]]]]. unfold marker_limits. rewrite D. cbn. unfold Rmin, Rmax. repeat destruct (Rle_dec _ _); try lra. do 2 f_equal; lra.
Qed.
