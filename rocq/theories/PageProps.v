(** C109-C114: contents of reports, report files, bars, histograms, equal axes and figures of relative errors. *)
From Verif Require Import Base BaseFacts NumpyModel NumpyFacts TrajModel TrajSpec GeomModel GeomSpec GeomFacts GeomFacts2 GeomProps EvalModel EvalSpec EvalStats EvalFacts4 ParamModel DataModel EstModel TextModel TextFacts HeaderModel IoModel AngModel AngSpec AngFacts2 AngProps RpeModel ReportModel ReportProps ViewModel ViewFacts TableSpec TableProps PageModel PageSpec PageFacts.

(** * C109 Contents of reports *)
(** Every plot of the available results appears exactly once; a result alone next to nothing is moved below. *)
Theorem C109_single : forall Q (rv : Q -> V3) fixed mm detailed a r, a <> None \/ r <> None ->
  exists card side lines, single_report rv fixed mm detailed a r = Ok (card, side, lines) /\ (length side = 0 \/ length side = 2)%nat /\ NoDup (side ++ lines) /\
    (forall k, In k (side ++ lines) <-> wanted detailed (option_map (fun x => match rot_dev x with Some _ => true | None => false end) a) (r <> None) k) /\
    (forall x m, a = Some x -> pos_ate x = Some m -> c_title card = ate_name x /\
       (mm = false -> c_ate_pos card = fixed 3%nat (Fin m) /\ c_ate_pos_unit card = "m"%string) /\ (mm = true -> c_ate_pos card = fixed 3%nat (Fin (1000 * m)) /\ c_ate_pos_unit card = "mm"%string)).
Proof.
  assert (ND : forall l : list plot_kind, {NoDup l} + {~ NoDup l}) by (apply ListDec.NoDup_dec; decide equality).
  intros Q rv fixed mm detailed a r H. unfold single_report.
  assert (HO : forall x : ate_result Q, has_orientation (report_data mm x) = match rot_dev x with Some _ => true | None => false end) by (intros x; unfold has_orientation, report_data; destruct mm; reflexivity).
  destruct a as [x|].
  - cbn [option_map]. unfold side_by_side, single_lines. rewrite !HO.
    assert (T : forall c : card, c_title c = ate_name (report_data mm x) -> c_ate_pos c = fixed 3%nat (as_num (pos_ate (report_data mm x))) -> c_ate_pos_unit c = (if mm then "mm" else "m")%string ->
      forall x0 m, Some x = Some x0 -> pos_ate x0 = Some m -> c_title c = ate_name x0 /\
       (mm = false -> c_ate_pos c = fixed 3%nat (Fin m) /\ c_ate_pos_unit c = "m"%string) /\ (mm = true -> c_ate_pos c = fixed 3%nat (Fin (1000 * m)) /\ c_ate_pos_unit c = "mm"%string)).
    { intros c -> -> -> x0 m X M. injection X as <-. split; [unfold report_data; destruct mm; reflexivity|]. split; intros ->; (split; [|reflexivity]).
      - cbn [report_data]. rewrite M. reflexivity.
      - rewrite (proj1 (C55_millimetres_refuted Q x m M)). reflexivity. }
    destruct r as [y|], (rot_dev x) as [q|], detailed; cbn [app py_insert firstn skipn negb length Nat.eqb option_map]; do 3 eexists;
      (split; [reflexivity|]); (split; [cbn; auto|]); (split; [match goal with |- NoDup ?l => destruct (ND l) as [Y|Y]; [exact Y|exfalso; apply Y; repeat (constructor; [cbn; intuition discriminate|]); constructor] end|]);
      (split; [|apply T; reflexivity]); intros k; destruct k; cbn; intuition (try discriminate; try congruence).
  - destruct r as [y|]; [|destruct H; congruence]. cbn [option_map]. do 3 eexists. split; [reflexivity|]. split; [left; reflexivity|]. split; [repeat (constructor; [cbn; tauto|]); constructor|]. split.
    + intros k; destruct k; cbn; intuition (try discriminate; try congruence).
    + intros x m X. discriminate.
Qed.
Print Assumptions C109_single.

Theorem C109_multi : forall Q mm a r, (a <> None \/ r <> None) -> a <> Some [] -> r <> Some [] ->
  exists lines, @multi_report Q mm a r = Ok lines /\ NoDup lines /\
    forall k, In k lines <-> (k = Rpe /\ r <> None) \/ (a <> None /\ In k [Combined; Edf; PosBars; PosComponents]) \/
                             ((exists l x, a = Some l /\ In x l /\ rot_dev x <> None) /\ In k [RotBars; RotComponents]).
Proof.
  intros Q mm a r H NA NR. unfold multi_report.
  assert (HO : forall x : ate_result Q, has_orientation (report_data mm x) = match rot_dev x with Some _ => true | None => false end) by (intros x; unfold has_orientation, report_data; destruct mm; reflexivity).
  assert (ND : forall l : list plot_kind, {NoDup l} + {~ NoDup l}) by (apply ListDec.NoDup_dec; decide equality).
  destruct a as [[|x l]|].
  - congruence.
  - set (b := existsb has_orientation (map (report_data mm) (x :: l))).
    assert (B : b = true <-> exists l' y, Some (x :: l) = Some l' /\ In y l' /\ rot_dev y <> None).
    { unfold b. rewrite existsb_exists. split.
      - intros (y & I & E). apply in_map_iff in I as (z & <- & I). rewrite HO in E. exists (x :: l), z. split; [reflexivity|]. split; [exact I|]. destruct (rot_dev z); [discriminate|discriminate E].
      - intros (l' & y & X & I & E). injection X as <-. exists (report_data mm y). split; [apply in_map, I|]. rewrite HO. destruct (rot_dev y); [reflexivity|congruence]. }
    assert (E : exists lines, match r with Some [] => Err IndexError | _ => Ok (match r with Some _ => py_insert 1 Rpe (if b then [Combined; Edf; PosBars; PosComponents] ++ [RotBars; RotComponents] else [Combined; Edf; PosBars; PosComponents]) | None => if b then [Combined; Edf; PosBars; PosComponents] ++ [RotBars; RotComponents] else [Combined; Edf; PosBars; PosComponents] end) end = Ok lines /\ NoDup lines /\
      forall k, In k lines <-> (k = Rpe /\ r <> None) \/ (Some (x :: l) <> None /\ In k [Combined; Edf; PosBars; PosComponents]) \/ ((exists l' y, Some (x :: l) = Some l' /\ In y l' /\ rot_dev y <> None) /\ In k [RotBars; RotComponents])).
    { destruct r as [[|y r]|]; [congruence| |]; (eexists; split; [reflexivity|]; split;
        [destruct b; cbn; match goal with |- NoDup ?l => destruct (ND l) as [Y|Y]; [exact Y|exfalso; apply Y; repeat (constructor; [cbn; intuition discriminate|]); constructor] end
        |intros k; rewrite <- B; destruct b; destruct k; cbn; intuition (try discriminate; try congruence)]). }
    destruct E as (lines & E & R). exists lines. split; [|exact R]. rewrite <- E. destruct r as [[|y r]|]; reflexivity.
  - destruct r as [[|y r]|]; [congruence| |destruct H; congruence]. eexists. split; [reflexivity|]. split; [repeat (constructor; [cbn; tauto|]); constructor|].
    intros k. cbn. split; [intros [<-|[]]; left; split; [reflexivity|discriminate]|]. intros [[-> _]|[[X _]|[(l & x & X & _) _]]]; [left; reflexivity|congruence|discriminate].
Qed.
Print Assumptions C109_multi.

(** A result without orientations is reported with the orientation error 0.000, as if all orientations agreed, and relative errors without
    orientations with not-a-number. *)
Theorem C109_refuted : forall Q (ops : rot_ops Q) (rv : Q -> V3) fixed mm detailed (x y : ate_result Q) r card card' side side' lines lines', rot_contract ops -> rotvec_contract ops rv ->
  rot_dev x = None -> pos_dev x <> [] -> (exists d, rot_dev y = Some d /\ d <> [] /\ forall q, In q d -> as_matrix ops q = mident) -> has_rot_dev r = false ->
  single_report rv fixed mm detailed (Some x) (Some r) = Ok (card, side, lines) -> single_report rv fixed mm detailed (Some y) None = Ok (card', side', lines') ->
  c_ate_rot card = fixed 3%nat (Fin 0) /\ c_ate_rot card' = c_ate_rot card /\ exists a b c, c_rpe card = Some (a, b, fixed 3%nat NaN, c).
Proof.
  intros Q ops rv fixed mm detailed x y r card card' side side' lines lines' C V Nx Px (d & Dy & Nd & Id) Nr E E'.
  assert (A : forall z : ate_result Q, rot_ate rv (report_data mm z) = match rot_dev z with Some _ => rot_ate rv z | None => rot_ate rv (report_data mm z) end) by (intros z; unfold report_data, rot_ate, rot_dev_comb; destruct mm, (rot_dev z) eqn:Z; cbn [rot_dev]; try rewrite Z; reflexivity).
  cbn in E, E'. injection E as <- _ _. injection E' as <- _ _. cbn [c_ate_rot c_rpe].
  assert (X : rot_ate rv (report_data mm x) = Some 0).
  { apply (C98_refuted Q rv (report_data mm x)); unfold report_data; destruct mm; cbn [rot_dev pos_dev]; try assumption. destruct (pos_dev x); [congruence|discriminate]. }
  assert (Y : rot_ate rv (report_data mm y) = Some 0).
  { rewrite A, Dy. destruct (C98_statistics Q ops rv y d C V Dy Nd) as (lo & hi & m & q & med & s & _ & _ & E3 & _ & _ & _ & _ & _ & _ & _ & _ & _ & _ & _ & Z & _). rewrite E3. f_equal. exact (proj1 Z Id). }
  rewrite X, Y. unfold rad2deg, as_num, in_degrees. rewrite Rmult_0_l. split; [reflexivity|]. split; [reflexivity|]. do 3 eexists. unfold rot_rpe, rot_dev_of. rewrite Nr. reflexivity.
Qed.
Print Assumptions C109_refuted.

Example C109_case : exists x y : ate_result RotM, compare_absolute rot_impl duo duo_plain = Ok x /\ compare_absolute rot_impl duo duo = Ok y /\ rot_dev x = None /\ pos_dev x <> [] /\
  (exists d, rot_dev y = Some d /\ d <> [] /\ forall q, In q d -> as_matrix rot_impl q = mident) /\ has_rot_dev (mkRpeResult "rpe" [(Some 1, mkBlock [1] [1 / 10] [])] METER) = false /\
  (exists card side lines, single_report rotvec_impl some_digits true true (Some x) (Some (mkRpeResult "rpe" [(Some 1, mkBlock [1] [1 / 10] [])] METER)) = Ok (card, side, lines)) /\
  (exists card side lines, single_report rotvec_impl some_digits true true (Some y) None = Ok (card, side, lines)).
Proof.
  destruct (compare_absolute_ok rot_impl duo duo_plain duo_consistent duo_plain_consistent eq_refl) as (x & X & _ & _ & L & _ & _ & _ & _ & N). destruct (compare_self rot_impl rot_impl_contract duo duo_consistent) as (y & Y & Ly & _ & _ & D).
  exists x, y. split; [exact X|]. split; [exact Y|]. split; [exact N|]. split; [intro Z; rewrite Z in L; discriminate L|]. split.
  { cbn in D. destruct D as (d & Dy & Ld & F). exists d. split; [exact Dy|]. split; [intro Z; rewrite Z in Ld; discriminate Ld|]. intros q I. rewrite Forall_forall in F. apply F, I. }
  split; [reflexivity|]. split; do 3 eexists; reflexivity.
Qed.

(** * C110 Report files *)
(** A report is written to the file and shown, and no other file is touched, if the path names a directory that exists or can be made. *)
Theorem C110_partial : forall random d text p, dirname p <> ""%string -> up_to_slash p <> p -> ~ In p (d_dirs d) ->
  In (dirname p) (d_dirs d) \/ (~ In (dirname p) (map fst (d_files d)) /\ (dirname (dirname p) = ""%string \/ In (dirname (dirname p)) (d_dirs d))) ->
  exists d', show_report random d text p = Some (d', p) /\ read_file d' p = Some text /\ (forall q, q <> p -> read_file d' q = read_file d q) /\
    (forall q, In q (d_dirs d') <-> In q (d_dirs d) \/ q = dirname p).
Proof.
  intros random d text p N1 N2 N3 H. assert (Np : p <> ""%string) by (intro; subst; cbn in N1; congruence).
  destruct (mem (dirname p) (d_dirs d)) eqn:M.
  - unfold show_report, path_exists. rewrite M. cbn [orb]. destruct (String.eqb_spec p ""); [contradiction|]. apply mem_in in M. destruct (write_ok d p text Np N3 (or_intror M) N2) as (d' & -> & D & Rp & Ro).
    exists d'. split; [reflexivity|]. split; [exact Rp|]. split; [exact Ro|]. rewrite D. intros q. split; [auto|]. intros [I| ->]; auto.
  - assert (N : ~ In (dirname p) (d_dirs d)) by (intro I; apply mem_in in I; congruence). destruct H as [H|[Nf Hp]]; [contradiction|].
    unfold show_report, path_exists. rewrite M. destruct (mem (dirname p) (map fst (d_files d))) eqn:M2; [apply mem_in in M2; contradiction|]. cbn [orb]. unfold mkdir, path_exists. destruct (String.eqb_spec (dirname p) ""); [contradiction|]. rewrite M, M2.
    replace (has_parent d (dirname p)) with true by (symmetry; unfold has_parent; apply orb_true_iff; destruct Hp as [->|Hp]; [left; reflexivity|right; apply mem_in, Hp]). cbn [orb negb].
    destruct (String.eqb_spec p ""); [contradiction|].
    destruct (write_ok (mkDisk (dirname p :: d_dirs d) (d_files d)) p text Np) as (d' & -> & D & Rp & Ro); [cbn; intros [I|I]; [exact (dirname_short p N2 I)|contradiction]|right; left; reflexivity|exact N2|].
    exists d'. split; [reflexivity|]. split; [exact Rp|]. split; [intros q Q; rewrite (Ro q Q); reflexivity|]. rewrite D. cbn. intros q. intuition congruence.
Qed.
Print Assumptions C110_partial.

(** A report written without showing it only needs an existing directory. *)
Theorem C110_written : forall d text p, p <> ""%string -> dirname p = ""%string \/ In (dirname p) (d_dirs d) -> up_to_slash p <> p -> ~ In p (d_dirs d) ->
  exists d', write_report d p text = Some d' /\ d_dirs d' = d_dirs d /\ read_file d' p = Some text /\ forall q, q <> p -> read_file d' q = read_file d q.
Proof. intros d text p N H N2 N3. apply write_ok; assumption. Qed.
Print Assumptions C110_written.

(** Showing a report fails without a path (the default), with a file name alone, and if two levels of directories are missing. *)
Theorem C110_refuted : forall random d text p, sane d ->
  (no_slash p -> show_report random d text p = None) /\
  (~ In (dirname p) (d_dirs d) -> ~ In (dirname p) (map fst (d_files d)) -> dirname (dirname p) <> ""%string -> ~ In (dirname (dirname p)) (d_dirs d) -> show_report random d text p = None).
Proof.
  intros random d text p [S1 S2]. assert (MF : forall s l, ~ In s l -> mem s l = false) by (intros s l N; apply not_true_is_false; intro M; apply mem_in in M; contradiction). split.
  - intros N. unfold show_report. replace (dirname p) with ""%string by (unfold dirname; rewrite (up_to_slash_none p N); reflexivity). unfold path_exists. rewrite (MF _ _ S1), (MF _ _ S2). reflexivity.
  - intros N1 N2 N3 N4. unfold show_report, mkdir, path_exists, has_parent. rewrite (MF _ _ N1), (MF _ _ N2), (MF _ _ N4). destruct (String.eqb_spec (dirname (dirname p)) ""); [contradiction|]. rewrite orb_true_r. reflexivity.
Qed.
Print Assumptions C110_refuted.

Example C110_case : let home := mkDisk ["/"; "/home"]%string [] in
  sane home /\ no_slash "report.html" /\ no_slash "" /\ dirname "/home/reports/a.html" = "/home/reports"%string /\ dirname "/home/reports" = "/home"%string /\ up_to_slash "/home/reports/a.html" = "/home/reports/"%string /\
  show_report "x" home "text" "/home/reports/a.html" = Some (mkDisk ["/home/reports"; "/"; "/home"] [("/home/reports/a.html", "text")], "/home/reports/a.html")%string /\
  show_report "x" home "text" "/tmp/reports/a.html" = None.
Proof. repeat split; try reflexivity; try (cbn; intuition discriminate); discriminate. Qed.

(** * C111 Bars of several results *)
Lemma bars_ok {Q} (rv : Q -> V3) positions mm (rs : list (ate_result Q)) : rs <> [] ->
  (forall r, In r rs -> positions = true \/ has_orientation r = true -> exists v, characteristics rv positions mm r = Ok v) ->
  exists groups, plot_bars rv positions mm rs = Ok (concat groups) /\ length groups = length rs /\
    forall i r, nth_error rs i = Some r -> exists g, nth_error groups i = Some g /\
      ((negb positions && negb (has_orientation r))%bool = true /\ g = [] \/ (negb positions && negb (has_orientation r))%bool = false /\ exists v, characteristics rv positions mm r = Ok v /\
        g = map (fun kv => mkBar i (fst kv) (INR (fst kv) + (INR i - (INR (length rs) - 1) / 2) * (9 / 10 / INR (length rs))) (9 / 10 / INR (length rs)) (snd kv)) (combine (seq 0 6) v)).
Proof.
  intros N H. unfold plot_bars. destruct rs as [|r0 rs0] eqn:E; [congruence|]. rewrite <- E in *. clear E. set (n := length rs). set (w := 9 / 10 / INR n).
  set (sp := linspace (- w * (INR n - 1) / 2) (w * (INR n - 1) / 2) n).
  match goal with |- context [mapM ?f ?l] => set (F := f); set (L := l) end.
  assert (LL : length L = n) by (unfold L, sp; rewrite !combine_length, seq_length, linspace_length; fold n; lia).
  assert (NL : forall i r, nth_error rs i = Some r -> nth_error L i = Some (i, r, (INR i - (INR n - 1) / 2) * w)).
  { intros i r Hi. assert (Li := nth_error_Some_lt _ _ _ Hi). apply nth_error_combine_some; [apply nth_error_combine_some; [|exact Hi]|exact (spacing n i Li)]. rewrite (nth_error_nth' _ 0%nat) by (rewrite seq_length; exact Li). rewrite seq_nth by exact Li. reflexivity. }
  destruct (mapM_total F L) as (groups & G).
  { intros [[i r] s] I. apply In_nth_error in I as (j & J). assert (Lj := nth_error_Some_lt _ _ _ J). rewrite LL in Lj. destruct (nth_error_lt_Some rs j Lj) as (r' & R'). rewrite (NL j r' R') in J. injection J as -> -> <-.
    unfold F. destruct (negb positions && negb (has_orientation r))%bool eqn:C; [eauto|]. destruct (H r (nth_error_In _ _ R')) as (v & ->); [|cbn; eauto]. destruct positions; [auto|]. destruct (has_orientation r); [auto|discriminate]. }
  exists groups. rewrite G. split; [reflexivity|]. split; [rewrite (mapM_length _ _ _ G); exact LL|]. intros i r Hi. assert (M := mapM_nth_error F L groups i G). rewrite (NL i r Hi) in M. destruct M as (g & Hg & Ng). exists g. split; [exact Ng|].
  unfold F in Hg. destruct (negb positions && negb (has_orientation r))%bool; [left; split; [reflexivity|congruence]|]. right. split; [reflexivity|]. apply bind_ok in Hg as (v & V & Hg). exists v. split; [exact V|]. injection Hg as <-. reflexivity.
Qed.

Lemma bars_geometry {Q} (rv : Q -> V3) positions mm (rs : list (ate_result Q)) : rs <> [] ->
  (forall r, In r rs -> positions = true \/ has_orientation r = true -> exists v, characteristics rv positions mm r = Ok v) ->
  exists bars, plot_bars rv positions mm rs = Ok bars /\ disjoint bars /\
    forall i r, nth_error rs i = Some r -> ((negb positions && negb (has_orientation r))%bool = true -> of_result i bars = []) /\
      ((negb positions && negb (has_orientation r))%bool = false -> exists v, characteristics rv positions mm r = Ok v /\ map b_characteristic (of_result i bars) = seq 0 6 /\ map b_height (of_result i bars) = v).
Proof.
  intros N H. destruct (bars_ok rv positions mm rs N H) as (groups & -> & LG & HG). exists (concat groups). split; [reflexivity|]. set (n := length rs) in *. set (w := 9 / 10 / INR n) in *.
  assert (Pn : (0 < n)%nat) by (unfold n; destruct rs; [congruence|cbn; lia]).
  assert (B : forall b, In b (concat groups) -> exists i, (i < n)%nat /\ b_result b = i /\ b_width b = w /\ b_centre b = INR (b_characteristic b) + (INR i - (INR n - 1) / 2) * w).
  { intros b I. apply in_concat in I as (g & Ig & I). apply In_nth_error in Ig as (i & Hi). assert (Li := nth_error_Some_lt _ _ _ Hi). destruct (nth_error_lt_Some rs i ltac:(unfold n in *; lia)) as (r & Hr). destruct (HG i r Hr) as (g' & G' & X). rewrite Hi in G'. injection G' as <-.
    destruct X as [[_ ->]|(_ & v & _ & ->)]; [destruct I|]. apply in_map_iff in I as (kv & <- & _). exists i. cbn. split; [unfold n; lia|auto]. }
  split; [split|].
  - intros b I. destruct (B b I) as (i & Li & _ & W & C). rewrite W, C. split; [unfold w; apply Rdiv_lt_0_compat; [lra|apply lt_0_INR, Pn]|]. replace (_ - _) with ((INR i - (INR n - 1) / 2) * w) by ring. exact (bar_inside n i Pn Li).
  - intros b b' I I' D. destruct (B b I) as (i & Li & Ri & W & C), (B b' I') as (i' & Li' & Ri' & W' & C'). rewrite W, W', C, C'. replace (w / 2 + w / 2) with w by field. apply bars_apart; [exact Pn|exact Li|exact Li'|congruence].
  - intros i r Hi. destruct (HG i r Hi) as (g & Hg & X). assert (O : of_result i (concat groups) = g).
    { apply (of_group groups 0 i g); [|exact Hg]. intros j g' Hj b I. assert (Lj := nth_error_Some_lt _ _ _ Hj). destruct (nth_error_lt_Some rs j ltac:(unfold n in *; lia)) as (r' & Hr). destruct (HG j r' Hr) as (g'' & G'' & Y). rewrite Hj in G''. injection G'' as <-.
      destruct Y as [[_ ->]|(_ & v & _ & ->)]; [destruct I|]. apply in_map_iff in I as (kv & <- & _). reflexivity. }
    rewrite O. destruct X as [[X ->]|(X & v & V & ->)]; rewrite X; (split; [|]; try discriminate); [reflexivity|]. intros _. exists v. split; [exact V|]. rewrite !map_map. cbn.
    assert (L6 : length v = 6%nat) by exact (characteristics_six rv positions mm r v V). do 7 (destruct v as [|? v]; try discriminate L6). split; reflexivity.
Qed.

(** Position bars: every result has its six bars with its own statistics, and no two bars overlap. *)
Theorem C111 : forall Q (rv : Q -> V3) mm (rs : list (ate_result Q)), rs <> [] -> (forall r, In r rs -> pos_dev r <> []) ->
  exists bars, plot_bars rv true mm rs = Ok bars /\ disjoint bars /\
    forall i r, nth_error rs i = Some r -> map b_characteristic (of_result i bars) = [0; 1; 2; 3; 4; 5]%nat /\
      exists lo hi ate med rms std, pos_dev_min r = Ok lo /\ pos_dev_max r = Ok hi /\ pos_ate r = Some ate /\ pos_dev_median r = Some med /\ pos_dev_rms r = Some rms /\ pos_dev_std r = Some std /\
        map b_height (of_result i bars) = map (fun x => Fin (x * (if mm then 1000 else 1))) [lo; hi; ate; med; rms; std].
Proof.
  intros Q rv mm rs N H.
  assert (S : forall r, In r rs -> exists lo hi ate med rms std, pos_dev_min r = Ok lo /\ pos_dev_max r = Ok hi /\ pos_ate r = Some ate /\ pos_dev_median r = Some med /\ pos_dev_rms r = Some rms /\ pos_dev_std r = Some std).
  { intros r I. unfold pos_dev_min, pos_dev_max, pos_ate, pos_dev_median, pos_dev_rms, pos_dev_std. set (d := pos_dev_comb r). assert (Nd : d <> []) by (apply map_nonempty, H, I).
    destruct (stats_order d Nd) as (lo & hi & m & s & q & E1 & E2 & E3 & E4 & E5 & _); [intros y Hy; apply in_map_iff in Hy as (v & <- & _); apply sqrt_pos|]. destruct (median_spec d Nd) as (med & E6 & _). exists lo, hi, m, med, q, s. auto 10. }
  destruct (bars_geometry rv true mm rs N) as (bars & E & D & HB).
  { intros r I _. destruct (S r I) as (lo & hi & ate & med & q & s & E1 & E2 & _). unfold characteristics. rewrite E1, E2. cbn. eauto. }
  exists bars. split; [exact E|]. split; [exact D|]. intros i r Hi. destruct (HB i r Hi) as [_ K]. destruct (K eq_refl) as (v & V & C & Hv). split; [exact C|].
  destruct (S r (nth_error_In _ _ Hi)) as (lo & hi & ate & med & q & s & E1 & E2 & E3 & E4 & E5 & E6). exists lo, hi, ate, med, q, s. repeat (split; [assumption|]). rewrite Hv. unfold characteristics in V. rewrite E1, E2, E3, E4, E5, E6 in V. cbn in V. injection V as <-. reflexivity.
Qed.
Print Assumptions C111.

(** Orientation bars: results without orientations have none, the others show degrees; the places of the results do not move. *)
Theorem C111_orientations : forall Q (ops : rot_ops Q) (rv : Q -> V3) mm (rs : list (ate_result Q)), rot_contract ops -> rotvec_contract ops rv -> rs <> [] -> (forall r, In r rs -> rot_dev r <> Some []) ->
  exists bars, plot_bars rv false mm rs = Ok bars /\ disjoint bars /\
    forall i r, nth_error rs i = Some r -> (rot_dev r = None -> of_result i bars = []) /\
      (rot_dev r <> None -> map b_characteristic (of_result i bars) = [0; 1; 2; 3; 4; 5]%nat /\
        exists lo hi ate med rms std, rot_dev_min rv r = Ok lo /\ rot_dev_max rv r = Ok hi /\ rot_ate rv r = Some ate /\ rot_dev_median rv r = Some med /\ rot_dev_rms rv r = Some rms /\ rot_dev_std rv r = Some std /\
          map b_height (of_result i bars) = map (fun x => Fin (x * (180 / PI))) [lo; hi; ate; med; rms; std]).
Proof.
  intros Q ops rv mm rs C V N H.
  assert (S : forall r, In r rs -> rot_dev r <> None -> exists lo hi ate med rms std, rot_dev_min rv r = Ok lo /\ rot_dev_max rv r = Ok hi /\ rot_ate rv r = Some ate /\ rot_dev_median rv r = Some med /\ rot_dev_rms rv r = Some rms /\ rot_dev_std rv r = Some std).
  { intros r I O. destruct (rot_dev r) as [d|] eqn:D; [|congruence]. assert (Nd : d <> []) by (intro Z; subst; exact (H r I D)). destruct (C98_statistics Q ops rv r d C V D Nd) as (lo & hi & m & q & med & s & E1 & E2 & E3 & E4 & E5 & E6 & _). exists lo, hi, m, med, q, s. auto 10. }
  assert (HO : forall r : ate_result Q, has_orientation r = true <-> rot_dev r <> None) by (intros r; unfold has_orientation; destruct (rot_dev r); split; congruence).
  destruct (bars_geometry rv false mm rs N) as (bars & E & D & HB).
  { intros r I [X|X]; [discriminate|]. destruct (S r I (proj1 (HO r) X)) as (lo & hi & ate & med & q & s & E1 & E2 & _). unfold characteristics. rewrite E1, E2. cbn. eauto. }
  exists bars. split; [exact E|]. split; [exact D|]. intros i r Hi. destruct (HB i r Hi) as [K1 K2]. split.
  - intros O. apply K1. unfold has_orientation. rewrite O. reflexivity.
  - intros O. destruct K2 as (v & Hv & Cc & Hh); [rewrite (proj2 (HO r) O); reflexivity|]. split; [exact Cc|].
    destruct (S r (nth_error_In _ _ Hi) O) as (lo & hi & ate & med & q & s & E1 & E2 & E3 & E4 & E5 & E6). exists lo, hi, ate, med, q, s. repeat (split; [assumption|]). rewrite Hh. unfold characteristics in Hv. rewrite E1, E2, E3, E4, E5, E6 in Hv. cbn in Hv. injection Hv as <-. reflexivity.
Qed.
Print Assumptions C111_orientations.

Example C111_case : exists x y : ate_result RotM, compare_absolute rot_impl duo duo_plain = Ok x /\ compare_absolute rot_impl duo duo = Ok y /\ (forall r, In r [x; y] -> pos_dev r <> []) /\ rot_dev x = None /\ (forall r, In r [x; y] -> rot_dev r <> Some []).
Proof.
  destruct C109_case as (x & y & X & Y & Nx & Px & (d & Dy & Nd & _) & _). destruct (compare_self rot_impl rot_impl_contract duo duo_consistent) as (y' & Y' & Ly & _). rewrite Y in Y'. injection Y' as <-.
  exists x, y. split; [exact X|]. split; [exact Y|]. split; [intros r [<-|[<-|[]]]; [exact Px|intro Z; rewrite Z in Ly; discriminate Ly]|]. split; [exact Nx|]. intros r [<-|[<-|[]]]; congruence.
Qed.

(** * C112 Histograms *)
(** The bars of a histogram count the deviations larger than 1e-6, each once; normalised they sum to one, ... *)
Theorem C112_partial : forall auto mm l, auto_contract auto ->
  exists counts, snd (norm_hist auto mm false l) = map (fun c => Fin (INR c)) counts /\ fold_right Nat.add 0%nat counts = length (filter (fun x => Rltb (1 / 1000000) (Rabs x)) l) /\
    ((forall x, In x l -> 1 / 1000000 < Rabs x) -> fold_right Nat.add 0%nat counts = length l) /\
    ((exists x, In x l /\ 1 / 1000000 < Rabs x) -> exists h, snd (norm_hist auto mm true l) = map Fin h /\ np_sum h = 1).
Proof.
  intros auto mm l A. set (l' := filter (fun x => Rltb (1 / 1000000) (Rabs x)) l). exists (histogram (auto l') l'). assert (T := histogram_total (auto l') l' (A l')). split; [reflexivity|]. split; [exact T|]. split.
  - intros H. rewrite T. f_equal. apply filter_true. intros x I. apply Rltb_true, H, I.
  - intros (x & I & X). assert (Ix : In x l') by (apply filter_In; split; [exact I|apply Rltb_true, X]). exists (map (fun c => INR c / INR (length l')) (histogram (auto l') l')). unfold norm_hist. fold l'. cbn [snd].
    destruct (Nat.eqb_spec (length l') 0) as [Z|Z]; [destruct l'; [destruct Ix|discriminate Z]|]. split; [rewrite map_map; reflexivity|].
    assert (G : forall c, c <> 0 -> forall h, np_sum (map (fun k => INR k / c) h) = INR (fold_right Nat.add 0%nat h) / c).
    { intros c Nc h. induction h as [|k h IH]; [cbn; field; exact Nc|]. cbn [map fold_right]. change (np_sum (?a :: ?b)) with (a + np_sum b). rewrite plus_INR. change (np_sum (INR k / c :: map (fun k => INR k / c) h)) with (INR k / c + np_sum (map (fun k => INR k / c) h)). rewrite IH. field. exact Nc. }
    rewrite G by (apply not_0_INR, Z). rewrite T. field. apply not_0_INR, Z.
Qed.
Print Assumptions C112_partial.

(** ... so deviations of at most 1e-6 are missing, and identical trajectories have normalised bars that are not numbers. *)
Theorem C112_refuted : forall auto mm l, auto_contract auto ->
  ((exists x, In x l /\ Rabs x <= 1 / 1000000) -> exists counts, snd (norm_hist auto mm false l) = map (fun c => Fin (INR c)) counts /\ (fold_right Nat.add 0%nat counts < length l)%nat) /\
  ((forall x, In x l -> x = 0) -> exists n, snd (norm_hist auto mm true l) = repeat NaN (S n)).
Proof.
  intros auto mm l A. destruct (C112_partial auto mm l A) as (counts & E & T & _). split.
  - intros (x & I & X). exists counts. split; [exact E|]. rewrite T. apply (filter_shorter _ l x I). apply Rltb_false. exact X.
  - intros Z. assert (F : filter (fun x => Rltb (1 / 1000000) (Rabs x)) l = []). { apply filter_none. intros x I. rewrite (Z x I), Rabs_R0. apply Rltb_false. lra. }
    unfold norm_hist. rewrite F. cbn [snd length Nat.eqb]. destruct (A []) as (_ & L & _). destruct (auto []) as [|a [|b r]]; cbn [length] in L; try lia. clear. revert a b. induction r as [|c r IH]; intros a b; [exists 0%nat; reflexivity|].
    destruct (IH b c) as (n & En). exists (S n). change (histogram (a :: b :: c :: r) []) with (0%nat :: histogram (b :: c :: r) []). cbn [map]. rewrite En. reflexivity.
Qed.
Print Assumptions C112_refuted.

(** One bin from the smallest value to one more than the largest *)
Definition one_bin (l : list R) : list R := match np_min l, np_max l with Ok a, Ok b => [a; b + 1] | _, _ => [0; 1] end.
Example C112_case : auto_contract one_bin /\ (exists x, In x [0; 3] /\ Rabs x <= 1 / 1000000) /\ (exists x, In x [0; 3] /\ 1 / 1000000 < Rabs x).
Proof.
  split.
  - intros l. unfold one_bin. destruct l as [|x l].
    + cbn. split; [repeat constructor; lra|]. split; [cbn; lia|intros y []].
    + destruct (np_min_spec (x :: l) ltac:(discriminate)) as (a & -> & Sa), (np_max_spec (x :: l) ltac:(discriminate)) as (b & -> & Sb). assert (a <= b) by (apply Sa, Sb).
      split; [repeat constructor; lra|]. split; [cbn; lia|]. intros y I. cbn [hd last]. split; [apply Sa, I|assert (y <= b) by (apply Sb, I); lra].
  - split; [exists 0; split; [cbn; auto|rewrite Rabs_R0; lra]|exists 3; split; [cbn; auto|rewrite Rabs_right; lra]].
Qed.

(** * C113 Equal axes *)
Theorem C113 : forall lims, lims <> [] -> (forall l, In l lims -> fst l <= snd l) ->
  exists size new, set_aspect_equal lims = Ok new /\ Forall2 (fun l l' => snd l' - fst l' = size /\ fst l' + snd l' = fst l + snd l /\ fst l' <= fst l /\ snd l <= snd l') lims new /\
    exists l, In l lims /\ snd l - fst l = size.
Proof.
  intros lims N H. unfold set_aspect_equal. set (f := flat_map _ lims).
  assert (F : forall y, In y f <-> exists l, In l lims /\ y = (snd l - fst l) / 2).
  { intros y. unfold f. rewrite in_flat_map. split.
    - intros (l & I & Y). exists l. split; [exact I|]. assert (X := H l I). destruct l as [lo hi]. cbn [fst snd] in *. destruct Y as [<-|[<-|[]]]; [rewrite Rabs_left1|rewrite Rabs_right]; unfold f in *; cbv beta; cbn [fst snd]; lra.
    - intros (l & I & ->). exists l. split; [exact I|]. right. left. assert (X := H l I). destruct l as [lo hi]. cbn [fst snd] in *. rewrite Rabs_right; lra. }
  destruct (np_max_spec f) as (r & -> & Sr & Gr). { destruct lims as [|l ?]; [congruence|]. intro Z. assert (I : In ((snd l - fst l) / 2) f) by (apply F; exists l; split; [left; reflexivity|reflexivity]). rewrite Z in I. destruct I. }
  cbn [bind]. exists (2 * r). eexists. split; [reflexivity|]. split.
  - assert (G : forall l, In l lims -> (snd l - fst l) / 2 <= r) by (intros l I; apply Gr, F; eauto). clear - G. induction lims as [|l lims IH]; cbn; constructor; [|apply IH; intros x I; apply G; right; exact I]. assert (X := G l (or_introl eq_refl)). destruct l as [lo hi]. cbn [fst snd] in *. lra.
  - apply F in Sr as (l & I & ->). exists l. split; [exact I|field].
Qed.
Print Assumptions C113.

Example C113_case : set_aspect_equal [(0, 2); (1, 2); (-1, 3)] = Ok [(-1, 3); (-1 / 2, 7 / 2); (-1, 3)].
Proof.
  unfold set_aspect_equal. cbn. assert (R0 : Rabs (0 - (0 + 2) / 2) = 1) by (rewrite Rabs_left1; lra). assert (R1 : Rabs (2 - (0 + 2) / 2) = 1) by (rewrite Rabs_right; lra).
  assert (R2 : Rabs (1 - (1 + 2) / 2) = 1 / 2) by (rewrite Rabs_left1; lra). assert (R3 : Rabs (2 - (1 + 2) / 2) = 1 / 2) by (rewrite Rabs_right; lra).
  assert (R4 : Rabs (-1 - (-1 + 3) / 2) = 2) by (rewrite Rabs_left1; lra). assert (R5 : Rabs (3 - (-1 + 3) / 2) = 2) by (rewrite Rabs_right; lra). rewrite R0, R1, R2, R3, R4, R5.
  replace (Rmax (Rmax (Rmax (Rmax (Rmax 1 1) (1 / 2)) (1 / 2)) 2) 2) with 2 by (unfold Rmax; repeat destruct (Rle_dec _ _); lra). do 2 f_equal; [f_equal; lra|]. f_equal; [f_equal; lra|]. do 2 f_equal; lra.
Qed.

(** * C114 Figures of relative errors *)
(** If all results have the same kind of pair distances, the axes of the figure carry their units, and every result is drawn with its own values, ... *)
Theorem C114_partial : forall rs, rs <> [] ->
  exists f, render_rpe rs = Ok f /\ f_pos f = map (fun r => (mean_pair_distances r, pos_dev_of mean1 r)) rs /\
    f_rot f = map (fun r => (mean_pair_distances r, map (fun x => x * (180 / PI)) (rot_dev_of mean1 r))) (filter has_rot_dev rs) /\ (f_rot_unit f = None <-> forall r, In r rs -> has_rot_dev r = false) /\
    ((forall r r', In r rs -> In r' rs -> r_unit r = r_unit r') -> forall r, In r rs ->
       f_distance_unit f = pair_distance_unit_str r /\ f_pos_unit f = pos_drift_unit r /\ (has_rot_dev r = true -> f_rot_unit f = Some (rot_drift_unit r))).
Proof.
  intros rs N. destruct rs as [|first rs]; [congruence|]. unfold render_rpe. eexists. split; [reflexivity|]. cbn [f_pos f_rot f_rot_unit f_distance_unit f_pos_unit]. split; [reflexivity|]. split; [reflexivity|]. split.
  - split.
    + intros E r I. apply not_true_is_false. intro Hr. assert (In r (filter has_rot_dev (first :: rs))) as J by (apply filter_In; auto). destruct (filter has_rot_dev (first :: rs)); [destruct J|discriminate].
    + intros H. rewrite filter_none by exact H. reflexivity.
  - intros H r I. assert (F : In first (first :: rs)) by (left; reflexivity). unfold pair_distance_unit_str, pos_drift_unit, rot_drift_unit.
    assert (R : forall x l, filter has_rot_dev (first :: rs) = x :: l -> r_unit x = r_unit r). { intros x l E. apply H; [|exact I]. assert (J : In x (filter has_rot_dev (first :: rs))) by (rewrite E; left; reflexivity). apply filter_In in J as [J _]. exact J. }
    rewrite (H first r F I). destruct (filter has_rot_dev (first :: rs)) as [|x l] eqn:E.
    + split; [reflexivity|]. split; [reflexivity|]. intros Hr. assert (J : In r (filter has_rot_dev (first :: rs))) by (apply filter_In; auto). rewrite E in J. destruct J.
    + rewrite (R x l eq_refl). auto.
Qed.
Print Assumptions C114_partial.

(** ... but results over distances and over times are drawn on the same axes with the units of the first one. *)
Theorem C114_refuted : forall a b rs f, r_unit a = METER -> r_unit b = SECOND -> In b rs -> render_rpe (a :: rs) = Ok f ->
  In (mean_pair_distances b, pos_dev_of mean1 b) (f_pos f) /\ f_pos_unit f = "%"%string /\ pos_drift_unit b = "m/s"%string.
Proof.
  intros a b rs f Ua Ub I E. unfold render_rpe in E. injection E as <-. cbn [f_pos f_pos_unit]. split; [apply (in_map (fun r => (mean_pair_distances r, pos_dev_of mean1 r)) (a :: rs) b); right; exact I|].
  unfold pos_drift_unit. rewrite Ua, Ub. split; reflexivity.
Qed.
Print Assumptions C114_refuted.

(** The other plot of relative errors keeps them apart: distances in the first figure, times in the second, and a figure only if it has results. *)
Theorem C114_apart : forall rs, (forall r, In r rs -> r_unit r = METER \/ r_unit r = SECOND) ->
  exists m s, plot_rpe rs = Ok (m, s) /\ (m = None <-> forall r, In r rs -> r_unit r = SECOND) /\ (s = None <-> forall r, In r rs -> r_unit r = METER) /\
    (forall l, m = Some l -> forall c, In c l <-> exists r, In r rs /\ r_unit r = METER /\ c = (mean_pair_distances r, pos_dev_of mean1 r)) /\
    (forall l, s = Some l -> forall c, In c l <-> exists r, In r rs /\ r_unit r = SECOND /\ c = (mean_pair_distances r, pos_dev_of mean1 r)).
Proof.
  intros rs H. unfold plot_rpe. replace (forallb _ rs) with true by (symmetry; apply forallb_forall; intros r I; destruct (H r I) as [-> | -> ]; reflexivity).
  do 2 eexists. split; [reflexivity|].
  assert (P : forall r, In r rs -> (Bool.eqb (is_meter (r_unit r)) true = true <-> r_unit r = METER) /\ (Bool.eqb (is_meter (r_unit r)) false = true <-> r_unit r = SECOND)) by (intros r I; destruct (H r I) as [-> | -> ]; cbn; split; split; congruence).
  assert (X : forall u, existsb (fun r => Bool.eqb (is_meter (r_unit r)) u) rs = true <-> exists r, In r rs /\ Bool.eqb (is_meter (r_unit r)) u = true) by (intros u; apply existsb_exists).
  assert (M : forall u l, (if existsb (fun r => Bool.eqb (is_meter (r_unit r)) u) rs then Some (map (fun r => (mean_pair_distances r, pos_dev_of mean1 r)) (filter (fun r => Bool.eqb (is_meter (r_unit r)) u) rs)) else None) = Some l ->
    forall c, In c l <-> exists r, In r rs /\ Bool.eqb (is_meter (r_unit r)) u = true /\ c = (mean_pair_distances r, pos_dev_of mean1 r)).
  { intros u l E c. destruct (existsb _ rs); [|discriminate]. injection E as <-. rewrite in_map_iff. split; [intros (r & <- & I); apply filter_In in I as [I J]; eauto|]. intros (r & I & J & ->). exists r. split; [reflexivity|]. apply filter_In. auto. }
  split; [|split; [|split]].
  - destruct (existsb (fun r => Bool.eqb (is_meter (r_unit r)) true) rs) eqn:E.
    + split; [discriminate|]. intros Y. apply X in E as (r & I & J). apply (P r I) in J. rewrite (Y r I) in J. discriminate.
    + split; [|reflexivity]. intros _ r I. destruct (H r I) as [U|U]; [|exact U]. assert (T : existsb (fun r => Bool.eqb (is_meter (r_unit r)) true) rs = true) by (apply X; exists r; split; [exact I|apply (P r I), U]). congruence.
  - destruct (existsb (fun r => Bool.eqb (is_meter (r_unit r)) false) rs) eqn:E.
    + split; [discriminate|]. intros Y. apply X in E as (r & I & J). apply (P r I) in J. rewrite (Y r I) in J. discriminate.
    + split; [|reflexivity]. intros _ r I. destruct (H r I) as [U|U]; [exact U|]. assert (T : existsb (fun r => Bool.eqb (is_meter (r_unit r)) false) rs = true) by (apply X; exists r; split; [exact I|apply (P r I), U]). congruence.
  - intros l E c. rewrite (M true l E c). split; intros (r & I & J & K); exists r; (split; [exact I|]; split; [apply (P r I), J|exact K]).
  - intros l E c. rewrite (M false l E c). split; intros (r & I & J & K); exists r; (split; [exact I|]; split; [apply (P r I), J|exact K]).
Qed.
Print Assumptions C114_apart.

Example C114_case : let a := mkRpeResult "a" [(Some 1, mkBlock [1] [1 / 10] [])] METER in let b := mkRpeResult "b" [(Some 1, mkBlock [1] [1 / 10] [])] SECOND in
  exists f, render_rpe [a; b] = Ok f /\ f_pos_unit f = "%"%string /\ f_rot_unit f = None.
Proof. eexists. split; [reflexivity|]. split; reflexivity. Qed.
