(** Reading parameter files. *)
From Verif Require Import Base BaseFacts NumpyModel NumpyFacts EvalModel ParamModel ParamSpec ParamFacts ParamFacts2.

Lemma read_csv_rows f w rows extra : csv_rows f = rows ++ extra -> rows <> [] ->
  Forall (fun c => length c = w) rows -> Forall (fun c => (length c <= w)%nat) extra ->
  read_csv f = Ok (map (pad w) rows ++ map (pad w) extra).
Proof.
  intros H NE W X. unfold read_csv. rewrite H. destruct rows as [|c0 rows]; [congruence|].
  inversion W as [|? ? W0 W']; subst. cbn [app].
  replace (forallb _ (rows ++ extra)) with true.
  - rewrite <- map_app. reflexivity.
  - symmetry. apply forallb_forall. intros c Hc. apply Nat.leb_le. apply in_app_or in Hc as [Hc|Hc].
    + rewrite Forall_forall in W'. rewrite (W' c Hc). lia.
    + rewrite Forall_forall in X. now apply X.
Qed.

Definition flag_of (x : R) : bool := negb (Reqb x 0).

Lemma params_from_rows f w rows extra : csv_rows f = rows ++ extra -> length rows = 11%nat -> (2 <= w)%nat ->
  Forall (fun c => length c = w) rows -> Forall (fun c => (length c <= w)%nat) extra ->
  exists s1, set_values default_alignment (map (fun c => nth 0 c 0) rows) = Ok s1 /\
  params_from_file f =
    set_covariance_matrix (set_enabled_bool_list s1 (map flag_of (map (fun c => nth 1 c 0) rows)))
                          (mat_of_rows (w - 2) (map (skipn 2) rows)).
Proof.
  intros H L W2 W X. unfold params_from_file.
  rewrite (read_csv_rows f w rows extra H) by (try (intros ->; discriminate); assumption). cbn [bind].
  assert (firstn 11 (map (pad w) rows ++ map (pad w) extra) = map (pad w) rows) as HF.
  { rewrite <- L, <- (map_length (pad w) rows), firstn_app, Nat.sub_diag, firstn_all. cbn. apply app_nil_r. }
  rewrite HF.
  assert (forall k, (k < 2)%nat -> Forall (fun c : list R => (k < length c)%nat) rows) as HK.
  { intros k Hk. revert W. apply Forall_impl. intros c ->. lia. }
  rewrite (column_pad w rows 0) by (apply HK; lia). cbn [bind].
  destruct (ps_set_ok default_alignment (map (fun c => nth 0 c 0) rows) KValue false) as [l [E _]].
  { rewrite map_length, L. reflexivity. }
  fold (set_values default_alignment (map (fun c => nth 0 c 0) rows)) in E.
  rewrite E. eexists. split; [reflexivity|]. cbn [bind].
  rewrite (column_pad w rows 1) by (apply HK; lia). cbn [bind].
  rewrite (skipn_pad rows w 2 W), numbers_some. cbn [bind].
  f_equal. f_equal. destruct rows as [|c0 rows]; [discriminate|]. cbn [map app].
  inversion W; subst. rewrite pad_exact, map_length. reflexivity.
Qed.

Lemma params_to_file_unreadable s : ps_len s = 11%nat -> square_of 11 (ps_cov s) ->
  params_from_file (params_to_file s) = Err AlignmentParametersError.
Proof.
  intros L [Hr Hc].
  destruct (params_from_rows (params_to_file s) 12 (param_rows s) []) as [s1 [_ ->]].
  - unfold params_to_file. rewrite (csv_rows_map (fun c => c)), map_id. symmetry. apply app_nil_r.
  - unfold param_rows. rewrite map_length, enumerate_length. exact L.
  - lia.
  - apply Forall_forall. intros c H. unfold param_rows in H. apply in_map_iff in H as [x [<- _]].
    cbn [length]. now rewrite cov_row_length, Hc.
  - constructor.
  - set (m := mat_of_rows _ _).
    assert (m_rows m <> m_cols m) as N.
    { unfold m. cbn. rewrite map_length. unfold param_rows. rewrite map_length, enumerate_length.
      change (ps_len s <> 10%nat). lia. }
    apply bad_covariance. intros [[A B]|[A B]]; congruence.
Qed.

Lemma fmt_int d fmt z : decimal_format d fmt -> fmt (IZR z) = IZR z.
Proof.
  intros [_ H]. specialize (H (z * 10 ^ Z.of_nat d)%Z).
  rewrite mult_IZR, <- pow_IZR in H. rewrite Rmult_assoc, Rinv_r, Rmult_1_r in H; [exact H|].
  apply pow_nonzero. lra.
Qed.

Lemma flag_of_fmt fmt b : decimal_format 15 fmt -> flag_of (fmt (bool_num b)) = b.
Proof.
  intro H. unfold bool_num. destruct b; [rewrite (fmt_int _ _ 1 H)|rewrite (fmt_int _ _ 0 H)]; unfold flag_of; rb; reflexivity.
Qed.
Lemma flag_of_num b : flag_of (bool_num b) = b.
Proof. unfold bool_num. destruct b; unfold flag_of; rb; reflexivity. Qed.

Lemma default_params_exact d fmt p : decimal_format d fmt -> In p default_params -> fmt (p_default p) = p_default p.
Proof.
  intros H HI. cbn in HI. repeat destruct HI as [<-|HI]; try contradiction; cbn;
    first [apply (fmt_int d fmt 0 H) | apply (fmt_int d fmt 1 H)].
Qed.

(** The position part of a result file. *)
Lemma position_from_file fmt s f extra : decimal_format 15 fmt -> ps_len s = 11%nat -> square_of 11 (ps_cov s) ->
  standard_defaults default_params s ->
  csv_rows f = map (map fmt) (param_rows_flags s) ++ extra -> Forall (fun c => (length c <= 13)%nat) extra ->
  exists s', params_from_file f = Ok s' /\ values s' = map fmt (values s) /\
    enabled_bool_list s' = enabled_bool_list s /\
    mat_eq (ps_cov s') (mkMat 11 11 (fun i j => fmt (m_at (ps_cov s) i j))).
Proof.
  intros HF L [Hr Hc] SD HR HX.
  assert (length (param_rows_flags s) = 11%nat) as LR by (now rewrite param_rows_flags_length).
  destruct (params_from_rows f 13 (map (map fmt) (param_rows_flags s)) extra HR) as [s1 [E1 ->]].
  - now rewrite map_length.
  - lia.
  - apply Forall_forall. intros c Hin. apply in_map_iff in Hin as [c' [<- Hin]]. rewrite map_length.
    assert (W := param_rows_flags_width s). rewrite Forall_forall in W. rewrite (W _ Hin), Hc. reflexivity.
  - exact HX.
  - assert (map (fun c => nth 0 c 0) (map (map fmt) (param_rows_flags s)) = map fmt (values s)) as HV.
    { rewrite map_map. unfold param_rows_flags. rewrite map_map. cbn [nth map].
      rewrite <- (map_map (fun x => snd (snd x)) fmt), <- (map_map snd snd).
      rewrite enumerate_map_snd, map_snd_combine; [reflexivity|]. rewrite flags_length. reflexivity. }
    assert (map flag_of (map (fun c => nth 1 c 0) (map (map fmt) (param_rows_flags s))) = enabled_bool_list s) as HB.
    { rewrite !map_map. unfold param_rows_flags. rewrite map_map. cbn [nth map].
      rewrite <- (map_map (fun x : nat * (bool * R) => fst (snd x)) (fun b => flag_of (fmt (bool_num b)))), <- (map_map snd fst).
      rewrite enumerate_map_snd, map_fst_combine by (rewrite flags_length; reflexivity).
      rewrite <- (map_id (enabled_bool_list s)) at 2. apply map_ext. intro b. now apply flag_of_fmt. }
    rewrite HV in E1. rewrite HB.
    destruct (loaded_values default_params s default_alignment (map fmt (values s)) s1 (enabled_bool_list s) fmt) as [HE HVS].
    + reflexivity.
    + rewrite <- ps_len_eq. exact L.
    + exact SD.
    + reflexivity.
    + exact E1.
    + intros p Hp. eapply default_params_exact; eauto.
    + reflexivity.
    + set (s2 := set_enabled_bool_list s1 (enabled_bool_list s)) in *.
      assert (ps_len s2 = 11%nat) as L2.
      { assert (length (values s2) = length (map fmt (values s))) as X by congruence.
        rewrite map_length in X. change (ps_len s2 = ps_len s) in X. congruence. }
      set (m := mat_of_rows (13 - 2) (map (skipn 2) (map (map fmt) (param_rows_flags s)))).
      assert (square_of (ps_len s2) m) as SQ.
      { rewrite L2. split; [|reflexivity]. unfold m. cbn. now rewrite !map_length, LR. }
      destruct (full_covariance s2 m SQ) as [s' [-> [ME [B [V _]]]]].
      exists s'. split; [reflexivity|]. split; [congruence|]. split; [congruence|].
      destruct ME as [M1 [M2 M3]]. split; [|split].
      * rewrite M1. unfold m. cbn. now rewrite !map_length, LR.
      * rewrite M2. reflexivity.
      * intros i j Hi Hj. rewrite M3 by assumption. cbn [m_at]. unfold m. cbn [m_at mat_of_rows].
        assert (i < 11)%nat as Hi' by (rewrite M1 in Hi; unfold m in Hi; cbn in Hi; rewrite !map_length, LR in Hi; exact Hi).
        assert (j < 11)%nat as Hj' by (rewrite M2 in Hj; exact Hj).
        assert (exists v b, nth_error (values s) i = Some v /\ nth_error (enabled_bool_list s) i = Some b) as [v [b [Hv Hb]]].
        { destruct (nth_error_lt_Some (values s) i) as [v Hv]; [change (i < ps_len s)%nat; lia|].
          destruct (nth_error_lt_Some (enabled_bool_list s) i) as [b Hb]; [rewrite flags_length; lia|]. eauto. }
        assert (nth_error (map (skipn 2) (map (map fmt) (param_rows_flags s))) i = Some (map fmt (cov_row (ps_cov s) i))) as X.
        { rewrite !nth_error_map', param_rows_flags_nth, Hv, Hb. reflexivity. }
        rewrite (nth_error_nth _ _ [] X). apply nth_error_nth. rewrite nth_error_map'. unfold cov_row.
        rewrite nth_error_map', nth_error_seq, Hc. replace (j <? 11)%nat with true by (symmetry; apply Nat.ltb_lt; lia).
        reflexivity.
Qed.

(** The rotation part. *)
Lemma sensor_rows_eq s : csv_rows (sensor_rows s) = map (fun p => [p_value p; bool_num (p_enabled p)]) (ps_params s).
Proof. unfold sensor_rows. apply csv_rows_map. Qed.

Lemma sensor_from_rows s f first w : ps_len s = 3%nat -> standard_defaults default_sensor_params s ->
  csv_rows f = first ++ csv_rows (sensor_rows s) -> length first = 11%nat -> (2 <= w)%nat ->
  Forall (fun c => length c = w) first ->
  exists s', sensor_from_file f = Ok s' /\ values s' = values s /\ enabled_bool_list s' = enabled_bool_list s.
Proof.
  intros L SD HR LF W2 W. unfold sensor_from_file.
  rewrite sensor_rows_eq in HR. rewrite ps_len_eq in L.
  set (rows := map (fun p => [p_value p; bool_num (p_enabled p)]) (ps_params s)) in *.
  assert (Forall (fun c => length c = 2%nat) rows) as W3.
  { apply Forall_forall. intros c Hc. unfold rows in Hc. apply in_map_iff in Hc as [p [<- _]]. reflexivity. }
  rewrite (read_csv_rows f w first rows HR).
  2: { intros ->. discriminate. }
  2: exact W.
  2: { revert W3. apply Forall_impl. intros c ->. lia. }
  cbn [bind]. rewrite app_length, !map_length, LF. unfold rows at 1. rewrite map_length, L. cbn [Nat.add Nat.eqb negb].
  assert (skipn 11 (map (pad w) first ++ map (pad w) rows) = map (pad w) rows) as HF.
  { rewrite <- LF, <- (map_length (pad w) first), skipn_app, Nat.sub_diag, skipn_all. reflexivity. }
  rewrite HF.
  rewrite (column_pad w rows 1) by (revert W3; apply Forall_impl; intros c ->; lia). cbn [bind].
  rewrite (column_pad w rows 0) by (revert W3; apply Forall_impl; intros c ->; lia). cbn [bind].
  assert (map (fun c => nth 0 c 0) rows = map (fun x => x) (values s)) as HV.
  { unfold rows. rewrite map_map, map_id. unfold values. rewrite ps_get_all. reflexivity. }
  assert (map flag_of (map (fun c => nth 1 c 0) rows) = enabled_bool_list s) as HB.
  { unfold rows. rewrite !map_map. unfold enabled_bool_list. apply map_ext. intro p. cbn. apply flag_of_num. }
  fold flag_of. change (map (fun x => negb (Reqb x 0))) with (map flag_of). rewrite HB, HV.
  destruct (ps_set_ok default_sensor (map (fun x => x) (values s)) KValue false) as [l [E _]].
  { rewrite map_length. change (ps_len s = 3%nat). now rewrite ps_len_eq. }
  fold (set_values default_sensor (map (fun x => x) (values s))) in E. rewrite E. cbn [bind].
  destruct (loaded_values default_sensor_params s default_sensor (map (fun x => x) (values s)) (ps_set_params default_sensor l)
              (enabled_bool_list s) (fun x => x)) as [HE HVS]; auto.
  eexists. split; [reflexivity|]. split; [|exact HE]. rewrite HVS. apply map_id.
Qed.

Lemma result_round_trip fmt name r : decimal_format 15 fmt ->
  ps_len (position_parameters r) = 11%nat -> square_of 11 (ps_cov (position_parameters r)) ->
  ps_len (rotation_parameters r) = 3%nat ->
  standard_defaults default_params (position_parameters r) ->
  standard_defaults default_sensor_params (rotation_parameters r) ->
  exists r', result_from_file (result_to_file fmt [] name r) = Ok r' /\
    values (position_parameters r') = map fmt (values (position_parameters r)) /\
    enabled_bool_list (position_parameters r') = enabled_bool_list (position_parameters r) /\
    mat_eq (ps_cov (position_parameters r')) (mkMat 11 11 (fun i j => fmt (m_at (ps_cov (position_parameters r)) i j))) /\
    values (rotation_parameters r') = values (rotation_parameters r) /\
    enabled_bool_list (rotation_parameters r') = enabled_bool_list (rotation_parameters r) /\
    from_bool_list (enabled_bool_list (position_parameters r) ++ enabled_bool_list (rotation_parameters r)) = Ok (estimation_of r').
Proof.
  intros HF LP SQ LR SP SR. unfold result_from_file.
  set (f := result_to_file fmt [] name r).
  assert (csv_rows f = map (map fmt) (param_rows_flags (position_parameters r)) ++ csv_rows (sensor_rows (rotation_parameters r))) as HR.
  { unfold f, result_to_file. cbn [app csv_rows]. rewrite csv_rows_app, csv_rows_map. reflexivity. }
  assert (Forall (fun c => (length c <= 13)%nat) (csv_rows (sensor_rows (rotation_parameters r)))) as HX.
  { rewrite sensor_rows_eq. apply Forall_forall. intros c Hc. apply in_map_iff in Hc as [p [<- _]]. cbn. lia. }
  destruct (position_from_file fmt (position_parameters r) f _ HF LP SQ SP HR HX) as [p [-> [V [B M]]]].
  cbn [bind].
  destruct (sensor_from_rows (rotation_parameters r) f _ 13 LR SR HR) as [q [-> [V2 B2]]].
  - now rewrite map_length, param_rows_flags_length.
  - lia.
  - apply Forall_forall. intros c Hin. apply in_map_iff in Hin as [c' [<- Hin]]. rewrite map_length.
    assert (W := param_rows_flags_width (position_parameters r)). rewrite Forall_forall in W.
    destruct SQ as [_ Hc]. rewrite (W _ Hin), Hc. reflexivity.
  - cbn [bind]. rewrite B, B2.
    assert (exists e, from_bool_list (enabled_bool_list (position_parameters r) ++ enabled_bool_list (rotation_parameters r)) = Ok e) as [e He].
    { assert (length (enabled_bool_list (position_parameters r) ++ enabled_bool_list (rotation_parameters r)) = 14%nat) as L.
      { now rewrite app_length, !flags_length, LP, LR. }
      destruct (enabled_bool_list (position_parameters r) ++ enabled_bool_list (rotation_parameters r)) as [|b l]; [discriminate|].
      do 13 (destruct l as [|? l]; [discriminate|]). destruct l; [|discriminate]. cbn. eauto. }
    rewrite He. cbn [bind]. eexists. split; [reflexivity|]. cbn. auto 10.
Qed.

(** Writing a second result to the same file. *)
Lemma result_twice fmt n1 n2 r1 r2 :
  ps_len (position_parameters r1) = 11%nat -> square_of 11 (ps_cov (position_parameters r1)) -> ps_len (rotation_parameters r1) = 3%nat ->
  ps_len (position_parameters r2) = 11%nat -> square_of 11 (ps_cov (position_parameters r2)) -> ps_len (rotation_parameters r2) = 3%nat ->
  exists e, result_from_file (result_to_file fmt (result_to_file fmt [] n1 r1) n2 r2) = Err e.
Proof.
  intros P1 [_ C1] R1 P2 [_ C2] R2. unfold result_from_file.
  destruct (params_from_file _) as [p|e]; [|cbn; eauto]. cbn [bind].
  unfold sensor_from_file. destruct (read_csv _) as [t|e] eqn:E; [|cbn; eauto]. cbn [bind].
  unfold read_csv in E. unfold result_to_file in E. cbn [app csv_rows] in E.
  repeat (rewrite csv_rows_app in E || rewrite csv_rows_map in E). cbn [csv_rows] in E.
  repeat (rewrite csv_rows_app in E || rewrite csv_rows_map in E). rewrite !sensor_rows_eq in E.
  match type of E with match ?l with _ => _ end = _ => set (rows := l) in E end.
  assert (length rows = 28%nat) as LL.
  { unfold rows. rewrite !app_length, !map_length, !param_rows_flags_length, P1, P2.
    rewrite ps_len_eq in R1, R2. now rewrite R1, R2. }
  destruct rows as [|c0 rows']; [discriminate|].
  destruct (forallb _ rows'); [|discriminate]. injection E as E.
  assert (length t = 28%nat) as LT by (rewrite <- E; cbn [length]; rewrite map_length; exact LL).
  rewrite LT. cbn [Nat.eqb negb bind]. eexists. reflexivity.
Qed.

(** Rounding to a number of decimals meets the format contract. *)
Definition round_decimals (d : nat) (x : R) : R := IZR (Int_part (x * 10 ^ d + / 2)) * / 10 ^ d.
Lemma round_decimals_format d : decimal_format d (round_decimals d).
Proof.
  assert (0 < 10 ^ d) as P by (apply pow_lt; lra).
  assert (0 < / 10 ^ d) as P' by (now apply Rinv_0_lt_compat).
  split; unfold round_decimals.
  - intro x. destruct (base_Int_part (x * 10 ^ d + / 2)) as [A B]. set (k := IZR (Int_part _)) in *.
    replace (k * / 10 ^ d - x) with ((k - x * 10 ^ d) * / 10 ^ d) by (field; lra).
    rewrite Rabs_mult, (Rabs_right (/ 10 ^ d)) by lra. apply Rmult_le_compat_r; [lra|]. apply Rabs_le. lra.
  - intro z. replace (IZR z * / 10 ^ d * 10 ^ d) with (IZR z) by (field; lra).
    f_equal. f_equal. destruct (base_Int_part (IZR z + / 2)) as [A B]. set (k := Int_part _) in *.
    assert (k < z + 1)%Z by (apply lt_IZR; rewrite plus_IZR; lra).
    assert (z - 1 < k)%Z by (apply lt_IZR; rewrite minus_IZR; lra). lia.
Qed.
