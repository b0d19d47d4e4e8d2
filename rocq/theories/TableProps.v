(** C101, C102: the tables of the alignment report. *)
From Verif Require Import Base BaseFacts NumpyModel EvalModel ParamModel ParamSpec ParamFacts DataModel EstModel TextModel TextFacts TableModel TableSpec TableFacts.
Local Open Scope string_scope.

(** * C101 The parameter table *)
(** One row per enabled parameter, in order, with its name, its standard deviation in the right unit, and its value in the right unit unless
    it is a time: there the unit is cut off after "m". *)
Theorem C101_partial : forall fixed s, number_format fixed -> Forall (fun p => has_char "=" (p_name p) = false) (ps_params s) ->
  exists values stds, alignment_table fixed s = Ok (map p_name (filter p_enabled (ps_params s)), values, stds) /\
    length values = length (filter p_enabled (ps_params s)) /\ length stds = length (filter p_enabled (ps_params s)) /\
    forall i p, nth_error (filter p_enabled (ps_params s)) i = Some p ->
      (exists cell f u d, nth_error values i = Some cell /\ value_unit (p_unit p) = (f, u, d) /\
         shows cell (fixed d (Fin (p_stored p * f))) (match p_unit p with U_SECOND => "m" | _ => u end)) /\
      (exists cell f u d, nth_error stds i = Some cell /\ deviation_unit (p_unit p) = (f, u, d) /\
         shows cell (fixed d (if Rltb (p_stored_var p) 0 then NaN else Fin (sqrt (p_stored_var p) * f))) u).
Proof.
  intros fixed s F N. assert (EF : filter (fun p => (p_enabled p || negb true)%bool) (ps_params s) = filter p_enabled (ps_params s)) by (apply filter_ext; intros p; apply orb_false_r).
  unfold alignment_table, to_string_list, to_name_list. rewrite EF.
  assert (H : Forall (fun p => p_enabled p = true /\ has_char "=" (p_name p) = false) (filter p_enabled (ps_params s))).
  { apply Forall_forall. intros p I. apply filter_In in I as [I E]. rewrite Forall_forall in N. auto. }
  clear EF N. generalize dependent (filter p_enabled (ps_params s)). intros l H.
  assert (V : exists values, mapM extract_value (map (param_str fixed) l) = Ok values /\ length values = length l /\
    forall i p, nth_error l i = Some p -> exists cell f u d, nth_error values i = Some cell /\ value_unit (p_unit p) = (f, u, d) /\ shows cell (fixed d (Fin (p_stored p * f))) (match p_unit p with U_SECOND => "m" | _ => u end)).
  { induction H as [|p l [E N] H (values & M & L & IH)]; [exists []; split; [reflexivity|]; split; [reflexivity|]; intros [|i]; discriminate|].
    destruct (value_unit (p_unit p)) as [[f u] d] eqn:U. destruct (extract_value_ok fixed p f u d F N U) as (cell & X & Sh). exists (cell :: values). cbn [map mapM]. rewrite X. cbn [bind]. rewrite M. cbn [bind].
    split; [reflexivity|]. split; [cbn; congruence|]. intros [|i] q Hq; [|exact (IH i q Hq)]. injection Hq as <-. exists cell, f, u, d. unfold p_value in Sh. rewrite E in Sh. auto. }
  assert (D : exists stds, mapM extract_std (map (param_str fixed) l) = Ok stds /\ length stds = length l /\
    forall i p, nth_error l i = Some p -> exists cell f u d, nth_error stds i = Some cell /\ deviation_unit (p_unit p) = (f, u, d) /\ shows cell (fixed d (if Rltb (p_stored_var p) 0 then NaN else Fin (sqrt (p_stored_var p) * f))) u).
  { clear V. induction H as [|p l [E N] H (stds & M & L & IH)]; [exists []; split; [reflexivity|]; split; [reflexivity|]; intros [|i]; discriminate|].
    destruct (deviation_unit (p_unit p)) as [[f u] d] eqn:U. destruct (extract_std_ok fixed p f u d F U) as (cell & X & Sh). exists (cell :: stds). cbn [map mapM]. rewrite X. cbn [bind]. rewrite M. cbn [bind].
    split; [reflexivity|]. split; [cbn; congruence|]. intros [|i] q Hq; [|exact (IH i q Hq)]. injection Hq as <-. exists cell, f, u, d. unfold p_variance in Sh. rewrite E in Sh. auto. }
  destruct V as (values & EV & LV & HV), D as (stds & ED & LD & HD). exists values, stds. rewrite EV, ED. cbn [bind].
  split; [reflexivity|]. split; [exact LV|]. split; [exact LD|]. intros i p Hp. split; [exact (HV i p Hp)|exact (HD i p Hp)].
Qed.
Print Assumptions C101_partial.

(** No table shows a time in milliseconds, although the values are. *)
Theorem C101_refuted : forall fixed s i p labels values stds cell, number_format fixed -> Forall (fun p => has_char "=" (p_name p) = false) (ps_params s) ->
  alignment_table fixed s = Ok (labels, values, stds) -> nth_error (filter p_enabled (ps_params s)) i = Some p -> p_unit p = U_SECOND -> nth_error values i = Some cell ->
  shows cell (fixed 1%nat (Fin (p_stored p * 1000))) "m" /\ ~ exists number, shows cell number "ms".
Proof.
  intros fixed s i p labels values stds cell F N E P U C. destruct (C101_partial fixed s F N) as (v & d & E' & _ & _ & H). rewrite E in E'. injection E' as -> <- <-.
  destruct (proj1 (H i p P)) as (cell' & f & u & k & C' & V & Sh). rewrite C in C'. injection C' as <-. rewrite U in V, Sh. injection V as <- <- <-. split; [exact Sh|].
  intros (number & gap & _ & X). destruct Sh as (gap' & G & Y). assert (Z : has_char "s" cell = false).
  { rewrite Y, !has_char_app, (number_no fixed) by (exact F || reflexivity). rewrite (all_chars_has _ gap' "s" G); reflexivity. }
  rewrite X, !has_char_app in Z. cbn in Z. rewrite !orb_true_r in Z. discriminate.
Qed.
Print Assumptions C101_refuted.

(** The estimated time shift of half a second and a translation of two metres *)
Definition shifted : pset := mkPset
  [mkParam 2 (1/100) 0 true "Translation x" U_METER; mkParam 0 0 0 false "Scale" U_SCALE; mkParam (1/2) (1/10000) 0 true "Time Shift" U_SECOND]
  (mkMat 3 3 (fun i j => match i, j with 0%nat, 0%nat => 4 | 0%nat, 2%nat => 1 | 2%nat, 0%nat => 1 | 2%nat, 2%nat => 1 | _, _ => 0 end)) true.
Definition some_digits (d : nat) (x : num) : string := match x, d with NaN, _ => "nan" | Inf, _ => "inf" | Fin _, 1%nat => "500.0" | Fin _, _ => "-2.000" end.
Example C101_case : number_format some_digits /\ Forall (fun p => has_char "=" (p_name p) = false) (ps_params shifted) /\
  alignment_table some_digits shifted = Ok (["Translation x"; "Time Shift"], ["-2.000  m"; "500.0   m"], ["500.0   mm"; "500.0   ms"]).
Proof.
  split; [intros d [r| |]; try (split; [discriminate|reflexivity]); destruct d as [|[|d]]; (split; [discriminate|reflexivity])|]. split; [repeat (apply Forall_cons; [reflexivity|]); apply Forall_nil|].
  unfold alignment_table, to_string_list, shifted, param_str. cbn [ps_params filter p_enabled orb negb map p_unit rule_normal rule_precise p_variance p_value p_name p_stored p_stored_var].
  unfold np_sqrt. rb; [lra..|]. rb; [lra..|]. reflexivity.
Qed.

(** * C102 The correlation table *)
Lemma nth_filter_shown (l : list param) i p : nth_error l i = Some p -> p_enabled p = true -> nth_error (filter p_enabled l) (length (filter p_enabled (firstn i l))) = Some p.
Proof.
  revert i. induction l as [|q l IH]; intros [|i] H E; try discriminate; cbn in *.
  - injection H as ->. rewrite E. reflexivity.
  - destruct (p_enabled q); cbn; apply IH; assumption.
Qed.

Theorem C102 : forall s enabled_only, well_shaped s -> is_covariance (ps_cov s) ->
  exists t, correlation_frame s enabled_only = Ok t /\ f_columns t = f_index t /\ length (f_index t) = length (filter (fun p => (p_enabled p || negb enabled_only)%bool) (ps_params s)) /\
    forall a b i j p, shown_row s enabled_only a i -> shown_row s enabled_only b j -> nth_error (ps_params s) i = Some p ->
      nth_error (f_index t) a = Some (lower (p_name p)) /\
      f_at t a b = f_at t b a /\
      let c := m_at (ps_cov s) in
      ((i = j \/ c i i = 0 \/ c j j = 0) -> f_at t a b = NaN) /\
      (i <> j -> c i i <> 0 -> c j j <> 0 -> exists r, f_at t a b = Fin r /\ -1 <= r <= 1 /\ r = c i j / (sqrt (c i i) * sqrt (c j j))).
Proof.
  intros s e W C.
  assert (X : exists m, get_covariance s e = Ok m /\ m_rows m = length (filter (fun p => (p_enabled p || negb e)%bool) (ps_params s)) /\ m_cols m = m_rows m /\
    forall a b i j, shown_row s e a i -> shown_row s e b j -> m_at m a b = m_at (ps_cov s) i j).
  { destruct e; unfold shown_row.
    - destruct (get_covariance_ok s W) as (m & E & [Sr Sc] & H). exists m. split; [exact E|]. rewrite Sr, Sc, num_enabled_count. unfold enabled_bool_list at 1. rewrite count_true_filter.
      split; [f_equal; apply filter_ext; intros; symmetry; apply orb_false_r|]. split; [reflexivity|]. intros a b i j [A1 A2] [B1 B2]. apply H; unfold nth_true, enabled_bool_list; rewrite firstn_map, count_true_filter; auto.
    - exists (ps_cov s). split; [reflexivity|]. destruct W as [Wr Wc]. rewrite Wr, Wc. split; [|split; [reflexivity|]].
      + rewrite ps_len_eq. clear. induction (ps_params s) as [|p l IH]; [reflexivity|]. cbn in *. rewrite orb_true_r. cbn. congruence.
      + intros a b i j [-> _] [-> _]. reflexivity. }
  destruct X as (m & E & Lr & Lc & H). unfold correlation_frame. rewrite E. cbn [bind]. unfold to_name_list. rewrite map_length, <- Lr, Lc, Nat.eqb_refl. cbn [andb].
  eexists. split; [reflexivity|]. split; [reflexivity|]. cbn [f_index f_at]. split; [rewrite map_length; auto|].
  intros a b i j p A B Hp.
  assert (I : forall a i, shown_row s e a i -> (i < m_rows (ps_cov s))%nat).
  { intros a' i' R. destruct W as [Wr _]. rewrite Wr, ps_len_eq. unfold shown_row in R. destruct e; [|tauto]. destruct R as [R _]. apply nth_error_Some_lt in R. rewrite map_length in R. exact R. }
  assert (Ii := I a i A). assert (Ij := I b j B). assert (EQ : a = b <-> i = j).
  { unfold shown_row in A, B. destruct e; [|lia]. destruct A as [A1 ->], B as [B1 ->]. split; [|intros ->; reflexivity]. intro K.
    assert (nth_true (map p_enabled (ps_params s)) (length (filter p_enabled (firstn i (ps_params s)))) i) as T1 by (unfold nth_true; rewrite firstn_map, count_true_filter; auto).
    assert (nth_true (map p_enabled (ps_params s)) (length (filter p_enabled (firstn i (ps_params s)))) j) as T2 by (unfold nth_true; rewrite firstn_map, count_true_filter; auto).
    apply true_positions_nth in T1, T2. congruence. }
  split.
  { rewrite nth_error_map'. unfold shown_row in A. destruct e.
    - destruct A as [A1 ->]. rewrite nth_error_map', Hp in A1. injection A1 as A1. rewrite (filter_ext (fun p => (p_enabled p || negb true)%bool) p_enabled) by (intros; apply orb_false_r). rewrite (nth_filter_shown _ _ _ Hp A1). reflexivity.
    - destruct A as [-> _]. replace (filter (fun p => (p_enabled p || negb false)%bool) (ps_params s)) with (ps_params s); [rewrite Hp; reflexivity|].
      clear. induction (ps_params s) as [|q l IH]; [reflexivity|]. cbn in *. rewrite orb_true_r. congruence. }
  rewrite (H a b i j A B), (H b a j i B A), (H a a i i A A), (H b b j j B B).
  assert (SY : m_at (ps_cov s) i j = m_at (ps_cov s) j i) by (apply (proj1 (proj2 C)); assumption).
  assert (Di := covariance_diag _ _ C Ii). assert (Dj := covariance_diag _ _ C Ij). assert (M := covariance_minor _ _ _ C Ii Ij).
  unfold np_sqrt. assert (Ri : Rltb (m_at (ps_cov s) i i) 0 = false) by (apply Rltb_false; lra). assert (Rj : Rltb (m_at (ps_cov s) j j) 0 = false) by (apply Rltb_false; lra). rewrite Ri, Rj. cbn [num_mul].
  rewrite (Nat.eqb_sym b a), SY, (Rmult_comm (sqrt (m_at (ps_cov s) j j))). split; [reflexivity|]. rewrite <- SY. cbv zeta.
  set (cij := m_at (ps_cov s) i j) in *. set (ci := m_at (ps_cov s) i i) in *. set (cj := m_at (ps_cov s) j j) in *. split.
  - intros K. destruct (a =? b)%nat eqn:AB; [reflexivity|]. apply Nat.eqb_neq in AB. destruct K as [K|K]; [exfalso; tauto|].
    assert (Z : cij = 0) by (apply Rsqr_0_uniq; unfold Rsqr; assert (0 <= cij * cij) by (apply Rle_0_sqr); assert (ci * cj = 0) by (destruct K as [->| ->]; ring); lra).
    assert (Y : sqrt ci * sqrt cj = 0) by (destruct K as [->| ->]; rewrite sqrt_0; ring). unfold num_div. rewrite Y, Z, (proj2 (Reqb_true 0 0) eq_refl). reflexivity.
  - intros NE Ni Nj. destruct (a =? b)%nat eqn:AB; [apply Nat.eqb_eq in AB; tauto|].
    assert (Pi : 0 < sqrt ci) by (apply sqrt_lt_R0; lra). assert (Pj : 0 < sqrt cj) by (apply sqrt_lt_R0; lra). assert (Pp := Rmult_lt_0_compat _ _ Pi Pj).
    exists (cij / (sqrt ci * sqrt cj)). unfold num_div. split; [rewrite (proj2 (Reqb_false (sqrt ci * sqrt cj) 0)) by lra; reflexivity|]. split; [|reflexivity].
    assert (Q : Rabs cij <= sqrt ci * sqrt cj). { rewrite <- sqrt_mult by lra. rewrite <- sqrt_Rsqr_abs. apply sqrt_le_1_alt. exact M. }
    apply Rabs_le_between in Q || (unfold Rabs in Q; destruct (Rcase_abs cij)).
    all: split; (apply (Rmult_le_reg_r (sqrt ci * sqrt cj)); [exact Pp|]; unfold Rdiv; rewrite Rmult_assoc, Rinv_l by lra; lra).
Qed.
Print Assumptions C102.

Example C102_case : well_shaped shifted /\ is_covariance (ps_cov shifted) /\ shown_row shifted true 0 0 /\ shown_row shifted true 1 2 /\
  exists t, correlation_frame shifted true = Ok t /\ f_index t = ["translation x"; "time shift"] /\ f_at t 0%nat 1%nat = Fin (1 / 2).
Proof.
  assert (W : well_shaped shifted) by (split; reflexivity). assert (C : is_covariance (ps_cov shifted)).
  { split; [reflexivity|]. split.
    - cbn [m_rows ps_cov shifted m_at]. intros [|[|[|i]]] [|[|[|j]]] Hi Hj; try lia; reflexivity.
    - intros x. unfold sum_to. cbn. pose proof (Rle_0_sqr (2 * x 0%nat + x 2%nat / 2)). pose proof (Rle_0_sqr (x 2%nat)). unfold Rsqr in *. lra. }
  split; [exact W|]. split; [exact C|]. split; [split; reflexivity|]. split; [split; reflexivity|].
  destruct (C102 shifted true W C) as (t & E & _ & _ & H). exists t. split; [exact E|]. split.
  { injection E as <-. reflexivity. }
  destruct (H 0%nat 1%nat 0%nat 2%nat _ ltac:(split; reflexivity) ltac:(split; reflexivity) eq_refl) as (_ & _ & _ & K). cbn [m_at ps_cov shifted] in K.
  destruct K as (r & -> & _ & ->); [lia|lra|lra|]. f_equal. rewrite sqrt_1. replace 4 with (2 * 2) by ring. rewrite sqrt_square by lra. field.
Qed.
