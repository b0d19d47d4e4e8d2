(** Parameters from tables. *)
From Verif Require Import Base BaseFacts EstModel TextModel TextFacts HeaderModel NumpyModel NumpyFacts EvalModel ParamModel ParamSpec ParamFacts ParamFacts2 ParamFacts3
  TrajModel GeomModel IoModel IoSpec IoFacts TornModel TornFacts StoreModel StoreSpec StoreFacts.
Local Open Scope string_scope.

Lemma firstn_exact {A} n (a b : list A) : length a = n -> firstn n (a ++ b) = a.
Proof. intros <-. rewrite firstn_app, Nat.sub_diag, firstn_all. apply app_nil_r. Qed.
Lemma skipn_exact {A} n (a b : list A) : length a = n -> skipn n (a ++ b) = b.
Proof. intros <-. rewrite skipn_app, Nat.sub_diag, skipn_all. reflexivity. Qed.
Lemma entries_pad w rows k : Forall (fun c => (k < length c)%nat) rows ->
  entries (map (ParamModel.pad w) rows) k = Ok (map Some (map (fun c => nth k c 0) rows)).
Proof.
  unfold entries. induction 1 as [|c rows H F IH]; [reflexivity|]. cbn [map mapM].
  destruct (nth_error_lt_Some c k H) as [x E]. rewrite (pad_nth w c k x E). cbn [bind]. rewrite IH. cbn [bind].
  rewrite (nth_error_nth _ _ 0 E). reflexivity.
Qed.

Lemma rows_known rows n : Forall (fun c => length c = n) rows ->
  all_some (map (fun row => all_some (skipn 2 row)) (map (ParamModel.pad n) rows)) = Some (map (skipn 2) rows).
Proof.
  intro F. rewrite <- (map_map (skipn 2) all_some), (skipn_pad rows n 2 F), map_map, <- (all_some_known (map (skipn 2) rows)). f_equal.
  apply map_ext. intro c. apply all_some_known.
Qed.

Lemma position_rows rows extra : length rows = 11%nat -> Forall (fun c => length c = 13%nat) rows ->
  position_from (map (ParamModel.pad 13) rows ++ extra) = rmap Some (params_from_file (map CsvRow rows)).
Proof.
  intros L W.
  destruct (params_from_rows (map CsvRow rows) 13 rows []) as (s1 & E1 & E2); try assumption; try lia; [rewrite app_nil_r; etransitivity; [exact (csv_rows_map (fun c => c) rows)|apply map_id]|constructor|].
  unfold position_from.
  assert (firstn 11 (map (ParamModel.pad 13) rows ++ extra) = map (ParamModel.pad 13) rows) as HF.
  { apply firstn_exact. rewrite map_length. exact L. }
  rewrite HF.
  assert (forall k, (k < 2)%nat -> Forall (fun c : list R => (k < length c)%nat) rows) as HK by (intros k Hk; revert W; apply Forall_impl; intros c ->; lia).
  rewrite (entries_pad 13 rows 0) by (apply HK; lia). cbn [bind]. rewrite !map_length, L. cbn [Nat.eqb negb].
  rewrite (entries_pad 13 rows 1) by (apply HK; lia). cbn [bind].
  assert ((match (map (ParamModel.pad 13) rows ++ extra)%list with r :: _ => length r | [] => 0%nat end - 2)%nat = 11%nat) as HC.
  { destruct rows as [|c0 rows]; [discriminate|]. inversion W as [|? ? W0 _]; subst. cbn [map app]. unfold ParamModel.pad. rewrite W0, app_length, map_length, W0. reflexivity. }
  rewrite HC. cbn [Nat.eqb negb]. rewrite all_some_known, (rows_known rows 13 W), E1. cbn [bind].
  rewrite E2. cbn [Nat.sub]. rewrite map_map. unfold flag_of. cbn [nonzero].
  rewrite map_map. unfold rmap. destruct (set_covariance_matrix _ _); reflexivity.
Qed.

(** The three parameters of the sensor rotation, explicitly *)
Lemma sensor_three first r0 r1 r2 v0 v1 v2 e0 e1 e2 : length first = 11%nat ->
  nth_error r0 0 = Some (Some v0) -> nth_error r1 0 = Some (Some v1) -> nth_error r2 0 = Some (Some v2) ->
  nth_error r0 1 = Some e0 -> nth_error r1 1 = Some e1 -> nth_error r2 1 = Some e2 ->
  exists s, sensor_from (first ++ [r0; r1; r2]) = Ok (Some s) /\
    enabled_bool_list s = [nonzero e0; nonzero e1; nonzero e2] /\
    values s = [if nonzero e0 then v0 else 0; if nonzero e1 then v1 else 0; if nonzero e2 then v2 else 0].
Proof.
  intros L A0 A1 A2 B0 B1 B2. unfold sensor_from. rewrite app_length, L. cbn [length Nat.add Nat.eqb negb].
  rewrite (skipn_exact 11) by exact L. unfold entries. cbn [mapM]. rewrite A0, A1, A2, B0, B1, B2. cbn [bind mapM all_some].
  eexists. split; [reflexivity|]. split; [reflexivity|]. unfold values. rewrite ps_get_all. reflexivity.
Qed.
Lemma sensor_unknown first r0 r1 r2 c0 c1 e0 e1 e2 : length first = 11%nat ->
  nth_error r0 0 = Some c0 -> nth_error r1 0 = Some c1 -> nth_error r2 0 = Some None ->
  nth_error r0 1 = Some e0 -> nth_error r1 1 = Some e1 -> nth_error r2 1 = Some e2 ->
  sensor_from (first ++ [r0; r1; r2]) = Ok None.
Proof.
  intros L A0 A1 A2 B0 B1 B2. unfold sensor_from. rewrite app_length, L. cbn [length Nat.add Nat.eqb negb].
  rewrite (skipn_exact 11) by exact L. unfold entries. cbn [mapM]. rewrite A0, A1, A2, B0, B1, B2. cbn [bind mapM all_some].
  destruct c0, c1; reflexivity.
Qed.

(** The values of a set with three parameters and standard defaults *)
Lemma three_parameters s : ps_len s = 3%nat -> standard_defaults default_sensor_params s ->
  exists p0 p1 p2, ps_params s = [p0; p1; p2] /\
    Forall (fun p => p_value p = if p_enabled p then p_value p else 0) [p0; p1; p2].
Proof.
  intros L SD. rewrite ps_len_eq in L. unfold standard_defaults in SD. destruct (ps_params s) as [|p0 [|p1 [|p2 [|? ?]]]]; try discriminate.
  exists p0, p1, p2. split; [reflexivity|].
  assert (forall i p q, nth_error [p0; p1; p2] i = Some p -> nth_error default_sensor_params i = Some q -> p_default q = 0 -> p_value p = if p_enabled p then p_value p else 0) as H.
  { intros i p q P Q Z. destruct (p_enabled p) eqn:E; [reflexivity|]. unfold p_value. rewrite E, <- Z. exact (SD i p q P Q E). }
  constructor; [apply (H 0%nat p0 _ eq_refl eq_refl eq_refl)|]. constructor; [apply (H 1%nat p1 _ eq_refl eq_refl eq_refl)|].
  constructor; [apply (H 2%nat p2 _ eq_refl eq_refl eq_refl)|constructor].
Qed.
