(** A file of an alignment result whose last line can be cut. *)
From Verif Require Import Base BaseFacts EstModel TextModel TextFacts HeaderModel NumpyModel NumpyFacts EvalModel ParamModel ParamSpec ParamFacts ParamFacts2 ParamFacts3
  TrajModel GeomModel IoModel IoSpec IoFacts TornModel TornFacts CutFacts3 StoreModel StoreSpec StoreFacts StoreFacts2 StoreFacts3.
Local Open Scope string_scope.

Section Last.
  Context (T : text_ops) (show15 show : R -> string) (fmt : R -> R) (FC : format15 T show15 show fmt).
  Notation sensor_cells := (sensor_cells show).
  Notation number_cells := (number_cells show15).

  (** What is left of the last line *)
  Lemma last_cells z p q : p <> "" -> row_text (sensor_cells z) = p ++ q ->
    exists last, row_text last = p /\ split_on "," p = last /\ has_char "#" p = false /\ nonblank p = true /\ spaceless p = true /\
      ((last = [p] /\ exists w, show (p_value z) = p ++ w) \/ last = [show (p_value z); ""] \/ last = sensor_cells z) /\
      (q = "" <-> last = sensor_cells z).
  Proof.
    intros N E.
    destruct (good_row (sensor_cells z)) as (SP & H & _ & _); [discriminate|constructor; [apply (good_show T show15 show fmt FC)|constructor; [apply good_flag|constructor]]|].
    rewrite E in SP, H. rewrite spaceless_app in SP. apply andb_prop in SP as [SP _]. apply has_char_prefix in H.
    assert (nonblank p = true) as NB by (unfold nonblank; rewrite words_word by (split; assumption); reflexivity).
    assert (has_char "," (show (p_value z)) = false) as CM by apply FC.
    cbn [StoreFacts3.sensor_cells join] in E. apply append_split in E as [(w & E & Q)|(c & s & E1 & E2)].
    - exists [p]. split; [reflexivity|]. split; [apply split_on_none; rewrite E in CM; apply has_char_prefix in CM; exact CM|].
      split; [exact H|]. split; [exact NB|]. split; [exact SP|]. split; [left; split; [reflexivity|]; exists w; exact E|].
      split; [|discriminate]. intros ->. destruct w; discriminate.
    - cbn [append] in E2. injection E2 as <- E2. exists [show (p_value z); s]. subst p. split; [reflexivity|].
      assert ((s = "" /\ q <> "") \/ (s = flag_text (p_enabled z) /\ q = "")) as SC.
      { destruct (p_enabled z); cbn [flag_text] in *; (destruct s as [|a s]; [left; cbn in E2; split; [reflexivity|rewrite <- E2; discriminate]|right]; cbn in E2; injection E2 as <- E2; destruct s; [split; [reflexivity|symmetry; exact E2]|discriminate]). }
      split. { rewrite split_on_cut by exact CM. f_equal. apply split_on_none. destruct SC as [[-> _]|[-> _]]; [reflexivity|apply good_flag]. }
      split; [exact H|]. split; [exact NB|]. split; [exact SP|]. unfold StoreFacts3.sensor_cells.
      destruct SC as [[-> QN]|[-> ->]]; (split; [right; first [left; reflexivity|right; reflexivity]|]); [|tauto].
      split; [congruence|]. intro X. injection X as X. destruct (p_enabled z); discriminate.
  Qed.

  Context (name : string) (r : align_result) (WR : whole_result r) (SE : shown_exactly T show r).
  Notation positions := (param_rows_flags (position_parameters r)).
  Notation cleaned := (join " " (words name)).

  Lemma positions_shape : length positions = 11%nat /\ Forall (fun c => length c = 13%nat) positions.
  Proof.
    destruct WR as (L & [_ C] & _). split; [rewrite param_rows_flags_length; exact L|].
    pose proof (param_rows_flags_width (position_parameters r)) as W. rewrite C in W. exact W.
  Qed.

  Lemma position_part extra : exists s', position_from (map (ParamModel.pad 13) (map (map fmt) positions) ++ extra) = Ok (Some s') /\
    values s' = map fmt (values (position_parameters r)) /\ enabled_bool_list s' = enabled_bool_list (position_parameters r) /\
    mat_eq (ps_cov s') (mkMat 11 11 (fun i j => fmt (m_at (ps_cov (position_parameters r)) i j))).
  Proof.
    destruct positions_shape as [L W]. destruct WR as (LP & SQ & _ & SD & _).
    rewrite position_rows.
    - destruct (position_from_file fmt (position_parameters r) (map CsvRow (map (map fmt) positions)) [] (f15_decimals _ _ _ _ FC) LP SQ SD) as (s' & E & V & B & M).
      + rewrite app_nil_r. etransitivity; [exact (csv_rows_map (fun c => c) _)|apply map_id].
      + constructor.
      + exists s'. rewrite E. auto.
    - rewrite map_length. exact L.
    - apply Forall_forall. intros c I. apply in_map_iff in I as (c' & <- & I). rewrite map_length. rewrite Forall_forall in W. exact (W c' I).
  Qed.

  Definition all_cells (a b : param) : list (list string * list R) :=
    (map (fun row => (number_cells row, map fmt row)) positions ++ [(sensor_cells a, sensor_numbers a); (sensor_cells b, sensor_numbers b)])%list.

  Lemma cells_fst a b : map fst (all_cells a b) = (map number_cells positions ++ [sensor_cells a; sensor_cells b])%list.
  Proof. unfold all_cells. rewrite map_app, map_map. reflexivity. Qed.
  Lemma cells_snd a b : map snd (all_cells a b) = (map (map fmt) positions ++ [sensor_numbers a; sensor_numbers b])%list.
  Proof. unfold all_cells. rewrite map_app, map_map. reflexivity. Qed.

  Context (a b z : param) (PS : ps_params (rotation_parameters r) = [a; b; z]).

  Lemma shown_each p : In p [a; b; z] -> number T (show (p_value p)) = Some (Fin (p_value p)).
  Proof. intro I. apply SE. unfold values. rewrite ps_get_all, PS. exact (in_map p_value _ _ I). Qed.

  Lemma cells_fit : Forall (fun c => length (fst c) = length (snd c) /\ (length (snd c) <= 13)%nat /\ Forall2 (fun s x => cell_num T (Some s) = Some (Fin x)) (fst c) (snd c)) (all_cells a b).
  Proof.
    destruct positions_shape as [_ W]. unfold all_cells. apply Forall_app. split.
    - apply Forall_forall. intros c I. apply in_map_iff in I as (row & <- & I). cbn [fst snd]. unfold StoreFacts3.number_cells. rewrite !map_length.
      rewrite Forall_forall in W. split; [reflexivity|]. split; [rewrite (W row I); lia|]. apply (number_cells_read T show15 show fmt FC).
    - constructor; [|constructor; [|constructor]]; cbn [fst snd]; (split; [reflexivity|]); (split; [cbn; lia|]);
        apply (sensor_cells_read T show15 show fmt FC), shown_each; cbn; auto.
  Qed.

  (** The parts that do not depend on the last line *)
  Definition read_parts (r' : align_result) : Prop :=
    values (position_parameters r') = map fmt (values (position_parameters r)) /\
    enabled_bool_list (position_parameters r') = enabled_bool_list (position_parameters r) /\
    mat_eq (ps_cov (position_parameters r')) (mkMat 11 11 (fun i j => fmt (m_at (ps_cov (position_parameters r)) i j))) /\
    from_bool_list (enabled_bool_list (position_parameters r') ++ enabled_bool_list (rotation_parameters r')) = Ok (estimation_of r').

  Lemma cut_read text p q : p <> "" -> row_text (sensor_cells z) = p ++ q ->
    file_lines text = (name_line name :: map row_text (map fst (all_cells a b)) ++ [p])%list ->
    (result_from_text T text = Ok None /\ exists w, w <> "" /\ show (p_value z) = p ++ w) \/
    exists r' (x : R) (f : bool), result_from_text T text = Ok (Some (cleaned, r')) /\ read_parts r' /\
      values (rotation_parameters r') = [p_value a; p_value b; if f then x else 0] /\
      enabled_bool_list (rotation_parameters r') = [p_enabled a; p_enabled b; f] /\
      (x = p_value z \/ exists w, w <> "" /\ show (p_value z) = p ++ w) /\ f = (if String.eqb q "" then p_enabled z else true).
  Proof.
    intros N E FL. destruct (last_cells z p q N E) as (last & RT & ST & HH & NB & SP & CS & QS).
    assert (forall w, hd "" last = w -> (exists u, u <> "" /\ show (p_value z) = p ++ u) \/ cell_num T (Some w) = Some (Fin (p_value z))) as HW.
    { intros w <-. destruct CS as [[-> [u EU]]|CS].
      - destruct u as [|c u]; [right|left; exists (String c u); split; [discriminate|exact EU]].
        assert (p = show (p_value z)) as EP by (rewrite EU; clear; induction p as [|c p IH]; [reflexivity|]; cbn; f_equal; exact IH).
        cbn [hd]. rewrite EP, cell_word by apply FC. apply shown_each. cbn. auto.
      - right. replace (hd "" last) with (show (p_value z)) by (destruct CS as [->| ->]; reflexivity). rewrite cell_word by apply FC. apply shown_each. cbn. auto. }
    assert (Forall (fun c => c <> [] /\ Forall good c) (map fst (all_cells a b))) as G.
    { rewrite cells_fst. apply Forall_app. split; [apply (number_rows_good T show15 show fmt FC), flag_rows_filled|].
      pose proof (sensor_rows_good T show15 show fmt FC [a; b]) as X. exact X. }
    assert (header_from_file T text = Ok [("name", HStr cleaned)]) as HD.
    { unfold header_from_file. rewrite FL. apply header_data; [|apply name_handled]. intros l I. apply in_app_or in I as [I|[<-|[]]]; [|exact HH].
      apply in_map_iff in I as (c & <- & I). rewrite Forall_forall in G. destruct (G c I) as [NC GC]. apply (good_row c NC GC). }
    assert (data_lines text = map row_text (map fst (all_cells a b) ++ [last])%list) as DL.
    { unfold data_lines. rewrite FL. cbn [map filter]. replace (negb (length (words (uncomment (name_line name))) =? 0)%nat) with false by reflexivity.
      fold nonblank. rewrite map_app, filter_app, kept_rows by exact G. rewrite map_app. f_equal. cbn [map filter].
      rewrite uncomment_id by exact HH. rewrite NB, RT. reflexivity. }
    assert (map (split_on ",") (map row_text (map fst (all_cells a b) ++ [last])%list) = (map fst (all_cells a b) ++ [last])%list) as SPL.
    { rewrite !map_app, split_rows by exact G. cbn [map]. rewrite RT, ST. reflexivity. }
    assert (length last <= 2)%nat as LL by (destruct CS as [[-> _]|[->| ->]]; cbn; lia).
    destruct positions_shape as [PL PW].
    assert (typed_table T text = Ok (table_of T 13 (map (pad 13) (map fst (all_cells a b) ++ [last])))) as TT.
    { pose proof cells_fit as CF. assert (exists (c0 : list string) (more : list (list string)), (map fst (all_cells a b) ++ [last])%list = (c0 :: more)%list /\ length c0 = 13%nat /\ Forall (fun c => (length c <= 13)%nat) more) as (c0 & more & EC & L0 & LS).
      { assert (Forall (fun c : list string => (length c <= 13)%nat) (map fst (all_cells a b) ++ [last])) as LA.
        { apply Forall_app. split; [|constructor; [lia|constructor]]. apply Forall_forall. intros c I. apply in_map_iff in I as (rc & <- & I).
          rewrite Forall_forall in CF. destruct (CF rc I) as (X & Y & _). lia. }
        rewrite cells_fst in LA |- *. destruct positions as [|r0 rest]; [discriminate|]. cbn [map app] in LA |- *. eexists. eexists. split; [reflexivity|].
        inversion PW as [|? ? W0 _]; subst. inversion LA as [|? ? _ LA']; subst. split; [unfold StoreFacts3.number_cells; rewrite map_length; exact W0|exact LA']. }
      rewrite EC in DL, SPL |- *. apply (table_of_text T text more c0 13); assumption. }
    unfold result_from_text. rewrite HD, TT. cbn [bind].
    set (w := hd "" last).
    destruct (cell_num T (Some w)) as [x|] eqn:CW.
    - (* the last row is read *)
      assert (exists e, last_row T last = finite x :: e :: repeat None 11 /\ Forall (readable T) (pad 13 last) /\ nonzero e = (if String.eqb q "" then p_enabled z else true)) as (e & LR & RD & FE).
      { destruct (String.eqb q "") eqn:EQ; [apply String.eqb_eq, QS in EQ|apply String.eqb_neq in EQ].
        { subst w. rewrite EQ in CW |- *. cbn [hd StoreFacts3.sensor_cells] in CW. exists (Some (bool_num (p_enabled z))). unfold last_row, pad, StoreFacts3.sensor_cells. cbn [map app length Nat.sub repeat]. unfold read_cell. rewrite CW, (read_flag T show15 show fmt FC).
          split; [reflexivity|]. split; [|apply flag_of_num].
          constructor; [unfold readable; rewrite CW; discriminate|]. constructor; [unfold readable; rewrite (read_flag T show15 show fmt FC); discriminate|].
          repeat (constructor; [unfold readable; discriminate|]). constructor. }
         unfold last_row. destruct CS as [[-> _]|[->| ->]]; cbn [hd] in w; subst w; cbn [pad map app length Nat.sub repeat].
        - exists None. unfold pad. cbn [map app length Nat.sub repeat]. unfold read_cell at 1. rewrite CW. split; [reflexivity|]. split; [|reflexivity].
          repeat (constructor; [first [unfold readable; rewrite CW; discriminate|unfold readable; discriminate]|]). constructor.
        - exists None. unfold pad. cbn [map app length Nat.sub repeat]. unfold read_cell at 1. rewrite CW. split; [reflexivity|]. split; [|reflexivity].
          repeat (constructor; [first [unfold readable; rewrite CW; discriminate|unfold readable; discriminate]|]). constructor.
        - exfalso. apply EQ, QS. reflexivity. }
      rewrite table_last by (first [exact cells_fit|lia|exact RD]). rewrite cells_snd, map_app, LR.
      cbn [map]. rewrite <- app_assoc. cbn [app]. destruct (position_part [ParamModel.pad 13 (sensor_numbers a); ParamModel.pad 13 (sensor_numbers b); finite x :: e :: repeat None 11]) as (s' & -> & V & B & M). cbn [bind].
      assert (length (map (ParamModel.pad 13) (map (map fmt) positions)) = 11%nat) as L11 by (rewrite !map_length; exact PL).
      destruct (finite x) as [y|] eqn:FX.
      + right. destruct (sensor_three _ (ParamModel.pad 13 (sensor_numbers a)) (ParamModel.pad 13 (sensor_numbers b)) (Some y :: e :: repeat None 11)
          (p_value a) (p_value b) y (Some (bool_num (p_enabled a))) (Some (bool_num (p_enabled b))) e L11 eq_refl eq_refl eq_refl eq_refl eq_refl eq_refl) as (s2 & -> & B2 & V2).
        cbn [bind].
        assert (exists es, from_bool_list (enabled_bool_list s' ++ enabled_bool_list s2) = Ok es) as [es HE].
        { assert (length (enabled_bool_list s' ++ enabled_bool_list s2) = 14%nat) as L.
          { rewrite app_length, B, B2, flags_length. destruct WR as (-> & _). reflexivity. }
          destruct (enabled_bool_list s' ++ enabled_bool_list s2)%list as [|h l]; [discriminate|].
          do 13 (destruct l as [|? l]; [discriminate|]). destruct l; [|discriminate]. cbn. eauto. }
        rewrite HE. cbn [bind]. exists (mkResult s' s2 es true), y, (nonzero e). split; [reflexivity|].
        split; [split; [exact V|split; [exact B|split; [exact M|exact HE]]]|]. cbn [rotation_parameters].
        destruct (three_parameters (rotation_parameters r)) as (a' & b' & z' & PS' & DV); [apply WR|apply WR|]. rewrite PS in PS'. injection PS' as <- <- <-.
        pose proof (Forall_inv DV) as DA. pose proof (Forall_inv (Forall_inv_tail DV)) as DB. cbv beta in DA, DB.
        assert (forall bb, nonzero (Some (bool_num bb)) = bb) as NZ by (intro bb; apply flag_of_num).
        rewrite V2, B2, !NZ, <- DA, <- DB. split; [reflexivity|]. split; [reflexivity|]. split; [|exact FE].
        destruct (HW w eq_refl) as [HU|HV]; [right; exact HU|left]. rewrite HV in CW. injection CW as <-. cbn in FX. congruence.
      + left. split; [|destruct (HW w eq_refl) as [HU|HV]; [exact HU|rewrite HV in CW; injection CW as <-; discriminate]]. rewrite (sensor_unknown _ (ParamModel.pad 13 (sensor_numbers a)) (ParamModel.pad 13 (sensor_numbers b)) (None :: e :: repeat None 11)
          (Some (p_value a)) (Some (p_value b)) (Some (bool_num (p_enabled a))) (Some (bool_num (p_enabled b))) e L11 eq_refl eq_refl eq_refl eq_refl eq_refl eq_refl).
        reflexivity.
    - (* the first column is text *)
      left. split; [|destruct (HW w eq_refl) as [HU|HV]; [exact HU|rewrite HV in CW; discriminate]]. set (t := table_of T 13 _).
      assert (forall row, In row t -> nth_error row 0 = Some None) as TX.
      { apply (table_text T 13 _ 0 (pad 13 last)); [apply in_map, in_or_app; right; left; reflexivity|lia|].
        assert (nth 0 (pad 13 last) None = Some w) as X by (subst w; destruct CS as [[-> _]|[->| ->]]; reflexivity). etransitivity; [apply f_equal; exact X|exact CW]. }
      assert (length t = 14%nat) as LT.
      { unfold t. rewrite table_length, map_length, app_length, map_length. unfold all_cells. rewrite app_length, map_length, PL. reflexivity. }
      assert (forall row, In row t -> length row = 13%nat) as LW.
      { intros row I. unfold t, table_of in I. apply in_map_iff in I as (i & <- & _). rewrite !map_length, seq_length. reflexivity. }
      assert (forall l k, (k < 13)%nat -> (forall row, In row l -> length row = 13%nat) -> exists v, entries l k = Ok v /\ length v = length l) as EN.
      { intros l k K F. unfold entries. induction l as [|row l IH]; [exists []; split; reflexivity|]. destruct IH as (v & EV & LV); [intros row' I; apply F; right; exact I|].
        destruct (nth_error_lt_Some row k) as [c EC]; [rewrite (F row (or_introl eq_refl)); exact K|]. exists (c :: v). cbn [mapM]. rewrite EC. cbn [bind]. rewrite EV. split; [reflexivity|]. cbn. rewrite LV. reflexivity. }
      assert (forall l, l <> [] -> (forall row, In row l -> nth_error row 0 = Some None) -> exists v, entries l 0 = Ok (None :: v) /\ length v = (length l - 1)%nat) as EZ.
      { intros l NL F. destruct l as [|row l]; [congruence|]. unfold entries. cbn [mapM]. rewrite (F row (or_introl eq_refl)). cbn [bind].
        assert (exists v, entries l 0 = Ok v /\ length v = length l) as (v & EV & LV).
        { assert (forall row', In row' l -> nth_error row' 0 = Some None) as F' by (intros row' I; apply F; right; exact I). clear F NL. induction l as [|row' l IH]; [exists []; split; reflexivity|].
          destruct IH as (v & EV & LV); [intros x I; apply F'; right; exact I|]. exists (None :: v). unfold entries. cbn [mapM]. rewrite (F' row' (or_introl eq_refl)). cbn [bind]. fold (entries l 0). rewrite EV. split; [reflexivity|]. cbn. rewrite LV. reflexivity. }
        fold (entries l 0). rewrite EV. exists v. split; [reflexivity|]. cbn. lia. }
      assert (forall A n (l : list A) x, In x (firstn n l) -> In x l) as IF by (intros A n l x I; rewrite <- (firstn_skipn n l); apply in_or_app; left; exact I).
      assert (forall A n (l : list A) x, In x (skipn n l) -> In x l) as IS by (intros A n l x I; rewrite <- (firstn_skipn n l); apply in_or_app; right; exact I).
      assert (length (firstn 11 t) = 11%nat) as LF by (rewrite firstn_length, LT; reflexivity).
      assert (length (skipn 11 t) = 3%nat) as LK by (rewrite skipn_length, LT; reflexivity).
      assert (position_from t = Ok None) as ->.
      { unfold position_from. destruct (EZ (firstn 11 t)) as (v & -> & LV); [intro X; rewrite X in LF; discriminate|intros row I; apply TX; exact (IF _ _ _ _ I)|].
        cbn [bind length]. rewrite LV, LF. cbn [Nat.sub Nat.eqb negb].
        destruct (EN (firstn 11 t) 1%nat) as (fl & -> & _); [lia|intros row I; apply LW; exact (IF _ _ _ _ I)|]. cbn [bind].
        destruct t as [|row t'] eqn:ET; [discriminate|]. rewrite (LW row (or_introl eq_refl)). cbn [Nat.sub Nat.eqb negb all_some]. reflexivity. }
      cbn [bind]. assert (exists o, sensor_from t = Ok o) as [o ->]; [|reflexivity].
      unfold sensor_from. rewrite LT. cbn [Nat.eqb negb].
      destruct (EN (skipn 11 t) 1%nat) as (fl & -> & _); [lia|intros row I; apply LW; exact (IS _ _ _ _ I)|]. cbn [bind].
      destruct (EZ (skipn 11 t)) as (v & -> & LV); [intro X; rewrite X in LK; discriminate|intros row I; apply TX; exact (IS _ _ _ _ I)|]. cbn [bind all_some]. eexists. reflexivity.
  Qed.
End Last.
