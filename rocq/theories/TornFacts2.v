(** Reading a table whose last row is torn. *)
From Verif Require Import Base BaseFacts EstModel TextModel TextFacts HeaderModel NumpyModel TrajModel TrajSpec GeomModel GeomSpec IoModel IoSpec HeaderFacts IoFacts IoFacts2 IoFacts3 IoFacts4 TornModel TornSpec TornFacts.
Local Open Scope string_scope.
Local Arguments Ascii.eqb : simpl never.
Local Opaque newline return_char.

Lemma mapM_same {A B} (f g : A -> result B) l : (forall a, In a l -> f a = g a) -> mapM f l = mapM g l.
Proof.
  induction l as [|a l IH]; intro H; [reflexivity|]. cbn [mapM]. rewrite (H a (or_introl eq_refl)), IH; [reflexivity|].
  intros x I. apply H. right. exact I.
Qed.

Lemma columns_same T h d1 d2 names :
  (forall a j, In a names -> index_of a (h_fields h) = Ok j -> column d1 j = column d2 j) -> columns T h d1 names = columns T h d2 names.
Proof.
  intro H. unfold columns. destruct (mapM (fun a => index_of a (h_fields h)) names) as [js|e] eqn:E; [|reflexivity]. cbn [bind].
  rewrite (mapM_same (column d1) (column d2)); [reflexivity|]. intros j I.
  apply In_nth_error in I as [i N]. pose proof (mapM_nth_error _ _ _ i E) as M.
  destruct (nth_error names i) as [a|] eqn:A; [|congruence]. destruct M as [b [X Y]].
  apply (H a); [eapply nth_error_In; exact A|congruence].
Qed.

Lemma all_some_nth {A} (l : list (option A)) m : all_some l = Some m -> forall i, nth_error l i = option_map Some (nth_error m i).
Proof.
  revert m. induction l as [|[a|] l IH]; intros m H; cbn in H; try discriminate.
  - injection H as <-. intros [|i]; reflexivity.
  - destruct (all_some l) as [s|]; [|discriminate]. injection H as <-. intros [|i]; [reflexivity|]. cbn. apply IH. reflexivity.
Qed.
Lemma all_some_len {A} (l : list (option A)) m : all_some l = Some m -> length m = length l.
Proof.
  revert m. induction l as [|[a|] l IH]; intros m H; cbn in H; try discriminate; [injection H as <-; reflexivity|].
  destruct (all_some l) as [s|]; [|discriminate]. injection H as <-. cbn. rewrite (IH s eq_refl). reflexivity.
Qed.
Lemma zip3_nth x : forall y z i, nth_error (zip_v3 [x; y; z]) i =
  match nth_error x i, nth_error y i, nth_error z i with Some a, Some b, Some c => Some (a, b, c) | _, _, _ => None end.
Proof.
  unfold zip_v3. induction x as [|a x IH]; intros [|b y] [|c z] [|i]; cbn [zip3 nth_error]; try reflexivity;
    try (destruct (nth_error x i); reflexivity); try (destruct (nth_error x i), (nth_error y i); reflexivity).
  apply IH.
Qed.
Lemma zip3_len x : forall y z n, length x = n -> length y = n -> length z = n -> length (zip_v3 [x; y; z]) = n.
Proof.
  unfold zip_v3. induction x as [|a x IH]; intros [|b y] [|c z] n; cbn; try lia. intros. destruct n as [|n]; [lia|].
  f_equal. apply IH; lia.
Qed.

Section Read.
  Context {Q : Type} (ops : rot_ops Q) (qops : quat_ops Q) (T : text_ops) (C : clock) (loc : list V3 -> list V3) (counted : string).

  Definition plain_fields := "t,l,px,py,pz,vx,vy,vz".
  Definition quat_fields := "t,l,px,py,pz,qx,qy,qz,qw,vx,vy,vz".
  Definition row_width (fields : string) : nat := if String.eqb fields plain_fields then 8 else 12.

  Lemma speed_read h d fields sp : fields = plain_fields \/ fields = quat_fields -> std_header h fields -> extract_speed T h d = Ok sp ->
    exists ca cb cc a b c,
      column d (row_width fields - 3) = Ok ca /\ column d (row_width fields - 2) = Ok cb /\ column d (row_width fields - 1) = Ok cc /\
      to_nums T ca = Ok a /\ to_nums T cb = Ok b /\ to_nums T cc = Ok c /\ sp = Some (zip_v3 [a; b; c]).
  Proof.
    intros F [HF _] H. unfold extract_speed in H. rewrite HF in H.
    assert (forallb (fun a => member a (split_on "," fields)) ["vx"; "vy"; "vz"] = true) as M by (destruct F as [->| ->]; reflexivity).
    rewrite M in H. unfold columns in H. rewrite HF in H.
    assert (mapM (fun a => index_of a (split_on "," fields)) ["vx"; "vy"; "vz"] =
      Ok [(row_width fields - 3)%nat; (row_width fields - 2)%nat; (row_width fields - 1)%nat]) as J by (destruct F as [->| ->]; reflexivity).
    rewrite J in H. cbn [bind mapM] in H.
    destruct (column d (row_width fields - 3)) as [ca|e]; [|discriminate].
    destruct (column d (row_width fields - 2)) as [cb|e]; [|discriminate].
    destruct (column d (row_width fields - 1)) as [cc|e]; [|discriminate]. cbn [bind mapM] in H.
    destruct (to_nums T ca) as [a|e] eqn:EA; [|discriminate]. cbn [bind] in H.
    destruct (to_nums T cb) as [b|e] eqn:EB; [|discriminate]. cbn [bind] in H.
    destruct (to_nums T cc) as [c|e] eqn:EC; [|discriminate]. cbn in H. injection H as <-.
    exists ca, cb, cc, a, b, c. repeat split; assumption || reflexivity.
  Qed.

  (** What a successful read consists of *)
  Lemma read_inv h d t' : from_read ops qops T C loc counted (Ok (h, d)) = Ok (Some t') ->
    exists ts ps al sp ro, extract_timestamps T C h d = Ok ts /\ extract_pointset T h d = Ok ps /\ extract_arc_lengths T h d = Ok al /\
      extract_speed T h d = Ok sp /\ extract_rotations ops qops T h d = Ok ro /\
      from_parts loc counted h ts ps al sp ro = Ok (Some t').
  Proof.
    intro H. unfold from_read in H. cbn [bind] in H.
    apply bind_ok in H as [ts [E1 H]]. apply bind_ok in H as [ps [E2 H]]. apply bind_ok in H as [al [E3 H]].
    apply bind_ok in H as [sp [E4 H]]. apply bind_ok in H as [ro [E5 H]]. exists ts, ps, al, sp, ro. repeat split; assumption.
  Qed.

  Lemma parts_inv h ts ps al sp ro t' : from_parts loc counted h ts ps al sp ro = Ok (Some t') ->
    exists ts' ps' al' sp' ro', all_finite ts = Some ts' /\ all_some (map fin_v3 ps) = Some ps' /\ opt_finite all_finite al = Some al' /\
      opt_finite (fun l => all_some (map fin_v3 l)) sp = Some sp' /\ opt_finite (fun x => x) ro = Some ro' /\
      new_traj (Q := Q) loc ps' (h_epsg h) ro' (Some ts') (if String.eqb (h_name h) "" then counted else h_name h) al' sp' SortTime = Ok t'.
  Proof.
    unfold from_parts. intro H.
    destruct (all_finite ts) as [ts'|]; [|discriminate]. destruct (all_some (map fin_v3 ps)) as [ps'|]; [|discriminate].
    destruct (opt_finite all_finite al) as [al'|]; [|discriminate].
    destruct (opt_finite (fun l => all_some (map fin_v3 l)) sp) as [sp'|]; [|discriminate].
    destruct (opt_finite (fun x => x) ro) as [ro'|]; [|discriminate].
    exists ts', ps', al', sp', ro'. repeat (split; [reflexivity|]).
    destruct (new_traj _ _ _ _ _ _ _ _ _) as [t|]; [|discriminate]. cbn in H. congruence.
  Qed.

  (** Too few columns: no trajectory *)
  Lemma narrow_fails h n rows fields t' : fields = plain_fields \/ fields = quat_fields -> std_header h fields -> (n < row_width fields)%nat ->
    from_read ops qops T C loc counted (Ok (h, Table n rows)) <> Ok (Some t').
  Proof.
    intros F S L H. apply read_inv in H as (ts & ps & al & sp & ro & _ & _ & _ & E & _).
    destruct (speed_read h _ fields sp F S E) as (ca & cb & cc & _ & _ & _ & _ & _ & X & _).
    unfold column in X. destruct (Nat.ltb_spec (row_width fields - 1) n); [lia|discriminate].
  Qed.

  (** A missing last cell: no trajectory of numbers *)
  Lemma missing_fails h rows row fields t' : fields = plain_fields \/ fields = quat_fields -> std_header h fields ->
    In row rows -> nth (row_width fields - 1) row None = None ->
    from_read ops qops T C loc counted (Ok (h, Table (row_width fields) rows)) <> Ok (Some t').
  Proof.
    intros F S IN NN H. apply read_inv in H as (ts & ps & al & sp & ro & _ & _ & _ & E & _ & P).
    destruct (speed_read h _ fields sp F S E) as (ca & cb & cc & a & b & c & XA & XB & XC & NA & NB & NC & ->).
    apply parts_inv in P as (ts' & ps' & al' & sp' & ro' & _ & _ & _ & SP & _).
    cbn in SP. destruct (all_some (map fin_v3 (zip3 a b c (fun a b c => (a, b, c))))) as [s|] eqn:AS; [|discriminate].
    change (zip3 a b c (fun a b c => (a, b, c))) with (zip_v3 [a; b; c]) in AS.
    apply In_nth_error in IN as [i I].
    assert (forall j cj l, column (Table (row_width fields) rows) j = Ok cj -> to_nums T cj = Ok l ->
      exists x, nth_error l i = Some x /\ to_num T (nth j row None) = Ok x) as G.
    { intros j cj l CJ TN. unfold column in CJ. destruct (j <? row_width fields)%nat; [|discriminate]. injection CJ as <-.
      pose proof (mapM_nth_error _ _ _ i TN) as M. rewrite nth_error_map, I in M. cbn in M. destruct M as [x [X Y]]. exists x. split; assumption. }
    destruct (G _ _ _ XA NA) as [xa [XA' _]]. destruct (G _ _ _ XB NB) as [xb [XB' _]]. destruct (G _ _ _ XC NC) as [xc [XC' V]].
    rewrite NN in V. cbn in V. injection V as <-.
    pose proof (all_some_nth _ _ AS i) as N. rewrite nth_error_map, zip3_nth, XA', XB', XC' in N. cbn in N.
    destruct (nth_error s i); cbn in N; destruct xa, xb; discriminate.
  Qed.

  (** Two tables that differ in the last cell only *)
  Lemma last_cell_matters h rows1 rows2 fields t1 t2 : fields = plain_fields \/ fields = quat_fields -> std_header h fields ->
    length rows1 = length rows2 ->
    (forall i r1 r2, nth_error rows1 i = Some r1 -> nth_error rows2 i = Some r2 ->
       (forall j, (j < row_width fields - 1)%nat -> nth j r1 None = nth j r2 None) /\ (r1 = r2 \/ S i = length rows1)) ->
    from_read ops qops T C loc counted (Ok (h, Table (row_width fields) rows1)) = Ok (Some t1) ->
    from_read ops qops T C loc counted (Ok (h, Table (row_width fields) rows2)) = Ok (Some t2) ->
    t1 = set_speed (speed t1) t2 /\ length (xyz t1) = length rows1 /\ length (speed t1) = length rows1 /\ length (speed t2) = length rows1 /\
    (forall i a b, nth_error (speed t1) i = Some a -> nth_error (speed t2) i = Some b ->
       vx a = vx b /\ vy a = vy b /\ (a = b \/ S i = length rows1)).
  Proof.
    intros F S L D H1 H2.
    set (d1 := Table (row_width fields) rows1) in *. set (d2 := Table (row_width fields) rows2) in *.
    assert (forall j, (j < row_width fields - 1)%nat -> column d1 j = column d2 j) as CE.
    { intros j J. unfold column, d1, d2. destruct (Nat.ltb_spec j (row_width fields)); [|lia]. f_equal.
      apply nth_error_ext. intro i. rewrite !nth_error_map.
      destruct (nth_error rows1 i) as [r1|] eqn:R1, (nth_error rows2 i) as [r2|] eqn:R2; cbn.
      - f_equal. apply (D i r1 r2 R1 R2). exact J.
      - apply nth_error_None in R2. assert (nth_error rows1 i <> None) as N by congruence. apply nth_error_Some in N. lia.
      - apply nth_error_None in R1. assert (nth_error rows2 i <> None) as N by congruence. apply nth_error_Some in N. lia.
      - reflexivity. }
    pose proof S as [HF [HN [HT HO]]].
    assert (forall names, (forall a j, In a names -> index_of a (split_on "," fields) = Ok j -> (j < row_width fields - 1)%nat) ->
      columns T h d1 names = columns T h d2 names) as CS.
    { intros names N. apply columns_same. intros a j I J. rewrite HF in J. apply CE. apply (N a j I J). }
    apply read_inv in H1 as (ts & ps & al & sp1 & ro & A1 & A2 & A3 & A4 & A5 & P1).
    apply read_inv in H2 as (ts2 & ps2 & al2 & sp2 & ro2 & B1 & B2 & B3 & B4 & B5 & P2).
    assert (ts2 = ts) as ->.
    { unfold extract_timestamps in A1, B1. rewrite HF, HT, HO in A1, B1. cbn [bind] in A1, B1.
      assert ((length (time_columns (split_on "," fields)) =? 1)%nat = true) as E1 by (destruct F as [->| ->]; reflexivity).
      assert (index_of "t" (split_on "," fields) = Ok 0%nat) as E2 by (destruct F as [->| ->]; reflexivity).
      rewrite E1, E2 in A1, B1. cbn [bind] in A1, B1. rewrite CE in A1 by (destruct F as [->| ->]; vm_compute; lia). congruence. }
    assert (ps2 = ps) as ->.
    { unfold extract_pointset in A2, B2. rewrite CS in A2; [congruence|].
      intros a j I J. destruct F as [->| ->]; destruct I as [<-|[<-|[<-|[]]]]; vm_compute in J; injection J as <-; vm_compute; lia. }
    assert (al2 = al) as ->.
    { unfold extract_arc_lengths in A3, B3. rewrite HF in A3, B3.
      assert (member "l" (split_on "," fields) = true) as E1 by (destruct F as [->| ->]; reflexivity).
      assert (index_of "l" (split_on "," fields) = Ok 1%nat) as E2 by (destruct F as [->| ->]; reflexivity).
      rewrite E1, E2 in A3, B3. cbn [bind] in A3, B3. rewrite CE in A3 by (destruct F as [->| ->]; vm_compute; lia). congruence. }
    assert (ro2 = ro) as ->.
    { unfold extract_rotations, extract_quaternions, extract_euler_angles in A5, B5. rewrite HF in A5, B5.
      rewrite (CS ["qx"; "qy"; "qz"; "qw"]) in A5.
      2:{ intros a j I J. destruct F as [->| ->]; destruct I as [<-|[<-|[<-|[<-|[]]]]]; vm_compute in J; try discriminate; injection J as <-; vm_compute; lia. }
      rewrite (CS ["ex"; "ey"; "ez"]) in A5; [congruence|].
      intros a j I J. destruct F as [->| ->]; destruct I as [<-|[<-|[<-|[]]]]; vm_compute in J; discriminate. }
    destruct (speed_read h _ fields sp1 F S A4) as (ca & cb & cc & a & b & c & XA & XB & XC & NA & NB & NC & ->).
    destruct (speed_read h _ fields sp2 F S B4) as (ca2 & cb2 & cc2 & a2 & b2 & c2 & YA & YB & YC & MA & MB & MC & ->).
    assert (ca2 = ca) as -> by (rewrite CE in XA by (destruct F as [->| ->]; vm_compute; lia); congruence).
    assert (cb2 = cb) as -> by (rewrite CE in XB by (destruct F as [->| ->]; vm_compute; lia); congruence).
    assert (a2 = a) as -> by congruence. assert (b2 = b) as -> by congruence. clear MA MB.
    assert (forall rows j cj l, column (Table (row_width fields) rows) j = Ok cj -> to_nums T cj = Ok l -> length l = length rows) as LEN.
    { intros rows j cj l CJ TN. rewrite (mapM_length _ _ _ TN). unfold column in CJ. destruct (j <? row_width fields)%nat; [|discriminate].
      injection CJ as <-. apply map_length. }
    pose proof (LEN _ _ _ _ XA NA) as LA. pose proof (LEN _ _ _ _ XB NB) as LB. pose proof (LEN _ _ _ _ XC NC) as LC.
    pose proof (LEN _ _ _ _ YC MC) as LC2.
    apply parts_inv in P1 as (ts' & ps' & al' & s1 & ro' & T1 & T2 & T3 & T4 & T5 & N1).
    apply parts_inv in P2 as (ts'' & ps'' & al'' & s2 & ro'' & U1 & U2 & U3 & U4 & U5 & N2).
    rewrite T1 in U1. injection U1 as <-. rewrite T2 in U2. injection U2 as <-. rewrite T3 in U3. injection U3 as <-.
    rewrite T5 in U5. injection U5 as <-.
    unfold opt_finite in T4, U4.
    destruct (all_some (map fin_v3 (zip_v3 [a; b; c]))) as [v1|] eqn:V1; [|discriminate]. injection T4 as <-.
    destruct (all_some (map fin_v3 (zip_v3 [a; b; c2]))) as [v2|] eqn:V2; [|discriminate]. injection U4 as <-.
    assert (length v1 = length rows1) as LV1 by (rewrite (all_some_len _ _ V1), map_length; apply zip3_len; assumption).
    assert (length v2 = length rows1) as LV2 by (rewrite (all_some_len _ _ V2), map_length; apply zip3_len; [exact LA|exact LB|etransitivity; [exact LC2|symmetry; exact L]]).
    assert (length ps' = length rows1) as LP.
    { rewrite (all_some_len _ _ T2), map_length. unfold extract_pointset in A2.
      destruct (columns T h d1 ["px"; "py"; "pz"]) as [l|e] eqn:CO; [|discriminate]. cbn in A2. injection A2 as <-.
      unfold columns in CO. rewrite HF in CO.
      assert (mapM (fun a => index_of a (split_on "," fields)) ["px"; "py"; "pz"] = Ok [2; 3; 4]%nat) as J by (destruct F as [->| ->]; reflexivity).
      rewrite J in CO. cbn [bind mapM] in CO.
      destruct (column d1 2) as [x|e] eqn:K1; [|discriminate]. destruct (column d1 3) as [y|e] eqn:K2; [|discriminate].
      destruct (column d1 4) as [z|e] eqn:K3; [|discriminate]. cbn [bind mapM] in CO.
      destruct (to_nums T x) as [x'|e] eqn:M1; [|discriminate]. destruct (to_nums T y) as [y'|e] eqn:M2; [|discriminate].
      destruct (to_nums T z) as [z'|e] eqn:M3; [|discriminate]. cbn in CO. injection CO as <-.
      apply zip3_len; [eapply LEN; [exact K1|exact M1]|eapply LEN; [exact K2|exact M2]|eapply LEN; [exact K3|exact M3]]. }
    unfold new_traj in N1, N2. rewrite LV1, LP, Nat.eqb_refl in N1. rewrite LV2, LP, Nat.eqb_refl in N2.
    destruct (match ro' with Some q => negb (length q =? length rows1)%nat | None => false end); [discriminate|].
    cbn [bind] in N1, N2. injection N1 as <-. injection N2 as <-. cbn [speed xyz set_speed].
    split; [reflexivity|]. split; [exact LP|]. split; [exact LV1|]. split; [exact LV2|].
    intros i u v U V.
    pose proof (all_some_nth _ _ V1 i) as W1. rewrite U, nth_error_map, zip3_nth in W1.
    pose proof (all_some_nth _ _ V2 i) as W2. rewrite V, nth_error_map, zip3_nth in W2.
    destruct (nth_error a i) as [xa|]; [|discriminate]. destruct (nth_error b i) as [xb|]; [|discriminate].
    destruct (nth_error c i) as [xc|] eqn:IC; [|discriminate]. destruct (nth_error c2 i) as [xc2|] eqn:IC2; [|discriminate].
    cbn [option_map] in W1, W2. injection W1 as W1. injection W2 as W2.
    destruct xa as [xa| |], xb as [xb| |]; try discriminate. destruct xc as [xc| |]; try discriminate. destruct xc2 as [xc2| |]; try discriminate.
    cbn in W1, W2. injection W1 as <-. injection W2 as <-. cbn [vx vy]. split; [reflexivity|]. split; [reflexivity|].
    assert (i < length rows1)%nat as LI by (rewrite <- LV1; apply nth_error_Some; congruence).
    destruct (nth_error rows1 i) as [r1|] eqn:R1; [|apply nth_error_None in R1; lia].
    destruct (nth_error rows2 i) as [r2|] eqn:R2; [|apply nth_error_None in R2; lia].
    destruct (D i r1 r2 R1 R2) as [_ [->|E]]; [left|right; exact E].
    assert (to_num T (nth (row_width fields - 1) r2 None) = Ok (Fin xc)) as Z1.
    { unfold column, d1 in XC. destruct (row_width fields - 1 <? row_width fields)%nat; [|discriminate]. injection XC as <-.
      pose proof (mapM_nth_error _ _ _ i NC) as M. rewrite nth_error_map, R1 in M. cbn in M. destruct M as [x [X Y]]. congruence. }
    assert (to_num T (nth (row_width fields - 1) r2 None) = Ok (Fin xc2)) as Z2.
    { unfold column, d2 in YC. destruct (row_width fields - 1 <? row_width fields)%nat; [|discriminate]. injection YC as <-.
      pose proof (mapM_nth_error _ _ _ i MC) as M. rewrite nth_error_map, R2 in M. cbn in M. destruct M as [x [X Y]]. congruence. }
    rewrite Z1 in Z2. injection Z2 as ->. reflexivity.
  Qed.
End Read.
