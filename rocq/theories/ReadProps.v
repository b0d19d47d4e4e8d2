(** Property C154: what is read from a file. *)
From Verif Require Import Base BaseFacts EstModel TextModel HeaderModel NumpyModel TrajModel TrajSpec GeomModel GeomSpec IoModel IoSpec IoFacts4 EvalFacts2 ReadSpec IoProps.
Local Open Scope string_scope.

Lemma index_first a fields j : index_of a fields = Ok j <-> first_named fields a j.
Proof.
  revert j. induction fields as [|f r IH]; intro j; cbn.
  - split; [discriminate|]. intros [H _]. destruct j; discriminate.
  - destruct (String.eqb_spec f a) as [->|N].
    + split.
      * intro H. injection H as <-. split; [reflexivity|]. intros k K. lia.
      * intros [_ H]. destruct j as [|j]; [reflexivity|]. exfalso. apply (H 0%nat); [lia|reflexivity].
    + destruct j as [|j].
      * split; [destruct (index_of a r); discriminate|]. intros [H _]. cbn in H. congruence.
      * assert (E : rmap S (index_of a r) = Ok (S j) <-> index_of a r = Ok j). { destruct (index_of a r) as [k|]; cbn; split; intro H; congruence. }
        rewrite E, IH. split; intros [H1 H2]; (split; [exact H1|]).
        -- intros [|k] K; cbn; [congruence|]. apply H2. lia.
        -- intros k K. apply (H2 (S k)). lia.
Qed.
Lemma index_missing a fields : ~ In a fields -> index_of a fields = Err ValueError.
Proof. induction fields as [|f r IH]; intro H; [reflexivity|]. cbn. destruct (String.eqb_spec f a) as [->|N]; [contradiction H; left; reflexivity|]. rewrite IH; [reflexivity|]. intro I. apply H. right. exact I. Qed.
Lemma index_here a fields : In a fields -> exists j, index_of a fields = Ok j.
Proof. induction fields as [|f r IH]; intros []; cbn; [subst; rewrite String.eqb_refl; eauto|]. destruct (String.eqb f a); [eauto|]. destruct (IH H) as [j ->]. cbn. eauto. Qed.
Lemma member_in a l : member a l = true <-> In a l.
Proof. unfold member. rewrite existsb_exists. split; [intros (b & I & E); apply String.eqb_eq in E; subst; exact I|]. intro I. exists a. split; [exact I|apply String.eqb_refl]. Qed.

Lemma to_num_fin T c x : to_num T c = Ok (Fin x) -> exists s, c = Some s /\ number T s = Some (Fin x).
Proof. destruct c as [s|]; cbn; [|discriminate]. destruct (number T s) as [v|] eqn:E; [|discriminate]. intro H. injection H as ->. eauto. Qed.

Lemma mapM_map_nth {A B C} (f : B -> result C) (g : A -> B) l col i : mapM f (map g l) = Ok col ->
  match nth_error l i with Some a => exists b, f (g a) = Ok b /\ nth_error col i = Some b | None => nth_error col i = None end.
Proof. intro H. assert (X := mapM_nth_error _ _ _ i H). rewrite nth_error_map' in X. destruct (nth_error l i); exact X. Qed.

Section Table.
  Variables (T : text_ops) (fields : list string) (n : nat) (rows : list (list (option string))).

  (** One column as numbers *)
  Definition read_column (a : string) (col : list num) : Prop :=
    exists j, first_named fields a j /\ (j < n)%nat /\ mapM (to_num T) (map (fun r => nth j r None) rows) = Ok col.
  Lemma read_column_length a col : read_column a col -> length col = length rows.
  Proof. intros (j & _ & _ & H). apply mapM_length in H. rewrite map_length in H. exact H. Qed.
  Lemma read_column_holds a col i x : read_column a col -> nth_error col i = Some (Fin x) -> holds T fields rows a i x.
  Proof.
    intros (j & F & L & H) E. assert (X := mapM_map_nth _ _ _ _ i H). destruct (nth_error rows i) as [row|] eqn:Er; [|congruence].
    destruct X as (b & B1 & B2). rewrite E in B2. injection B2 as <-. apply to_num_fin in B1 as (s & S1 & S2). exists j, row, s. split; [exact F|]. split; [exact Er|]. split; [|exact S2].
    destruct (nth_error row j) as [c|] eqn:Ec.
    - f_equal. rewrite <- S1. symmetry. apply nth_error_nth, Ec.
    - apply nth_error_None in Ec. rewrite nth_overflow in S1 by exact Ec. discriminate.
  Qed.
  Lemma columns_read h names cols : h_fields h = fields -> columns T h (Table n rows) names = Ok cols -> Forall2 read_column names cols.
  Proof.
    intros Hf H. unfold columns in H. apply bind_ok in H as (js & H1 & H). apply bind_ok in H as (cs & H2 & H3). rewrite Hf in H1.
    revert js cs cols H1 H2 H3. induction names as [|a names IH]; intros js cs cols H1 H2 H3; cbn in H1.
    - injection H1 as <-. cbn in H2. injection H2 as <-. cbn in H3. injection H3 as <-. constructor.
    - apply bind_ok in H1 as (j & J & H1). apply bind_ok in H1 as (js' & J' & H1). injection H1 as <-.
      cbn [mapM] in H2. apply bind_ok in H2 as (c & C1 & H2). apply bind_ok in H2 as (cs' & C' & H2). injection H2 as <-.
      cbn in H3. apply bind_ok in H3 as (col & L1 & H3). apply bind_ok in H3 as (cols' & L' & H3). injection H3 as <-. constructor; [|apply (IH js' cs' cols'); assumption].
      change (column (Table n rows) j = Ok c) in C1. unfold column in C1. destruct (j <? n)%nat eqn:Ej; [|discriminate]. injection C1 as <-. exists j. split; [apply index_first, J|]. split; [apply Nat.ltb_lt, Ej|exact L1].
  Qed.
  Lemma one_column_read a j c col : index_of a fields = Ok j -> column (Table n rows) j = Ok c -> to_nums T c = Ok col -> read_column a col.
  Proof. intros J C1 L. unfold column in C1. destruct (j <? n)%nat eqn:Ej; [|discriminate]. injection C1 as <-. exists j. split; [apply index_first, J|]. split; [apply Nat.ltb_lt, Ej|exact L]. Qed.

  Lemma all_finite_nth l xs : all_finite l = Some xs -> length xs = length l /\ forall i x, nth_error xs i = Some x -> nth_error l i = Some (Fin x).
  Proof.
    unfold all_finite. revert xs. induction l as [|a l IH]; intros xs H; cbn in H; [injection H as <-; split; [reflexivity|]; intros [|i] x E; discriminate|].
    destruct a as [x| |]; cbn in H; try discriminate. destruct (all_some (map finite l)) as [ys|] eqn:E; [|discriminate]. injection H as <-. destruct (IH ys eq_refl) as [L A].
    split; [cbn; congruence|]. intros [|i] y Y; cbn in *; [congruence|apply A, Y].
  Qed.
  Lemma zip_nth x y z ps : all_some (map fin_v3 (zip_v3 [x; y; z])) = Some ps -> length x = length rows -> length y = length rows -> length z = length rows ->
    length ps = length rows /\ forall i p, nth_error ps i = Some p -> nth_error x i = Some (Fin (vx p)) /\ nth_error y i = Some (Fin (vy p)) /\ nth_error z i = Some (Fin (vz p)).
  Proof.
    cbn [zip_v3]. generalize (length rows) as m. intro m. revert x y z ps. induction m as [|m IH]; intros x y z ps H Lx Ly Lz.
    - destruct x; [|discriminate]. cbn in H. injection H as <-. split; [reflexivity|]. intros [|i] p E; discriminate.
    - destruct x as [|a x]; [discriminate|]. destruct y as [|b y]; [discriminate|]. destruct z as [|c z]; [discriminate|]. cbn in H.
      destruct a as [a| |]; try discriminate. destruct b as [b| |]; try discriminate. destruct c as [c| |]; try discriminate.
      destruct (all_some (map fin_v3 (zip3 x y z (fun a0 b0 c0 => (a0, b0, c0))))) as [qs|] eqn:E; [|discriminate]. injection H as <-.
      destruct (IH x y z qs E) as [L A]; try (cbn in *; lia). split; [cbn; congruence|]. intros [|i] p P; cbn in *; [injection P as <-; cbn; repeat split|apply A, P].
  Qed.
  Lemma three_columns a b c cols ps : Forall2 read_column [a; b; c] cols -> all_some (map fin_v3 (zip_v3 cols)) = Some ps ->
    length ps = length rows /\ forall i p, nth_error ps i = Some p -> holds3 T fields rows a b c i p.
  Proof.
    intros F H. inversion F as [|? x ? ? X F1]; subst. inversion F1 as [|? y ? ? Y F2]; subst. inversion F2 as [|? z ? ? Z F3]; subst. inversion F3; subst.
    destruct (zip_nth x y z ps H (read_column_length _ _ X) (read_column_length _ _ Y) (read_column_length _ _ Z)) as [L A]. split; [exact L|].
    intros i p P. destruct (A i p P) as (A1 & A2 & A3). split; [|split]; eapply read_column_holds; eassumption.
  Qed.
  Lemma zip4_nth x y z w qs : all_some (zip_v4 x y z w) = Some qs -> length x = length rows -> length y = length rows -> length z = length rows -> length w = length rows ->
    length qs = length rows /\ forall i q, nth_error qs i = Some q ->
      nth_error x i = Some (Fin (q_x q)) /\ nth_error y i = Some (Fin (q_y q)) /\ nth_error z i = Some (Fin (q_z q)) /\ nth_error w i = Some (Fin (q_w q)).
  Proof.
    generalize (length rows) as m. intro m. revert x y z w qs. induction m as [|m IH]; intros x y z w qs H Lx Ly Lz Lw.
    - destruct x; [|discriminate]. cbn in H. injection H as <-. split; [reflexivity|]. intros [|i] p E; discriminate.
    - destruct x as [|a x]; [discriminate|]. destruct y as [|b y]; [discriminate|]. destruct z as [|c z]; [discriminate|]. destruct w as [|d w]; [discriminate|]. cbn in H.
      destruct a as [a| |]; try discriminate. destruct b as [b| |]; try discriminate. destruct c as [c| |]; try discriminate. destruct d as [d| |]; try discriminate.
      destruct (all_some (zip_v4 x y z w)) as [ps|] eqn:E; [|discriminate]. injection H as <-.
      destruct (IH x y z w ps E) as [L A]; try (cbn in *; lia). split; [cbn; congruence|]. intros [|i] p P; cbn in *; [injection P as <-; cbn; repeat split|apply A, P].
  Qed.
End Table.

(** Columns of a file that is read: positions always, timestamps from a single column of seconds, arc lengths and speeds if there are such
    columns (all three), and else from the positions. *)
Theorem C154_reads : forall Q (ops : rot_ops Q) (qops : quat_ops Q) T C loc counted text (t : traj Q),
  from_file ops qops T C loc counted text = Ok (Some t) ->
  exists h n rows, read_data T text = Ok (h, Table n rows) /\ epsg t = h_epsg h /\ name t = (if String.eqb (h_name h) "" then counted else h_name h) /\
    length (xyz t) = length rows /\
    (forall i p, nth_error (xyz t) i = Some p -> holds3 T (h_fields h) rows "px" "py" "pz" i p) /\
    (In "l" (h_fields h) -> length (arc t) = length rows /\ forall i x, nth_error (arc t) i = Some x -> holds T (h_fields h) rows "l" i x) /\
    (~ In "l" (h_fields h) -> arc t = lengths_from_xyz (loc (xyz t))) /\
    (incl ["vx"; "vy"; "vz"] (h_fields h) -> length (speed t) = length rows /\ forall i p, nth_error (speed t) i = Some p -> holds3 T (h_fields h) rows "vx" "vy" "vz" i p) /\
    (~ incl ["vx"; "vy"; "vz"] (h_fields h) -> gradient_3d (loc (xyz t)) (tstamps t) = Ok (speed t)) /\
    (h_time_format h = Ok UNIX -> count_occ string_dec (h_fields h) "t" = 1%nat ->
       length (tstamps t) = length rows /\
       forall i x, nth_error (tstamps t) i = Some x -> exists y off, h_time_offset h = Fin off /\ holds T (h_fields h) rows "t" i y /\ x = y + off).
Proof.
  intros Q ops qops T C loc counted text t H. unfold from_file, from_read in H. apply bind_ok in H as ([h d] & Hd & H).
  apply bind_ok in H as (ts & Hts & H). apply bind_ok in H as (ps & Hps & H). apply bind_ok in H as (al & Hal & H). apply bind_ok in H as (sp & Hsp & H). apply bind_ok in H as (ro & Hro & H).
  destruct d as [n rows|].
  2:{ exfalso. unfold extract_pointset, columns in Hps. destruct (mapM (fun a => index_of a (h_fields h)) ["px"; "py"; "pz"]) as [js|] eqn:E; [|discriminate]. cbn [bind] in Hps.
      assert (L := mapM_length _ _ _ E). destruct js as [|j js]; [discriminate|]. discriminate. }
  exists h, n, rows. split; [exact Hd|]. unfold from_parts in H.
  destruct (all_finite ts) as [ts'|] eqn:Ets; [|discriminate]. destruct (all_some (map fin_v3 ps)) as [ps'|] eqn:Eps; [|discriminate].
  destruct (opt_finite all_finite al) as [al'|] eqn:Eal; [|discriminate]. destruct (opt_finite _ sp) as [sp'|] eqn:Esp; [|discriminate]. destruct (opt_finite _ ro) as [ro'|] eqn:Ero; [|discriminate].
  destruct (new_traj _ _ _ _ _ _ _ _ _) as [t0|] eqn:En; [|discriminate]. cbn in H. injection H as ->.
  unfold extract_pointset in Hps. destruct (columns T h (Table n rows) ["px"; "py"; "pz"]) as [cols|] eqn:Ec; [|discriminate]. cbn in Hps. injection Hps as <-.
  assert (Fc := columns_read T (h_fields h) n rows h _ _ eq_refl Ec). destruct (three_columns T (h_fields h) n rows "px" "py" "pz" cols ps' Fc Eps) as [Lp Hp].
  unfold new_traj in En. destruct (match ro' with Some q => _ | None => false end); [discriminate|]. apply bind_ok in En as (v & Hv & En). injection En as <-. cbn [epsg name xyz arc speed tstamps].
  split; [reflexivity|]. split; [reflexivity|]. split; [exact Lp|]. split; [exact Hp|].
  (* arc lengths *)
  unfold extract_arc_lengths in Hal. assert (Ml := member_in "l" (h_fields h)). split; [|split].
  { intro I. apply Ml in I. rewrite I in Hal. apply bind_ok in Hal as (j & J & Hal). apply bind_ok in Hal as (c & C1 & Hal). destruct (to_nums T c) as [col|] eqn:El; [|discriminate].
    cbn in Hal. injection Hal as <-. assert (Rc := one_column_read T (h_fields h) n rows "l" j c col J C1 El). cbn in Eal. destruct (all_finite col) as [xs|] eqn:Ex; [|discriminate]. injection Eal as <-.
    destruct (all_finite_nth col xs Ex) as [L A]. rewrite (read_column_length _ _ _ _ _ _ Rc) in L. rewrite L, Lp, Nat.eqb_refl. split; [exact L|].
    intros i x X. apply (read_column_holds T (h_fields h) n rows "l" col i x Rc), A, X. }
  { intro I. destruct (member "l" (h_fields h)); [contradiction I; apply Ml; reflexivity|]. injection Hal as <-. cbn in Eal. injection Eal as <-. reflexivity. }
  (* speeds *)
  unfold extract_speed in Hsp. assert (Mv : forallb (fun a => member a (h_fields h)) ["vx"; "vy"; "vz"] = true <-> incl ["vx"; "vy"; "vz"] (h_fields h)).
  { rewrite forallb_forall. split; intros X a I; [apply member_in, X, I|apply member_in, X, I]. }
  split; [|split].
  { intro I. apply Mv in I. rewrite I in Hsp. destruct (columns T h (Table n rows) ["vx"; "vy"; "vz"]) as [vc|] eqn:Ev; [|discriminate]. cbn in Hsp. injection Hsp as <-.
    cbn [opt_finite] in Esp. destruct (all_some (map fin_v3 (zip_v3 vc))) as [vs|] eqn:Es; [|discriminate]. injection Esp as <-.
    destruct (three_columns T (h_fields h) n rows "vx" "vy" "vz" vc vs (columns_read T (h_fields h) n rows h _ _ eq_refl Ev) Es) as [Lv Av].
    rewrite Lv, Lp, Nat.eqb_refl in Hv. injection Hv as <-. split; [exact Lv|exact Av]. }
  { intro I. destruct (forallb _ _); [contradiction I; apply Mv; reflexivity|]. injection Hsp as <-. cbn in Esp. injection Esp as <-. exact Hv. }
  (* timestamps *)
  intros Fm Ct. unfold extract_timestamps in Hts. rewrite Fm in Hts. cbn [bind] in Hts. rewrite time_columns_count, Ct in Hts. cbn [Nat.eqb] in Hts.
  apply bind_ok in Hts as (j & J & Hts). apply bind_ok in Hts as (c & C1 & Hts). destruct (to_nums T c) as [col|] eqn:El; [|discriminate]. cbn in Hts. injection Hts as <-.
  assert (Rc := one_column_read T (h_fields h) n rows "t" j c col J C1 El). destruct (all_finite_nth _ _ Ets) as [L A]. rewrite map_length, (read_column_length _ _ _ _ _ _ Rc) in L.
  split; [exact L|]. intros i x X. specialize (A i x X). rewrite nth_error_map' in A. destruct (nth_error col i) as [y|] eqn:Ey; [|discriminate]. cbn in A.
  destruct y as [y| |]; try discriminate; [|destruct (h_time_offset h); discriminate]. destruct (h_time_offset h) as [off| |] eqn:Eo; try discriminate. injection A as <-.
  exists y, off. split; [reflexivity|]. split; [apply (read_column_holds T (h_fields h) n rows "t" col i y Rc Ey)|reflexivity].
Qed.
Print Assumptions C154_reads.

(** Orientations: quaternions if all four columns are there, else Euler angles if all three are there, else none; all of them rotated from the
    navigation frame of the header. *)
Theorem C154_rotations : forall Q (ops : rot_ops Q) (qops : quat_ops Q) T C loc counted text (t : traj Q) h n rows,
  from_file ops qops T C loc counted text = Ok (Some t) -> read_data T text = Ok (h, Table n rows) ->
  (incl ["qx"; "qy"; "qz"; "qw"] (h_fields h) -> exists m q, get_rot_matrix (h_nframe h) = Ok m /\ rot t = Some q /\ length q = length rows /\
     forall i r, nth_error q i = Some r -> exists v r0, from_quat qops v = Some r0 /\ r = rmul ops (from_matrix ops m) r0 /\
       holds T (h_fields h) rows "qx" i (q_x v) /\ holds T (h_fields h) rows "qy" i (q_y v) /\ holds T (h_fields h) rows "qz" i (q_z v) /\ holds T (h_fields h) rows "qw" i (q_w v)) /\
  (~ incl ["qx"; "qy"; "qz"; "qw"] (h_fields h) -> incl ["ex"; "ey"; "ez"] (h_fields h) -> exists m q, get_rot_matrix (h_nframe h) = Ok m /\ rot t = Some q /\ length q = length rows /\
     forall i r, nth_error q i = Some r -> exists e, holds3 T (h_fields h) rows "ex" "ey" "ez" i e /\
       r = rmul ops (from_matrix ops m) (from_euler ops (vscale (if String.eqb (h_rot_unit h) "deg" then PI / 180 else 1) e))) /\
  (~ incl ["qx"; "qy"; "qz"; "qw"] (h_fields h) -> ~ incl ["ex"; "ey"; "ez"] (h_fields h) -> rot t = None).
Proof.
  intros Q ops qops T C loc counted text t h n rows H Hd. unfold from_file, from_read in H. rewrite Hd in H. cbn [bind] in H.
  apply bind_ok in H as (ts & Hts & H). apply bind_ok in H as (ps & Hps & H). apply bind_ok in H as (al & Hal & H). apply bind_ok in H as (sp & Hsp & H). apply bind_ok in H as (ro & Hro & H).
  unfold from_parts in H.
  destruct (all_finite ts) as [ts'|]; [|discriminate]. destruct (all_some (map fin_v3 ps)) as [ps'|]; [|discriminate].
  destruct (opt_finite all_finite al) as [al'|]; [|discriminate]. destruct (opt_finite _ sp) as [sp'|]; [|discriminate]. destruct (opt_finite _ ro) as [ro'|] eqn:Ero; [|discriminate].
  destruct (new_traj _ _ _ _ _ _ _ _ _) as [t0|] eqn:En; [|discriminate]. cbn in H. injection H as ->.
  assert (Rt : rot t = ro'). { unfold new_traj in En. destruct (match ro' with Some q => _ | None => false end); [discriminate|]. apply bind_ok in En as (v & _ & En). injection En as <-. reflexivity. }
  rewrite Rt. clear En Rt Hts Hps Hal Hsp.
  assert (Mem : forall l, forallb (fun a => member a (h_fields h)) l = true <-> incl l (h_fields h)).
  { intro l. rewrite forallb_forall. split; intros X a I; [apply member_in, X, I|apply member_in, X, I]. }
  unfold extract_rotations in Hro. assert (Mq := Mem ["qx"; "qy"; "qz"; "qw"]). assert (Me := Mem ["ex"; "ey"; "ez"]).
  destruct (forallb (fun a => member a (h_fields h)) ["qx"; "qy"; "qz"; "qw"]).
  - split; [intros _|split; intro X; contradiction X; apply Mq; reflexivity].
    destruct (extract_quaternions qops T h (Table n rows)) as [l|] eqn:El; [|discriminate]. cbn [rmap bind] in Hro. apply bind_ok in Hro as (m & Hm & Hro). injection Hro as <-.
    unfold extract_quaternions in El. apply bind_ok in El as (cols & Ec & El). assert (F := columns_read T (h_fields h) n rows h _ _ eq_refl Ec).
    inversion F as [|? x ? ? X F1]; subst. inversion F1 as [|? y ? ? Y F2]; subst. inversion F2 as [|? z ? ? Z F3]; subst. inversion F3 as [|? w ? ? W F4]; subst. inversion F4; subst.
    destruct (all_some (zip_v4 x y z w)) as [qs|] eqn:Eq; [|injection El as <-; discriminate].
    destruct (mapM _ qs) as [rs|] eqn:Er; [|discriminate]. cbn in El. injection El as <-. cbn in Ero. injection Ero as <-.
    destruct (zip4_nth rows x y z w qs Eq (read_column_length _ _ _ _ _ _ X) (read_column_length _ _ _ _ _ _ Y) (read_column_length _ _ _ _ _ _ Z) (read_column_length _ _ _ _ _ _ W)) as [L A].
    exists m, (map (rmul ops (from_matrix ops m)) rs). split; [exact Hm|]. split; [reflexivity|]. split; [rewrite map_length, (mapM_length _ _ _ Er); exact L|].
    intros i r Hr. rewrite nth_error_map' in Hr. destruct (nth_error rs i) as [r0|] eqn:E0; [|discriminate]. injection Hr as <-.
    assert (B := mapM_nth_error _ _ _ i Er). destruct (nth_error qs i) as [v|] eqn:Ev; [|congruence]. destruct B as (b & B1 & B2). rewrite E0 in B2. injection B2 as <-.
    destruct (from_quat qops v) as [r1|] eqn:Ef; [|discriminate]. injection B1 as ->. exists v, r0. split; [exact Ef|]. split; [reflexivity|].
    destruct (A i v Ev) as (A1 & A2 & A3 & A4). repeat split; eapply read_column_holds; eassumption.
  - split; [intro X; apply Mq in X; discriminate|]. destruct (forallb (fun a => member a (h_fields h)) ["ex"; "ey"; "ez"]).
    + split; [|intros _ X; contradiction X; apply Me; reflexivity]. intros _ _.
      destruct (extract_euler_angles ops T h (Table n rows)) as [l|] eqn:El; [|discriminate]. cbn [rmap bind] in Hro. apply bind_ok in Hro as (m & Hm & Hro). injection Hro as <-.
      unfold extract_euler_angles in El. apply bind_ok in El as (cols & Ec & El). assert (F := columns_read T (h_fields h) n rows h _ _ eq_refl Ec).
      destruct (all_some (map fin_v3 (zip_v3 cols))) as [es|] eqn:Ee; [|injection El as <-; discriminate]. cbn in El. injection El as <-. cbn in Ero. injection Ero as <-.
      destruct (three_columns T (h_fields h) n rows "ex" "ey" "ez" cols es F Ee) as [L A].
      eexists m, _. split; [exact Hm|]. split; [reflexivity|]. split; [rewrite !map_length; exact L|].
      intros i r Hr. rewrite !nth_error_map' in Hr. destruct (nth_error es i) as [e|] eqn:E0; [|discriminate]. injection Hr as <-. exists e. split; [apply A, E0|reflexivity].
    + split; [intros _ X; apply Me in X; discriminate|]. intros _ _. injection Hro as <-. cbn in Ero. injection Ero as <-. reflexivity.
Qed.
Print Assumptions C154_rotations.

Lemma to_nums_outcome T c : (forall s, In (Some s) c -> number T s <> None) -> exists col, to_nums T c = Ok col.
Proof.
  intro H. apply mapM_total. intros x I. destruct x as [s|]; cbn; [|eauto]. specialize (H s I). destruct (number T s); [eauto|congruence].
Qed.
Lemma to_nums_fails T c s : In (Some s) c -> number T s = None -> to_nums T c = Err ValueError.
Proof.
  unfold to_nums. induction c as [|x c IH]; intros I N; [contradiction|]. cbn [mapM]. destruct (to_num T x) as [v|e] eqn:E.
  - cbn [bind]. destruct I as [->|I]; [cbn in E; rewrite N in E; discriminate|]. rewrite IH by assumption. reflexivity.
  - cbn [bind]. f_equal. destruct x as [u|]; cbn in E; [|discriminate]. destruct (number T u); congruence.
Qed.
Lemma nth_cell (rows : list (list (option string))) j s : In (Some s) (map (fun r => nth j r None) rows) <-> exists row, In row rows /\ nth_error row j = Some (Some s).
Proof.
  rewrite in_map_iff. split; intros (row & E & I).
  - exists row. split; [exact I|]. destruct (nth_error row j) as [c|] eqn:N; [rewrite (nth_error_nth _ _ _ N) in E; congruence|]. apply nth_error_None in N. rewrite nth_overflow in E by exact N. discriminate.
  - exists row. split; [apply nth_error_nth, I|exact E].
Qed.
Lemma mapM_fails {A B} (f : A -> result B) l e a : In a l -> f a = Err e -> (forall b e', In b l -> f b = Err e' -> e' = e) -> mapM f l = Err e.
Proof.
  induction l as [|b l IH]; intros I F U; [contradiction|]. cbn. destruct (f b) as [v|e'] eqn:E; cbn [bind].
  - destruct I as [->|I]; [congruence|]. rewrite IH; [reflexivity|exact I|exact F|]. intros c e' Ic. apply U. right. exact Ic.
  - f_equal. apply (U b e' (or_introl eq_refl) E).
Qed.
Lemma times_read T C h n rows : h_time_format h = Ok UNIX -> count_occ string_dec (h_fields h) "t" <> 1%nat \/ readable T n (h_fields h) rows "t" ->
  exists ts, extract_timestamps T C h (Table n rows) = Ok ts.
Proof.
  intros F H. unfold extract_timestamps. rewrite F. cbn [bind]. rewrite time_columns_count. destruct (Nat.eqb_spec (count_occ string_dec (h_fields h) "t") 1) as [E|]; [|eauto].
  destruct H as [N|(j & J & L & Rd)]; [congruence|]. apply index_first in J. rewrite J. cbn [bind]. unfold column. rewrite (proj2 (Nat.ltb_lt j n) L). cbn [bind].
  destruct (to_nums_outcome T (map (fun r => nth j r None) rows)) as [col ->]; [|cbn; eauto]. intros s I. apply nth_cell in I as (row & I & E'). apply (Rd row s I E').
Qed.

(** Files whose positions cannot be read are refused: ValueError without a field or for a cell that is no number, IndexError for a field
    without column. *)
Theorem C154_refuses : forall Q (ops : rot_ops Q) (qops : quat_ops Q) T C loc counted text h n rows,
  read_data T text = Ok (h, Table n rows) -> h_time_format h = Ok UNIX ->
  count_occ string_dec (h_fields h) "t" <> 1%nat \/ readable T n (h_fields h) rows "t" ->
  let axes := ["px"; "py"; "pz"] in
  ((exists a, In a axes /\ ~ In a (h_fields h)) -> from_file ops qops T C loc counted text = Err ValueError) /\
  (incl axes (h_fields h) -> (exists a j, In a axes /\ first_named (h_fields h) a j /\ (n <= j)%nat) -> from_file ops qops T C loc counted text = Err IndexError) /\
  ((forall a, In a axes -> exists j, first_named (h_fields h) a j /\ (j < n)%nat) ->
   (exists a j row s, In a axes /\ first_named (h_fields h) a j /\ In row rows /\ nth_error row j = Some (Some s) /\ number T s = None) ->
   from_file ops qops T C loc counted text = Err ValueError).
Proof.
  intros Q ops qops T C loc counted text h n rows Hd F Ht axes. destruct (times_read T C h n rows F Ht) as [ts Ets].
  assert (G : forall e, columns T h (Table n rows) axes = Err e -> from_file ops qops T C loc counted text = Err e).
  { intros e E. unfold from_file, from_read. rewrite Hd. cbn [bind]. rewrite Ets. cbn [bind]. unfold extract_pointset. fold axes. rewrite E. reflexivity. }
  assert (Js : incl axes (h_fields h) -> exists js, mapM (fun a => index_of a (h_fields h)) axes = Ok js).
  { intro I. apply mapM_total. intros a Ia. apply index_here, I, Ia. }
  split; [|split].
  - intros (a & Ia & Na). apply G. unfold columns. rewrite (mapM_fails _ axes ValueError a); [reflexivity|exact Ia|apply index_missing, Na|].
    intros b e _ E. clear - E. revert e E. induction (h_fields h) as [|f r IH]; intros e E; cbn in E; [congruence|]. destruct (String.eqb f b); [discriminate|]. destruct (index_of b r); [discriminate|]. apply IH. exact E.
  - intros I (a & j & Ia & J & L). apply G. unfold columns. destruct (Js I) as [js Ej]. rewrite Ej. cbn [bind].
    assert (Ij : In j js). { apply index_first in J. apply In_nth_error in Ia as [k K]. assert (X := mapM_nth_error _ _ _ k Ej). rewrite K in X. destruct X as (b & B1 & B2). rewrite J in B1. injection B1 as <-. apply (nth_error_In _ _ B2). }
    rewrite (mapM_fails _ js IndexError j); [reflexivity|exact Ij| |].
    + unfold column. rewrite (proj2 (Nat.ltb_ge j n) L). reflexivity.
    + intros b e _ E. unfold column in E. destruct (b <? n)%nat; congruence.
  - intros Hall (a & j & row & s & Ia & J & Ir & Es & N). apply G. unfold columns. destruct Js as [js Ej].
    { intros b Ib. destruct (Hall b Ib) as (k & [K _] & _). apply (nth_error_In _ _ K). }
    rewrite Ej. cbn [bind]. assert (Rg : forall k, In k js -> (k < n)%nat).
    { intros k Ik. apply In_nth_error in Ik as [m M]. assert (X := mapM_nth_error _ _ _ m Ej). destruct (nth_error axes m) as [b|] eqn:Eb; [|congruence]. destruct X as (k' & B1 & B2). rewrite M in B2. injection B2 as <-.
      destruct (Hall b (nth_error_In _ _ Eb)) as (k2 & K2 & L2). apply index_first in K2. congruence. }
    assert (Ij : In j js). { apply index_first in J. apply In_nth_error in Ia as [k K]. assert (X := mapM_nth_error _ _ _ k Ej). rewrite K in X. destruct X as (b & B1 & B2). rewrite J in B1. injection B1 as <-. apply (nth_error_In _ _ B2). }
    rewrite (mapM_ok_map (column (Table n rows)) (fun k => map (fun r => nth k r None) rows) js).
    2:{ intros k Ik. unfold column. rewrite (proj2 (Nat.ltb_lt k n) (Rg k Ik)). reflexivity. }
    cbn [bind]. apply (mapM_fails _ _ ValueError (map (fun r => nth j r None) rows)).
    + apply (in_map (fun k => map (fun r => nth k r None) rows)), Ij.
    + apply (to_nums_fails T _ s); [apply nth_cell; eauto|exact N].
    + intros c e _ E. clear - E. unfold to_nums in E. induction c as [|x c IH]; [discriminate|]. cbn [mapM] in E. destruct (to_num T x) as [v|e'] eqn:Ex; cbn [bind] in E.
      * apply IH. destruct (mapM (to_num T) c); cbn in E; [discriminate|exact E].
      * injection E as <-. destruct x as [u|]; cbn in Ex; [|discriminate]. destruct (number T u); congruence.
Qed.
Print Assumptions C154_refuses.

Local Notation good_text := ("#fields t,px,py,pz,qx,qy,qz,qw" ++ String newline ("1,2,3,4,0,0,0,5" ++ String newline "")).
Local Notation bad_text := ("#fields t,px,py,pz" ++ String newline ("1,2,3,4" ++ String newline ("2,3,x,4" ++ String newline ""))).
(** A file with quaternions is read. *)
Example C154_case_reads : forall C counted, exists t h rows,
  read_data sample_text good_text = Ok (h, Table 8 rows) /\ incl ["qx"; "qy"; "qz"; "qw"] (h_fields h) /\ h_time_format h = Ok UNIX /\
  count_occ string_dec (h_fields h) "t" = 1%nat /\ from_file sample_rot_ops sample_quat_ops sample_text C (fun l => l) counted good_text = Ok (Some t).
Proof.
  intros C counted.
  assert (RD : read_data sample_text good_text = Ok ([("fields", HStr "t,px,py,pz,qx,qy,qz,qw")], Table 8 [[Some "1"; Some "2"; Some "3"; Some "4"; Some "0"; Some "0"; Some "0"; Some "5"]])) by (vm_compute; reflexivity).
  set (h := [("fields", HStr "t,px,py,pz,qx,qy,qz,qw")]) in *. set (d := Table 8 [[Some "1"; Some "2"; Some "3"; Some "4"; Some "0"; Some "0"; Some "0"; Some "5"]]) in *.
  assert (E1 : exists x, extract_timestamps sample_text C h d = Ok [Fin x]) by (eexists; reflexivity). destruct E1 as [x E1].
  assert (E2 : exists a b c, extract_pointset sample_text h d = Ok [(Fin a, Fin b, Fin c)]) by (do 3 eexists; reflexivity). destruct E2 as (a & b & c & E2).
  assert (E3 : exists q, extract_rotations sample_rot_ops sample_quat_ops sample_text h d = Ok (Some (Some [q]))).
  { unfold extract_rotations, extract_quaternions.
    assert (Ec : columns sample_text h d ["qx"; "qy"; "qz"; "qw"] = Ok [[Fin (0 / 10 ^ 9)]; [Fin (0 / 10 ^ 9)]; [Fin (0 / 10 ^ 9)]; [Fin (5 / 10 ^ 9)]]) by reflexivity. rewrite Ec.
    destruct (qc_from _ _ sample_quat_contract (mkV4 (0 / 10 ^ 9) (0 / 10 ^ 9) (0 / 10 ^ 9) (5 / 10 ^ 9))) as (q & Eq & _).
    { unfold qnorm. cbn [q_x q_y q_z q_w]. intro Z. apply sqrt_eq_0 in Z; lra. }
    cbn [bind zip_v4 all_some mapM]. rewrite Eq. cbn [bind rmap option_map map]. eexists. reflexivity. }
  destruct E3 as [q E3].
  eexists _, h, _. split; [exact RD|]. split; [intros z I; cbn in I |- *; tauto|]. split; [reflexivity|]. split; [reflexivity|].
  unfold from_file. rewrite RD. unfold from_read. cbn [bind]. rewrite E1, E2. cbn [bind]. rewrite E3. cbn [bind]. reflexivity.
Qed.
Print Assumptions C154_case_reads.
(** A file with a word instead of a coordinate is not. *)
Example C154_case_refuses : forall C counted, from_file sample_rot_ops sample_quat_ops sample_text C (fun l => l) counted bad_text = Err ValueError.
Proof.
  intros C counted. assert (RD : read_data sample_text bad_text = Ok ([("fields", HStr "t,px,py,pz")], Table 4 [[Some "1"; Some "2"; Some "3"; Some "4"]; [Some "2"; Some "3"; Some "x"; Some "4"]])) by (vm_compute; reflexivity).
  destruct (C154_refuses _ sample_rot_ops sample_quat_ops sample_text C (fun l => l) counted bad_text _ _ _ RD eq_refl) as (_ & _ & H).
  - right. exists 0%nat. split; [split; [reflexivity|intros k K; lia]|]. split; [lia|]. intros row s [<-|[<-|[]]] E; cbn in E; injection E as <-; discriminate.
  - assert (F : forall a j, In (a, j) [("px", 1); ("py", 2); ("pz", 3)]%nat -> first_named ["t"; "px"; "py"; "pz"] a j).
    { intros a j I. apply index_first. destruct I as [I|[I|[I|[]]]]; injection I as <- <-; reflexivity. }
    apply H.
    + intros a [<-|[<-|[<-|[]]]]; eexists; (split; [apply F; cbn; tauto|lia]).
    + exists "py", 2%nat. eexists. exists "x". split; [cbn; tauto|]. split; [apply F; cbn; tauto|]. split; [right; left; reflexivity|]. split; reflexivity.
Qed.
Print Assumptions C154_case_refuses.
