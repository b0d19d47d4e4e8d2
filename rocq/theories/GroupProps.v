(** Property C127: the groups of the alignment parameters. *)
From Verif Require Import Base BaseFacts VecFacts NumpyModel NumpyFacts GeomModel GeomSpec GeomFacts EvalModel ParamModel ParamSpec ParamFacts ParamFacts2 GroupModel.

Lemma eleven (s : pset) : length (ps_params s) = 11%nat ->
  exists a b c d e f g h i j k, ps_params s = [a; b; c; d; e; f; g; h; i; j; k].
Proof.
  destruct (ps_params s) as [|a [|b [|c [|d [|e [|f [|g [|h [|i [|j [|k [|]]]]]]]]]]]]; try discriminate. intros _. repeat eexists.
Qed.

Lemma group_ok lo n s : part lo n s <> [] -> group lo n s = Ok (mkPset (part lo n s) (np_zeros (length (part lo n s))) true).
Proof.
  intro N. unfold group, post_init. rewrite ps_len_eq. cbn [ps_params m_rows].
  replace (0 =? length (part lo n s))%nat with false by (symmetry; apply Nat.eqb_neq; destruct (part lo n s); [contradiction|discriminate]).
  reflexivity.
Qed.
Ltac grouped := match goal with |- ?g ?s = Ok _ => first [change (g s) with (group 0 7 s) | change (g s) with (group 8 3 s)] end; apply group_ok; discriminate.

(** A group shows the values, variances and switches of its seven or three parameters.  A call on a group changes these parameters like the same call on a set
    of its own and leaves all others and the covariance matrix as they are.  Assigned translations and angles are read back where they are switched on.
    Groups that the settings switch off have no effect.
    Missing: the covariance matrices of the set and of its groups do not follow ([C127_refuted]). *)
Theorem C127_partial : forall s, ps_len s = 11%nat ->
  (exists h l, helmert s = Ok h /\ leverarm s = Ok l /\
     values h = firstn 7 (values s) /\ variances h = firstn 7 (variances s) /\ enabled_bool_list h = firstn 7 (enabled_bool_list s) /\
     values l = skipn 8 (values s) /\ variances l = skipn 8 (variances s) /\ enabled_bool_list l = skipn 8 (enabled_bool_list s) /\
     (forall c, admissible h c -> exists s' h', through_helmert s c = Ok s' /\ helmert s' = Ok h' /\ ps_params h' = ps_params (run_call h c) /\
        ps_cov s' = ps_cov s /\ ps_len s' = 11%nat /\ forall i, (7 <= i)%nat -> nth_error (ps_params s') i = nth_error (ps_params s) i) /\
     (forall c, admissible l c -> exists s' l', through_leverarm s c = Ok s' /\ leverarm s' = Ok l' /\ ps_params l' = ps_params (run_call l c) /\
        ps_cov s' = ps_cov s /\ ps_len s' = 11%nat /\ forall i, (i < 8)%nat -> nth_error (ps_params s') i = nth_error (ps_params s) i)) /\
  (forall t, exists s', set_translation s t = Ok s' /\ ps_len s' = 11%nat /\
     (forall i, (3 <= i)%nat -> nth_error (ps_params s') i = nth_error (ps_params s) i) /\
     (firstn 3 (enabled_bool_list s) = [true; true; true] -> exists h', helmert s' = Ok h' /\ translation h' = t)) /\
  (forall t, exists s', set_rotation s t = Ok s' /\ ps_len s' = 11%nat /\
     (forall i, (i < 3 \/ 6 <= i)%nat -> nth_error (ps_params s') i = nth_error (ps_params s) i) /\
     (firstn 3 (skipn 3 (enabled_bool_list s)) = [true; true; true] -> exists h', helmert s' = Ok h' /\ rotation h' = t)) /\
  (forall Q (ops : rot_ops Q) e, rot_contract ops -> map p_default (ps_params s) = map p_default default_params ->
     (helmert_enabled e = false -> exists h, helmert (apply_settings s e) = Ok h /\ forall p, similarity ops h p = p) /\
     (leverarm_enabled e = false -> exists l, leverarm (apply_settings s e) = Ok l /\ forall ps qs, length ps = length qs -> lever_apply ops l ps qs = Ok ps)).
Proof.
  intros [l0 cov en] L. rewrite ps_len_eq in L. cbn [ps_params] in L. destruct (eleven (mkPset l0 cov en) L) as (a & b & c & d & e & f & g & h & i & j & k & E).
  cbn [ps_params] in E. subst l0. clear L.
  assert (G7 : helmert (mkPset [a; b; c; d; e; f; g; h; i; j; k] cov en) = Ok (mkPset [a; b; c; d; e; f; g] (np_zeros 7) true)) by grouped.
  assert (G3 : leverarm (mkPset [a; b; c; d; e; f; g; h; i; j; k] cov en) = Ok (mkPset [i; j; k] (np_zeros 3) true)) by grouped.
  split; [|split; [|split]].
  - do 2 eexists. split; [exact G7|]. split; [exact G3|].
    do 6 (split; [unfold values, variances; rewrite ?ps_get_all; reflexivity|]).
    split.
    + intros x A. unfold through_helmert, through. change (group 0 7) with helmert. rewrite G7. cbn [bind].
      destruct (run_call_shape (mkPset [a; b; c; d; e; f; g] (np_zeros 7) true) x ltac:(unfold well_shaped; rewrite ps_len_eq; split; reflexivity) A) as [_ Ln].
      rewrite !ps_len_eq in Ln. cbn [ps_params length] in Ln.
      destruct (run_call _ x) as [r rc re]. cbn [ps_params] in *. destruct r as [|r0 [|r1 [|r2 [|r3 [|r4 [|r5 [|r6 [|]]]]]]]]; try discriminate.
      do 2 eexists. split; [reflexivity|]. split; [grouped|]. split; [reflexivity|]. split; [reflexivity|]. split; [rewrite ps_len_eq; reflexivity|].
      intros n Hn. do 7 (destruct n; [lia|]). reflexivity.
    + intros x A. unfold through_leverarm, through. change (group 8 3) with leverarm. rewrite G3. cbn [bind].
      destruct (run_call_shape (mkPset [i; j; k] (np_zeros 3) true) x ltac:(unfold well_shaped; rewrite ps_len_eq; split; reflexivity) A) as [_ Ln].
      rewrite !ps_len_eq in Ln. cbn [ps_params length] in Ln.
      destruct (run_call _ x) as [r rc re]. cbn [ps_params] in *. destruct r as [|r0 [|r1 [|r2 [|]]]]; try discriminate.
      do 2 eexists. split; [reflexivity|]. split; [grouped|]. split; [reflexivity|]. split; [reflexivity|]. split; [rewrite ps_len_eq; reflexivity|].
      intros n Hn. do 8 (destruct n; [reflexivity|]). lia.
  - intro t. unfold set_translation, set_rotation. rewrite G7. eexists. split; [reflexivity|]. split; [rewrite ps_len_eq; reflexivity|]. split.
    + intros n Hn. do 3 (destruct n; [lia|]). reflexivity.
    + cbn. intro T. injection T as Ta Tb Tc. eexists. split; [grouped|]. unfold translation, values. rewrite ps_get_all. cbn. unfold p_value. cbn. rewrite Ta, Tb, Tc. now destruct t.
  - intro t. unfold set_translation, set_rotation. rewrite G7. eexists. split; [reflexivity|]. split; [rewrite ps_len_eq; reflexivity|]. split.
    + intros n Hn. do 3 (destruct n; [reflexivity|]). do 3 (destruct n; [lia|]). reflexivity.
    + cbn. intro T. injection T as Ta Tb Tc. eexists. split; [grouped|]. unfold rotation, values. rewrite ps_get_all. cbn. unfold p_value. cbn. rewrite Ta, Tb, Tc. now destruct t.
  - intros Q ops st RC D. cbn in D. injection D as Da Db Dc Dd De Df Dg Dh Di Dj Dk. split; intro F.
    + unfold apply_settings. rewrite F, !Bool.andb_false_r. eexists. split; [grouped|]. intro p. unfold similarity, translation, rotation, scale_value, values. rewrite ps_get_all. cbn.
      unfold three. cbn. rewrite Da, Db, Dc, Dd, De, Df, Dg. unfold helmert_apply_to, rotation_matrix. rewrite (rc_euler _ RC).
      change (mkV3 0 0 0) with vzero. rewrite euler_zero, mapply_ident. destruct p. unfold vadd, vscale, vzero. cbn. f_equal; ring.
    + unfold apply_settings. rewrite F, !Bool.andb_false_r. eexists. split; [grouped|]. intros ps qs Ln. unfold lever_apply, values. rewrite ps_get_all. cbn. rewrite Di, Dj, Dk.
      unfold leverarm_apply_all. rewrite Ln, Nat.eqb_refl. f_equal. revert qs Ln. induction ps as [|[x y z] ps IH]; intros [|q qs] Ln; try discriminate; [reflexivity|].
      cbn [combine map]. rewrite IH by (cbn in Ln; lia). f_equal. unfold leverarm_apply_to, mapply, vadd, vdot, three. cbn. f_equal; ring.
Qed.
Print Assumptions C127_partial.

Lemma nth_error_firstn' {A} (l : list A) : forall n i, (i < n)%nat -> nth_error (firstn n l) i = nth_error l i.
Proof. induction l as [|x l IH]; intros [|n] [|i] H; try lia; try reflexivity. cbn. apply IH. lia. Qed.

(** The covariance matrix of a group is zero whatever the variances are; variances written through a group do not reach the covariance matrix of the set. *)
Theorem C127_refuted :
  (forall s i v, ps_len s = 11%nat -> (i < 7)%nat -> nth_error (enabled_bool_list s) i = Some true -> nth_error (variances s) i = Some v -> v <> 0 ->
     exists h, helmert s = Ok h /\ ~ variances_agree h) /\
  (forall s vs i v, ps_len s = 11%nat -> variances_agree s -> length vs = 7%nat -> nth_error (enabled_bool_list s) i = Some true ->
     nth_error vs i = Some v -> nth_error (variances s) i <> Some v ->
     exists s', through_helmert s (CallVariances vs) = Ok s' /\ nth_error (variances s') i = Some v /\ ~ variances_agree s').
Proof.
  split.
  - intros s i v L I E V N. destruct (proj1 (C127_partial s L)) as (h & l & H & _ & _ & Hv & He & _).
    exists h. split; [exact H|]. intro A.
    assert (P : part 0 7 s <> []). { rewrite ps_len_eq in L. unfold part. destruct (ps_params s); [discriminate|]. discriminate. }
    assert (C : ps_cov h = np_zeros (length (part 0 7 s))) by (unfold helmert in H; rewrite (group_ok 0 7 s P) in H; injection H as <-; reflexivity).
    apply N. rewrite <- (A i v).
    + rewrite C. reflexivity.
    + rewrite He, nth_error_firstn' by exact I. exact E.
    + rewrite Hv, nth_error_firstn' by exact I. exact V.
  - intros s vs i v L A Lv E V N.
    assert (I : (i < 7)%nat) by (rewrite <- Lv; apply nth_error_Some; congruence).
    destruct (proj1 (C127_partial s L)) as (h & l & H & _ & Hv1 & Hv & He & _ & _ & _ & Th & _).
    destruct (Th (CallVariances vs) Logic.I) as (s' & h' & T & H' & Hp & Hc & L' & Ho).
    exists s'. split; [exact T|].
    assert (P : part 0 7 s <> []). { rewrite ps_len_eq in L. unfold part. destruct (ps_params s); [discriminate|]. discriminate. }
    assert (Hh : h = mkPset (part 0 7 s) (np_zeros (length (part 0 7 s))) true) by (unfold helmert in H; rewrite (group_ok 0 7 s P) in H; injection H as <-; reflexivity).
    assert (W : square_of (ps_len h) (ps_cov h)) by (rewrite Hh, ps_len_eq; split; reflexivity).
    assert (L7 : length vs = ps_len h). { unfold ps_len. rewrite Hv1, Lv, firstn_length. unfold ps_len in L. rewrite L. reflexivity. }
    destruct (set_variances_spec h vs W L7) as (h1 & S1 & F1 & _ & V1 & _). cbn [run_call] in Hp. rewrite S1 in Hp. cbn [or_same] in Hp.
    destruct (proj1 (C127_partial s' L')) as (h2 & _ & H2 & _ & _ & Hv2 & He2 & _). rewrite H' in H2. injection H2 as <-.
    assert (X : nth_error (variances s') i = Some v).
    { rewrite <- (nth_error_firstn' _ 7 i I), <- Hv2. unfold variances. rewrite ps_get_all, Hp, nth_error_map'.
      assert (M : nth_error (map p_stored_var (ps_params h1)) i = Some v) by (rewrite V1; exact V). rewrite nth_error_map' in M.
      assert (F : nth_error (enabled_bool_list h1) i = Some true) by (rewrite F1, He, nth_error_firstn' by exact I; exact E).
      unfold enabled_bool_list in F. rewrite nth_error_map' in F. destruct (nth_error (ps_params h1) i) as [p|]; [|discriminate]. cbn in *.
      injection M as <-. injection F as F. unfold p_variance. rewrite F. reflexivity. }
    assert (F' : nth_error (enabled_bool_list s') i = Some true).
    { rewrite <- (nth_error_firstn' _ 7 i I), <- He2. unfold enabled_bool_list. rewrite Hp. fold (enabled_bool_list h1). rewrite F1, He, nth_error_firstn' by exact I. exact E. }
    split; [exact X|]. intro A'.
    destruct (nth_error (variances s) i) as [w|] eqn:Wi.
    + apply N. rewrite <- (A i w E Wi), <- (A' i v F' X), Hc. reflexivity.
    + apply nth_error_None in Wi. unfold variances in Wi. rewrite ps_get_all, map_length in Wi. rewrite ps_len_eq in L. lia.
Qed.
Print Assumptions C127_refuted.

(** Translation x is estimated with variance 4; its group claims none, and writing 9 through the group is not seen by the covariance matrix. *)
Definition one_known : pset := mkPset (map (fun p => p_set_enabled true p) default_params) (np_zeros 11) true.
Example C127_case : exists s, set_variances one_known [4; 0; 0; 0; 0; 0; 0; 0; 0; 0; 0] = Ok s /\ ps_len s = 11%nat /\ variances_agree s /\ nth_error (enabled_bool_list s) 0 = Some true /\ nth_error (variances s) 0 = Some 4 /\ nth_error (variances s) 0 <> Some 9 /\ map p_default (ps_params s) = map p_default default_params.
Proof.
  eexists. split; [reflexivity|]. split; [reflexivity|]. split.
  - intros i v. do 11 (destruct i as [|i]; [cbn; intros _ [= <-]; reflexivity|]). destruct i; discriminate.
  - split; [reflexivity|]. split; [reflexivity|]. split; [cbn; intro H; injection H; lra|]. reflexivity.
Qed.
