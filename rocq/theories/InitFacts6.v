(** Proofs about the initial values: exact data are estimated exactly. *)
From Coq Require Import Ranalysis1.
From Verif Require Import Base BaseFacts NumpyModel NumpyFacts TrajModel EvalModel ParamModel ParamFacts DataModel DataSpec DataFacts EstModel GeomModel GeomSpec GeomFacts LsqModel LsqSpec LsqFacts SolveSpec InitSpec
  DirectModel DirectSpec DirectFacts DirectFacts2 DirectFacts3 DirectProps DirectProps2 DirectProps3
  JacModel JacSpec JacFacts JacFacts2 GhmModel GhmSpec GhmFacts GhmFacts2 GhmFacts3 GhmFacts4 GhmFacts5 GhmFacts6 InitModel InitFacts InitFacts2 InitFacts3 InitFacts4 InitFacts5.

Section Exact.
  Variable solve : list (list R) -> list R -> result (list R).
  Variable egrad : (list R -> R) -> nat -> list R -> R.
  Hypothesis CS : solve_contract solve.
  Hypothesis CC : solve_complete solve.
  Hypothesis CE : egrad_contract egrad.
  Variable pinv : list (list R) -> list (list R).
  Variable svd : M3 -> result (M3 * V3 * M3).
  Context {Q : Type} (ops : rot_ops Q).
  Hypothesis CR : rot_contract ops.
  Hypothesis CV : svd_contract svd.
  Variables (e : est_settings) (st : stochastics) (d : adata) (ths : list R).
  Hypothesis NZ : forall q, observed e q -> std_of st q <> 0.
  Hypothesis FT : Forall (fun t => 0 <= t) ths.
  Hypothesis NT : ths <> [].
  Let result_of := estimate (ghm solve egrad pinv (init_values svd ops solve)) ths false d.

  Theorem similarity from t0 m0 s0 rpy speed h :
    helmert_enabled e = true -> leverarm_enabled e = false -> time_shift_enabled e = false ->
    unless (trans_x e) (vx t0) 0 -> unless (trans_y e) (vy t0) 0 -> unless (trans_z e) (vz t0) 0 -> unless (scale e) s0 1 ->
    rot_x e = rot_y e -> rot_y e = rot_z e -> (rot_x e = false -> m0 = mident) ->
    is_rot m0 -> 0 < s0 -> vx (row3 m0) ^ 2 <> 1 -> not_coplanar from ->
    direct_helmert svd ops from (map (similar t0 m0 s0) from) [] = Ok (Some h) ->
    make_data e st from (map (similar t0 m0 s0) from) rpy speed = Ok d ->
    exists p runs e0, result_of = Ok (p, true, runs) /\ values p = params_list (mkAlign t0 e0 s0 0 vzero) /\ euler_matrix e0 = m0.
  Proof.
    intros HE NL NTS UX UY UZ US R12 R23 RI RM SP GL NC HH HM. apply made in HM as D. clear HM.
    destruct h as [[t rot] s]. destruct (C76_aligned Q ops svd from [] t rot s t0 m0 s0 CR CV ltac:(constructor) RM SP NC HH) as [-> [-> [ER AP]]].
    assert (EM : euler_matrix rot = m0) by (rewrite <- ER; unfold rotation_matrix; rewrite (rc_euler ops CR); reflexivity).
    set (e0 := if rot_x e then rot else vzero).
    assert (E0 : euler_matrix e0 = m0) by (unfold e0; destruct (rot_x e); [exact EM|rewrite euler_zero, RI; reflexivity]).
    assert (HI : init_values svd ops solve e (a_obs d) = Ok (started e t0 rot s0 0 vzero)).
    { unfold init_values. unfold helmert_init. rewrite HE, (from_are D), (to_are D), HH. cbn [bind].
      unfold time_shift_init, leverarm_init. rewrite NTS, NL. reflexivity. }
    set (p := mkAlign t0 e0 s0 0 vzero).
    assert (VS : values (started e t0 rot s0 0 vzero) = params_list p).
    { assert (values (started e t0 rot s0 0 vzero) = values (started e t0 e0 s0 0 vzero)) as ->.
      { unfold e0. destruct (rot_x e) eqn:RX; [reflexivity|]. rewrite !values_all. unfold started, apply_settings, ps_set_params, initial_params. cbn [ps_params set_flags map p_set_enabled p_value p_enabled p_stored p_default].
        rewrite <- R23, <- R12, RX. reflexivity. }
      apply started_values; rewrite ?HE, ?andb_true_r; try assumption; try (intros _; reflexivity).
      all: unfold e0; rewrite <- ?R23, <- ?R12; intros ->; reflexivity. }
    assert (RD : ready (started e t0 rot s0 0 vzero) d (length from)) by (apply started_ready; apply D).
    assert (N0 : (0 < length from)%nat) by (destruct NC as (a & _ & _ & _ & I & _); destruct from; [destruct I|cbn; lia]).
    assert (EN : all_lq_disabled e = false) by (unfold all_lq_disabled; rewrite HE; reflexivity).
    destruct (whole solve egrad CS CC CE pinv svd ops D NZ EN ths FT NT _ p HI RD VS N0) as [p' [runs [ES EV]]].
    - intros i Hi. rewrite (do_epoch _ _ _ _ _ _ _ D i Hi), NL, NTS. unfold misclosed, aligned, p. cbn [sim_trans sim_scale sim_rot lever time_shift e_from e_to e_rpy e_speed].
      rewrite E0. rewrite (nth_indep (map (similar t0 m0 s0) from) vzero (similar t0 m0 s0 vzero)) by (rewrite map_length; exact Hi). rewrite map_nth. unfold similar.
      generalize (nth i from vzero), (euler_matrix vzero). intros [x1 x2 x3] [[a11 a12 a13] [a21 a22 a23] [a31 a32 a33]]. destruct m0 as [[m11 m12 m13] [m21 m22 m23] [m31 m32 m33]], t0 as [t1 t2 t3]. apply V3_eq; munf; ring.
    - intros Jp JP. apply (helmert_determined _ _ _ _ _ RD JP); rewrite ?(do_est _ _ _ _ _ _ _ D); try assumption; rewrite ?VS, ?params_listed; try reflexivity; cbn [p sim_scale sim_rot].
      + lra.
      + intro C. apply GL. rewrite <- E0, euler_entries. cbn.
        assert (S := sin2_cos2 (vy e0)). unfold Rsqr in S. rewrite C in S. nra.
      + assert (FE := from_are D). rewrite (epochs_are D), map_map in FE. rewrite FE. apply coplanar_collinear, NC.
    - exists p', runs, e0. split; [exact ES|]. split; [exact EV|exact E0].
  Qed.

  Theorem lever_and_shift (poses : list pose) dt0 l0 rpy speed :
    helmert_enabled e = false -> leverarm_enabled e = true \/ time_shift_enabled e = true ->
    (leverarm_enabled e = true -> rpy = Some (map pose_rpy poses)) -> (time_shift_enabled e = true -> speed = map pose_speed poses) ->
    unless (time_shift_enabled e) dt0 0 -> unless (lever_x e) (vx l0) 0 -> unless (lever_y e) (vy l0) 0 -> unless (lever_z e) (vz l0) 0 ->
    poses <> [] -> (leverarm_enabled e = false -> exists s, In s poses /\ pose_speed s <> vzero) ->
    (leverarm_enabled e = true -> time_shift_enabled e = true -> exists a b, In a poses /\ In b poses /\ body_speed a <> body_speed b) ->
    make_data e st (map pose_at poses) (map (levered dt0 l0) poses) rpy speed = Ok d ->
    exists p runs, result_of = Ok (p, true, runs) /\ values p = params_list (mkAlign vzero vzero 1 dt0 l0).
  Proof.
    intros HE OR HR HS UT UX UY UZ NE HT HB HM. apply made in HM as D. clear HM.
    assert (LZ : leverarm_enabled e = false -> l0 = vzero).
    { unfold leverarm_enabled, any. cbn. intro L. destruct (lever_x e), (lever_y e), (lever_z e); try discriminate L. apply V3_eq; [apply UX|apply UY|apply UZ]; reflexivity. }
    assert (HR' : leverarm_enabled e = true -> angles_or (length (map pose_at poses)) rpy = map pose_rpy poses) by (intro L; rewrite (HR L); reflexivity).
    assert (HI : init_values svd ops solve e (a_obs d) = Ok (started e vzero vzero 1 dt0 l0)).
    { unfold init_values, helmert_init. rewrite HE. cbn [bind]. unfold xyz_init. rewrite HE. unfold time_shift_init, leverarm_init.
      rewrite (from_are D), (to_are D). destruct (leverarm_enabled e) eqn:L.
      - rewrite andb_false_r. cbn [bind]. rewrite (rpy_are D L), (HR' eq_refl).
        assert (S : (if time_shift_enabled e then Some (map e_speed (est_epochs e (a_obs d))) else None) = (if time_shift_enabled e then Some (map pose_speed poses) else None)).
        { destruct (time_shift_enabled e) eqn:T; [|reflexivity]. rewrite (speed_are D T), (HS eq_refl). reflexivity. }
        rewrite S.
        destruct (leverarm_ok solve (map (levered dt0 l0) poses) (map pose_at poses) (map pose_rpy poses) (if time_shift_enabled e then Some (map pose_speed poses) else None) CS CC) as [l [dt [res EL]]].
        + rewrite !map_length. reflexivity.
        + rewrite !map_length. reflexivity.
        + destruct (time_shift_enabled e).
          * split; [rewrite !map_length; reflexivity|]. destruct (HB eq_refl eq_refl) as (a & b & IA & IB & N).
            assert (CM : forall s, In s poses -> In (pose_rpy s, pose_speed s) (combine (map pose_rpy poses) (map pose_speed poses))).
            { clear. induction poses as [|x l IH]; intros s []; [subst; left; reflexivity|right; apply IH; assumption]. }
            exists (pose_rpy a, pose_speed a), (pose_rpy b, pose_speed b). split; [apply CM, IA|]. split; [apply CM, IB|]. exact N.
          * intro E. apply NE. destruct poses; [reflexivity|discriminate E].
        + destruct (C77_recovered solve poses None (time_shift_enabled e) (repeat 1 (length poses)) (repeat 1 (length poses)) (repeat 1 (length poses)) l0 dt0 l dt res CS) as (_ & _ & R1 & R2).
          * unfold axis_weights. rewrite !repeat_length. repeat split.
          * apply ones_positive.
          * apply ones_positive.
          * apply ones_positive.
          * exact UT.
          * exact EL.
          * rewrite EL. cbn [bind fst snd]. destruct (time_shift_enabled e) eqn:T.
            -- destruct (R2 (HB eq_refl eq_refl) eq_refl) as [-> ->]. reflexivity.
            -- destruct (R1 eq_refl NE) as [-> ->]. rewrite (UT eq_refl). reflexivity.
      - destruct OR as [OR|OR]; [discriminate OR|]. rewrite OR. cbn [andb negb]. rewrite (speed_are D OR), (HS OR), (LZ eq_refl).
        assert (EQ : map (levered dt0 vzero) poses = map (fun s => vadd (pose_at s) (vscale dt0 (pose_speed s))) poses).
        { apply map_ext. intros [[x r] v]. unfold levered, pose_at, pose_speed, pose_rpy. cbn [fst snd]. generalize (euler_matrix r).
          intros [[m11 m12 m13] [m21 m22 m23] [m31 m32 m33]]. destruct x as [? ? ?], v as [? ? ?]. apply V3_eq; munf; ring. }
        rewrite EQ. destruct (HT eq_refl) as (s & IS & NS).
        destruct (timeshift_ok solve (map (fun s => vadd (pose_at s) (vscale dt0 (pose_speed s))) poses) (map pose_at poses) (map pose_speed poses) CS CC) as [dt [res ET]].
        + rewrite !map_length. reflexivity.
        + rewrite !map_length. reflexivity.
        + exists (pose_speed s). split; [apply in_map, IS|exact NS].
        + rewrite ET. cbn [bind fst snd]. rewrite (C78_recovered solve poses (Some []) dt0 dt res CS (or_intror eq_refl) ET (HT eq_refl)). reflexivity. }
    set (p := mkAlign vzero vzero 1 dt0 l0).
    assert (VS : values (started e vzero vzero 1 dt0 l0) = params_list p).
    { apply started_values; rewrite ?HE, ?andb_false_r; try (intros _; reflexivity); try exact UT.
      all: destruct (leverarm_enabled e) eqn:L; rewrite ?andb_true_r; try assumption; intros _; rewrite (LZ eq_refl); reflexivity. }
    set (n := length (map pose_at poses)) in *.
    assert (RD : ready (started e vzero vzero 1 dt0 l0) d n) by (apply started_ready; apply D).
    assert (LN : n = length poses) by apply map_length.
    assert (N0 : (0 < n)%nat) by (rewrite LN; destruct poses; [congruence|cbn; lia]).
    assert (EN : all_lq_disabled e = false) by (unfold all_lq_disabled; rewrite HE; destruct OR as [-> | ->]; cbn; rewrite ?orb_true_r; reflexivity).
    assert (EP : forall i, (i < n)%nat -> exists s, nth_error poses i = Some s /\ observed_epoch e (a_obs d) i =
      mkEpoch (pose_at s) (levered dt0 l0 s) (if leverarm_enabled e then pose_rpy s else vzero) (if time_shift_enabled e then pose_speed s else vzero)).
    { intros i Hi. destruct (nth_error poses i) as [s|] eqn:E; [|apply nth_error_None in E; lia]. exists s. split; [reflexivity|].
      rewrite (do_epoch _ _ _ _ _ _ _ D i Hi).
      assert (G : forall f : pose -> V3, nth i (map f poses) vzero = f s) by (intro f; apply nth_error_nth; rewrite nth_error_map, E; reflexivity).
      rewrite !G. destruct (leverarm_enabled e); [rewrite (HR' eq_refl), G|]; (destruct (time_shift_enabled e); [rewrite (HS eq_refl), G|]); reflexivity. }
    assert (IN : forall s, In s poses -> exists i, (i < n)%nat /\ nth_error poses i = Some s).
    { intros s I. apply In_nth_error in I as [i Hi]. exists i. split; [rewrite LN; apply nth_error_Some; congruence|exact Hi]. }
    destruct (whole solve egrad CS CC CE pinv svd ops D NZ EN ths FT NT _ p HI RD VS N0) as [p' [runs [ES EV]]].
    - intros i Hi. destruct (EP i Hi) as [s [_ ->]]. unfold misclosed, aligned, p, levered. cbn [sim_trans sim_scale sim_rot lever time_shift e_from e_to e_rpy e_speed].
      rewrite euler_zero, mapply_ident.
      assert (A1 : mapply (euler_matrix (if leverarm_enabled e then pose_rpy s else vzero)) l0 = mapply (euler_matrix (pose_rpy s)) l0).
      { destruct (leverarm_enabled e); [reflexivity|]. rewrite (LZ eq_refl). clear. generalize (euler_matrix vzero), (euler_matrix (pose_rpy s)).
        intros [[m11 m12 m13] [m21 m22 m23] [m31 m32 m33]] [[n11 n12 n13] [n21 n22 n23] [n31 n32 n33]]. apply V3_eq; munf; ring. }
      assert (A2 : vscale dt0 (if time_shift_enabled e then pose_speed s else vzero) = vscale dt0 (pose_speed s)).
      { destruct (time_shift_enabled e); [reflexivity|]. rewrite (UT eq_refl). clear. destruct (pose_speed s) as [? ? ?]. apply V3_eq; munf; ring. }
      rewrite A1, A2. generalize (pose_at s), (vscale dt0 (pose_speed s)), (mapply (euler_matrix (pose_rpy s)) l0).
      intros [? ? ?] [? ? ?] [? ? ?]. apply V3_eq; munf; ring.
    - intros Jp JP. assert (EE := do_est _ _ _ _ _ _ _ D). apply (lever_determined _ _ _ _ _ RD JP); rewrite ?EE; try assumption; try (rewrite VS, params_listed; cbn; lra).
      + intro L. destruct OR as [OR|OR]; [congruence|]. destruct (HT L) as (s & I & N). destruct (IN s I) as [i [Hi E]]. exists i. split; [exact Hi|].
        destruct (EP i Hi) as [s' [E' ->]]. rewrite E in E'. injection E' as <-. rewrite OR. exact N.
      + intros _ _. exact N0.
      + intros L T. destruct (HB L T) as (a & b & IA & IB & N). destruct (IN a IA) as [i [Hi Ei]]. destruct (IN b IB) as [j [Hj Ej]]. exists i, j. split; [exact Hi|]. split; [exact Hj|].
        destruct (EP i Hi) as [a' [Ei' ->]]. destruct (EP j Hj) as [b' [Ej' ->]]. rewrite Ei in Ei'. injection Ei' as <-. rewrite Ej in Ej'. injection Ej' as <-.
        rewrite L, T. exact N.
    - exists p', runs. split; [exact ES|exact EV].
  Qed.
End Exact.
