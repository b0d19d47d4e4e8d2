(** Proofs about the estimation of an alignment between trajectories: exact relations are found. *)
From Verif Require Import Base BaseFacts NumpyModel NumpyFacts TrajModel TrajSpec EvalModel ParamModel ParamFacts DataModel DataSpec DataFacts EstModel MatchModel GeomModel GeomSpec GeomFacts GeomFacts2 LsqModel LsqSpec SolveSpec
  DirectModel DirectSpec DirectProps DirectProps3 JacModel JacSpec JacFacts2 GhmModel GhmSpec InitModel InitSpec InitFacts5 InitFacts6 InitProps AlignModel AlignSpec AlignFacts.

Section Exact.
  Context {Q : Type} (ops : rot_ops Q).
  Variable svd : M3 -> result (M3 * V3 * M3).
  Variable solve : list (list R) -> list R -> result (list R).
  Variable egrad : (list R -> R) -> nat -> list R -> R.
  Variable pinv : list (list R) -> list (list R).
  Variable mean : list Q -> result Q.
  Variable matched : matching_settings -> traj Q -> traj Q -> result (traj Q * traj Q).
  Hypothesis CR : rot_contract ops.
  Hypothesis CV : svd_contract svd.
  Hypothesis CS : solve_contract solve.
  Hypothesis CC : solve_complete solve.
  Hypothesis CE : egrad_contract egrad.

  Lemma no_rotation_estimated e p (f g : traj Q) : (sensor_rotation e = true -> rot f = None \/ rot g = None) ->
    estimate_sensor_rotation ops mean e p f g = Ok no_sensor_rotation.
  Proof.
    intro H. unfold estimate_sensor_rotation. destruct (rot f); [|reflexivity]. destruct (rot g); [|reflexivity].
    destruct (sensor_rotation e); [|reflexivity]. destruct (H eq_refl); discriminate.
  Qed.

  Lemma mounting_found e p (f g : traj Q) qf qg m0 : mean_contract ops mean -> mean_agreeing ops mean -> consistent f -> sensor_rotation e = true ->
    sim_scale (params_of (values p)) = 1 -> is_rot m0 -> rot f = Some qf -> rot g = Some qg -> qf <> [] ->
    map (as_matrix ops) qg = map (fun r => mmul m0 (mmul (euler_matrix (sim_rot (params_of (values p)))) (as_matrix ops r))) qf ->
    exists a, estimate_sensor_rotation ops mean e p f g = Ok (sensor_params a) /\ euler_matrix a = m0.
  Proof.
    intros MC MA CF SR S1 RM RF RG NE HG. set (ap := params_of (values p)) in *.
    set (pre := map (fun r => from_matrix ops (mmul (GeomModel.lin (sim3_matrix ops ap)) (as_matrix ops r))) qf).
    assert (RP : rot (apply_transformation ops (sim3_matrix ops ap) f) = Some pre) by (apply apply_transformation_rot; assumption).
    assert (EP : forall r, as_matrix ops (from_matrix ops (mmul (GeomModel.lin (sim3_matrix ops ap)) (as_matrix ops r))) = mmul (euler_matrix (sim_rot ap)) (as_matrix ops r)).
    { intro r. unfold sim3_matrix; cbn [GeomModel.lin]. rewrite S1, mscale_one, (rotation_matrix_euler ops CR). apply (rc_from ops CR), is_rot_mmul; [apply is_rot_euler|apply (rc_rot ops CR)]. }
    assert (HM : map (as_matrix ops) qg = map (fun q => mmul m0 (as_matrix ops q)) pre).
    { rewrite HG. unfold pre. rewrite map_map. apply map_ext. intro r. rewrite EP. reflexivity. }
    assert (L : length qg = length pre) by (rewrite <- (map_length (as_matrix ops) qg), HM, map_length; reflexivity).
    assert (NP : pre <> []) by (unfold pre; destruct qf; [congruence|discriminate]).
    assert (AL : exists a, align_rotations ops mean (Some pre) (Some qg) = Ok (Some a)).
    { unfold align_rotations. rewrite broadcast_ok by exact L. cbn [bind].
      assert (AG : forall x, In x (combine qg pre) -> as_matrix ops (rmul ops (fst x) (rinv ops (snd x))) = m0).
      { intros [b a] I. apply In_nth_error in I as [i I]. cbn [fst snd]. rewrite (rc_mul ops CR), (rc_inv ops CR).
        assert (NB : nth_error qg i = Some b /\ nth_error pre i = Some a).
        { clear - I. clearbody pre. revert qg pre I. induction i as [|i IH]; intros [|x l] [|y m]; cbn; try discriminate; [intros [= -> ->]; auto|apply IH]. }
        destruct NB as [NB NA]. assert (X : nth_error (map (as_matrix ops) qg) i = Some (as_matrix ops b)) by now rewrite (map_nth_error _ _ _ NB).
        rewrite HM, (map_nth_error _ _ _ NA) in X. injection X as <-. rewrite mmul_assoc, (is_rot_right _ (rc_rot ops CR a)). apply mmul_ident_r. }
      destruct qg as [|b qg']; [destruct pre; [congruence|discriminate]|]. destruct pre as [|a pre']; [congruence|]. cbn [combine map fst snd].
      destruct (MA (rmul ops b (rinv ops a)) (map (fun x => rmul ops (fst x) (rinv ops (snd x))) (combine qg' pre'))) as [r ->].
      - apply Forall_forall. intros y Y. apply in_map_iff in Y as [x [<- I]]. rewrite (AG x) by now right. symmetry. exact (AG (b, a) (or_introl eq_refl)).
      - eexists. reflexivity. }
    destruct AL as [a AL]. exists a. unfold estimate_sensor_rotation. rewrite RF, RG, SR. cbn zeta. fold ap. rewrite RP, AL. cbn [bind].
    split; [reflexivity|]. destruct (C79_recovered Q ops mean pre qg m0 a CR MC RM NP HM AL) as [EM _]. rewrite <- EM. symmetry. apply (rotation_matrix_euler ops CR).
  Qed.

  Variables (s : align_settings) (ms : matching_settings).
  Let e := al_estimation s.
  Hypothesis US : usable_settings s.
  Hypothesis W : weighted_data e (al_stochastics s).

  (** Everything up to the rotation parameters *)
  Lemma similarity_estimated (from to f g : traj Q) t m sc h : for_similarity e t m sc ->
    is_rot m -> 0 < sc -> not_coplanar (xyz f) -> vx (row3 m) ^ 2 <> 1 ->
    prepared matched s ms from to = Ok (f, g) -> xyz g = map (similar t m sc) (xyz f) ->
    direct_helmert svd ops (xyz f) (xyz g) [] = Ok (Some h) ->
    exists p angles, values p = params_list (mkAlign t angles sc 0 vzero) /\ euler_matrix angles = m /\
      estimate_alignment ops svd solve egrad pinv mean matched s ms from to =
      (let! sensor := estimate_sensor_rotation ops mean e p f g in
       Ok ((name f ++ " to " ++ name g)%string, mkResult p sensor e true)).
  Proof.
    intros FS RM SP NC GL HP HG HH. destruct US as [UM [UT UV]].
    assert (F : fitting e (xyz f) (xyz g) (option_map (map (as_euler ops)) (rot f)) (speed f) (length (xyz f))).
    { split; [reflexivity|]. split; [rewrite HG; apply map_length|]. split; intro X; [rewrite (fs_lever _ _ _ _ FS) in X|rewrite (fs_shift _ _ _ _ FS) in X]; discriminate. }
    destruct (make_total e (al_stochastics s) _ _ _ _ _ F) as [obs [var [EM _]]]. set (d := mkData e obs var (build_res_vector obs)) in *.
    destruct (distinct_points _ NC) as (a & b & A & B & D).
    destruct (thresholds_ok s e (al_stochastics s) (xyz f) (xyz g) _ _ d a b EM A B D UM UT) as [ths [ET UTH]].
    assert (EM' := EM). rewrite HG in EM', HH.
    destruct (C86_similarity Q ops svd solve egrad pinv e (al_stochastics s) ths (xyz f) t m sc _ _ d h CR CV CS CC CE FS W UTH RM SP NC GL HH EM') as (p & runs & angles & ES & VP & EA).
    exists p, angles. split; [exact VP|]. split; [exact EA|].
    unfold estimate_alignment. rewrite HP. cbn [bind fst snd]. unfold observed_data. fold e. rewrite EM. cbn [bind]. rewrite ET. cbn [bind].
    rewrite UV, ES. reflexivity.
  Qed.

  Lemma lever_estimated (from to f g : traj Q) q dt l a b : consistent f ->
    for_lever e dt l (combine (combine (xyz f) (map (as_euler ops) q)) (speed f)) -> rot f = Some q -> In a (xyz f) -> In b (xyz f) -> a <> b ->
    prepared matched s ms from to = Ok (f, g) -> xyz g = levered_traj ops dt l f q ->
    exists p, values p = params_list (mkAlign vzero vzero 1 dt l) /\
      estimate_alignment ops svd solve egrad pinv mean matched s ms from to =
      (let! sensor := estimate_sensor_rotation ops mean e p f g in
       Ok ((name f ++ " to " ++ name g)%string, mkResult p sensor e true)).
  Proof.
    intros CF FL RF A B D HP HG. destruct US as [UM [UT UV]]. destruct CF as (Ht & Hr & Ha & Hs). rewrite RF in Hr.
    set (ps := combine (combine (xyz f) (map (as_euler ops) q)) (speed f)) in *.
    assert (LX : length q = length (xyz f)) by congruence.
    assert (PX : map DirectSpec.pose_at ps = xyz f /\ map pose_rpy ps = map (as_euler ops) q /\ map DirectSpec.pose_speed ps = speed f /\ map (levered dt l) ps = xyz g).
    { rewrite HG. unfold ps, levered_traj. assert (LS : length (speed f) = length (xyz f)) by congruence. clear - LX LS CR. revert q LX LS. generalize (speed f). induction (xyz f) as [|x xs IH]; intros [|v vs] [|r q] L1 L2; try discriminate; [repeat split|].
      cbn [length] in *. destruct (IH vs q ltac:(lia) ltac:(lia)) as [I1 [I2 [I3 I4]]]. cbn [map combine]. repeat split; f_equal; try assumption.
      unfold levered, DirectSpec.pose_at, pose_rpy, DirectSpec.pose_speed. cbn [fst snd]. rewrite (euler_as_euler ops CR). apply V3_eq; munf; ring. }
    destruct PX as [P1 [P2 [P3 P4]]].
    assert (F : fitting e (xyz f) (xyz g) (Some (map (as_euler ops) q)) (speed f) (length (xyz f))).
    { split; [reflexivity|]. split; [rewrite <- P4, map_length, <- P1, map_length; reflexivity|]. split; intros _; [eexists; split; [reflexivity|rewrite map_length; exact LX]|congruence]. }
    destruct (make_total e (al_stochastics s) _ _ _ _ _ F) as [obs [var [EM _]]]. set (d := mkData e obs var (build_res_vector obs)) in *.
    destruct (thresholds_ok s e (al_stochastics s) (xyz f) (xyz g) _ _ d a b EM A B D UM UT) as [ths [ET UTH]].
    assert (EM' := EM). rewrite <- P1, <- P4 in EM'.
    destruct (C87_lever Q ops svd solve egrad pinv e (al_stochastics s) ths ps dt l _ _ d CS CC CE FL W UTH (fun _ => f_equal Some (eq_sym P2)) (fun _ => eq_sym P3) EM') as (p & runs & ES & VP).
    exists p. split; [exact VP|].
    unfold estimate_alignment. rewrite HP. cbn [bind fst snd]. unfold observed_data. fold e. rewrite RF. cbn [option_map]. rewrite EM. cbn [bind]. rewrite ET. cbn [bind].
    rewrite UV, ES. reflexivity.
  Qed.
End Exact.
