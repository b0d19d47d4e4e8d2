(** Properties C77-C79: closed-form lever arm, time shift and sensor rotation. *)
From Verif Require Import Base BaseFacts VecFacts NumpyModel TrajModel GeomModel GeomSpec GeomFacts GeomFacts2 LsqModel LsqSpec LsqFacts LsqProps DirectModel DirectSpec DirectFacts DirectFacts2 DirectFacts3 DirectProps.

Lemma axis_weights_list n weights wx wy wz : axis_weights n weights wx wy wz ->
  match weights with None => repeat 1 (3 * n) | Some w => w end = wx ++ wy ++ wz.
Proof.
  intros (A & B & C & W). destruct weights as [w|]; [exact W|]. destruct W as (-> & -> & ->).
  replace (3 * n)%nat with (n + (n + n))%nat by lia. rewrite !repeat_app. reflexivity.
Qed.
Lemma forall_axis (P : R -> Prop) wx wy wz : Forall P wx -> Forall P wy -> Forall P wz -> Forall P (wx ++ wy ++ wz).
Proof. intros. rewrite !Forall_app. tauto. Qed.
Lemma observations_length to from : length to = length from -> length (direct_observations to from) = (3 * length from)%nat.
Proof. intro L. unfold direct_observations. rewrite by_axis_length, map_length, combine_length, L, Nat.min_id. reflexivity. Qed.
Lemma lever_misfit to from rpy v dt l : length to = length from -> length rpy = length from -> length v = length from ->
  vminus (by_axis (map (fun p => vadd (vscale dt (snd p)) (mapply (euler_matrix (fst p)) l)) (combine rpy v))) (direct_observations to from)
  = by_axis (lever_rests dt l to from rpy v).
Proof.
  intros A B C. unfold direct_observations. rewrite vminus_axis; [|rewrite !map_length, !combine_length; lia]. rewrite rests_form by assumption. reflexivity.
Qed.
Lemma still_rows rpy n l : length rpy = n ->
  map (fun e => mapply (euler_matrix e) l) rpy = map (fun p => vadd (vscale 0 (snd p)) (mapply (euler_matrix (fst p)) l)) (combine rpy (repeat vzero n)).
Proof.
  revert n. induction rpy as [|e rpy IH]; intros [|n] L; cbn [map combine repeat length fst snd] in *; try lia; [reflexivity|]. apply cons_eq; [|apply IH; lia].
  destruct (mapply (euler_matrix e) l). v3; ring.
Qed.

(** The estimate leaves the smallest weighted sum of squares of predicted minus observed differences, and these are the
    residuals it returns (all x, all y, all z).  Without speeds the time shift is 0 and only lever arms are compared. *)
Theorem C77_leverarm : forall solve to from rpy weights speed wx wy wz l dt res,
  solve_contract solve -> axis_weights (length from) weights wx wy wz ->
  Forall (fun c => 0 <= c) wx -> Forall (fun c => 0 <= c) wy -> Forall (fun c => 0 <= c) wz ->
  direct_leverarm solve to from rpy weights speed = Ok (l, dt, res) ->
  let v := used_speed (length from) speed in
  let rest := lever_rests dt l to from rpy v in
  length rest = length from /\ res = map vx rest ++ map vy rest ++ map vz rest /\ (speed = None -> dt = 0) /\
  forall dt' l', (speed = None -> dt' = 0) ->
    axis_error wx wy wz rest <= axis_error wx wy wz (lever_rests dt' l' to from rpy v).
Proof.
  intros solve to from rpy weights speed wx wy wz l dt res SC AW FX FY FZ H v rest. unfold direct_leverarm in H.
  destruct ((length to =? length from) && (length from =? length rpy))%nat eqn:E; [|discriminate]. cbn [negb] in H.
  apply andb_true_iff in E as [LT LR]. apply Nat.eqb_eq in LT, LR. rewrite LT in H.
  rewrite (axis_weights_list _ _ _ _ _ AW) in H. pose proof (forall_axis _ _ _ _ FX FY FZ) as FW. set (w := wx ++ wy ++ wz) in *.
  destruct AW as (LX & LY & LZ & _).
  assert (length w = (3 * length from)%nat) as LW by (unfold w; rewrite !app_length; lia).
  pose proof (observations_length to from LT) as LO.
  apply bind_ok in H as [A [DA H]]. apply bind_ok in H as [[[x lo] rs] [LS H]].
  apply weighted_ls in LS; [|assumption..|congruence]. destruct LS as (LEN & RS & _ & OPT).
  assert (length v = length from) as LV.
  { unfold v. destruct speed as [s|]; [|apply repeat_length]. cbn [used_speed]. unfold leverarm_design_matrix in DA. fold (lever_rows rpy) in DA.
    destruct (length (by_axis s) =? length (lever_rows rpy))%nat eqn:E; [|discriminate]. apply Nat.eqb_eq in E. rewrite by_axis_length, lever_rows_length in E. lia. }
  assert (forall dt' l', (speed = None -> dt' = 0) -> mv A (match speed with Some _ => [dt'; vx l'; vy l'; vz l'] | None => [vx l'; vy l'; vz l'] end)
    = by_axis (map (fun p => vadd (vscale dt' (snd p)) (mapply (euler_matrix (fst p)) l')) (combine rpy v))) as MV.
  { intros dt' l' Z. unfold leverarm_design_matrix in DA. fold (lever_rows rpy) in DA. destruct speed as [s|].
    - destruct (length (by_axis s) =? length (lever_rows rpy))%nat; [|discriminate]. injection DA as <-. apply timed_rows_mv. congruence.
    - injection DA as <-. rewrite (Z eq_refl), lever_rows_mv. f_equal. apply still_rows. lia. }
  assert (x = (match speed with Some _ => [dt; vx l; vy l; vz l] | None => [vx l; vy l; vz l] end) /\ rs = res /\ (speed = None -> dt = 0)) as (EX & <- & EZ).
  { destruct speed as [s|].
    - destruct x as [|x0 [|x1 [|x2 [|x3 [|]]]]]; try discriminate. injection H as <- <- <-. cbn. repeat split. discriminate.
    - destruct x as [|x0 [|x1 [|x2 [|]]]]; try discriminate. injection H as <- <- <-. cbn. repeat split. }
  assert (forall dt' l', (speed = None -> dt' = 0) -> length (lever_rests dt' l' to from rpy v) = length from) as LRS by (intros; apply rests_length; lia).
  split; [apply LRS, EZ|]. rewrite EX in RS, OPT. rewrite MV, lever_misfit in RS, OPT by (try assumption; congruence). fold rest in RS, OPT.
  split; [exact RS|]. split; [exact EZ|]. intros dt' l' Z. rewrite !axis_error_sum by (rewrite ?LRS by assumption; try (unfold rest; rewrite LRS by assumption); congruence).
  specialize (OPT (match speed with Some _ => [dt'; vx l'; vy l'; vz l'] | None => [vx l'; vy l'; vz l'] end)).
  rewrite MV, lever_misfit in OPT by (try assumption; congruence). apply OPT. destruct speed; reflexivity.
Qed.
Print Assumptions C77_leverarm.

Lemma rests_exact dt l dt0 l0 (poses : list pose) :
  lever_rests dt l (map (levered dt0 l0) poses) (map pose_at poses) (map pose_rpy poses) (map pose_speed poses)
  = map (fun s => vsub (vadd (vscale dt (pose_speed s)) (mapply (euler_matrix (pose_rpy s)) l))
                       (vadd (vscale dt0 (pose_speed s)) (mapply (euler_matrix (pose_rpy s)) l0))) poses.
Proof.
  induction poses as [|[[p e] v] poses IH]; [reflexivity|]. cbn [map lever_rests]. rewrite IH. f_equal. unfold lever_rest, levered, pose_at, pose_rpy, pose_speed. cbn [fst snd].
  destruct (mapply (euler_matrix e) l), (mapply (euler_matrix e) l0). v3; ring.
Qed.
Lemma vsub_zero a b : vsub a b = vzero -> a = b.
Proof. destruct a, b. unfold vsub, vzero. cbn. intro H. injection H as A B C. f_equal; lra. Qed.
Lemma zeros_weighted w u : Forall (fun x => x = 0) u -> weighted_sum w u = 0.
Proof. intro F. revert w. induction F as [|x u X F IH]; intros [|y w]; cbn; try reflexivity. rewrite IH, X. ring. Qed.
Lemma axis_zero wx wy wz d : Forall (fun x => x = vzero) d -> axis_error wx wy wz d = 0.
Proof.
  intro F. unfold axis_error. rewrite !zeros_weighted; [ring|..]; apply Forall_map; eapply Forall_impl; try exact F; cbn; intros a ->; reflexivity.
Qed.
Lemma axis_zero_inv wx wy wz d : length wx = length d -> length wy = length d -> length wz = length d ->
  Forall (fun c => 0 < c) wx -> Forall (fun c => 0 < c) wy -> Forall (fun c => 0 < c) wz -> axis_error wx wy wz d <= 0 -> Forall (fun x => x = vzero) d.
Proof.
  intros A B C FX FY FZ Z. unfold axis_error in Z.
  assert (forall w, Forall (fun c => 0 < c) w -> Forall (fun c => 0 <= c) w) as N by (intros w F; eapply Forall_impl; [|exact F]; cbn; intros; lra).
  pose proof (weighted_sum_nonneg wx (map vx d) (N _ FX)). pose proof (weighted_sum_nonneg wy (map vy d) (N _ FY)). pose proof (weighted_sum_nonneg wz (map vz d) (N _ FZ)).
  assert (Forall (fun x => x = 0) (map vx d)) as X by (apply (weighted_sum_zero wx); [rewrite map_length|..]; [assumption..|lra]).
  assert (Forall (fun x => x = 0) (map vy d)) as Y by (apply (weighted_sum_zero wy); [rewrite map_length|..]; [assumption..|lra]).
  assert (Forall (fun x => x = 0) (map vz d)) as Z' by (apply (weighted_sum_zero wz); [rewrite map_length|..]; [assumption..|lra]).
  rewrite Forall_map, Forall_forall in X, Y, Z'. apply Forall_forall. intros a I. specialize (X a I). specialize (Y a I). specialize (Z' a I). destruct a. cbn in *. subst. reflexivity.
Qed.
Lemma euler_inj e a b : mapply (euler_matrix e) a = mapply (euler_matrix e) b -> a = b.
Proof.
  intro H. pose proof (is_rot_left _ (is_rot_euler e)) as L. rewrite <- (mapply_ident a), <- (mapply_ident b), <- L, !mapply_mmul, H. reflexivity.
Qed.

(** Exact data: if the targets are the poses moved by a lever arm and a time shift, the residuals vanish; the lever arm is
    found without speeds, and both are found if two poses have different speeds in the frame of the platform. *)
Theorem C77_recovered : forall solve (poses : list pose) weights timed wx wy wz l0 dt0 l dt res,
  solve_contract solve -> axis_weights (length poses) weights wx wy wz ->
  Forall (fun c => 0 < c) wx -> Forall (fun c => 0 < c) wy -> Forall (fun c => 0 < c) wz ->
  (timed = false -> dt0 = 0) ->
  direct_leverarm solve (map (levered dt0 l0) poses) (map pose_at poses) (map pose_rpy poses) weights (if timed then Some (map pose_speed poses) else None) = Ok (l, dt, res) ->
  (forall s, In s poses -> levered dt l s = levered dt0 l0 s) /\ Forall (fun x => x = 0) res /\
  (timed = false -> poses <> [] -> dt = 0 /\ l = l0) /\
  ((exists a b, In a poses /\ In b poses /\ body_speed a <> body_speed b) -> timed = true -> dt = dt0 /\ l = l0).
Proof.
  intros solve poses weights timed wx wy wz l0 dt0 l dt res SC AW FX FY FZ Z H.
  assert (forall w, Forall (fun c => 0 < c) w -> Forall (fun c => 0 <= c) w) as N by (intros w F; eapply Forall_impl; [|exact F]; cbn; intros; lra).
  pose proof AW as (LX & LY & LZ & _).
  assert (length (map pose_at poses) = length poses) as LP by apply map_length.
  rewrite <- LP in AW. destruct (C77_leverarm _ _ _ _ _ _ _ _ _ _ _ _ SC AW (N _ FX) (N _ FY) (N _ FZ) H) as (LR & RES & DT & OPT). rewrite LP in LR.
  assert (forall d m, (timed = false -> d = 0) ->
    lever_rests d m (map (levered dt0 l0) poses) (map pose_at poses) (map pose_rpy poses) (used_speed (length (map pose_at poses)) (if timed then Some (map pose_speed poses) else None))
    = map (fun s => vsub (vadd (vscale d (pose_speed s)) (mapply (euler_matrix (pose_rpy s)) m)) (vadd (vscale dt0 (pose_speed s)) (mapply (euler_matrix (pose_rpy s)) l0))) poses) as RF.
  { intros d m ZD. destruct timed; [apply rests_exact|]. cbn [used_speed]. rewrite (ZD eq_refl), (Z eq_refl). clear. induction poses as [|[[p e] v] poses IH]; [reflexivity|].
    cbn [map lever_rests repeat length]. rewrite IH. f_equal. unfold lever_rest, levered, pose_at, pose_rpy, pose_speed. cbn [fst snd].
    destruct (mapply (euler_matrix e) m), (mapply (euler_matrix e) l0). v3; ring. }
  assert (timed = false -> dt = 0) as DT' by (intros ->; apply DT; reflexivity).
  specialize (OPT dt0 l0). rewrite (axis_zero _ _ _ (lever_rests dt0 l0 _ _ _ _)) in OPT.
  2:{ rewrite RF by exact Z. apply Forall_map, Forall_forall. intros s I. destruct (vadd _ _). v3; ring. }
  assert ((if timed then Some (map pose_speed poses) else None) = None -> dt0 = 0) as Z2 by (destruct timed; [discriminate|exact (fun _ => Z eq_refl)]).
  specialize (OPT Z2). rewrite RF in * by exact DT'.
  apply axis_zero_inv in OPT; [|rewrite map_length; assumption..|assumption|assumption|assumption].
  assert (forall s, In s poses -> vadd (vscale dt (pose_speed s)) (mapply (euler_matrix (pose_rpy s)) l) = vadd (vscale dt0 (pose_speed s)) (mapply (euler_matrix (pose_rpy s)) l0)) as ALL.
  { intros s I. rewrite Forall_map, Forall_forall in OPT. apply vsub_zero. exact (OPT s I). }
  split; [intros s I; unfold levered; rewrite (ALL s I); reflexivity|]. split.
  { rewrite RES, !Forall_app. repeat split; apply Forall_map; eapply Forall_impl; try exact OPT; cbn; intros a ->; reflexivity. }
  split.
  - intros T NE. split; [exact (DT' T)|]. destruct poses as [|s poses]; [congruence|]. specialize (ALL s (or_introl eq_refl)). rewrite (DT' T), (Z T) in ALL.
    apply (euler_inj (pose_rpy s)). revert ALL. generalize (mapply (euler_matrix (pose_rpy s)) l), (mapply (euler_matrix (pose_rpy s)) l0), (pose_speed s). intros [] [] []. unfold vadd, vscale. cbn. intro E. injection E as A B C. f_equal; lra.
  - intros (a & b & IA & IB & NB) T.
    assert (forall s, In s poses -> vsub l0 l = vscale (dt - dt0) (body_speed s)) as BODY.
    { intros s I. apply (euler_inj (pose_rpy s)). unfold body_speed. rewrite mapply_scale, <- mapply_mmul, (is_rot_right _ (is_rot_euler _)), mapply_ident, mapply_sub.
      specialize (ALL s I). revert ALL. generalize (mapply (euler_matrix (pose_rpy s)) l), (mapply (euler_matrix (pose_rpy s)) l0), (pose_speed s). intros [] [] []. unfold vadd, vscale, vsub. cbn. intro E. injection E as A B C. f_equal; lra. }
    destruct (Req_dec (dt - dt0) 0) as [E|E].
    + specialize (BODY a IA). rewrite E in BODY. split; [lra|]. destruct l, l0, (body_speed a). unfold vsub, vscale in BODY. cbn in BODY. injection BODY as A B C. f_equal; lra.
    + exfalso. apply NB. pose proof (BODY a IA) as A. rewrite (BODY b IB) in A. destruct (body_speed a), (body_speed b). unfold vscale in A. cbn in A. injection A as A B C.
      f_equal; apply (Rmult_eq_reg_l (dt - dt0)); auto.
Qed.
Print Assumptions C77_recovered.

(** Arrays of different lengths are refused. *)
Theorem C77_refused : forall solve to from rpy weights speed,
  length to <> length from \/ length rpy <> length from \/ (exists v, speed = Some v /\ length v <> length from) \/
    (exists w, weights = Some w /\ w <> [] /\ length w <> (3 * length from)%nat) ->
  direct_leverarm solve to from rpy weights speed = Err ValueError.
Proof.
  intros solve to from rpy weights speed H. unfold direct_leverarm. destruct ((length to =? length from) && (length from =? length rpy))%nat eqn:E; [|reflexivity]. cbn [negb].
  apply andb_true_iff in E as [LT LR]. apply Nat.eqb_eq in LT, LR. unfold leverarm_design_matrix. fold (lever_rows rpy).
  destruct H as [H|[H|[(v & -> & H)|(w & -> & N & H)]]]; [congruence..| |].
  - destruct (length (by_axis v) =? length (lever_rows rpy))%nat eqn:E; [|reflexivity]. apply Nat.eqb_eq in E. rewrite by_axis_length, lever_rows_length in E. lia.
  - assert (forall n A, least_squares solve n A (direct_observations to from) (diagonal w) = Err ValueError) as LS.
    { intros n A. unfold least_squares. assert (length (diagonal w) = length w) as LD by (unfold diagonal; rewrite map_length; apply enumerate_length). destruct (diagonal w) as [|r d] eqn:D; [destruct w; [congruence|discriminate]|].
      assert (shaped (length (direct_observations to from)) (length (direct_observations to from)) (r :: d) = false) as ->; [|rewrite andb_false_r; reflexivity].
      unfold shaped. rewrite LD, observations_length by exact LT. rewrite (proj2 (Nat.eqb_neq _ _) H). reflexivity. }
    destruct speed as [v|]; [destruct (length (by_axis v) =? length (lever_rows rpy))%nat; [|reflexivity]|]; cbn [bind]; rewrite LS; reflexivity.
Qed.
Print Assumptions C77_refused.

(** A solver that knows one vector, and returns it for the systems it solves; it meets the contract. *)
Definition solve_guess (x0 : vec) (N : mat) (b : vec) : result vec :=
  if list_eq_dec Req_EM_T (mv N x0) b then if (length x0 =? length b)%nat then Ok x0 else Err ValueError else Err ValueError.
Lemma solve_guess_contract x0 : solve_contract (solve_guess x0).
Proof.
  intros N b x H. unfold solve_guess in H. destruct (list_eq_dec _ _ _) as [E|]; [|discriminate]. destruct (length x0 =? length b)%nat eqn:L; [|discriminate].
  injection H as <-. apply Nat.eqb_eq in L. split; assumption.
Qed.
Lemma guess_exact n A x0 w : Forall (fun c => 0 <= c) w -> length A = length w -> w <> [] -> Forall (fun r => length r = n) A -> length x0 = n ->
  least_squares (solve_guess x0) n A (mv A x0) (diagonal w) = Ok (x0, mv A x0, vminus (mv A x0) (mv A x0)).
Proof.
  intros FW LA NE FA LX. destruct (diagonal_weights w FW) as (LD & FD & _). unfold least_squares. rewrite mv_length.
  assert (match diagonal w with [] => diagonal (repeat 1 (length A)) | _ => diagonal w end = diagonal w) as ->.
  { destruct (diagonal w); [|reflexivity]. destruct w; [congruence|discriminate]. }
  assert (forall m k (M : mat), length M = m -> Forall (fun r => length r = k) M -> shaped m k M = true) as SH.
  { intros m k M L F. unfold shaped. rewrite (proj2 (Nat.eqb_eq _ _) L). apply forallb_forall. intros r I. rewrite Forall_forall in F. apply Nat.eqb_eq. exact (F r I). }
  rewrite (SH _ _ A eq_refl FA). rewrite LA, (SH _ _ _ LD FD). cbn [andb].
  set (AtP := mm (length w) (transpose n A) (diagonal w)). unfold solve_guess.
  assert (length AtP = n) as L1 by (unfold AtP; rewrite mm_length; apply transpose_length).
  destruct (list_eq_dec _ _ _) as [E|E].
  - rewrite mv_length, L1, LX, Nat.eqb_refl. reflexivity.
  - exfalso. apply E. apply mm_mv; [exact FA| |exact LX]. rewrite LA. apply mm_rows.
Qed.
Lemma obs_by_axis dt l poses : direct_observations (map (levered dt l) poses) (map pose_at poses)
  = by_axis (map (fun p => vadd (vscale dt (snd p)) (mapply (euler_matrix (fst p)) l)) (combine (map pose_rpy poses) (map pose_speed poses))).
Proof.
  unfold direct_observations. f_equal. induction poses as [|[[p e] v] poses IH]; [reflexivity|]. cbn [map combine fst snd]. apply cons_eq; [|exact IH].
  unfold levered, pose_at, pose_rpy, pose_speed. cbn [fst snd]. destruct (mapply (euler_matrix e) l). v3; ring.
Qed.
Lemma timed_rows_shape v rpy : length v = length rpy -> Forall (fun r => length r = 4%nat) (map (fun p => fst p :: snd p) (combine (by_axis v) (lever_rows rpy)))
  /\ length (map (fun p => fst p :: snd p) (combine (by_axis v) (lever_rows rpy))) = (3 * length rpy)%nat.
Proof.
  intro L. split.
  - apply Forall_map, Forall_forall. intros [x r] I. apply in_combine_r in I. unfold lever_rows in I. rewrite !in_app_iff, !in_map_iff in I. cbn.
    destruct I as [(e & <- & _)|[(e & <- & _)|(e & <- & _)]]; reflexivity.
  - rewrite map_length, combine_length, by_axis_length, lever_rows_length, L, Nat.min_id. reflexivity.
Qed.

(** Every exact data set is solved by some solver that meets the contract: the theorems speak about all of them. *)
Theorem C77_reachable : forall (poses : list pose) l0 dt0, poses <> [] -> exists solve res, solve_contract solve /\
  direct_leverarm solve (map (levered dt0 l0) poses) (map pose_at poses) (map pose_rpy poses) None (Some (map pose_speed poses)) = Ok (l0, dt0, res).
Proof.
  intros poses l0 dt0 NE. exists (solve_guess [dt0; vx l0; vy l0; vz l0]). eexists. split; [apply solve_guess_contract|].
  unfold direct_leverarm. rewrite !map_length, !Nat.eqb_refl. cbn [negb andb]. unfold leverarm_design_matrix. fold (lever_rows (map pose_rpy poses)).
  rewrite by_axis_length, lever_rows_length, !map_length, Nat.eqb_refl. cbn [bind].
  assert (length (map pose_speed poses) = length (map pose_rpy poses)) as L by (rewrite !map_length; reflexivity).
  destruct (timed_rows_shape _ _ L) as [F LL]. rewrite (map_length pose_rpy) in LL.
  rewrite obs_by_axis, <- timed_rows_mv by exact L. rewrite guess_exact.
  - cbn [bind]. destruct l0. reflexivity.
  - apply Forall_forall. intros x I. apply repeat_spec in I. lra.
  - rewrite LL, repeat_length. reflexivity.
  - destruct poses; [congruence|]. discriminate.
  - exact F.
  - reflexivity.
Qed.
Print Assumptions C77_reachable.

Example C77_case : exists solve res,
  direct_leverarm solve [mkV3 2 2 3; mkV3 1 3 3] [mkV3 0 0 0; mkV3 0 0 0] [vzero; vzero] None (Some [mkV3 1 0 0; mkV3 0 1 0]) = Ok (mkV3 1 2 3, 1, res) /\ solve_contract solve.
Proof.
  set (poses := [(mkV3 0 0 0, vzero, mkV3 1 0 0); (mkV3 0 0 0, vzero, mkV3 0 1 0)] : list pose).
  destruct (C77_reachable poses (mkV3 1 2 3) 1 ltac:(discriminate)) as (solve & res & SC & E). exists solve, res. split; [|exact SC].
  rewrite <- E. unfold poses. cbn [map]. unfold levered, pose_at, pose_rpy, pose_speed. cbn [fst snd]. rewrite euler_zero, !mapply_ident.
  f_equal. apply cons_eq; [v3; ring|]. apply cons_eq; [v3; ring|reflexivity].
Qed.
