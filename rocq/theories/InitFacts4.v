(** Proofs about the initial values: the closed-form estimates succeed. *)
From Verif Require Import Base BaseFacts NumpyModel TrajModel GeomModel GeomSpec GeomFacts LsqModel LsqSpec LsqFacts SolveSpec DirectModel DirectSpec DirectFacts DirectFacts2 DirectFacts3 DirectProps2
  InitFacts2.

Lemma shaped_true m n A : length A = m -> Forall (fun r => length r = n) A -> shaped m n A = true.
Proof.
  intros L F. unfold shaped. rewrite L, Nat.eqb_refl. cbn. apply forallb_forall. intros r Hr. apply Nat.eqb_eq. rewrite Forall_forall in F. auto.
Qed.

Lemma all_zero_repeat (l : list R) : Forall (fun x => x = 0) l -> l = repeat 0 (length l).
Proof. induction 1 as [|x l -> F IH]; [reflexivity|]. cbn. rewrite <- IH. reflexivity. Qed.

(** Least squares with positive weights and independent columns *)
Lemma least_squares_ok solve n A obs w : solve_complete solve -> length A = length obs -> Forall (fun r => length r = n) A ->
  length w = length obs -> Forall (fun x => 0 < x) w ->
  (forall x, length x = n -> Forall (fun y => y = 0) (mv A x) -> Forall (fun y => y = 0) x) ->
  exists x, least_squares solve n A obs (diagonal w) = Ok (x, mv A x, vminus (mv A x) obs).
Proof.
  intros CC LA FA LW PW INJ. unfold least_squares.
  assert (WN : Forall (fun x => 0 <= x) w) by (revert PW; apply Forall_impl; intros; lra).
  destruct (diagonal_weights w WN) as [LD [FD _]].
  assert (E : forall (f : mat -> result (vec * vec * vec)), f (match diagonal w with [] => diagonal (repeat 1 (length obs)) | _ => diagonal w end) = f (diagonal w)).
  { intro f. destruct (diagonal w) as [|r d] eqn:D; [|reflexivity]. cbn in LD. rewrite <- LW, <- LD. reflexivity. }
  cbv zeta. change (exists x, (fun P => if (shaped (length obs) n A && shaped (length obs) (length obs) P)%bool then
      let! x := solve (mm n (mm (length obs) (transpose n A) P) A) (mv (mm (length obs) (transpose n A) P) obs) in Ok (x, mv A x, vminus (mv A x) obs) else Err ValueError)
      (match diagonal w with [] => diagonal (repeat 1 (length obs)) | _ => diagonal w end) = Ok (x, mv A x, vminus (mv A x) obs)).
  rewrite E. cbv beta. clear E.
  rewrite (shaped_true _ _ A LA FA). rewrite LW in LD, FD. rewrite (shaped_true _ _ _ LD FD). cbn [andb].
  set (At := transpose n A) in *. set (AtP := mm (length obs) At (diagonal w)).
  assert (LAt : length At = n) by apply transpose_length.
  assert (FAt : Forall (fun r => length r = length obs) At) by (rewrite <- LA; apply transpose_rows).
  assert (LP : length AtP = n) by (unfold AtP; rewrite mm_length; exact LAt).
  assert (FP : Forall (fun r => length r = length obs) AtP) by apply mm_rows.
  assert (RG : regular n (mm n AtP A)).
  { split; [split; [rewrite mm_length; exact LP | apply mm_rows]|]. intros x LX H.
    rewrite mm_mv in H; [|exact FA|rewrite LA; exact FP|exact LX].
    unfold AtP in H. rewrite mm_mv in H; [|exact FD|rewrite LD; exact FAt|rewrite mv_length; exact LA].
    assert (D : dot x (mv At (mv (diagonal w) (mv A x))) = 0) by (rewrite H; apply dot_zeros_r).
    unfold At in D. rewrite transpose_adjoint in D; [|exact FA|exact LX|rewrite mv_length; lia].
    rewrite <- LX. apply all_zero_repeat. apply INJ; [exact LX|]. apply (positive_zero w); [rewrite mv_length; lia|exact PW|exact D]. }
  destruct (CC n _ (mv AtP obs) RG) as [x ->]; [rewrite mv_length; exact LP|]. cbn [bind]. exists x. reflexivity.
Qed.

Lemma ones_positive m : Forall (fun x => 0 < x) (repeat 1 m).
Proof. apply Forall_forall. intros x X. apply repeat_spec in X. lra. Qed.

Lemma by_axis_zero l : Forall (fun x => x = 0) (by_axis l) -> forall v, In v l -> v = vzero.
Proof.
  unfold by_axis. intros F v I. apply Forall_app in F as [F1 F]. apply Forall_app in F as [F2 F3].
  rewrite Forall_forall in F1, F2, F3. apply V3_eq; [apply F1|apply F2|apply F3]; apply in_map, I.
Qed.
Lemma zero_by_axis l : (forall v, In v l -> v = vzero) -> Forall (fun x => x = 0) (by_axis l).
Proof.
  intro H. unfold by_axis. rewrite !Forall_app. repeat split; apply Forall_forall; intros x X; apply in_map_iff in X as [v [<- I]]; rewrite (H v I); reflexivity.
Qed.

Lemma timeshift_ok solve to from v : solve_contract solve -> solve_complete solve -> length to = length from -> length v = length from ->
  (exists s, In s v /\ s <> vzero) -> exists dt res, direct_timeshift solve to from v (Some []) = Ok (dt, res).
Proof.
  intros CS CC LT LV (s & I & NZ). unfold direct_timeshift. rewrite LT, Nat.eqb_refl. cbn [negb].
  set (A := map (fun x => [x]) (by_axis v)). set (obs := direct_observations to from).
  assert (LO : length obs = (3 * length from)%nat) by (apply observations_length; exact LT).
  assert (LA : length A = length obs) by (unfold A; rewrite map_length, by_axis_length, LO, LV; reflexivity).
  assert (LS : least_squares solve 1 A obs (diagonal []) = least_squares solve 1 A obs (diagonal (repeat 1 (length obs)))).
  { unfold least_squares. change (diagonal []) with (@nil (list R)). destruct (diagonal (repeat 1 (length obs))) eqn:D; [|reflexivity]. reflexivity. }
  rewrite LS. destruct (least_squares_ok solve 1 A obs (repeat 1 (length obs)) CC LA) as [x E].
  - unfold A. apply Forall_forall. intros r Hr. apply in_map_iff in Hr as [y [<- _]]. reflexivity.
  - apply repeat_length.
  - apply ones_positive.
  - intros x LX H. destruct x as [|t [|]]; try discriminate LX. constructor; [|constructor].
    destruct (Req_dec t 0) as [|T]; [assumption|]. exfalso. apply NZ. apply (by_axis_zero v); [|exact I].
    unfold A, mv in H. rewrite map_map in H. rewrite Forall_map in H. revert H. apply Forall_impl. intros y Y. cbn in Y.
    assert (y * t = 0) as Z by lra. apply Rmult_integral in Z as [Z|Z]; [exact Z|contradiction].
  - rewrite E. cbn [bind]. destruct (least_squares_spec _ _ _ _ _ _ _ _ CS E) as [LX _]. destruct x as [|t [|]]; try discriminate LX. eauto.
Qed.

(** Two poses with different speeds in the frame of the platform separate the time shift from the lever arm. *)
Lemma rates_differ A B u v dt l : is_rot A -> is_rot B -> vadd (vscale dt u) (mapply A l) = vzero -> vadd (vscale dt v) (mapply B l) = vzero ->
  mapply (mtrans A) u <> mapply (mtrans B) v -> dt = 0 /\ l = vzero.
Proof.
  assert (K : forall A u, is_rot A -> vadd (vscale dt u) (mapply A l) = vzero -> vadd (vscale dt (mapply (mtrans A) u)) l = vzero).
  { intros M w RM H. assert (O : mmul (mtrans M) M = mident) by (apply is_rot_orth, RM).
    assert (E : mapply (mtrans M) (vadd (vscale dt w) (mapply M l)) = vadd (vscale dt (mapply (mtrans M) w)) l).
    { rewrite mapply_add, <- mapply_mmul, O, mapply_ident. f_equal. clear. destruct M as [[m11 m12 m13] [m21 m22 m23] [m31 m32 m33]], w as [? ? ?]. apply V3_eq; munf; ring. }
    rewrite <- E, H. clear. destruct M as [[m11 m12 m13] [m21 m22 m23] [m31 m32 m33]]. apply V3_eq; munf; ring. }
  intros RA RB HA HB N. apply (K A u RA) in HA. apply (K B v RB) in HB. clear K.
  revert HA HB N. generalize (mapply (mtrans A) u), (mapply (mtrans B) v). intros [x1 x2 x3] [y1 y2 y3]. destruct l as [l1 l2 l3].
  intros HA HB N. injection HA as A1 A2 A3. injection HB as B1 B2 B3. cbn in *.
  assert (D : dt = 0).
  { destruct (Req_dec dt 0) as [|D]; [assumption|]. exfalso. apply N.
    assert (forall x y c, dt * x + c = 0 -> dt * y + c = 0 -> x = y) as S by (intros x y c E1 E2; apply (Rmult_eq_reg_l dt); [lra|exact D]).
    rewrite (S _ _ _ A1 B1), (S _ _ _ A2 B2), (S _ _ _ A3 B3). reflexivity. }
  split; [exact D|]. rewrite D in A1, A2, A3. apply V3_eq; cbn; lra.
Qed.

Lemma leverarm_ok solve to from rpy speed : solve_contract solve -> solve_complete solve -> length to = length from -> length rpy = length from ->
  match speed with
  | None => from <> []
  | Some v => length v = length from /\ exists a b, In a (combine rpy v) /\ In b (combine rpy v) /\
      mapply (mtrans (euler_matrix (fst a))) (snd a) <> mapply (mtrans (euler_matrix (fst b))) (snd b)
  end -> exists l dt res, direct_leverarm solve to from rpy None speed = Ok (l, dt, res).
Proof.
  intros CS CC LT LR H. unfold direct_leverarm. rewrite LT, LR, Nat.eqb_refl. cbn [negb andb].
  set (obs := direct_observations to from). assert (LO : length obs = (3 * length from)%nat) by (apply observations_length; exact LT).
  unfold leverarm_design_matrix. fold (lever_rows rpy). destruct speed as [v|].
  - destruct H as [LV (a & b & IA & IB & N)]. rewrite by_axis_length, lever_rows_length, LV, LR, Nat.eqb_refl. cbn [bind].
    assert (LVR : length v = length rpy) by lia. destruct (timed_rows_shape v rpy LVR) as [F LL].
    set (A := map (fun p => fst p :: snd p) (combine (by_axis v) (lever_rows rpy))) in *.
    destruct (least_squares_ok solve 4 A obs (repeat 1 (3 * length from)) CC) as [x E].
    + lia.
    + exact F.
    + rewrite repeat_length. lia.
    + apply ones_positive.
    + intros x LX Z. destruct x as [|dt [|l1 [|l2 [|l3 [|]]]]]; try discriminate LX.
      assert (M := timed_rows_mv rpy v dt (mkV3 l1 l2 l3) LVR). cbn [vx vy vz] in M. fold A in M. rewrite M in Z.
      assert (K := by_axis_zero _ Z). clear Z M.
      assert (KA := K _ (in_map _ _ _ IA)). assert (KB := K _ (in_map _ _ _ IB)). cbn beta in KA, KB.
      destruct (rates_differ _ _ _ _ _ _ (is_rot_euler (fst a)) (is_rot_euler (fst b)) KA KB N) as [-> L]. injection L as -> -> ->.
      repeat constructor.
    + rewrite E. cbn [bind]. destruct (least_squares_spec _ _ _ _ _ _ _ _ CS E) as [LX _].
      destruct x as [|dt [|l1 [|l2 [|l3 [|]]]]]; try discriminate LX. eauto.
  - cbn [bind]. destruct (least_squares_ok solve 3 (lever_rows rpy) obs (repeat 1 (3 * length from)) CC) as [x E].
    + rewrite lever_rows_length. lia.
    + unfold lever_rows. rewrite !Forall_app. repeat split; apply Forall_forall; intros r Hr; apply in_map_iff in Hr as [y [<- _]]; reflexivity.
    + rewrite repeat_length. lia.
    + apply ones_positive.
    + intros x LX Z. destruct x as [|l1 [|l2 [|l3 [|]]]]; try discriminate LX.
      assert (M := lever_rows_mv rpy (mkV3 l1 l2 l3)). cbn [vx vy vz] in M. rewrite M in Z. assert (K := by_axis_zero _ Z).
      destruct rpy as [|e rpy]; [destruct from; [congruence|discriminate LR]|].
      assert (K0 := K _ (or_introl eq_refl)). cbn beta in K0. apply rotated_zero in K0; [|apply is_rot_euler]. injection K0 as -> -> ->. repeat constructor.
    + rewrite E. cbn [bind]. destruct (least_squares_spec _ _ _ _ _ _ _ _ CS E) as [LX _].
      destruct x as [|l1 [|l2 [|l3 [|]]]]; try discriminate LX. eauto.
Qed.
