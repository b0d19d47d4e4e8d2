(** Proofs about the initial values: the settings for which the equations determine the parameters. *)
From Coq Require Import Ranalysis1.
From Verif Require Import Base BaseFacts NumpyModel TrajModel ParamModel ParamFacts DataModel GeomModel GeomSpec GeomFacts DirectSpec DirectFacts DirectFacts2
  JacModel JacSpec JacFacts JacFacts2 GhmSpec GhmFacts GhmFacts2 GhmFacts3 InitFacts InitFacts2.

(** How the misclosure of an epoch changes with all parameters *)
Definition combined (p : align_params) (o : epoch) (dp : list R) : V3 :=
  let at_ j := nth j dp 0 in
  let m := euler_matrix (sim_rot p) in
  vadd (mkV3 (at_ 0%nat) (at_ 1%nat) (at_ 2%nat))
       (vadd (vadd (vscale (sim_scale p) (mapply m (vcross (turning (sim_rot p) (at_ 3%nat) (at_ 4%nat) (at_ 5%nat)) (sensed p o)))) (vscale (at_ 6%nat) (mapply m (sensed p o))))
             (vscale (sim_scale p) (mapply m (vadd (vscale (at_ 7%nat) (e_speed o)) (mapply (euler_matrix (e_rpy o)) (mkV3 (at_ 8%nat) (at_ 9%nat) (at_ 10%nat))))))).

Lemma combined_sum p o dp a : (a < 3)%nat -> component a (combined p o dp) = sum_to 11 (fun j => component a (slope p o j) * nth j dp 0).
Proof.
  intro Ha. unfold combined. rewrite <- turned. cbn [sum_to]. unfold slope. set (y := sensed p o).
  destruct p as [tr rot s dt l]. cbn [sim_rot sim_scale].
  generalize (dRx rot), (dRy rot), (dRz rot), (euler_matrix rot), (euler_matrix (e_rpy o)), (e_speed o).
  intros [[a11 a12 a13] [a21 a22 a23] [a31 a32 a33]] [[b11 b12 b13] [b21 b22 b23] [b31 b32 b33]] [[c11 c12 c13] [c21 c22 c23] [c31 c32 c33]]
    [[m11 m12 m13] [m21 m22 m23] [m31 m32 m33]] [[n11 n12 n13] [n21 n22 n23] [n31 n32 n33]] [v1 v2 v3].
  destruct y as [y1 y2 y3].
  generalize (nth 0 dp 0), (nth 1 dp 0), (nth 2 dp 0), (nth 3 dp 0), (nth 4 dp 0), (nth 5 dp 0), (nth 6 dp 0), (nth 7 dp 0), (nth 8 dp 0), (nth 9 dp 0), (nth 10 dp 0).
  intros d0 d1 d2 d3 d4 d5 d6 d7 d8 d9 d10.
  destruct a as [|[|[|a]]]; [| | |lia]; cbv [component vadd vscale mapply vdot row1 row2 row3 vx vy vz col1 col2 col3]; ring.
Qed.

Lemma component_zero v : (forall a, (a < 3)%nat -> component a v = 0) -> v = vzero.
Proof. intro H. apply V3_eq; [apply (H 0%nat) | apply (H 1%nat) | apply (H 2%nat)]; lia. Qed.

Section Determined.
  Variables (s : pset) (d : adata) (n : nat) (vec : list R) (Jp : nat -> nat -> R).
  Hypothesis RD : ready s d n.
  Hypothesis JP : jacobian (fun q => misclosures (a_est d) (params_of q) n vec) (values s) (3 * n) Jp.
  Let p := params_of (values s).
  Let e := a_est d.

  Lemma values_eleven : length (values s) = 11%nat.
  Proof. rewrite values_all, map_length. apply RD. Qed.

  Lemma combined_zero dp : length dp = 11%nat -> (forall r, (r < 3 * n)%nat -> sum_to (length dp) (fun j => Jp r j * nth j dp 0) = 0) ->
    forall i, (i < n)%nat -> combined p (observed_epoch e vec i) dp = vzero.
  Proof.
    intros L H i Hi. apply component_zero. intros a Ha. rewrite combined_sum by exact Ha. assert (Hr := H (3 * i + a)%nat ltac:(lia)). rewrite L in Hr.
    etransitivity; [|exact Hr]. apply sum_to_ext. intros j Hj. f_equal. symmetry. exact (jacobian_slope e n vec (values s) Jp i a j values_eleven JP Hi Ha Hj).
  Qed.

  Lemma disabled_zero dp j : allowed s dp -> nth j (lq_parameter_filter e) false = false -> nth j dp 0 = 0.
  Proof.
    intros [L A] H. destruct RD as [R1 R2 _ _]. destruct (nth_error (ps_params s) j) as [q|] eqn:E.
    - apply (A j q E). unfold e in H. rewrite <- R2 in H. unfold enabled_bool_list in H. 
      rewrite (nth_indep _ false (p_enabled q)) in H; [rewrite (map_nth p_enabled) in H; rewrite <- H; f_equal; symmetry; apply nth_error_nth, E|].
      rewrite map_length. apply nth_error_Some. congruence.
    - apply nth_overflow. apply nth_error_None in E. lia.
  Qed.

  Lemma eleven_zero dp : length dp = 11%nat -> (forall j, (j < 11)%nat -> nth j dp 0 = 0) -> dp = repeat 0 (length dp).
  Proof. intros L H. apply list_zeros. intros r Hr. apply H. lia. Qed.

  (** Similarity only *)
  Lemma helmert_determined : leverarm_enabled e = false -> time_shift_enabled e = false -> time_shift p = 0 -> lever p = vzero ->
    sim_scale p <> 0 -> cos (vy (sim_rot p)) <> 0 -> not_collinear (map (fun i => e_from (observed_epoch e vec i)) (seq 0 n)) -> determined s n Jp.
  Proof.
    intros NL NT ZT ZL S C NC dp AL H. assert (L : length dp = 11%nat) by (destruct AL as [-> _]; apply RD).
    assert (K := combined_zero dp L H).
    assert (F : lq_parameter_filter e = helmert_filter e ++ [false] ++ [false; false; false]).
    { unfold lq_parameter_filter, leverarm_filter. rewrite NL, NT. reflexivity. }
    assert (LH : length (helmert_filter e) = 7%nat) by (unfold helmert_filter; destruct (helmert_enabled e); reflexivity).
    assert (Z : forall j, (7 <= j < 11)%nat -> nth j dp 0 = 0).
    { intros j Hj. apply disabled_zero; [exact AL|]. rewrite F, app_nth2 by lia. rewrite LH.
      assert (j = 7 \/ j = 8 \/ j = 9 \/ j = 10)%nat as [->|[->|[->| ->]]] by lia; reflexivity. }
    destruct (similarity_determined (sim_rot p) (sim_scale p) (nth 0 dp 0) (nth 1 dp 0) (nth 2 dp 0) (nth 3 dp 0) (nth 4 dp 0) (nth 5 dp 0) (nth 6 dp 0) _ C S NC)
      as [Z0 [Z1 [Z2 [Z3 [Z4 [Z5 Z6]]]]]].
    - intros y Hy. apply in_map_iff in Hy as [i [<- Hi]]. apply in_seq in Hi. assert (Ki := K i ltac:(lia)). unfold combined in Ki.
      rewrite (Z 7%nat), (Z 8%nat), (Z 9%nat), (Z 10%nat) in Ki by lia. unfold sensed in Ki. rewrite ZT, ZL in Ki.
      assert (E1 : forall A v, vadd (mapply A vzero) (vscale 0 v) = vzero) by (intros [[m11 m12 m13] [m21 m22 m23] [m31 m32 m33]] [? ? ?]; apply V3_eq; munf; ring).
      assert (E2 : forall A v, vadd (vscale 0 v) (mapply A (mkV3 0 0 0)) = vzero) by (intros [[m11 m12 m13] [m21 m22 m23] [m31 m32 m33]] [? ? ?]; apply V3_eq; munf; ring).
      rewrite E1 in Ki. rewrite E2 in Ki.
      assert (E3 : forall x, vadd x vzero = x) by (intros [? ? ?]; apply V3_eq; munf; ring).
      assert (E4 : forall A c, vscale c (mapply A vzero) = vzero) by (intros [[m11 m12 m13] [m21 m22 m23] [m31 m32 m33]] c; apply V3_eq; munf; ring).
      rewrite E4 in Ki. rewrite !E3 in Ki. exact Ki.
    - apply eleven_zero; [exact L|]. intros j Hj. destruct (Nat.lt_ge_cases j 7) as [Lt|Ge]; [|apply Z; lia].
      do 7 (destruct j as [|j]; [assumption|]). lia.
  Qed.

  (** Lever arm and time shift without a similarity *)
  Definition body_rate (o : epoch) : V3 := mapply (mtrans (euler_matrix (e_rpy o))) (e_speed o).
  Lemma lever_determined : helmert_enabled e = false -> sim_scale p <> 0 ->
    (leverarm_enabled e = false -> exists i, (i < n)%nat /\ e_speed (observed_epoch e vec i) <> vzero) ->
    (leverarm_enabled e = true -> time_shift_enabled e = false -> (0 < n)%nat) ->
    (leverarm_enabled e = true -> time_shift_enabled e = true ->
      exists i j, (i < n)%nat /\ (j < n)%nat /\ body_rate (observed_epoch e vec i) <> body_rate (observed_epoch e vec j)) -> determined s n Jp.
  Proof.
    intros NH S HT HL HB dp AL H. assert (L : length dp = 11%nat) by (destruct AL as [-> _]; apply RD).
    assert (K := combined_zero dp L H).
    assert (F : lq_parameter_filter e = repeat false 7 ++ [time_shift_enabled e] ++ leverarm_filter e).
    { unfold lq_parameter_filter, helmert_filter. rewrite NH. reflexivity. }
    assert (Z : forall j, (j < 7)%nat -> nth j dp 0 = 0).
    { intros j Hj. apply disabled_zero; [exact AL|]. rewrite F, app_nth1 by (rewrite repeat_length; exact Hj).
      do 7 (destruct j as [|j]; [reflexivity|]). lia. }
    set (dt := nth 7 dp 0) in *. set (l := mkV3 (nth 8 dp 0) (nth 9 dp 0) (nth 10 dp 0)) in *.
    assert (KI : forall i, (i < n)%nat -> vadd (vscale dt (e_speed (observed_epoch e vec i))) (mapply (euler_matrix (e_rpy (observed_epoch e vec i))) l) = vzero).
    { intros i Hi. apply (rotated_zero (euler_matrix (sim_rot p)) _ (is_rot_euler _)). assert (Ki := K i Hi). unfold combined in Ki. rewrite (Z 0%nat), (Z 1%nat), (Z 2%nat), (Z 3%nat), (Z 4%nat), (Z 5%nat), (Z 6%nat) in Ki by lia.
      fold dt in Ki. fold l in Ki.
      assert (T0 : turning (sim_rot p) 0 0 0 = vzero) by (unfold turning; apply V3_eq; munf; ring). rewrite T0 in Ki.
      set (u := mapply (euler_matrix (sim_rot p)) (vadd (vscale dt _) _)) in *. set (m := euler_matrix (sim_rot p)) in *. set (y := sensed p _) in *.
      apply (scaled_only (sim_scale p) u vzero S). rewrite <- Ki. clear. destruct m as [[m11 m12 m13] [m21 m22 m23] [m31 m32 m33]], y as [? ? ?], u as [? ? ?]. apply V3_eq; munf; ring. }
    assert (ZD : leverarm_enabled e = false -> dt = 0 /\ l = vzero).
    { intro NL. destruct (HT NL) as [i [Hi NV]]. assert (l = vzero) as El.
      { unfold l. assert (W : forall j, (8 <= j < 11)%nat -> nth j dp 0 = 0).
        { intros j Hj. apply disabled_zero; [exact AL|]. rewrite F. unfold leverarm_filter. rewrite NL.
          assert (j = 8 \/ j = 9 \/ j = 10)%nat as [->|[->| ->]] by lia; reflexivity. }
        rewrite (W 8%nat), (W 9%nat), (W 10%nat) by lia. reflexivity. }
      split; [|exact El]. assert (Ki := KI i Hi). rewrite El in Ki. destruct (Req_dec dt 0) as [|D]; [assumption|]. exfalso. apply NV.
      apply (scaled_only dt _ vzero D). rewrite <- Ki. clear. generalize (euler_matrix (e_rpy (observed_epoch e vec i))), (e_speed (observed_epoch e vec i)).
      intros [[m11 m12 m13] [m21 m22 m23] [m31 m32 m33]] [? ? ?]. apply V3_eq; munf; ring. }
    assert (Both : forall i, (i < n)%nat -> vadd (vscale dt (body_rate (observed_epoch e vec i))) l = vzero).
    { intros i Hi. assert (Ki := KI i Hi). unfold body_rate. set (v := e_speed _) in *. set (A := euler_matrix _) in *.
      assert (O : mmul (mtrans A) A = mident) by (apply is_rot_orth, is_rot_euler).
      assert (E : mapply (mtrans A) (vadd (vscale dt v) (mapply A l)) = vadd (vscale dt (mapply (mtrans A) v)) l).
      { rewrite mapply_add, <- mapply_mmul, O, mapply_ident. f_equal. clear. destruct A as [[m11 m12 m13] [m21 m22 m23] [m31 m32 m33]], v as [? ? ?]. apply V3_eq; munf; ring. }
      rewrite <- E, Ki. clear. destruct A as [[m11 m12 m13] [m21 m22 m23] [m31 m32 m33]]. apply V3_eq; munf; ring. }
    assert (LZ : forall x, vadd (vscale 0 x) l = vzero -> l = vzero).
    { intros [? ? ?] E. rewrite <- E. clear. destruct l as [? ? ?]. apply V3_eq; munf; ring. }
    assert (ZZ : dt = 0 /\ l = vzero).
    { destruct (leverarm_enabled e) eqn:NL; [|apply ZD; reflexivity]. destruct (time_shift_enabled e) eqn:NT.
      - destruct (HB eq_refl eq_refl) as [i [j [Hi [Hj N]]]]. assert (Bi := Both i Hi). assert (Bj := Both j Hj).
        assert (D : dt = 0).
        { destruct (Req_dec dt 0) as [|D]; [assumption|]. exfalso. apply N.
          assert (E : vscale dt (body_rate (observed_epoch e vec i)) = vscale dt (body_rate (observed_epoch e vec j))).
          { revert Bi Bj. generalize (vscale dt (body_rate (observed_epoch e vec i))), (vscale dt (body_rate (observed_epoch e vec j))).
            intros [x1 x2 x3] [y1 y2 y3]. destruct l as [l1 l2 l3]. intros B1 B2. injection B1 as ? ? ?. injection B2 as ? ? ?. cbn in *. apply V3_eq; cbn; lra. }
          revert E. generalize (body_rate (observed_epoch e vec i)), (body_rate (observed_epoch e vec j)). intros [x1 x2 x3] [y1 y2 y3] E.
          injection E as E1 E2 E3. apply Rmult_eq_reg_l in E1; [|exact D]. apply Rmult_eq_reg_l in E2; [|exact D]. apply Rmult_eq_reg_l in E3; [|exact D]. subst. reflexivity. }
        split; [exact D|]. rewrite D in Bi. exact (LZ _ Bi).
      - assert (D : dt = 0) by (apply disabled_zero; [exact AL|]; rewrite F; reflexivity).
        split; [exact D|]. assert (B0 := Both 0%nat (HL eq_refl eq_refl)). rewrite D in B0. exact (LZ _ B0). }
    destruct ZZ as [Zd Zl]. injection Zl as Z8 Z9 Z10. apply eleven_zero; [exact L|]. intros j Hj.
    destruct (Nat.lt_ge_cases j 7) as [Lt|Ge]; [apply Z; exact Lt|]. assert (j = 7 \/ j = 8 \/ j = 9 \/ j = 10)%nat as [->|[->|[->| ->]]] by lia; assumption.
  Qed.
End Determined.
