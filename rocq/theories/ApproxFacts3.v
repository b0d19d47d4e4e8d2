(** Moving least squares. *)
From Verif Require Import Base BaseFacts VecFacts NumpyModel NumpyFacts TrajModel GeomModel MatchModel MatchSpec MatchFacts MatchFacts2 ApproxModel ApproxSpec ApproxFacts ApproxFacts2.

Section Mls.
  Variable query : list V3 -> option R -> nat -> V3 -> list (option (nat * R)).
  Variable eigh : M3 -> V3.
  Hypothesis knn : knn_contract vdist query.

  Definition picked (vs : voxel_dict) (n : option (nat * R)) : result (list V3) :=
    match n with Some (j, _) => np_get (map snd vs) (Z.of_nat j) | None => Err IndexError end.
  Definition centres (vs : voxel_dict) : list V3 := map (fun v : string * list V3 => vmean (snd v)) vs.
  Definition content (vs : voxel_dict) (j : nat) : list V3 := match nth_error vs j with Some v => snd v | None => [] end.

  Lemma neighbour_points_unfold vs k p : (k =? 1)%nat = false ->
    neighbour_points query vs (centres vs) k p = (let! sets := mapM (picked vs) (query (centres vs) None k p) in Ok (concat sets)).
  Proof. intro K. unfold neighbour_points. rewrite K. reflexivity. Qed.

  Lemma row_some vs k p j d : In (Some (j, d)) (query (centres vs) None k p) ->
    exists v, nth_error vs j = Some v /\ d = vdist (vmean (snd v)) p.
  Proof.
    intro H. destruct (knn_sound _ _ knn (centres vs) None k p j d I H) as [r [E [D _]]]. unfold centres in E.
    rewrite nth_error_map' in E. destruct (nth_error vs j) as [v|]; [|discriminate]. exists v. split; [reflexivity|]. cbn in E. congruence.
  Qed.

  Lemma picked_some vs j d v : nth_error vs j = Some v -> picked vs (Some (j, d)) = Ok (snd v).
  Proof. intro H. cbn. apply np_get_nat. rewrite nth_error_map', H. reflexivity. Qed.

  Lemma picked_rows vs rows : (forall j d, In (j, d) rows -> exists v, nth_error vs j = Some v) ->
    mapM (picked vs) (map Some rows) = Ok (map (content vs) (map fst rows)).
  Proof.
    induction rows as [|[j d] rows IH]; intro H; [reflexivity|]. cbn [map mapM fst].
    destruct (H j d (or_introl eq_refl)) as [v E]. rewrite (picked_some _ _ _ _ E), IH by (intros; eapply H; right; eassumption).
    unfold content at 2. rewrite E. reflexivity.
  Qed.
  Lemma picked_missing vs rows : In None rows -> (forall j d, In (Some (j, d)) rows -> exists v, nth_error vs j = Some v) ->
    mapM (picked vs) rows = Err IndexError.
  Proof.
    induction rows as [|[[j d]|] rows IH]; intros N H; [destruct N| |reflexivity].
    cbn [mapM]. destruct (H j d (or_introl eq_refl)) as [v E]. rewrite (picked_some _ _ _ _ E).
    rewrite IH; [reflexivity| |intros; eapply H; right; eassumption]. destruct N as [N|N]; [discriminate|exact N].
  Qed.

  Lemma nearest_enough vs k p : (k <> 1)%nat -> (k <= length vs)%nat ->
    exists nb, neighbour_points query vs (centres vs) k p = Ok nb /\ nearest_voxels vs k p nb.
  Proof.
    intros K L. destruct (no_limit_complete query (centres vs) k p knn) as [row E]; [unfold centres; rewrite map_length; exact L|].
    assert (forall j d, In (j, d) row -> exists v, nth_error vs j = Some v /\ d = vdist (vmean (snd v)) p) as S.
    { intros j d Hj. apply (row_some vs k p j d). rewrite E. apply in_map, Hj. }
    exists (concat (map (content vs) (map fst row))). split.
    - rewrite neighbour_points_unfold by (apply Nat.eqb_neq; exact K). rewrite E, picked_rows; [reflexivity|].
      intros j d Hj. destruct (S j d Hj) as [v [V _]]. exists v. exact V.
    - exists (map fst row). assert (length row = k) as LR.
      { rewrite <- (knn_length _ _ knn (centres vs) None k p I), E, map_length. reflexivity. }
      split; [rewrite map_length; exact LR|]. split; [|split; [reflexivity|split]].
      + apply NoDup_nth_error. intros a b Ha Hab. rewrite !nth_error_map' in Hab. rewrite map_length in Ha.
        apply nth_error_lt_Some in Ha as [[i d] Ha]. rewrite Ha in Hab. cbn in Hab.
        destruct (nth_error row b) as [[j e]|] eqn:Hb; [|discriminate]. cbn in Hab. injection Hab as <-.
        apply (knn_distinct _ _ knn (centres vs) None k p a b i d e I); rewrite E, nth_error_map'; [rewrite Ha | rewrite Hb]; reflexivity.
      + intros j Hj. apply in_map_iff in Hj as [[j' d] [<- Hj]]. destruct (S _ _ Hj) as [v [V _]]. exists v. exact V.
      + intros j i v w Hj Ni Ev Ew. apply in_map_iff in Hj as [[j' d] [Q Hj]]. cbn in Q. subst j'.
        destruct (S _ _ Hj) as [v' [V D]]. rewrite Ev in V. injection V as <-. rewrite <- D.
        destruct (knn_nearest _ _ knn (centres vs) None k p i (vmean (snd w)) I) with (row := Some (j, d)) as [j2 [d2 [E2 LE]]].
        * unfold centres. rewrite nth_error_map', Ew. reflexivity.
        * exact I.
        * intros d' Hd. apply Ni. rewrite E in Hd. apply in_map_iff in Hd as [[a b] [Q2 Hd]]. injection Q2 as -> ->.
          apply (in_map fst) in Hd. exact Hd.
        * rewrite E. apply in_map, Hj.
        * injection E2 as <- <-. exact LE.
  Qed.

  Lemma none_dec (rows : list (option (nat * R))) : {In None rows} + {~ In None rows}.
  Proof.
    induction rows as [|[x|] rows IH]; [right; intros []| |left; left; reflexivity].
    destruct IH as [Y|Y]; [left; right; exact Y|right]. intros [E|E]; [discriminate|contradiction].
  Qed.

  Lemma nearest_few vs k p : (k <> 1)%nat -> (length vs < k)%nat -> neighbour_points query vs (centres vs) k p = Err IndexError.
  Proof.
    intros K L. rewrite neighbour_points_unfold by (apply Nat.eqb_neq; exact K).
    rewrite picked_missing; [reflexivity| |intros j d Hj; destruct (row_some _ _ _ _ _ Hj) as [v [V _]]; exists v; exact V].
    destruct (none_dec (query (centres vs) None k p)) as [Y|Y]; [exact Y|]. exfalso.
    apply (few_incomplete query (centres vs) None k p knn I); [unfold centres; rewrite map_length; exact L|].
    exact (rows_all_some _ Y).
  Qed.

  Definition smoother (vs : voxel_dict) (k : nat) := smooth_point query eigh vs (centres vs) k.

  Lemma smooth_ok vs k p : (k <> 1)%nat -> (k <= length vs)%nat ->
    exists q nb, smoother vs k p = Ok q /\ neighbour_points query vs (centres vs) k p = Ok nb /\ nearest_voxels vs k p nb /\ smoothed eigh nb p q.
  Proof.
    intros K L. destruct (nearest_enough vs k p K L) as [nb [E N]]. unfold smoother, smooth_point. rewrite E. cbn [bind].
    eexists. exists nb. split; [reflexivity|]. split; [reflexivity|]. split; [exact N|]. unfold smoothed.
    destruct (Nat.ltb_spec 1 (length nb)); [right|left]; split; try reflexivity; lia.
  Qed.

  Lemma mapM_smooth vs k pts : (k <> 1)%nat -> (k <= length vs)%nat -> exists out, mapM (smoother vs k) pts = Ok out /\
    Forall2 (fun p q => exists nb, nearest_voxels vs k p nb /\ smoothed eigh nb p q) pts out.
  Proof.
    intros K L. induction pts as [|p pts [out [E F]]]; [exists []; split; [reflexivity|constructor]|].
    destruct (smooth_ok vs k p K L) as [q [nb [Q [_ [N S]]]]]. exists (q :: out). split.
    - cbn [mapM]. rewrite Q, E. reflexivity.
    - constructor; [exists nb; split; assumption|exact F].
  Qed.

  Lemma movement_average pts out :
    np_sum (map (fun pq : V3 * V3 => vnorm (vsub (fst pq) (snd pq))) (combine pts out)) / INR (length pts) = average_distance pts out.
  Proof. reflexivity. Qed.

  Lemma single_ok pts size vs k : create_voxels pts size = Ok vs -> (2 <= k <= length vs)%nat ->
    exists out, mls_single query eigh pts size k = Ok (out, average_distance pts out) /\ smoothing_step eigh size k pts out.
  Proof.
    intros V K. destruct (mapM_smooth vs k pts) as [out [E F]]; [lia|lia|]. exists out. unfold mls_single. rewrite V. cbn [bind].
    change (smooth_point query eigh vs (map (fun v : string * list V3 => vmean (snd v)) vs) k) with (smoother vs k). rewrite E. split; [reflexivity|].
    exists vs. split; [exact V|exact F].
  Qed.

  Lemma voxels_nonempty pts size vs : create_voxels pts size = Ok vs -> pts <> [].
  Proof. intros V ->. discriminate. Qed.

  Lemma single_few pts size vs k : create_voxels pts size = Ok vs -> (2 <= k)%nat -> (length vs < k)%nat ->
    mls_single query eigh pts size k = Err IndexError.
  Proof.
    intros V K L. pose proof (voxels_nonempty _ _ _ V) as N. unfold mls_single. rewrite V. cbn [bind].
    destruct pts as [|p pts]; [congruence|]. cbn [mapM]. unfold smooth_point at 1.
    change (map (fun v : string * list V3 => vmean (snd v)) vs) with (centres vs). rewrite nearest_few by lia. reflexivity.
  Qed.

  Lemma single_one pts size vs : create_voxels pts size = Ok vs -> mls_single query eigh pts size 1 = Err TypeError.
  Proof.
    intros V. pose proof (voxels_nonempty _ _ _ V) as N. unfold mls_single. rewrite V. cbn [bind].
    destruct pts as [|p pts]; [congruence|]. reflexivity.
  Qed.

  Lemma single_sound pts size k out m : (2 <= k)%nat -> mls_single query eigh pts size k = Ok (out, m) ->
    smoothing_step eigh size k pts out /\ m = average_distance pts out.
  Proof.
    intros K H. destruct (create_voxels pts size) as [vs|e] eqn:V; [|unfold mls_single in H; rewrite V in H; discriminate].
    destruct (le_lt_dec k (length vs)) as [L|L].
    - destruct (single_ok pts size vs k V) as [out' [E S]]; [lia|]. rewrite E in H. injection H as <- <-. split; [exact S|reflexivity].
    - rewrite (single_few _ _ _ _ V K L) in H. discriminate.
  Qed.

  Lemma loop_sound n pts size k th out : (2 <= k)%nat -> mls_loop query eigh (S n) pts size k th = Ok out ->
    exists m, (1 <= m <= S n)%nat /\ smoothing_run (smoothing_step eigh size k) th m pts out /\
      (m = S n \/ exists before, smoothing_step eigh size k before out /\ average_distance before out <= th).
  Proof.
    intro K. revert pts. induction n as [|n IH]; intros pts H; cbn [mls_loop] in H.
    - apply bind_ok in H as [[q mv] [E H]]. apply single_sound in E as [S ->]; [|exact K].
      exists 1%nat. split; [lia|]. assert (q = out) as -> by (destruct (Rltb th (average_distance pts q)); congruence).
      split; [apply run_one, S|left; reflexivity].
    - apply bind_ok in H as [[q mv] [E H]]. apply single_sound in E as [S ->]; [|exact K].
      unfold Rltb in H. destruct (Rlt_dec th (average_distance pts q)) as [T|T].
      + change (mls_loop query eigh (Datatypes.S n) q size k th = Ok out) in H.
        destruct (IH q H) as [m [L [RN D]]]. exists (Datatypes.S m). split; [lia|]. split.
        * apply run_more with q; assumption.
        * destruct D as [->|D]; [left; reflexivity|right; exact D].
      + injection H as <-. exists 1%nat. split; [lia|]. split; [apply run_one, S|]. right. exists pts. split; [exact S|lra].
  Qed.

  Lemma step_length size k pts out : smoothing_step eigh size k pts out -> length out = length pts.
  Proof. intros [vs [_ F]]. symmetry. revert F. clear. induction 1; cbn; congruence. Qed.
  Lemma run_length size k th m pts out : smoothing_run (smoothing_step eigh size k) th m pts out -> length out = length pts.
  Proof. induction 1 as [pts out S|m pts mid out S T RN IH]; [apply (step_length _ _ _ _ S)|]. rewrite IH. apply (step_length _ _ _ _ S). Qed.

  (** *** Points on a line *)

  Lemma squared_zero l qs : length l = length qs -> squared_distances (combine l qs) <= 0 -> l = qs.
  Proof.
    unfold squared_distances. revert qs. induction l as [|p l IH]; intros [|q qs] L H; try discriminate; [reflexivity|].
    cbn [combine map] in H. rewrite np_sum_cons in H. cbn [fst snd] in H.
    assert (forall l qs, 0 <= np_sum (map (fun pq : V3 * V3 => vdist (fst pq) (snd pq) * vdist (fst pq) (snd pq)) (combine l qs))) as NN.
    { clear. induction l as [|a l IH]; intros [|b qs]; try (cbn; lra). cbn [combine map]. rewrite np_sum_cons. cbn [fst snd].
      pose proof (Rle_0_sqr (vdist a b)). unfold Rsqr in *. specialize (IH qs). lra. }
    pose proof (Rle_0_sqr (vdist p q)) as SQ. unfold Rsqr in SQ. pose proof (NN l qs).
    assert (vdist p q * vdist p q = 0) as Z by lra. rewrite sq_vdist in Z.
    assert (p = q) as ->.
    { destruct p as [a b c], q as [a' b' c']. unfold vdot, vsub in Z. cbn in Z.
      pose proof (Rle_0_sqr (a - a')). pose proof (Rle_0_sqr (b - b')). pose proof (Rle_0_sqr (c - c')). unfold Rsqr in *.
      assert ((a - a') * (a - a') = 0 /\ (b - b') * (b - b') = 0 /\ (c - c') * (c - c') = 0) as [Z1 [Z2 Z3]] by (split; [lra|split; lra]).
      apply Rmult_integral in Z1. apply Rmult_integral in Z2. apply Rmult_integral in Z3.
      f_equal; [destruct Z1|destruct Z2|destruct Z3]; lra. }
    f_equal. apply IH; [cbn in L; lia|lra].
  Qed.

  Lemma line_contains l nb p : vdot (l_dir l) (l_dir l) = 1 -> Forall (on_line l) nb -> on_line l p ->
    (exists a b, In a nb /\ In b nb /\ a <> b) -> top_direction (covariance nb) (eigh (covariance nb)) ->
    evaluate_at (from_points eigh nb) p = p.
  Proof.
    intros U F P [a [b [Ia [Ib NE]]]] T.
    assert ((2 <= length nb)%nat) as L2.
    { destruct nb as [|x [|y nb]]; cbn; [destruct Ia| |lia]. destruct Ia as [<-|[]]. destruct Ib as [<-|[]]. congruence. }
    pose proof (fitted_line_best eigh nb l nb L2 T U eq_refl F) as B.
    assert (squared_distances (combine nb nb) = 0) as Z.
    { unfold squared_distances. clear. induction nb as [|x nb IH]; [reflexivity|]. cbn [combine map]. rewrite np_sum_cons, IH. cbn [fst snd].
      rewrite sq_vdist. destruct x. unfold vdot, vsub. cbn. ring. }
    rewrite Z in B. apply squared_zero in B; [|rewrite map_length; reflexivity].
    set (f := from_points eigh nb) in *.
    assert (forall x, In x nb -> on_line f x) as ON.
    { intros x Hx. assert (evaluate_at f x = x) as E.
      { assert (forall l', l' = map (evaluate_at f) l' -> forall x, In x l' -> evaluate_at f x = x) as G.
        { clear. induction l' as [|y l' IH]; intros E x Hx; [destruct Hx|]. cbn in E. injection E as E1 E2.
          destruct Hx as [<-|Hx]; [congruence|apply IH; assumption]. }
        apply (G nb B x Hx). }
      rewrite <- E, evaluate_at_eq. eexists. reflexivity. }
    assert (vdot (l_dir f) (l_dir f) = 1) as UF by apply T.
    apply (projection f p UF).
    destruct (ON a Ia) as [s Ea]. destruct (ON b Ib) as [t Eb].
    rewrite Forall_forall in F. destruct (F a Ia) as [s' Ea']. destruct (F b Ib) as [t' Eb']. destruct P as [r Ep].
    assert (s' <> t') as ST by (intros ->; apply NE; congruence).
    exists (s + (r - s') * ((s - t) / (s' - t'))). rewrite Ep.
    destruct (l_mean f) as [m1 m2 m3], (l_dir f) as [f1 f2 f3], (l_mean l) as [n1 n2 n3], (l_dir l) as [u1 u2 u3], a as [a1 a2 a3], b as [b1 b2 b3].
    unfold vadd, vscale in *. cbn in *. injection Ea as A1 A2 A3. injection Eb as B1 B2 B3. injection Ea' as A1' A2' A3'. injection Eb' as B1' B2' B3'.
    assert (forall m f n u x y, x = m + s * f -> y = m + t * f -> x = n + s' * u -> y = n + t' * u ->
      n + r * u = m + (s + (r - s') * ((s - t) / (s' - t'))) * f) as G.
    { clear - ST. intros m f n u x y X Y X' Y'.
      assert ((s' - t') * u = (s - t) * f) as Q by lra.
      assert (u = (s - t) / (s' - t') * f) as QU.
      { apply Rmult_eq_reg_l with (s' - t'); [|lra]. rewrite Q. field. lra. }
      replace (n + r * u) with (x + (r - s') * u) by (rewrite X'; ring). rewrite X, QU at 1. ring. }
    f_equal; [eapply (G m1 f1 n1 u1)|eapply (G m2 f2 n2 u2)|eapply (G m3 f3 n3 u3)]; eassumption.
  Qed.

  Lemma nearest_two pts size vs k p nb : create_voxels pts size = Ok vs -> (2 <= k)%nat -> nearest_voxels vs k p nb ->
    (exists a b, In a nb /\ In b nb /\ a <> b) /\ (forall x, In x nb -> In x pts).
  Proof.
    intros V K [js [L [ND [-> [EX _]]]]]. destruct (voxel_member pts size vs V) as [lo [_ [_ [_ [_ [CT _]]]]]]. split.
    - destruct js as [|i [|j js]]; [cbn in L; lia|cbn in L; lia|].
      destruct (EX i (or_introl eq_refl)) as [v Ev]. destruct (EX j (or_intror (or_introl eq_refl))) as [w Ew].
      assert (i <> j) as NE by (inversion ND as [|? ? NI _]; subst; intros ->; apply NI; left; reflexivity).
      destruct v as [a ps], w as [b qs]. destruct (CT a ps (nth_error_In _ _ Ev)) as [Np _]. destruct (CT b qs (nth_error_In _ _ Ew)) as [Nq _].
      destruct ps as [|x ps]; [congruence|]. destruct qs as [|y qs]; [congruence|]. exists x, y. cbn [map concat].
      rewrite Ev, Ew. cbn [snd]. split; [left; reflexivity|]. split.
      + right. apply in_app_iff. right. left. reflexivity.
      + intros ->. apply NE. apply (voxels_disjoint pts size vs i j _ _ y V Ev Ew); left; reflexivity.
    - intros x Hx. apply in_concat in Hx as [ps [Hp Hx]]. apply in_map_iff in Hp as [j [<- Hj]]. destruct (EX j Hj) as [[a qs] E].
      rewrite E in Hx. destruct (CT a qs (nth_error_In _ _ E)) as [_ SUB]. apply SUB, Hx.
  Qed.

  Hypothesis top : forall l, (2 <= length l)%nat -> top_direction (covariance l) (eigh (covariance l)).

  Lemma straight_single l pts size vs k : create_voxels pts size = Ok vs -> (2 <= k <= length vs)%nat ->
    vdot (l_dir l) (l_dir l) = 1 -> Forall (on_line l) pts -> mls_single query eigh pts size k = Ok (pts, 0).
  Proof.
    intros V K U F. destruct (single_ok pts size vs k V K) as [out [E [vs' [V' ST]]]]. rewrite V in V'. injection V' as <-.
    assert (out = pts) as ->.
    { assert (forall sub, (forall x, In x sub -> In x pts) -> forall o, Forall2 (fun p q => exists nb, nearest_voxels vs k p nb /\ smoothed eigh nb p q) sub o -> o = sub) as G.
      { induction sub as [|p sub IH]; intros SUB o FO; inversion FO as [|? q ? o' [nb [NV SM]] FO']; subst; [reflexivity|].
        f_equal; [|apply IH; [intros; apply SUB; right; assumption|exact FO']].
        destruct (nearest_two pts size vs k p nb V ltac:(lia) NV) as [TWO SUBN]. destruct SM as [[_ Q]|[L2 ->]]; [exact Q|].
        apply (line_contains l nb p U); [|rewrite Forall_forall in F; apply F, SUB; left; reflexivity|exact TWO|apply top, L2].
        apply Forall_forall. intros x Hx. rewrite Forall_forall in F. apply F, SUBN, Hx. }
      apply (G pts); [auto|exact ST]. }
    rewrite E. do 2 f_equal. unfold average_distance.
    replace (np_sum (map (fun pq : V3 * V3 => vdist (fst pq) (snd pq)) (combine pts pts))) with 0; [unfold Rdiv; ring|].
    clear. induction pts as [|p pts IH]; [reflexivity|]. cbn [combine map]. rewrite np_sum_cons, <- IH. cbn [fst snd].
    replace (vdist p p) with 0; [ring|]. symmetry. unfold vdist, vnorm. replace (vdot (vsub p p) (vsub p p)) with 0; [apply sqrt_0|].
    destruct p. unfold vdot, vsub. cbn. ring.
  Qed.

  Lemma straight_all l pts size vs k th : create_voxels pts size = Ok vs -> (2 <= k <= length vs)%nat -> 0 <= th ->
    vdot (l_dir l) (l_dir l) = 1 -> Forall (on_line l) pts -> mls_iterative query eigh pts size k th = Ok pts.
  Proof.
    intros V K T U F. unfold mls_iterative. cbn [mls_loop]. rewrite (straight_single l pts size vs k V K U F). cbn [bind].
    unfold Rltb. destruct (Rlt_dec th 0); [lra|]. reflexivity.
  Qed.
End Mls.
