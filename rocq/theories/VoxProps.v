(** Property C128: searching in voxels. *)
From Verif Require Import Base BaseFacts VecFacts NumpyModel NumpyFacts GeomModel GeomFacts EvalModel EvalSpec EvalStats MatchModel MatchFacts2 ApproxModel ApproxSpec ApproxFacts2 ApproxFacts8 ApproxProps VoxModel VoxSpec.

(** A search that looks at every point meets the contract. *)
Definition every_point (pts : list V3) (r : R) (p : V3) : list nat :=
  map fst (filter (fun ip => Rleb (vdist (snd ip) p) r) (enumerate pts)).

Lemma every_point_contract : ball_contract every_point.
Proof.
  intros pts r p. unfold every_point. split.
  - assert (N : NoDup (map fst (enumerate pts))).
    { rewrite enumerate_map_fst. apply seq_NoDup. }
    induction (enumerate pts) as [|e l IH]; [constructor|]. cbn in N |- *. inversion N as [|a b N1 N2]; subst.
    destruct (Rleb (vdist (snd e) p) r); [|apply IH, N2]. cbn. constructor; [|apply IH, N2].
    intro I. apply N1. apply in_map_iff in I as [f [E I]]. apply filter_In in I as [I _]. apply in_map_iff. exists f. split; assumption.
  - intro j. rewrite in_map_iff. split.
    + intros [[i q] [E I]]. cbn in E. subst i. apply filter_In in I as [I L]. exists q. split; [apply In_enumerate, I|apply Rleb_true, L].
    + intros [q [N L]]. exists (j, q). split; [reflexivity|]. apply filter_In. split; [apply In_enumerate, N|apply Rleb_true, L].
Qed.

Lemma voxel_points_ok vs id ps : NoDup (map fst vs) -> In (id, ps) vs -> voxel_points vs id = Ok ps.
Proof.
  induction vs as [|[k qs] vs IH]; [intros _ []|]. intros N [E|I]; cbn in *.
  - injection E as -> ->. rewrite String.eqb_refl. reflexivity.
  - inversion N as [|x l N1 N2]; subst. destruct (String.eqb k id) eqn:Q; [|apply IH; assumption].
    apply String.eqb_eq in Q. subst. exfalso. apply N1. apply in_map_iff. exists (id, ps). split; [reflexivity|exact I].
Qed.

Lemma sum_vx l : vx (vsum l) = np_sum (map vx l).
Proof. induction l as [|x l IH]; [reflexivity|]. cbn [map]. rewrite vsum_cons, np_sum_cons, <- IH. reflexivity. Qed.
Lemma sum_vy l : vy (vsum l) = np_sum (map vy l).
Proof. induction l as [|x l IH]; [reflexivity|]. cbn [map]. rewrite vsum_cons, np_sum_cons, <- IH. reflexivity. Qed.
Lemma sum_vz l : vz (vsum l) = np_sum (map vz l).
Proof. induction l as [|x l IH]; [reflexivity|]. cbn [map]. rewrite vsum_cons, np_sum_cons, <- IH. reflexivity. Qed.

Lemma total_vx l : vx (vsum l) = total vx l.
Proof. exact (sum_vx l). Qed.
Lemma total_vy l : vy (vsum l) = total vy l.
Proof. exact (sum_vy l). Qed.
Lemma total_vz l : vz (vsum l) = total vz l.
Proof. exact (sum_vz l). Qed.

Lemma vmean_is_mean ps : ps <> [] -> is_mean ps (vmean ps).
Proof.
  intro N. assert (P := len_pos ps N). split; [exact N|]. rewrite <- total_vx, <- total_vy, <- total_vz. unfold vmean. cbn.
  repeat split; field; lra.
Qed.

Lemma is_mean_unique ps m : is_mean ps m -> m = vmean ps.
Proof.
  intros [N [A [B C]]]. destruct (vmean_is_mean ps N) as [_ [A' [B' C']]]. assert (P := len_pos ps N).
  destruct m as [a b c], (vmean ps) as [a' b' c']. cbn in *.
  f_equal; apply (Rmult_eq_reg_l (INR (length ps))); lra.
Qed.

Lemma coordinate_bound (f : V3 -> R) (ps : list V3) (m x s : R) : ps <> [] -> (forall y, In y ps -> Rabs (f y - x) <= s) -> m = / INR (length ps) * np_sum (map f ps) -> Rabs (m - x) <= s.
Proof.
  intros N H M.
  destruct (mean_bound (map f ps) (x - s) (x + s) m) as [A B].
  - apply map_nonempty, N.
  - intros y Hy. apply in_map_iff in Hy as [z [<- Hz]]. specialize (H z Hz). revert H. unfold Rabs. destruct (Rcase_abs _); lra.
  - rewrite np_mean_some by (apply map_nonempty, N). rewrite map_length. f_equal. rewrite M. unfold Rdiv. ring.
  - apply Rabs_le. lra.
Qed.

Lemma mean_near ps x s : 0 <= s -> ps <> [] -> (forall y, In y ps -> Rabs (vx y - vx x) <= s /\ Rabs (vy y - vy x) <= s /\ Rabs (vz y - vz x) <= s) -> vdist (vmean ps) x <= sqrt 3 * s.
Proof.
  intros P N H.
  assert (A : Rabs (vx (vmean ps) - vx x) <= s) by (apply (coordinate_bound vx ps); [exact N|intros; apply H; assumption|]; unfold vmean; cbn; rewrite sum_vx; reflexivity).
  assert (B : Rabs (vy (vmean ps) - vy x) <= s) by (apply (coordinate_bound vy ps); [exact N|intros; apply H; assumption|]; unfold vmean; cbn; rewrite sum_vy; reflexivity).
  assert (C : Rabs (vz (vmean ps) - vz x) <= s) by (apply (coordinate_bound vz ps); [exact N|intros; apply H; assumption|]; unfold vmean; cbn; rewrite sum_vz; reflexivity).
  unfold vdist, vnorm. rewrite <- (sqrt_square s P) at 1. rewrite <- sqrt_mult by nra. apply sqrt_le_1_alt.
  rewrite <- (Rabs_pos_eq s P) in A, B, C. apply Rsqr_le_abs_1 in A, B, C. unfold Rsqr in A, B, C. unfold vdot, vsub. cbn [vx vy vz]. lra.
Qed.

Lemma NoDup_app' {A} (l m : list A) : NoDup l -> NoDup m -> (forall x, In x l -> In x m -> False) -> NoDup (l ++ m).
Proof.
  induction l as [|a l IH]; cbn; [auto|]. intros N M D. inversion N as [|b k N1 N2]; subst. constructor.
  - rewrite in_app_iff. intros [I|I]; [contradiction|]. apply (D a); [left; reflexivity|exact I].
  - apply IH; [assumption|assumption|]. intros x I J. apply (D x); [right; exact I|exact J].
Qed.

(** Positions picked out of a list, and the others *)
Lemma pick_rest n js : NoDup js -> (forall j, In j js -> (j < n)%nat) -> exists ks, Permutation (js ++ ks) (seq 0 n).
Proof.
  intros N B. exists (filter (fun j => if in_dec Nat.eq_dec j js then false else true) (seq 0 n)).
  apply NoDup_Permutation.
  - apply NoDup_app'; [exact N|apply NoDup_filter, seq_NoDup|]. intros x I J. apply filter_In in J as [_ J].
    destruct (in_dec Nat.eq_dec x js); [discriminate|contradiction].
  - apply seq_NoDup.
  - intro x. rewrite in_app_iff, filter_In. split.
    + intros [I|[I _]]; [|exact I]. apply in_seq. specialize (B x I). lia.
    + intro I. destruct (in_dec Nat.eq_dec x js); [left; assumption|right; split; [exact I|reflexivity]].
Qed.

Section Search.
  Variable ball : list V3 -> R -> V3 -> list nat.
  Hypothesis HB : ball_contract ball.

  Definition voxel_at (vs : voxel_dict) (j : nat) : string * list V3 := nth j vs (EmptyString, []).

  Lemma ball_bound vs r p j : In j (ball (mean_points vs) r p) -> (j < length vs)%nat.
  Proof.
    intro I. apply (proj2 (HB _ r p)) in I as [q [E _]]. rewrite <- (map_length (fun v => vmean (snd v))).
    apply nth_error_Some. unfold mean_points in E. rewrite E. discriminate.
  Qed.

  Lemma names_ok vs r p : mapM (index_to_id vs) (ball (mean_points vs) r p) = Ok (map (fun j => fst (voxel_at vs j)) (ball (mean_points vs) r p)).
  Proof.
    apply mapM_ok_map. intros j I. apply ball_bound in I. unfold index_to_id. apply np_get_nat.
    rewrite nth_error_map', (nth_error_nth' vs (EmptyString, []) I). reflexivity.
  Qed.

  Lemma points_ok vs r p : NoDup (map fst vs) ->
    points_from_voxel_set vs (map (fun j => fst (voxel_at vs j)) (ball (mean_points vs) r p)) = Ok (flat_map (fun j => snd (voxel_at vs j)) (ball (mean_points vs) r p)).
  Proof.
    intro N. unfold points_from_voxel_set.
    assert (E : mapM (voxel_points vs) (map (fun j => fst (voxel_at vs j)) (ball (mean_points vs) r p)) = Ok (map (fun j => snd (voxel_at vs j)) (ball (mean_points vs) r p))).
    { assert (B := ball_bound vs r p). induction (ball (mean_points vs) r p) as [|j js IH]; [reflexivity|]. cbn.
      rewrite (voxel_points_ok vs _ (snd (voxel_at vs j)) N); [rewrite IH; [reflexivity|intros; apply B; right; assumption]|].
      rewrite <- surjective_pairing. apply nth_In, B. left. reflexivity. }
    rewrite E. cbn. rewrite flat_map_concat_map. reflexivity.
  Qed.

  Lemma picked_part vs r p : exists rest, Permutation (flat_map (fun j => snd (voxel_at vs j)) (ball (mean_points vs) r p) ++ rest) (concat (map snd vs)).
  Proof.
    destruct (pick_rest (length vs) (ball (mean_points vs) r p)) as [ks K]; [apply HB|apply ball_bound|].
    exists (flat_map (fun j => snd (voxel_at vs j)) ks). rewrite <- flat_map_app. rewrite (Permutation_flat_map _ K).
    rewrite flat_map_concat_map. replace (map (fun j => snd (voxel_at vs j)) (seq 0 (length vs))) with (map snd vs); [reflexivity|].
    clear. apply nth_error_ext. intro i. rewrite !nth_error_map'. unfold voxel_at.
    destruct (nth_error vs i) as [v|] eqn:E.
    - assert (L : (i < length vs)%nat) by (apply nth_error_Some; congruence). rewrite nth_error_seq.
      destruct (i <? length vs)%nat eqn:Q; [|apply Nat.ltb_ge in Q; lia]. cbn. rewrite (nth_error_nth vs i _ E). reflexivity.
    - apply nth_error_None in E. rewrite nth_error_seq. destruct (i <? length vs)%nat eqn:Q; [apply Nat.ltb_lt in Q; lia|reflexivity].
  Qed.

  Lemma picked_iff vs r p x : In x (flat_map (fun j => snd (voxel_at vs j)) (ball (mean_points vs) r p)) <-> exists id ps, In (id, ps) vs /\ In x ps /\ vdist (vmean ps) p <= r.
  Proof.
    rewrite in_flat_map. split.
    - intros [j [J I]]. assert (B := ball_bound vs r p j J). exists (fst (voxel_at vs j)), (snd (voxel_at vs j)).
      rewrite <- surjective_pairing. split; [apply nth_In, B|]. split; [exact I|].
      apply (proj2 (HB _ r p)) in J as [q [E D]]. unfold mean_points in E. rewrite nth_error_map', (nth_error_nth' vs (EmptyString, []) B) in E.
      injection E as <-. exact D.
    - intros [id [ps [I [X D]]]]. apply In_nth_error in I as [j E]. exists j. unfold voxel_at. rewrite (nth_error_nth vs j _ E). split; [|exact X].
      apply (proj2 (HB _ r p)). exists (vmean ps). split; [|exact D]. unfold mean_points. rewrite nth_error_map', E. reflexivity.
  Qed.
End Search.

(** A search returns for every position a set of names without repetitions; the points with these names are those of the
    voxels whose mean is at most [r] away, and no point of the cloud appears more often than in the cloud. *)
Theorem C128_found : forall ball pts size vs xyz r, ball_contract ball -> create_voxels pts size = Ok vs ->
  exists sets, ball_query ball vs xyz r = Ok sets /\ length sets = length xyz /\
  forall i p ids, nth_error xyz i = Some p -> nth_error sets i = Some ids ->
  NoDup ids /\ exists found, points_from_voxel_set vs ids = Ok found /\ (exists rest, Permutation (found ++ rest) pts) /\
  forall x, In x found <-> exists id ps m, In (id, ps) vs /\ In x ps /\ is_mean ps m /\ vdist m p <= r.
Proof.
  intros ball pts size vs xyz r HB V. destruct (C53_partition pts size vs V) as [N [P [NE _]]].
  exists (map (fun p => map (fun j => fst (voxel_at vs j)) (ball (mean_points vs) r p)) xyz). split.
  { unfold ball_query. induction xyz as [|p xyz IH]; [reflexivity|]. cbn. rewrite (names_ok ball HB). cbn. rewrite IH. reflexivity. }
  split; [apply map_length|]. intros i p ids X E. rewrite nth_error_map', X in E. injection E as <-. split.
  { assert (B := ball_bound ball HB vs r p). assert (D := proj1 (HB (mean_points vs) r p)).
    induction (ball (mean_points vs) r p) as [|j js IH]; [constructor|]. inversion D as [|a b D1 D2]; subst. cbn. constructor.
    - intro I. apply in_map_iff in I as [k [E I]]. assert (j = k); [|subst; contradiction].
      apply (proj1 (NoDup_nth (map fst vs) EmptyString) N); try (rewrite map_length; apply B; auto with datatypes).
      change EmptyString with (fst (EmptyString, @nil V3)). rewrite !map_nth. symmetry. exact E.
    - apply IH; [intros; apply B; right; assumption|exact D2]. }
  eexists. split; [apply (points_ok ball HB), N|]. split.
  { destruct (picked_part ball HB vs r p) as [rest R']. exists rest. rewrite R'. exact P. }
  intro x. rewrite (picked_iff ball HB). split.
  - intros [id [ps [I [X' D]]]]. exists id, ps, (vmean ps). repeat (split; [assumption|]). split; [apply vmean_is_mean, (NE id ps I)|exact D].
  - intros [id [ps [m [I [X' [M D]]]]]]. exists id, ps. apply is_mean_unique in M. subst m. repeat split; assumption.
Qed.
Print Assumptions C128_found.

(** Up to the diagonal of a voxel the search finds the points of the ball, if the points span at most nine voxels in y and
    z.  What is missing: larger extents (see C53), and points closer to the sphere. *)
Theorem C128_partial : forall ball pts size vs lo p r ids found, ball_contract ball -> create_voxels pts size = Ok vs ->
  lower_corner pts lo -> (forall q, In q pts -> vy q - vy lo <= 9 * size /\ vz q - vz lo <= 9 * size) ->
  ball_query ball vs [p] r = Ok [ids] -> points_from_voxel_set vs ids = Ok found ->
  (forall x, In x pts -> vdist x p + sqrt 3 * size <= r -> In x found) /\
  (forall x, In x found -> In x pts /\ vdist x p <= r + sqrt 3 * size).
Proof.
  intros ball pts size vs lo p r ids found HB V LC EX BQ PF.
  destruct (C128_found ball pts size vs [p] r HB V) as [sets [E [_ F]]]. rewrite BQ in E. injection E as <-.
  destruct (F 0%nat p ids eq_refl eq_refl) as [_ [fd [E [[rest P] I]]]]. rewrite PF in E. injection E as <-. clear F.
  destruct (C53_partition pts size vs V) as [_ [PM [NE _]]].
  assert (S0 : 0 < size) by (destruct (voxel_member pts size vs V) as [lo' [S0 _]]; exact S0).
  assert (MN : forall id ps x, In (id, ps) vs -> In x ps -> vdist (vmean ps) x <= sqrt 3 * size).
  { intros id ps x J X. apply mean_near; [lra|apply (NE id ps J)|]. intros y Y.
    destruct (C53_separate_partial pts size vs lo x y V LC EX) as [b [A B]]; [exists id, ps; repeat split; assumption|].
    unfold in_cell3, in_cell in A, B. destruct A as [A1 [A2 A3]], B as [B1 [B2 B3]].
    repeat split; apply Rabs_le; lra. }
  split.
  - intros x X D. apply I. assert (X' : In x (concat (map snd vs))) by (apply (Permutation_in x (Permutation_sym PM)), X).
    apply in_concat in X' as [ps [J X']]. apply in_map_iff in J as [[id qs] [<- J]]. cbn in X'.
    exists id, qs, (vmean qs). split; [exact J|]. split; [exact X'|]. split; [apply vmean_is_mean, (NE id qs J)|].
    assert (T := vdist_triangle (vmean qs) x p). specialize (MN id qs x J X'). lra.
  - intros x X. split; [apply (Permutation_in x P), in_or_app; left; exact X|]. apply I in X as [id [ps [m [J [X [M D]]]]]].
    apply is_mean_unique in M. subst m. assert (T := vdist_triangle x (vmean ps) p). specialize (MN id ps x J X).
    rewrite vdist_sym in MN. lra.
Qed.
Print Assumptions C128_partial.

(** Three points on a line; the last two share a voxel. *)
Definition on_line : list V3 := [mkV3 0 0 0; mkV3 (1/10) 0 0; mkV3 1 0 0].
Lemma line_corner : lower_corner on_line (mkV3 0 0 0).
Proof.
  split; [intros p [<-|[<-|[<-|[]]]]; cbn; lra|]. split; [|split]; exists (mkV3 0 0 0); (split; [left; reflexivity|reflexivity]).
Qed.
Lemma line_cell : in_cell3 (mkV3 0 0 0) 1 (mkV3 0 0 0) (0, 0, 0)%nat /\ in_cell3 (mkV3 0 0 0) 1 (mkV3 (1/10) 0 0) (1, 0, 0)%nat /\ in_cell3 (mkV3 0 0 0) 1 (mkV3 1 0 0) (1, 0, 0)%nat.
Proof. unfold in_cell3, in_cell. cbn. lra. Qed.

Lemma line_nodup : NoDup on_line.
Proof. repeat constructor; cbn; intuition; match goal with H : mkV3 _ _ _ = mkV3 _ _ _ |- _ => injection H; lra end. Qed.

Lemma nodup_member {A} (ls : list (list A)) l : NoDup (concat ls) -> In l ls -> NoDup l.
Proof.
  induction ls as [|k ls IH]; cbn; [intros _ []|]. intros N [->|I].
  - clear IH. induction l as [|a l IH]; [constructor|]. cbn in N. inversion N as [|b m N1 N2]; subst.
    constructor; [|apply IH, N2]. intro I. apply N1, in_or_app. left. exact I.
  - apply IH; [|exact I]. clear - N. induction k as [|a k IHk]; [exact N|]. cbn in N. inversion N; subst. apply IHk. assumption.
Qed.

Lemma line_voxel vs : create_voxels on_line 1 = Ok vs ->
  exists id ps, In (id, ps) vs /\ In (mkV3 1 0 0) ps /\ (forall k qs, In (k, qs) vs -> In (mkV3 (1/10) 0 0) qs -> vmean qs = mkV3 (11/20) 0 0) /\ vmean ps = mkV3 (11/20) 0 0.
Proof.
  intro V. destruct line_cell as [C0 [C1 C2]].
  assert (S1 : share_voxel vs (mkV3 1 0 0) (mkV3 (1/10) 0 0)).
  { apply (C53_same_cell on_line 1 vs (mkV3 0 0 0) _ _ (1, 0, 0)%nat V line_corner); cbn; auto. }
  destruct (C53_partition on_line 1 vs V) as [N [PM [NE _]]].
  assert (M : forall k qs, In (k, qs) vs -> In (mkV3 (1/10) 0 0) qs -> vmean qs = mkV3 (11/20) 0 0).
  { intros k qs I X. assert (Q : Permutation [mkV3 (1/10) 0 0; mkV3 1 0 0] qs).
    { apply NoDup_Permutation.
      - assert (D := line_nodup). inversion D. assumption.
      - apply (nodup_member (map snd vs)); [apply (Permutation_NoDup (Permutation_sym PM)), line_nodup|]. apply in_map_iff. exists (k, qs). split; [reflexivity|exact I].
      - destruct (voxel_member on_line 1 vs V) as [lo [_ [LC [_ [_ [CT MB]]]]]]. rewrite <- (corner_unique _ _ _ line_corner LC) in MB.
        assert (K : k = voxel_id (1, 0, 0)%nat).
        { apply (MB k qs _ I) in X as [_ [b [B E]]]. rewrite <- E. f_equal. apply (cell3_unique (mkV3 0 0 0) 1 (mkV3 (1/10) 0 0)); [lra|exact B|exact C1]. }
        intro x. split.
        + intros [<-|[<-|[]]]; [exact X|]. apply (MB k qs _ I). split; [cbn; auto|]. exists (1, 0, 0)%nat. split; [exact C2|symmetry; exact K].
        + intro Y. assert (Y' := proj2 (CT k qs I) x Y). destruct Y' as [<-|[<-|[<-|[]]]]; [exfalso|cbn; auto|cbn; auto].
          destruct (C53_separate_partial on_line 1 vs (mkV3 0 0 0) (mkV3 0 0 0) (mkV3 (1/10) 0 0) V line_corner) as [b [B1 B2]].
          * intros r [<-|[<-|[<-|[]]]]; cbn; lra.
          * exists k, qs. repeat split; assumption.
          * destruct B1 as [B1 _], B2 as [B2 _]. unfold in_cell in B1, B2. cbn [vx] in B1, B2.
            destruct b as [[bx b_y] bz]. cbn [fst snd] in B1, B2. assert (P := pos_INR bx).
            destruct bx as [|bx]; [change (INR 0) with 0 in B1, B2; lra|]. rewrite S_INR in B1. assert (P' := pos_INR bx). lra. }
    apply Permutation_length_2_inv in Q as [->| ->]; unfold vmean, vsum, vscale, vadd; cbn; f_equal; field. }
  destruct S1 as [id [ps [I [X Y]]]]. exists id, ps. split; [exact I|]. split; [exact X|]. split; [exact M|apply (M id ps I Y)].
Qed.

Lemma dist_line a b : vdist (mkV3 a 0 0) (mkV3 b 0 0) = Rabs (a - b).
Proof. unfold vdist, vnorm, vdot, vsub. cbn. replace ((a - b) * (a - b) + (0 - 0) * (0 - 0) + (0 - 0) * (0 - 0)) with (Rsqr (a - b)) by (unfold Rsqr; ring). apply sqrt_Rsqr_abs. Qed.

(** REFUTED: a search does not find the points of the ball: it misses points within the radius, and it returns points outside. *)
Theorem C128_refuted : forall ball, ball_contract ball -> exists vs, create_voxels on_line 1 = Ok vs /\
  (exists ids found x p, ball_query ball vs [p] (1/5) = Ok [ids] /\ points_from_voxel_set vs ids = Ok found /\
     In x on_line /\ vdist x p <= 1/5 /\ ~ In x found) /\
  (exists ids found x p, ball_query ball vs [p] (1/5) = Ok [ids] /\ points_from_voxel_set vs ids = Ok found /\
     In x found /\ vdist x p > 2/5).
Proof.
  intros ball HB. destruct (voxels_total on_line 1) as [vs V]; [discriminate|lra|]. exists vs. split; [exact V|].
  destruct (line_voxel vs V) as [id [ps [I [X [M MP]]]]].
  assert (Q : forall p, exists ids found, ball_query ball vs [p] (1/5) = Ok [ids] /\ points_from_voxel_set vs ids = Ok found /\
    forall x, In x found <-> exists id ps m, In (id, ps) vs /\ In x ps /\ is_mean ps m /\ vdist m p <= 1/5).
  { intro p. destruct (C128_found ball on_line 1 vs [p] (1/5) HB V) as [sets [E [L F]]]. destruct sets as [|ids [|]]; try discriminate.
    destruct (F 0%nat p ids eq_refl eq_refl) as [_ [found [E' [_ F']]]]. exists ids, found. repeat split; try assumption; apply F'. }
  split.
  - destruct (Q (mkV3 0 0 0)) as [ids [found [E [E' F]]]]. exists ids, found, (mkV3 (1/10) 0 0), (mkV3 0 0 0).
    split; [exact E|]. split; [exact E'|]. split; [cbn; auto|]. split; [rewrite dist_line; rewrite Rabs_pos_eq; lra|].
    intro Y. apply F in Y as [k [qs [m [J [Y [MM D]]]]]]. apply is_mean_unique in MM. subst m. rewrite (M k qs J Y), dist_line, Rabs_pos_eq in D; lra.
  - destruct (Q (mkV3 (11/20) 0 0)) as [ids [found [E [E' F]]]]. exists ids, found, (mkV3 1 0 0), (mkV3 (11/20) 0 0).
    split; [exact E|]. split; [exact E'|]. split; [|rewrite dist_line, Rabs_pos_eq; lra].
    apply F. exists id, ps, (mkV3 (11/20) 0 0). split; [exact I|]. split; [exact X|]. split; [rewrite <- MP; apply vmean_is_mean; intros ->; destruct X|].
    rewrite dist_line. replace (11/20 - 11/20) with 0 by lra. rewrite Rabs_R0. lra.
Qed.
Print Assumptions C128_refuted.

(** The hypotheses of C128_partial hold for three points on a line: a radius of four finds all of them. *)
Example C128_case : ball_contract every_point /\ exists vs ids found, create_voxels on_line 1 = Ok vs /\
  ball_query every_point vs [mkV3 0 0 0] 4 = Ok [ids] /\ points_from_voxel_set vs ids = Ok found /\ forall x, In x on_line -> In x found.
Proof.
  split; [exact every_point_contract|]. destruct (voxels_total on_line 1) as [vs V]; [discriminate|lra|].
  destruct (C128_found every_point on_line 1 vs [mkV3 0 0 0] 4 every_point_contract V) as [sets [E [L F]]]. destruct sets as [|ids [|]]; try discriminate.
  destruct (F 0%nat _ ids eq_refl eq_refl) as [_ [found [E' _]]]. exists vs, ids, found. repeat (split; [assumption|]).
  intros x X. apply (proj1 (C128_partial every_point on_line 1 vs (mkV3 0 0 0) (mkV3 0 0 0) 4 ids found every_point_contract V line_corner ltac:(intros r [<-|[<-|[<-|[]]]]; cbn; lra) E E')); [exact X|].
  assert (sqrt 3 <= 2) by (rewrite <- (sqrt_square 2) by lra; apply sqrt_le_1_alt; lra).
  destruct X as [<-|[<-|[<-|[]]]]; rewrite dist_line, Rabs_pos_eq; lra.
Qed.
