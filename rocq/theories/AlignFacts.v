(** Proofs about the estimation of an alignment between trajectories. *)
From Verif Require Import Base BaseFacts NumpyModel NumpyFacts TrajModel TrajSpec EvalModel ParamModel ParamFacts DataModel DataSpec DataFacts EstModel MatchModel GeomModel GeomSpec GeomFacts GeomFacts2 LsqModel LsqSpec SolveSpec
  DirectModel DirectSpec DirectProps DirectProps3 JacModel JacSpec JacFacts2 GhmModel GhmSpec InitModel InitSpec InitFacts5 InitFacts6 InitProps AlignModel AlignSpec.

(** ** Extents *)
Lemma fold_max_ge l : forall x, x <= fold_left Rmax l x /\ forall y, In y l -> y <= fold_left Rmax l x.
Proof.
  induction l as [|a l IH]; intro x; cbn [fold_left In]; [split; [lra|tauto]|]. destruct (IH (Rmax x a)) as [A B].
  assert (X := Rmax_l x a). assert (Y := Rmax_r x a). split; [lra|]. intros y [->|H]; [lra|auto].
Qed.
Lemma fold_min_le l : forall x, fold_left Rmin l x <= x /\ forall y, In y l -> fold_left Rmin l x <= y.
Proof.
  induction l as [|a l IH]; intro x; cbn [fold_left In]; [split; [lra|tauto]|]. destruct (IH (Rmin x a)) as [A B].
  assert (X := Rmin_l x a). assert (Y := Rmin_r x a). split; [lra|]. intros y [->|H]; [lra|auto].
Qed.
Lemma np_max_bound l : l <> [] -> exists m, np_max l = Ok m /\ forall y, In y l -> y <= m.
Proof. destruct l as [|x r]; [congruence|]. intros _. eexists. split; [reflexivity|]. destruct (fold_max_ge r x) as [A B]. intros y [<-|H]; auto. Qed.
Lemma np_min_bound l : l <> [] -> exists m, np_min l = Ok m /\ forall y, In y l -> m <= y.
Proof. destruct l as [|x r]; [congruence|]. intros _. eexists. split; [reflexivity|]. destruct (fold_min_le r x) as [A B]. intros y [<-|H]; auto. Qed.

Lemma extent_ok l : l <> [] -> exists x, extent l = Ok x /\ 0 <= x /\ forall a b, In a l -> In b l -> a <> b -> 0 < x.
Proof.
  intro N. assert (M : forall f : V3 -> R, map f l <> []) by (intro f; destruct l; [congruence|discriminate]).
  destruct (np_max_bound _ (M vx)) as [x1 [X1 BX1]], (np_max_bound _ (M vy)) as [y1 [Y1 BY1]], (np_max_bound _ (M vz)) as [z1 [Z1 BZ1]].
  destruct (np_min_bound _ (M vx)) as [x0 [X0 BX0]], (np_min_bound _ (M vy)) as [y0 [Y0 BY0]], (np_min_bound _ (M vz)) as [z0 [Z0 BZ0]].
  eexists. split; [unfold extent; rewrite X1, Y1, Z1, X0, Y0, Z0; reflexivity|]. split; [apply sqrt_pos|].
  intros a b A B D. apply sqrt_lt_R0.
  assert (IV : forall f : V3 -> R, In (f a) (map f l) /\ In (f b) (map f l)) by (intro f; split; now apply in_map).
  destruct (IV vx) as [Ax Bx], (IV vy) as [Ay By], (IV vz) as [Az Bz].
  assert (P1 := BX1 _ Ax). assert (P2 := BX1 _ Bx). assert (P3 := BX0 _ Ax). assert (P4 := BX0 _ Bx).
  assert (P5 := BY1 _ Ay). assert (P6 := BY1 _ By). assert (P7 := BY0 _ Ay). assert (P8 := BY0 _ By).
  assert (P9 := BZ1 _ Az). assert (P10 := BZ1 _ Bz). assert (P11 := BZ0 _ Az). assert (P12 := BZ0 _ Bz).
  unfold vdot; cbn [vx vy vz].
  assert (SQ : forall u v p q, p <= u -> q <= u -> v <= p -> v <= q -> p <> q -> 0 < (u - v) * (u - v)).
  { intros u v p q H1 H2 H3 H4 H. apply Rmult_lt_0_compat; destruct (Rtotal_order p q) as [K|[K|K]]; lra. }
  assert (NN : forall u : R, 0 <= u * u) by (intro u; apply Rle_0_sqr).
  assert (NX := NN (x1 - x0)). assert (NY := NN (y1 - y0)). assert (NZ := NN (z1 - z0)).
  destruct (Req_dec (vx a) (vx b)) as [Ex|Ex]; [|assert (K := SQ _ _ _ _ P1 P2 P3 P4 Ex); lra].
  destruct (Req_dec (vy a) (vy b)) as [Ey|Ey]; [|assert (K := SQ _ _ _ _ P5 P6 P7 P8 Ey); lra].
  destruct (Req_dec (vz a) (vz b)) as [Ez|Ez]; [|assert (K := SQ _ _ _ _ P9 P10 P11 P12 Ez); lra].
  destruct D. apply V3_eq; assumption.
Qed.

Lemma thresholds_ok s e st from to rpy speed d a b : make_data e st from to rpy speed = Ok d -> In a from -> In b from -> a <> b ->
  0 <= metric_threshold s -> 0 <= time_threshold s ->
  exists ths, data_thresholds (metric_threshold s) (time_threshold s) d = Ok ths /\ usable_thresholds ths.
Proof.
  intros H A B D M T. apply made in H as DO. clear H.
  assert (NF : from <> []) by (intros ->; destruct A).
  assert (NT : to <> []) by (intros ->; assert (L := do_to _ _ _ _ _ _ _ DO); destruct from; [congruence|discriminate]).
  destruct (extent_ok from NF) as [x [X [X0 XP]]], (extent_ok to NT) as [y [Y [Y0 _]]].
  assert (P := XP a b A B D). assert (K := Rmax_l x y).
  eexists. split; [unfold data_thresholds; rewrite (do_est _ _ _ _ _ _ _ DO), (from_are DO), (to_are DO), X, Y; reflexivity|].
  split; [discriminate|]. unfold thresholds.
  assert (0 <= metric_threshold s / Rmax x y) by (apply Rmult_le_pos; [exact M|apply Rlt_le, Rinv_0_lt_compat; lra]).
  repeat (apply Forall_cons; [assumption|]). apply Forall_nil.
Qed.

Lemma distinct_points l : not_coplanar l -> exists a b, In a l /\ In b l /\ a <> b.
Proof.
  intros (a & b & c & d & A & B & C & D & N). exists a, b. split; [exact A|]. split; [exact B|]. intros ->. apply N. munf. ring.
Qed.

(** ** Applying a result *)
Section Apply.
  Context {Q : Type} (ops : rot_ops Q).
  Hypothesis CR : rot_contract ops.

  Lemma values_sensor e : sensor_angles (sensor_params e) = e.
  Proof. destruct e; reflexivity. Qed.
  Lemma values_no_sensor : sensor_angles no_sensor_rotation = vzero.
  Proof. reflexivity. Qed.

  Lemma apply_pointwise p sensor u : consistent u -> exists u' q', apply_alignment ops p sensor false u = Ok u' /\ same_rest u u' /\ consistent u' /\
    length (xyz u') = length (xyz u) /\ rot u' = Some q' /\
    (lever p = vzero -> time_shift p = 0 -> xyz u' = map (similar (sim_trans p) (euler_matrix (sim_rot p)) (sim_scale p)) (xyz u)) /\
    (forall q, rot u = Some q -> sim_trans p = vzero -> sim_rot p = vzero -> sim_scale p = 1 -> xyz u' = levered_traj ops (time_shift p) (lever p) u q) /\
    (forall q, rot u = Some q -> sim_scale p = 1 ->
       map (as_matrix ops) q' = map (fun r => mmul (mmul (euler_matrix sensor) (euler_matrix (sim_rot p))) (as_matrix ops r)) q).
  Proof.
    intro H. destruct (apply_alignment_ok ops CR p sensor u H) as (u' & q' & F & RS & CU & E & A & B).
    assert (L : length (xyz u') = length (xyz u)) by (destruct CU as (L1 & _), RS as (L2 & _), H as (L3 & _); congruence).
    exists u', q'. split; [exact F|]. split; [exact RS|]. split; [exact CU|]. split; [exact L|]. split; [exact E|].
    destruct H as (Ht & Hr & Ha & Hs).
    assert (Z : forall x v m, vadd x (vadd (mapply m vzero) (vscale 0 v)) = x) by (intros [x1 x2 x3] [v1 v2 v3] [[a11 a12 a13] [a21 a22 a23] [a31 a32 a33]]; apply V3_eq; munf; ring).
    split; [|split].
    - intros LZ TZ. apply nth_error_ext_len; [now rewrite map_length|]. intros i Hi. rewrite map_length in Hi.
      destruct (nth_error (xyz u) i) as [x|] eqn:X; [|apply nth_error_None in X; lia].
      destruct (nth_error (speed u) i) as [v|] eqn:V; [|apply nth_error_None in V; lia].
      rewrite (map_nth_error _ _ _ X). destruct (rot u) as [q|] eqn:RU.
      + destruct (nth_error q i) as [r|] eqn:R0; [|apply nth_error_None in R0; lia].
        destruct (A q i x v r eq_refl X V R0) as [P _]. rewrite P. unfold aligned, similar. rewrite LZ, TZ, Z. reflexivity.
      + rewrite (B i x v eq_refl X V). unfold aligned, similar; cbn [sim_trans sim_rot sim_scale time_shift lever]. rewrite TZ, Z. reflexivity.
    - intros q RU TZ RZ SZ. assert (LQ : length q = length (xyz u)) by (rewrite RU in Hr; congruence).
      apply nth_error_ext_len; [unfold levered_traj; rewrite map_length, !combine_length; lia|]. intros i Hi. unfold levered_traj in Hi. rewrite map_length, !combine_length in Hi.
      destruct (nth_error (xyz u) i) as [x|] eqn:X; [|apply nth_error_None in X; lia].
      destruct (nth_error (speed u) i) as [v|] eqn:V; [|apply nth_error_None in V; lia].
      destruct (nth_error q i) as [r|] eqn:R0; [|apply nth_error_None in R0; lia].
      destruct (A q i x v r RU X V R0) as [P _]. rewrite P. unfold levered_traj.
      rewrite (map_nth_error _ _ _ (nth_error_combine_some _ _ i (x, r) v (nth_error_combine_some _ _ i x r X R0) V)). cbn [fst snd].
      unfold aligned. rewrite TZ, RZ, SZ, euler_zero. f_equal.
      generalize (vadd x (vadd (mapply (as_matrix ops r) (lever p)) (vscale (time_shift p) v))). intros [a b c]. apply V3_eq; munf; ring.
    - intros q RU SZ. assert (LQ : length q = length (xyz u)) by (rewrite RU in Hr; congruence).
      assert (LQ' : length q' = length (xyz u)) by (destruct CU as (_ & L1 & _); rewrite E in L1; congruence).
      apply nth_error_ext_len; [rewrite !map_length; lia|]. intros i Hi. rewrite map_length in Hi.
      destruct (nth_error (xyz u) i) as [x|] eqn:X; [|apply nth_error_None in X; lia].
      destruct (nth_error (speed u) i) as [v|] eqn:V; [|apply nth_error_None in V; lia].
      destruct (nth_error q i) as [r|] eqn:R0; [|apply nth_error_None in R0; lia].
      destruct (A q i x v r RU X V R0) as [_ [r' [R1 P]]]. rewrite (map_nth_error _ _ _ R1), (map_nth_error _ _ _ R0), (P SZ). f_equal. symmetry. apply mmul_assoc.
  Qed.
End Apply.
