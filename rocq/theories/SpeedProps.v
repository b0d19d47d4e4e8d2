(** C149: speeds. *)
From Coq Require Import Sorting.Sorted Classes.RelationClasses.
From Verif Require Import Base BaseFacts VecFacts NumpyModel NumpyFacts TrajModel TrajSpec TrajFacts TrajFacts2 TrajFacts3 TrajProps EvalStats InfoSpec InfoModel InfoFacts SpeedSpec SpeedFacts.

Lemma step_by_step {A} (P : A -> A -> Prop) l : (forall x y z, P x y -> P y z -> P x z) ->
  (forall i x y, nth_error l i = Some x -> nth_error l (S i) = Some y -> P x y) -> StronglySorted P l.
Proof.
  intros TR H. apply Sorted_StronglySorted; [intros x y z; apply TR|]. induction l as [|x l IH]; [constructor|]. constructor.
  - apply IH. intros i. exact (H (S i)).
  - destruct l as [|y l]; constructor. exact (H 0%nat x y eq_refl eq_refl).
Qed.

Section New.
  Context {Q : Type}.
  Lemma new_speeds loc pos ep (r : option (list Q)) ts nm al so t : (forall p, length (loc p) = length p) -> loc pos = pos -> pos <> [] -> length ts = length pos ->
    new_traj loc pos ep r (Some ts) nm al None so = Ok t ->
    consistent t /\ tstamps t = ts /\ xyz t = pos /\ gradient_3d pos ts = Ok (speed t).
  Proof.
    intros LL L NE LT E. assert (R : match r with Some q => length q = length pos | None => True end).
    { destruct r as [q|]; [|exact I]. unfold new_traj in E. destruct (Nat.eqb_spec (length q) (length pos)) as [EQ|]; [exact EQ|discriminate]. }
    destruct (new_traj_ok loc pos ep r (Some ts) nm al None so LL NE R LT) as (t1 & g & E1 & C & X & _ & T & G & _ & S & _). rewrite E in E1. injection E1 as <-.
    split; [exact C|]. split; [exact T|]. split; [exact X|]. rewrite L, T in G. rewrite S. exact G.
  Qed.

  Lemma gradient_leads (t : traj Q) : consistent t -> strictly_time_sorted t -> gradient_3d (xyz t) (tstamps t) = Ok (speed t) -> leads t.
  Proof.
    intros C S G i p q P1 P2. rewrite <- poses_nth in P1, P2 by exact C. destruct (poses_components t C) as (T & X & _ & _ & V).
    assert (LX : length (xyz t) = length (tstamps t)) by (symmetry; apply C).
    assert (N : nth_error (speed t) i = Some (p_speed p)) by (rewrite <- V; apply map_nth_error, P1).
    assert (HX : forall k w, nth_error (poses t) k = Some w -> nth_error (xyz t) k = Some (p_xyz w)) by (intros k w H; rewrite <- X; apply map_nth_error, H).
    assert (HT : forall k w, nth_error (poses t) k = Some w -> nth_error (tstamps t) k = Some (p_t w)) by (intros k w H; rewrite <- T; apply map_nth_error, H).
    destruct (gradient_nth _ _ _ i _ LX G N) as [[Z _]|(a & b & u & v & A & B & U & W & D)].
    - exfalso. assert (B := nth_error_Some_lt _ _ _ (HX _ _ P2)). lia.
    - rewrite (HX _ _ P1) in A. injection A as <-. rewrite (HX _ _ P2) in B. injection B as <-. rewrite (HT _ _ P1) in U. injection U as <-. rewrite (HT _ _ P2) in W. injection W as <-.
      assert (LT : p_t p < p_t q) by (apply (proj1 (StronglySorted_nth Rlt (tstamps t)) S i (Datatypes.S i)); [lia|apply HT, P1|apply HT, P2]).
      rewrite D, vdiv_scale. destruct (p_xyz q) as [q1 q2 q3], (p_xyz p) as [p1 p2 p3]. unfold vadd, vscale, vsub. cbn [vx vy vz]. f_equal; field; lra.
  Qed.

  Lemma leads_bounded V (t : traj Q) : consistent t -> strictly_time_sorted t -> leads t -> Forall (fun v => v <= V) (speeds t) -> bounded V t.
  Proof.
    intros C S L F. unfold speeds in F. assert (FV : Forall (fun v => vnorm v <= V) (speed t)).
    { rewrite Forall_forall in F |- *. intros v I. apply F, in_map, I. }
    split; [|exact FV]. unfold slower. apply step_by_step.
    - intros x y z [A1 B1] [A2 B2]. split; [lra|]. assert (TR := vdist_triangle (p_xyz x) (p_xyz y) (p_xyz z)). lra.
    - intros i p q P1 P2. destruct (poses_components t C) as (T & X & _ & _ & W).
      assert (LT : p_t p < p_t q) by (apply (proj1 (StronglySorted_nth Rlt (tstamps t)) S i (Datatypes.S i)); [lia|rewrite <- T; apply map_nth_error, P1|rewrite <- T; apply map_nth_error, P2]).
      split; [exact LT|]. rewrite poses_nth in P1, P2 by exact C. rewrite (L i p q P1 P2).
      assert (E : vdist (p_xyz p) (vadd (p_xyz p) (vscale (p_t q - p_t p) (p_speed p))) = (p_t q - p_t p) * vnorm (p_speed p)).
      { rewrite vdist_sym. unfold vdist. rewrite <- (Rabs_pos_eq (p_t q - p_t p)) at 2 by lra. rewrite <- vnorm_scale. f_equal. unfold vadd, vscale, vsub. cbn [vx vy vz]. f_equal; ring. }
      rewrite E. rewrite (Rmult_comm V). apply Rmult_le_compat_l; [lra|]. rewrite Forall_forall in FV. apply FV. rewrite <- W. apply in_map. rewrite <- poses_nth in P1 by exact C. eapply nth_error_In, P1.
  Qed.
End New.

(** * C149 *)
(** The speeds computed for a new trajectory lead from each pose to the next, and speed times time adds up to the length of the path. *)
Theorem C149_new : forall (Q : Type) loc pos ep (r : option (list Q)) ts nm al so t,
  (forall p, length (loc p) = length p) -> loc pos = pos -> pos <> [] -> length ts = length pos -> StronglySorted Rlt ts ->
  new_traj loc pos ep r (Some ts) nm al None so = Ok t ->
  leads t /\ np_sum (map (fun vd => fst vd * snd vd) (combine (speeds t) (np_diff (tstamps t)))) = path_length (xyz t).
Proof.
  intros Q loc pos ep r ts nm al so t LL L NE LT S E. destruct (new_speeds loc pos ep r ts nm al so t LL L NE LT E) as (C & T & X & G). rewrite <- T, <- X in G. rewrite <- T in S.
  assert (LD := gradient_leads t C S G). split; [exact LD|]. rewrite path_length_sum. f_equal.
  apply nth_error_ext. intro i. rewrite !nth_error_map', nth_error_combine, pairs_nth. unfold speeds, np_diff. rewrite !nth_error_map', pairs_nth.
  assert (LX : length (xyz t) = length (tstamps t)) by (symmetry; apply C). assert (LS : length (speed t) = length (xyz t)) by apply C.
  destruct (nth_error (tstamps t) (Datatypes.S i)) as [b|] eqn:B.
  - assert (I1 := nth_error_Some_lt _ _ _ B). destruct (nth_error_lt_Some (tstamps t) i) as [a A]; [lia|]. destruct (nth_error_lt_Some (xyz t) i) as [x P]; [lia|]. destruct (nth_error_lt_Some (xyz t) (Datatypes.S i)) as [y P2]; [lia|]. destruct (nth_error_lt_Some (speed t) i) as [v V]; [lia|].
    rewrite A, P, P2, V. cbn [option_map fst snd]. f_equal.
    destruct (gradient_nth _ _ _ i _ LX G V) as [[Z _]|(p & q & u & w & P' & Q' & U & W & ->)]; [lia|].
    rewrite P in P'. injection P' as <-. rewrite P2 in Q'. injection Q' as <-. rewrite A in U. injection U as <-. rewrite B in W. injection W as <-.
    assert (AB : a < b) by (apply (proj1 (StronglySorted_nth Rlt (tstamps t)) S i (Datatypes.S i)); [lia|exact A|exact B]).
    rewrite vdiv_scale, vnorm_scale, Rabs_pos_eq by (apply Rlt_le, Rinv_0_lt_compat; lra). rewrite (vdist_sym x y). unfold vdist. field. lra.
  - assert (P2 : nth_error (xyz t) (Datatypes.S i) = None) by (apply nth_error_None in B; apply nth_error_None; lia). rewrite P2. destruct (nth_error (xyz t) i), (nth_error (tstamps t) i), (nth_error (speed t) i); reflexivity.
Qed.
Print Assumptions C149_new.

(** Cropping, cutting, matching, intersecting and interpolating, in any number and order, never shows a speed that is higher than
    the highest speed of the new trajectory, and no two poses are further apart than this speed allows. *)
Theorem C149_limit : forall (Q : Type) (slerp_seg : Q -> Q -> R -> Q) loc pos ep (r : option (list Q)) ts nm al so t V ops t',
  (forall p, length (loc p) = length p) -> loc pos = pos -> pos <> [] -> length ts = length pos -> StronglySorted Rlt ts ->
  new_traj loc pos ep r (Some ts) nm al None so = Ok t -> Forall (fun v => v <= V) (speeds t) ->
  Forall plain_request ops -> history slerp_seg t ops t' ->
  Forall (fun v => 0 <= v <= V) (speeds t') /\ slower V t'.
Proof.
  intros Q seg loc pos ep r ts nm al so t V ops t' LL L NE LT S E F PR HI. destruct (new_speeds loc pos ep r ts nm al so t LL L NE LT E) as (C & T & X & G). rewrite <- T, <- X in G. rewrite <- T in S.
  assert (NV : 0 <= V).
  { assert (LS : length (speed t) = length (xyz t)) by apply C. rewrite X in LS. destruct (speed t) as [|v l] eqn:SP; [destruct pos; [contradiction|discriminate]|].
    unfold speeds in F. rewrite SP in F. apply Forall_inv in F. assert (P := vnorm_nonneg v). lra. }
  destruct (history_bounded seg V t ops t' NV C (leads_bounded V t C S (gradient_leads t C S G) F) PR HI) as (_ & SL & B). split; [|exact SL].
  unfold speeds. rewrite Forall_forall in B |- *. intros v I. apply in_map_iff in I as (w & <- & I). split; [apply vnorm_nonneg|apply B, I].
Qed.
Print Assumptions C149_limit.

(** The same for given speeds and for trajectories of any origin. *)
Theorem C149_history : forall (Q : Type) (slerp_seg : Q -> Q -> R -> Q) (t : traj Q) V ops t',
  0 <= V -> consistent t -> slower V t -> Forall (fun v => v <= V) (speeds t) -> Forall plain_request ops -> history slerp_seg t ops t' ->
  Forall (fun v => v <= V) (speeds t') /\ slower V t'.
Proof.
  intros Q seg t V ops t' NV C SL F PR HI. assert (FV : Forall (fun v => vnorm v <= V) (speed t)).
  { unfold speeds in F. rewrite Forall_forall in F |- *. intros v I. apply F, in_map, I. }
  destruct (history_bounded seg V t ops t' NV C (conj SL FV) PR HI) as (_ & SL' & B). split; [|exact SL'].
  unfold speeds. rewrite Forall_forall in B |- *. intros v I. apply in_map_iff in I as (w & <- & I). apply B, I.
Qed.
Print Assumptions C149_history.

(** Cropping keeps speeds leading from each pose to the next. *)
Theorem C149_crop : forall (Q : Type) (t : traj Q) a b t',
  consistent t -> time_sorted t -> leads t -> crop t a b false = Ok t' -> leads t'.
Proof.
  intros Q t a b t' C S L E. destruct (crop_block t a b t' C S E) as (C' & pre & post & P). intros i p q P1 P2.
  rewrite <- poses_nth in P1, P2 by exact C'.
  apply (L (length pre + i)%nat p q); rewrite <- poses_nth by exact C; rewrite P.
  - rewrite nth_error_app2 by lia. replace (length pre + i - length pre)%nat with i by lia. rewrite nth_error_app1; [exact P1|]. eapply nth_error_Some_lt, P1.
  - rewrite nth_error_app2 by lia. replace (Datatypes.S (length pre + i) - length pre)%nat with (Datatypes.S i) by lia. rewrite nth_error_app1; [exact P2|]. eapply nth_error_Some_lt, P2.
Qed.
Print Assumptions C149_crop.

(** REFUTED (speeds show the motion): whatever the motion, the last computed speed is zero. *)
Theorem C149_last_refuted : forall (Q : Type) loc pos ep (r : option (list Q)) ts nm al so t,
  (forall p, length (loc p) = length p) -> loc pos = pos -> pos <> [] -> length ts = length pos ->
  new_traj loc pos ep r (Some ts) nm al None so = Ok t -> nth_error (speeds t) (length pos - 1) = Some 0.
Proof.
  intros Q loc pos ep r ts nm al so t LL L NE LT E. destruct (new_speeds loc pos ep r ts nm al so t LL L NE LT E) as (C & T & X & G).
  assert (LS : length (speed t) = length (xyz t)) by apply C. rewrite X in LS. assert (NP : length pos <> 0%nat) by (destruct pos; [contradiction|discriminate]).
  destruct (nth_error_lt_Some (speed t) (length pos - 1)) as [v V]; [lia|]. unfold speeds. rewrite (map_nth_error _ _ _ V). f_equal.
  destruct (gradient_nth pos ts (speed t) _ v (eq_sym LT) G V) as [[_ ->]|(p & q & a & b & _ & Z & _)].
  - apply vnorm_zero_iff. reflexivity.
  - apply nth_error_Some_lt in Z. lia.
Qed.
Print Assumptions C149_last_refuted.

(** Constant speed of 2 m/s *)
Definition steady : traj nat := mkTraj [0; 1; 2] [mkV3 0 0 0; mkV3 2 0 0; mkV3 4 0 0] None [0; 2; 4] [mkV3 2 0 0; mkV3 2 0 0; vzero] SortTime "steady" 0.
Lemma norm2 : vnorm (mkV3 2 0 0) = 2.
Proof. apply vnorm_unique; [lra|]. unfold vdot; cbn; ring. Qed.
Lemma steady_new : new_traj (fun p => p) (xyz steady) 0 (@None (list nat)) (Some [0; 1; 2]) "steady" (Some [0; 2; 4]) None SortTime = Ok steady.
Proof.
  unfold new_traj, gradient_3d, broadcast. cbn [xyz steady length Nat.eqb negb pairs combine tl map np_diff fst snd bind app]. unfold vdiv, vsub. cbn [vx vy vz]. unfold steady. repeat f_equal; field.
Qed.
Example C149_case : new_traj (fun p => p) (xyz steady) 0 (@None (list nat)) (Some [0; 1; 2]) "steady" (Some [0; 2; 4]) None SortTime = Ok steady /\
  StronglySorted Rlt [0; 1; 2] /\ Forall (fun v => v <= 2) (speeds steady) /\ speeds steady = [2; 2; 0] /\
  exists t', history (fun a _ _ => a) steady [OpInterpolate [1/2; 3/2]] t' /\ Forall plain_request [OpInterpolate [1/2; 3/2]] /\ xyz t' = [mkV3 1 0 0; mkV3 3 0 0].
Proof.
  assert (Z : vnorm vzero = 0) by (apply vnorm_zero_iff; reflexivity).
  assert (SP : speeds steady = [2; 2; 0]) by (unfold speeds; cbn [speed steady map]; rewrite norm2, Z; reflexivity).
  split; [exact steady_new|]. split; [repeat constructor; lra|]. split; [rewrite SP; repeat constructor; lra|]. split; [exact SP|].
  eexists. split; [|split].
  - eapply history_step; [|shelve|apply history_nil]. cbn [apply_op]. unfold interpolate, crop_request. cbn. rb. cbn. rb. cbn. rb. cbn. unfold interpolate_positions, np_interp. cbn. rb. cbn. unfold interpolate_rotations. cbn.
    unfold gradient_3d, broadcast. cbn. unfold np_interp. cbn. rb. reflexivity.
    Unshelve. intros _; discriminate.
  - constructor; [|constructor]. cbn. constructor; [intros [H|[]]; lra|]. constructor; [intros []|constructor].
  - cbn. repeat f_equal; field.
Qed.
Print Assumptions C149_case.
