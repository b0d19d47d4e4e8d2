(** Property C134: operations that leave no pose, with the pinned version of scipy. *)
From Verif Require Import Base BaseFacts VecFacts NumpyModel NumpyFacts TrajModel TrajSpec TrajFacts TrajFacts2 TrajFacts3 TrajProps MatchModel MergeModel MergeSpec MergeFacts MergeProps
  GeomModel GeomSpec GeomFacts GeomFacts2 GeomProps HeapModel HeapSpec HeapFacts EmptyModel EmptySpec.

Lemma strict_index_eq {Q} (t : traj Q) ix : consistent t -> strict_index t ix = refusing t (apply_index t ix).
Proof.
  intro C. unfold strict_index, apply_index, refusing. destruct (np_index (tstamps t) ix) as [ts|e]; [|reflexivity]. cbn [bind].
  destruct (np_index (xyz t) ix) as [ps|e] eqn:EP; [|reflexivity]. cbn [bind]. destruct (rot t) as [r|] eqn:RO.
  - destruct (np_index r ix) as [i|e] eqn:ER; [|reflexivity]. cbn [rmap bind].
    assert (L : length i = length ps).
    { assert (LR : length r = length (xyz t)) by (destruct C as (_ & H & _); rewrite RO in H; exact H).
      exact (np_index_length r (xyz t) ix i ps LR ER EP). }
    destruct i as [|x i]; cbn [rotations bind].
    + destruct ps; [|discriminate]. destruct (np_index (arc t) ix) as [al|e] eqn:EA; cbn [bind].
      2:{ exfalso. destruct (np_index_ok_transfer (xyz t) (arc t) ix [] (proj1 (proj2 (proj2 C))) EP) as (y & Y). congruence. }
      destruct (np_index (speed t) ix) as [sp|e] eqn:ES; cbn [bind].
      2:{ exfalso. destruct (np_index_ok_transfer (xyz t) (speed t) ix [] (proj2 (proj2 (proj2 C))) EP) as (y & Y). congruence. }
      reflexivity.
    + destruct (np_index (arc t) ix) as [al|e]; [|reflexivity]. cbn [bind]. destruct (np_index (speed t) ix) as [sp|e]; [|reflexivity]. cbn [bind]. destruct ps; [discriminate|]. reflexivity.
  - cbn [bind]. destruct (np_index (arc t) ix) as [al|e]; [|reflexivity]. cbn [bind]. destruct (np_index (speed t) ix) as [sp|e]; [|reflexivity]. reflexivity.
Qed.

Lemma refusing_ok {Q} (t u : traj Q) r : refusing t r = Ok u -> r = Ok u.
Proof. destruct r as [w|e]; cbn; [|discriminate]. destruct (rot t); [destruct (xyz w)|]; congruence. Qed.

Lemma intersect_empty {Q} (c : traj Q) sorted gap u : consistent c -> xyz c = [] ->
  (let lower := map (fun x => (Z.of_nat (searchsorted_right sorted x) - 1)%Z) (tstamps c) in
   let! keep := mapM (fun p => gap_ok sorted gap (fst p) (snd p)) (combine (tstamps c) lower) in
   apply_index c (IInt (map Z.of_nat (map fst (filter snd (enumerate keep)))))) = u -> exists w, u = Ok w /\ xyz w = [] /\ consistent w.
Proof.
  intros C X <-. assert (T : tstamps c = []) by (destruct C as (H & _); rewrite X in H; apply length_zero_iff_nil, H). rewrite T. cbn.
  destruct (apply_index_total c (IInt []) [] C) as (w & W & P); [unfold np_index, np_take; reflexivity|].
  exists w. split; [exact W|]. destruct (apply_index_ok c _ w C W) as (Cw & _). split; [|exact Cw].
  rewrite <- (proj1 (proj2 (poses_components w Cw))), P. reflexivity.
Qed.

(** Selecting poses: the same as with empty rotations, but a trajectory with orientations cannot lose all poses. *)
Theorem C134_selections : forall Q (t : traj Q), consistent t ->
  (forall ix, strict_index t ix = refusing t (apply_index t ix)) /\
  (forall a b inv, strict_crop t a b inv = refusing t (crop t a b inv)) /\
  (forall ts, strict_match t ts = refusing t (match_timestamps t ts)) /\
  (forall ts gap, strict_intersect t ts gap = refusing t (intersect t ts gap)).
Proof.
  intros Q t C. split; [intro ix; apply strict_index_eq, C|]. split; [intros a b inv; apply strict_index_eq, C|]. split; [intro ts; apply strict_index_eq, C|].
  intros ts gap. unfold strict_intersect, intersect. destruct (common_time_span ts (tstamps t)) as [[[a b]|]|e]; cbn [bind]; [|reflexivity|reflexivity].
  replace (strict_crop t a b false) with (refusing t (crop t a b false)) by (symmetry; apply strict_index_eq, C).
  destruct (crop_spec t a b false C) as (c & E & Cc & (_ & _ & _ & RM) & _). rewrite E. cbn [bind].
  assert (N : (exists q, rot t = Some q /\ xyz c = []) \/ refusing t (Ok c) = Ok c).
  { cbn. destruct (rot t) as [q|]; [|right; reflexivity]. destruct (xyz c); [left; exists q; split; reflexivity|right; reflexivity]. }
  destruct N as [(q & RO & X)|N].
  - cbn [refusing]. rewrite RO, X. cbn [bind].
    destruct (intersect_empty c (np_sort ts) gap _ Cc X eq_refl) as (w & W & XW & _). cbv zeta in W. rewrite W. cbn. rewrite RO, XW. reflexivity.
  - rewrite N. cbn [bind]. destruct (mapM _ _) as [keep|e]; cbn [bind]; [|reflexivity].
    rewrite strict_index_eq by exact Cc. unfold refusing. destruct (apply_index c _) as [u|e]; [|reflexivity].
    destruct (rot t) as [q|] eqn:RT; destruct (rot c) as [q'|] eqn:RC; try reflexivity.
    + exfalso. assert (Z := proj1 RM eq_refl). discriminate.
    + exfalso. assert (Z := proj2 RM eq_refl). discriminate.
Qed.
Print Assumptions C134_selections.

(** * What a failing call leaves behind *)
Ltac ecbn' := cbn [effect write_value tstamps xyz rot arc speed srt name epsg set_tstamps set_xyz set_rot set_arc set_speed set_srt].
Definition torn_of {Q} (t : traj Q) : traj Q := mkTraj [] [] (rot t) (arc t) (speed t) (srt t) (name t) (epsg t).

Lemma strict_effect {Q} ix k (t : traj Q) : consistent t ->
  match strict_index t ix with
  | Ok t' => effect (strict_index_then ix k) t = effect k t'
  | Err e => snd (effect (strict_index_then ix k) t) = Err e /\
      (match apply_index t ix with Ok u => xyz u = [] | Err _ => False end -> effect (strict_index_then ix k) t = (torn_of t, Err ValueError))
  end.
Proof.
  intro C. destruct t as [ts ps q al sp so nm ep]. unfold strict_index, strict_index_then, apply_index. cbn [tstamps xyz rot arc speed srt name epsg]. unfold consistent in C. cbn in C. destruct C as (L1 & L2 & L3 & L4).
  cbn [effect]. rewrite effect_lift. cbn [tstamps]. destruct (np_index ts ix) as [ts'|e] eqn:E1; cbn [bind]; [|split; [reflexivity|contradiction]].
  ecbn'. rewrite effect_lift. destruct (np_index ps ix) as [ps'|e] eqn:E2; cbn [bind]; [|split; [reflexivity|contradiction]]. ecbn'.
  assert (LT := np_index_length ts ps ix ts' ps' L1 E1 E2).
  destruct q as [q|]; cbn [rmap].
  - rewrite effect_lift. destruct (np_index q ix) as [i|e] eqn:E3; cbn [bind rmap]; [|split; [reflexivity|contradiction]].
    assert (LI := np_index_length q ps ix i ps' L2 E3 E2).
    rewrite effect_lift. destruct i as [|x i]; cbn [rotations bind].
    + split; [reflexivity|]. intros _. destruct ps'; [|discriminate]. destruct ts'; [|discriminate]. reflexivity.
    + ecbn'. rewrite effect_lift. destruct (np_index al ix) as [al'|e] eqn:E4; cbn [bind]; [|split; [reflexivity|contradiction]].
      ecbn'. rewrite effect_lift. destruct (np_index sp ix) as [sp'|e] eqn:E5; cbn [bind]; [reflexivity|split; [reflexivity|contradiction]].
  - cbn [bind]. ecbn'. rewrite effect_lift. cbn [arc]. destruct (np_index al ix) as [al'|e]; cbn [bind]; [|split; [reflexivity|contradiction]].
    ecbn'. rewrite effect_lift. destruct (np_index sp ix) as [sp'|e]; cbn [bind]; [reflexivity|split; [reflexivity|contradiction]].
Qed.

Lemma torn_torn {Q} (t : traj Q) : torn t (torn_of t).
Proof. unfold torn, torn_of. repeat split. Qed.
Lemma torn_broken {Q} (t u : traj Q) : consistent t -> xyz t <> [] -> torn t u -> ~ consistent u.
Proof.
  intros (_ & _ & L & _) N (_ & X & _ & A & _) (_ & _ & L' & _). rewrite A, X, L in L'. cbn in L'. apply N, length_zero_iff_nil, L'.
Qed.

(** In place: timestamps and positions are gone, orientations, arc lengths and speeds are still there. *)
Theorem C134_left_behind_refuted : forall Q (h : heap Q) self (t : traj Q), view h self = Some t -> consistent t -> rot t <> None -> xyz t <> [] ->
  (forall ix u, apply_index t ix = Ok u -> xyz u = [] ->
     exists h' u', call (strict_index_body ix) self true h = (h', Err ValueError) /\ view h' self = Some u' /\ torn t u' /\ ~ consistent u') /\
  (forall a b inv, (forall x, In x (tstamps t) -> inv = true <-> a <= x <= b) ->
     exists h' u', call (strict_crop_body a b inv) self true h = (h', Err ValueError) /\ view h' self = Some u' /\ torn t u' /\ ~ consistent u') /\
  (forall ts, (forall x, In x (tstamps t) -> ~ In x ts) ->
     exists h' u', call (strict_match_body ts) self true h = (h', Err ValueError) /\ view h' self = Some u' /\ torn t u' /\ ~ consistent u').
Proof.
  intros Q h self t V C RO N.
  assert (G : forall ix u, apply_index t ix = Ok u -> xyz u = [] -> effect (strict_index_body ix) t = (torn_of t, Err ValueError)).
  { intros ix u E X. assert (H := strict_effect ix Done t C). rewrite strict_index_eq, E in H by exact C. cbn in H. destruct (rot t) as [q|]; [|contradiction]. rewrite X in H. apply H. reflexivity. }
  assert (K : forall p, effect p t = (torn_of t, Err ValueError) -> exists h' u', call p self true h = (h', Err ValueError) /\ view h' self = Some u' /\ torn t u' /\ ~ consistent u').
  { intros p E. destruct (call_true_result p self h t V) as (R1 & R2 & _). rewrite E in R1, R2.
    destruct (call p self true h) as [h' r]. cbn [fst snd rmap] in R1, R2. subst r. exists h', (torn_of t). split; [reflexivity|]. split; [exact R2|]. split; [apply torn_torn|].
    apply (torn_broken t); [exact C|exact N|apply torn_torn]. }
  split; [|split].
  - intros ix u E X. apply K. apply (G ix u E X).
  - intros a b inv H. apply K. destruct (crop_spec t a b inv C) as (u & E & Cu & _ & P).
    change (effect (strict_crop_body a b inv) t) with (effect (strict_index_body (IMask (if inv then map (fun x => negb (Rleb a x && Rleb x b)) (tstamps t) else map (fun x => Rleb a x && Rleb x b) (tstamps t)))) t).
    apply (G _ u E). destruct (poses_components u Cu) as (_ & <- & _).
    assert (Z : poses u = []); [|rewrite Z; reflexivity]. rewrite P. destruct (filter _ _) as [|p l] eqn:F; [reflexivity|]. exfalso.
    assert (I : In p (filter (in_span a b inv) (poses t))) by (rewrite F; left; reflexivity). apply filter_In in I as (I & W).
    assert (IT : In (p_t p) (tstamps t)) by (rewrite <- (proj1 (poses_components t C)); apply in_map, I). specialize (H _ IT).
    unfold in_span in W. destruct (Rleb a (p_t p)) eqn:B1; [apply Rleb_true in B1|apply Rleb_false in B1]; (destruct (Rleb (p_t p) b) eqn:B2; [apply Rleb_true in B2|apply Rleb_false in B2]);
      destruct inv; cbn in W; try discriminate; destruct H as [H1 H2]; try (specialize (H1 eq_refl); lra); try (assert (Z : false = true) by (apply H2; lra); discriminate).
  - intros ts H. apply K. destruct (match_timestamps_spec t ts C) as (u & E & Cu & _ & _ & P & _).
    change (effect (strict_match_body ts) t) with (effect (strict_index_body (IInt (map Z.of_nat (intersect1d_idx (tstamps t) ts)))) t).
    apply (G _ u E). destruct Cu as (L & _). apply length_zero_iff_nil. rewrite <- L. destruct (tstamps u) as [|v l]; [reflexivity|]. exfalso. destruct (proj1 (P v) (or_introl eq_refl)) as [I1 I2]. exact (H v I1 I2).
Qed.
Print Assumptions C134_left_behind_refuted.

(** intersect: the same after one or two selections *)
Theorem C134_intersect_refuted : forall Q (h : heap Q) self (t u : traj Q) ts gap, view h self = Some t -> consistent t -> rot t <> None -> xyz t <> [] ->
  intersect t ts gap = Ok u -> xyz u = [] ->
  exists h' u', call (strict_intersect_body ts gap) self true h = (h', Err ValueError) /\ view h' self = Some u' /\ tstamps u' = [] /\ xyz u' = [] /\ rot u' <> None /\ arc u' <> [] /\ ~ consistent u'.
Proof.
  intros Q h self t u ts gap V C RO N E X.
  assert (G : exists c, consistent c /\ rot c <> None /\ xyz c <> [] /\ effect (strict_intersect_body ts gap) t = (torn_of c, Err ValueError)).
  { unfold intersect in E. unfold strict_intersect_body. cbn [effect]. rewrite effect_lift. destruct (common_time_span ts (tstamps t)) as [[[a b]|]|e]; cbn [bind] in E; [|discriminate|discriminate].
    destruct (crop_spec t a b false C) as (c & Ec & Cc & (_ & _ & _ & RM) & _). rewrite Ec in E. cbn [bind] in E.
    set (k := Read _). unfold strict_crop_then. cbn [effect].
    set (ix := IMask _). assert (EI : apply_index t ix = Ok c) by exact Ec.
    assert (H := strict_effect ix k t C). rewrite strict_index_eq, EI in H by exact C. cbn [refusing] in H. destruct (rot t) as [q|] eqn:RT; [|contradiction].
    destruct (xyz c) as [|x l] eqn:XC.
    - exists t. split; [exact C|]. split; [congruence|]. split; [exact N|]. apply H. reflexivity.
    - rewrite H. assert (RC : rot c <> None) by (intro Z; assert (W := proj1 RM Z); congruence).
      exists c. split; [exact Cc|]. split; [exact RC|]. split; [congruence|]. unfold k. cbn [effect]. rewrite effect_lift.
      destruct (mapM _ _) as [keep|e]; cbn [bind] in E; [|discriminate].
      assert (H2 := strict_effect (IInt (map Z.of_nat (map fst (filter snd (enumerate keep))))) Done c Cc). rewrite strict_index_eq, E in H2 by exact Cc. cbn [refusing] in H2.
      destruct (rot c); [|contradiction]. rewrite X in H2. apply H2. reflexivity. }
  destruct G as (c & Cc & RC & XC & G). destruct (call_true_result (strict_intersect_body ts gap) self h t V) as (R1 & R2 & _). rewrite G in R1, R2.
  destruct (call (strict_intersect_body ts gap) self true h) as [h' r]. cbn [fst snd rmap] in R1, R2. subst r. exists h', (torn_of c). split; [reflexivity|]. split; [exact R2|].
  split; [reflexivity|]. split; [reflexivity|]. split; [exact RC|]. split; [|apply (torn_broken c); [exact Cc|exact XC|apply torn_torn]].
  cbn. destruct Cc as (_ & _ & L & _). destruct (arc c); [|discriminate]. destruct (xyz c); [contradiction|discriminate].
Qed.
Print Assumptions C134_intersect_refuted.

(** * Moving *)
Theorem C134_moving : forall Q (ops : rot_ops Q) T a sensor (t : traj Q), consistent t ->
  strict_transformation ops T t = match xyz t with [] => Err ValueError | _ => Ok (apply_transformation ops T t) end /\
  strict_alignment ops a sensor false t = match xyz t with [] => Err ValueError | _ => apply_alignment ops a sensor false t end.
Proof.
  intros Q ops T a sensor t C.
  assert (G : forall (T : M4) (t : traj Q), consistent t -> strict_transformation ops T t = match xyz t with [] => Err ValueError | _ => Ok (apply_transformation ops T t) end).
  { intros T' u Cu. unfold strict_transformation, apply_transformation, set_se3. assert (L := apply_transformation_xyz ops T' u Cu). unfold apply_transformation, set_se3 in L. cbn [set_rot set_xyz xyz] in L.
    assert (LL : length (map (mul4 T') (se3 ops u)) = length (xyz u)) by (rewrite <- (map_length tra), L, map_length; reflexivity).
    destruct (map (mul4 T') (se3 ops u)) as [|m l]; destruct (xyz u); try discriminate; reflexivity. }
  split; [apply G, C|]. unfold strict_alignment, apply_alignment.
  destruct (match rot t with Some q => _ | None => _ end) as [sh|e] eqn:SH.
  2:{ destruct (xyz t) eqn:X; [|reflexivity]. exfalso. destruct (rot t) as [q|] eqn:RO; [|discriminate]. destruct C as (_ & Lq & _ & Ls). rewrite RO, X in *. cbn in Lq, Ls.
      destruct q; [|discriminate]. destruct (speed t); [|discriminate]. discriminate. }
  cbn [bind]. destruct (iadd (xyz t) sh) as [m|e] eqn:IA; cbn [bind].
  - assert (LM : length m = length (xyz t)).
    { unfold iadd in IA. destruct (length (xyz t) =? length sh)%nat eqn:B.
      - injection IA as <-. apply Nat.eqb_eq in B. rewrite map_length, combine_length, B. lia.
      - destruct sh as [|v [|w sh]]; try discriminate. injection IA as <-. apply map_length. }
    assert (Cm : consistent (set_xyz m t)) by (destruct C as (H1 & H2 & H3 & H4); unfold consistent; cbn [set_xyz tstamps xyz rot arc speed]; rewrite LM; repeat split; assumption).
    rewrite G by exact Cm. cbn [set_xyz xyz]. destruct (xyz t) as [|x l]; destruct m as [|y m]; try discriminate; reflexivity.
  - destruct (xyz t) eqn:X; [|reflexivity]. exfalso.
    assert (Z : sh = []).
    { destruct C as (_ & Lq & _ & Ls). rewrite X in *. cbn in Ls. destruct (speed t); [|discriminate]. destruct (rot t) as [q|]; [|cbn in SH; congruence]. cbn in Lq. destruct q; [|discriminate].
      cbn in SH. congruence. }
    rewrite Z in IA. discriminate.
Qed.
Print Assumptions C134_moving.

(** * Merging *)
Theorem C134_merging : forall Q argsort loc (qid : Q) pop (l : list (traj Q)),
  argsort_contract argsort -> (forall p, length (loc p) = length p) -> (forall s, s <> [] -> In (pop s) s) ->
  Forall consistent l -> l <> [] ->
  ((exists t, In t l /\ xyz t = []) -> strict_merge argsort loc qid pop l = Err ValueError) /\
  ((forall t, In t l -> xyz t <> []) -> strict_merge argsort loc qid pop l = merge_trajectories argsort loc qid pop l).
Proof.
  intros Q argsort loc qid pop l Ha Hl Hp F N. rewrite Forall_forall in F.
  assert (RI : forall t, consistent t -> strict_rotations qid t = match xyz t with [] => Err ValueError | _ => Ok (rotations_or_identity qid t) end).
  { intros t C. unfold strict_rotations, rotations_or_identity, has_orientation, tlen. destruct C as (_ & H & _).
    destruct (rot t) as [[|r q]|]; cbn; destruct (xyz t) as [|x p]; try discriminate; reflexivity. }
  split.
  - intros (t & I & X). unfold strict_merge. destruct l as [|t0 l0]; [contradiction|]. set (l := t0 :: l0) in *.
    assert (M : mapM (strict_rotations qid) l = Err ValueError); [|rewrite M; reflexivity].
    clearbody l. clear N. induction l as [|w l IH]; [destruct I|]. cbn [mapM]. rewrite (RI w (F w (or_introl eq_refl))). destruct (xyz w) as [|x p] eqn:XW; [reflexivity|]. cbn [bind].
    destruct I as [->|I]; [congruence|]. rewrite IH; [reflexivity| |exact I]. intros z Z. apply F. right. exact Z.
  - intro A. assert (M : mapM (strict_rotations qid) l = Ok (map (rotations_or_identity qid) l)).
    { clear N. induction l as [|w l IH]; [reflexivity|]. cbn [mapM map]. rewrite (RI w (F w (or_introl eq_refl))). assert (AW := A w (or_introl eq_refl)). destruct (xyz w) as [|x p]; [contradiction|]. cbn [bind].
      rewrite IH; [reflexivity| |]; intros z Z; [apply F|apply A]; right; exact Z. }
    assert (NX : concat (map xyz l) <> []).
    { destruct l as [|w l]; [contradiction|]. cbn. assert (AW := A w (or_introl eq_refl)). destruct (xyz w); [contradiction|discriminate]. }
    destruct (merged_unsorted argsort loc qid pop Hl l N ltac:(apply Forall_forall; exact F) NX) as (m0 & E0 & C0 & T0 & X0 & R0 & _).
    assert (NQ : existsb has_orientation l = true -> concat (map (rotations_or_identity qid) l) <> []).
    { intros B Z. rewrite B, Z in R0. destruct C0 as (_ & H & _). rewrite R0, X0 in H. destruct (concat (map xyz l)); [contradiction|discriminate]. }
    unfold strict_merge, merge_trajectories. destruct l as [|t0 l0]; [contradiction|]. set (l := t0 :: l0) in *. rewrite M. cbn [bind].
    assert (RR : (if existsb has_orientation l then rmap Some (rotations (concat (map (rotations_or_identity qid) l))) else Ok None)
                 = Ok (if existsb has_orientation l then Some (concat (map (rotations_or_identity qid) l)) else None)).
    { destruct (existsb has_orientation l); [|reflexivity]. specialize (NQ eq_refl). destruct (concat (map (rotations_or_identity qid) l)); [contradiction|reflexivity]. }
    rewrite RR. cbn [bind].
    destruct (new_traj_ok loc (concat (map xyz l)) (pop (map epsg l)) (if existsb has_orientation l then Some (concat (map (rotations_or_identity qid) l)) else None)
      (Some (concat (map tstamps l))) "Merged"%string None None SortTime Hl NX) as (m & g & E & C & Ex & _).
    { destruct (existsb _ _); [|exact Logic.I]. apply concat_map_lengths. intros t Ht. apply rotations_length, F, Ht. }
    { apply concat_map_lengths. intros t Ht. apply F, Ht. }
    cbv zeta. rewrite E. cbn [bind]. rewrite strict_index_eq by exact C. unfold refusing. destruct (apply_index m _) as [u|e] eqn:EU; [|reflexivity].
    destruct (apply_index_int_spec m _ u C EU) as (_ & _ & L & _). rewrite map_length in L. destruct (Ha (tstamps m)) as (PA & _). apply Permutation_length in PA. rewrite seq_length in PA.
    destruct (rot m); [|reflexivity]. destruct (xyz u) eqn:XU; [|reflexivity]. exfalso. unfold tlen in L. rewrite XU in L. destruct C as (LT & _). rewrite Ex in LT. cbn in L.
    apply NX, length_zero_iff_nil. lia.
Qed.
Print Assumptions C134_merging.

(** * Histories *)
(** Successful histories are histories of the other model, and a trajectory with orientations keeps at least one pose. *)
Theorem C134_history : forall Q (seg : Q -> Q -> R -> Q) (t t' : traj Q) l, consistent t -> rot t <> None -> xyz t <> [] -> strict_history seg t l t' ->
  history seg t l t' /\ consistent t' /\ rot t' <> None /\ xyz t' <> [].
Proof.
  intros Q seg t t' l C RO N H. induction H as [t|t o t1 l t' E I H IH]; [repeat split; try assumption; [constructor|apply C..]|].
  assert (E1 : apply_op seg t o = Ok t1 /\ xyz t1 <> []).
  { destruct (C134_selections Q t C) as (S1 & S2 & S3 & S4).
    assert (G : forall r, refusing t r = Ok t1 -> r = Ok t1 /\ xyz t1 <> []).
    { intros [w|e]; cbn; [|discriminate]. destruct (rot t); [|contradiction]. destruct (xyz w) eqn:X; [discriminate|]. intros [= <-]. split; [reflexivity|congruence]. }
    destruct o; cbn [strict_op apply_op] in *; [rewrite S1 in E|rewrite S2 in E|rewrite S3 in E|rewrite S4 in E|]; try (apply G, E).
    split; [exact E|]. intro Z. specialize (I Logic.I). destruct (C09_interpolate_consistent_partial Q seg t ts t1 E) as (L & _); [exact I|]. rewrite Z in L. apply I, length_zero_iff_nil, L. }
  destruct E1 as (E1 & N1). assert (HH : history seg t [o] t1) by (eapply history_step; [exact E1|exact I|constructor]).
  destruct (C02_history_consistent Q seg t t1 [o] C HH) as (C1 & (_ & _ & _ & RM)).
  assert (R1 : rot t1 <> None) by (intro Z; apply RO, RM, Z). destruct (IH C1 R1 N1) as (HI & CI & RI & NI).
  split; [eapply history_step; [exact E1|exact I|exact HI]|]. repeat split; try assumption; apply CI.
Qed.
Print Assumptions C134_history.

(** Concrete case: cropping two oriented poses to a time span without them *)
Example C134_case : consistent duo /\ rot duo <> None /\ xyz duo <> [] /\ strict_crop duo 5 6 false = Err ValueError /\
  (exists u, crop duo 5 6 false = Ok u /\ xyz u = []) /\ (exists u, strict_crop duo 1 6 false = Ok u /\ tstamps u = [1]) /\
  strict_merge stable_argsort (fun p => p) unrotated (fun l => hd 0%Z l) [duo; mkTraj [] [] None [] [] SortTime "none" 0] = Err ValueError.
Proof.
  split; [apply duo_consistent|]. split; [discriminate|]. split; [discriminate|].
  split. { unfold strict_crop, strict_index, duo. cbn. repeat rb. reflexivity. }
  split. { eexists. split; [unfold crop, apply_index, duo; cbn; repeat rb; reflexivity|]. reflexivity. }
  split. { eexists. split; [unfold strict_crop, strict_index, duo; cbn; repeat rb; reflexivity|]. reflexivity. }
  reflexivity.
Qed.
