(** C143: merging, cropping and moving in any order. *)
From Verif Require Import Base BaseFacts NumpyModel NumpyFacts TrajModel TrajSpec TrajFacts TrajFacts2 TrajFacts3 TrajProps
  MergeModel MergeSpec MergeFacts MergeProps LawSpec LawProps.

Lemma mapM_all {A B} (f : A -> result B) (P : A -> B -> Prop) l : (forall x, In x l -> exists y, f x = Ok y /\ P x y) -> exists r, mapM f l = Ok r /\ Forall2 P l r.
Proof.
  induction l as [|x l IH]; intro H; [exists []; split; [reflexivity|constructor]|]. destruct (H x (or_introl eq_refl)) as (y & E & PY).
  destruct IH as (r & ER & PR); [intros z I; apply H; right; exact I|]. exists (y :: r). cbn. rewrite E. cbn. rewrite ER. split; [reflexivity|]. constructor; assumption.
Qed.
Lemma perm_filter {A} (f : A -> bool) l l' : Permutation l l' -> Permutation (filter f l) (filter f l').
Proof.
  induction 1 as [| x l l' H IH | x y l | l1 l2 l3 H1 IH1 H2 IH2]; cbn; [constructor| | |etransitivity; eassumption].
  - destruct (f x); [constructor|]; exact IH.
  - destruct (f x), (f y); try apply Permutation_refl. apply perm_swap.
Qed.
Lemma filter_flat_map {A B} (f : B -> bool) (g : A -> list B) l : filter f (flat_map g l) = flat_map (fun x => filter f (g x)) l.
Proof. induction l as [|x l IH]; [reflexivity|]. cbn. rewrite filter_app, IH. reflexivity. Qed.
Lemma filter_mapped {A B} (f : B -> bool) (g : A -> B) l : filter f (map g l) = map g (filter (fun x => f (g x)) l).
Proof. induction l as [|x l IH]; [reflexivity|]. cbn. destruct (f (g x)); cbn; rewrite IH; reflexivity. Qed.

(** The time test of [crop] *)
Definition kept_time (a b : R) (inverse : bool) (x : R) : bool := let i := Rleb a x && Rleb x b in if inverse then negb i else i.
Lemma in_span_time {Q} a b inverse (p : pose Q) : in_span a b inverse p = kept_time a b inverse (p_t p).
Proof. reflexivity. Qed.

Section Crop.
Context {Q : Type}.
Variable argsort : list R -> list nat.
Variable loc : list V3 -> list V3.
Variable qid : Q.
Variable pop : list Z -> Z.
Hypothesis Ha : argsort_contract argsort.
Hypothesis Hl : forall p, length (loc p) = length p.
Hypothesis Hp : forall s, s <> [] -> In (pop s) s.

Definition cropped_of (a b : R) (inverse : bool) (t t' : traj Q) : Prop :=
  consistent t' /\ same_meta t t' /\ poses t' = filter (in_span a b inverse) (poses t).
Lemma flat_cropped {B} (g : pose Q -> B) (time : B -> R) a b inverse : (forall p, time (g p) = p_t p) ->
  forall l l', Forall2 (cropped_of a b inverse) l l' ->
  flat_map (fun t => map g (poses t)) l' = filter (fun x => kept_time a b inverse (time x)) (flat_map (fun t => map g (poses t)) l).
Proof.
  intros T l l' F. rewrite filter_flat_map. induction F as [|t t' l l' (C & M & P) F IH]; [reflexivity|]. cbn. rewrite IH, P. f_equal.
  rewrite filter_mapped. f_equal. apply filter_ext. intro p. rewrite T. reflexivity.
Qed.
Lemma cropped_oriented a b inverse (t t' : traj Q) : consistent t -> cropped_of a b inverse t t' -> oriented t' -> oriented t.
Proof.
  intros F (A & MT & PT) (q & r & O). destruct (rot t) as [[|q0 r0]|] eqn:RT; [|exists q0, r0; exact RT|].
  - exfalso. assert (tlen t = 0)%nat as L0 by (destruct F as [_ [L2 _]]; rewrite RT in L2; cbn in L2; unfold tlen; lia).
    pose proof (poses_length t F) as PL. rewrite L0 in PL. destruct (poses t); [|discriminate]. cbn in PT. pose proof A as [_ [L2 _]]. rewrite O in L2. cbn in L2.
    pose proof (poses_length t' A) as PL'. rewrite PT in PL'. cbn in PL'. unfold tlen in PL'. lia.
  - destruct MT as (_ & _ & _ & MR). apply MR in RT. congruence.
Qed.
Lemma in_cropped a b inverse l l' : Forall2 (cropped_of a b inverse) l l' -> forall t', In t' l' -> exists t, In t l /\ cropped_of a b inverse t t'.
Proof.
  induction 1 as [|t u l l' H F IH]; intros t' I; [destruct I|]. destruct I as [->|I]; [exists t; split; [left; reflexivity|exact H]|].
  destruct (IH t' I) as (x & J & X). exists x. split; [right; exact J|exact X].
Qed.
Lemma pairs_of_merged (l : list (traj Q)) m : Forall consistent l -> l <> [] -> NoDup (concat (map tstamps l)) -> merge_trajectories argsort loc qid pop l = Ok m ->
  Permutation (map (fun p => (p_t p, p_xyz p)) (poses m)) (flat_map (fun t => map (fun p => (p_t p, p_xyz p)) (poses t)) l).
Proof.
  intros F N D E. destruct (merged_rows argsort loc qid pop l m Ha Hl Hp F N D E) as (_ & _ & _ & P1 & P2). destruct (existsb has_orientation l) eqn:X.
  - apply existsb_exists in X as (t & I & O). apply oriented_bool in O. specialize (P1 (ex_intro _ t (conj I O))).
    apply (Permutation_map fst) in P1. rewrite map_map in P1. cbn in P1. rewrite P1. clear. induction l as [|t l IH]; [constructor|]. cbn. rewrite map_app, map_map. cbn. apply Permutation_app_head. exact IH.
  - apply P2. intros t I O. apply oriented_bool in O. assert (existsb has_orientation l = true) by (apply existsb_exists; eauto). congruence.
Qed.
Lemma crop_merge (l : list (traj Q)) a b inverse : Forall consistent l -> l <> [] -> NoDup (concat (map tstamps l)) ->
  exists m mc lc cm, merge_trajectories argsort loc qid pop l = Ok m /\ crop m a b inverse = Ok mc /\
    mapM (fun t => crop t a b inverse) l = Ok lc /\ merge_trajectories argsort loc qid pop lc = Ok cm /\
    tstamps mc = tstamps cm /\ xyz mc = xyz cm /\ name mc = name cm /\ srt mc = srt cm /\
    ((forall t, In t l -> ~ oriented t) \/ (exists t, In t lc /\ oriented t) -> rot mc = rot cm).
Proof.
  intros F N D. destruct (C25_merge Q argsort loc qid pop l Ha Hl Hp F N) as (m & E & _ & _ & _ & _ & NM & _ & SM).
  destruct (merged_rows argsort loc qid pop l m Ha Hl Hp F N D E) as (C & S1 & _ & P1 & P2). destruct (crop_spec m a b inverse C) as (mc & EC & CC & MC & PC).
  destruct (mapM_all (fun t => crop t a b inverse) (cropped_of a b inverse) l) as (lc & EL & FL).
  { intros t I. rewrite Forall_forall in F. destruct (crop_spec t a b inverse (F t I)) as (t' & Et & X). exists t'. split; [exact Et|exact X]. }
  assert (Forall consistent lc) as Fc by (clear - FL; induction FL as [|x y l1 l2 (A & _) H IH]; constructor; assumption).
  assert (lc <> []) as Nc by (intro Z; subst lc; inversion FL; subst; congruence).
  assert (NoDup (concat (map tstamps lc))) as Dc.
  { rewrite <- (stamps_flat l F) in D. rewrite <- (stamps_flat lc Fc). rewrite (flat_cropped (@p_t Q) (fun x => x) a b inverse (fun p => eq_refl) l lc FL). apply NoDup_filter. exact D. }
  destruct (C25_merge Q argsort loc qid pop lc Ha Hl Hp Fc Nc) as (cm & E' & _ & _ & _ & _ & NM' & _ & SM').
  destruct (merged_rows argsort loc qid pop lc cm Ha Hl Hp Fc Nc Dc E') as (C' & S2 & _ & P1' & P2').
  assert (strictly_time_sorted mc) as SC.
  { unfold strictly_time_sorted. rewrite <- (proj1 (poses_components mc CC)), PC. unfold strictly_time_sorted in S1. rewrite <- (proj1 (poses_components m C)) in S1.
    change (in_span a b inverse) with (fun p : pose Q => kept_time a b inverse (p_t p)). rewrite <- (filter_mapped (kept_time a b inverse) p_t). apply StronglySorted_filter. exact S1. }
  assert (Permutation (map (fun p => (p_t p, p_xyz p)) (poses mc)) (map (fun p => (p_t p, p_xyz p)) (poses cm))) as PP.
  { rewrite (pairs_of_merged lc cm Fc Nc Dc E'), PC, (flat_cropped (fun p => (p_t p, p_xyz p)) fst a b inverse (fun p => eq_refl) l lc FL).
    rewrite <- (perm_filter _ _ _ (pairs_of_merged l m F N D E)), filter_mapped. apply Permutation_refl. }
  assert (map (fun p => (p_t p, p_xyz p)) (poses mc) = map (fun p => (p_t p, p_xyz p)) (poses cm)) as EQ.
  { apply (sorted_keys fst); [| |exact PP]; rewrite map_map; cbn.
    - change (map (fun x : pose Q => p_t x)) with (map (@p_t Q)). rewrite (proj1 (poses_components mc CC)). exact SC.
    - change (map (fun x : pose Q => p_t x)) with (map (@p_t Q)). rewrite (proj1 (poses_components cm C')). exact S2. }
  exists m, mc, lc, cm. repeat (split; [first [assumption|reflexivity]|]).
  assert (tstamps mc = tstamps cm /\ xyz mc = xyz cm) as [ET EX].
  { destruct (poses_components mc CC) as [T [X _]]. destruct (poses_components cm C') as [T' [X' _]]. split.
    - assert (Y := f_equal (map fst) EQ). rewrite !map_map in Y. cbn in Y. rewrite <- T, <- T'. exact Y.
    - assert (Y := f_equal (map snd) EQ). rewrite !map_map in Y. cbn in Y. rewrite <- X, <- X'. exact Y. }
  split; [exact ET|]. split; [exact EX|]. destruct MC as (MN & MS & ME & MR). split; [congruence|]. split; [congruence|].
  intros [NO|(t' & I' & O')].
  - assert (forall t, In t lc -> ~ oriented t) as NO'.
    { intros t' I' O. destruct (in_cropped _ _ _ _ _ FL t' I') as (t & I & X). apply (NO t I). rewrite Forall_forall in F. exact (cropped_oriented _ _ _ t t' (F t I) X O). }
    destruct (P2 NO) as [R1 _], (P2' NO') as [R2 _]. rewrite R2. apply MR. exact R1.
  - assert (exists t, In t l /\ oriented t) as (t & I & O).
    { destruct (in_cropped _ _ _ _ _ FL t' I') as (t & I & X). exists t. split; [exact I|]. rewrite Forall_forall in F. exact (cropped_oriented _ _ _ t t' (F t I) X O'). }
    specialize (P1 (ex_intro _ t (conj I O))). specialize (P1' (ex_intro _ t' (conj I' O'))).
    destruct (oriented_rows qid lc Fc (ex_intro _ t' (conj I' O'))) as [RS NE].
    apply (same_rows mc cm (flat_map (fun t => map (oriented_entry qid) (poses t)) lc)); try assumption.
    rewrite PC, (flat_cropped (oriented_entry qid) (fun e => fst (fst e)) a b inverse (fun p => eq_refl) l lc FL), <- (perm_filter _ _ _ P1), filter_mapped. apply Permutation_refl.
Qed.
End Crop.

(** Cropping the merged trajectory and merging the cropped ones gives the same timestamps and positions, and the same
    rotations if no input has orientations, or if one of those that have keeps a pose. *)
Theorem C143_crop_partial :
  forall (Q : Type) argsort loc (qid : Q) pop (l : list (traj Q)) a b inverse,
    argsort_contract argsort -> (forall p, length (loc p) = length p) -> (forall s, s <> [] -> In (pop s) s) ->
    Forall consistent l -> l <> [] -> NoDup (concat (map tstamps l)) ->
    exists m mc lc cm, merge_trajectories argsort loc qid pop l = Ok m /\ crop m a b inverse = Ok mc /\
      mapM (fun t => crop t a b inverse) l = Ok lc /\ merge_trajectories argsort loc qid pop lc = Ok cm /\
      tstamps mc = tstamps cm /\ xyz mc = xyz cm /\ name mc = name cm /\ srt mc = srt cm /\
      ((forall t, In t l -> ~ oriented t) \/ (exists t, In t lc /\ oriented t) -> rot mc = rot cm).
Proof. intros Q argsort loc qid pop l a b inverse Ha Hl Hp. exact (crop_merge argsort loc qid pop Ha Hl Hp l a b inverse). Qed.
Print Assumptions C143_crop_partial.

(** The order matters if the trajectory with orientations has no pose in the span: merged first, the remaining pose
    is given the identity; cropped first, the result has no orientations at all. *)
Theorem C143_refuted :
  forall argsort loc (pop : list Z -> Z), argsort_contract argsort -> (forall p, length (loc p) = length p) -> (forall s, s <> [] -> In (pop s) s) ->
    exists m mc lc cm, merge_trajectories argsort loc 0%nat pop [turn1; turn2] = Ok m /\ crop m 1 1 false = Ok mc /\
      mapM (fun t => crop t 1 1 false) [turn1; turn2] = Ok lc /\ merge_trajectories argsort loc 0%nat pop lc = Ok cm /\
      tstamps mc = [1] /\ tstamps cm = [1] /\ rot mc = Some [0%nat] /\ rot cm = None.
Proof.
  intros argsort loc pop Ha Hl Hp. assert (F : Forall consistent [turn1; turn2]) by (repeat constructor).
  assert (D : NoDup (concat (map tstamps [turn1; turn2]))) by (cbn; repeat constructor; cbn; intuition lra).
  destruct (C143_crop_partial nat argsort loc 0%nat pop [turn1; turn2] 1 1 false Ha Hl Hp F ltac:(discriminate) D) as (m & mc & lc & cm & E1 & E2 & E3 & E4 & T & X & _).
  exists m, mc, lc, cm. do 4 (split; [assumption|]).
  assert (L : lc = [mkTraj [] [] (Some []) [] [] SortTime "a" 0; turn2]).
  { assert (C1 : crop turn1 1 1 false = Ok (mkTraj [] [] (Some []) [] [] SortTime "a" 0)).
    { unfold crop, apply_index, turn1. cbn. repeat rb. cbn. reflexivity. }
    assert (C2 : crop turn2 1 1 false = Ok turn2). { unfold crop, apply_index, turn2. cbn. repeat rb. cbn. reflexivity. }
    cbn [mapM] in E3. rewrite C1, C2 in E3. cbn in E3. injection E3 as <-. reflexivity. }
  destruct (merged_rows argsort loc 0%nat pop [turn1; turn2] m Ha Hl Hp F ltac:(discriminate) D E1) as (C & _ & _ & P1 & _).
  specialize (P1 (ex_intro _ turn1 (conj (or_introl eq_refl) (ex_intro _ 5%nat (ex_intro _ [6%nat] eq_refl))))).
  destruct (crop_spec m 1 1 false C) as (mc' & E2' & CC & MC & PC). rewrite E2 in E2'. injection E2' as <-.
  assert (Pm : map entry (poses mc) = [(1, mkV3 10 0 0, Some 0%nat)]).
  { apply (perm_filter (fun e => kept_time 1 1 false (fst (fst e)))) in P1. rewrite filter_mapped in P1.
    change (filter (fun x : pose nat => kept_time 1 1 false (fst (fst (entry x)))) (poses m)) with (filter (in_span 1 1 false) (poses m)) in P1. rewrite <- PC in P1.
    cbn in P1. unfold kept_time in P1. cbn in P1. revert P1. repeat rb. cbn. intro P1. symmetry in P1. apply Permutation_length_1_inv in P1. exact P1. }
  assert (T1 : tstamps mc = [1]).
  { assert (Y := f_equal (map (fun e => fst (fst e))) Pm). rewrite map_map in Y. cbn in Y. rewrite <- (proj1 (poses_components mc CC)). exact Y. }
  split; [exact T1|]. split; [congruence|]. split.
  - pose proof (poses_components mc CC) as (_ & _ & Y & _).
    assert (Z := f_equal (map snd) Pm). rewrite map_map in Z. cbn in Z.
    change (map (fun x : pose nat => p_rot x) (poses mc)) with (map (@p_rot nat) (poses mc)) in Z. rewrite Y in Z. unfold rots_of in Z.
    destruct (rot mc) as [[|q [|q' r]]|]; cbn in Z; [discriminate|congruence|discriminate|]. destruct (xyz mc) as [|v [|w r]]; discriminate.
  - subst lc. assert (Fc : Forall consistent [mkTraj [] [] (Some []) [] [] SortTime "a" 0; turn2]) by (repeat constructor).
    assert (Dc : NoDup (concat (map tstamps [mkTraj [] [] (Some (@nil nat)) [] [] SortTime "a" 0; turn2]))) by (cbn; repeat constructor; cbn; intuition lra).
    destruct (merged_rows argsort loc 0%nat pop _ cm Ha Hl Hp Fc ltac:(discriminate) Dc E4) as (_ & _ & _ & _ & P2). apply P2.
    intros t [<-|[<-|[]]] (q & r & O); discriminate.
Qed.
Print Assumptions C143_refuted.

(** Cropped to the second second, [turn1] keeps its pose at 2 and the rotations agree. *)
Example C143_case : exists m mc lc cm, merge_trajectories stable_argsort (fun p => p) 0%nat (fun s => hd 0%Z s) [turn1; turn2] = Ok m /\ crop m 1 2 false = Ok mc /\
    mapM (fun t => crop t 1 2 false) [turn1; turn2] = Ok lc /\ merge_trajectories stable_argsort (fun p => p) 0%nat (fun s => hd 0%Z s) lc = Ok cm /\
    length (xyz cm) = 2%nat /\ (exists t, In t lc /\ oriented t) /\ rot mc = rot cm.
Proof.
  assert (F : Forall consistent [turn1; turn2]) by (repeat constructor).
  assert (D : NoDup (concat (map tstamps [turn1; turn2]))) by (cbn; repeat constructor; cbn; intuition lra).
  destruct (C143_crop_partial nat stable_argsort (fun p => p) 0%nat (fun s => hd 0%Z s) [turn1; turn2] 1 2 false stable_argsort_contract (fun p => eq_refl)) as (m & mc & lc & cm & E1 & E2 & E3 & E4 & T & X & _ & _ & RR);
    [intros [|z s] H; [congruence|left; reflexivity]|exact F|discriminate|exact D|].
  exists m, mc, lc, cm. do 4 (split; [assumption|]).
  assert (C1 : crop turn1 1 2 false = Ok (mkTraj [2] [mkV3 1 0 0] (Some [6%nat]) [1] [vzero] SortTime "a" 0)).
  { unfold crop, apply_index, turn1. cbn. repeat rb. cbn. reflexivity. }
  assert (C2 : crop turn2 1 2 false = Ok turn2). { unfold crop, apply_index, turn2. cbn. repeat rb. cbn. reflexivity. }
  cbn [mapM] in E3. rewrite C1, C2 in E3. cbn in E3. injection E3 as <-.
  assert (O : exists t, In t [mkTraj [2] [mkV3 1 0 0] (Some [6%nat]) [1] [vzero] SortTime "a" 0; turn2] /\ oriented t).
  { eexists. split; [left; reflexivity|]. exists 6%nat, []. reflexivity. }
  split; [|split; [exact O|apply RR; right; exact O]].
  destruct (merged_rows stable_argsort (fun p => p) 0%nat (fun s => hd 0%Z s) [mkTraj [2] [mkV3 1 0 0] (Some [6%nat]) [1] [vzero] SortTime "a" 0; turn2] cm stable_argsort_contract (fun p => eq_refl) ltac:(intros [|z s] H; [congruence|left; reflexivity]) ltac:(repeat constructor) ltac:(discriminate)
    ltac:(cbn; repeat constructor; cbn; intuition lra) E4) as (C & _ & P & _). apply Permutation_length in P. destruct C as [L _]. cbn in P. congruence.
Qed.
Print Assumptions C143_case.
