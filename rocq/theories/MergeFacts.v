(** Proofs about merging. *)
From Verif Require Import Base BaseFacts NumpyModel NumpyFacts TrajModel TrajSpec TrajFacts TrajFacts2 TrajFacts3 MergeModel MergeSpec.

Lemma perm_eq {A} (l m : list A) : l = m -> Permutation l m.
Proof. intros ->. apply Permutation_refl. Qed.
Ltac eq_perm := match goal with |- Permutation ?a ?b => apply (perm_eq a b) end.

Section Merge.
  Context {Q : Type}.
  Variable argsort : list R -> list nat.
  Variable loc : list V3 -> list V3.
  Variable qid : Q.
  Variable pop : list Z -> Z.
  Hypothesis Hsort : argsort_contract argsort.
  Hypothesis Hloc : forall p, length (loc p) = length p.
  Implicit Types t : traj Q.

  Lemma oriented_bool t : has_orientation t = true <-> oriented t.
  Proof.
    unfold has_orientation, oriented. destruct (rot t) as [[|q r]|]; cbn; split; intro H; try discriminate; eauto;
      destruct H as (? & ? & H); discriminate.
  Qed.

  Definition row (a : R * V3 * option Q) := a.
  Definition rows (ts : list R) (ps : list V3) (qs : list (option Q)) : list (R * V3 * option Q) := combine (combine ts ps) qs.

  Lemma combine_app {A B} (l1 l2 : list A) (m1 m2 : list B) : length l1 = length m1 ->
    combine (l1 ++ l2) (m1 ++ m2) = combine l1 m1 ++ combine l2 m2.
  Proof. revert m1; induction l1 as [|a l1 IH]; intros [|b m1] H; cbn in *; try discriminate; [reflexivity|]. f_equal. apply IH. lia. Qed.

  Lemma rows_poses t : consistent t -> map entry (poses t) = rows (tstamps t) (xyz t) (rots_of t).
  Proof.
    intro C. destruct (poses_components t C) as (E1 & E2 & E3 & _). rewrite <- E1, <- E2, <- E3. unfold rows. clear.
    induction (poses t) as [|p l IH]; cbn; [reflexivity|]. rewrite <- IH. reflexivity.
  Qed.

  Lemma rotations_length t : consistent t -> length (rotations_or_identity qid t) = tlen t.
  Proof.
    intros (_ & H & _). unfold rotations_or_identity, has_orientation, tlen in *. destruct (rot t) as [q|]; [|apply repeat_length].
    destruct (negb _); [exact H | apply repeat_length].
  Qed.

  Lemma rows_oriented t : consistent t ->
    map (oriented_entry qid) (poses t) = rows (tstamps t) (xyz t) (map Some (rotations_or_identity qid t)).
  Proof.
    intro C. destruct (poses_components t C) as (E1 & E2 & E3 & _).
    assert (R : map Some (rotations_or_identity qid t) = map (fun p => Some (match p_rot p with Some q => q | None => qid end)) (poses t)).
    { transitivity (map (fun o => Some (match o with Some q => q | None => qid end)) (map p_rot (poses t))); [|rewrite map_map; reflexivity].
      rewrite E3. destruct C as (_ & C & _). unfold rots_of, rotations_or_identity, has_orientation, tlen in *. destruct (rot t) as [q|].
      - destruct q as [|q r]; cbn [length Nat.eqb negb].
        + cbn in C. rewrite <- C. reflexivity.
        + rewrite map_map. reflexivity.
      - rewrite map_map. clear. induction (xyz t) as [|x r IH]; cbn; [reflexivity|]. f_equal. exact IH. }
    rewrite R, <- E1, <- E2. unfold rows.
    clear. induction (poses t) as [|p l IH]; cbn; [reflexivity|]. rewrite <- IH. reflexivity.
  Qed.

  (** Concatenating the components is concatenating the rows. *)
  Lemma rows_concat (f : traj Q -> list (option Q)) l :
    Forall consistent l -> (forall t, consistent t -> length (f t) = tlen t) ->
    rows (concat (map tstamps l)) (concat (map xyz l)) (concat (map f l)) =
    flat_map (fun t => rows (tstamps t) (xyz t) (f t)) l.
  Proof.
    intros H Hf. induction H as [|t l C H IH]; [reflexivity|]. cbn [map concat flat_map]. unfold rows in *.
    rewrite combine_app by apply C. rewrite combine_app, IH; [reflexivity|].
    rewrite combine_length, (Hf t C). destruct C as (C & _). unfold tlen. lia.
  Qed.

  Lemma concat_map_lengths {A B C} (f : A -> list B) (g : A -> list C) l :
    (forall a, In a l -> length (f a) = length (g a)) -> length (concat (map f l)) = length (concat (map g l)).
  Proof.
    induction l as [|a l IH]; intro H; [reflexivity|]. cbn. rewrite !app_length, (H a (or_introl eq_refl)), IH; [reflexivity|].
    intros b Hb. apply H. right. exact Hb.
  Qed.

  Lemma map_repeat_none (l : list V3) : map (fun _ => @None Q) l = repeat None (length l).
  Proof. induction l; cbn; congruence. Qed.

  Lemma flat_map_ext_in {A B} (f g : A -> list B) l : (forall a, In a l -> f a = g a) -> flat_map f l = flat_map g l.
  Proof. induction l as [|a l IH]; intro H; [reflexivity|]. cbn. rewrite (H a (or_introl eq_refl)), IH; [reflexivity|]. intros; apply H; right; assumption. Qed.

  (** The merged trajectory before sorting. *)
  Lemma merged_unsorted l : l <> [] -> Forall consistent l -> concat (map xyz l) <> [] ->
    exists m0, merge_trajectories argsort loc qid pop l = apply_index m0 (IInt (map Z.of_nat (argsort (tstamps m0)))) /\
      consistent m0 /\ tstamps m0 = concat (map tstamps l) /\ xyz m0 = concat (map xyz l) /\
      rot m0 = (if existsb has_orientation l then Some (concat (map (rotations_or_identity qid) l)) else None) /\
      arc m0 = lengths_from_xyz (loc (xyz m0)) /\ name m0 = "Merged"%string /\ epsg m0 = pop (map epsg l) /\ srt m0 = SortTime.
  Proof.
    intros N H X. rewrite Forall_forall in H.
    destruct (new_traj_ok loc (concat (map xyz l)) (pop (map epsg l))
      (if existsb has_orientation l then Some (concat (map (rotations_or_identity qid) l)) else None)
      (Some (concat (map tstamps l))) "Merged" None None SortTime Hloc X) as (m0 & g & E & C & Ex & Er & Et & _ & Ea & _ & Es & En & Ee).
    - destruct (existsb _ _); [|exact I]. apply concat_map_lengths. intros t Ht. apply rotations_length, H, Ht.
    - apply concat_map_lengths. intros t Ht. apply H, Ht.
    - exists m0. split.
      + unfold merge_trajectories. destruct l; [contradiction|]. cbv zeta. rewrite E. reflexivity.
      + rewrite Ex. split; [exact C|]. split; [exact Et|]. split; [reflexivity|]. split; [exact Er|]. split; [exact Ea|]. auto.
  Qed.

  Lemma merge_empty l : l <> [] -> Forall consistent l -> concat (map xyz l) = [] ->
    exists m, merge_trajectories argsort loc qid pop l = Ok m /\ m = mkTraj [] [] None [] [] SortTime "Merged" (pop (map epsg l)).
  Proof.
    intros N H X. rewrite Forall_forall in H.
    assert (Z : forall t, In t l -> xyz t = []).
    { intros t Ht. apply in_map with (f := xyz) in Ht. apply in_split in Ht as (a & b & Hs). rewrite Hs in X.
      rewrite concat_app in X. cbn in X. destruct (concat a); [|discriminate]. destruct (xyz t); [reflexivity | discriminate]. }
    assert (Zt : concat (map tstamps l) = []).
    { apply length_zero_iff_nil. rewrite (concat_map_lengths tstamps xyz l) by (intros; apply H; assumption). rewrite X. reflexivity. }
    assert (Zo : existsb has_orientation l = false).
    { apply not_true_is_false. intro E. apply existsb_exists in E as (t & Ht & E). unfold has_orientation in E.
      destruct (H t Ht) as (_ & C & _). rewrite (Z t Ht) in C. destruct (rot t) as [q|]; [|discriminate]. rewrite C in E. discriminate. }
    assert (Al : argsort [] = []).
    { apply length_zero_iff_nil. rewrite argsort_length by exact Hsort. reflexivity. }
    unfold merge_trajectories. destruct l as [|t l]; [contradiction|]. cbv zeta. rewrite X, Zt, Zo.
    assert (L : loc [] = []) by (apply length_zero_iff_nil; apply Hloc).
    unfold new_traj. cbn [negb]. cbv iota. rewrite L.
    cbn [gradient_3d pairs map np_diff broadcast length Nat.eqb combine bind app tstamps]. rewrite Al. cbn. eauto.
  Qed.

  Lemma merge_ok l : l <> [] -> Forall consistent l ->
    exists m, merge_trajectories argsort loc qid pop l = Ok m /\ consistent m /\ time_sorted m /\
      ((exists t, In t l /\ oriented t) -> Permutation (map entry (poses m)) (flat_map (fun t => map (oriented_entry qid) (poses t)) l)) /\
      ((forall t, In t l -> ~ oriented t) -> rot m = None /\
          Permutation (map (fun p => (p_t p, p_xyz p)) (poses m)) (flat_map (fun t => map (fun p => (p_t p, p_xyz p)) (poses t)) l)) /\
      name m = "Merged"%string /\ epsg m = pop (map epsg l) /\ srt m = SortTime.
  Proof.
    intros N H. destruct (concat (map xyz l)) as [|x xs] eqn:X.
    - destruct (merge_empty l N H X) as (m & E & ->). eexists. split; [exact E|].
      split; [repeat split|]. split; [constructor|].
      assert (Z : forall (B : Type) (g : pose Q -> B), flat_map (fun t => map g (poses t)) l = []).
      { intros B g. apply length_zero_iff_nil. rewrite flat_map_concat_map. rewrite (concat_map_lengths (fun t => map g (poses t)) xyz).
        - rewrite X. reflexivity.
        - intros t Ht. rewrite map_length. apply poses_length. rewrite Forall_forall in H. auto. }
      rewrite !Z. cbn. split; [constructor|]. split; [split; [reflexivity | constructor]|]. auto.
    - destruct (merged_unsorted l N H) as (m0 & E & C & Et & Ex & Er & Ea & En & Ee & Es); [congruence|].
      assert (Lt : length (tstamps m0) = tlen m0) by apply C.
      destruct (np_take_perm (poses m0) (argsort (tstamps m0))) as (ps & Eps & Pps & Nps).
      { rewrite (poses_length m0 C), <- Lt. apply Hsort. }
      destruct (apply_index_total m0 (IInt (map Z.of_nat (argsort (tstamps m0)))) ps C Eps) as (m & Em & Pm).
      destruct (apply_index_ok m0 _ m C Em) as (Cm & (M1 & M2 & M3 & M4) & _).
      exists m. rewrite E. split; [exact Em|]. split; [exact Cm|]. split; [|split; [|split; [|split; [congruence | split; congruence]]]].
      + unfold time_sorted. apply (argsort_take_sorted argsort (tstamps m0)); [exact Hsort|]. intro p.
        destruct (poses_components m Cm) as (F1 & _). destruct (poses_components m0 C) as (F0 & _).
        rewrite <- F1, Pm, nth_error_map', Nps. destruct (nth_error (argsort (tstamps m0)) p) as [i|]; [|reflexivity].
        rewrite <- F0. rewrite nth_error_map'. reflexivity.
      + intros (t & Ht & Ho). rewrite Pm. rewrite Pps. rewrite (rows_poses m0 C).
        assert (Eo : existsb has_orientation l = true) by (apply existsb_exists; exists t; split; [exact Ht | apply oriented_bool, Ho]).
        unfold rots_of. rewrite Er, Eo, Et, Ex. rewrite concat_map, map_map.
        rewrite (rows_concat (fun u => map Some (rotations_or_identity qid u)) l H).
        * rewrite (flat_map_ext_in _ (fun u => map (oriented_entry qid) (poses u))); [apply Permutation_refl|].
          intros u Hu. symmetry. apply rows_oriented. rewrite Forall_forall in H. auto.
        * intros u Hu. rewrite map_length. apply rotations_length, Hu.
      + intro Hn. assert (Eo : existsb has_orientation l = false).
        { apply not_true_is_false. intro K. apply existsb_exists in K as (t & Ht & K). apply (Hn t Ht), oriented_bool, K. }
        split; [apply M4; rewrite Er, Eo; reflexivity|]. rewrite Pm, Pps. eq_perm.
        assert (G : forall t, consistent t -> map (fun p => (p_t p, p_xyz p)) (poses t) = combine (tstamps t) (xyz t)).
        { intros t Ct. destruct (poses_components t Ct) as (F1 & F2 & _). rewrite <- F1, <- F2.
          clear. induction (poses t) as [|p k IH]; cbn; [reflexivity|]. rewrite <- IH. reflexivity. }
        rewrite (G m0 C), Et, Ex. clear -H G. induction H as [|t k Ct H IH]; [reflexivity|]. cbn. rewrite combine_app by apply Ct. rewrite IH, (G t Ct).
        reflexivity.
  Qed.

  (** Successive trajectories are simply concatenated. *)
  Lemma argsort_sorted_id keys : StronglySorted Rlt keys -> argsort keys = seq 0 (length keys).
  Proof.
    intro S. destruct (Hsort keys) as [P F]. set (idx := argsort keys) in *.
    assert (SL : StronglySorted lt idx).
    { apply StronglySorted_nth. intros a b i j Hab Hi Hj.
      assert (Ri : (i < length keys)%nat) by (apply (Permutation_in _ P), in_seq in Hi as HI || (apply nth_error_In in Hi as HI; apply (Permutation_in _ P), in_seq in HI; lia)).
      apply nth_error_In in Hj as HJ; apply (Permutation_in _ P), in_seq in HJ.
      apply nth_error_lt_Some in Ri as [x Hx]. assert (Rj : (j < length keys)%nat) by lia. apply nth_error_lt_Some in Rj as [y Hy].
      assert (Hne : i <> j).
      { intros ->. assert (ND : NoDup idx) by (apply (Permutation_NoDup (Permutation_sym P)), seq_NoDup).
        rewrite NoDup_nth_error in ND. specialize (ND a b (nth_error_Some_lt _ _ _ Hi)). rewrite Hi, Hj in ND. specialize (ND eq_refl). lia. }
      assert (L := argsort_take_sorted argsort keys).
      destruct (Nat.lt_ge_cases i j) as [|G]; [assumption|]. exfalso.
      rewrite StronglySorted_nth in S. assert (Hji : (j < i)%nat) by lia. specialize (S j i y x Hji Hy Hx).
      destruct (np_take_nat keys idx) as (k' & _ & Nk).
      { apply Forall_forall. intros z Hz. apply (Permutation_in _ P), in_seq in Hz. lia. }
      specialize (L k' Hsort Nk). rewrite StronglySorted_nth in L.
      specialize (L a b x y Hab). rewrite !Nk in L. fold idx in L. rewrite Hi, Hj in L. specialize (L Hx Hy). lra. }
    assert (U : forall (l m : list nat), StronglySorted lt l -> StronglySorted lt m -> Permutation l m -> l = m).
    { clear. induction l as [|a l IH]; intros m Sl Sm Pm.
      - apply Permutation_nil in Pm. congruence.
      - destruct m as [|b m]; [symmetry in Pm; apply Permutation_nil in Pm; discriminate|].
        inversion Sl as [|? ? Sl' Fl]; inversion Sm as [|? ? Sm' Fm]; subst. rewrite Forall_forall in *.
        assert (a = b).
        { assert (A : In a (b :: m)) by (apply (Permutation_in _ Pm); left; reflexivity).
          assert (B : In b (a :: l)) by (apply (Permutation_in _ (Permutation_sym Pm)); left; reflexivity).
          destruct A as [A|A]; [auto|]. destruct B as [B|B]; [auto|]. specialize (Fl _ B). specialize (Fm _ A). lia. }
        subst b. f_equal. apply IH; auto. eapply Permutation_cons_inv, Pm. }
    apply U; [exact SL | | exact P]. clear. generalize 0%nat. induction (length keys) as [|n IH]; intro s; [constructor|].
    cbn. constructor; [apply IH|]. apply Forall_forall. intros z Hz. apply in_seq in Hz. lia.
  Qed.

  Lemma merge_successive l m : l <> [] -> Forall consistent l -> StronglySorted Rlt (concat (map tstamps l)) -> concat (map xyz l) <> [] ->
    merge_trajectories argsort loc qid pop l = Ok m ->
    xyz m = concat (map xyz l) /\ tstamps m = concat (map tstamps l) /\ arc m = lengths_from_xyz (loc (xyz m)).
  Proof.
    intros N H S X E. destruct (merged_unsorted l N H X) as (m0 & E0 & C & Et & Ex & _ & Ea & _).
    rewrite E in E0. symmetry in E0. destruct (apply_index_ok m0 _ m C E0) as (Cm & Mm & Pm).
    assert (P : poses m = poses m0).
    { rewrite Et, argsort_sorted_id in Pm by exact S. cbn [np_index] in Pm.
      assert (L : length (concat (map tstamps l)) = length (poses m0)) by (rewrite (poses_length m0 C), <- Et; apply C).
      rewrite L in Pm. destruct (np_take_nat (poses m0) (seq 0 (length (poses m0)))) as (q & Eq & Nq).
      { apply Forall_forall. intros z Hz. apply in_seq in Hz. lia. }
      assert (poses m = q) by congruence. subst q. apply nth_error_ext. intro p. rewrite Nq.
      destruct (Nat.lt_ge_cases p (length (poses m0))) as [Hp|Hp].
      - rewrite (nth_error_nth' _ 0%nat) by (rewrite seq_length; exact Hp). rewrite seq_nth by exact Hp. reflexivity.
      - rewrite (proj2 (nth_error_None (seq 0 (length (poses m0))) p)) by (rewrite seq_length; exact Hp). symmetry. apply nth_error_None, Hp. }
    assert (m = m0).
    { symmetry. apply traj_ext; auto. }
    subst m. rewrite Ex, Et. rewrite Ex in Ea. auto.
  Qed.
End Merge.
