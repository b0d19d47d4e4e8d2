(** Voxels and moving least squares. *)
From Coq Require Import DecimalString DecimalNat DecimalFacts.
From Verif Require Import Base BaseFacts VecFacts NumpyModel NumpyFacts TrajModel LsqModel LsqSpec LsqFacts GeomModel MatchModel MatchSpec MatchFacts MatchFacts2 ApproxModel ApproxSpec ApproxFacts.

(** ** Grid cells *)

Lemma fold_min_spec l x : fold_left Rmin l x <= x /\ (forall y, In y l -> fold_left Rmin l x <= y) /\ (fold_left Rmin l x = x \/ In (fold_left Rmin l x) l).
Proof.
  revert x. induction l as [|a l IH]; intro x; cbn; [split; [lra|split; [tauto|left; reflexivity]]|].
  destruct (IH (Rmin x a)) as [A [B C]]. pose proof (Rmin_l x a). pose proof (Rmin_r x a). split; [lra|]. split.
  - intros y [<-|I]; [lra|apply B, I].
  - destruct C as [C|C]; [|right; right; exact C]. rewrite C. unfold Rmin. destruct (Rle_dec x a); [left|right; left]; reflexivity.
Qed.
Lemma list_min_spec l m : list_min l = Ok m -> In m l /\ forall y, In y l -> m <= y.
Proof.
  destruct l as [|x l]; [discriminate|]. cbn. intro H. injection H as <-. destruct (fold_min_spec l x) as [A [B C]]. split.
  - destruct C as [C|C]; [left; symmetry; exact C|right; exact C].
  - intros y [<-|I]; [exact A|apply B, I].
Qed.
Lemma fold_max_spec l x : x <= fold_left Rmax l x /\ (forall y, In y l -> y <= fold_left Rmax l x) /\ (fold_left Rmax l x = x \/ In (fold_left Rmax l x) l).
Proof.
  revert x. induction l as [|a l IH]; intro x; cbn; [split; [lra|split; [tauto|left; reflexivity]]|].
  destruct (IH (Rmax x a)) as [A [B C]]. pose proof (Rmax_l x a). pose proof (Rmax_r x a). split; [lra|]. split.
  - intros y [<-|I]; [lra|apply B, I].
  - destruct C as [C|C]; [|right; right; exact C]. rewrite C. unfold Rmax. destruct (Rle_dec x a); [right; left|left]; reflexivity.
Qed.
Lemma list_max_spec l m : list_max l = Ok m -> In m l /\ forall y, In y l -> y <= m.
Proof.
  destruct l as [|x l]; [discriminate|]. cbn. intro H. injection H as <-. destruct (fold_max_spec l x) as [A [B C]]. split.
  - destruct C as [C|C]; [left; symmetry; exact C|right; exact C].
  - intros y [<-|I]; [exact A|apply B, I].
Qed.

Lemma filter_length_le' {T} (p : T -> bool) l : (length (filter p l) <= length l)%nat.
Proof. induction l as [|x l IH]; cbn; [lia|]. destruct (p x); cbn; lia. Qed.
Lemma filter_all' {T} (p : T -> bool) l : (forall a, In a l -> p a = true) -> filter p l = l.
Proof. induction l as [|x l IH]; cbn; intro H; [reflexivity|]. rewrite H by tauto. rewrite IH by auto. reflexivity. Qed.
Lemma count_prefix (P : nat -> bool) n : (forall i j, (i < j)%nat -> P j = true -> P i = true) ->
  forall j, (j < n)%nat -> (P j = true <-> (j < length (filter P (seq 0 n)))%nat).
Proof.
  intros D. induction n as [|n IH]; intros j J; [lia|]. rewrite seq_S, filter_app, app_length. cbn [filter plus].
  assert ((length (filter P (seq 0 n)) <= n)%nat) as LE.
  { rewrite <- (seq_length n 0) at 2. apply filter_length_le'. }
  destruct (P n) eqn:PN; cbn [length].
  - assert (filter P (seq 0 n) = seq 0 n) as ->.
    { apply filter_all'. intros i I. apply in_seq in I. apply (D i n); [lia|exact PN]. }
    rewrite seq_length. split; [lia|]. intros _. destruct (Nat.eq_dec j n) as [->|N]; [exact PN|]. apply (D j n); [lia|exact PN].
  - rewrite Nat.add_0_r. destruct (Nat.eq_dec j n) as [->|N]; [|apply IH; lia]. rewrite PN. split; [discriminate|lia].
Qed.

Lemma grid_cell lo hi size x : 0 < size -> lo <= x <= hi -> in_cell lo size x (searchsorted_left (np_arange lo (hi + size) size) x).
Proof.
  intros S [A B]. unfold searchsorted_left, count, np_arange.
  set (n := Z.to_nat (Rceil ((hi + size - lo) / size))).
  assert (length (filter (fun y => Rltb y x) (map (fun k => lo + INR k * size) (seq 0 n)))
          = length (filter (fun k => Rltb (lo + INR k * size) x) (seq 0 n))) as ->.
  { generalize (seq 0 n). induction l as [|k l IH]; [reflexivity|]. cbn. destruct (Rltb (lo + INR k * size) x); cbn; rewrite IH; reflexivity. }
  set (P := fun k => Rltb (lo + INR k * size) x). set (c := length (filter P (seq 0 n))).
  assert (forall i j, (i < j)%nat -> P j = true -> P i = true) as D.
  { intros i j I. unfold P, Rltb. destruct (Rlt_dec (lo + INR j * size) x) as [L|L]; [|discriminate]. intros _.
    destruct (Rlt_dec (lo + INR i * size) x) as [L'|L']; [reflexivity|]. exfalso. apply lt_INR in I.
    pose proof (Rmult_lt_compat_r size _ _ S I). lra. }
  pose proof (count_prefix P n D) as CP.
  assert ((hi + size - lo) / size <= INR n) as NN.
  { unfold n. assert (0 <= (hi + size - lo) / size) as P0 by (apply Rmult_le_pos; [lra|left; apply Rinv_0_lt_compat; lra]).
    assert ((hi + size - lo) / size <= IZR (Rceil ((hi + size - lo) / size))) as C1.
    { unfold Rceil. rewrite opp_IZR, minus_IZR. destruct (archimed (- ((hi + size - lo) / size))) as [_ Q]. lra. }
    rewrite INR_IZR_INZ, Z2Nat.id; [exact C1|]. apply le_IZR. lra. }
  assert (hi + size - lo <= INR n * size) as NS.
  { replace (hi + size - lo) with ((hi + size - lo) / size * size) by (field; lra). apply Rmult_le_compat_r; lra. }
  assert ((0 < n)%nat) as NP.
  { destruct n as [|n']; [|lia]. cbn in NS. lra. }
  assert (P (n - 1)%nat = false) as PL.
  { unfold P, Rltb. rewrite minus_INR by lia. cbn [INR]. destruct (Rlt_dec _ x) as [L|L]; [|reflexivity]. exfalso.
    replace ((INR n - 1) * size) with (INR n * size - size) in L by ring. lra. }
  assert ((c < n)%nat) as CN.
  { destruct (le_lt_dec n c) as [L|L]; [|exact L]. exfalso.
    assert (P (n - 1)%nat = true) by (apply CP; fold c; lia). congruence. }
  split.
  - destruct c as [|c'] eqn:CC; [cbn; lra|]. assert (P c' = true) as PC by (apply CP; fold c; lia).
    unfold P, Rltb in PC. destruct (Rlt_dec _ x) as [L|L]; [|discriminate]. rewrite S_INR.
    replace (INR c' + 1 - 1) with (INR c') by ring. exact L.
  - destruct (Rle_dec x (lo + INR c * size)) as [L|L]; [exact L|]. exfalso.
    assert (P c = true) as PC by (unfold P, Rltb; destruct (Rlt_dec _ x); [reflexivity|lra]).
    apply CP in PC; [|exact CN]. fold c in PC. lia.
Qed.

Lemma cell_unique lo size x k k' : 0 < size -> in_cell lo size x k -> in_cell lo size x k' -> k = k'.
Proof.
  intros S [A B] [C D].
  assert (forall a b, (a < b)%nat -> lo + (INR b - 1) * size < x -> x <= lo + INR a * size -> False) as G.
  { intros a b L X Y. apply le_INR in L. rewrite S_INR in L. pose proof (Rmult_le_compat_r size (INR a) (INR b - 1) ltac:(lra) ltac:(lra)). lra. }
  destruct (Nat.lt_trichotomy k k') as [L|[L|L]]; [exfalso; exact (G _ _ L C B)|exact L|exfalso; exact (G _ _ L A D)].
Qed.

Lemma bin_ids_spec coords size bs : bin_ids coords size = Ok bs -> exists lo, 0 < size /\ In lo coords /\ (forall y, In y coords -> lo <= y) /\
  Forall2 (in_cell lo size) coords bs.
Proof.
  intro H. unfold bin_ids in H. apply bind_ok in H as [lo [LO H]]. apply bind_ok in H as [hi [HI H]].
  unfold Rleb in H. destruct (Rle_dec size 0) as [S|S]; [discriminate|]. injection H as <-.
  apply list_min_spec in LO as [I1 L1]. apply list_max_spec in HI as [I2 L2].
  exists lo. split; [lra|]. split; [exact I1|]. split; [exact L1|].
  assert (forall l, (forall y, In y l -> In y coords) -> Forall2 (in_cell lo size) l (map (searchsorted_left (np_arange lo (hi + size) size)) l)) as G.
  { induction l as [|y l IH]; intro Q; cbn; constructor.
    - apply grid_cell; [lra|]. split; [apply L1, Q; left; reflexivity|apply L2, Q; left; reflexivity].
    - apply IH. intros z Z. apply Q. right. exact Z. }
  apply G. auto.
Qed.

Lemma voxel_bins_spec pts size bins : voxel_bins pts size = Ok bins -> exists lo, 0 < size /\ lower_corner pts lo /\
  Forall2 (in_cell3 lo size) pts bins.
Proof.
  intro H. unfold voxel_bins in H. apply bind_ok in H as [bx [BX H]]. apply bind_ok in H as [b_y [BY H]]. apply bind_ok in H as [bz [BZ H]].
  injection H as <-.
  apply bin_ids_spec in BX as [lx [S [IX [LX FX]]]]. apply bin_ids_spec in BY as [ly [_ [IY [LY FY]]]]. apply bin_ids_spec in BZ as [lz [_ [IZ [LZ FZ]]]].
  exists (mkV3 lx ly lz). split; [exact S|]. split.
  - split; [intros p I; cbn; split; [|split]; [apply LX|apply LY|apply LZ]; apply in_map, I|].
    apply in_map_iff in IX as [p [E I]]. apply in_map_iff in IY as [q [E' I']]. apply in_map_iff in IZ as [r [E'' I'']].
    cbn. split; [exists p; tauto|]. split; [exists q; tauto|exists r; tauto].
  - clear IX LX IY LY IZ LZ. revert bx b_y bz FX FY FZ. induction pts as [|p pts IH]; intros bx b_y bz FX FY FZ;
      inversion FX; inversion FY; inversion FZ; subst; cbn; constructor.
    + split; [|split]; cbn; assumption.
    + apply IH; assumption.
Qed.

(** ** Identifiers *)

Lemma show_nat_inj a b : show_nat a = show_nat b -> a = b.
Proof.
  unfold show_nat. intro H.
  assert (Nat.to_uint a = Nat.to_uint b) as E.
  { assert (forall n, NilZero.uint_of_string (NilZero.string_of_uint (Nat.to_uint n)) = Some (Nat.to_uint n)) as U.
    { intro n. apply NilZero.usu. intro N. assert (Nat.of_uint (Nat.to_uint n) = n) as Q by apply DecimalNat.Unsigned.of_to.
      rewrite N in Q. cbn in Q. subst n. discriminate N. }
    pose proof (U a) as UA. pose proof (U b) as UB. rewrite H in UA. congruence. }
  apply (f_equal Nat.of_uint) in E. rewrite !DecimalNat.Unsigned.of_to in E. exact E.
Qed.
Lemma show_digit n : (n < 10)%nat -> exists c, show_nat n = String c "".
Proof. intro H. do 10 (destruct n as [|n]; [eexists; reflexivity|]). lia. Qed.
Lemma append_last s t c d : (s ++ String c "")%string = (t ++ String d "")%string -> s = t /\ c = d.
Proof.
  revert t. induction s as [|a s IH]; intros [|b t] H; cbn in H.
  - injection H as <-. split; reflexivity.
  - injection H as E H. destruct t; discriminate.
  - injection H as E H. destruct s; discriminate.
  - injection H as <- H. apply IH in H as [-> ->]. split; reflexivity.
Qed.
Lemma append_assoc' a b c : ((a ++ b) ++ c)%string = (a ++ (b ++ c))%string.
Proof. induction a as [|x a IH]; cbn; [reflexivity|]. rewrite IH. reflexivity. Qed.
Lemma voxel_id_inj x y z x' y' z' : (y < 10)%nat -> (z < 10)%nat -> (y' < 10)%nat -> (z' < 10)%nat ->
  voxel_id (x, y, z) = voxel_id (x', y', z') -> (x, y, z) = (x', y', z').
Proof.
  intros Y Z Y' Z' H. unfold voxel_id in H. cbn in H.
  destruct (show_digit y Y) as [cy EY], (show_digit z Z) as [cz EZ], (show_digit y' Y') as [cy' EY'], (show_digit z' Z') as [cz' EZ'].
  assert (z = z' /\ (show_nat x ++ show_nat y)%string = (show_nat x' ++ show_nat y')%string) as [-> H2].
  { rewrite <- !append_assoc', EZ, EZ' in H. apply append_last in H as [H E]. split; [|exact H].
    apply show_nat_inj. rewrite EZ, EZ', E. reflexivity. }
  assert (y = y' /\ show_nat x = show_nat x') as [-> H3].
  { rewrite EY, EY' in H2. apply append_last in H2 as [H3 E]. split; [|exact H3].
    apply show_nat_inj. rewrite EY, EY', E. reflexivity. }
  apply show_nat_inj in H3. subst. reflexivity.
Qed.

(** ** The dictionary *)

Definition voxels_of (l : list (string * V3)) : voxel_dict := fold_left (fun vs e => add_point vs (fst e) (snd e)) l [].

Lemma add_point_perm vs id p : Permutation (concat (map snd (add_point vs id p))) (p :: concat (map snd vs)).
Proof.
  induction vs as [|[k ps] vs IH]; cbn; [reflexivity|]. destruct (String.eqb k id); cbn.
  - rewrite <- app_assoc. cbn. symmetry. apply Permutation_middle.
  - rewrite IH. symmetry. apply Permutation_middle.
Qed.
Lemma add_point_keys vs id p k : In k (map fst (add_point vs id p)) <-> k = id \/ In k (map fst vs).
Proof.
  induction vs as [|[k' ps] vs IH]; cbn; [intuition|]. destruct (String.eqb_spec k' id) as [->|N]; cbn; [intuition|]. rewrite IH. intuition.
Qed.
Lemma add_point_nodup vs id p : NoDup (map fst vs) -> NoDup (map fst (add_point vs id p)).
Proof.
  induction vs as [|[k ps] vs IH]; cbn; intro N; [constructor; [intros []|constructor]|].
  inversion N as [|? ? NI N']; subst. destruct (String.eqb_spec k id) as [->|E]; cbn; constructor; auto.
  rewrite add_point_keys. intros [->|I]; contradiction.
Qed.
Lemma add_point_in vs id p k ps : NoDup (map fst vs) ->
  In (k, ps) (add_point vs id p) <->
  (k = id /\ ((exists qs, In (id, qs) vs /\ ps = qs ++ [p]) \/ (~ In id (map fst vs) /\ ps = [p]))) \/ (k <> id /\ In (k, ps) vs).
Proof.
  induction vs as [|[k' qs] vs IH]; cbn; intro N.
  - split.
    + intros [E|[]]. injection E as <- <-. left. split; [reflexivity|]. right. split; [tauto|reflexivity].
    + intros [[-> [[qs [[] _]]|[_ ->]]]|[_ []]]. left. reflexivity.
  - inversion N as [|? ? NI N']; subst. specialize (IH N'). destruct (String.eqb_spec k' id) as [->|E]; cbn.
    + split.
      * intros [H|H].
        -- injection H as <- <-. left. split; [reflexivity|]. left. exists qs. tauto.
        -- right. assert (k <> id) as K. { intros ->. apply NI. apply (in_map fst) in H. exact H. } tauto.
      * intros [[-> [[q2 [[H|H] ->]]|[NI' _]]]|[K [H|H]]].
        -- injection H as <-. left. reflexivity.
        -- exfalso. apply NI. apply (in_map fst) in H. exact H.
        -- exfalso. apply NI'. left. reflexivity.
        -- congruence.
        -- right. exact H.
    + split.
      * intros [H|H].
        -- injection H as <- <-. right. tauto.
        -- apply IH in H as [[-> [[q2 [H ->]]|[H ->]]]|[K H]].
           ++ left. split; [reflexivity|]. left. exists q2. tauto.
           ++ left. split; [reflexivity|]. right. split; [|reflexivity]. intros [|]; contradiction.
           ++ right. tauto.
      * intros [[-> [[q2 [[H|H] ->]]|[NI' ->]]]|[K [H|H]]].
        -- congruence.
        -- right. apply IH. left. split; [reflexivity|]. left. exists q2. tauto.
        -- right. apply IH. left. split; [reflexivity|]. right. split; [tauto|reflexivity].
        -- left. exact H.
        -- right. apply IH. right. tauto.
Qed.

Lemma voxels_spec l : let vs := voxels_of l in
  NoDup (map fst vs) /\ Permutation (concat (map snd vs)) (map snd l) /\
  (forall k, In k (map fst vs) <-> In k (map fst l)) /\
  (forall k ps, In (k, ps) vs -> ps = map snd (filter (fun e => String.eqb (fst e) k) l) /\ ps <> []).
Proof.
  cbn zeta. unfold voxels_of. induction l as [|e l IH] using rev_ind; [cbn; repeat split; try constructor; tauto|].
  destruct IH as [ND [PM [KY CT]]]. rewrite fold_left_app. cbn [fold_left]. set (vs := fold_left (fun (vs : voxel_dict) (e : string * V3) => add_point vs (fst e) (snd e)) l []) in *.
  split; [apply add_point_nodup, ND|]. split; [|split].
  - rewrite add_point_perm, PM, map_app. cbn. apply Permutation_cons_append.
  - intro k. rewrite add_point_keys, KY, map_app, in_app_iff. cbn. intuition.
  - intros k ps I. apply add_point_in in I; [|exact ND]. rewrite filter_app, map_app. cbn [filter].
    destruct I as [[-> [[qs [I ->]]|[NI ->]]]|[K I]].
    + apply CT in I as [-> N]. rewrite String.eqb_refl. split; [reflexivity|]. intro Q. apply app_eq_nil in Q as [_ Q]. discriminate.
    + rewrite String.eqb_refl. rewrite KY in NI. replace (filter _ l) with (@nil (string * V3)); [split; [reflexivity|discriminate]|].
      symmetry. apply filter_none. intros f F. apply String.eqb_neq. intro Q. apply NI. rewrite <- Q. apply in_map, F.
    + apply CT in I as [-> N]. destruct (String.eqb_spec (fst e) k); [congruence|]. cbn. rewrite app_nil_r. split; [reflexivity|exact N].
Qed.

Lemma create_voxels_of pts size vs : create_voxels pts size = Ok vs -> exists bins, voxel_bins pts size = Ok bins /\
  vs = voxels_of (combine (map voxel_id bins) pts).
Proof.
  intro H. unfold create_voxels in H. apply bind_ok in H as [bins [B H]]. injection H as <-. exists bins. split; [exact B|].
  unfold voxels_of. clear B. generalize (@nil (string * list V3)). revert pts. induction bins as [|b bins IH]; intros [|p pts] acc; cbn; try reflexivity.
  apply IH.
Qed.

(** ** What the voxels contain *)

Lemma cell3_unique lo size p b b' : 0 < size -> in_cell3 lo size p b -> in_cell3 lo size p b' -> b = b'.
Proof.
  intros S [A [B C]] [A' [B' C']]. destruct b as [[x y] z], b' as [[x' y'] z']. cbn in *.
  rewrite (cell_unique _ _ _ _ _ S A A'), (cell_unique _ _ _ _ _ S B B'), (cell_unique _ _ _ _ _ S C C'). reflexivity.
Qed.

Lemma combine_in_cells lo size pts bins id p : Forall2 (in_cell3 lo size) pts bins -> In (id, p) (combine (map voxel_id bins) pts) ->
  exists b, in_cell3 lo size p b /\ id = voxel_id b /\ In p pts.
Proof.
  induction 1 as [|q b pts bins C F IH]; intro I; [destruct I|]. cbn in I. destruct I as [E|I].
  - injection E as <- <-. exists b. split; [exact C|]. split; [reflexivity|left; reflexivity].
  - destruct (IH I) as [b' [C' [E Ip]]]. exists b'. split; [exact C'|]. split; [exact E|right; exact Ip].
Qed.

Lemma voxel_member pts size vs : create_voxels pts size = Ok vs -> exists lo, 0 < size /\ lower_corner pts lo /\
  NoDup (map fst vs) /\ Permutation (concat (map snd vs)) pts /\
  (forall id ps, In (id, ps) vs -> ps <> [] /\ (forall p, In p ps -> In p pts)) /\
  (forall id ps p, In (id, ps) vs -> (In p ps <-> In p pts /\ exists b, in_cell3 lo size p b /\ voxel_id b = id)).
Proof.
  intro H. apply create_voxels_of in H as [bins [B ->]]. apply voxel_bins_spec in B as [lo [S [LC F]]].
  exists lo. split; [exact S|]. split; [exact LC|].
  set (l := combine (map voxel_id bins) pts). destruct (voxels_spec l) as [ND [PM [KY CT]]].
  assert (map snd l = pts) as ML.
  { unfold l. clear - F. induction F as [|p b pts bins C F IH]; [reflexivity|]. cbn. rewrite IH. reflexivity. }
  split; [exact ND|]. split; [rewrite ML in PM; exact PM|].
  assert (forall id ps p, In (id, ps) (voxels_of l) -> (In p ps <-> In (id, p) l)) as G.
  { intros id ps p I. destruct (CT id ps I) as [-> _]. rewrite in_map_iff. split.
    - intros [[id' p'] [<- J]]. apply filter_In in J as [J E]. cbn in E. apply String.eqb_eq in E. subst id'. exact J.
    - intro J. exists (id, p). split; [reflexivity|]. apply filter_In. split; [exact J|]. apply String.eqb_refl. }
  split.
  - intros id ps I. split; [apply (CT id ps I)|]. intros p Ip. apply (G id ps p I) in Ip.
    apply (combine_in_cells lo size _ _ _ _ F) in Ip as [b [_ [_ Ip]]]. exact Ip.
  - intros id ps p I. rewrite (G id ps p I). split.
    + intro J. apply (combine_in_cells lo size _ _ _ _ F) in J as [b [C [E Ip]]]. split; [exact Ip|]. exists b. split; [exact C|congruence].
    + intros [Ip [b [C <-]]]. rewrite <- ML in Ip. apply in_map_iff in Ip as [[id' p'] [E J]]. cbn in E. subst p'.
      destruct (combine_in_cells lo size _ _ _ _ F J) as [b' [C' [-> _]]]. rewrite (cell3_unique _ _ _ _ _ S C C'). exact J.
Qed.

(** different voxels have no point in common *)
Lemma voxels_disjoint pts size vs i j v w p : create_voxels pts size = Ok vs -> nth_error vs i = Some v -> nth_error vs j = Some w ->
  In p (snd v) -> In p (snd w) -> i = j.
Proof.
  intros H Ei Ej Iv Iw. destruct (voxel_member pts size vs H) as [lo [S [_ [ND [_ [_ M]]]]]].
  destruct v as [a ps], w as [b qs]. cbn in Iv, Iw.
  apply (M a ps p (nth_error_In _ _ Ei)) in Iv as [_ [c [C E]]]. apply (M b qs p (nth_error_In _ _ Ej)) in Iw as [_ [c' [C' E']]].
  rewrite (cell3_unique _ _ _ _ _ S C C') in E. apply (proj1 (NoDup_nth_error _) ND).
  - rewrite map_length. apply nth_error_Some. congruence.
  - rewrite !nth_error_map', Ei, Ej. cbn. congruence.
Qed.
