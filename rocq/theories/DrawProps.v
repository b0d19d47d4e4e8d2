(** Property C100: deviations are drawn where they occur. *)
From Verif Require Import Base BaseFacts NumpyModel NumpyFacts TrajModel TrajSpec TrajFacts TrajFacts3 GeomModel GeomSpec GeomFacts GeomFacts2 GeomProps EvalModel SortFacts EvalFacts4 DrawModel DrawSpec.

Lemma seq_sorted n : forall k, StronglySorted le (seq k n).
Proof.
  induction n as [|n IH]; intro k; cbn; [apply SSorted_nil|]. apply SSorted_cons; [apply IH|]. apply Forall_forall. intros x I. apply in_seq in I. lia.
Qed.
Lemma argsort_sorted argsort keys : argsort_contract argsort -> StronglySorted Rlt keys -> argsort keys = seq 0 (length keys).
Proof.
  intros C S. destruct (C keys) as [P O]. apply sorted_le_unique; [|apply seq_sorted|exact P]. apply StronglySorted_nth. intros p q i j L Hp Hq.
  assert (B : forall k n, nth_error (argsort keys) k = Some n -> (n < length keys)%nat).
  { intros k n K. apply nth_error_In in K. apply (Permutation_in _ P) in K. apply in_seq in K. lia. }
  destruct (nth_error_lt_Some keys i (B _ _ Hp)) as [ki Ki]. destruct (nth_error_lt_Some keys j (B _ _ Hq)) as [kj Kj]. assert (K := O p q i j ki kj L Hp Hq Ki Kj).
  destruct (Nat.le_gt_cases i j) as [E|E]; [exact E|]. rewrite StronglySorted_nth in S. assert (X := S j i kj ki E Kj Ki). lra.
Qed.
Lemma take_all {A} (l : list A) n : n = length l -> np_take l (map Z.of_nat (seq 0 n)) = Ok l.
Proof.
  intros ->. destruct (np_take_nat l (seq 0 (length l))) as (l' & E & H); [apply Forall_forall; intros i I; apply in_seq in I; lia|]. rewrite E. f_equal.
  apply nth_error_ext. intro i. rewrite H. destruct (Nat.lt_ge_cases i (length l)) as [L|L].
  - rewrite (nth_error_nth' _ 0%nat) by (rewrite seq_length; exact L). rewrite seq_nth by exact L. reflexivity.
  - rewrite (proj2 (nth_error_None (seq 0 (length l)) i)) by (rewrite seq_length; exact L). symmetry. apply nth_error_None, L.
Qed.

(** If the poses are stored in the order in which they are shown, with different times (or arc lengths), every deviation is drawn at its pose. *)
Theorem C100_partial : forall Q argsort (r : ate_result Q) devs, argsort_contract argsort -> consistent (ate_trajectory r) ->
  StronglySorted Rlt (sort_key (ate_trajectory r)) -> length devs = tlen (ate_trajectory r) ->
  report_curve argsort r devs = Ok (combine (sort_key (ate_trajectory r)) devs) /\
  mpl_curve argsort r devs = Ok (combine (sort_key (ate_trajectory r)) devs) /\
  report_scatter argsort r devs = Ok (combine (xyz (ate_trajectory r)) devs).
Proof.
  intros Q argsort r devs C K S L. set (t := ate_trajectory r) in *. assert (LK := sort_key_length t K).
  assert (I : sorting_index argsort t = seq 0 (tlen t)) by (rewrite sorting_index_key, (argsort_sorted _ _ C S); f_equal; exact LK).
  assert (F : function_of argsort t = Ok (sort_key t)) by (unfold function_of; rewrite I; apply take_all; symmetry; exact LK).
  unfold report_curve, mpl_curve, report_scatter, xyz_sorted. fold t. rewrite F, I. cbn [bind]. split; [reflexivity|]. split.
  - rewrite (argsort_sorted _ _ C S), !take_all by congruence. reflexivity.
  - rewrite take_all by reflexivity. reflexivity.
Qed.
Print Assumptions C100_partial.

(** For poses with different times (or arc lengths) that is also necessary: the curves of the report, and those of matplotlib, are right
    for all deviations if and only if the poses are stored in order. *)
Theorem C100_exactly_partial : forall Q argsort (t : traj Q), argsort_contract argsort -> consistent t -> NoDup (sort_key t) ->
  ((forall r devs, ate_trajectory r = t -> length devs = tlen t -> exists pts, report_curve argsort r devs = Ok pts /\ drawn_right (sort_key t) devs pts) <-> StronglySorted Rlt (sort_key t)) /\
  ((forall r devs, ate_trajectory r = t -> length devs = tlen t -> exists pts, mpl_curve argsort r devs = Ok pts /\ drawn_right (sort_key t) devs pts) <-> StronglySorted Rlt (sort_key t)).
Proof.
  intros Q argsort t C K N. assert (LK := sort_key_length t K). destruct (sorted_view_keys argsort t C K) as (f & EF & SF & PF).
  assert (NF : NoDup f) by (apply (Permutation_NoDup (Permutation_sym PF)), N).
  assert (SS : StronglySorted Rlt f).
  { apply StronglySorted_nth. intros i j a b L A B. rewrite StronglySorted_nth in SF. assert (X := SF i j a b L A B). destruct X as [X|X]; [exact X|]. subst b.
    exfalso. assert (i = j); [|lia]. apply (proj1 (NoDup_nth_error f) NF); [apply (nth_error_Some_lt _ _ _ A)|congruence]. }
  assert (R : forall x, Permutation (combine f x) (combine (sort_key t) x) -> x = sort_key t -> StronglySorted Rlt (sort_key t)).
  { intros x P E. assert (F : f = sort_key t); [|rewrite <- F; exact SS]. subst x. assert (LF := Permutation_length PF). apply nth_error_ext_len; [exact LF|]. intros i I.
    destruct (nth_error_lt_Some f i ltac:(lia)) as [a A]. destruct (nth_error_lt_Some (sort_key t) i I) as [b B]. assert (X := nth_error_combine_some _ _ _ _ _ A B). apply nth_error_In, (Permutation_in _ P) in X.
    apply In_nth_error in X as [j X]. assert (J := nth_error_Some_lt _ _ _ X). rewrite combine_length in J. destruct (nth_error_lt_Some (sort_key t) j ltac:(lia)) as [c H]. rewrite (nth_error_combine_some _ _ _ _ _ H H) in X. injection X as <- <-. congruence. }
  set (dummy := mkAte "" t [] [] None false). split; split; intro H.
  - destruct (H dummy (sort_key t) eq_refl LK) as (pts & E & D). unfold report_curve in E. cbn [ate_trajectory dummy] in E. rewrite EF in E. cbn [bind] in E. injection E as <-. exact (R _ D eq_refl).
  - intros r devs E L. exists (combine (sort_key t) devs). subst t. split; [apply (C100_partial Q argsort r devs C K H L)|apply Permutation_refl].
  - destruct (H dummy (sort_key t) eq_refl LK) as (pts & E & D). unfold mpl_curve in E. cbn [ate_trajectory dummy] in E. rewrite EF in E. cbn [bind] in E.
    assert (LF := Permutation_length PF). rewrite (argsort_sorted _ _ C SS), !take_all in E by congruence. cbn [bind] in E. injection E as <-. exact (R _ D eq_refl).
  - intros r devs E L. exists (combine (sort_key t) devs). subst t. split; [apply (C100_partial Q argsort r devs C K H L)|apply Permutation_refl].
Qed.
Print Assumptions C100_exactly_partial.

(** Two poses recorded in the opposite order: the deviation of one metre at time zero is drawn at time one. *)
Definition backwards (x : R) : traj RotM := mkTraj [1; 0] [mkV3 0 0 0; mkV3 x 0 0] None [0; 1] [vzero; vzero] SortTime "backwards" 0.
Theorem C100_refuted : exists r, compare_absolute rot_impl (backwards 1) (backwards 2) = Ok r /\ pos_dev_comb r = [0; 1] /\
  forall argsort, argsort_contract argsort -> report_curve argsort r (pos_dev_comb r) = Ok [(0, 0); (1, 1)] /\
    ~ drawn_right (sort_key (ate_trajectory r)) (pos_dev_comb r) [(0, 0); (1, 1)].
Proof.
  destruct (compare_absolute_ok rot_impl (backwards 1) (backwards 2)) as (r & E & _ & T & L & _ & P & _); [repeat split..|].
  exists r. split; [exact E|]. assert (D : pos_dev_comb r = [0; 1]).
  { unfold pos_dev_comb. assert (P0 := P 0%nat _ _ eq_refl eq_refl). assert (P1 := P 1%nat _ _ eq_refl eq_refl). destruct (pos_dev r) as [|a [|b [|]]]; try discriminate L. injection P0 as ->. injection P1 as ->. cbn [map].
    f_equal; [|f_equal]; unfold vnorm, vsub, vdot; cbn; [replace (_ + _ + _) with 0 by ring; apply sqrt_0|replace (_ + _ + _) with 1 by ring; apply sqrt_1]. }
  split; [exact D|]. intros argsort C. rewrite D, T. split.
  - assert (K : consistent (backwards 1)) by (repeat split). unfold report_curve. rewrite T. destruct (sorted_view_keys argsort (backwards 1) C K) as (f & EF & SF & PF). rewrite EF. cbn [bind].
    cbn [sort_key backwards srt tstamps] in PF. assert (f = [0; 1]) as ->; [|reflexivity]. destruct f as [|a [|b [|]]]; try (apply Permutation_length in PF; discriminate PF).
    inversion SF as [|? ? _ G]; subst. inversion G as [|? ? LE _]; subst. assert (A := Permutation_in a PF (or_introl eq_refl)). assert (B := Permutation_in b PF (or_intror (or_introl eq_refl))).
    assert (Z := Permutation_in 0 (Permutation_sym PF) ltac:(cbn; auto)). assert (O := Permutation_in 1 (Permutation_sym PF) ltac:(cbn; auto)). cbn in A, B, Z, O.
    destruct A as [<-|[<-|[]]], B as [<-|[<-|[]]]; try reflexivity; exfalso; destruct Z as [Z|[Z|[]]], O as [O|[O|[]]]; lra.
  - intro H. unfold drawn_right in H. assert (I := Permutation_in (0, 0) H (or_introl eq_refl)). cbn in I. destruct I as [I|[I|[]]]; injection I; intros; lra.
Qed.
Print Assumptions C100_refuted.

(** Results without orientations cannot be plotted: setting the limits of the missing second axis raises. *)
Theorem C100_plot_refuted : forall Q argsort angles (rs : list (ate_result Q)), argsort_contract argsort ->
  Forall (fun r => consistent (ate_trajectory r) /\ length (pos_dev r) = tlen (ate_trajectory r) /\ rot_dev r = None) rs -> plot_deviations argsort angles rs = Err AttributeError.
Proof.
  intros Q argsort angles rs C F. unfold plot_deviations.
  assert (E : existsb (fun r : ate_result Q => match rot_dev r with Some _ => true | None => false end) rs = false).
  { apply Bool.not_true_is_false. intro X. apply existsb_exists in X as (r & I & X). rewrite Forall_forall in F. destruct (F r I) as (_ & _ & N). rewrite N in X. discriminate. }
  rewrite E. assert (M : exists l, mapM (fun r => mpl_curve argsort r (pos_dev_comb r)) (filter drawn rs) = Ok l); [|destruct M as [l ->]; reflexivity]. clear E. induction F as [|r rs (K & L & _) F [l IH]]; [eexists; reflexivity|].
  cbn [filter]. destruct (drawn r); [|exists l; exact IH]. cbn [mapM]. unfold mpl_curve at 1. destruct (sorted_view_keys argsort _ C K) as (f & EF & _ & PF). rewrite EF. cbn [bind].
  assert (LF := Permutation_length PF). rewrite (sort_key_length _ K) in LF.
  assert (R : Forall (fun i => (i < length f)%nat) (argsort f)) by (apply argsort_range, C).
  destruct (np_take_nat f (argsort f) R) as (x & -> & _). cbn [bind]. destruct (np_take_nat (pos_dev_comb r) (argsort f)) as (y & -> & _).
  { unfold pos_dev_comb. rewrite map_length, L, <- LF. exact R. }
  cbn [bind]. rewrite IH. cbn [bind]. eexists. reflexivity.
Qed.
Print Assumptions C100_plot_refuted.

(** Results in order are plotted as they should if some result has orientation deviations: one curve of positions and one of
    angles for each result that has poses, each deviation at its pose. *)
Theorem C100_plot_partial : forall Q argsort angles (rs : list (ate_result Q)), argsort_contract argsort ->
  Forall (fun r => consistent (ate_trajectory r) /\ StronglySorted Rlt (sort_key (ate_trajectory r)) /\ length (pos_dev r) = tlen (ate_trajectory r) /\
    length (angles r) = tlen (ate_trajectory r)) rs -> Exists (fun r => rot_dev r <> None) rs ->
  let shown := filter (fun r => match xyz (ate_trajectory r) with [] => false | _ => true end) rs in
  plot_deviations argsort angles rs = Ok (map (fun r => combine (sort_key (ate_trajectory r)) (pos_dev_comb r)) shown,
    map (fun r => combine (sort_key (ate_trajectory r)) (angles r)) shown).
Proof.
  intros Q argsort angles rs C F X shown. unfold plot_deviations.
  assert (E : existsb (fun r : ate_result Q => match rot_dev r with Some _ => true | None => false end) rs = true).
  { apply existsb_exists. apply Exists_exists in X as (r & I & X). exists r. split; [exact I|]. destruct (rot_dev r); [reflexivity|congruence]. }
  rewrite E. assert (SH : filter drawn rs = shown).
  { apply filter_ext. intro r. unfold drawn, tlen. destruct (xyz (ate_trajectory r)); reflexivity. }
  assert (M : forall (devs : ate_result Q -> list R), Forall (fun r => length (devs r) = tlen (ate_trajectory r)) rs ->
    mapM (fun r => mpl_curve argsort r (devs r)) shown = Ok (map (fun r => combine (sort_key (ate_trajectory r)) (devs r)) shown)).
  { intros devs D. unfold shown. clear E SH X shown. induction F as [|r rs (K & S & _) F IH]; [reflexivity|]. inversion D as [|? ? Dr D']; subst. cbn [filter].
    destruct (match xyz (ate_trajectory r) with [] => false | _ => true end); [|apply IH, D']. cbn [mapM map].
    destruct (C100_partial Q argsort r (devs r) C K S Dr) as (_ & -> & _). cbn [bind]. rewrite (IH D'). reflexivity. }
  rewrite SH, !M; [reflexivity| |].
  - revert F. apply Forall_impl. intros r (_ & _ & _ & A). exact A.
  - revert F. apply Forall_impl. intros r (_ & _ & P & _). unfold pos_dev_comb. rewrite map_length. exact P.
Qed.
Print Assumptions C100_plot_partial.

Example C100_case : argsort_contract stable_argsort /\ StronglySorted Rlt (sort_key duo) /\ consistent duo /\ NoDup (sort_key (backwards 1)) /\ ~ StronglySorted Rlt (sort_key (backwards 1)).
Proof.
  split; [exact stable_argsort_contract|]. split; [cbn; repeat (apply SSorted_cons); try apply SSorted_nil; repeat (apply Forall_cons; [lra|]); apply Forall_nil|]. split; [exact duo_consistent|]. split.
  - cbn. apply NoDup_cons; [|apply NoDup_cons; [intros []|apply NoDup_nil]]. intros [H|[]]; lra.
  - cbn. intro H. inversion H as [|? ? _ G]. inversion G. lra.
Qed.

(** A result with orientation deviations, in order *)
Example C100_plot_case : exists r : ate_result RotM, compare_absolute rot_impl duo duo = Ok r /\ rot_dev r <> None /\ consistent (ate_trajectory r) /\
  StronglySorted Rlt (sort_key (ate_trajectory r)) /\ length (pos_dev r) = tlen (ate_trajectory r).
Proof.
  destruct (compare_absolute_ok rot_impl duo duo duo_consistent duo_consistent eq_refl) as (r & E & _ & T & L & _ & _ & _ & _ & D).
  exists r. split; [exact E|]. cbn [rot duo] in D. destruct D as (d & -> & _). split; [discriminate|]. rewrite T. split; [exact duo_consistent|]. split; [|exact L].
  cbn. repeat (apply SSorted_cons); try apply SSorted_nil; repeat (apply Forall_cons; [lra|]); apply Forall_nil.
Qed.
