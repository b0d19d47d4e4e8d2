(** Construction, arc lengths, sorted views and histories of operations. *)
From Verif Require Import Base BaseFacts VecFacts NumpyModel NumpyFacts TrajModel TrajSpec TrajFacts TrajFacts2.

(** ** Arc lengths *)
Lemma scan_step acc l i a b :
  nth_error (acc :: cumsum_from acc l) i = Some a -> nth_error (cumsum_from acc l) i = Some b ->
  exists x, nth_error l i = Some x /\ b = a + x.
Proof.
  revert acc i. induction l as [|x l IH]; intros acc i Ha Hb; [destruct i; discriminate|].
  destruct i as [|i]; cbn [cumsum_from nth_error] in Ha, Hb.
  - exists x. split; [reflexivity|]. congruence.
  - destruct (IH (acc + x) i) as [y [Hy E]].
    + exact Ha.
    + exact Hb.
    + exists y; auto.
Qed.

Lemma lengths_length p : p <> [] -> length (lengths_from_xyz p) = length p.
Proof.
  intro H. unfold lengths_from_xyz, np_cumsum. cbn [length]. rewrite cumsum_from_length, map_length, pairs_length.
  destruct p; [contradiction|]. cbn [length]. lia.
Qed.

Lemma lengths_start p : nth_error (lengths_from_xyz p) 0 = Some 0.
Proof. reflexivity. Qed.

Lemma lengths_step p i a b x y :
  nth_error (lengths_from_xyz p) i = Some a -> nth_error (lengths_from_xyz p) (S i) = Some b ->
  nth_error p i = Some x -> nth_error p (S i) = Some y -> b = a + vdist x y.
Proof.
  intros Ha Hb Hx Hy. unfold lengths_from_xyz, np_cumsum in *. cbn [nth_error] in Hb.
  destruct (scan_step _ _ _ _ _ Ha Hb) as [d [Hd ->]]. f_equal.
  apply map_nth_error_Some in Hd as [[u w] [Huw <-]]. rewrite pairs_nth, Hx, Hy in Huw.
  injection Huw as -> ->. cbn. rewrite vdist_sym. reflexivity.
Qed.

Lemma lengths_chord p i j a b x y :
  (i <= j)%nat ->
  nth_error (lengths_from_xyz p) i = Some a -> nth_error (lengths_from_xyz p) j = Some b ->
  nth_error p i = Some x -> nth_error p j = Some y -> vdist x y <= b - a.
Proof.
  intro Hij. revert b y. induction Hij as [|j Hij IH]; intros b y Ha Hb Hx Hy.
  - replace b with a by congruence. replace y with x by congruence. rewrite vdist_refl. lra.
  - destruct (nth_error_lt_Some p j) as [z Hz]; [apply nth_error_Some_lt in Hy; lia|].
    destruct (nth_error_lt_Some (lengths_from_xyz p) j) as [c Hc]; [apply nth_error_Some_lt in Hb; lia|].
    assert (H1 := IH c z Ha Hc Hx Hz). assert (H2 := lengths_step p j c b z y Hc Hb Hz Hy).
    assert (H3 := vdist_triangle x z y). lra.
Qed.

Lemma lengths_monotone p i j a b :
  (i <= j)%nat -> nth_error (lengths_from_xyz p) i = Some a -> nth_error (lengths_from_xyz p) j = Some b -> a <= b.
Proof.
  intros Hij Ha Hb. destruct p as [|p0 p].
  - destruct i; [|destruct i; discriminate]. destruct j; [|destruct j; discriminate]. cbn in *. replace b with a by congruence. lra.
  - assert (Hl := lengths_length (p0 :: p) ltac:(discriminate)).
    destruct (nth_error_lt_Some (p0 :: p) i) as [x Hx]; [apply nth_error_Some_lt in Ha; lia|].
    destruct (nth_error_lt_Some (p0 :: p) j) as [y Hy]; [apply nth_error_Some_lt in Hb; lia|].
    assert (H := lengths_chord _ _ _ _ _ _ _ Hij Ha Hb Hx Hy). assert (H' := vdist_nonneg x y). lra.
Qed.

Lemma pairs_map {A B} (f : A -> B) (l : list A) : pairs (map f l) = map (fun ab => (f (fst ab), f (snd ab))) (pairs l).
Proof.
  unfold pairs. destruct l as [|a l]; [reflexivity|]. cbn [map tl].
  revert a; induction l as [|b l IH]; intro a; [reflexivity|]. cbn. f_equal. apply IH.
Qed.

Lemma cumsum_scale s acc l : cumsum_from (s * acc) (map (Rmult s) l) = map (Rmult s) (cumsum_from acc l).
Proof.
  revert acc; induction l as [|x l IH]; intro acc; [reflexivity|]. cbn.
  replace (s * acc + s * x) with (s * (acc + x)) by ring. rewrite IH. reflexivity.
Qed.

(** A map that multiplies every distance by [s] multiplies the arc lengths by [s]. *)
Lemma lengths_similarity (f : V3 -> V3) s p :
  (forall a b, vdist (f a) (f b) = s * vdist a b) ->
  lengths_from_xyz (map f p) = map (Rmult s) (lengths_from_xyz p).
Proof.
  intro H. unfold lengths_from_xyz, np_cumsum. cbn [map]. f_equal; [ring|].
  rewrite pairs_map, map_map. rewrite <- cumsum_scale, Rmult_0_r. f_equal. rewrite map_map.
  apply map_ext. intros [a b]. cbn. change (vnorm (vsub (f b) (f a))) with (vdist (f b) (f a)). rewrite H. reflexivity.
Qed.

Lemma lengths_isometry (f : V3 -> V3) p :
  (forall a b, vdist (f a) (f b) = vdist a b) -> lengths_from_xyz (map f p) = lengths_from_xyz p.
Proof.
  intro H. rewrite (lengths_similarity f 1) by (intros; rewrite H; ring).
  transitivity (map (fun x : R => x) (lengths_from_xyz p)); [|apply map_id]. apply map_ext. intro; ring.
Qed.

Lemma path_length_sum p : path_length p = np_sum (map (fun ab => vdist (fst ab) (snd ab)) (pairs p)).
Proof.
  induction p as [|a [|b r] IH]; [reflexivity|reflexivity|].
  change (path_length (a :: b :: r)) with (vdist a b + path_length (b :: r)). rewrite IH. reflexivity.
Qed.

Lemma last_cumsum acc l : forall d, last (acc :: cumsum_from acc l) d = acc + np_sum l.
Proof.
  revert acc. induction l as [|x l IH]; intros acc d; cbn [cumsum_from].
  - cbn [last np_sum fold_right]. unfold np_sum; cbn [fold_right]. ring.
  - change (last (acc :: (acc + x) :: cumsum_from (acc + x) l) d) with (last ((acc + x) :: cumsum_from (acc + x) l) d).
    rewrite IH. unfold np_sum. cbn [fold_right]. ring.
Qed.

Lemma rev_head_last {A} (l : list A) d : match rev l with [] => d | a :: _ => a end = last l d.
Proof.
  destruct l as [|a l] using rev_ind; [reflexivity|]. rewrite rev_app_distr. cbn. rewrite last_last. reflexivity.
Qed.

Lemma lengths_last p : match rev (lengths_from_xyz p) with [] => 0 | a :: _ => a end = path_length p.
Proof.
  rewrite rev_head_last. unfold lengths_from_xyz, np_cumsum. rewrite last_cumsum.
  rewrite path_length_sum, Rplus_0_l. f_equal. apply map_ext. intros [a b]. cbn. rewrite vdist_sym. reflexivity.
Qed.

Section Facts.
  Context {Q : Type}.
  Variable seg : Q -> Q -> R -> Q.
  Implicit Types t : traj Q.

  (** ** The constructor *)
  Lemma new_traj_mismatch loc pos ep (q : list Q) ts nm al sp so :
    length q <> length pos -> new_traj loc pos ep (Some q) ts nm al sp so = Err ValueError.
  Proof.
    intro H. unfold new_traj. destruct (Nat.eqb_spec (length q) (length pos)); [contradiction|]. reflexivity.
  Qed.

  Lemma new_traj_ok loc pos ep (r : option (list Q)) ts nm al sp so :
    (forall p, length (loc p) = length p) -> pos <> [] ->
    match r with Some q => length q = length pos | None => True end ->
    match ts with Some l => length l = length pos | None => True end ->
    exists t g, new_traj loc pos ep r ts nm al sp so = Ok t /\ consistent t /\
      xyz t = pos /\ rot t = r /\
      tstamps t = match ts with Some l => l | None => map INR (seq 0 (length pos)) end /\
      gradient_3d (loc pos) (tstamps t) = Ok g /\
      arc t = match al with
              | Some a => if (length a =? length pos)%nat then a else lengths_from_xyz (loc pos)
              | None => lengths_from_xyz (loc pos) end /\
      speed t = match sp with
                | Some v => if (length v =? length pos)%nat then v else g
                | None => g end /\
      srt t = so /\ name t = nm /\ epsg t = ep.
  Proof.
    intros Hloc Hne Hr Hts. unfold new_traj.
    assert (Hmis : match r with Some q => negb (length q =? length pos)%nat | None => false end = false).
    { destruct r; [|reflexivity]. rewrite Hr, Nat.eqb_refl. reflexivity. }
    rewrite Hmis. set (times := match ts with None => map INR (seq 0 (length pos)) | Some t => t end).
    assert (Hlt : length times = length pos).
    { unfold times. destruct ts; [exact Hts|]. rewrite map_length, seq_length. reflexivity. }
    assert (Hlne : loc pos <> []).
    { intro E. specialize (Hloc pos). rewrite E in Hloc. cbn in Hloc. destruct pos; [contradiction|discriminate]. }
    destruct (gradient_ok (loc pos) times) as [g Hg]; [rewrite Hloc; auto|].
    assert (Hgl : length g = length pos).
    { rewrite <- (Hloc pos). apply (gradient_length (loc pos) times g); auto. rewrite Hloc; auto. }
    assert (Hll : length (lengths_from_xyz (loc pos)) = length pos) by (rewrite lengths_length; auto).
    assert (Hv : exists v, match sp with
                | Some s => if (length s =? length pos)%nat then Ok s else gradient_3d (loc pos) times
                | None => gradient_3d (loc pos) times end = Ok v /\
                v = match sp with
                | Some v => if (length v =? length pos)%nat then v else g
                | None => g end /\ length v = length pos).
    { destruct sp as [s|]; [|eauto]. destruct (Nat.eqb_spec (length s) (length pos)); eauto. }
    destruct Hv as [v [-> [Ev Hvl]]]. cbn [bind].
    eexists; exists g; split; [reflexivity|]. cbn. repeat split; auto.
    destruct al as [a|]; [|auto]. destruct (Nat.eqb_spec (length a) (length pos)); auto.
  Qed.

  (** ** Histories *)
  Lemma interpolate_meta t req t' :
    interpolate seg t req = Ok t' -> same_meta t t'.
  Proof.
    intro H. unfold interpolate in H.
    inv_bind H. inv_bind H. inv_bind H. inv_bind H. inv_bind H. injection H as <-.
    unfold interpolate_positions in Ha0. inv_bind Ha0. inv_bind Ha0. inv_bind Ha0. injection Ha0 as <-.
    unfold interpolate_rotations in Ha1. cbn [rot set_xyz] in Ha1.
    destruct (rot t) as [r|] eqn:Er.
    - destruct (length a =? 0)%nat.
      + injection Ha1 as <-. unfold same_meta; cbn. rewrite Er. repeat split; auto.
      + inv_bind Ha1. injection Ha1 as <-. unfold same_meta; cbn. rewrite Er. repeat split; auto; discriminate.
    - injection Ha1 as <-. unfold same_meta; cbn. rewrite Er. repeat split; auto.
  Qed.

  Lemma same_meta_refl t : same_meta t t.
  Proof. repeat split; auto. Qed.
  Lemma same_meta_trans t1 t2 t3 : same_meta t1 t2 -> same_meta t2 t3 -> same_meta t1 t3.
  Proof. intros [A1 [A2 [A3 A4]]] [B1 [B2 [B3 B4]]]. repeat split; try congruence; tauto. Qed.

  Lemma np_index_incl {A} (l : list A) ix l' : np_index l ix = Ok l' -> incl l' l.
  Proof.
    destruct ix as [i|[|b m]]; cbn [np_index].
    - intros H a Ha. apply In_nth_error in Ha as [p Hp].
      assert (Hn := np_take_nth _ _ _ H p). rewrite Hp in Hn.
      destruct (nth_error i p); [|discriminate]. destruct (py_index _ _); [|discriminate].
      eapply nth_error_In; symmetry; exact Hn.
    - intro H; injection H as <-. intros a [].
    - intros H. apply np_mask_spec in H as [_ ->]. intros a Ha. apply in_map_iff in Ha as [[x c] [<- H]].
      apply filter_In in H as [H _]. apply in_combine_l in H. exact H.
  Qed.

  (** Everything but interpolation is an indexing step. *)
  Lemma op_is_index t o t' :
    consistent t -> ~ is_interpolate o -> apply_op seg t o = Ok t' ->
    consistent t' /\ same_meta t t' /\ incl (poses t') (poses t).
  Proof.
    intros Hc Hni H. assert (Hix : forall (u : traj Q) ix u', consistent u -> apply_index u ix = Ok u' ->
       consistent u' /\ same_meta u u' /\ incl (poses u') (poses u)).
    { intros u ix u' Hu Hu'. destruct (apply_index_ok u ix u' Hu Hu') as [A [B C]].
      split; [exact A|]. split; [exact B|]. eapply np_index_incl; exact C. }
    destruct o; cbn in H.
    - eapply Hix; eassumption.
    - unfold crop in H. eapply Hix; eassumption.
    - unfold match_timestamps in H. eapply Hix; eassumption.
    - unfold intersect in H. inv_bind H. destruct a as [[t0 t1]|]; [|discriminate].
      inv_bind H. inv_bind H. destruct (Hix _ _ _ Hc Ha0) as [A [B C]]. destruct (Hix _ _ _ A H) as [D [E F]].
      split; [exact D|]. split; [eapply same_meta_trans; eassumption|]. eapply incl_tran; eassumption.
    - destruct (Hni I).
  Qed.

  Lemma op_consistent t o t' :
    consistent t -> apply_op seg t o = Ok t' -> (is_interpolate o -> tstamps t' <> []) ->
    consistent t' /\ same_meta t t'.
  Proof.
    intros Hc H Hi. assert (Hd : is_interpolate o \/ ~ is_interpolate o) by (destruct o; cbn; tauto).
    destruct Hd as [Hd|Hd]; [|destruct (op_is_index t o t' Hc Hd H) as [A [B _]]; split; assumption].
    destruct o; try destruct Hd. cbn in H. split; [eapply interpolate_lengths; [exact H | apply Hi; exact I] | eapply interpolate_meta; exact H].
  Qed.

  Lemma history_consistent t ops t' :
    consistent t -> history seg t ops t' -> consistent t' /\ same_meta t t'.
  Proof.
    intros Hc H. induction H as [t|t o t1 ops t' Ho Hi Hh IH].
    - split; [exact Hc | apply same_meta_refl].
    - destruct (op_consistent t o t1 Hc Ho Hi) as [A B]. destruct (IH A) as [C D].
      split; [exact C | eapply same_meta_trans; eassumption].
  Qed.

  Lemma history_subset t ops t' :
    consistent t -> Forall (fun o => ~ is_interpolate o) ops -> history seg t ops t' ->
    incl (poses t') (poses t).
  Proof.
    intros Hc Hf H. induction H as [t|t o t1 ops t' Ho Hi Hh IH]; [apply incl_refl|].
    inversion Hf as [|? ? Hno Hf']; subst.
    destruct (op_is_index t o t1 Hc Hno Ho) as [A [_ B]]. eapply incl_tran; [apply IH; assumption | exact B].
  Qed.

  Lemma poses_sorted t : consistent t -> (time_sorted t <-> StronglySorted (fun p q => p_t p <= p_t q) (poses t)).
  Proof.
    intro Hc. destruct (poses_components t Hc) as [E _]. unfold time_sorted. rewrite <- E.
    generalize (poses t). intro l. induction l as [|p l IH]; [split; constructor|]. cbn. split; intro H.
    - inversion H as [|? ? Hs Hf]; subst. constructor; [apply IH; exact Hs|].
      rewrite Forall_forall in *. intros q Hq. apply Hf. apply in_map. exact Hq.
    - inversion H as [|? ? Hs Hf]; subst. constructor; [apply IH; exact Hs|].
      rewrite Forall_forall in *. intros q Hq. apply in_map_iff in Hq as [x [<- Hx]]. apply Hf. exact Hx.
  Qed.

  Lemma strictly_sorted_sorted l : StronglySorted Rlt l -> StronglySorted Rle l.
  Proof.
    induction 1 as [|x l Hs IH Hf]; constructor; auto.
    eapply Forall_impl; [|exact Hf]. intros; lra.
  Qed.

  Lemma op_sorted t o t' :
    consistent t -> time_sorted t -> ~ is_index o -> apply_op seg t o = Ok t' -> time_sorted t'.
  Proof.
    intros Hc Hs Hno H. destruct o as [ix|a b inv|ts|ts gap|ts]; cbn in H.
    - destruct (Hno I).
    - destruct (crop_spec t a b inv Hc) as [t1 [E [Hc1 [_ Hp]]]]. rewrite H in E; injection E as <-.
      apply poses_sorted; [exact Hc1|]. rewrite Hp. apply StronglySorted_filter. apply poses_sorted; assumption.
    - destruct (match_timestamps_spec t ts Hc) as [t1 [E [Hc1 [_ [Hss _]]]]]. rewrite H in E; injection E as <-.
      apply strictly_sorted_sorted. exact Hss.
    - destruct ts as [|x ts]; [rewrite intersect_empty in H by auto; discriminate|].
      destruct (tstamps t) as [|y yt] eqn:Et; [rewrite intersect_empty in H by auto; discriminate|].
      destruct (min_exists (x :: ts)) as [a0 A0]; [discriminate|].
      destruct (max_exists (x :: ts)) as [a1 A1]; [discriminate|].
      destruct (min_exists (tstamps t)) as [b0 B0]; [rewrite Et; discriminate|].
      destruct (max_exists (tstamps t)) as [b1 B1]; [rewrite Et; discriminate|].
      destruct (Rle_lt_dec (Rmax a0 b0) (Rmin a1 b1)) as [Hov|Hov].
      + destruct (intersect_spec t _ gap a0 a1 b0 b1 Hc A0 A1 B0 B1 Hov) as [t1 [keep [E [Hc1 [_ [Hp _]]]]]].
        rewrite H in E; injection E as <-. apply poses_sorted; [exact Hc1|]. rewrite Hp.
        apply StronglySorted_filter. apply poses_sorted; assumption.
      + rewrite (intersect_no_overlap t _ gap a0 a1 b0 b1 A0 A1 B0 B1 Hov) in H. discriminate.
    - unfold interpolate in H. inv_bind H. inv_bind H. inv_bind H. inv_bind H. inv_bind H. injection H as <-.
      unfold time_sorted; cbn. apply crop_request_inv in Ha as [[_ ->]|[lo [hi [_ [_ ->]]]]]; [constructor|].
      apply StronglySorted_filter, np_sort_sorted.
  Qed.

  Lemma history_sorted t ops t' :
    consistent t -> time_sorted t -> Forall (fun o => ~ is_index o) ops -> history seg t ops t' -> time_sorted t'.
  Proof.
    intros Hc Hs Hf H. revert Hs Hf Hc. induction H as [t|t o t1 ops t' Ho Hi Hh IH]; intros Hs Hf Hc; [exact Hs|].
    inversion Hf as [|? ? Hno Hf']; subst.
    destruct (op_consistent t o t1 Hc Ho Hi) as [A _].
    apply IH; auto. apply (op_sorted t o t1); assumption.
  Qed.

  (** ** Sorted views *)
  Lemma sort_key_length t : consistent t -> length (sort_key t) = tlen t.
  Proof. intros [H1 [_ [H3 _]]]. unfold sort_key, tlen. destruct (srt t); assumption. Qed.

  Lemma sorting_index_key argsort t : sorting_index argsort t = argsort (sort_key t).
  Proof. unfold sorting_index, sort_key. destruct (srt t); reflexivity. Qed.

  Lemma sorting_index_perm argsort t :
    argsort_contract argsort -> consistent t -> Permutation (sorting_index argsort t) (seq 0 (tlen t)).
  Proof.
    intros Ha Hc. rewrite sorting_index_key, <- (sort_key_length t Hc). apply Ha.
  Qed.

  Lemma sorted_view {A} argsort t (l : list A) :
    argsort_contract argsort -> consistent t -> length l = tlen t ->
    exists l', np_take l (map Z.of_nat (sorting_index argsort t)) = Ok l' /\ Permutation l' l /\
      (forall p, nth_error l' p =
         match nth_error (sorting_index argsort t) p with Some i => nth_error l i | None => None end) /\
      np_take l' (map Z.of_nat (sort_switching_index argsort t)) = Ok l.
  Proof.
    intros Ha Hc Hl. assert (Hp := sorting_index_perm argsort t Ha Hc).
    destruct (np_take_perm l (sorting_index argsort t)) as [l' [E [P N]]]; [rewrite Hl; exact Hp|].
    exists l'. split; [exact E|]. split; [exact P|]. split; [exact N|].
    assert (Hinv := argsort_of_perm_inverse argsort (tlen t) _ Ha Hp).
    assert (Hl' : length l' = tlen t) by (rewrite (Permutation_length P); exact Hl).
    assert (Hsl : length (sort_switching_index argsort t) = tlen t).
    { unfold sort_switching_index. rewrite argsort_length by exact Ha.
      rewrite map_length, (Permutation_length Hp), seq_length. reflexivity. }
    assert (Hrange : Forall (fun i => (i < length l')%nat) (sort_switching_index argsort t)).
    { rewrite Hl'. unfold sort_switching_index.
      assert (H := argsort_range argsort (map INR (sorting_index argsort t)) Ha).
      rewrite map_length, (Permutation_length Hp), seq_length in H. exact H. }
    destruct (np_take_nat l' _ Hrange) as [l2 [E2 N2]]. rewrite E2. f_equal.
    apply nth_error_ext. intro p. rewrite N2.
    destruct (Nat.lt_ge_cases p (tlen t)) as [Hlt|Hge].
    - destruct (Hinv p Hlt) as [i [Hi Hip]]. unfold sort_switching_index. rewrite Hi, N, Hip. reflexivity.
    - replace (nth_error (sort_switching_index argsort t) p) with (@None nat).
      + symmetry. apply nth_error_None. lia.
      + symmetry. apply nth_error_None. lia.
  Qed.

  Lemma sorted_view_keys argsort t :
    argsort_contract argsort -> consistent t ->
    exists f, function_of argsort t = Ok f /\ StronglySorted Rle f /\ Permutation f (sort_key t).
  Proof.
    intros Ha Hc. destruct (sorted_view argsort t (sort_key t) Ha Hc (sort_key_length t Hc)) as [f [E [P [N _]]]].
    exists f. split; [exact E|]. split; [|exact P].
    rewrite sorting_index_key in N. eapply argsort_take_sorted; [exact Ha | exact N].
  Qed.

  (** Writing a processed sorted view back. *)
  Lemma write_back {A} argsort t (pa : list A) :
    argsort_contract argsort -> consistent t -> length pa = tlen t ->
    exists p', np_take pa (map Z.of_nat (sort_switching_index argsort t)) = Ok p' /\ length p' = tlen t /\
      forall k i, nth_error (sorting_index argsort t) k = Some i -> nth_error p' i = nth_error pa k.
  Proof.
    intros Ha Hc Hl. assert (Hp := sorting_index_perm argsort t Ha Hc).
    assert (Hinv := argsort_of_perm_inverse argsort (tlen t) _ Ha Hp).
    assert (Hsl : length (sort_switching_index argsort t) = tlen t).
    { unfold sort_switching_index. rewrite argsort_length by exact Ha.
      rewrite map_length, (Permutation_length Hp), seq_length. reflexivity. }
    assert (Hrange : Forall (fun i => (i < length pa)%nat) (sort_switching_index argsort t)).
    { rewrite Hl. unfold sort_switching_index.
      assert (H := argsort_range argsort (map INR (sorting_index argsort t)) Ha).
      rewrite map_length, (Permutation_length Hp), seq_length in H. exact H. }
    destruct (np_take_nat pa _ Hrange) as [p' [E N]]. exists p'. split; [exact E|]. split.
    - apply np_take_length in E. rewrite map_length in E. lia.
    - intros k i Hk. assert (Hi : (i < tlen t)%nat).
      { assert (Hr := perm_seq_range _ _ Hp). rewrite Forall_forall in Hr. apply Hr. eapply nth_error_In; exact Hk. }
      destruct (Hinv i Hi) as [k' [Hk1 Hk2]]. rewrite N. unfold sort_switching_index at 1. rewrite Hk1.
      assert (Hnd : NoDup (sorting_index argsort t)).
      { eapply Permutation_NoDup; [symmetry; exact Hp | apply seq_NoDup]. }
      f_equal. eapply NoDup_nth_error_inj; eassumption.
  Qed.

  Lemma approximate_ok argsort cubic win t :
    argsort_contract argsort -> consistent t ->
    (forall f p, length f = length p -> exists pa, cubic f p = Ok pa /\ length pa = length p) ->
    (forall f q, length f = length q -> exists qa, win f q = Ok qa /\ length qa = length q) ->
    exists t' f p pa,
      approximate argsort cubic win t = Ok t' /\
      function_of argsort t = Ok f /\ xyz_sorted argsort t = Ok p /\ cubic f p = Ok pa /\
      consistent t' /\ tstamps t' = tstamps t /\ arc t' = arc t /\ speed t' = speed t /\ same_meta t t' /\
      (forall k i, nth_error (sorting_index argsort t) k = Some i -> nth_error (xyz t') i = nth_error pa k) /\
      (match rot t with
       | None => rot t' = None
       | Some r =>
           exists r' q qa, rot t' = Some r' /\
             (r <> [] -> quat_sorted argsort t = Ok q /\ win f q = Ok qa /\
              forall k i, nth_error (sorting_index argsort t) k = Some i -> nth_error r' i = nth_error qa k)
       end).
  Proof.
    intros Ha Hc Hcub Hwin.
    assert (Hc' := Hc). destruct Hc' as [H1 [H2 [H3 H4]]].
    destruct (sorted_view argsort t (sort_key t) Ha Hc (sort_key_length t Hc)) as [f [Ef [Pf _]]].
    destruct (sorted_view argsort t (xyz t) Ha Hc eq_refl) as [p [Ep [Pp _]]].
    assert (Hfl : length f = tlen t) by (rewrite (Permutation_length Pf); apply sort_key_length; exact Hc).
    assert (Hpl : length p = tlen t) by (rewrite (Permutation_length Pp); reflexivity).
    destruct (Hcub f p) as [pa [Epa Hpal]]; [lia|].
    destruct (write_back argsort t pa Ha Hc ltac:(lia)) as [p' [Ep' [Hpl' Np']]].
    assert (Ef' : function_of argsort t = Ok f) by exact Ef.
    assert (Ep2 : xyz_sorted argsort t = Ok p) by exact Ep.
    unfold approximate. rewrite Ef', Ep2. cbn [bind]. rewrite Epa. cbn [bind]. rewrite Ep'. cbn [bind].
    unfold has_orientation. cbn [rot set_xyz].
    destruct (rot t) as [r|] eqn:Er.
    - destruct (Nat.eqb_spec (length r) 0) as [E0|E0]; cbn [negb].
      + eexists _, f, p, pa. split; [reflexivity|]. split; [reflexivity|]. split; [reflexivity|]. split; [exact Epa|].
        unfold consistent, same_meta; cbn. rewrite Er. unfold tlen in *. repeat split; auto; try lia; try discriminate.
        exists r, r, r. split; [reflexivity|]. intro Hr. destruct r; [contradiction|discriminate].
      + destruct (sorted_view argsort t r Ha Hc H2) as [q [Eq [Pq _]]].
        assert (Hql : length q = tlen t) by (rewrite (Permutation_length Pq); exact H2).
        destruct (Hwin f q) as [qa [Eqa Hqal]]; [lia|].
        destruct (write_back argsort t qa Ha Hc ltac:(lia)) as [q' [Eq' [Hql' Nq']]].
        unfold quat_sorted. rewrite Er, Eq. cbn [bind]. rewrite Eqa. cbn [bind]. rewrite Eq'. cbn [bind].
        eexists _, f, p, pa. split; [reflexivity|]. split; [reflexivity|]. split; [reflexivity|]. split; [exact Epa|].
        unfold consistent, same_meta; cbn. rewrite Er. unfold tlen in *. repeat split; auto; try lia; try discriminate.
        exists q', q, qa. auto.
    - cbn [negb]. eexists _, f, p, pa. split; [reflexivity|]. split; [reflexivity|]. split; [reflexivity|]. split; [exact Epa|].
      unfold consistent, same_meta; cbn. rewrite Er. unfold tlen in *. repeat split; auto; try lia.
  Qed.
End Facts.

Section Facts2.
  Context {Q : Type}.
  Variable seg : Q -> Q -> R -> Q.
  Implicit Types t : traj Q.

  Lemma apply_index_int_raises t idx :
    consistent t ->
    (apply_index t (IInt idx) = Err IndexError <->
     exists z, In z idx /\ ~ (- Z.of_nat (tlen t) <= z < Z.of_nat (tlen t))%Z) /\
    (forall e, apply_index t (IInt idx) = Err e -> e = IndexError).
  Proof.
    intro Hc. assert (Hl := poses_length t Hc). split.
    - split.
      + intro H. destruct (apply_index_err t _ _ Hc H) as [_ Hp]. cbn [np_index] in Hp.
        apply mapM_Err in Hp as [z [Hz Hg]]. exists z. split; [exact Hz|]. intro Hr. rewrite <- Hl in Hr.
        apply np_get_in_range in Hr as [a Ha]. congruence.
      + intros [z [Hz Hr]]. destruct (apply_index t (IInt idx)) as [t'|e] eqn:E.
        * exfalso. destruct (apply_index_ok t _ t' Hc E) as [_ [_ Hp]]. cbn [np_index] in Hp.
          assert (Hf : Forall (fun z => (- Z.of_nat (length (poses t)) <= z < Z.of_nat (length (poses t)))%Z) idx)
            by (apply np_take_ok_iff; eauto).
          rewrite Forall_forall in Hf. apply Hr. rewrite <- Hl. apply Hf. exact Hz.
        * apply apply_index_err in E as [-> _]; auto.
    - intros e H. apply apply_index_err in H; tauto.
  Qed.

  Lemma apply_index_mask_raises t m :
    consistent t -> m <> [] ->
    (apply_index t (IMask m) = Err IndexError <-> length m <> tlen t) /\
    (forall e, apply_index t (IMask m) = Err e -> e = IndexError).
  Proof.
    intros Hc Hne. assert (Hl := poses_length t Hc). split.
    - split.
      + intros H E. destruct (apply_index_err t _ _ Hc H) as [_ Hp]. destruct m as [|b m]; [contradiction|].
        cbn [np_index] in Hp. unfold np_mask in Hp. rewrite Hl, E, Nat.eqb_refl in Hp. discriminate.
      + intro E. destruct (apply_index t (IMask m)) as [t'|e] eqn:Ea.
        * exfalso. apply E. eapply apply_index_mask_spec; eassumption.
        * apply apply_index_err in Ea as [-> _]; auto.
    - intros e H. apply apply_index_err in H; tauto.
  Qed.

  Lemma crop_kept t a b :
    consistent t ->
    exists t1 t2, crop t a b false = Ok t1 /\ crop t a b true = Ok t2 /\
      consistent t1 /\ consistent t2 /\ same_meta t t1 /\ same_meta t t2 /\
      kept (fun p => a <= p_t p <= b) (poses t) (poses t1) /\
      kept (fun p => ~ (a <= p_t p <= b)) (poses t) (poses t2) /\
      Permutation (poses t1 ++ poses t2) (poses t) /\
      crop t1 a b false = Ok t1 /\ crop t2 a b true = Ok t2.
  Proof.
    intro Hc. destruct (crop_spec t a b false Hc) as [t1 [E1 [C1 [M1 P1]]]].
    destruct (crop_spec t a b true Hc) as [t2 [E2 [C2 [M2 P2]]]].
    exists t1, t2. repeat (split; [assumption|]). split; [|split; [|split; [|split]]].
    - rewrite P1. apply kept_filter. intros p _. apply in_span_true.
    - rewrite P2. apply kept_filter. intros p _. rewrite in_span_inverse.
      rewrite <- (in_span_true a b p). destruct (in_span a b false p); cbn; intuition congruence.
    - eapply crop_partition; eassumption.
    - apply (crop_idempotent t a b false t1); assumption.
    - apply (crop_idempotent t a b true t2); assumption.
  Qed.

  Lemma intersect_kept t ts gap a0 a1 b0 b1 :
    consistent t -> is_min ts a0 -> is_max ts a1 ->
    is_min (tstamps t) b0 -> is_max (tstamps t) b1 ->
    (Rmax a0 b0 <= Rmin a1 b1 ->
     exists t', intersect t ts gap = Ok t' /\ consistent t' /\ same_meta t t' /\
       kept (fun p => Rmax a0 b0 <= p_t p <= Rmin a1 b1 /\ supported ts gap (p_t p)) (poses t) (poses t')) /\
    (Rmin a1 b1 < Rmax a0 b0 <-> intersect t ts gap = Err ValueError) /\
    (forall e, intersect t ts gap = Err e -> e = ValueError).
  Proof.
    intros Hc A0 A1 B0 B1.
    assert (H1 : Rmax a0 b0 <= Rmin a1 b1 ->
     exists t', intersect t ts gap = Ok t' /\ consistent t' /\ same_meta t t' /\
       kept (fun p => Rmax a0 b0 <= p_t p <= Rmin a1 b1 /\ supported ts gap (p_t p)) (poses t) (poses t')).
    { intro Hov. destruct (intersect_spec t ts gap a0 a1 b0 b1 Hc A0 A1 B0 B1 Hov) as [t' [keep [E [C [M [P K]]]]]].
      exists t'. repeat (split; [assumption|]). rewrite P. apply kept_filter. exact K. }
    split; [exact H1|]. destruct (Rle_lt_dec (Rmax a0 b0) (Rmin a1 b1)) as [Hov|Hov].
    - destruct (H1 Hov) as [t' [E _]]. split.
      + split; [intro; lra|]. rewrite E; discriminate.
      + intros e He. congruence.
    - assert (E := intersect_no_overlap t ts gap a0 a1 b0 b1 A0 A1 B0 B1 Hov). split.
      + split; auto.
      + intros e He. congruence.
  Qed.

  Lemma filter_in_range lo hi l x : In x (filter (in_range lo hi) l) <-> In x l /\ lo <= x <= hi.
  Proof.
    rewrite filter_In. unfold in_range. rewrite andb_true_iff, !Rleb_true. tauto.
  Qed.

  Lemma in_range_kept lo hi l : kept (fun x => lo <= x <= hi) l (filter (in_range lo hi) l).
  Proof. apply kept_filter. intros a _. unfold in_range. rewrite andb_true_iff, !Rleb_true. tauto. Qed.

  (** Ends of a strictly increasing timestamp list are its extremes. *)
  Lemma sorted_first_is_min l a : StronglySorted Rlt l -> np_get l 0 = Ok a -> is_min l a.
  Proof.
    intros Hs H. apply np_get_ok in H as [k [Hk Ha]]. apply py_index_Some in Hk.
    assert (k = 0)%nat by lia. subst k.
    split; [eapply nth_error_In; exact Ha|]. intros y Hy. apply In_nth_error in Hy as [j Hj].
    destruct j as [|j]; [replace y with a by congruence; lra|].
    rewrite StronglySorted_nth in Hs. apply Rlt_le. apply (Hs 0%nat (S j) a y); auto; lia.
  Qed.
  Lemma sorted_last_is_max l a : StronglySorted Rlt l -> np_get l (-1) = Ok a -> is_max l a.
  Proof.
    intros Hs H. apply np_get_ok in H as [k [Hk Ha]]. apply py_index_Some in Hk.
    assert (k = length l - 1)%nat by lia. subst k.
    split; [eapply nth_error_In; exact Ha|]. intros y Hy. apply In_nth_error in Hy as [j Hj].
    destruct (Nat.eq_dec j (length l - 1)) as [->|]; [replace y with a by congruence; lra|].
    rewrite StronglySorted_nth in Hs. apply Rlt_le. apply (Hs j (length l - 1)%nat y a); auto.
    apply nth_error_Some_lt in Hj. lia.
  Qed.

  Lemma interpolate_timestamps t req lo hi :
    consistent t -> strictly_time_sorted t -> (rot t = None \/ (2 <= tlen t)%nat) ->
    is_min (tstamps t) lo -> is_max (tstamps t) hi ->
    exists t' s, interpolate seg t req = Ok t' /\
      Permutation s req /\ StronglySorted Rle s /\ kept (fun x => lo <= x <= hi) s (tstamps t') /\
      length (xyz t') = length (tstamps t') /\ same_meta t t'.
  Proof.
    intros Hc Hs Hr Hlo Hhi.
    assert (Hpos : (0 < tlen t)%nat).
    { destruct Hc as [H1 _]. destruct Hlo as [Hlo _]. unfold tlen. rewrite <- H1.
      destruct (tstamps t); [destruct Hlo|cbn; lia]. }
    destruct (interpolate_ok seg t req Hc Hs Hpos Hr) as [lo' [hi' [t' [G0 [G1 [E [Et [Ex _]]]]]]]].
    assert (lo' = lo) by (eapply is_min_unique; [apply (sorted_first_is_min _ _ Hs G0)|exact Hlo]).
    assert (hi' = hi) by (eapply is_max_unique; [apply (sorted_last_is_max _ _ Hs G1)|exact Hhi]). subst.
    exists t', (np_sort req). split; [exact E|]. split; [apply np_sort_perm|]. split; [apply np_sort_sorted|].
    split; [rewrite Et; apply in_range_kept|]. split; [rewrite Ex, map_length; reflexivity|].
    eapply interpolate_meta; exact E.
  Qed.

  (** Every requested time in range sits on a knot or inside a segment. *)
  Lemma interpolate_positions_spec t req t' i x :
    consistent t -> strictly_time_sorted t -> (rot t = None \/ (2 <= tlen t)%nat) ->
    interpolate seg t req = Ok t' -> nth_error (tstamps t') i = Some x ->
    (exists k p, nth_error (tstamps t) k = Some x /\ nth_error (xyz t) k = Some p /\ nth_error (xyz t') i = Some p) \/
    (exists k a b p q, nth_error (tstamps t) k = Some a /\ nth_error (tstamps t) (S k) = Some b /\ a < x < b /\
       nth_error (xyz t) k = Some p /\ nth_error (xyz t) (S k) = Some q /\
       nth_error (xyz t') i = Some (lerp p q ((x - a) / (b - a)))).
  Proof.
    intros Hc Hs Hr E Hi.
    assert (Hpos : (0 < tlen t)%nat).
    { destruct Hc as [H1 _]. unfold tlen. rewrite <- H1. destruct (tstamps t) as [|u l] eqn:Et; [|cbn; lia].
      exfalso. unfold interpolate in E. rewrite Et in E. inv_bind E. inv_bind E.
      unfold interpolate_positions in Ha0. rewrite Et in Ha0. cbn in Ha0. discriminate. }
    destruct (interpolate_ok seg t req Hc Hs Hpos Hr) as [lo [hi [t2 [G0 [G1 [E2 [Et _]]]]]]].
    rewrite E in E2; injection E2 as <-.
    assert (Hx : lo <= x <= hi) by (eapply filter_in_range; rewrite <- Et; eapply nth_error_In; exact Hi).
    assert (Hc' := Hc). destruct Hc' as [H1 _].
    apply np_get_ok in G0 as [k0 [Hk0 G0]]. apply py_index_Some in Hk0.
    apply np_get_ok in G1 as [k1 [Hk1 G1]]. apply py_index_Some in Hk1.
    replace k0 with 0%nat in G0 by lia. replace k1 with (length (tstamps t) - 1)%nat in G1 by lia.
    destruct (bracket_exists (tstamps t) x lo hi Hs G0 G1 Hx) as [[k Hk]|[k [a [b [Ha [Hb Hab]]]]]].
    - left. destruct (nth_error_lt_Some (xyz t) k) as [p Hp]; [apply nth_error_Some_lt in Hk; lia|].
      exists k, p. split; [exact Hk|]. split; [exact Hp|]. eapply interpolate_knot; eassumption.
    - right. destruct (nth_error_lt_Some (xyz t) k) as [p Hp]; [apply nth_error_Some_lt in Ha; lia|].
      destruct (nth_error_lt_Some (xyz t) (S k)) as [q Hq]; [apply nth_error_Some_lt in Hb; lia|].
      exists k, a, b, p, q. repeat (split; [assumption|]).
      eapply interpolate_segment; try eassumption. lra.
  Qed.

  Lemma interpolate_affine t req t' c v i x :
    consistent t -> strictly_time_sorted t -> (rot t = None \/ (2 <= tlen t)%nat) ->
    (forall k s p, nth_error (tstamps t) k = Some s -> nth_error (xyz t) k = Some p -> p = vadd c (vscale s v)) ->
    interpolate seg t req = Ok t' -> nth_error (tstamps t') i = Some x ->
    nth_error (xyz t') i = Some (vadd c (vscale x v)).
  Proof.
    intros Hc Hs Hr Haff E Hi.
    destruct (interpolate_positions_spec t req t' i x Hc Hs Hr E Hi)
      as [[k [p [Hk [Hp ->]]]]|[k [a [b [p [q [Ha [Hb [Hx [Hp [Hq ->]]]]]]]]]]].
    - f_equal. eapply Haff; eassumption.
    - f_equal. rewrite (Haff k a p Ha Hp), (Haff (S k) b q Hb Hq).
      unfold lerp. v3; field; lra.
  Qed.

  Lemma interpolate_xyz_length t req t' :
    interpolate seg t req = Ok t' -> length (xyz t') = length (tstamps t').
  Proof.
    intro E. unfold interpolate in E.
    apply bind_ok in E as [ts [_ E]]. apply bind_ok in E as [t1 [E1 E]]. apply bind_ok in E as [t2 [E2 E]].
    apply bind_ok in E as [sp [_ E]]. apply bind_ok in E as [al [_ E]]. injection E as <-. cbn.
    assert (L : length (xyz t1) = length ts).
    { unfold interpolate_positions in E1. apply bind_ok in E1 as [x [X E1]]. apply bind_ok in E1 as [y [Y E1]].
      apply bind_ok in E1 as [z [Z E1]]. injection E1 as <-. cbn. rewrite map_length.
      apply np_interp_length in X, Y, Z. apply combine3_length; assumption. }
    unfold interpolate_rotations in E2. destruct (rot t1).
    - destruct (length ts =? 0)%nat; [injection E2 as <-; exact L|].
      apply bind_ok in E2 as [q [_ E2]]. injection E2 as <-. exact L.
    - injection E2 as <-. exact L.
  Qed.

  Lemma interpolate_no_extrapolation t req t' i p :
    consistent t -> strictly_time_sorted t -> (rot t = None \/ (2 <= tlen t)%nat) ->
    interpolate seg t req = Ok t' -> nth_error (xyz t') i = Some p ->
    (exists k, nth_error (xyz t) k = Some p) \/
    (exists k a b w, nth_error (xyz t) k = Some a /\ nth_error (xyz t) (S k) = Some b /\ 0 < w < 1 /\ p = lerp a b w).
  Proof.
    intros Hc Hs Hr E Hi.
    assert (Hne : tstamps t' <> []).
    { intro E0. assert (L := interpolate_xyz_length t req t' E). rewrite E0 in L.
      apply nth_error_Some_lt in Hi. cbn in L. lia. }
    assert (Hc' := interpolate_lengths seg t req t' E Hne). destruct Hc' as [L1 _].
    destruct (nth_error_lt_Some (tstamps t') i) as [x Hx]; [apply nth_error_Some_lt in Hi; lia|].
    destruct (interpolate_positions_spec t req t' i x Hc Hs Hr E Hx)
      as [[k [p' [Hk [Hp Ei]]]]|[k [a [b [p' [q [Ha [Hb [Hab [Hp [Hq Ei]]]]]]]]]]].
    - left. exists k. congruence.
    - right. exists k, p', q, ((x - a) / (b - a)). split; [exact Hp|]. split; [exact Hq|].
      split; [|congruence]. split.
      + apply Rdiv_lt_0_compat; lra.
      + apply Rmult_lt_reg_r with (b - a); [lra|]. unfold Rdiv. rewrite Rmult_assoc, Rinv_l by lra. lra.
  Qed.
End Facts2.
