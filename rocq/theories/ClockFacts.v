(** The array primitives and the trajectory operations under a change of clock. *)
From Verif Require Import Base BaseFacts VecFacts NumpyModel NumpyFacts TrajModel TrajFacts EvalModel EvalFacts ViewFacts ClockSpec.

Lemma rmap_comp {A B C} (f : A -> B) (g : B -> C) r : rmap g (rmap f r) = rmap (fun a => g (f a)) r.
Proof. destruct r; reflexivity. Qed.
Lemma bind_rmap_r {A B C} (r : result A) (k : A -> result B) (g : B -> C) : rmap g (bind r k) = bind r (fun a => rmap g (k a)).
Proof. destruct r; reflexivity. Qed.
Lemma bind_ext {A B} (r : result A) (k k' : A -> result B) : (forall a, r = Ok a -> k a = k' a) -> bind r k = bind r k'.
Proof. destruct r; cbn; auto. Qed.
Lemma mapM_rmap {A B C} (f : A -> result B) (g : B -> C) l : mapM (fun a => rmap g (f a)) l = rmap (map g) (mapM f l).
Proof. induction l as [|a l IH]; cbn; [reflexivity|]. destruct (f a); cbn; [|reflexivity]. rewrite IH. destruct (mapM f l); reflexivity. Qed.
Lemma pairs_map {A B} (f : A -> B) l : pairs (map f l) = map (fun p => (f (fst p), f (snd p))) (pairs l).
Proof. unfold pairs. destruct l as [|a l]; [reflexivity|]. cbn [tl map]. revert a. induction l as [|b l IH]; intro a; [reflexivity|]. cbn. f_equal. apply IH. Qed.
Lemma enumerate_map {A B} (f : A -> B) l : enumerate (map f l) = map (fun p => (fst p, f (snd p))) (enumerate l).
Proof. unfold enumerate. rewrite map_length. generalize 0%nat. induction l as [|a l IH]; intro n; cbn; [reflexivity|]. f_equal. apply IH. Qed.

Section Clock.
  Variables s d : R.
  Hypothesis S0 : 0 < s.
  Notation tm := (on_clock s d).

  Lemma tm_leb x y : Rleb (tm x) (tm y) = Rleb x y.
  Proof. unfold on_clock, Rleb. destruct (Rle_dec (s * x + d) (s * y + d)) as [H|H], (Rle_dec x y) as [K|K]; auto; exfalso; [apply K; apply Rmult_le_reg_l with s; lra|apply H; apply Rplus_le_compat_r, Rmult_le_compat_l; lra]. Qed.
  Lemma tm_ltb x y : Rltb (tm x) (tm y) = Rltb x y.
  Proof. unfold on_clock, Rltb. destruct (Rlt_dec (s * x + d) (s * y + d)) as [H|H], (Rlt_dec x y) as [K|K]; auto; exfalso; [apply K; apply Rmult_lt_reg_l with s; lra|apply H; apply Rplus_lt_compat_r, Rmult_lt_compat_l; lra]. Qed.
  Lemma tm_inj x y : tm x = tm y -> x = y.
  Proof. unfold on_clock. intro H. apply Rmult_eq_reg_l with s; lra. Qed.
  Lemma tm_eqb x y : Reqb (tm x) (tm y) = Reqb x y.
  Proof. unfold Reqb. destruct (Req_EM_T (tm x) (tm y)) as [H|H], (Req_EM_T x y) as [K|K]; auto; exfalso; [apply K, tm_inj, H|apply H; congruence]. Qed.
  Lemma tm_max x y : Rmax (tm x) (tm y) = tm (Rmax x y).
  Proof. unfold Rmax. assert (H := tm_leb x y). unfold Rleb in H. destruct (Rle_dec (tm x) (tm y)), (Rle_dec x y); congruence. Qed.
  Lemma tm_min x y : Rmin (tm x) (tm y) = tm (Rmin x y).
  Proof. unfold Rmin. assert (H := tm_leb x y). unfold Rleb in H. destruct (Rle_dec (tm x) (tm y)), (Rle_dec x y); congruence. Qed.
  Lemma tm_diff x y : tm x - tm y = s * (x - y).
  Proof. unfold on_clock. ring. Qed.
  Lemma scaled_leb x y : Rleb (s * x) (s * y) = Rleb x y.
  Proof. unfold Rleb. destruct (Rle_dec (s * x) (s * y)) as [H|H], (Rle_dec x y) as [K|K]; auto; exfalso; [apply K; apply Rmult_le_reg_l with s; lra|apply H; apply Rmult_le_compat_l; lra]. Qed.
  Lemma scaled_ltb x y : Rltb (s * x) (s * y) = Rltb x y.
  Proof. unfold Rltb. destruct (Rlt_dec (s * x) (s * y)) as [H|H], (Rlt_dec x y) as [K|K]; auto; exfalso; [apply K; apply Rmult_lt_reg_l with s; lra|apply H; apply Rmult_lt_compat_l; lra]. Qed.
  Lemma scaled_zero x : Reqb (s * x) 0 = Reqb x 0.
  Proof. unfold Reqb. destruct (Req_EM_T (s * x) 0) as [H|H], (Req_EM_T x 0) as [K|K]; auto; exfalso; [|apply H; rewrite K; ring]. apply K. apply Rmult_integral in H as [H|H]; lra. Qed.

  (** ** Sorting and searching *)
  Lemma insert_tm x l : insert (tm x) (map tm l) = map tm (insert x l).
  Proof. induction l as [|y l IH]; cbn; [reflexivity|]. rewrite tm_leb. destruct (Rleb x y); cbn; [reflexivity|]. rewrite IH. reflexivity. Qed.
  Lemma sort_tm l : np_sort (map tm l) = map tm (np_sort l).
  Proof. unfold np_sort. induction l as [|x l IH]; cbn; [reflexivity|]. rewrite IH. apply insert_tm. Qed.
  Lemma count_map {A B} (f : A -> B) p l : count p (map f l) = count (fun a => p (f a)) l.
  Proof. unfold count. rewrite filter_map, map_length. reflexivity. Qed.
  Lemma count_ext {A} (p q : A -> bool) l : (forall a, p a = q a) -> count p l = count q l.
  Proof. intro H. unfold count. rewrite (filter_ext p q H). reflexivity. Qed.
  Lemma right_tm l x : searchsorted_right (map tm l) (tm x) = searchsorted_right l x.
  Proof. unfold searchsorted_right. rewrite count_map. apply count_ext. intro a. apply tm_leb. Qed.
  Lemma left_tm l x : searchsorted_left (map tm l) (tm x) = searchsorted_left l x.
  Proof. unfold searchsorted_left. rewrite count_map. apply count_ext. intro a. apply tm_ltb. Qed.
  Definition tm1 (p : R * nat) := (tm (fst p), snd p).
  Lemma insert_unique_tm x i l : insert_unique (tm x) i (map tm1 l) = map tm1 (insert_unique x i l).
  Proof. induction l as [|[y j] l IH]; cbn; [reflexivity|]. rewrite tm_ltb, tm_eqb. destruct (Rltb x y); [reflexivity|]. destruct (Reqb x y); [reflexivity|]. cbn. rewrite IH. reflexivity. Qed.
  Lemma unique_tm l : np_unique_index (map tm l) = map tm1 (np_unique_index l).
  Proof. unfold np_unique_index. rewrite enumerate_map. generalize (enumerate l). intro e. induction e as [|[i x] e IH]; cbn; [reflexivity|]. rewrite IH. apply insert_unique_tm. Qed.
  Lemma existsb_tm x l : existsb (Reqb (tm x)) (map tm l) = existsb (Reqb x) l.
  Proof. induction l as [|y l IH]; cbn; [reflexivity|]. rewrite tm_eqb, IH. reflexivity. Qed.
  Lemma intersect1d_tm a b : intersect1d_idx (map tm a) (map tm b) = intersect1d_idx a b.
  Proof.
    unfold intersect1d_idx. rewrite unique_tm, filter_map, map_map.
    rewrite (filter_ext _ (fun p => existsb (Reqb (fst p)) b)) by (intros [x i]; apply existsb_tm). apply map_ext. intros [x i]. reflexivity.
  Qed.

  Lemma get_tm l z : np_get (map tm l) z = rmap tm (np_get l z).
  Proof. apply np_get_map. Qed.
  Lemma span_tm a b : common_time_span (map tm a) (map tm b) = rmap (option_map (both tm)) (common_time_span a b).
  Proof.
    unfold common_time_span. rewrite !sort_tm, !get_tm. destruct (np_get (np_sort a) 0) as [a0|]; cbn [rmap bind]; [|reflexivity].
    destruct (np_get (np_sort b) 0) as [b0|]; cbn [rmap bind]; [|reflexivity]. destruct (np_get (np_sort a) (-1)) as [a1|]; cbn [rmap bind]; [|reflexivity].
    destruct (np_get (np_sort b) (-1)) as [b1|]; cbn [rmap bind]; [|reflexivity]. rewrite !tm_leb. destruct (negb _); cbn [rmap option_map]; [reflexivity|].
    unfold both. cbn [fst snd]. rewrite tm_max, tm_min. reflexivity.
  Qed.
  Lemma gap_ok_tm l g x z : gap_ok (map tm l) (s * g) (tm x) z = gap_ok l g x z.
  Proof.
    unfold gap_ok. rewrite !get_tm. destruct (np_get l z) as [low|]; cbn [rmap bind]; [|reflexivity]. rewrite tm_eqb. destruct (Reqb low x); [reflexivity|].
    destruct (np_get l (z + 1)) as [up|]; cbn [rmap bind]; [|reflexivity]. rewrite tm_diff, scaled_leb. reflexivity.
  Qed.

  (** ** Differences and interpolation *)
  Lemma diff_tm l : np_diff (map tm l) = map (Rmult s) (np_diff l).
  Proof. unfold np_diff. rewrite pairs_map, !map_map. apply map_ext. intros [a b]. cbn. apply tm_diff. Qed.
  Lemma vdiv_scaled v x : vdiv v (s * x) = vscale (/ s) (vdiv v x).
  Proof. unfold vdiv, vscale, Rdiv. cbn. rewrite Rinv_mult. apply V3_eq; cbn; ring. Qed.
  Lemma broadcast_r {A B B' C C'} (f : A -> B' -> C') (g : B -> B') (h : C -> C') (f' : A -> B -> C) l m :
    (forall a b, f a (g b) = h (f' a b)) -> broadcast f l (map g m) = rmap (map h) (broadcast f' l m).
  Proof.
    intro H. unfold broadcast. rewrite map_length. destruct (length l =? length m)%nat.
    - cbn [rmap]. f_equal. rewrite map_map. revert m. induction l as [|a l IH]; intros [|b m]; cbn; try reflexivity. rewrite H, IH. reflexivity.
    - destruct l as [|a [|a' l]]; destruct m as [|b [|b' m]]; cbn; rewrite ?H, ?map_map; try reflexivity.
      all: do 2 apply f_equal; try (apply f_equal); apply map_ext; intro; apply H.
  Qed.
  Lemma gradient_tm p l : gradient_3d p (map tm l) = rmap (map (vscale (/ s))) (gradient_3d p l).
  Proof.
    unfold gradient_3d. rewrite diff_tm, (broadcast_r vdiv (Rmult s) (vscale (/ s)) vdiv) by (intros; apply vdiv_scaled).
    destruct (broadcast _ _ (np_diff l)); cbn; [|reflexivity]. rewrite map_app. cbn. do 3 f_equal. apply V3_eq; cbn; ring.
  Qed.
  Definition tmv {A} (p : R * A) := (tm (fst p), snd p).
  Lemma combine_tm {A} l (v : list A) : combine (map tm l) v = map tmv (combine l v).
  Proof. revert v. induction l as [|x l IH]; intros [|y v]; cbn; try reflexivity. rewrite IH. reflexivity. Qed.
  Lemma interp_at_tm pts x : interp_at (map tmv pts) (tm x) = interp_at pts x.
  Proof.
    induction pts as [|[t v] rest IH]; [reflexivity|]. destruct rest as [|[t' v'] rest]; [reflexivity|].
    cbn [map tmv fst snd interp_at] in *. rewrite tm_ltb, tm_leb. destruct (Rltb x t') eqn:L; [|exact IH]. destruct (Rleb x t) eqn:K; [reflexivity|].
    apply Rltb_true in L. apply Rleb_false in K. rewrite !tm_diff. field. split; lra.
  Qed.
  Lemma interp_tm x xp fp : np_interp (map tm x) (map tm xp) fp = np_interp x xp fp.
  Proof.
    unfold np_interp. rewrite map_length, combine_tm, map_map. destruct (_ =? _)%nat; [reflexivity|]. destruct (negb _); [reflexivity|]. f_equal. apply map_ext. intro. apply interp_at_tm.
  Qed.
  Lemma slerp_at_tm {Q} (seg : Q -> Q -> R -> Q) pts x : (forall q, In q (pairs (map fst pts)) -> fst q < snd q) -> slerp_at seg (map tmv pts) (tm x) = slerp_at seg pts x.
  Proof.
    induction pts as [|[t v] rest IH]; [reflexivity|]. intro H. destruct rest as [|[t' v'] rest]; [reflexivity|].
    cbn [map tmv fst snd slerp_at] in *. rewrite tm_ltb, tm_leb. destruct (Rltb x t); [reflexivity|]. destruct (Rleb x t').
    - do 2 f_equal. rewrite !tm_diff. assert (t < t') by apply (H (t, t') (or_introl eq_refl)). field. split; lra.
    - apply IH. intros q Hq. apply H. right. exact Hq.
  Qed.
  Lemma map_fst_combine {A B} (l : list A) (m : list B) : length l = length m -> map fst (combine l m) = l.
  Proof. revert m. induction l as [|a l IH]; intros [|b m] H; cbn in *; try discriminate; [reflexivity|]. rewrite IH by lia. reflexivity. Qed.
  Lemma slerp_tm {Q} (seg : Q -> Q -> R -> Q) ts r x : slerp seg (map tm ts) r (map tm x) = slerp seg ts r x.
  Proof.
    unfold slerp. rewrite map_length. destruct (_ <=? _)%nat; [reflexivity|]. destruct (negb (_ =? _)%nat) eqn:L; [reflexivity|].
    replace (forallb (fun p => Rltb (fst p) (snd p)) (pairs (map tm ts))) with (forallb (fun p => Rltb (fst p) (snd p)) (pairs ts))
      by (rewrite pairs_map; induction (pairs ts) as [|[a b] l IH]; cbn; [reflexivity|rewrite tm_ltb, IH; reflexivity]).
    destruct (forallb _ _) eqn:F; cbn [negb]; [|reflexivity]. rewrite combine_tm, mapM_map. apply mapM_ext_in. intros a _. apply slerp_at_tm.
    intros q Hq. apply negb_false_iff, Nat.eqb_eq in L. rewrite map_fst_combine in Hq by exact L. rewrite forallb_forall in F. apply Rltb_true, F, Hq.
  Qed.

  (** ** Operations of a trajectory *)
  Context {Q : Type}.
  Implicit Types t : traj Q.
  Notation rt := (@retime Q s d).

  Lemma index_retime t ix : apply_index (rt t) ix = rmap rt (apply_index t ix).
  Proof.
    unfold apply_index. cbn [tstamps xyz rot arc speed srt name epsg retime]. rewrite !np_index_map.
    destruct (np_index (tstamps t) ix); cbn [rmap bind]; [|reflexivity]. destruct (np_index (xyz t) ix); cbn [rmap bind]; [|reflexivity].
    destruct (match rot t with Some r => rmap Some (np_index r ix) | None => Ok None end); cbn [rmap bind]; [|reflexivity].
    destruct (np_index (arc t) ix); cbn [rmap bind]; [|reflexivity]. destruct (np_index (speed t) ix); cbn [rmap bind]; reflexivity.
  Qed.
  Lemma crop_retime t a b inv : crop (rt t) (tm a) (tm b) inv = rmap rt (crop t a b inv).
  Proof.
    unfold crop. rewrite <- index_retime. cbn [tstamps retime]. do 2 f_equal. destruct inv; rewrite map_map; apply map_ext; intro x; rewrite !tm_leb; reflexivity.
  Qed.
  Lemma match_retime t ts : match_timestamps (rt t) (map tm ts) = rmap rt (match_timestamps t ts).
  Proof. unfold match_timestamps. cbn [tstamps retime]. rewrite intersect1d_tm. apply index_retime. Qed.
  Lemma intersect_retime t ts g : intersect (rt t) (map tm ts) (s * g) = rmap rt (intersect t ts g).
  Proof.
    unfold intersect. change (tstamps (rt t)) with (map tm (tstamps t)). rewrite span_tm. destruct (common_time_span ts (tstamps t)) as [[[a b]|]|]; cbn [rmap bind option_map]; [|reflexivity|reflexivity].
    unfold both. cbn [fst snd]. rewrite crop_retime. destruct (crop t a b false) as [c|]; cbn [rmap bind]; [|reflexivity].
    change (tstamps (rt c)) with (map tm (tstamps c)). rewrite sort_tm, map_map.
    replace (map (fun x => (Z.of_nat (searchsorted_right (map tm (np_sort ts)) (tm x)) - 1)%Z) (tstamps c))
      with (map (fun x => (Z.of_nat (searchsorted_right (np_sort ts) x) - 1)%Z) (tstamps c)) by (apply map_ext; intro; rewrite right_tm; reflexivity).
    rewrite combine_tm, mapM_map. rewrite (mapM_ext_in _ (fun p => gap_ok (np_sort ts) g (fst p) (snd p))) by (intros [x z] _; apply gap_ok_tm).
    destruct (mapM _ _) as [keep|]; cbn [rmap bind]; [|reflexivity]. apply index_retime.
  Qed.

  Lemma crop_request_tm own req : crop_request (map tm own) (map tm req) = rmap (map tm) (crop_request own req).
  Proof.
    unfold crop_request. rewrite mapM_map. rewrite !get_tm.
    rewrite (mapM_ext_in _ (fun x => let! lo := np_get own 0 in if Rleb lo x then let! hi := np_get own (-1) in Ok (Rleb x hi) else Ok false)).
    2:{ intros x _. destruct (np_get own 0) as [lo|]; cbn [rmap bind]; [|reflexivity]. rewrite tm_leb. destruct (Rleb lo x); [|reflexivity].
        destruct (np_get own (-1)) as [hi|]; cbn [rmap bind]; [|reflexivity]. rewrite tm_leb. reflexivity. }
    destruct (mapM _ req) as [keep|]; cbn [rmap bind]; [|reflexivity]. f_equal. rewrite combine_tm, filter_map, !map_map.
    apply (f_equal (map _)), filter_ext. intro; reflexivity.
  Qed.
  Lemma positions_retime t ts : interpolate_positions (rt t) (map tm ts) = rmap rt (interpolate_positions t ts).
  Proof.
    unfold interpolate_positions. cbn [tstamps xyz retime]. rewrite !interp_tm. destruct (np_interp ts (tstamps t) (map vx (xyz t))); cbn [rmap bind]; [|reflexivity].
    destruct (np_interp ts (tstamps t) (map vy (xyz t))); cbn [rmap bind]; [|reflexivity]. destruct (np_interp ts (tstamps t) (map vz (xyz t))); reflexivity.
  Qed.
  Lemma rotations_retime seg t ts : interpolate_rotations seg (rt t) (map tm ts) = rmap rt (interpolate_rotations seg t ts).
  Proof.
    unfold interpolate_rotations. cbn [tstamps rot retime]. rewrite map_length. destruct (rot t) as [r|] eqn:RT; [|reflexivity]. destruct (_ =? _)%nat; [reflexivity|]. rewrite slerp_tm.
    destruct (slerp seg (tstamps t) r ts); reflexivity.
  Qed.
  Lemma interpolate_retime seg t ts : interpolate seg (rt t) (map tm ts) = rmap rt (interpolate seg t ts).
  Proof.
    unfold interpolate. change (tstamps (rt t)) with (map tm (tstamps t)). rewrite sort_tm, crop_request_tm. destruct (crop_request _ _) as [u|]; cbn [rmap bind]; [|reflexivity].
    rewrite positions_retime. destruct (interpolate_positions t u) as [t1|]; cbn [rmap bind]; [|reflexivity].
    rewrite rotations_retime. destruct (interpolate_rotations seg t1 u) as [t2|]; cbn [rmap bind]; [|reflexivity].
    change (xyz (rt t2)) with (xyz t2). change (tstamps (rt t2)) with (map tm (tstamps t2)). change (arc (rt t2)) with (arc t2).
    rewrite gradient_tm, interp_tm. destruct (gradient_3d (xyz t2) u); cbn [rmap bind]; [|reflexivity]. destruct (np_interp u (tstamps t2) (arc t2)); reflexivity.
  Qed.

  Lemma new_retime loc pos ep (r : option (list Q)) ts nm al sp so :
    new_traj loc pos ep r (Some (map tm ts)) nm al (option_map (map (vscale (/ s))) sp) so = rmap rt (new_traj loc pos ep r (Some ts) nm al sp so).
  Proof.
    unfold new_traj. destruct (match r with Some q => negb (length q =? length pos)%nat | None => false end); [reflexivity|]. rewrite gradient_tm.
    destruct sp as [sp|]; cbn [option_map].
    - rewrite map_length. destruct (_ =? _)%nat; cbn [bind rmap]; [reflexivity|]. destruct (gradient_3d _ ts); reflexivity.
    - destruct (gradient_3d _ ts); reflexivity.
  Qed.
End Clock.
