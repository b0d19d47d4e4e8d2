(** Statistics of deviations. *)
From Verif Require Import Base BaseFacts NumpyModel NumpyFacts TrajModel VecFacts EvalModel EvalSpec.

Lemma np_sum_cons x l : np_sum (x :: l) = x + np_sum l.
Proof. reflexivity. Qed.

Lemma np_sum_bound l lo hi :
  (forall y, In y l -> lo <= y <= hi) -> INR (length l) * lo <= np_sum l <= INR (length l) * hi.
Proof.
  induction l as [|x l IH]; intro H; [cbn; lra|]. rewrite np_sum_cons. cbn [length]. rewrite S_INR.
  assert (A := H x (or_introl eq_refl)). destruct IH as [B C]; [intros y Hy; apply H; right; exact Hy|]. lra.
Qed.

Lemma len_pos {A} (l : list A) : l <> [] -> 0 < INR (length l).
Proof. intro N. apply lt_0_INR. destruct l; [contradiction | cbn; lia]. Qed.

Lemma np_mean_some l : l <> [] -> np_mean l = Some (np_sum l / INR (length l)).
Proof. destruct l; [contradiction | reflexivity]. Qed.

Lemma mean_bound l lo hi m : l <> [] -> (forall y, In y l -> lo <= y <= hi) -> np_mean l = Some m -> lo <= m <= hi.
Proof.
  intros N H E. rewrite (np_mean_some l N) in E. injection E as <-. assert (P := len_pos l N). destruct (np_sum_bound l lo hi H) as [A B].
  split; apply (Rmult_le_reg_r (INR (length l))); try exact P; unfold Rdiv; rewrite Rmult_assoc, Rinv_l, Rmult_1_r by lra; lra.
Qed.

Lemma fold_max_ge l x : x <= fold_left Rmax l x /\ (forall y, In y l -> y <= fold_left Rmax l x) /\ (In (fold_left Rmax l x) (x :: l)).
Proof.
  revert x. induction l as [|a l IH]; intro x; cbn.
  - split; [lra|]. split; [contradiction | left; reflexivity].
  - destruct (IH (Rmax x a)) as (A & B & D). assert (Rmax x a >= x) by apply Rle_ge, Rmax_l. assert (Rmax x a >= a) by apply Rle_ge, Rmax_r.
    split; [lra|]. split.
    + intros y [<-|Hy]; [lra | apply B, Hy].
    + destruct D as [D|D]; [|auto]. rewrite <- D. unfold Rmax. destruct (Rle_dec x a); auto.
Qed.

Lemma fold_min_le l x : fold_left Rmin l x <= x /\ (forall y, In y l -> fold_left Rmin l x <= y) /\ (In (fold_left Rmin l x) (x :: l)).
Proof.
  revert x. induction l as [|a l IH]; intro x; cbn.
  - split; [lra|]. split; [contradiction | left; reflexivity].
  - destruct (IH (Rmin x a)) as (A & B & D). assert (Rmin x a <= x) by apply Rmin_l. assert (Rmin x a <= a) by apply Rmin_r.
    split; [lra|]. split.
    + intros y [<-|Hy]; [lra | apply B, Hy].
    + destruct D as [D|D]; [|auto]. rewrite <- D. unfold Rmin. destruct (Rle_dec x a); auto.
Qed.

Lemma np_max_spec l : l <> [] -> exists x, np_max l = Ok x /\ is_greatest l x.
Proof.
  destruct l as [|a l]; [contradiction|]. intros _. destruct (fold_max_ge l a) as (A & B & D). eexists. split; [reflexivity|].
  split; [exact D|]. intros y [<-|Hy]; auto.
Qed.

Lemma np_min_spec l : l <> [] -> exists x, np_min l = Ok x /\ is_least l x.
Proof.
  destruct l as [|a l]; [contradiction|]. intros _. destruct (fold_min_le l a) as (A & B & D). eexists. split; [reflexivity|].
  split; [exact D|]. intros y [<-|Hy]; auto.
Qed.

(** ** Root mean square and standard deviation *)
Lemma sum_sq_shift l m :
  np_sum (map (fun x => (x - m) * (x - m)) l) = np_sum (map (fun x => x * x) l) - 2 * m * np_sum l + INR (length l) * (m * m).
Proof.
  induction l as [|x l IH]; [cbn; ring|]. cbn [map length]. rewrite !np_sum_cons, IH, S_INR. ring.
Qed.

Lemma np_sum_nonneg l : (forall y, In y l -> 0 <= y) -> 0 <= np_sum l.
Proof.
  induction l as [|x l IH]; intro H; [cbn; lra|]. rewrite np_sum_cons.
  assert (A := H x (or_introl eq_refl)). assert (0 <= np_sum l) by (apply IH; intros; apply H; right; assumption). lra.
Qed.

Lemma map_nonempty {A B} (f : A -> B) l : l <> [] -> map f l <> [].
Proof. destruct l; [contradiction | discriminate]. Qed.

Lemma mean_nonneg l m : (forall y, In y l -> 0 <= y) -> np_mean l = Some m -> 0 <= m.
Proof.
  intros H E. assert (N : l <> []) by (intros ->; discriminate). rewrite (np_mean_some l N) in E. injection E as <-.
  apply Rmult_le_pos; [apply np_sum_nonneg, H | apply Rlt_le, Rinv_0_lt_compat, len_pos, N].
Qed.

Lemma rms_some l : l <> [] -> exists q, np_mean (map (fun x => x * x) l) = Some q /\ rms l = Some (sqrt q) /\ 0 <= q /\
  q = np_sum (map (fun x => x * x) l) / INR (length l).
Proof.
  intro N. assert (E := np_mean_some _ (map_nonempty (fun x => x * x) l N)). eexists. split; [exact E|].
  unfold rms. rewrite E. split; [reflexivity|]. split; [|rewrite map_length; reflexivity].
  apply (mean_nonneg (map (fun x => x * x) l)); [|exact E]. intros y Hy. apply in_map_iff in Hy as (x & <- & _). apply Rle_0_sqr.
Qed.

Lemma std_some l : l <> [] -> exists m s q, np_mean l = Some m /\ np_std l = Some s /\ rms l = Some q /\
  0 <= s /\ 0 <= q /\ q * q = m * m + s * s.
Proof.
  intro N. destruct (rms_some l N) as (q & E1 & E2 & P & E3).
  assert (Em := np_mean_some l N). set (m := np_sum l / INR (length l)) in *.
  set (v := np_sum (map (fun x => (x - m) * (x - m)) l) / INR (length l)).
  assert (Ev : np_mean (map (fun x => (x - m) * (x - m)) l) = Some v).
  { rewrite np_mean_some by (apply map_nonempty, N). rewrite map_length. reflexivity. }
  assert (Pv : 0 <= v).
  { apply (mean_nonneg (map (fun x => (x - m) * (x - m)) l)); [|exact Ev]. intros y Hy. apply in_map_iff in Hy as (x & <- & _). apply Rle_0_sqr. }
  exists m, (sqrt v), (sqrt q). split; [exact Em|]. split; [unfold np_std; rewrite Em, Ev; reflexivity|]. split; [exact E2|].
  split; [apply sqrt_pos|]. split; [apply sqrt_pos|]. rewrite !sqrt_sqrt by assumption. unfold v. rewrite sum_sq_shift, E3.
  assert (L := len_pos l N). assert (np_sum l = m * INR (length l)) as -> by (unfold m; field; lra). field. lra.
Qed.

Lemma Rle_sq a b : 0 <= b -> a * a <= b * b -> a <= b.
Proof. intros Hb H. apply Rabs_le_of_sq in H; [|exact Hb]. assert (A := Rle_abs a). lra. Qed.

Lemma stats_order l :
  l <> [] -> (forall y, In y l -> 0 <= y) ->
  exists lo hi m s q, np_min l = Ok lo /\ np_max l = Ok hi /\ np_mean l = Some m /\ np_std l = Some s /\ rms l = Some q /\
    is_least l lo /\ is_greatest l hi /\ m * INR (length l) = np_sum l /\
    0 <= lo /\ lo <= m /\ m <= q /\ q <= hi /\ 0 <= s /\ q * q = m * m + s * s /\
    ((forall y, In y l -> y = 0) <-> m = 0) /\ ((forall y, In y l -> y = 0) <-> q = 0) /\ ((forall y, In y l -> y = 0) <-> hi = 0).
Proof.
  intros N H. destruct (np_min_spec l N) as (lo & E1 & S1). destruct (np_max_spec l N) as (hi & E2 & S2).
  destruct (std_some l N) as (m & s & q & E3 & E4 & E5 & P1 & P2 & Q). exists lo, hi, m, s, q.
  assert (Bm : lo <= m <= hi) by (apply (mean_bound l); [exact N | intros y Hy; split; [apply S1 | apply S2]; exact Hy | exact E3]).
  assert (Lo : 0 <= lo) by apply H, S1.
  assert (Mq : m <= q).
  { apply Rle_sq; [exact P2|]. assert (A := Rle_0_sqr s). unfold Rsqr in A. lra. }
  assert (Qh : q <= hi).
  { apply Rle_sq; [lra|]. destruct (rms_some l N) as (q' & F1 & F2 & F3 & _). rewrite E5 in F2. injection F2 as ->. rewrite sqrt_sqrt by exact F3.
    apply (mean_bound (map (fun x => x * x) l) 0 (hi * hi) q' (map_nonempty _ _ N)); [|exact F1].
    intros y Hy. apply in_map_iff in Hy as (x & <- & Hx). split; [apply Rle_0_sqr|]. apply Rmult_le_compat; try (apply H, Hx); apply S2, Hx. }
  assert (Z : hi = 0 -> forall y, In y l -> y = 0).
  { intros E y Hy. assert (A := H y Hy). destruct S2 as [_ S2]. specialize (S2 y Hy). lra. }
  assert (Zq : q = 0 -> forall y, In y l -> y = 0).
  { intros E y Hy. destruct (rms_some l N) as (q' & F1 & F2 & F3 & F4). rewrite E5 in F2. injection F2 as ->.
    apply sqrt_eq_0 in E; [|exact F3]. rewrite E in F4. assert (L := len_pos l N).
    assert (S0 : np_sum (map (fun x => x * x) l) = 0).
    { assert (np_sum (map (fun x => x * x) l) = np_sum (map (fun x => x * x) l) / INR (length l) * INR (length l)) as -> by (field; lra). rewrite <- F4. ring. }
    clear - S0 Hy. induction l as [|x l IH]; [contradiction|]. cbn [map] in S0. rewrite np_sum_cons in S0.
    assert (A := Rle_0_sqr x). unfold Rsqr in A.
    assert (B : 0 <= np_sum (map (fun x => x * x) l)) by (apply np_sum_nonneg; intros z Hz; apply in_map_iff in Hz as (w & <- & _); apply Rle_0_sqr).
    destruct Hy as [<-|Hy]; [apply Rsqr_0_uniq; unfold Rsqr; lra | apply IH; [exact Hy | lra]]. }
  assert (Zm : m = 0 -> forall y, In y l -> y = 0).
  { intros E. assert (L := len_pos l N). rewrite (np_mean_some l N) in E3. injection E3 as E3.
    assert (S0 : np_sum l = 0) by (replace (np_sum l) with (np_sum l / INR (length l) * INR (length l)) by (field; lra); rewrite E3, E; ring).
    clear - S0 H. induction l as [|x l IH]; intros y Hy; [contradiction|]. rewrite np_sum_cons in S0.
    assert (A := H x (or_introl eq_refl)). assert (B : 0 <= np_sum l) by (apply np_sum_nonneg; intros; apply H; right; assumption).
    destruct Hy as [<-|Hy]; [lra | apply IH; [intros; apply H; right; assumption | lra | exact Hy]]. }
  assert (Zero : (forall y, In y l -> y = 0) -> hi = 0) by (intro A; apply A, S2).
  split; [exact E1|]. split; [exact E2|]. split; [exact E3|]. split; [exact E4|]. split; [exact E5|]. split; [exact S1|]. split; [exact S2|].
  split. { rewrite (np_mean_some l N) in E3. injection E3 as <-. assert (L := len_pos l N). field. lra. }
  split; [exact Lo|]. split; [lra|]. split; [exact Mq|]. split; [exact Qh|]. split; [exact P1|]. split; [exact Q|].
  split; [|split]; split; auto; intro A; apply Zero in A; lra.
Qed.

(** ** Median *)
Lemma count_perm {A} (p : A -> bool) l m : Permutation l m -> count p l = count p m.
Proof.
  unfold count. intro H. induction H; cbn; try (destruct (p x)); cbn; try congruence; auto.
  destruct (p y); reflexivity.
Qed.

Lemma count_prefix_ge {A} (p : A -> bool) (l : list A) k :
  (k <= length l)%nat -> (forall i a, (i < k)%nat -> nth_error l i = Some a -> p a = true) -> (k <= count p l)%nat.
Proof.
  revert k. induction l as [|a l IH]; intros k Hk H; [cbn in *; lia|]. destruct k as [|k]; [lia|].
  unfold count in *. cbn. rewrite (H 0%nat a) by (try reflexivity; lia). cbn. apply le_n_S, IH; [cbn in Hk; lia|].
  intros i b Hi Hb. apply (H (S i) b); [lia | exact Hb].
Qed.

Lemma count_suffix_ge {A} (p : A -> bool) (l : list A) k :
  (forall i a, (k <= i)%nat -> nth_error l i = Some a -> p a = true) -> (length l - k <= count p l)%nat.
Proof.
  revert k. induction l as [|a l IH]; intros k H; [cbn; lia|]. unfold count in *. cbn [filter length].
  destruct k as [|k].
  - rewrite (H 0%nat a) by (try reflexivity; lia). cbn. assert (G : (length l - 0 <= length (filter p l))%nat); [|lia].
    apply IH. intros i b _ Hb. apply (H (S i) b); [lia | exact Hb].
  - assert (G : (length l - k <= length (filter p l))%nat) by (apply IH; intros i b Hi Hb; apply (H (S i) b); [lia | exact Hb]).
    destruct (p a); cbn; lia.
Qed.

Lemma median_spec l : l <> [] -> exists m, np_median l = Some m /\
  (length l <= 2 * count (fun y => Rleb y m) l)%nat /\ (length l <= 2 * count (fun y => Rleb m y) l)%nat /\
  (exists a b, In a l /\ In b l /\ a <= m <= b).
Proof.
  intro N. unfold np_median. assert (Ls := np_sort_length l). assert (Ss := np_sort_sorted l). assert (Ps := np_sort_perm l).
  set (n := length l) in *. assert (Pn : (0 < n)%nat) by (unfold n; destruct l; [contradiction | cbn; lia]).
  assert (K1 : ((n - 1) / 2 < n)%nat) by (apply Nat.div_lt_upper_bound; lia).
  assert (K2 : (n / 2 < n)%nat) by (apply Nat.div_lt_upper_bound; lia).
  destruct (nth_error_lt_Some (np_sort l) ((n - 1) / 2)) as [a Ha]; [lia|]. destruct (nth_error_lt_Some (np_sort l) (n / 2)) as [b Hb]; [lia|].
  rewrite Ha, Hb. exists ((a + b) / 2). split; [reflexivity|].
  rewrite StronglySorted_nth in Ss.
  assert (Mono : forall i j x y, (i <= j)%nat -> nth_error (np_sort l) i = Some x -> nth_error (np_sort l) j = Some y -> x <= y).
  { intros i j x y Hij Hx Hy. destruct (Nat.eq_dec i j) as [->|E]; [replace y with x by congruence; lra|]. apply (Ss i j x y); auto; lia. }
  assert (D1 := Nat.div_mod n 2). assert (D2 := Nat.div_mod (n - 1) 2). assert (M1 := Nat.mod_upper_bound n 2). assert (M2 := Nat.mod_upper_bound (n - 1) 2).
  assert (Hab : a <= b) by (apply (Mono ((n - 1) / 2)%nat (n / 2)%nat); auto; lia).
  split; [|split].
  - rewrite <- (count_perm _ _ _ Ps). assert (G : ((n - 1) / 2 + 1 <= count (fun y => Rleb y ((a + b) / 2)) (np_sort l))%nat); [|lia].
    apply count_prefix_ge; [lia|]. intros i x Hi Hx. apply Rleb_true. assert (x <= a) by (apply (Mono i ((n - 1) / 2)%nat); auto; lia). lra.
  - rewrite <- (count_perm _ _ _ Ps). assert (G : (length (np_sort l) - n / 2 <= count (fun y => Rleb ((a + b) / 2) y) (np_sort l))%nat); [|lia].
    apply count_suffix_ge. intros i x Hi Hx. apply Rleb_true. assert (b <= x) by (apply (Mono (n / 2)%nat i); auto; lia). lra.
  - exists a, b. split; [|split; [|lra]]; apply (Permutation_in _ Ps); eapply nth_error_In; eauto.
Qed.

(** ** Components *)
Lemma sum_sq_components (vs : list V3) :
  np_sum (map (fun x => x * x) (map vnorm vs)) =
  np_sum (map (fun x => x * x) (map vx vs)) + np_sum (map (fun x => x * x) (map vy vs)) + np_sum (map (fun x => x * x) (map vz vs)).
Proof.
  induction vs as [|v vs IH]; [cbn; ring|]. cbn [map]. rewrite !np_sum_cons, IH, vnorm_sq. unfold vdot. ring.
Qed.

Lemma rms_components (vs : list V3) : vs <> [] ->
  exists q a b c, rms (map vnorm vs) = Some q /\ rms (map vx vs) = Some a /\ rms (map vy vs) = Some b /\ rms (map vz vs) = Some c /\
    q * q = a * a + b * b + c * c.
Proof.
  intro N. destruct (rms_some (map vnorm vs) (map_nonempty _ _ N)) as (q & _ & E1 & P1 & F1).
  destruct (rms_some (map vx vs) (map_nonempty _ _ N)) as (a & _ & E2 & P2 & F2).
  destruct (rms_some (map vy vs) (map_nonempty _ _ N)) as (b & _ & E3 & P3 & F3).
  destruct (rms_some (map vz vs) (map_nonempty _ _ N)) as (c & _ & E4 & P4 & F4).
  exists (sqrt q), (sqrt a), (sqrt b), (sqrt c). repeat (split; [assumption|]). rewrite !sqrt_sqrt by assumption.
  rewrite map_length in F1, F2, F3, F4. rewrite F1, F2, F3, F4, sum_sq_components. field. apply Rgt_not_eq, len_pos, N.
Qed.
