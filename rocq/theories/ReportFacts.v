(** Proofs about report data. *)
From Verif Require Import Base BaseFacts NumpyModel TrajModel GeomModel EvalModel ReportModel ReportSpec.

Lemma visible_app a b : visible (a ++ b) = visible a ++ visible b.
Proof. apply flat_map_app. Qed.
Lemma visible_zeros k : visible (repeat (Some 0) k) = [].
Proof. induction k as [|k IH]; [reflexivity|]. cbn. destruct (Req_EM_T 0 0); [exact IH|congruence]. Qed.
Lemma skipn_repeat {A} (x : A) k n : skipn n (repeat x k) = repeat x (k - n).
Proof. revert n. induction k as [|k IH]; intros [|n]; cbn; auto. Qed.
Lemma firstn_repeat {A} (x : A) k n : firstn n (repeat x k) = repeat x (min n k).
Proof. revert n. induction k as [|k IH]; intros [|n]; cbn; auto. f_equal. apply IH. Qed.
Lemma skipn_skipn' {A} a b (l : list A) : skipn a (skipn b l) = skipn (b + a) l.
Proof. revert l. induction b as [|b IH]; intros [|x l]; cbn; auto. apply skipn_nil. Qed.
Lemma visible_part c i data k : visible (part c i (data ++ repeat (Some 0) k)) = visible (part c i data).
Proof.
  unfold part. rewrite skipn_app, firstn_app, visible_app, skipn_repeat, firstn_repeat, visible_zeros, app_nil_r. reflexivity.
Qed.
Lemma not_nan_visible l : not_nan (map (fun x => if is_zero x then None else x) l) = visible l.
Proof.
  induction l as [|[v|] l IH]; [reflexivity| |exact IH]. unfold not_nan, visible in *. cbn [map flat_map is_zero]. rewrite IH.
  unfold Reqb. destruct (Req_EM_T v 0); reflexivity.
Qed.

Lemma sizes n m : (0 < m < n)%Z -> let a := ((- n) mod m + n)%Z in
  (0 <= a - n)%Z /\ exists c, a = (c * m)%Z /\ (0 < c)%Z /\ (a / m = c)%Z /\ (forall c', n <= c' * m -> c <= c')%Z.
Proof.
  intros H a. subst a. pose proof (Z.mod_pos_bound (- n) m ltac:(lia)) as B. split; [lia|].
  pose proof (Z.div_mod (- n) m ltac:(lia)) as E. exists (- ((- n) / m))%Z. split; [lia|]. split; [nia|]. split.
  - replace ((- n) mod m + n)%Z with (- (- n / m) * m)%Z by lia. apply Z.div_mul. lia.
  - intros c' L. nia.
Qed.

Definition row_means (rows : list (list R)) : list (option R) :=
  flat_map (fun v => match v with [] => [] | _ => [np_mean v] end) rows.

Lemma shrink_general data m : (0 < m < Z.of_nat (length data))%Z -> exists c,
  chunk_size (length data) (Z.to_nat m) c /\
  shrink_data data m = match visible data with [] => Err ValueError | _ => Ok (row_means (map (fun i => visible (part c i data)) (seq 0 (Z.to_nat m)))) end.
Proof.
  intro H. destruct (sizes _ _ H) as [P (c & EA & PC & ED & MIN)]. set (n := Z.of_nat (length data)) in *. set (a := ((- n) mod m + n)%Z) in *.
  exists (Z.to_nat c). split.
  { split; [|intros c' L]. - apply Nat2Z.inj_le. rewrite Nat2Z.inj_mul, !Z2Nat.id by lia. lia.
    - apply Nat2Z.inj_le. rewrite Z2Nat.id by lia. apply MIN. unfold n. rewrite <- (Z2Nat.id m) by lia. rewrite <- Nat2Z.inj_mul. apply Nat2Z.inj_le, L. }
  unfold shrink_data. fold n. fold a.
  destruct (Z.ltb_spec m 0) as [|_]; [lia|]. destruct (Z.leb_spec n m) as [|_]; [lia|]. destruct (Z.eqb_spec m 0) as [|_]; [lia|].
  cbv zeta. rewrite ED. set (k := Z.to_nat (a - n)). set (g := fun x => if is_zero x then None else x).
  assert (length (map g (data ++ repeat (Some 0) k)) = (Z.to_nat m * Z.to_nat c)%nat) as LEN.
  { rewrite map_length, app_length, repeat_length. unfold k. rewrite <- (Nat2Z.id (length data)). fold n. rewrite <- Z2Nat.inj_add, <- Z2Nat.inj_mul by lia. f_equal. lia. }
  unfold reshape_rows. rewrite LEN, Nat.div_mul by lia.
  set (rows := map _ (seq 0 (Z.to_nat m))).
  assert (map not_nan rows = map (fun i => visible (part (Z.to_nat c) i data)) (seq 0 (Z.to_nat m))) as ROWS.
  { unfold rows. rewrite map_map. apply map_ext. intro i. rewrite skipn_map, firstn_map. unfold g. rewrite not_nan_visible.
    change (firstn (Z.to_nat c) (skipn (i * Z.to_nat c) (data ++ repeat (Some 0) k))) with (part (Z.to_nat c) i (data ++ repeat (Some 0) k)). apply visible_part. }
  rewrite <- ROWS.
  assert (map nanmean (filter (fun row => match not_nan row with [] => false | _ => true end) rows) = row_means (map not_nan rows)) as MEANS.
  { clear. induction rows as [|r rows IH]; [reflexivity|]. unfold row_means in *. cbn [filter map flat_map]. unfold nanmean in *.
    destruct (not_nan r) eqn:E; cbn [app]; [exact IH|]. cbn [map]. rewrite E, IH. reflexivity. }
  assert (concat (map not_nan rows) = visible data) as ALL.
  { assert (concat rows = map g (data ++ repeat (Some 0) k)) as CR.
    { unfold rows. revert LEN. generalize (map g (data ++ repeat (Some 0) k)). generalize (Z.to_nat c). clear.
      intros c l. assert (forall p s, length l = ((s + p) * c)%nat -> concat (map (fun i => firstn c (skipn (i * c) l)) (seq s p)) = skipn (s * c) l) as G.
      { induction p as [|p IH]; intros s L; cbn [seq map concat].
        - symmetry. apply skipn_all2. rewrite L. nia.
        - rewrite IH by lia. rewrite <- (firstn_skipn c (skipn (s * c) l)) at 2. f_equal. rewrite skipn_skipn'. f_equal. lia. }
      intro L. apply (G (Z.to_nat m) 0%nat). exact L. }
    unfold not_nan. rewrite <- flat_map_concat_map. 
    assert (flat_map (fun row => flat_map (fun x : option R => match x with Some v => [v] | None => [] end) row) rows = not_nan (concat rows)) as ->.
    { clear. induction rows as [|r rows IH]; [reflexivity|]. cbn [flat_map concat]. unfold not_nan in *. rewrite flat_map_app, IH. reflexivity. }
    rewrite CR. unfold g. rewrite not_nan_visible, visible_app, visible_zeros, app_nil_r. reflexivity. }
  destruct (visible data) as [|v vs] eqn:V.
  - assert (filter (fun row => match not_nan row with [] => false | _ => true end) rows = []) as ->; [|reflexivity].
    clear - ALL. induction rows as [|r rows IH]; [reflexivity|]. cbn in ALL |- *. apply app_eq_nil in ALL as [-> A]. apply IH, A.
  - destruct (filter (fun row => match not_nan row with [] => false | _ => true end) rows) eqn:F; [|rewrite <- MEANS; reflexivity].
    exfalso. assert (concat (map not_nan rows) = []) as Z0; [|congruence]. clear - F. induction rows as [|r rows IH]; [reflexivity|]. cbn in F |- *.
    destruct (not_nan r); [apply IH, F|discriminate].
Qed.

Lemma part_map {A B} (f : A -> B) c i l : part c i (map f l) = map f (part c i l).
Proof. unfold part. rewrite skipn_map, firstn_map. reflexivity. Qed.
Lemma visible_numbers xs : Forall (fun x => x <> 0) xs -> visible (map Some xs) = xs.
Proof. induction 1 as [|x xs N F IH]; [reflexivity|]. cbn. destruct (Req_EM_T x 0); [contradiction|]. cbn. f_equal. exact IH. Qed.
Lemma part_forall {A} (P : A -> Prop) c i l : Forall P l -> Forall P (part c i l).
Proof.
  intro F. rewrite Forall_forall in *. intros x I. apply F. unfold part in I.
  rewrite <- (firstn_skipn (i * c) l). apply in_or_app. right. rewrite <- (firstn_skipn c (skipn (i * c) l)). apply in_or_app. left. exact I.
Qed.
Lemma part_length {A} c i (l : list A) : length (part c i l) = min c (length l - i * c).
Proof. unfold part. rewrite firstn_length, skipn_length. reflexivity. Qed.

Lemma shrink_numbers xs m : (0 < m < Z.of_nat (length xs))%Z -> Forall (fun x => x <> 0) xs -> exists c out,
  chunk_size (length xs) (Z.to_nat m) c /\ shrink_data (map Some xs) m = Ok out /\ (length out <= Z.to_nat m)%nat /\ (forall i, (i < length out)%nat <-> (i * c < length xs)%nat) /\ (forall i, (i < length out)%nat -> nth_error out i = Some (np_mean (part c i xs))).
Proof.
  intros H NZ. destruct (shrink_general (map Some xs) m) as (c & CS & E); [rewrite map_length; exact H|]. rewrite map_length in CS. exists c.
  assert (visible (map Some xs) = xs) as V by (apply visible_numbers, NZ).
  rewrite V in E. destruct xs as [|x0 xs0] eqn:X; [cbn in H; lia|]. rewrite <- X in *. clear X x0 xs0.
  eexists. split; [exact CS|]. split; [exact E|].
  assert (forall i, visible (part c i (map Some xs)) = part c i xs) as VP.
  { intro i. rewrite part_map. apply visible_numbers, part_forall, NZ. }
  rewrite (map_ext _ _ VP). destruct CS as [LE MIN]. set (n := length xs) in *. set (mm := Z.to_nat m) in *.
  assert (0 < c)%nat as PC by (destruct c; [|lia]; assert (n = 0)%nat by lia; lia).
  set (q := ((n + c - 1) / c)%nat).
  assert (forall i, (i < q <-> i * c < n)%nat) as Q.
  { intro i. unfold q. split; intro L.
    - pose proof (Nat.mul_div_le (n + c - 1) c ltac:(lia)). nia.
    - apply Nat.div_le_lower_bound; [lia|]. nia. }
  assert (q <= mm)%nat as QM by (destruct (Nat.le_gt_cases q mm) as [|L]; [assumption|]; apply Q in L; nia).
  assert (row_means (map (fun i => part c i xs) (seq 0 mm)) = map (fun i => np_mean (part c i xs)) (seq 0 q)) as R0.
  { replace mm with (q + (mm - q))%nat by lia. rewrite seq_app, map_app. unfold row_means. rewrite flat_map_app. cbn [Nat.add].
    assert (forall j s, (forall i, (s <= i < s + j)%nat -> (i < q)%nat) ->
      flat_map (fun v : list R => match v with [] => [] | _ => [np_mean v] end) (map (fun i => part c i xs) (seq s j)) = map (fun i => np_mean (part c i xs)) (seq s j)) as IN.
    { induction j as [|j IH]; intros s B; [reflexivity|]. cbn [seq map flat_map]. rewrite IH by (intros i I; apply B; lia).
      pose proof (part_length c s xs) as PL. specialize (B s ltac:(lia)). apply Q in B. fold n in PL. destruct (part c s xs); [cbn in PL; lia|reflexivity]. }
    assert (forall j s, (forall i, (s <= i < s + j)%nat -> (q <= i)%nat) ->
      flat_map (fun v : list R => match v with [] => [] | _ => [np_mean v] end) (map (fun i => part c i xs) (seq s j)) = []) as OUT.
    { induction j as [|j IH]; intros s B; [reflexivity|]. cbn [seq map flat_map]. rewrite IH by (intros i I; apply B; lia).
      pose proof (part_length c s xs) as PL. specialize (B s ltac:(lia)). fold n in PL. assert (~ (s * c < n)%nat) as N by (rewrite <- Q; lia).
      destruct (part c s xs); [reflexivity|cbn in PL; lia]. }
    rewrite IN by (intros; lia). rewrite OUT by (intros; lia). apply app_nil_r. }
  rewrite R0, map_length, seq_length. split; [exact QM|]. split; [exact Q|]. intros i L.
  rewrite nth_error_map. rewrite (nth_error_nth' (seq 0 q) 0%nat) by (rewrite seq_length; exact L). rewrite seq_nth by exact L. reflexivity.
Qed.

Lemma report_all_effect {Q} units (r : ate_result Q) :
  report_all units r = mkAte (ate_name r) (ate_trajectory r) (map (vscale (1000 ^ count_occ Bool.bool_dec units true)) (pos_dev r))
    (map (vscale (1000 ^ count_occ Bool.bool_dec units true)) (directed_pos_dev r)) (rot_dev r) (rotations_used r).
Proof.
  assert (forall l, map (vscale 1) l = l) as ONE.
  { induction l as [|[x y z] l IH]; [reflexivity|]. cbn [map]. rewrite IH. f_equal. unfold vscale. cbn. f_equal; ring. }
  unfold report_all. revert r. induction units as [|u units IH]; intro r.
  - cbn. rewrite !ONE. destruct r; reflexivity.
  - cbn [fold_left]. rewrite IH. destruct u; cbn [report_data ate_name ate_trajectory pos_dev directed_pos_dev rot_dev rotations_used].
    + rewrite count_occ_cons_eq by reflexivity. rewrite !map_map. f_equal; apply map_ext; intros [x y z]; unfold vscale; cbn [vx vy vz pow]; f_equal; ring.
    + rewrite count_occ_cons_neq by discriminate. reflexivity.
Qed.
