From Verif Require Import Base BaseFacts LsqModel LsqSpec.

Lemma dot_comm u v : dot u v = dot v u.
Proof. revert v. induction u as [|x u IH]; intros [|y v]; cbn; try reflexivity. rewrite IH. ring. Qed.

Lemma vplus_length u v : length u = length v -> length (vplus u v) = length u.
Proof. revert v. induction u as [|x u IH]; intros [|y v] L; cbn in *; try lia. rewrite IH; lia. Qed.
Lemma vminus_length u v : length u = length v -> length (vminus u v) = length u.
Proof. revert v. induction u as [|x u IH]; intros [|y v] L; cbn in *; try lia. rewrite IH; lia. Qed.

Lemma dot_plus_r u v w : length v = length w -> dot u (vplus v w) = dot u v + dot u w.
Proof.
  revert v w. induction u as [|x u IH]; intros [|y v] [|z w] L; cbn in *; try lia; try ring.
  rewrite IH by lia. ring.
Qed.
Lemma dot_minus_r u v w : length v = length w -> dot u (vminus v w) = dot u v - dot u w.
Proof.
  revert v w. induction u as [|x u IH]; intros [|y v] [|z w] L; cbn in *; try lia; try ring.
  rewrite IH by lia. ring.
Qed.
Lemma dot_plus_l u v w : length v = length w -> dot (vplus v w) u = dot v u + dot w u.
Proof. intro L. rewrite !(dot_comm _ u). apply dot_plus_r, L. Qed.
Lemma dot_minus_l u v w : length v = length w -> dot (vminus v w) u = dot v u - dot w u.
Proof. intro L. rewrite !(dot_comm _ u). apply dot_minus_r, L. Qed.
Lemma dot_times_r u s v : dot u (vtimes s v) = s * dot u v.
Proof. revert v. induction u as [|x u IH]; intros [|y v]; cbn; try ring. unfold vtimes in IH. rewrite IH. ring. Qed.
Lemma dot_times_l u s v : dot (vtimes s u) v = s * dot u v.
Proof. rewrite dot_comm, dot_times_r, dot_comm. reflexivity. Qed.

Lemma dot_self_nonneg u : 0 <= dot u u.
Proof. induction u as [|x u IH]; cbn; [lra|]. pose proof (Rle_0_sqr x). unfold Rsqr in *. lra. Qed.
Lemma dot_self_zero u : dot u u = 0 -> Forall (fun x => x = 0) u.
Proof.
  induction u as [|x u IH]; cbn; intro H; constructor; pose proof (dot_self_nonneg u) as N; pose proof (Rle_0_sqr x) as S; unfold Rsqr in S.
  - apply Rsqr_0_uniq. unfold Rsqr. lra.
  - apply IH. lra.
Qed.
Lemma dot_zeros_l u v : Forall (fun x => x = 0) u -> dot u v = 0.
Proof. intro F. revert v. induction F as [|x u -> F IH]; intros [|y v]; cbn; try reflexivity. rewrite IH. ring. Qed.

Lemma mv_length A x : length (mv A x) = length A.
Proof. apply map_length. Qed.
Lemma mv_minus n A x y : Forall (fun r => length r = n) A -> length x = n -> length y = n ->
  mv A (vminus x y) = vminus (mv A x) (mv A y).
Proof.
  intros F LX LY. induction F as [|r A L F IH]; cbn; [reflexivity|]. rewrite dot_minus_r by lia. f_equal. exact IH.
Qed.

Lemma skipn_next {A} k (l : list A) x r : skipn k l = x :: r -> skipn (S k) l = r.
Proof. revert l. induction k as [|k IH]; intros [|y l] H; cbn in *; try discriminate; [congruence|]. apply IH, H. Qed.

(** The transpose moves a matrix to the other side of a scalar product. *)
Lemma transpose_cons n r A w0 w : length r = n ->
  mv (transpose n (r :: A)) (w0 :: w) = vplus (vtimes w0 r) (mv (transpose n A) w).
Proof.
  unfold transpose, mv. rewrite !map_map.
  assert (forall k, length r = n -> map (fun x => dot (column_of (r :: A) x) (w0 :: w)) (seq k n)
          = map (fun j => w0 * nth j r 0 + dot (column_of A j) w) (seq k n)) as E.
  { intros k _. apply map_ext. intro j. change (column_of (r :: A) j) with (nth j r 0 :: column_of A j). cbn [dot]. ring. }
  intro L. rewrite (E 0%nat L). clear E. revert n L.
  assert (forall k r', skipn k r = r' -> (k <= length r)%nat ->
    map (fun j => w0 * nth j r 0 + dot (column_of A j) w) (seq k (length r'))
    = vplus (vtimes w0 r') (map (fun j => dot (column_of A j) w) (seq k (length r')))) as G.
  { intros k r'. revert k. induction r' as [|x r' IH]; intros k SK K; cbn; [reflexivity|]. f_equal.
    - f_equal. f_equal. rewrite <- (firstn_skipn k r), SK. rewrite app_nth2; rewrite firstn_length_le by exact K; [|lia].
      rewrite Nat.sub_diag. reflexivity.
    - apply IH.
      + apply (skipn_next _ _ _ _ SK).
      + destruct (Nat.eq_dec k (length r)) as [->|N]; [|lia]. rewrite skipn_all in SK. discriminate. }
  intros n <-. apply (G 0%nat r eq_refl). lia.
Qed.

Lemma transpose_nil n w : mv (transpose n []) w = repeat 0 n.
Proof.
  unfold transpose, mv. rewrite map_map. generalize 0%nat. induction n as [|n IH]; intro k; cbn; [reflexivity|].
  f_equal. apply IH.
Qed.
Lemma transpose_length n A : length (transpose n A) = n.
Proof. unfold transpose. rewrite map_length, seq_length. reflexivity. Qed.
Lemma transpose_rows n A : Forall (fun r => length r = length A) (transpose n A).
Proof. apply Forall_forall. intros r I. apply in_map_iff in I as [j [<- _]]. apply map_length. Qed.

Lemma dot_zeros_r u n : dot u (repeat 0 n) = 0.
Proof. rewrite dot_comm. apply dot_zeros_l. apply Forall_forall. intros x I. apply repeat_spec in I. exact I. Qed.

Lemma transpose_adjoint n A x w : Forall (fun r => length r = n) A -> length x = n -> length w = length A ->
  dot x (mv (transpose n A) w) = dot (mv A x) w.
Proof.
  intros F LX. revert w. induction F as [|r A L F IH]; intros [|w0 w] LW; cbn in LW; try lia.
  - rewrite transpose_nil, dot_zeros_r. reflexivity.
  - rewrite transpose_cons by exact L.
    rewrite dot_plus_r; [|unfold vtimes; rewrite map_length, mv_length, transpose_length; exact L].
    rewrite dot_times_r, IH by lia. change (mv (r :: A) x) with (dot r x :: mv A x). cbn [dot]. rewrite (dot_comm x r). ring.
Qed.

(** Product of matrices *)
Lemma nth_dot r x : length r = length x -> dot r x = fold_right Rplus 0 (map (fun j => nth j r 0 * nth j x 0) (seq 0 (length x))).
Proof.
  revert x. induction r as [|a r IH]; intros [|b x] L; cbn in *; try lia; try reflexivity.
  rewrite IH by lia. rewrite <- seq_shift, map_map. reflexivity.
Qed.

Lemma mm_mv n A B x : Forall (fun r => length r = n) B -> Forall (fun r => length r = length B) A -> length x = n ->
  mv (mm n A B) x = mv A (mv B x).
Proof.
  intros FB FA LX. unfold mv at 1 2, mm. rewrite map_map. apply map_ext_in. intros r I.
  rewrite Forall_forall in FA. specialize (FA r I).
  replace (map (fun c => dot r c) (transpose n B)) with (mv (transpose n B) r).
  - rewrite dot_comm. rewrite transpose_adjoint by assumption. apply dot_comm.
  - unfold mv. apply map_ext. intro. apply dot_comm.
Qed.
Lemma mm_length n A B : length (mm n A B) = length A.
Proof. apply map_length. Qed.
Lemma mm_rows n A B : Forall (fun r => length r = n) (mm n A B).
Proof. apply Forall_forall. intros r I. apply in_map_iff in I as [s [<- _]]. rewrite map_length. apply transpose_length. Qed.

Lemma shaped_spec m n A : shaped m n A = true -> length A = m /\ Forall (fun r => length r = n) A.
Proof.
  unfold shaped. intro H. apply andb_true_iff in H as [L F]. apply Nat.eqb_eq in L. split; [exact L|].
  apply Forall_forall. intros r I. rewrite forallb_forall in F. apply Nat.eqb_eq, F, I.
Qed.

(** ** Optimality *)

Lemma weighted_expand m P e d : weight_matrix m P -> length e = m -> length d = m ->
  weighted_square P (vplus e d) = weighted_square P e + 2 * dot d (mv P e) + weighted_square P d.
Proof.
  intros [LP [FP [SY _]]] LE LD. unfold weighted_square.
  assert (mv P (vplus e d) = vplus (mv P e) (mv P d)) as E.
  { clear SY LP. induction FP as [|r P L F IH]; cbn; [reflexivity|]. rewrite dot_plus_r by lia. f_equal. exact IH. }
  rewrite E. rewrite dot_plus_r by (rewrite !mv_length; reflexivity).
  rewrite !dot_plus_l by lia. rewrite (SY e d) by assumption. ring.
Qed.

Lemma normal_optimal m n A P obs x y : weight_matrix m P -> length A = m -> Forall (fun r => length r = n) A ->
  length obs = m -> length x = n -> length y = n ->
  mv (mm n (mm m (transpose n A) P) A) x = mv (mm m (transpose n A) P) obs ->
  weighted_square P (vminus (mv A x) obs) <= weighted_square P (vminus (mv A y) obs) /\
  (weighted_square P (vminus (mv A y) obs) = 0 -> weighted_square P (vminus (mv A y) (mv A x)) = 0).
Proof.
  intros W LA FA LO LX LY NE.
  assert (W' := W). destruct W as [LP [FP [SY PSD]]].
  assert (Forall (fun r => length r = length P) (transpose n A)) as FT by (rewrite LP, <- LA; apply transpose_rows).
  rewrite mm_mv in NE; [|exact FA| |exact LX].
  2:{ rewrite LA. apply mm_rows. }
  rewrite !mm_mv in NE; try assumption.
  2:{ rewrite mv_length. exact LA. }
  set (e := vminus (mv A x) obs). set (d := vminus (mv A y) (mv A x)).
  assert (length e = m) as LE by (unfold e; rewrite vminus_length; rewrite mv_length; lia).
  assert (length d = m) as LD by (unfold d; rewrite vminus_length; rewrite !mv_length; lia).
  assert (vminus (mv A y) obs = vplus e d) as ED.
  { unfold e, d. assert (length (mv A y) = m) as L1 by (rewrite mv_length; exact LA).
    assert (length (mv A x) = m) as L2 by (rewrite mv_length; exact LA).
    generalize (mv A y) (mv A x) L1 L2. clear -LO. revert m LO. induction obs as [|o obs IH]; intros m LO [|a u] [|b v]; cbn in *; intros; subst; try lia; [reflexivity|].
    f_equal; [ring|]. apply (IH (length obs)); lia. }
  assert (dot d (mv P e) = 0) as OR.
  { assert (mv P e = vminus (mv P (mv A x)) (mv P obs)) as ->.
    { unfold e. apply (mv_minus m); [exact FP|rewrite mv_length; exact LA|exact LO]. }
    assert (d = mv A (vminus y x)) as -> by (unfold d; symmetry; apply (mv_minus n); assumption).
    rewrite <- (transpose_adjoint n); [|exact FA| |].
    - rewrite (mv_minus m).
      + rewrite NE. assert (forall u, vminus u u = repeat 0 (length u)) as Z.
        { induction u as [|a u IH]; cbn; [reflexivity|]. f_equal; [ring|exact IH]. }
        rewrite Z. apply dot_zeros_r.
      + rewrite <- LA. apply transpose_rows.
      + rewrite mv_length. exact LP.
      + rewrite mv_length. exact LP.
    - rewrite vminus_length; lia.
    - rewrite vminus_length; rewrite !mv_length; lia. }
  rewrite ED, (weighted_expand m P e d W' LE LD), OR.
  pose proof (PSD e LE). pose proof (PSD d LD). split; lra.
Qed.

(** Diagonal weights *)
Lemma diagonal_mv_from k w v : length w = length v ->
  map (fun r => dot r v) (map (fun p => map (fun j => if (j =? fst p)%nat then snd p else 0) (seq k (length w))) (combine (seq k (length w)) w))
  = map (fun p => fst p * snd p) (combine w v).
Proof.
  revert k v. induction w as [|a w IH]; intros k [|b v] L; cbn in *; try lia; [reflexivity|].
  rewrite Nat.eqb_refl. f_equal.
  - replace (dot _ v) with 0; [ring|]. symmetry. apply dot_zeros_l. apply Forall_forall. intros x I.
    apply in_map_iff in I as [j [<- J]]. apply in_seq in J. destruct (Nat.eqb_spec j k); [lia|reflexivity].
  - rewrite <- (IH (S k) v) by lia. rewrite !map_map. apply map_ext_in. intros [i c] I. cbn.
    apply in_combine_l in I. apply in_seq in I. destruct (Nat.eqb_spec k i); [lia|]. ring_simplify. reflexivity.
Qed.
Lemma diagonal_mv w v : length w = length v -> mv (diagonal w) v = map (fun p => fst p * snd p) (combine w v).
Proof. apply (diagonal_mv_from 0). Qed.

Lemma diagonal_weights w : Forall (fun x => 0 <= x) w -> weight_matrix (length w) (diagonal w).
Proof.
  intro F. split; [|split; [|split]].
  - unfold diagonal, enumerate. rewrite map_length, combine_length, seq_length. lia.
  - apply Forall_forall. intros r I. unfold diagonal in I. apply in_map_iff in I as [p [<- _]].
    rewrite map_length, seq_length. reflexivity.
  - intros u v LU LV. rewrite !diagonal_mv by lia. clear F. revert u v LU LV.
    induction w as [|a w IH]; intros [|x u] [|y v] LU LV; cbn in *; try lia; [reflexivity|].
    rewrite (IH u v) by lia. ring.
  - intros u LU. unfold weighted_square. rewrite diagonal_mv by lia. revert u LU.
    induction F as [|a w A F IH]; intros [|x u] LU; cbn in *; try lia; [lra|].
    specialize (IH u ltac:(lia)). pose proof (Rle_0_sqr x) as S. unfold Rsqr in S. pose proof (Rmult_le_pos _ _ A S). lra.
Qed.

Lemma diagonal_ones m v : length v = m -> mv (diagonal (repeat 1 m)) v = v.
Proof.
  intro L. rewrite diagonal_mv by (rewrite repeat_length; lia). revert m L.
  induction v as [|x v IH]; intros [|m] L; cbn in *; try lia; [reflexivity|]. rewrite IH by lia. f_equal. ring.
Qed.

(** ** The functions *)

Lemma mm_shape n A P : length (mm (length P) (transpose n A) P) = n.
Proof. rewrite mm_length. apply transpose_length. Qed.

Definition weights_of (m : nat) (sigma : mat) : mat := match sigma with [] => diagonal (repeat 1 m) | _ => sigma end.

Lemma least_squares_spec solve n A obs sigma x l v : solve_contract solve ->
  least_squares solve n A obs sigma = Ok (x, l, v) ->
  length x = n /\ l = mv A x /\ v = vminus l obs /\ length A = length obs /\ Forall (fun r => length r = n) A /\
  length (weights_of (length obs) sigma) = length obs /\
  mv (mm n (mm (length obs) (transpose n A) (weights_of (length obs) sigma)) A) x
  = mv (mm (length obs) (transpose n A) (weights_of (length obs) sigma)) obs.
Proof.
  intros SC H. unfold least_squares in H. fold (weights_of (length obs) sigma) in H. set (P := weights_of (length obs) sigma) in *.
  destruct (shaped (length obs) n A && shaped (length obs) (length obs) P)%bool eqn:E; [|discriminate].
  apply andb_true_iff in E as [E1 E2]. apply shaped_spec in E1 as [LA FA]. apply shaped_spec in E2 as [LP FP].
  apply bind_ok in H as [x' [S H]]. injection H as <- <- <-. destruct (SC _ _ _ S) as [LX NE].
  split; [rewrite LX, mv_length, mm_length; apply transpose_length|].
  repeat (split; [first [assumption | reflexivity]|]). exact NE.
Qed.

Lemma sparse_spec solve n A obs x l v : solve_contract solve ->
  sparse_least_squares solve n A obs = Ok (x, l, v) ->
  length x = n /\ l = mv A x /\ v = vminus l obs /\ length A = length obs /\ Forall (fun r => length r = n) A /\
  mv (mm n (transpose n A) A) x = mv (transpose n A) obs.
Proof.
  intros SC H. unfold sparse_least_squares in H.
  destruct (shaped (length obs) n A) eqn:E1; [|discriminate]. apply shaped_spec in E1 as [LA FA].
  apply bind_ok in H as [x' [S H]]. injection H as <- <- <-. destruct (SC _ _ _ S) as [LX NE].
  split; [rewrite LX, mv_length; apply transpose_length|]. repeat (split; [first [assumption | reflexivity]|]). exact NE.
Qed.

Lemma ones_weights m : weight_matrix m (diagonal (repeat 1 m)).
Proof.
  rewrite <- (repeat_length 1 m) at 1. apply diagonal_weights. apply Forall_forall. intros x I. apply repeat_spec in I. subst. lra.
Qed.
Lemma ones_square m v : length v = m -> weighted_square (diagonal (repeat 1 m)) v = sum_square v.
Proof. intro L. unfold weighted_square, sum_square. rewrite diagonal_ones by exact L. reflexivity. Qed.

Lemma sparse_normal n A obs x : length A = length obs -> Forall (fun r => length r = n) A -> length x = n ->
  mv (mm n (transpose n A) A) x = mv (transpose n A) obs ->
  mv (mm n (mm (length obs) (transpose n A) (diagonal (repeat 1 (length obs)))) A) x
  = mv (mm (length obs) (transpose n A) (diagonal (repeat 1 (length obs)))) obs.
Proof.
  intros LA FA LX NE. set (m := length obs) in *. destruct (ones_weights m) as [LP [FP _]].
  assert (Forall (fun r => length r = length (diagonal (repeat 1 m))) (transpose n A)) as FT by (rewrite LP, <- LA; apply transpose_rows).
  rewrite mm_mv; [|exact FA| rewrite LA; apply mm_rows |exact LX].
  rewrite !mm_mv; try assumption; try reflexivity; try (rewrite mv_length; exact LA).
  rewrite !diagonal_ones; try reflexivity; try (rewrite mv_length; exact LA).
  rewrite mm_mv in NE; [exact NE|exact FA|apply transpose_rows|exact LX].
Qed.

Lemma vminus_zero u v : length u = length v -> Forall (fun x => x = 0) (vminus u v) -> u = v.
Proof.
  revert v. induction u as [|a u IH]; intros [|b v] L F; cbn in *; try lia; [reflexivity|].
  inversion F as [|? ? E F']; subst. f_equal; [lra|]. apply IH; [lia|exact F'].
Qed.

Lemma line_error_square x y w a b : length x = length y -> length w = length y ->
  weighted_square (diagonal w) (vminus (mv (map (fun c => [c; 1]) x) [a; b]) y) = line_error x y w a b.
Proof.
  intros LX LW. unfold weighted_square. rewrite diagonal_mv by (rewrite vminus_length; rewrite mv_length, map_length; lia).
  revert y w LX LW. induction x as [|c x IH]; intros [|d y] [|e w] LX LW; cbn in *; try lia; [reflexivity|].
  rewrite <- (IH y w) by lia. unfold mv. ring.
Qed.

Lemma positive_zero w u : length w = length u -> Forall (fun x => 0 < x) w -> weighted_square (diagonal w) u = 0 -> Forall (fun x => x = 0) u.
Proof.
  intros L F. unfold weighted_square. rewrite diagonal_mv by exact L. revert u L.
  induction F as [|a w A F IH]; intros [|x u] L H; cbn in *; try lia; constructor.
  - assert (0 <= dot u (map (fun p => fst p * snd p) (combine w u))) as N.
    { rewrite <- diagonal_mv by lia. apply (proj2 (proj2 (proj2 (diagonal_weights w (Forall_impl _ (fun y Y => Rlt_le _ _ Y) F))))). lia. }
    pose proof (Rle_0_sqr x) as S. unfold Rsqr in S. apply Rsqr_0_uniq. unfold Rsqr.
    pose proof (Rmult_le_pos _ _ (Rlt_le _ _ A) S). assert (a * (x * x) = 0) as Z by lra.
    apply Rmult_integral in Z as [Z|Z]; lra.
  - assert (0 <= dot u (map (fun p => fst p * snd p) (combine w u))) as N.
    { rewrite <- diagonal_mv by lia. apply (proj2 (proj2 (proj2 (diagonal_weights w (Forall_impl _ (fun y Y => Rlt_le _ _ Y) F))))). lia. }
    pose proof (Rle_0_sqr x) as S. unfold Rsqr in S. pose proof (Rmult_le_pos _ _ (Rlt_le _ _ A) S). apply IH; [lia|]. lra.
Qed.
