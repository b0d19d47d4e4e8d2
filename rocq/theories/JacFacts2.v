(** Proofs about the linearisation: the matrices. *)
From Verif Require Import Base BaseFacts VecFacts NumpyModel NumpyFacts TrajModel ParamModel DataModel DataFacts LsqModel
  GeomModel GeomSpec GeomFacts GeomFacts2 JacModel JacSpec JacFacts.

(** ** Blocks of three *)
Lemma seq_three n : seq 0 (n * 3) = flat_map (fun i => [3 * i; 3 * i + 1; 3 * i + 2]%nat) (seq 0 n).
Proof.
  induction n as [|n IH]; [reflexivity|].
  replace (S n * 3)%nat with (n * 3 + 3)%nat by lia. rewrite seq_app, IH.
  rewrite (seq_S n 0), flat_map_app. f_equal. cbn [flat_map app seq]. repeat (f_equal; try lia).
Qed.

Lemma flat_map_flat_map {A B C} (f : A -> list B) (g : B -> list C) l :
  flat_map g (flat_map f l) = flat_map (fun x => flat_map g (f x)) l.
Proof. induction l as [|x l IH]; [reflexivity|]. cbn. rewrite flat_map_app, IH. reflexivity. Qed.

Lemma interleave_map {A B} (f g h : A -> B) (l : list A) :
  interleave (map f l) (map g l) (map h l) = flat_map (fun x => [f x; g x; h x]) l.
Proof. unfold interleave. induction l as [|x l IH]; [reflexivity|]. cbn in *. rewrite IH. reflexivity. Qed.


Lemma nth_blocks {A B} (f : A -> nat -> B) (l : list A) (d : B) (x0 : A) i a : (a < 3)%nat -> (i < length l)%nat ->
  nth (3 * i + a) (flat_map (fun x => [f x 0; f x 1; f x 2]%nat) l) d = f (nth i l x0) a.
Proof.
  intro Ha. revert i. induction l as [|x l IH]; intros i Hi; [cbn in Hi; lia|].
  destruct i as [|i].
  - destruct a as [|[|[|a]]]; [reflexivity.. | lia].
  - replace (3 * S i + a)%nat with (S (S (S (3 * i + a)))) by lia. cbn [flat_map app nth]. apply IH. cbn in Hi. lia.
Qed.

Lemma index_bound i n k c : (i < n)%nat -> (c < k)%nat -> (i * k + c < n * k)%nat.
Proof. intros Hi Hc. assert (H := Nat.mul_le_mono_r (S i) n k Hi). cbn in H. lia. Qed.

(** ** The adjusted observations *)
Lemma num_obs_pos e : (6 <= num_obs_per_epoch e)%nat.
Proof. unfold num_obs_per_epoch. destruct (leverarm_enabled e), (time_shift_enabled e); cbn; lia. Qed.

Lemma epochs_count e vec n : length vec = (n * num_obs_per_epoch e)%nat -> number_of_epochs e vec = n.
Proof. intro L. unfold number_of_epochs. rewrite L. apply Nat.div_mul. assert (K := num_obs_pos e). lia. Qed.

Lemma est_column_nth e vec n c i : length vec = (n * num_obs_per_epoch e)%nat -> (c < num_obs_per_epoch e)%nat -> (i < n)%nat ->
  nth i (est_column e vec c) 0 = nth (i * num_obs_per_epoch e + c) vec 0.
Proof.
  intros L Hc Hi. unfold est_column. destruct (strided_spec vec n (num_obs_per_epoch e) c Hc L) as [SL SN].
  specialize (SN i Hi).
  rewrite (nth_error_nth' _ 0) in SN by (rewrite SL; exact Hi).
  rewrite (nth_error_nth' vec 0) in SN by (rewrite L; assert (B := index_bound i n _ c Hi Hc); lia).
  injection SN as SN. rewrite SN, (Nat.add_comm c), (Nat.mul_comm i). reflexivity.
Qed.

Lemma nth_zeros i n : nth i (repeat 0 n) 0 = 0.
Proof. revert i. induction n; intros [|i]; cbn; auto. Qed.

Lemma est_epoch_observed e vec n i : length vec = (n * num_obs_per_epoch e)%nat -> (i < n)%nat ->
  est_epoch e vec i = observed_epoch e vec i.
Proof.
  intros L Hi. unfold est_epoch, observed_epoch, est_columns. rewrite (epochs_count e vec n L).
  assert (E := fun c Hc => est_column_nth e vec n c i L Hc Hi).
  unfold num_obs_per_epoch in E at 1.
  destruct (leverarm_enabled e), (time_shift_enabled e); cbn [seq map app nth repeat Nat.add] in *;
    rewrite ?nth_zeros, !E by lia; reflexivity.
Qed.

Lemma est_epochs_observed e vec n : length vec = (n * num_obs_per_epoch e)%nat ->
  est_epochs e vec = map (observed_epoch e vec) (seq 0 n).
Proof.
  intro L. unfold est_epochs. rewrite (epochs_count e vec n L). apply map_ext_in. intros i Hi. apply in_seq in Hi.
  apply (est_epoch_observed e vec n); [exact L | lia].
Qed.

Lemma flat_map_map {A B C} (f : A -> B) (g : B -> list C) l : flat_map g (map f l) = flat_map (fun x => g (f x)) l.
Proof. induction l as [|x l IH]; [reflexivity|]. cbn. rewrite IH. reflexivity. Qed.

Lemma eval_misclosures e p vec n : length vec = (n * num_obs_per_epoch e)%nat ->
  eval_functional_relationship p (est_epochs e vec) = misclosures e p n vec.
Proof.
  intro L. unfold eval_functional_relationship, misclosures. rewrite (est_epochs_observed e vec n L), interleave_map, flat_map_map.
  apply flat_map_ext. intro i. rewrite fr_misclosed. reflexivity.
Qed.

Lemma row_split r : exists i a, (a < 3)%nat /\ r = (3 * i + a)%nat.
Proof. exists (r / 3)%nat, (r mod 3)%nat. split; [apply Nat.mod_upper_bound; lia | apply Nat.div_mod; lia]. Qed.

Lemma misclosures_nth e p n vec i a : (a < 3)%nat -> (i < n)%nat ->
  nth (3 * i + a) (misclosures e p n vec) 0 = component a (misclosed p (observed_epoch e vec i)).
Proof.
  intros Ha Hi. unfold misclosures.
  assert (E := nth_blocks (fun i a => component a (misclosed p (observed_epoch e vec i))) (seq 0 n) 0 0%nat i a Ha).
  rewrite seq_length, seq_nth in E by exact Hi. exact (E Hi).
Qed.

(** ** The design matrix *)
Lemma design_nth egrad e p vec n i a : length vec = (n * num_obs_per_epoch e)%nat -> (a < 3)%nat -> (i < n)%nat ->
  nth (3 * i + a) (design_matrix egrad p (est_epochs e vec)) [] = design_row egrad p (observed_epoch e vec i) a.
Proof.
  intros L Ha Hi. unfold design_matrix. rewrite (est_epochs_observed e vec n L), interleave_map, flat_map_map.
  assert (E := nth_blocks (fun i a => design_row egrad p (observed_epoch e vec i) a) (seq 0 n) [] 0%nat i a Ha).
  rewrite seq_length, seq_nth in E by exact Hi. exact (E Hi).
Qed.

Lemma params_of_list p : params_of (params_list p) = p.
Proof. destruct p as [[? ? ?] [? ? ?] ? ? [? ? ?]]. reflexivity. Qed.

Theorem design_partial egrad e p vec n r j : egrad_contract egrad -> length vec = (n * num_obs_per_epoch e)%nat ->
  (r < 3 * n)%nat -> (j < 11)%nat ->
  partial (fun q => misclosures e (params_of q) n vec) (params_list p) r j
    (nth j (nth r (design_matrix egrad p (est_epochs e vec)) []) 0).
Proof.
  intros C L Hr Hj. destruct (row_split r) as [i [a [Ha ->]]]. unfold partial.
  rewrite (design_nth egrad e p vec n i a L Ha) by lia.
  refine (D_ext _ _ _ _ _ (design_epoch egrad p (observed_epoch e vec i) a j C Ha Hj)).
  intro t. symmetry. apply misclosures_nth; [exact Ha | lia].
Qed.

(** ** One observation is changed *)
Lemma replace_nth_length {A} c (t : A) l : (c < length l)%nat -> length (replace_nth c t l) = length l.
Proof. intro H. unfold replace_nth. rewrite app_length, firstn_length. cbn [length]. rewrite skipn_length. lia. Qed.

Lemma replace_nth_nth {A} c (t : A) l d i : (c < length l)%nat -> nth i (replace_nth c t l) d = if (i =? c)%nat then t else nth i l d.
Proof.
  revert c i. induction l as [|x l IH]; intros c i H; [cbn in H; lia|].
  destruct c as [|c].
  - destruct i; reflexivity.
  - change (replace_nth (S c) t (x :: l)) with (x :: replace_nth c t l). destruct i as [|i]; [reflexivity|].
    cbn [nth Nat.eqb]. apply IH. cbn in H. lia.
Qed.

(** Where the [c]-th observation of an epoch stands among the twelve *)
Definition observed_slot (e : est_settings) (c : nat) : nat :=
  if (c <? 6)%nat then c else if leverarm_enabled e then c else (c + 3)%nat.

Lemma replace_epoch e vec n i c t j : length vec = (n * num_obs_per_epoch e)%nat -> (i < n)%nat -> (j < n)%nat -> (c < num_obs_per_epoch e)%nat ->
  observed_epoch e (replace_nth (j * num_obs_per_epoch e + c) t vec) i
  = if (i =? j)%nat then epoch_of (replace_nth (observed_slot e c) t (epoch_list (observed_epoch e vec i))) else observed_epoch e vec i.
Proof.
  intros L Hi Hj Hc.
  assert (B : (j * num_obs_per_epoch e + c < length vec)%nat) by (rewrite L; apply index_bound; assumption).
  assert (E : forall c', (c' < num_obs_per_epoch e)%nat ->
     nth (i * num_obs_per_epoch e + c') (replace_nth (j * num_obs_per_epoch e + c) t vec) 0
     = if ((i =? j) && (c' =? c))%nat%bool then t else nth (i * num_obs_per_epoch e + c') vec 0).
  { intros c' Hc'. rewrite replace_nth_nth by exact B.
    replace (i * num_obs_per_epoch e + c' =? j * num_obs_per_epoch e + c)%nat with ((i =? j) && (c' =? c))%nat%bool; [reflexivity|].
    destruct (Nat.eqb_spec i j) as [->|N]; cbn [andb].
    - destruct (Nat.eqb_spec c' c) as [->|M]; symmetry; [apply Nat.eqb_refl|]. apply Nat.eqb_neq. lia.
    - symmetry. apply Nat.eqb_neq. intro F.
      destruct (Nat.lt_ge_cases i j) as [G|G].
      + assert (Z := index_bound i j _ c' G Hc'). lia.
      + assert (G' : (j < i)%nat) by lia. assert (Z := index_bound j i _ c G' Hc). lia. }
  clear B L. unfold observed_epoch.
  destruct (Nat.eqb_spec i j) as [->|N]; cbn [andb] in E.
  2: { destruct (leverarm_enabled e) eqn:LE, (time_shift_enabled e) eqn:TE; cbn [Nat.add];
       rewrite !E by (unfold num_obs_per_epoch; rewrite LE, TE; cbn; lia); reflexivity. }
  assert (K : num_obs_per_epoch e = (6 + (if leverarm_enabled e then 3 else 0) + (if time_shift_enabled e then 3 else 0))%nat) by reflexivity.
  unfold observed_slot. set (k := num_obs_per_epoch e) in *. clearbody k.
  destruct (leverarm_enabled e), (time_shift_enabled e); cbn [Nat.add] in *; subst k;
    rewrite !E by lia; clear E;
    do 6 (destruct c as [|c]; [reflexivity|]);
    do 6 (try (destruct c as [|c]; [reflexivity|])); lia.
Qed.

(** ** The condition matrix *)
Lemma np_sum_first x l : np_sum (x :: l) = x + np_sum l. Proof. reflexivity. Qed.
Lemma np_sum_app a b : np_sum (a ++ b) = np_sum a + np_sum b.
Proof. induction a as [|x a IH]; cbn [app]; [unfold np_sum at 2; cbn; ring|]. rewrite !np_sum_first, IH. ring. Qed.

Lemma sparse_app a b r c : sparse_entry (a ++ b) r c = sparse_entry a r c + sparse_entry b r c.
Proof. unfold sparse_entry. rewrite map_app. apply np_sum_app. Qed.

Lemma sparse_other l r c : (forall x, In x l -> fst x <> r) -> sparse_entry l r c = 0.
Proof.
  unfold sparse_entry. induction l as [|x l IH]; intro H; [reflexivity|]. cbn [map]. rewrite np_sum_first, IH by (intros y Hy; apply H; right; exact Hy).
  destruct (Nat.eqb_spec (fst x) r) as [E|_]; [exfalso; exact (H x (or_introl eq_refl) E)|]. cbn. ring.
Qed.

Lemma sparse_blocks (T : nat -> list (nat * (nat * R))) s m r c : (forall q x, In x (T q) -> fst x = q) ->
  sparse_entry (flat_map T (seq s m)) r c = if ((s <=? r) && (r <? s + m))%nat%bool then sparse_entry (T r) r c else 0.
Proof.
  intro H. revert s. induction m as [|m IH]; intro s.
  - cbn [seq flat_map]. destruct (Nat.leb_spec s r), (Nat.ltb_spec r (s + 0)); cbn; try reflexivity; lia.
  - cbn [seq flat_map]. rewrite sparse_app, IH.
    destruct (Nat.eq_dec s r) as [->|N].
    + replace (S r <=? r)%nat with false by (symmetry; apply Nat.leb_gt; lia). cbn [andb].
      replace (r <=? r)%nat with true by (symmetry; apply Nat.leb_le; lia).
      replace (r <? r + S m)%nat with true by (symmetry; apply Nat.ltb_lt; lia). cbn [andb]. ring.
    + rewrite (sparse_other (T s)) by (intros x Hx; rewrite (H s x Hx); exact N).
      destruct (Nat.leb_spec (S s) r), (Nat.leb_spec s r), (Nat.ltb_spec r (S s + m)), (Nat.ltb_spec r (s + S m)); cbn [andb]; try ring; lia.
Qed.

Lemma combine_blocks {A B C} (f : A -> list B) (g : A -> list C) l : (forall x, In x l -> length (f x) = length (g x)) ->
  combine (flat_map f l) (flat_map g l) = flat_map (fun x => combine (f x) (g x)) l.
Proof.
  induction l as [|x l IH]; intro H; [reflexivity|]. cbn [flat_map].
  rewrite <- IH by (intros y Hy; apply H; right; exact Hy).
  assert (E := H x (or_introl eq_refl)). revert E. generalize (f x) (g x). intro u. induction u as [|b u IHu]; intros [|c v] E; try discriminate E; [reflexivity|].
  cbn. rewrite IHu by (injection E; trivial). reflexivity.
Qed.

Lemma chunk (r s k : nat) (row : list R) : length row = k ->
  combine (repeat r k) (combine (map (fun c => (c + s)%nat) (seq 0 k)) row) = map (fun c => (r, ((c + s)%nat, nth c row 0))) (seq 0 k).
Proof.
  intros <-. assert (G : forall b, combine (repeat r (length row)) (combine (map (fun c => (c + s)%nat) (seq b (length row))) row)
     = map (fun c => (r, ((c + s)%nat, nth (c - b) row 0))) (seq b (length row))).
  { induction row as [|x row IH]; intro b; [reflexivity|]. cbn [length repeat seq map combine]. rewrite Nat.sub_diag. cbn [nth]. f_equal.
    rewrite IH. apply map_ext_in. intros c Hc. apply in_seq in Hc. replace (c - b)%nat with (S (c - S b)) by lia. reflexivity. }
  rewrite G. apply map_ext. intro c. rewrite Nat.sub_0_r. reflexivity.
Qed.

Lemma np_sum_pick (g : nat -> R) b k c0 :
  np_sum (map (fun c => if (c =? c0)%nat then g c else 0) (seq b k)) = if ((b <=? c0) && (c0 <? b + k))%nat%bool then g c0 else 0.
Proof.
  revert b. induction k as [|k IH]; intro b.
  - cbn [seq map]. destruct (Nat.leb_spec b c0), (Nat.ltb_spec c0 (b + 0)); cbn; try reflexivity; lia.
  - cbn [seq map]. rewrite np_sum_first, IH.
    destruct (Nat.eqb_spec b c0) as [->|N].
    + replace (S c0 <=? c0)%nat with false by (symmetry; apply Nat.leb_gt; lia).
      replace (c0 <=? c0)%nat with true by (symmetry; apply Nat.leb_le; lia).
      replace (c0 <? c0 + S k)%nat with true by (symmetry; apply Nat.ltb_lt; lia). cbn [andb]. ring.
    + destruct (Nat.leb_spec (S b) c0), (Nat.leb_spec b c0), (Nat.ltb_spec c0 (S b + k)), (Nat.ltb_spec c0 (b + S k)); cbn [andb]; try ring; lia.
Qed.

Lemma chunk_entry (r s k : nat) (row : list R) c : length row = k ->
  sparse_entry (map (fun c => (r, ((c + s)%nat, nth c row 0))) (seq 0 k)) r c
  = if ((s <=? c) && (c <? s + k))%nat%bool then nth (c - s) row 0 else 0.
Proof.
  intros L. unfold sparse_entry. rewrite map_map. cbn [fst snd]. rewrite Nat.eqb_refl. cbn [andb].
  destruct (Nat.leb_spec s c) as [G|G].
  - rewrite (map_ext _ (fun c' => if (c' =? c - s)%nat then nth c' row 0 else 0)).
    + rewrite (np_sum_pick (fun c => nth c row 0) 0 k (c - s)). cbn [andb Nat.leb].
      destruct (Nat.ltb_spec (c - s) (0 + k)), (Nat.ltb_spec c (s + k)); cbn [andb]; try reflexivity; lia.
    + intro c'. destruct (Nat.eqb_spec (c' + s) c), (Nat.eqb_spec c' (c - s)); try reflexivity; lia.
  - cbn [andb]. rewrite (map_ext _ (fun _ => 0)).
    + clear. generalize (seq 0 k). intro l. induction l as [|x l IH]; [reflexivity|]. cbn [map]. rewrite np_sum_first, IH. ring.
    + intro c'. destruct (Nat.eqb_spec (c' + s) c); [lia | reflexivity].
Qed.

(** Row [a] of one epoch, with the columns that are there *)
Definition epoch_row egrad p e o a : list R :=
  nth a (condition_from egrad p o) [] ++ nth a condition_to [] ++
  (if leverarm_enabled e then nth a (condition_rpy egrad p o) [] else []) ++
  (if time_shift_enabled e then nth a (condition_speed egrad p o) [] else []).

Lemma stack_rows egrad p e o : condition_stack egrad p e o = epoch_row egrad p e o 0 ++ epoch_row egrad p e o 1 ++ epoch_row egrad p e o 2.
Proof.
  unfold condition_stack, epoch_row. destruct (leverarm_enabled e), (time_shift_enabled e); cbn [andb negb]; cbn [seq map concat app];
    rewrite ?app_nil_r, <- ?app_assoc; reflexivity.
Qed.

Lemma epoch_row_length egrad p e o a : (a < 3)%nat -> length (epoch_row egrad p e o a) = num_obs_per_epoch e.
Proof.
  intro H. unfold epoch_row, num_obs_per_epoch.
  destruct a as [|[|[|a]]]; [.. | lia]; destruct (leverarm_enabled e), (time_shift_enabled e); reflexivity.
Qed.

Lemma epoch_row_nth egrad p e o a c : (a < 3)%nat -> (c < num_obs_per_epoch e)%nat ->
  nth c (epoch_row egrad p e o a) 0 = nth (observed_slot e c) (condition_row egrad p o a) 0.
Proof.
  intros H Hc. unfold epoch_row, condition_row, observed_slot, num_obs_per_epoch in *.
  destruct a as [|[|[|a]]]; [.. | lia]; destruct (leverarm_enabled e), (time_shift_enabled e); cbn [Nat.add] in Hc;
    do 6 (destruct c as [|c]; [reflexivity|]); do 6 (try (destruct c as [|c]; [reflexivity|])); lia.
Qed.

Lemma observed_slot_bound e c : (c < num_obs_per_epoch e)%nat -> (observed_slot e c < 12)%nat.
Proof.
  unfold num_obs_per_epoch, observed_slot. destruct (leverarm_enabled e), (time_shift_enabled e), (Nat.ltb_spec c 6); cbn; lia.
Qed.

Lemma condition_blocks egrad p e vec n : length vec = (n * num_obs_per_epoch e)%nat ->
  condition_matrix egrad p e (est_epochs e vec)
  = flat_map (fun r => map (fun c => (r, ((c + r / 3 * num_obs_per_epoch e)%nat,
        nth c (epoch_row egrad p e (observed_epoch e vec (r / 3)) (r mod 3)) 0))) (seq 0 (num_obs_per_epoch e))) (seq 0 (n * 3)).
Proof.
  intro L. unfold condition_matrix. rewrite (est_epochs_observed e vec n L), map_length, seq_length.
  set (k := num_obs_per_epoch e).
  assert (S : flat_map (fun s => repeat s 3) (map (fun i => (i * k)%nat) (seq 0 n)) = map (fun r => (r / 3 * k)%nat) (seq 0 (n * 3))).
  { rewrite seq_three. rewrite flat_map_map. rewrite flat_map_concat_map, flat_map_concat_map, concat_map, map_map. f_equal.
    apply map_ext. intro i. cbn [map repeat]. rewrite !(Nat.mul_comm 3 i).
    replace (i * 3 / 3)%nat with i by (symmetry; apply Nat.div_mul; lia).
    replace ((i * 3 + 1) / 3)%nat with i by (apply (Nat.div_unique _ 3 i 1); lia).
    replace ((i * 3 + 2) / 3)%nat with i by (apply (Nat.div_unique _ 3 i 2); lia). reflexivity. }
  rewrite S, flat_map_map.
  assert (Dt : flat_map (condition_stack egrad p e) (map (observed_epoch e vec) (seq 0 n))
     = flat_map (fun r => epoch_row egrad p e (observed_epoch e vec (r / 3)) (r mod 3)) (seq 0 (n * 3))).
  { rewrite seq_three, flat_map_map, flat_map_flat_map. apply flat_map_ext. intro i. rewrite stack_rows. cbn [flat_map].
    rewrite app_nil_r. rewrite !(Nat.mul_comm 3 i).
    replace (i * 3 / 3)%nat with i by (symmetry; apply Nat.div_mul; lia).
    replace ((i * 3 + 1) / 3)%nat with i by (apply (Nat.div_unique _ 3 i 1); lia).
    replace ((i * 3 + 2) / 3)%nat with i by (apply (Nat.div_unique _ 3 i 2); lia).
    replace ((i * 3) mod 3)%nat with 0%nat by (symmetry; apply Nat.mod_mul; lia).
    replace ((i * 3 + 1) mod 3)%nat with 1%nat by (apply (Nat.mod_unique _ 3 i 1); lia).
    replace ((i * 3 + 2) mod 3)%nat with 2%nat by (apply (Nat.mod_unique _ 3 i 2); lia). reflexivity. }
  rewrite Dt.
  assert (RL : forall r, length (epoch_row egrad p e (observed_epoch e vec (r / 3)) (r mod 3)) = k)
    by (intro r; apply epoch_row_length, Nat.mod_upper_bound; lia).
  rewrite combine_blocks by (intros r _; rewrite map_length, seq_length, RL; reflexivity).
  rewrite combine_blocks by (intros r _; rewrite repeat_length, combine_length, map_length, seq_length, RL; lia).
  apply flat_map_ext. intro r. apply chunk, RL.
Qed.

Lemma condition_entry egrad p e vec n i a c : length vec = (n * num_obs_per_epoch e)%nat -> (i < n)%nat -> (a < 3)%nat ->
  sparse_entry (condition_matrix egrad p e (est_epochs e vec)) (3 * i + a) c
  = if ((i * num_obs_per_epoch e <=? c) && (c <? i * num_obs_per_epoch e + num_obs_per_epoch e))%nat%bool
    then nth (c - i * num_obs_per_epoch e) (epoch_row egrad p e (observed_epoch e vec i) a) 0 else 0.
Proof.
  intros L Hi Ha. rewrite (condition_blocks egrad p e vec n L), sparse_blocks.
  - cbn [Nat.leb andb]. replace (3 * i + a <? 0 + n * 3)%nat with true by (symmetry; apply Nat.ltb_lt; lia).
    replace ((3 * i + a) / 3)%nat with i by (apply (Nat.div_unique _ 3 i a); lia).
    replace ((3 * i + a) mod 3)%nat with a by (apply (Nat.mod_unique _ 3 i a); lia).
    apply chunk_entry, epoch_row_length, Ha.
  - intros q x Hx. apply in_map_iff in Hx as [c' [<- _]]. reflexivity.
Qed.

Theorem condition_partial egrad e p vec n r c : egrad_contract egrad -> length vec = (n * num_obs_per_epoch e)%nat ->
  (r < 3 * n)%nat -> (c < length vec)%nat ->
  partial (misclosures e p n) vec r c (sparse_entry (condition_matrix egrad p e (est_epochs e vec)) r c).
Proof.
  intros C L Hr Hc. destruct (row_split r) as [i [a [Ha ->]]].
  assert (K := num_obs_pos e). set (k := num_obs_per_epoch e) in *.
  assert (Hi : (i < n)%nat) by lia.
  rewrite (condition_entry egrad p e vec n i a c L Hi Ha). fold k.
  set (j := (c / k)%nat). set (b := (c mod k)%nat).
  assert (E : c = (j * k + b)%nat) by (rewrite Nat.mul_comm; apply Nat.div_mod; lia).
  assert (Hb : (b < k)%nat) by (apply Nat.mod_upper_bound; lia).
  clearbody j b. assert (Hj : (j < n)%nat) by (subst c; rewrite L in Hc; nia).
  unfold partial. subst c.
  apply (D_ext (fun t => component a (misclosed p (if (i =? j)%nat
     then epoch_of (replace_nth (observed_slot e b) t (epoch_list (observed_epoch e vec i))) else observed_epoch e vec i)))).
  { intro t. rewrite misclosures_nth by (exact Ha || exact Hi).
    unfold k. rewrite (replace_epoch e vec n i b t j L Hi Hj Hb). reflexivity. }
  destruct (Nat.eqb_spec i j) as [<-|N].
  - replace (i * k <=? i * k + b)%nat with true by (symmetry; apply Nat.leb_le; lia).
    replace (i * k + b <? i * k + k)%nat with true by (symmetry; apply Nat.ltb_lt; lia). cbn [andb].
    replace (i * k + b - i * k)%nat with b by lia.
    rewrite epoch_row_nth by assumption.
    assert (D := condition_epoch egrad p (observed_epoch e vec i) a (observed_slot e b) C Ha (observed_slot_bound e b Hb)).
    replace (nth (i * k + b) vec 0) with (nth (observed_slot e b) (epoch_list (observed_epoch e vec i)) 0); [exact D|].
    clear - Hb. unfold observed_epoch, observed_slot, k, num_obs_per_epoch in *. 
    destruct (leverarm_enabled e), (time_shift_enabled e); cbn [Nat.add] in Hb;
      do 6 (destruct b as [|b]; [reflexivity|]); do 6 (try (destruct b as [|b]; [reflexivity|])); lia.
  - replace ((i * k <=? j * k + b) && (j * k + b <? i * k + k))%nat%bool with false.
    + apply derivable_pt_lim_const.
    + symmetry. apply Bool.andb_false_iff. destruct (Nat.lt_ge_cases i j) as [G|G]; [right; apply Nat.ltb_ge; nia | left; apply Nat.leb_gt; nia].
Qed.

(** ** Shapes *)
Lemma blocks_length {A B} (f g h : A -> B) l : length (flat_map (fun x => [f x; g x; h x]) l) = (3 * length l)%nat.
Proof. induction l as [|x l IH]; [reflexivity|]. cbn [flat_map length app]. rewrite IH. lia. Qed.

Theorem design_shape egrad e p vec n : length vec = (n * num_obs_per_epoch e)%nat ->
  length (design_matrix egrad p (est_epochs e vec)) = (3 * n)%nat /\
  Forall (fun row => length row = 11%nat) (design_matrix egrad p (est_epochs e vec)).
Proof.
  intro L. unfold design_matrix. rewrite interleave_map. split.
  - rewrite blocks_length. unfold est_epochs. rewrite map_length, seq_length, (epochs_count e vec n L). reflexivity.
  - apply Forall_forall. intros row I. apply in_flat_map in I as [o [_ [<-|[<-|[<-|[]]]]]]; reflexivity.
Qed.

Theorem condition_inside egrad e p vec n : length vec = (n * num_obs_per_epoch e)%nat ->
  Forall (fun t => (fst t < 3 * n)%nat /\ (fst (snd t) < length vec)%nat) (condition_matrix egrad p e (est_epochs e vec)).
Proof.
  intro L. rewrite (condition_blocks egrad p e vec n L). apply Forall_forall. intros t I.
  apply in_flat_map in I as [r [Hr I]]. apply in_map_iff in I as [c [<- Hc]]. apply in_seq in Hr, Hc. cbn [fst snd]. split; [lia|].
  rewrite L. assert (B : (r / 3 < n)%nat) by (apply Nat.div_lt_upper_bound; lia).
  assert (Z := index_bound (r / 3) n (num_obs_per_epoch e) c B ltac:(lia)). lia.
Qed.
