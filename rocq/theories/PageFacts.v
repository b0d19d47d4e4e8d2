From Verif Require Import Base BaseFacts NumpyModel NumpyFacts TrajModel EvalModel EvalSpec EvalStats ParamModel DataModel EstModel TextModel TextFacts HeaderModel IoModel AngModel RpeModel ReportModel ViewModel ViewFacts PageModel PageSpec.

(** * Files *)
Lemma up_to_slash_none p : no_slash p -> up_to_slash p = ""%string.
Proof. induction p as [|c r IH]; cbn; [reflexivity|]. intros [N H]. rewrite (IH H). destruct (Ascii.eqb_spec c slash); [contradiction|reflexivity]. Qed.

Lemma up_to_slash_prefix p : exists t, p = (up_to_slash p ++ t)%string.
Proof.
  induction p as [|c r (t & E)]; [exists ""%string; reflexivity|]. cbn. destruct (up_to_slash r) as [|a h] eqn:U.
  - destruct (Ascii.eqb c slash); [exists r; reflexivity|exists (String c r); reflexivity].
  - exists t. cbn in *. rewrite E at 1. reflexivity.
Qed.

Lemma strip_slashes_length p : (String.length (strip_slashes p) <= String.length p)%nat.
Proof. induction p as [|c r IH]; [cbn; lia|]. cbn. destruct (strip_slashes r) as [|a h]; [destruct (Ascii.eqb c slash); cbn; lia|cbn in *; lia]. Qed.

Lemma append_length a b : String.length (a ++ b)%string = (String.length a + String.length b)%nat.
Proof. induction a; cbn; congruence. Qed.

Lemma dirname_short p : up_to_slash p <> p -> dirname p <> p.
Proof.
  intros N E. destruct (up_to_slash_prefix p) as (t & T). assert (L : (String.length (dirname p) <= String.length (up_to_slash p))%nat).
  { unfold dirname. destruct (strip_slashes (up_to_slash p)) eqn:S; [lia|]. rewrite <- S. apply strip_slashes_length. }
  rewrite E in L. assert (X : String.length p = (String.length (up_to_slash p) + String.length t)%nat) by (rewrite T at 1; apply append_length). destruct t as [|c t]; [|cbn in X; lia].
  apply N. rewrite T at 2. clear. induction (up_to_slash p) as [|c s IH]; cbn; congruence.
Qed.

Lemma mem_in s l : mem s l = true <-> In s l.
Proof. unfold mem. rewrite existsb_exists. split; [intros (x & I & E); apply String.eqb_eq in E; congruence|intros I; exists s; split; [exact I|apply String.eqb_refl]]. Qed.

Lemma write_ok d p text : p <> ""%string -> ~ In p (d_dirs d) -> (dirname p = ""%string \/ In (dirname p) (d_dirs d)) -> up_to_slash p <> p ->
  exists d', write_file d p text = Some d' /\ d_dirs d' = d_dirs d /\ read_file d' p = Some text /\ forall q, q <> p -> read_file d' q = read_file d q.
Proof.
  intros N1 N2 H N3. unfold write_file. destruct (String.eqb_spec p ""); [contradiction|]. destruct (mem p (d_dirs d)) eqn:M; [apply mem_in in M; contradiction|].
  replace (has_parent d p) with true by (symmetry; unfold has_parent; apply orb_true_iff; destruct H as [->|H]; [left; reflexivity|right; apply mem_in, H]).
  destruct (String.eqb_spec (up_to_slash p) p); [contradiction|]. cbn [orb negb]. eexists. split; [reflexivity|]. split; [reflexivity|]. unfold read_file. cbn [d_files find fst]. rewrite String.eqb_refl. split; [reflexivity|].
  intros q Nq. destruct (String.eqb_spec p q); [congruence|]. f_equal. induction (d_files d) as [|f l IH]; [reflexivity|]. cbn. destruct (String.eqb_spec (fst f) p) as [->|Nf]; cbn.
  - destruct (String.eqb_spec p q); [congruence|exact IH].
  - destruct (String.eqb (fst f) q); [reflexivity|exact IH].
Qed.

(** * Bars *)
Lemma linspace_nth a b n i : (i < n)%nat -> nth_error (linspace a b n) i = Some (if (n =? 1)%nat then a else a + INR i * ((b - a) / INR (n - 1))).
Proof.
  intros L. unfold linspace. destruct n as [|[|n]]; [lia| |].
  - replace i with 0%nat by lia. reflexivity.
  - cbn [Nat.eqb]. rewrite nth_error_map', (nth_error_nth' _ 0%nat) by (rewrite seq_length; exact L). rewrite seq_nth by exact L. reflexivity.
Qed.

Lemma linspace_length a b n : length (linspace a b n) = n.
Proof. unfold linspace. destruct n as [|[|n]]; [reflexivity|reflexivity|]. rewrite map_length, seq_length. reflexivity. Qed.

(** The spacing of result i of n *)
Lemma spacing n i : (i < n)%nat -> let w := 9 / 10 / INR n in
  nth_error (linspace (- w * (INR n - 1) / 2) (w * (INR n - 1) / 2) n) i = Some ((INR i - (INR n - 1) / 2) * w).
Proof.
  intros L w. rewrite linspace_nth by exact L. f_equal. destruct (Nat.eqb_spec n 1) as [->|N].
  - replace i with 0%nat by lia. cbn. lra.
  - assert (P : INR n - 1 <> 0). { assert (1 < INR n) by (apply lt_1_INR; lia). lra. } rewrite minus_INR by lia. cbn [INR]. field. exact P.
Qed.

Lemma bars_apart n i i' k k' : (0 < n)%nat -> (i < n)%nat -> (i' < n)%nat -> (i, k) <> (i', k') -> let w := 9 / 10 / INR n in
  w <= Rabs (INR k + (INR i - (INR n - 1) / 2) * w - (INR k' + (INR i' - (INR n - 1) / 2) * w)).
Proof.
  intros P L L' N w. assert (Pn : 0 < INR n) by (apply lt_0_INR, P). assert (Pw : 0 < w) by (unfold w; apply Rdiv_lt_0_compat; lra). assert (E : INR n * w = 9 / 10) by (unfold w; field; lra).
  replace (_ - _) with (INR k - INR k' + (INR i - INR i') * w) by ring.
  assert (B : forall a b, (a < n)%nat -> (b < n)%nat -> (INR a - INR b) * w <= 9 / 10 - w).
  { intros a b A B. assert (INR a <= INR n - 1) by (apply le_INR in A; rewrite S_INR in A; lra). assert (0 <= INR b) by apply pos_INR. replace (9 / 10 - w) with ((INR n - 1) * w) by lra. apply Rmult_le_compat_r; lra. }
  assert (B1 := B i i' L L'). assert (B2 := B i' i L' L). assert (D : forall a b, (a < b)%nat -> 1 <= INR b - INR a) by (intros a b A; apply le_INR in A; rewrite S_INR in A; lra).
  replace ((INR i' - INR i) * w) with (- ((INR i - INR i') * w)) in B2 by ring.
  destruct (Nat.lt_total k k') as [K|[<-|K]].
  - assert (X := D _ _ K). rewrite Rabs_left; lra.
  - destruct (Nat.lt_total i i') as [I|[<-|I]]; [|congruence|]; assert (X := D _ _ I).
    + assert (1 * w <= (INR i' - INR i) * w) by (apply Rmult_le_compat_r; lra). rewrite Rabs_left; lra.
    + assert (1 * w <= (INR i - INR i') * w) by (apply Rmult_le_compat_r; lra). rewrite Rabs_right; lra.
  - assert (X := D _ _ K). rewrite Rabs_right; lra.
Qed.

Lemma bar_inside n i : (0 < n)%nat -> (i < n)%nat -> let w := 9 / 10 / INR n in Rabs ((INR i - (INR n - 1) / 2) * w) + w / 2 <= 9 / 20.
Proof.
  intros P L w. assert (Pn : 0 < INR n) by (apply lt_0_INR, P). assert (Pw : 0 < w) by (unfold w; apply Rdiv_lt_0_compat; lra). assert (E : INR n * w = 9 / 10) by (unfold w; field; lra).
  rewrite Rabs_mult, (Rabs_right w) by lra. assert (Rabs (INR i - (INR n - 1) / 2) <= (INR n - 1) / 2).
  { assert (0 <= INR i) by apply pos_INR. assert (INR i <= INR n - 1) by (apply le_INR in L; rewrite S_INR in L; lra). apply Rabs_le. lra. }
  assert (Rabs (INR i - (INR n - 1) / 2) * w <= (INR n - 1) / 2 * w) by (apply Rmult_le_compat_r; lra). lra.
Qed.

(** * Histograms *)
Lemma histogram_total edges l : encloses edges l -> fold_right Nat.add 0%nat (histogram edges l) = length l.
Proof.
  intros (S & L & B). assert (G : forall edges l, StronglySorted Rlt edges -> (2 <= length edges)%nat -> (forall x, In x l -> x <= last edges 0) ->
    fold_right Nat.add 0%nat (histogram edges l) = length (filter (fun x => Rleb (hd 0 edges) x) l)).
  { clear. induction edges as [|a es IH]; intros l S L B; [cbn in L; lia|]. destruct es as [|b r]; [cbn in L; lia|]. inversion S as [|? ? S1 S2]; subst. destruct r as [|c r].
    - cbn [histogram hd fold_right]. rewrite Nat.add_0_r. f_equal. apply filter_ext_in. intros x I. replace (Rleb x b) with true; [apply andb_true_r|]. symmetry. apply Rleb_true. exact (B x I).
    - change (histogram (a :: b :: c :: r) l) with (length (filter (fun x => Rleb a x && Rltb x b)%bool l) :: histogram (b :: c :: r) l). cbn [fold_right]. rewrite (IH l S1); [|cbn; lia|exact B]. cbn [hd]. assert (a < b) by (inversion S2; assumption).
      induction l as [|x l IHl]; [reflexivity|]. cbn [filter]. assert (IHl' := IHl (fun y I => B y (or_intror I))). clear IHl.
      destruct (Rleb a x) eqn:E1, (Rltb x b) eqn:E2, (Rleb b x) eqn:E3; cbn [andb length]; try lia; exfalso;
        repeat match goal with H : Rleb _ _ = true |- _ => apply Rleb_true in H | H : Rleb _ _ = false |- _ => apply Rleb_false in H | H : Rltb _ _ = true |- _ => apply Rltb_true in H | H : Rltb _ _ = false |- _ => apply Rltb_false in H end; lra. }
  rewrite G; [|exact S|exact L|intros x I; apply B, I]. f_equal. apply filter_true. intros x I. apply Rleb_true, B, I.
Qed.

Lemma mapM_total {A B} (f : A -> result B) l : (forall a, In a l -> exists b, f a = Ok b) -> exists l', mapM f l = Ok l'.
Proof.
  induction l as [|a l IH]; intros H; [exists []; reflexivity|]. destruct (H a (or_introl eq_refl)) as (b & E). destruct IH as (l' & E'); [intros x I; apply H; right; exact I|]. exists (b :: l'). cbn. rewrite E. cbn. rewrite E'. reflexivity.
Qed.

Lemma of_group groups off i g : (forall j g', nth_error groups j = Some g' -> forall b, In b g' -> b_result b = (off + j)%nat) -> nth_error groups i = Some g -> of_result (off + i) (concat groups) = g.
Proof.
  revert off i. induction groups as [|h groups IH]; intros off i H E; [destruct i; discriminate|]. unfold of_result. cbn [concat]. rewrite filter_app.
  assert (O : forall off' (gs : list (list bar)), (forall j g', nth_error gs j = Some g' -> forall b, In b g' -> b_result b = (off' + j)%nat) -> forall k, (k < off')%nat -> filter (fun b => (b_result b =? k)%nat) (concat gs) = []).
  { clear. intros off' gs H k L. apply filter_none. intros b I. apply in_concat in I as (g & Ig & I). apply In_nth_error in Ig as (j & Hj). rewrite (H j g Hj b I). apply Nat.eqb_neq. lia. }
  assert (T : forall j g', nth_error groups j = Some g' -> forall b, In b g' -> b_result b = (S off + j)%nat) by (intros j g' Hj b I; rewrite (H (S j) g' Hj b I); lia).
  destruct i as [|i].
  - injection E as <-. rewrite (O (S off) groups T) by lia. rewrite app_nil_r. apply filter_true. intros b I. apply Nat.eqb_eq. exact (H 0%nat h eq_refl b I).
  - rewrite (filter_none (fun b => (b_result b =? off + S i)%nat) h); [|intros b I; rewrite (H 0%nat h eq_refl b I); apply Nat.eqb_neq; lia]. replace (off + S i)%nat with (S off + i)%nat by lia. exact (IH (S off) i T E).
Qed.

Lemma characteristics_six {Q} (rv : Q -> V3) positions mm r v : characteristics rv positions mm r = Ok v -> length v = 6%nat.
Proof. unfold characteristics. destruct positions; intros E; apply bind_ok in E as (lo & _ & E); apply bind_ok in E as (hi & _ & E); injection E as <-; reflexivity. Qed.

Lemma filter_shorter {A} (f : A -> bool) l x : In x l -> f x = false -> (length (filter f l) < length l)%nat.
Proof.
  induction l as [|a l IH]; intros I E; [destruct I|]. cbn. destruct I as [->|I]; [rewrite E; assert (B : (length (filter f l) <= length l)%nat) by (clear; induction l as [|b l IH]; cbn; [lia|destruct (f b); cbn; lia]); lia|]. assert (X := IH I E). destruct (f a); cbn; lia.
Qed.
