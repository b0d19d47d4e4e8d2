(** Property C152: names of parameters, parameter sets as dictionaries, sums and differences. *)
From Verif Require Import Base BaseFacts NumpyModel TrajModel ApproxModel ApproxFacts2 EvalModel ParamModel ParamSpec DictModel DictSpec.

Lemma prefix_inj p a b : (p ++ a)%string = (p ++ b)%string -> a = b.
Proof. induction p as [|c p IH]; cbn; intro H; [exact H|]. injection H as H. apply IH, H. Qed.

Lemma make_spec cnt made m c p : make cnt made m = Some (c, p) -> c = S cnt /\
  match m with MNew _ _ _ _ name _ => p_name p = if String.eqb name "" then ("Parameter " ++ show_nat cnt)%string else name
             | MSub _ _ | MAdd _ _ => p_name p = ("Parameter " ++ show_nat cnt)%string
             | MNeg i => exists a, nth_error made i = Some a /\ p_name p = if String.eqb (p_name a) "" then ("Parameter " ++ show_nat cnt)%string else p_name a end.
Proof.
  destruct m as [v s d e n u|i j|i j|i]; cbn; intro H.
  - injection H as <- <-. auto.
  - destruct (nth_error made i); [|discriminate]. destruct (nth_error made j); [|discriminate]. injection H as <- <-. auto.
  - destruct (nth_error made i); [|discriminate]. destruct (nth_error made j); [|discriminate]. injection H as <- <-. auto.
  - destruct (nth_error made i) as [a|]; [|discriminate]. injection H as <- <-. split; [reflexivity|]. exists a. auto.
Qed.

Lemma makes_spec ms : forall cnt made c all, makes cnt made ms = Some (c, all) ->
  c = (cnt + length ms)%nat /\ exists new, all = made ++ new /\ length new = length ms /\
  forall i p, nth_error new i = Some p -> nameless ms i -> p_name p = ("Parameter " ++ show_nat (cnt + i))%string.
Proof.
  induction ms as [|m ms IH]; cbn [makes]; intros cnt made c all H.
  - injection H as <- <-. split; [cbn; lia|]. exists []. rewrite app_nil_r. repeat split; auto. intros i p N. destruct i; discriminate.
  - destruct (make cnt made m) as [[c' p]|] eqn:M; [|discriminate]. destruct (make_spec _ _ _ _ _ M) as (-> & N). destruct (IH _ _ _ _ H) as (-> & new & -> & L & K).
    split; [cbn; lia|]. exists (p :: new). rewrite <- app_assoc. split; [reflexivity|]. split; [cbn; lia|]. intros [|i] q Q NL.
    + injection Q as <-. rewrite Nat.add_0_r. unfold nameless in NL. cbn in NL. destruct m as [v s d e n u|? ?|? ?|?]; try exact N; [subst n; exact N|contradiction].
    + replace (cnt + S i)%nat with (S cnt + i)%nat by lia. apply (K i); [exact Q|exact NL].
Qed.

(** Whatever parameters are made in whatever order: those not told their names have different ones. *)
Theorem C152_names : forall cnt ms c made i j p q, makes cnt [] ms = Some (c, made) -> i <> j -> nameless ms i -> nameless ms j ->
  nth_error made i = Some p -> nth_error made j = Some q -> p_name p <> p_name q.
Proof.
  intros cnt ms c made i j p q H ND NI NJ P Q0 E. destruct (makes_spec ms cnt [] c made H) as (_ & new & -> & _ & K). cbn [app] in P, Q0.
  rewrite (K i p P NI), (K j q Q0 NJ) in E. apply prefix_inj, show_nat_inj in E. lia.
Qed.
Print Assumptions C152_names.

(** Dictionaries *)
Lemma lookup_put {A} (d : list (string * A)) k v x : lookup (put d k v) x = if String.eqb k x then Some v else lookup d x.
Proof.
  induction d as [|[k' v'] d IH]; cbn; [reflexivity|]. destruct (String.eqb_spec k' k) as [->|N]; cbn.
  - destruct (String.eqb k x); reflexivity.
  - destruct (String.eqb_spec k' x) as [->|N']; [destruct (String.eqb_spec k x) as [->|]; [contradiction|reflexivity]|exact IH].
Qed.
Lemma put_fresh {A} (d : list (string * A)) k v : ~ In k (map fst d) -> put d k v = d ++ [(k, v)].
Proof.
  induction d as [|[k' v'] d IH]; cbn; intro H; [reflexivity|]. destruct (String.eqb_spec k' k) as [->|N]; [exfalso; auto|]. f_equal. apply IH. auto.
Qed.
Lemma dict_all (l : list param) : forall d, NoDup (map fst d ++ map p_name l) ->
  fold_left (fun d p => put d (p_name p) (p_value p, p_variance p)) l d = d ++ map (fun p => (p_name p, (p_value p, p_variance p))) l.
Proof.
  induction l as [|p l IH]; intros d N; cbn; [rewrite app_nil_r; reflexivity|].
  rewrite put_fresh by (intro I; cbn in N; apply NoDup_remove in N as [_ N]; apply N, in_or_app; left; exact I).
  rewrite IH; [rewrite <- app_assoc; reflexivity|]. rewrite map_app, <- app_assoc. exact N.
Qed.
Lemma dict_last (l : list param) : forall d x, lookup (fold_left (fun d p => put d (p_name p) (p_value p, p_variance p)) l d) x =
  match find (fun p => String.eqb (p_name p) x) (rev l) with Some p => Some (p_value p, p_variance p) | None => lookup d x end.
Proof.
  induction l as [|p l IH]; intros d x; [reflexivity|]. cbn [fold_left rev]. rewrite IH, lookup_put.
  assert (F : forall (u : list param) y, find (fun p => String.eqb (p_name p) x) (u ++ [y]) = match find (fun p => String.eqb (p_name p) x) u with Some z => Some z | None => if String.eqb (p_name y) x then Some y else None end).
  { intros u y. induction u as [|z u IHu]; cbn; [reflexivity|]. destruct (String.eqb (p_name z) x); [reflexivity|exact IHu]. }
  rewrite F. destruct (find _ (rev l)); [reflexivity|]. destruct (String.eqb (p_name p) x); reflexivity.
Qed.

Lemma NoDup_map_filter {A B} (f : A -> B) (g : A -> bool) l : NoDup (map f l) -> NoDup (map f (filter g l)).
Proof.
  induction l as [|x l IH]; cbn; intro N; [constructor|]. apply NoDup_cons_iff in N as [N1 N2]. destruct (g x); [|apply IH, N2]. cbn. apply NoDup_cons_iff. split; [|apply IH, N2].
  intro I. apply N1. apply in_map_iff in I as (y & E & I). apply in_map_iff. exists y. split; [exact E|]. apply filter_In in I. apply I.
Qed.

(** With different names: one entry for each parameter (each enabled one), in order, with its value and variance *)
Theorem C152_dict : forall s enabled_only, NoDup (map p_name (ps_params s)) ->
  to_dict s enabled_only = map (fun p => (p_name p, (p_value p, p_variance p))) (filter (fun p => p_enabled p || negb enabled_only)%bool (ps_params s)).
Proof. intros s eo N. unfold to_dict. rewrite dict_all; [reflexivity|]. cbn. apply NoDup_map_filter, N. Qed.
Print Assumptions C152_dict.

(** Names never change; those of the standard sets are different. *)
Lemma set_loop_names k eo l : forall vals l', set_loop k eo l vals = Ok l' -> map p_name l' = map p_name l.
Proof.
  induction l as [|p l IH]; intros vals l' H; cbn in H; [injection H as <-; reflexivity|].
  destruct (negb (p_enabled p) && eo)%bool.
  - apply bind_ok in H as (r & R1 & H). injection H as <-. cbn. f_equal. eapply IH, R1.
  - destruct vals as [|v vs]; [discriminate|]. apply bind_ok in H as (r & R1 & H). injection H as <-. cbn. f_equal; [destruct k; reflexivity|]. eapply IH, R1.
Qed.
Lemma set_flags_names l : forall bs, map p_name (set_flags l bs) = map p_name l.
Proof. induction l as [|p l IH]; intros [|b bs]; cbn; try reflexivity. f_equal. apply IH. Qed.
Lemma ps_set_names s vals k eo s' : ps_set s vals k eo = Ok s' -> map p_name (ps_params s') = map p_name (ps_params s).
Proof.
  unfold ps_set. destruct (_ && _)%bool; [discriminate|]. destruct (_ && _)%bool; [discriminate|]. intro H. apply bind_ok in H as (l & L & H). injection H as <-. eapply set_loop_names, L.
Qed.
Lemma variances_names s v s' : set_variances s v = Ok s' -> map p_name (ps_params s') = map p_name (ps_params s).
Proof. unfold set_variances. intro H. apply bind_ok in H as (x & X & H). injection H as <-. exact (ps_set_names _ _ _ _ _ X). Qed.
Lemma variances_enabled_names s v s' : set_variances_enabled s v = Ok s' -> map p_name (ps_params s') = map p_name (ps_params s).
Proof. unfold set_variances_enabled. intro H. apply bind_ok in H as (x & X & H). apply bind_ok in H as (m & M & H). injection H as <-. exact (ps_set_names _ _ _ _ _ X). Qed.
Lemma or_same_names s r : (forall s', r = Ok s' -> map p_name (ps_params s') = map p_name (ps_params s)) -> map p_name (ps_params (or_same s r)) = map p_name (ps_params s).
Proof. destruct r as [s'|e]; cbn; auto. Qed.
Lemma run_call_names s c : map p_name (ps_params (run_call s c)) = map p_name (ps_params s).
Proof.
  destruct c as [v|v|v|v|m| | |bs]; cbn [run_call].
  - apply or_same_names. intros s'. apply ps_set_names.
  - apply or_same_names. intros s'. apply ps_set_names.
  - apply or_same_names. intros s'. apply variances_names.
  - apply or_same_names. intros s'. apply variances_enabled_names.
  - unfold after_set_covariance, set_covariance_matrix. destruct (validate_covariance (ps_set_cov s m)) as [s'|e] eqn:E; [|reflexivity].
    unfold validate_covariance in E. destruct (negb _); [discriminate|]. destruct (_ =? _)%nat; [apply (variances_names _ _ _ E)|]. destruct (negb _); [discriminate|].
    apply bind_ok in E as (sub & _ & E). apply (variances_enabled_names _ _ _ E).
  - cbn. rewrite map_map. reflexivity.
  - cbn. rewrite map_map. reflexivity.
  - cbn. apply set_flags_names.
Qed.
Lemma run_calls_names cs : forall s, map p_name (ps_params (run_calls s cs)) = map p_name (ps_params s).
Proof. induction cs as [|c cs IH]; intro s; [reflexivity|]. cbn. unfold run_calls in IH. rewrite IH. apply run_call_names. Qed.

Lemma numbered_names cnt e : map p_name (ps_params (snd (numbered_from_settings cnt e))) = map (fun i => ("Parameter " ++ show_nat (i + cnt))%string) (seq 0 11).
Proof. reflexivity. Qed.

(** The standard sets, after any calls: one entry for each (enabled) parameter *)
Theorem C152_history : forall s cs enabled_only, s = default_alignment \/ s = default_sensor \/ (exists cnt e, s = snd (numbered_from_settings cnt e)) ->
  map fst (to_dict (run_calls s cs) false) = map p_name (ps_params s) /\
  to_dict (run_calls s cs) enabled_only = map (fun p => (p_name p, (p_value p, p_variance p))) (filter (fun p => p_enabled p || negb enabled_only)%bool (ps_params (run_calls s cs))).
Proof.
  intros s cs eo S. assert (N : NoDup (map p_name (ps_params (run_calls s cs)))).
  { rewrite run_calls_names. destruct S as [->|[->|(cnt & e & ->)]].
    - cbn. repeat (constructor; [cbn; intuition discriminate|]). constructor.
    - cbn. repeat (constructor; [cbn; intuition discriminate|]). constructor.
    - rewrite numbered_names. apply FinFun.Injective_map_NoDup; [|apply seq_NoDup]. intros i j E. apply prefix_inj, show_nat_inj in E. lia. }
  split; [|apply C152_dict, N]. rewrite (C152_dict _ false N), map_map. cbn [fst]. rewrite <- (run_calls_names cs s). f_equal. apply filter_true. intros p _. apply orb_true_r.
Qed.
Print Assumptions C152_history.

(** Any names: under a name there are value and variance of the last selected parameter with this name. *)
Theorem C152_last : forall s enabled_only x, lookup (to_dict s enabled_only) x =
  option_map (fun p => (p_value p, p_variance p)) (find (fun p => String.eqb (p_name p) x) (rev (filter (fun p => p_enabled p || negb enabled_only)%bool (ps_params s)))).
Proof. intros s eo x. unfold to_dict. rewrite dict_last. destruct (find _ _); reflexivity. Qed.
Print Assumptions C152_last.

(** REFUTED (one entry for each parameter): a parameter and its negation have the same name. *)
Theorem C152_lost_refuted : exists ms c made, makes 0 [] ms = Some (c, made) /\ length made = 2%nat /\ (forall p, In p made -> p_enabled p = true) /\
  to_dict (mkPset made (np_zeros 2) true) true = [("Parameter 0"%string, (-5, 1))] /\ values (mkPset made (np_zeros 2) true) = [5; -5].
Proof.
  exists [MNew 5 1 0 true "" U_METER; MNeg 0]. eexists. eexists. split; [reflexivity|]. split; [reflexivity|]. split; [intros p [<-|[<-|[]]]; reflexivity|]. split; reflexivity.
Qed.
Print Assumptions C152_lost_refuted.

(** Sums and differences are taken parameter by parameter, defaults for those not enabled; sets of different sizes (more than one) cannot be
    combined. *)
Theorem C152_sum : forall a b, length (ps_params a) = length (ps_params b) -> exists l m, sum_values a b = Ok l /\ diff_values a b = Ok m /\
  (forall i p q, nth_error (ps_params a) i = Some p -> nth_error (ps_params b) i = Some q -> nth_error l i = Some (p_value p + p_value q) /\ nth_error m i = Some (p_value p - p_value q)) /\
  length l = length (ps_params a) /\ length m = length (ps_params a) /\ ((forall x, In x m -> x = 0) <-> map p_value (ps_params a) = map p_value (ps_params b)).
Proof.
  intros a b L. assert (V : forall s, values s = map p_value (ps_params s)) by (intro s; unfold values, ps_get; rewrite filter_true; [reflexivity|intros p _; destruct (p_enabled p); reflexivity]).
  unfold sum_values, diff_values, broadcast. rewrite !V, !map_length, L, Nat.eqb_refl. eexists. eexists. split; [reflexivity|]. split; [reflexivity|]. split; [|split; [|split]].
  - intros i p q P Q0. rewrite !nth_error_map', !nth_error_combine, !nth_error_map', P, Q0. split; reflexivity.
  - rewrite map_length, combine_length, !map_length. lia.
  - rewrite map_length, combine_length, !map_length. lia.
  - clear V. generalize dependent (ps_params b). induction (ps_params a) as [|p l IH]; intros [|q m] L; try discriminate; cbn; [tauto|].
    cbn in L. assert (L' : length l = length m) by lia. specialize (IH m L'). split.
    + intro H. f_equal; [assert (K := H _ (or_introl eq_refl)); lra|]. apply IH. intros x I. apply H. right. exact I.
    + intros H x [<-|I]; [injection H as H _; lra|]. injection H as _ H. apply (proj2 IH H). exact I.
Qed.
Print Assumptions C152_sum.
Theorem C152_sizes : forall a b, length (ps_params a) <> length (ps_params b) -> (1 < length (ps_params a))%nat -> (1 < length (ps_params b))%nat -> sum_values a b = Err ValueError /\ diff_values a b = Err ValueError.
Proof.
  intros a b N A B. assert (V : forall s, values s = map p_value (ps_params s)) by (intro s; unfold values, ps_get; rewrite filter_true; [reflexivity|intros p _; destruct (p_enabled p); reflexivity]).
  unfold sum_values, diff_values, broadcast. rewrite !V, !map_length. destruct (Nat.eqb_spec (length (ps_params a)) (length (ps_params b))); [contradiction|].
  destruct (ps_params a) as [|x [|x' l]]; [cbn in A; lia|cbn in A; lia|]. destruct (ps_params b) as [|y [|y' m]]; [cbn in B; lia|cbn in B; lia|]. split; reflexivity.
Qed.
Print Assumptions C152_sizes.

Example C152_case : (exists ms c made p q, makes 0 [] ms = Some (c, made) /\ nameless ms 0 /\ nameless ms 2 /\ nth_error made 0 = Some p /\ nth_error made 2 = Some q /\
    p_name p = "Parameter 0"%string /\ p_name q = "Parameter 2"%string /\ p_value q = 7) /\
  to_dict (run_calls default_alignment [CallFlags [true; false; false; false; false; false; true]; CallValuesEnabled [3; 2]]) true =
    [("Translation x"%string, (3, 0)); ("Scale"%string, (2, 0))] /\
  (length (ps_params default_alignment) <> length (ps_params default_sensor) /\ 1 < length (ps_params default_sensor))%nat /\
  length (ps_params default_alignment) = length (ps_params (snd (numbered_from_settings 4 (est_all true false)))).
Proof.
  split; [|split; [reflexivity|split; [cbn; lia|reflexivity]]].
  exists [MNew 3 1 0 true "" U_METER; MNew 4 1 0 true "b" U_METER; MAdd 0 1]. eexists. eexists. eexists. eexists. split; [reflexivity|]. split; [reflexivity|]. split; [exact I|].
  split; [reflexivity|]. split; [reflexivity|]. split; [reflexivity|]. split; [reflexivity|]. cbn. lra.
Qed.
Print Assumptions C152_case.
