(** Further property C42: writing a group with another number of rows than there are epochs. *)
From Verif Require Import Base BaseFacts NumpyModel NumpyFacts TrajModel TrajSpec ParamModel DataModel DataSpec DataFacts DataFacts2 DataProps.
Local Arguments leverarm_enabled : simpl never.
Local Arguments time_shift_enabled : simpl never.
Local Arguments num_obs_per_epoch : simpl never.

(** Values for another number of epochs are refused, with ValueError, unless it is a single row. *)
Theorem C42_wrong_rows : forall d v g cols m r,
  length (the_vector d v) = (m * num_obs_per_epoch (a_est d))%nat -> Forall (fun c => length c = r) cols ->
  r <> m -> r <> 1%nat -> set_group d v g cols = Err ValueError.
Proof.
  intros d v g cols m r HL HF NM N1.
  destruct (available_dec (a_est d) g) as [A|A]; [|unfold set_group; now rewrite set_err by (now left)].
  destruct (Nat.eq_dec (length cols) (length (parts g))) as [LC|NC]; [|unfold set_group; now rewrite set_err by (now right)].
  destruct (group_some _ _ A) as [a [b [E [L [B _]]]]].
  unfold set_group, set_vector_components. rewrite E, L, LC, Nat.eqb_refl. cbn [negb].
  destruct cols as [|c cs]; [destruct g; discriminate LC|]. cbn [set_columns]. inversion HF as [|? ? Hc _]; subst.
  cbn [length] in LC. unfold set_strided. rewrite HL, stride_count_eq by lia.
  apply Nat.eqb_neq in NM. rewrite NM. destruct c as [|x [|y s]]; [reflexivity|exfalso; now apply N1|reflexivity].
Qed.
Print Assumptions C42_wrong_rows.

Lemma put_once : forall (l : list R) m k i x, (i < k)%nat -> length l = (m * k)%nat ->
  set_strided l i k [x] = set_strided l i k (repeat x m).
Proof.
  intros l m k i x Hi HL. unfold set_strided. rewrite HL, stride_count_eq, repeat_length, Nat.eqb_refl by exact Hi.
  cbn [length]. destruct (Nat.eqb_spec 1 m) as [<-|N]; [reflexivity|]. f_equal.
  apply map_ext_in. intros [p y] Hp. cbn [fst snd].
  destruct ((i <=? p) && ((p - i) mod k =? 0))%nat%bool eqn:C; [|reflexivity].
  apply In_nth_error in Hp as [j Hj]. rewrite enumerate_nth in Hj. destruct (nth_error l j) eqn:Ej; [|discriminate].
  cbn in Hj. injection Hj as -> _.
  apply nth_error_Some_lt in Ej. rewrite HL in Ej.
  assert ((p - i) / k < m)%nat as LT. { apply Nat.div_lt_upper_bound; lia. }
  rewrite (nth_error_repeat x LT). reflexivity.
Qed.

(** A single row is written to every epoch. *)
Theorem C42_one_row : forall d v g row m,
  length (the_vector d v) = (m * num_obs_per_epoch (a_est d))%nat ->
  set_group d v g (map (fun x => [x]) row) = set_group d v g (map (fun x => repeat x m) row).
Proof.
  intros d v g row m HL. unfold set_group. f_equal. unfold set_vector_components. rewrite !map_length.
  destruct (available_dec (a_est d) g) as [A|A]; [|now rewrite group_none].
  destruct (group_some _ _ A) as [a [b [E [L [B _]]]]]. rewrite E, L.
  destruct (Nat.eqb_spec (length row) (length (parts g))) as [LC|]; [|reflexivity]. cbn [negb].
  assert (HB : (a + length row <= num_obs_per_epoch (a_est d))%nat) by lia.
  clear - HL HB. revert a HB HL. generalize (the_vector d v) as l. generalize (num_obs_per_epoch (a_est d)) as k.
  induction row as [|x r IH]; intros k l a HB HL; [reflexivity|]. cbn [map set_columns length] in *.
  rewrite (put_once l m k a x) by (lia || exact HL).
  destruct (set_strided_spec l m k a (repeat x m)) as [l' [E [L' _]]]; [lia|exact HL|apply repeat_length|].
  rewrite E. cbn. apply IH; [lia|exact L'].
Qed.
Print Assumptions C42_one_row.

Example C42_case_rows : length (the_vector two_epochs_data Var) = (2 * num_obs_per_epoch (a_est two_epochs_data))%nat /\
  set_group two_epochs_data Var YAW [[1; 2; 3]] = Err ValueError /\
  rmap (fun d => get_group d Var YAW) (set_group two_epochs_data Var YAW [[9]]) = Ok (Ok [[9; 9]]).
Proof. repeat split. Qed.
