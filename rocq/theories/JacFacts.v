(** Proofs about the linearisation. *)
From Coq Require Import Ranalysis1 Rtrigo_reg.
From Verif Require Import Base BaseFacts VecFacts NumpyModel NumpyFacts TrajModel ParamModel DataModel DataFacts LsqModel
  GeomModel GeomSpec GeomFacts GeomFacts2 JacModel JacSpec.

(** The observations of one epoch, in the order of the observation vector with lever arm and time shift *)
Definition epoch_list (o : epoch) : list R :=
  [vx (e_from o); vy (e_from o); vz (e_from o); vx (e_to o); vy (e_to o); vz (e_to o);
   vx (e_rpy o); vy (e_rpy o); vz (e_rpy o); vx (e_speed o); vy (e_speed o); vz (e_speed o)].
Definition epoch_of (l : list R) : epoch :=
  mkEpoch (mkV3 (nth 0 l 0) (nth 1 l 0) (nth 2 l 0)) (mkV3 (nth 3 l 0) (nth 4 l 0) (nth 5 l 0))
          (mkV3 (nth 6 l 0) (nth 7 l 0) (nth 8 l 0)) (mkV3 (nth 9 l 0) (nth 10 l 0) (nth 11 l 0)).


(** ** Derivatives exist *)
Definition Dex (f : R -> R) (x : R) : Prop := exists d, derivable_pt_lim f x d.

Lemma Dex_const c x : Dex (fun _ => c) x. Proof. exists 0. apply derivable_pt_lim_const. Qed.
Lemma Dex_id x : Dex (fun t => t) x. Proof. exists 1. apply derivable_pt_lim_id. Qed.
Lemma Dex_plus f g x : Dex f x -> Dex g x -> Dex (fun t => f t + g t) x.
Proof. intros [a A] [b B]. exists (a + b). exact (derivable_pt_lim_plus f g x a b A B). Qed.
Lemma Dex_minus f g x : Dex f x -> Dex g x -> Dex (fun t => f t - g t) x.
Proof. intros [a A] [b B]. exists (a - b). exact (derivable_pt_lim_minus f g x a b A B). Qed.
Lemma Dex_opp f x : Dex f x -> Dex (fun t => - f t) x.
Proof. intros [a A]. exists (- a). exact (derivable_pt_lim_opp f x a A). Qed.
Lemma Dex_mult f g x : Dex f x -> Dex g x -> Dex (fun t => f t * g t) x.
Proof. intros [a A] [b B]. eexists. exact (derivable_pt_lim_mult f g x a b A B). Qed.
Lemma Dex_sin f x : Dex f x -> Dex (fun t => sin (f t)) x.
Proof. intros [a A]. eexists. exact (derivable_pt_lim_comp f sin x a _ A (derivable_pt_lim_sin _)). Qed.
Lemma Dex_cos f x : Dex f x -> Dex (fun t => cos (f t)) x.
Proof. intros [a A]. eexists. exact (derivable_pt_lim_comp f cos x a _ A (derivable_pt_lim_cos _)). Qed.

Ltac dex :=
  lazymatch goal with
  | |- Dex (fun _ => ?c) _ => apply Dex_const
  | |- Dex (fun t => t) _ => apply Dex_id
  | |- Dex (fun t => @?u t + @?v t) _ => apply (Dex_plus u v); dex
  | |- Dex (fun t => @?u t - @?v t) _ => apply (Dex_minus u v); dex
  | |- Dex (fun t => @?u t * @?v t) _ => apply (Dex_mult u v); dex
  | |- Dex (fun t => - @?u t) _ => apply (Dex_opp u); dex
  | |- Dex (fun t => sin (@?u t)) _ => apply (Dex_sin u); dex
  | |- Dex (fun t => cos (@?u t)) _ => apply (Dex_cos u); dex
  end.

Lemma D_ext f g x d : (forall t, f t = g t) -> derivable_pt_lim f x d -> derivable_pt_lim g x d.
Proof. intros E H eps He. destruct (H eps He) as [de D]. exists de. intros h H0 H1. rewrite <- !E. apply D; assumption. Qed.
Lemma D_linear a b x : derivable_pt_lim (fun t => a + b * t) x b.
Proof.
  assert (E : 0 + b * 1 = b) by ring.
  refine (eq_ind _ (fun d => derivable_pt_lim (fun t => a + b * t) x d) _ _ E).
  exact (derivable_pt_lim_plus _ _ _ _ _ (derivable_pt_lim_const a x) (derivable_pt_lim_scal _ b _ _ (derivable_pt_lim_id x))).
Qed.
Lemma Dex_ext f g x : (forall t, f t = g t) -> Dex f x -> Dex g x.
Proof. intros E [d D]. exists d. exact (D_ext f g x d E D). Qed.

(** [f] depends smoothly on each of its [n] arguments *)
Definition smooth (n : nat) (f : list R -> R) : Prop :=
  forall xs k, length xs = n -> (k < n)%nat -> Dex (fun t => f (replace_nth k t xs)) (nth k xs 0).

Lemma smooth_x : smooth 19 fr_x.
Proof.
  intros xs k H K. do 19 (destruct xs as [|? xs]; [discriminate H|]). destruct xs; [|discriminate H]. clear H.
  do 19 (destruct k as [|k]; [clear K; cbn [replace_nth firstn skipn app fr_x nth];
    cbv delta [fr_x helmert_x leverarm_x leverarm_y leverarm_z] beta iota zeta; dex|]). lia.
Qed.
Lemma smooth_y : smooth 19 fr_y.
Proof.
  intros xs k H K. do 19 (destruct xs as [|? xs]; [discriminate H|]). destruct xs; [|discriminate H]. clear H.
  do 19 (destruct k as [|k]; [clear K; cbn [replace_nth firstn skipn app fr_y nth];
    cbv delta [fr_y helmert_y leverarm_x leverarm_y leverarm_z] beta iota zeta; dex|]). lia.
Qed.
Lemma smooth_z : smooth 18 fr_z.
Proof.
  intros xs k H K. do 18 (destruct xs as [|? xs]; [discriminate H|]). destruct xs; [|discriminate H]. clear H.
  do 18 (destruct k as [|k]; [clear K; cbn [replace_nth firstn skipn app fr_z nth];
    cbv delta [fr_z helmert_z leverarm_x leverarm_y leverarm_z] beta iota zeta; dex|]). lia.
Qed.

Lemma egrad_smooth egrad n f xs k : egrad_contract egrad -> smooth n f -> length xs = n -> (k < n)%nat ->
  derivable_pt_lim (fun t => f (replace_nth k t xs)) (nth k xs 0) (egrad f k xs).
Proof.
  intros C S L K. destruct (S xs k L K) as [d D]. rewrite (C f k xs d); [exact D | lia | exact D].
Qed.

(** ** One epoch *)
Lemma fr_misclosed p o :
  misclosed p o = mkV3 (fr_x (args_x p o)) (fr_y (args_y p o)) (fr_z (args_z p o)).
Proof. unfold misclosed. rewrite <- misclosure. reflexivity. Qed.

Definition design_row egrad p o (a : nat) : list R :=
  match a with 0 => design_x egrad p o | 1 => design_y egrad p o | _ => design_z egrad p o end%nat.

Lemma D_const f c x : (forall t, f t = c) -> derivable_pt_lim f x 0.
Proof. intro E. apply (D_ext (fun _ => c)); [intro; symmetry; apply E | apply derivable_pt_lim_const]. Qed.

Ltac byarg E f n args k S C :=
  refine (D_ext (fun t => f (replace_nth k t args)) _ _ _ _ (egrad_smooth E n f args k C S eq_refl _));
  [ intro; reflexivity | unfold lt; repeat constructor ].

Lemma design_epoch egrad p o a j : egrad_contract egrad -> (a < 3)%nat -> (j < 11)%nat ->
  derivable_pt_lim (fun t => component a (misclosed (params_of (replace_nth j t (params_list p))) o)) (nth j (params_list p) 0)
    (nth j (design_row egrad p o a) 0).
Proof.
  intros C A J.
  apply (D_ext (fun t => component a (let q := params_of (replace_nth j t (params_list p)) in
     mkV3 (fr_x (args_x q o)) (fr_y (args_y q o)) (fr_z (args_z q o))))); [intro t; cbv zeta; rewrite fr_misclosed; reflexivity|].
  cbv zeta. destruct o as [[o1 o2 o3] [o4 o5 o6] [o7 o8 o9] [o10 o11 o12]], p as [[p1 p2 p3] [p4 p5 p6] p7 p8 [p9 p10 p11]].
  destruct a as [|[|[|a]]]; [| | | lia]; clear A; cbn [component design_row vx vy vz].
  - set (xs := args_x (mkAlign (mkV3 p1 p2 p3) (mkV3 p4 p5 p6) p7 p8 (mkV3 p9 p10 p11)) (mkEpoch (mkV3 o1 o2 o3) (mkV3 o4 o5 o6) (mkV3 o7 o8 o9) (mkV3 o10 o11 o12))).
    destruct j as [|[|[|[|[|[|[|[|[|[|[|j]]]]]]]]]]]; [.. | lia]; clear J.
    + byarg egrad fr_x 19%nat xs 10%nat smooth_x C.
    + apply (D_const _ (fr_x xs)); intro; reflexivity.
    + apply (D_const _ (fr_x xs)); intro; reflexivity.
    + byarg egrad fr_x 19%nat xs 11%nat smooth_x C.
    + byarg egrad fr_x 19%nat xs 12%nat smooth_x C.
    + byarg egrad fr_x 19%nat xs 13%nat smooth_x C.
    + byarg egrad fr_x 19%nat xs 14%nat smooth_x C.
    + byarg egrad fr_x 19%nat xs 15%nat smooth_x C.
    + byarg egrad fr_x 19%nat xs 16%nat smooth_x C.
    + byarg egrad fr_x 19%nat xs 17%nat smooth_x C.
    + byarg egrad fr_x 19%nat xs 18%nat smooth_x C.
  - set (xs := args_y (mkAlign (mkV3 p1 p2 p3) (mkV3 p4 p5 p6) p7 p8 (mkV3 p9 p10 p11)) (mkEpoch (mkV3 o1 o2 o3) (mkV3 o4 o5 o6) (mkV3 o7 o8 o9) (mkV3 o10 o11 o12))).
    destruct j as [|[|[|[|[|[|[|[|[|[|[|j]]]]]]]]]]]; [.. | lia]; clear J.
    + apply (D_const _ (fr_y xs)); intro; reflexivity.
    + byarg egrad fr_y 19%nat xs 10%nat smooth_y C.
    + apply (D_const _ (fr_y xs)); intro; reflexivity.
    + byarg egrad fr_y 19%nat xs 11%nat smooth_y C.
    + byarg egrad fr_y 19%nat xs 12%nat smooth_y C.
    + byarg egrad fr_y 19%nat xs 13%nat smooth_y C.
    + byarg egrad fr_y 19%nat xs 14%nat smooth_y C.
    + byarg egrad fr_y 19%nat xs 15%nat smooth_y C.
    + byarg egrad fr_y 19%nat xs 16%nat smooth_y C.
    + byarg egrad fr_y 19%nat xs 17%nat smooth_y C.
    + byarg egrad fr_y 19%nat xs 18%nat smooth_y C.
  - set (xs := args_z (mkAlign (mkV3 p1 p2 p3) (mkV3 p4 p5 p6) p7 p8 (mkV3 p9 p10 p11)) (mkEpoch (mkV3 o1 o2 o3) (mkV3 o4 o5 o6) (mkV3 o7 o8 o9) (mkV3 o10 o11 o12))).
    destruct j as [|[|[|[|[|[|[|[|[|[|[|j]]]]]]]]]]]; [.. | lia]; clear J.
    + apply (D_const _ (fr_z xs)); intro; reflexivity.
    + apply (D_const _ (fr_z xs)); intro; reflexivity.
    + byarg egrad fr_z 18%nat xs 10%nat smooth_z C.
    + byarg egrad fr_z 18%nat xs 11%nat smooth_z C.
    + byarg egrad fr_z 18%nat xs 12%nat smooth_z C.
    + apply (D_const _ (fr_z xs)); intro; reflexivity.
    + byarg egrad fr_z 18%nat xs 13%nat smooth_z C.
    + byarg egrad fr_z 18%nat xs 14%nat smooth_z C.
    + byarg egrad fr_z 18%nat xs 15%nat smooth_z C.
    + byarg egrad fr_z 18%nat xs 16%nat smooth_z C.
    + byarg egrad fr_z 18%nat xs 17%nat smooth_z C.
Qed.

(** The twelve derivatives of one equation with respect to the observations of its epoch *)
Definition condition_row egrad p o (a : nat) : list R :=
  nth a (condition_from egrad p o) [] ++ nth a condition_to [] ++ nth a (condition_rpy egrad p o) [] ++ nth a (condition_speed egrad p o) [].

Lemma condition_epoch egrad p o a s : egrad_contract egrad -> (a < 3)%nat -> (s < 12)%nat ->
  derivable_pt_lim (fun t => component a (misclosed p (epoch_of (replace_nth s t (epoch_list o))))) (nth s (epoch_list o) 0)
    (nth s (condition_row egrad p o a) 0).
Proof.
  intros C A J.
  apply (D_ext (fun t => component a (let q := epoch_of (replace_nth s t (epoch_list o)) in
     mkV3 (fr_x (args_x p q)) (fr_y (args_y p q)) (fr_z (args_z p q))))); [intro t; cbv zeta; rewrite fr_misclosed; reflexivity|].
  cbv zeta. destruct o as [[o1 o2 o3] [o4 o5 o6] [o7 o8 o9] [o10 o11 o12]], p as [[p1 p2 p3] [p4 p5 p6] p7 p8 [p9 p10 p11]].
  assert (to : forall x c, derivable_pt_lim (fun t => - t + c) x (-1)).
  { intros x c. replace (-1) with (-1 + 0) by ring.
    apply (derivable_pt_lim_plus (fun t => - t) (fun _ => c)); [|apply derivable_pt_lim_const].
    apply (derivable_pt_lim_opp (fun t => t)). apply derivable_pt_lim_id. }
  destruct a as [|[|[|a]]]; [| | | lia]; clear A; cbn [component vx vy vz].
  - set (xs := args_x (mkAlign (mkV3 p1 p2 p3) (mkV3 p4 p5 p6) p7 p8 (mkV3 p9 p10 p11)) (mkEpoch (mkV3 o1 o2 o3) (mkV3 o4 o5 o6) (mkV3 o7 o8 o9) (mkV3 o10 o11 o12))).
    destruct s as [|[|[|[|[|[|[|[|[|[|[|[|s]]]]]]]]]]]]; [.. | lia]; clear J.
    + byarg egrad fr_x 19%nat xs 0%nat smooth_x C.
    + byarg egrad fr_x 19%nat xs 1%nat smooth_x C.
    + byarg egrad fr_x 19%nat xs 2%nat smooth_x C.
    + apply (D_ext (fun t => - t + (o4 + fr_x xs)) _ _ _); [intro; unfold xs; cbn; ring | apply to].
    + apply (D_const _ (fr_x xs)); intro; reflexivity.
    + apply (D_const _ (fr_x xs)); intro; reflexivity.
    + byarg egrad fr_x 19%nat xs 4%nat smooth_x C.
    + byarg egrad fr_x 19%nat xs 5%nat smooth_x C.
    + byarg egrad fr_x 19%nat xs 6%nat smooth_x C.
    + byarg egrad fr_x 19%nat xs 7%nat smooth_x C.
    + byarg egrad fr_x 19%nat xs 8%nat smooth_x C.
    + byarg egrad fr_x 19%nat xs 9%nat smooth_x C.
  - set (xs := args_y (mkAlign (mkV3 p1 p2 p3) (mkV3 p4 p5 p6) p7 p8 (mkV3 p9 p10 p11)) (mkEpoch (mkV3 o1 o2 o3) (mkV3 o4 o5 o6) (mkV3 o7 o8 o9) (mkV3 o10 o11 o12))).
    destruct s as [|[|[|[|[|[|[|[|[|[|[|[|s]]]]]]]]]]]]; [.. | lia]; clear J.
    + byarg egrad fr_y 19%nat xs 0%nat smooth_y C.
    + byarg egrad fr_y 19%nat xs 1%nat smooth_y C.
    + byarg egrad fr_y 19%nat xs 2%nat smooth_y C.
    + apply (D_const _ (fr_y xs)); intro; reflexivity.
    + apply (D_ext (fun t => - t + (o5 + fr_y xs)) _ _ _); [intro; unfold xs; cbn; ring | apply to].
    + apply (D_const _ (fr_y xs)); intro; reflexivity.
    + byarg egrad fr_y 19%nat xs 4%nat smooth_y C.
    + byarg egrad fr_y 19%nat xs 5%nat smooth_y C.
    + byarg egrad fr_y 19%nat xs 6%nat smooth_y C.
    + byarg egrad fr_y 19%nat xs 7%nat smooth_y C.
    + byarg egrad fr_y 19%nat xs 8%nat smooth_y C.
    + byarg egrad fr_y 19%nat xs 9%nat smooth_y C.
  - set (xs := args_z (mkAlign (mkV3 p1 p2 p3) (mkV3 p4 p5 p6) p7 p8 (mkV3 p9 p10 p11)) (mkEpoch (mkV3 o1 o2 o3) (mkV3 o4 o5 o6) (mkV3 o7 o8 o9) (mkV3 o10 o11 o12))).
    destruct s as [|[|[|[|[|[|[|[|[|[|[|[|s]]]]]]]]]]]]; [.. | lia]; clear J.
    + byarg egrad fr_z 18%nat xs 0%nat smooth_z C.
    + byarg egrad fr_z 18%nat xs 1%nat smooth_z C.
    + byarg egrad fr_z 18%nat xs 2%nat smooth_z C.
    + apply (D_const _ (fr_z xs)); intro; reflexivity.
    + apply (D_const _ (fr_z xs)); intro; reflexivity.
    + apply (D_ext (fun t => - t + (o6 + fr_z xs)) _ _ _); [intro; unfold xs; cbn; ring | apply to].
    + byarg egrad fr_z 18%nat xs 4%nat smooth_z C.
    + byarg egrad fr_z 18%nat xs 5%nat smooth_z C.
    + byarg egrad fr_z 18%nat xs 6%nat smooth_z C.
    + byarg egrad fr_z 18%nat xs 7%nat smooth_z C.
    + byarg egrad fr_z 18%nat xs 8%nat smooth_z C.
    + byarg egrad fr_z 18%nat xs 9%nat smooth_z C.
Qed.
