(** Vocabulary of the heap properties. *)
From Verif Require Import Base NumpyModel TrajModel TrajSpec GeomModel HeapModel.

Section Spec.
  Context {Q : Type}.

  (** The two objects refer to the same PointSet. *)
  Definition shares_points (h : heap Q) (a b : addr) : Prop :=
    exists oa ob, nth_error (trajs h) a = Some oa /\ nth_error (trajs h) b = Some ob /\ o_pos oa = o_pos ob.

  (** No two trajectories refer to the same PointSet. *)
  Definition separated (h : heap Q) : Prop := forall a b, shares_points h a b -> a = b.

  (** No dangling reference. *)
  Definition well_formed (h : heap Q) : Prop :=
    forall a o, nth_error (trajs h) a = Some o -> (o_pos o < length (points h))%nat.

  (** A method body as a function on one trajectory, without memory: the state it leaves the
      trajectory in and whether it raised. *)
  Definition write_value (t : traj Q) (w : write Q) : traj Q :=
    match w with
    | WTstamps v => set_tstamps v t
    | WXyz v => set_xyz v t
    | WRot v => set_rot v t
    | WArc v => set_arc v t
    | WSpeed v => set_speed v t
    | WSrt v => set_srt v t
    end.
  Fixpoint effect (p : prog Q) (t : traj Q) : traj Q * result unit :=
    match p with
    | Done => (t, Ok tt)
    | Raise e => (t, Err e)
    | Read k => effect (k t) t
    | Write w k => effect k (write_value t w)
    end.

  (** [p] implements the function [f] of the value model: same result, same exception. *)
  Definition implements (p : prog Q) (f : traj Q -> result (traj Q)) : Prop :=
    forall t, match f t with
              | Ok t' => effect p t = (t', Ok tt)
              | Err e => snd (effect p t) = Err e
              end.

  (** A user session: calls on trajectory objects, with and without inplace; exceptions are caught. *)
  Inductive action :=
  | ACall (p : prog Q) (self : addr) (inplace : bool)
  | ACopy (self : addr).
  Definition act (h : heap Q) (x : action) : heap Q :=
    match x with
    | ACall p self inplace => fst (call p self inplace h)
    | ACopy self => fst (copy self h)
    end.
  Definition session (h : heap Q) (l : list action) : heap Q := fold_left act l h.

  (** [x] may write to the object at [b]. *)
  Definition targets (b : addr) (x : action) : Prop :=
    match x with ACall _ self true => self = b | _ => False end.
End Spec.
