(** Vocabulary of the property about reading any table. *)
From Verif Require Import Base EstModel TextModel HeaderModel NumpyModel TrajModel GeomModel IoModel.

(** The first field called [a] is number [j]. *)
Definition first_named (fields : list string) (a : string) (j : nat) : Prop :=
  nth_error fields j = Some a /\ forall k, (k < j)%nat -> nth_error fields k <> Some a.

(** Row [i] has the number [x] in the first column called [a]. *)
Definition holds (T : text_ops) (fields : list string) (rows : list (list (option string))) (a : string) (i : nat) (x : R) : Prop :=
  exists j row s, first_named fields a j /\ nth_error rows i = Some row /\ nth_error row j = Some (Some s) /\ number T s = Some (Fin x).
Definition holds3 (T : text_ops) (fields : list string) (rows : list (list (option string))) (a b c : string) (i : nat) (p : V3) : Prop :=
  holds T fields rows a i (vx p) /\ holds T fields rows b i (vy p) /\ holds T fields rows c i (vz p).

(** Every row of the column has a readable cell. *)
Definition readable (T : text_ops) (n : nat) (fields : list string) (rows : list (list (option string))) (a : string) : Prop :=
  exists j, first_named fields a j /\ (j < n)%nat /\ forall row s, In row rows -> nth_error row j = Some (Some s) -> number T s <> None.
