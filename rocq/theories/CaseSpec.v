(** Vocabulary: texts that differ in the case of their letters only. *)
From Coq Require Import String Ascii List.
Import ListNotations.
Local Open Scope string_scope.

(** Capital letters and small letters *)
Definition letters : list (ascii * ascii) :=
  combine (list_ascii_of_string "ABCDEFGHIJKLMNOPQRSTUVWXYZ") (list_ascii_of_string "abcdefghijklmnopqrstuvwxyz").

(** The same text but for the case of its letters *)
Inductive ignoring_case : string -> string -> Prop :=
| ic_nil : ignoring_case "" ""
| ic_cons c d s t : c = d \/ In (c, d) letters \/ In (d, c) letters -> ignoring_case s t -> ignoring_case (String c s) (String d t).

(** Texts without capital letters, and without small ones *)
Definition no_capitals (s : string) : Prop := Forall (fun c => ~ In c (map fst letters)) (list_ascii_of_string s).
Definition no_smalls (s : string) : Prop := Forall (fun c => ~ In c (map snd letters)) (list_ascii_of_string s).
