(** Vocabulary of the settings properties. *)
From Verif Require Import Base SettModel.

(** The attribute names of a class. *)
Fixpoint names (fs : fields) : list string :=
  match fs with FNil => [] | FCons n _ r => n :: names r end.
Definition class_fields (c : cls) : fields := match c with Cls _ fs => fs end.

(** Attribute names are distinct, in this class and in the nested ones (a Python class cannot have it
    otherwise). *)
Fixpoint good_class (c : cls) : Prop :=
  match c with Cls _ fs => NoDup (names fs) /\ good_fields fs end
with good_fields (fs : fields) : Prop :=
  match fs with FNil => True | FCons _ t r => good_type t /\ good_fields r end
with good_type (t : ftype) : Prop :=
  match t with FNested c => good_class c | _ => True end.

(** A settings object whose attributes have the declared kind: JSON data, a member of the enumeration, a
    settings object of the declared class. *)
Fixpoint conforms (c : cls) (v : val) : Prop :=
  match c with
  | Cls nm fs => exists attrs, v = VObj (Cls nm fs) attrs /\ conforms_fields fs attrs
  end
with conforms_fields (fs : fields) (attrs : kvs) : Prop :=
  match fs with
  | FNil => attrs = KNil
  | FCons n t r => exists v rest, attrs = KCons n v rest /\ conforms_type t v /\ conforms_fields r rest
  end
with conforms_type (t : ftype) (v : val) : Prop :=
  match t with
  | FPlain => json_ok v = true
  | FEnum e => exists k, v = VEnum (en_name e) k /\ (1 <= k <= en_size e)%Z
  | FNested c => conforms c v
  end.

(** The attribute of an object. *)
Definition attr (v : val) (n : string) : option val :=
  match v with VObj _ attrs => lookup n attrs | _ => None end.
