(** Python text functions used by the importers, on ASCII text (no other characters are modelled). *)
From Coq Require Export Ascii.
From Verif Require Import Base.
Local Open Scope string_scope.

(** Characters [str.split()] separates at: space, \t \n \v \f \r and the separators 28-31. *)
Definition is_space (c : ascii) : bool :=
  let n := nat_of_ascii c in ((n =? 32) || ((9 <=? n) && (n <=? 13)) || ((28 <=? n) && (n <=? 31)))%nat%bool.

(** [s.split()] *)
Fixpoint words (s : string) : list string :=
  match s with
  | "" => []
  | String c r =>
      if is_space c then words r
      else match r with
           | "" => [String c ""]
           | String c' _ =>
               if is_space c' then String c "" :: words r
               else match words r with
                    | w :: ws => String c w :: ws
                    | [] => [String c ""]
                    end
           end
  end.

(** [sep.join(l)] *)
Fixpoint join (sep : string) (l : list string) : string :=
  match l with
  | [] => ""
  | [w] => w
  | w :: r => w ++ sep ++ join sep r
  end.

(** [s.split(ch)] for a one-character separator *)
Fixpoint split_on (ch : ascii) (s : string) : list string :=
  match s with
  | "" => [""]
  | String c r =>
      if Ascii.eqb c ch then "" :: split_on ch r
      else match split_on ch r with
           | w :: ws => String c w :: ws
           | [] => [String c ""]
           end
  end.

(** [s.startswith(p)], with the rest of s *)
Fixpoint strip_prefix (p s : string) : option string :=
  match p, s with
  | "", _ => Some s
  | String a p', String b s' => if Ascii.eqb a b then strip_prefix p' s' else None
  | String _ _, "" => None
  end.

(** [s.lower()] *)
Definition lower_char (c : ascii) : ascii :=
  let n := nat_of_ascii c in if ((65 <=? n) && (n <=? 90))%nat%bool then ascii_of_nat (n + 32) else c.
Fixpoint lower (s : string) : string :=
  match s with "" => "" | String c r => String (lower_char c) (lower r) end.

(** [ch in s] for one character *)
Fixpoint has_char (ch : ascii) (s : string) : bool :=
  match s with "" => false | String c r => (Ascii.eqb ch c || has_char ch r)%bool end.

Definition newline : ascii := ascii_of_nat 10.
Definition return_char : ascii := ascii_of_nat 13.

(** Lines of a text file opened in text mode: \n, \r and \r\n end a line.  The line ends are dropped: the
    handlers do not see trailing white space. *)
Fixpoint file_lines (s : string) : list string :=
  match s with
  | "" => []
  | String c r =>
      if (Ascii.eqb c newline || Ascii.eqb c return_char)%bool
      then "" :: (match r with
                  | String c' r' => if (Ascii.eqb c return_char && Ascii.eqb c' newline)%bool then file_lines r' else file_lines r
                  | "" => []
                  end)
      else match r with
           | "" => [String c ""]
           | _ => match file_lines r with l :: ls => String c l :: ls | [] => [String c ""] end
           end
  end.

(** [str.splitlines()]: \v, \f and the separators 28-30 end a line as well. *)
Definition ends_line (c : ascii) : bool :=
  let n := nat_of_ascii c in (((10 <=? n) && (n <=? 13)) || ((28 <=? n) && (n <=? 30)))%nat%bool.
Fixpoint splitlines (s : string) : list string :=
  match s with
  | "" => []
  | String c r =>
      if ends_line c
      then "" :: (match r with
                  | String c' r' => if (Ascii.eqb c return_char && Ascii.eqb c' newline)%bool then splitlines r' else splitlines r
                  | "" => []
                  end)
      else match r with
           | "" => [String c ""]
           | _ => match splitlines r with l :: ls => String c l :: ls | [] => [String c ""] end
           end
  end.

(** [p in s] *)
Fixpoint contains (p s : string) : bool :=
  match strip_prefix p s with
  | Some _ => true
  | None => match s with "" => false | String _ r => contains p r end
  end.
