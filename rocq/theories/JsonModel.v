(** Settings files as text: settings/base.py:37-43 and 61-66 with the parts of Python's [json] module they use
    ([json.dumps(..., indent=4)], [json.load]).

    A character stands for the code point of the same number, so only the first 256 code points are modelled.  The text of a
    settings file is ASCII, since [json.dumps] escapes everything else. *)
From Coq Require Import DecimalString DecimalZ.
From Verif Require Import Base NumpyModel TextModel SettModel HeaderModel GeomModel IoModel TornModel.
Local Open Scope string_scope.

Definition quote : ascii := """".
Definition backslash : ascii := "\".

(** ** Writing *)

(** json/encoder.py [ESCAPE_DCT] and [replace] of [py_encode_basestring_ascii] *)
Definition hex_char (n : nat) : ascii := ascii_of_nat (if (n <? 10)%nat then 48 + n else 87 + n).
Definition code_escape (c : ascii) : string :=
  let n := nat_of_ascii c in
  String backslash (String "u" (String "0" (String "0" (String (hex_char (n / 16)) (String (hex_char (n mod 16)) ""))))).
Definition escaped (c : ascii) : string :=
  let n := nat_of_ascii c in
  if Ascii.eqb c quote then String backslash (String quote "")
  else if Ascii.eqb c backslash then String backslash (String backslash "")
  else if (n =? 10)%nat then String backslash "n"
  else if (n =? 13)%nat then String backslash "r"
  else if (n =? 9)%nat then String backslash "t"
  else if (n =? 12)%nat then String backslash "f"
  else if (n =? 8)%nat then String backslash "b"
  else if ((32 <=? n) && (n <=? 126))%nat%bool then String c ""
  else code_escape c.
Fixpoint escape_all (s : string) : string := match s with "" => "" | String c r => escaped c ++ escape_all r end.
Definition quoted (s : string) : string := String quote (escape_all s ++ String quote "").

(** json/encoder.py [_make_iterencode]: a line break and four spaces for each level *)
Fixpoint spaces (n : nat) : string := match n with O => "" | S k => String " " (spaces k) end.
Definition newline_indent (level : nat) : string := String newline (spaces (4 * level)).

Definition int_show (z : Z) : string := NilZero.string_of_int (Z.to_int z).

Section Numbers.
  (** [float.__repr__], and [float] of a text *)
  Variable show : R -> string.
  Variable float : string -> R.

  (** [json.dumps(v, indent=4)] for what [json_ok] accepts.  Separators are "," and ": ". *)
  Fixpoint dumps (level : nat) (v : val) : string :=
    match v with
    | VNull => "null"
    | VBool b => if b then "true" else "false"
    | VInt z => int_show z
    | VNum x => show x
    | VStr s => quoted s
    | VDict KNil => "{}"
    | VDict d => "{" ++ dump_items (S level) d ++ newline_indent level ++ "}"
    | VEnum _ _ | VObj _ _ => ""
    end
  with dump_items (level : nat) (d : kvs) : string :=
    match d with
    | KNil => ""
    | KCons k v r =>
        newline_indent level ++ quoted k ++ ": " ++ dumps level v ++ (match r with KNil => "" | _ => "," ++ dump_items level r end)
    end.

  (** ** Reading *)

  (** json/decoder.py [WHITESPACE] *)
  Definition is_white (c : ascii) : bool := let n := nat_of_ascii c in ((n =? 32) || (n =? 9) || (n =? 10) || (n =? 13))%nat%bool.
  Fixpoint skip (s : string) : string := match s with String c r => if is_white c then skip r else s | "" => "" end.

  Definition is_digit (c : ascii) : bool := let n := nat_of_ascii c in ((48 <=? n) && (n <=? 57))%nat%bool.
  (** The digits a text begins with, and the rest *)
  Fixpoint digit_run (s : string) : string * string :=
    match s with
    | String c r => if is_digit c then let (d, t) := digit_run r in (String c d, t) else ("", s)
    | "" => ("", "")
    end.
  (** json/scanner.py:18-20 [NUMBER_RE]: a whole number, a fraction and an exponent (both may be missing), and the rest *)
  Definition int_token (s : string) : option (string * string) :=
    match s with
    | String c r =>
        if Ascii.eqb c "0" then Some ("0", r)
        else if is_digit c then let (d, t) := digit_run r in Some (String c d, t)
        else if Ascii.eqb c "-" then
          match r with
          | String c' r' =>
              if Ascii.eqb c' "0" then Some ("-0", r')
              else if is_digit c' then let (d, t) := digit_run r' in Some (String c (String c' d), t)
              else None
          | "" => None
          end
        else None
    | "" => None
    end.
  Definition frac_token (s : string) : string * string :=
    match s with
    | String c r => if Ascii.eqb c "." then match digit_run r with ("", _) => ("", s) | (d, t) => (String c d, t) end else ("", s)
    | "" => ("", "")
    end.
  Definition exp_token (s : string) : string * string :=
    match s with
    | String c r =>
        if (Ascii.eqb c "e" || Ascii.eqb c "E")%bool then
          match r with
          | String c' r' =>
              if (Ascii.eqb c' "-" || Ascii.eqb c' "+")%bool then
                match digit_run r' with ("", _) => ("", s) | (d, t) => (String c (String c' d), t) end
              else match digit_run r with ("", _) => ("", s) | (d, t) => (String c d, t) end
          | "" => ("", s)
          end
        else ("", s)
    | "" => ("", "")
    end.
  Definition number_token (s : string) : option (string * string * string * string) :=
    match int_token s with
    | None => None
    | Some (i, r) => let (f, r) := frac_token r in let (e, r) := exp_token r in Some (i, f, e, r)
    end.
  (** json/scanner.py:53-61 [_scan_once] for numbers: with a fraction or an exponent it is a float *)
  Definition scan_number (s : string) : option (val * string) :=
    match number_token s with
    | Some (i, f, e, r) =>
        if (String.eqb f "" && String.eqb e "")%bool
        then option_map (fun z => (VInt (Z.of_int z), r)) (NilZero.int_of_string i)
        else Some (VNum (float (i ++ f ++ e)), r)
    | None => None
    end.

  Definition hex_value (c : ascii) : option nat :=
    let n := nat_of_ascii c in
    if ((48 <=? n) && (n <=? 57))%nat%bool then Some (n - 48)%nat
    else if ((97 <=? n) && (n <=? 102))%nat%bool then Some (n - 87)%nat
    else if ((65 <=? n) && (n <=? 70))%nat%bool then Some (n - 55)%nat
    else None.
  (** json/decoder.py [BACKSLASH] *)
  Definition backslash_char (c : ascii) : option ascii :=
    if Ascii.eqb c quote then Some quote
    else if Ascii.eqb c backslash then Some backslash
    else if Ascii.eqb c "/" then Some "/"%char
    else if Ascii.eqb c "b" then Some (ascii_of_nat 8)
    else if Ascii.eqb c "f" then Some (ascii_of_nat 12)
    else if Ascii.eqb c "n" then Some (ascii_of_nat 10)
    else if Ascii.eqb c "r" then Some (ascii_of_nat 13)
    else if Ascii.eqb c "t" then Some (ascii_of_nat 9)
    else None.
  (** json/decoder.py [py_scanstring], after the opening quotation mark: the text and the rest.  Control characters are
      refused.  Not modelled: code points above 255 (refused here). *)
  Fixpoint scan_string (s : string) : option (string * string) :=
    match s with
    | "" => None
    | String c r =>
        if Ascii.eqb c quote then Some ("", r)
        else if Ascii.eqb c backslash then
          match r with
          | "" => None
          | String e r1 =>
              if Ascii.eqb e "u" then
                match r1 with
                | String h1 (String h2 (String h3 (String h4 r2))) =>
                    match hex_value h1, hex_value h2, hex_value h3, hex_value h4 with
                    | Some O, Some O, Some a, Some b =>
                        match scan_string r2 with Some (x, t) => Some (String (ascii_of_nat (16 * a + b)) x, t) | None => None end
                    | _, _, _, _ => None
                    end
                | _ => None
                end
              else
                match backslash_char e with
                | Some e' => match scan_string r1 with Some (x, t) => Some (String e' x, t) | None => None end
                | None => None
                end
          end
        else if (nat_of_ascii c <? 32)%nat then None
        else match scan_string r with Some (x, t) => Some (String c x, t) | None => None end
    end.

  (** json/scanner.py:30-67 [_scan_once] and json/decoder.py [JSONObject]; the first argument bounds the depth of the calls.
      Not modelled: lists, NaN and the infinities (refused here; they do not occur in the files of the package). *)
  Fixpoint scan (fuel : nat) (s : string) : option (val * string) :=
    match fuel with
    | O => None
    | S n =>
        match s with
        | "" => None
        | String c r =>
            if Ascii.eqb c quote then match scan_string r with Some (x, t) => Some (VStr x, t) | None => None end
            else if Ascii.eqb c "{" then
              match skip r with
              | String c' r' =>
                  if Ascii.eqb c' "}" then Some (VDict KNil, r')
                  else match scan_members n (String c' r') KNil with Some (d, t) => Some (VDict d, t) | None => None end
              | "" => None
              end
            else
              match strip_prefix "null" s, strip_prefix "true" s, strip_prefix "false" s with
              | Some t, _, _ => Some (VNull, t)
              | _, Some t, _ => Some (VBool true, t)
              | _, _, Some t => Some (VBool false, t)
              | _, _, _ => scan_number s
              end
        end
    end
  (** the members of an object; [d] holds those already read (a repeated name gets the new value) *)
  with scan_members (fuel : nat) (s : string) (d : kvs) : option (kvs * string) :=
    match fuel with
    | O => None
    | S n =>
        match strip_prefix (String quote "") s with
        | None => None
        | Some r =>
            match scan_string r with
            | None => None
            | Some (k, r) =>
                match strip_prefix ":" (skip r) with
                | None => None
                | Some r =>
                    match scan n (skip r) with
                    | None => None
                    | Some (v, r) =>
                        match skip r with
                        | String c t =>
                            if Ascii.eqb c "}" then Some (set_attr k v d, t)
                            else if Ascii.eqb c "," then scan_members n (skip t) (set_attr k v d)
                            else None
                        | "" => None
                        end
                    end
                end
            end
        end
    end.
  (** json/decoder.py [JSONDecoder.decode]; None stands for JSONDecodeError, which is a ValueError.  Every call consumes a
      character, so the length of the text bounds the depth. *)
  Definition loads (s : string) : option val :=
    match scan (S (String.length s)) (skip s) with
    | Some (v, r) => if String.eqb (skip r) "" then Some v else None
    | None => None
    end.

  (** ** Files *)

  (** settings/base.py:37-43 [to_json], [to_file] stopped at point [n]: nothing is done at point 0; at point 1 the file is
      open, and so empty; then the text is made, which can raise; at point [S k] its first [k] characters are written.
      Simplification: characters reach the disk in the order in which they are written. *)
  Definition settings_text (v : val) : result string := let! d := to_json v in Ok (dumps 0 d).
  Definition settings_interrupted (before : string) (v : val) (n : nat) : string :=
    match settings_text v with
    | Ok text => on_disk Write before text n
    | Err _ => on_disk Write before "" n
    end.

  (** settings/base.py:61-66 [from_file].  Documents other than dictionaries: numbers and null raise TypeError; a text or
      a list raises TypeError or ValueError (not distinguished here). *)
  Definition settings_from_text (c : cls) (text : string) : result val :=
    match loads text with
    | None => Err ValueError
    | Some (VDict d) => from_dict c d
    | Some _ => Err TypeError
    end.
End Numbers.
