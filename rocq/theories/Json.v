(** * Json: the text of the configuration files.

    Models the two library calls with which main/config.py stores and reads its
    files: [json.dumps(user_vars, sort_keys=True, indent=4)] (config.py:145)
    and [json.load(f)] (config.py:134), as CPython's json module defines them.

    Simplifications: strings have code points up to 255 (an escape for a larger
    code point is refused); numbers are integers (a number with a fraction or an
    exponent, NaN and the infinities are refused); the recursion limit is not
    modelled. *)
From Verif Require Import Base PyStr Config.
Local Open Scope string_scope.

Definition chr (n : nat) : ascii := ascii_of_nat n.
Definition quote : ascii := chr 34.
Definition backslash : ascii := chr 92.
Definition newline_s : string := String (chr 10) "".

(** ** printing *)
Definition hex_digit (n : nat) : ascii := chr (if Nat.ltb n 10 then 48 + n else 87 + n).
(** json.encoder ESCAPE_ASCII / py_encode_basestring_ascii: a quote, a backslash
    and everything outside blank..tilde is escaped *)
Definition esc_char (c : ascii) : string :=
  match code c with
  | 34 => String backslash (String (chr 34) "")
  | 92 => String backslash (String backslash "")
  | 8 => String backslash "b"
  | 9 => String backslash "t"
  | 10 => String backslash "n"
  | 12 => String backslash "f"
  | 13 => String backslash "r"
  | n => if (Nat.leb 32 n && Nat.leb n 126)%bool then String c ""
         else String backslash ("u00" +++ String (hex_digit (n / 16)) (String (hex_digit (n mod 16)) ""))
  end%nat.
Fixpoint esc (s : string) : string :=
  match s with "" => "" | String c s' => esc_char c +++ esc s' end.
Definition pstring (s : string) : string := String quote (esc s +++ String quote "").

(** a new line and [4 * lvl] blanks *)
Definition nl (lvl : nat) : string := newline_s +++ srepeat " "%char (4 * lvl).

(** json.encoder _iterencode with indent=4: item separator ',', key separator
    ': '; [lvl] is the level of the enclosing container *)
Fixpoint pjson (lvl : nat) (j : json) : string :=
  match j with
  | JNull => "null"
  | JBool true => "true"
  | JBool false => "false"
  | JNum z => str_of_Z z
  | JStr s => pstring s
  | JArr [] => "[]"
  | JArr (v :: l) =>
      "[" +++ nl (S lvl) +++ pjson (S lvl) v +++
      (fix go (l : list json) : string :=
         match l with
         | [] => ""
         | v :: l' => "," +++ nl (S lvl) +++ pjson (S lvl) v +++ go l'
         end) l +++ nl lvl +++ "]"
  | JObj [] => "{}"
  | JObj ((k, v) :: d) =>
      "{" +++ nl (S lvl) +++ pstring k +++ ": " +++ pjson (S lvl) v +++
      (fix go (d : list (string * json)) : string :=
         match d with
         | [] => ""
         | (k, v) :: d' => "," +++ nl (S lvl) +++ pstring k +++ ": " +++ pjson (S lvl) v +++ go d'
         end) d +++ nl lvl +++ "}"
  end.

(** [sort_keys=True] applies to every object *)
Fixpoint jsort (j : json) : json :=
  match j with
  | JArr l => JArr (map jsort l)
  | JObj d => JObj (sort_str fst (map (fun kv => (fst kv, jsort (snd kv))) d))
  | _ => j
  end.

Definition dumps (j : json) : string := pjson 0 (jsort j).

(** ** reading: json.decoder, json.scanner *)
(** decoder.WHITESPACE *)
Definition is_ws (c : ascii) : bool :=
  (Nat.eqb (code c) 32 || Nat.eqb (code c) 9 || Nat.eqb (code c) 10 || Nat.eqb (code c) 13)%bool.
Definition skip_ws (s : string) : string := lstrip is_ws s.

Definition hex_val (c : ascii) : option nat :=
  let n := code c in
  if (Nat.leb 48 n && Nat.leb n 57)%bool then Some (n - 48)
  else if (Nat.leb 97 n && Nat.leb n 102)%bool then Some (n - 87)
  else if (Nat.leb 65 n && Nat.leb n 70)%bool then Some (n - 55)
  else None.
Definition hex4 (a b c d : ascii) : option ascii :=
  match hex_val a, hex_val b, hex_val c, hex_val d with
  | Some 0, Some 0, Some x, Some y => Some (chr (16 * x + y))
  | _, _, _, _ => None
  end.
(** decoder.BACKSLASH *)
Definition simple_esc (e : ascii) : option ascii :=
  match code e with
  | 34 => Some quote | 92 => Some backslash | 47 => Some (chr 47)
  | 98 => Some (chr 8) | 102 => Some (chr 12) | 110 => Some (chr 10) | 114 => Some (chr 13) | 116 => Some (chr 9)
  | _ => None
  end%nat.
Definition scons (c : ascii) (r : option (string * string)) : option (string * string) :=
  match r with Some (t, rest) => Some (String c t, rest) | None => None end.
(** decoder.py_scanstring (strict: no control characters), after the opening
    quote *)
Fixpoint rstring (s : string) : option (string * string) :=
  match s with
  | "" => None
  | String c s' =>
      if Ascii.eqb c quote then Some ("", s')
      else if Ascii.eqb c backslash then
        match s' with
        | "" => None
        | String e s2 =>
            match simple_esc e with
            | Some x => scons x (rstring s2)
            | None =>
                if Ascii.eqb e "u" then
                  match s2 with
                  | String h1 (String h2 (String h3 (String h4 s3))) =>
                      match hex4 h1 h2 h3 h4 with Some x => scons x (rstring s3) | None => None end
                  | _ => None
                  end
                else None
            end
        end
      else if Nat.ltb (code c) 32 then None
      else scons c (rstring s')
  end.

Fixpoint take_digits (s : string) : string * string :=
  match s with
  | "" => ("", "")
  | String c s' => if is_digit c then let '(d, r) := take_digits s' in (String c d, r) else ("", s)
  end.
(** scanner.NUMBER_RE, integers only *)
Definition rnat (s : string) : option (string * string) :=
  match s with
  | "" => None
  | String c s' =>
      if Ascii.eqb c "0" then Some ("0", s')
      else if is_digit c then Some (take_digits s)
      else None
  end.
Definition no_fraction (s : string) : bool :=
  match s with
  | "" => true
  | String c _ => negb (Ascii.eqb c "." || Ascii.eqb c "e" || Ascii.eqb c "E")
  end.
Definition rnum (s : string) : option (json * string) :=
  let '(sign, s1) := match s with
                     | String "-" s' => ("-", s')
                     | _ => ("", s)
                     end in
  match rnat s1 with
  | Some (d, rest) =>
      if no_fraction rest
      then match Z_of_str (sign +++ d) with Some z => Some (JNum z, rest) | None => None end
      else None
  | None => None
  end.

Definition expect (c : ascii) (s : string) : option string :=
  match s with String c' s' => if Ascii.eqb c c' then Some s' else None | "" => None end.

(** scanner.py_make_scanner, decoder.JSONArray, decoder.JSONObject *)
Fixpoint rval (fuel : nat) (s : string) {struct fuel} : option (json * string) :=
  match fuel with
  | O => None
  | S n =>
      match expect quote s with
      | Some s' => match rstring s' with Some (t, r) => Some (JStr t, r) | None => None end
      | None =>
      match expect "["%char s with
      | Some s' =>
          match expect "]"%char (skip_ws s') with
          | Some r => Some (JArr [], r)
          | None => match ritems n (skip_ws s') with Some (l, r) => Some (JArr l, r) | None => None end
          end
      | None =>
      match expect "{"%char s with
      | Some s' =>
          match expect "}"%char (skip_ws s') with
          | Some r => Some (JObj [], r)
          | None => match rmembers n (skip_ws s') [] with Some (d, r) => Some (JObj d, r) | None => None end
          end
      | None =>
          if starts_with "null" s then Some (JNull, sdrop 4 s)
          else if starts_with "true" s then Some (JBool true, sdrop 4 s)
          else if starts_with "false" s then Some (JBool false, sdrop 5 s)
          else rnum s
      end end end
  end
with ritems (fuel : nat) (s : string) {struct fuel} : option (list json * string) :=
  match fuel with
  | O => None
  | S n =>
      match rval n s with
      | Some (v, r) =>
          match expect "]"%char (skip_ws r) with
          | Some r' => Some ([v], r')
          | None =>
              match expect ","%char (skip_ws r) with
              | Some r' => match ritems n (skip_ws r') with Some (l, r2) => Some (v :: l, r2) | None => None end
              | None => None
              end
          end
      | None => None
      end
  end
with rmembers (fuel : nat) (s : string) (acc : list (string * json)) {struct fuel} : option (list (string * json) * string) :=
  match fuel with
  | O => None
  | S n =>
      match expect quote s with
      | Some s1 =>
          match rstring s1 with
          | Some (k, r1) =>
              match expect ":"%char (skip_ws r1) with
              | Some r2 =>
                  match rval n (skip_ws r2) with
                  | Some (v, r3) =>
                      let acc' := dset String.eqb acc k v in
                      match expect "}"%char (skip_ws r3) with
                      | Some r4 => Some (acc', r4)
                      | None =>
                          match expect ","%char (skip_ws r3) with
                          | Some r4 => rmembers n (skip_ws r4) acc'
                          | None => None
                          end
                      end
                  | None => None
                  end
              | None => None
              end
          | None => None
          end
      | None => None
      end
  end.

(** [json.load]: decoder.decode; every call consumes a character after at most
    two steps, so this many steps are enough *)
Definition loads (s : string) : option json :=
  match rval (2 * String.length s + 2) (skip_ws s) with
  | Some (j, r) => if String.eqb (skip_ws r) "" then Some j else None
  | None => None
  end.
