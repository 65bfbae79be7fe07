(** * Strings: model of src/pyg2p/util/strings.py, of [normalize_filename]
    (util/files.py), of [progress_step_and_backchar] (util/generics.py) and of
    the API command builder [Command] (main/api.py:19-79). *)
From Verif Require Import Base PyStr.
Local Open Scope string_scope.

(** the values [to_boolean] receives: a JSON/argparse value or nothing.
    (Other JSON types -- numbers, lists -- are not modelled.) *)
Inductive pyval := PNone | PBool (b : bool) | PStr (s : string).

(** util/strings.py:6-19 [to_boolean] *)
Definition to_boolean (x : pyval) : res bool :=
  match x with
  | PNone => Ok false
  | PBool b => Ok b
  | PStr EmptyString => Raise IndexError                     (* bool_[0] *)
  | PStr (String c _) =>
      Ok (Ascii.eqb (upper_ch c) "T" || Ascii.eqb (upper_ch c) "Y")
  end.

(** the Python csv reader (delimiter blank, default dialect: double quote as
    quotechar, doublequote, not strict) applied to the first record. *)
Inductive csv_state := StartRecord | StartField | InField | InQuoted | QuoteInQuoted.
Definition DQ : ascii := """"%char.
Definition is_nl (c : ascii) : bool := (Nat.eqb (code c) 10 || Nat.eqb (code c) 13)%bool.
(** [cur] is the current field *)
Fixpoint csv_go (st : csv_state) (cur : string) (s : string) : list string :=
  match s with
  | EmptyString => match st with StartRecord => [] | _ => [cur] end
  | String c s' =>
      match st with
      | StartRecord | StartField =>
          if is_nl c then match st with StartRecord => [] | _ => [cur] end
          else if Ascii.eqb c DQ then csv_go InQuoted cur s'
          else if Ascii.eqb c " " then cur :: csv_go StartField "" s'
          else csv_go InField (cur +++ String c "") s'
      | InField =>
          if is_nl c then [cur]
          else if Ascii.eqb c " " then cur :: csv_go StartField "" s'
          else csv_go InField (cur +++ String c "") s'
      | InQuoted =>
          if Ascii.eqb c DQ then csv_go QuoteInQuoted cur s'
          else csv_go InQuoted (cur +++ String c "") s'
      | QuoteInQuoted =>
          if Ascii.eqb c DQ then csv_go InQuoted (cur +++ String c "") s'
          else if is_nl c then [cur]
          else if Ascii.eqb c " " then cur :: csv_go StartField "" s'
          else csv_go InField (cur +++ String c "") s'
      end
  end.

Definition nonempty (s : string) : bool := negb (String.eqb s "").

(** csv.Error (OtherError), new-line character seen in unquoted field: in any
    record, since all are read, a carriage return outside quotes before
    something else than the end of the line. [cr]: just after a carriage
    return. (NUL characters and fields beyond the limit of the csv module are
    not modelled.) *)
Fixpoint csv_error (st : csv_state) (cr : bool) (s : string) : bool :=
  match s with
  | EmptyString => false
  | String c s' =>
      if cr then
        if Nat.eqb (code c) 10 then csv_error StartRecord false s'
        else if Nat.eqb (code c) 13 then csv_error StartRecord true s'
        else true
      else match st with
      | InQuoted => csv_error (if Ascii.eqb c DQ then QuoteInQuoted else InQuoted) false s'
      | _ =>
          if Nat.eqb (code c) 10 then csv_error StartRecord false s'
          else if Nat.eqb (code c) 13 then csv_error StartRecord true s'
          else if Ascii.eqb c DQ then csv_error (match st with InField => InField | _ => InQuoted end) false s'
          else if Ascii.eqb c " " then csv_error StartField false s'
          else csv_error InField false s'
      end
  end.
(** util/strings.py:22-28 [to_argv]. [list(c)[0]] raises IndexError when there
    is no record at all. [string_ is not ''] is [!=] for CPython's interned
    empty string. *)
Definition to_argv (s : string) : res (list string) :=
  if String.eqb s "" then Raise IndexError
  else if csv_error StartRecord false s then Raise OtherError
  else Ok (filter nonempty (csv_go StartRecord "" s)).

(** [dict(zip(c[0::2], c[1::2]))]: consecutive pairs, an odd last item is dropped *)
Fixpoint pairs_of (l : list string) : list (string * string) :=
  match l with
  | a :: b :: l' => (a, b) :: pairs_of l'
  | _ => []
  end.
Definition sdict := list (string * string).

(** util/strings.py:31-33 [to_argdict] *)
Definition to_argdict (s : string) : sdict :=
  dict_of String.eqb (pairs_of (split_on (fun c => Ascii.eqb c " " || Ascii.eqb c "=")%bool (strip_ws s))).

(** util/strings.py:36 [FALSE_STRINGS] *)
Definition FALSE_STRINGS : list string :=
  ["FALSE"; "F"; "f"; "False"; "false"; "NO"; "no"; "No"; "0"; "off"; "OFF"; "Off"; "nO"].
Definition str_mem (x : string) (l : list string) : bool := existsb (String.eqb x) l.

(** ** main/api.py: the command builder *)

(** api.py:55-61: program name removal and [{var}] interpolation *)
Definition cmd_text (cmd : string) (params : list (string * string)) : string :=
  let s := strip_ws (lstrip (fun c => ch_in c "pyg2p") cmd) in
  fold_left (fun acc kv => replace ("{" +++ fst kv +++ "}") (snd kv) acc) params s.

(** api.py:50-52, 28-30 [_a] and every [with_*] method: [self._d[opt] = param] *)
Definition cmd_with (d : sdict) (opt param : string) : sdict := dset String.eqb d opt param.

(** api.py:54-69 [Command.__init__]; [None] (the default argument) has no [lstrip] *)
Definition cmd_init (cmd : option string) (params : list (string * string)) : res sdict :=
  match cmd with
  | None => Raise AttributeError
  | Some c =>
      let s := cmd_text c params in
      let d := if String.eqb s "" then [] else to_argdict (s +++ " -A") in
      Ok (if dmem String.eqb d "-l" then d else cmd_with d "-l" "ERROR")
  end.

(** a sequence of [with_*] calls *)
Definition cmd_calls (d : sdict) (calls : list (string * string)) : sdict :=
  fold_left (fun acc ov => cmd_with acc (fst ov) (snd ov)) calls d.

(** api.py:71-75 [__str__] *)
Definition cmd_str (d : sdict) : string :=
  "pyg2p " +++ strip_ws (join "" (map (fun kv => fst kv +++ " " +++ snd kv +++ " ") (sort_str fst d))).

(** api.py:23-25, 77-79: the argument vector handed to [pyg2p_exe] *)
Definition cmd_argv (d : sdict) : res (list string) :=
  do argv <- to_argv (cmd_str d); Ok (tl argv).

(** ** util/files.py *)

(** index of the last character satisfying [p] *)
Fixpoint rfind_go (p : ascii -> bool) (s : string) (i : nat) : option nat :=
  match s with
  | EmptyString => None
  | String c s' => match rfind_go p s' (S i) with
                   | Some j => Some j
                   | None => if p c then Some i else None
                   end
  end.
Definition rfind (c : ascii) (s : string) : option nat := rfind_go (Ascii.eqb c) s O.

(** util/files.py:77-78 [without_ext]: [os.path.splitext(f)[0]] (posixpath): the
    extension starts at the last dot after the last slash, unless only dots
    precede it in the file name *)
Definition without_ext (s : string) : string :=
  let start := match rfind "/" s with Some i => S i | None => O end in
  match rfind "." s with
  | None => s
  | Some d =>
      if Nat.leb start d
      then if sexists (fun c => negb (Ascii.eqb c ".")) (sdrop start (stake d s)) then stake d s else s
      else s
  end.

(** number of digits at the beginning *)
Fixpoint digit_run (s : string) : nat :=
  match s with
  | String c s' => if is_digit c then S (digit_run s') else O
  | EmptyString => O
  end.
(** [re.sub(r'([0-9]{8,10})', '', s)]: greedy, left to right *)
Fixpoint drop_dates (skip : nat) (s : string) : string :=
  match s with
  | EmptyString => EmptyString
  | String c s' =>
      match skip with
      | S k => drop_dates k s'
      | O => let r := digit_run s in
             if Nat.leb 8 r then drop_dates (Nat.min 10 r - 1) s'
             else String c (drop_dates O s')
      end
  end.

(** util/files.py:98-110 [normalize_filename] *)
Definition normalize_filename (name : string) : string :=
  let n0 := lower (without_ext name) in
  let d := drop_dates O n0 in
  let n1 := if String.eqb d "" then n0 else d in
  let n2 := replace "." "" (replace "_" "" (replace "-" "" n1)) in
  if Nat.ltb (String.length n2) 3 then replace "." "_" name
  else stake 10 n2.

(** util/generics.py:22-29: the progress step (the back char is only printed) *)
Definition progress_step (num_cells : Z) (isatty : bool) : Z :=
  let p := (num_cells / 250)%Z in if isatty then p else (p * 10)%Z.
