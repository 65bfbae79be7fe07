(** * Args: model of the command line of pyg2p.

    Models src/pyg2p/main/context.py:217-316 ([_define_input_args], [add_args])
    together with the part of Python's argparse that it uses, as in CPython
    3.11.10: optional arguments only, [nargs] None or 0, types str and int,
    [choices], abbreviations of long options, grouped one-letter flags.
    Simplified: an argument is a sequence of 8-bit characters; digits are ASCII
    digits; int() has no limit on the number of digits; printing of help and
    messages is not modelled (only that the error becomes 10000). Other releases
    of argparse differ in corner cases (a one-letter flag followed by an equals
    sign, unknown letters in a group). *)
From Verif Require Import Base PyStr Strings Config Context.
Local Open Scope string_scope.

(** what add_argument says of an option: [OText], [OInt]: the accepted choices,
    none for all values *)
Inductive kind := OText (choices : list string) | OInt (choices : list Z) | OFlag | OHelp.
Record opt := mkOpt { o_short : string; o_long : string; o_kind : kind }.

(** context.py:255-316; the first line is argparse's own *)
Definition table : list opt :=
  [ mkOpt "-h" "--help" OHelp;
    mkOpt "-c" "--commandsFile" (OText []);
    mkOpt "-o" "--outDir" (OText []);
    mkOpt "-i" "--inputFile" (OText []);
    mkOpt "-I" "--inputFile2" (OText []);
    mkOpt "-s" "--start" (OInt []);
    mkOpt "-e" "--end" (OInt []);
    mkOpt "-m" "--perturbationNumber" (OInt []);
    mkOpt "-T" "--dataTime" (OInt [0; 1200]%Z);
    mkOpt "-D" "--dataDate" (OInt []);
    mkOpt "-f" "--fmap" (OInt []);
    mkOpt "-F" "--format" (OText ["netcdf"; "pcraster"; "notset"]);
    mkOpt "-x" "--ext" (OInt []);
    mkOpt "-n" "--namePrefix" (OText []);
    mkOpt "-O" "--offset" (OText []);
    mkOpt "-S" "--scaleFactor" (OText []);
    mkOpt "-vM" "--validMax" (OText []);
    mkOpt "-vm" "--validMin" (OText []);
    mkOpt "-vf" "--valueFormat" (OText []);
    mkOpt "-U" "--outputStepUnits" (OText []);
    mkOpt "-l" "--loggerLevel" (OText ["ERROR"; "WARNING"; "INFO"; "DEBUG"]);
    mkOpt "-N" "--intertableDir" (OText []);
    mkOpt "-G" "--geopotentialDir" (OText []);
    mkOpt "-B" "--createIntertable" OFlag;
    mkOpt "-X" "--interpolationParallel" OFlag;
    mkOpt "-g" "--addGeopotential" (OText []);
    mkOpt "-W" "--downloadConf" (OText ["geopotentials"; "intertables"]);
    mkOpt "-A" "--underApi" OFlag;
    mkOpt "-K" "--checkConf" OFlag ].

(** argparse: [s in self._option_string_actions] *)
Definition find_option (s : string) : option opt :=
  List.find (fun o => (String.eqb s (o_short o) || String.eqb s (o_long o))%bool) table.

(** [s.split('=', 1)] when there is an equals sign *)
Fixpoint split_eq (s : string) : option (string * string) :=
  match s with
  | EmptyString => None
  | String c s' =>
      if Ascii.eqb c "=" then Some ("", s')
      else match split_eq s' with Some (a, b) => Some (String c a, b) | None => None end
  end.

(** argparse: [_negative_number_matcher], '^-\d+$|^-\d*\.\d+$' *)
Fixpoint after_digits (s : string) : string :=
  match s with
  | String c s' => if is_digit c then after_digits s' else s
  | EmptyString => EmptyString
  end.
Definition negative_number (s : string) : bool :=
  match s with
  | String c s' =>
      (Ascii.eqb c "-"
       && (isdigit s' || match after_digits s' with String d t => Ascii.eqb d "." && isdigit t | EmptyString => false end))%bool
  | EmptyString => false
  end.

(** an argument as argparse classifies it: [TPos]: positional (pattern A);
    [TDash]: the argument of two dashes; [TOpt a e]: an option (pattern O),
    [a = None]: not known, [e]: the value in the same argument. The first
    boolean: one dash; the second: an equals sign stands before the value *)
Inductive tok := TPos | TDash | TOpt (a : option (opt * bool)) (e : option (bool * string)).

(** argparse: [_get_option_tuples] *)
Definition option_tuples (s : string) : list (opt * bool * option (bool * string)) :=
  if starts_with "--" s then
    let '(p, e) := match split_eq s with Some (a, b) => (a, Some (true, b)) | None => (s, None) end in
    map (fun o => (o, false, e)) (filter (fun o => starts_with p (o_long o)) table)
  else
    flat_map (fun o =>
      (if String.eqb (o_short o) (stake 2 s) then [(o, true, Some (false, sdrop 2 s))]
       else if starts_with s (o_short o) then [(o, true, None)] else [])
      ++ (if starts_with s (o_long o) then [(o, false, None)] else []))%list table.

(** argparse: [_parse_optional] *)
Definition single_dash (s : string) : bool := negb (starts_with "--" s).
Definition parse_optional (s : string) : res tok :=
  if negb (starts_with "-" s) then Ok TPos else
  match find_option s with
  | Some o => Ok (TOpt (Some (o, single_dash s)) None)
  | None =>
      if Nat.eqb (String.length s) 1 then Ok TPos else
      match match split_eq s with
            | Some (a, b) => match find_option a with Some o => Some (o, single_dash a, b) | None => None end
            | None => None
            end with
      | Some (o, d, b) => Ok (TOpt (Some (o, d)) (Some (true, b)))
      | None =>
          match option_tuples s with
          | _ :: _ :: _ => Raise (AppExc 10000)
          | [(o, d, e)] => Ok (TOpt (Some (o, d)) e)
          | [] => if negative_number s then Ok TPos
                  else if contains " " s then Ok TPos
                  else Ok (TOpt None None)
          end
      end
  end.

(** argparse: the first loop of [_parse_known_args] *)
Fixpoint classify (argv : list string) : res (list (string * tok)) :=
  match argv with
  | [] => Ok []
  | s :: r =>
      if String.eqb s "--" then Ok ((s, TDash) :: map (fun x => (x, TPos)) r)
      else do t <- parse_optional s; do l <- classify r; Ok ((s, t) :: l)
  end.

(** [int(s)]: blanks, a sign, digits, single underscores between digits *)
Definition digit_val (c : ascii) : Z := Z.of_nat (code c - 48).
Fixpoint int_digits (s : string) (acc : Z) (need : bool) : option Z :=
  match s with
  | EmptyString => if need then None else Some acc
  | String c s' =>
      if is_digit c then int_digits s' (10 * acc + digit_val c)%Z false
      else if (Ascii.eqb c "_" && negb need)%bool then int_digits s' acc true
      else None
  end.
Definition py_int (s : string) : option Z :=
  match strip_ws s with
  | String c s' =>
      if Ascii.eqb c "-" then option_map Z.opp (int_digits s' 0 true)
      else if Ascii.eqb c "+" then int_digits s' 0 true
      else int_digits (String c s') 0 true
  | EmptyString => None
  end.

(** argparse: the namespace, and [HelpShown]: the help action ends the process *)
Inductive val := VText (s : string) | VInt (z : Z) | VTrue.
Definition names := list (string * val).
Inductive parsed (A : Type) := Parsed (a : A) | HelpShown.
Arguments Parsed {A} a. Arguments HelpShown {A}.

(** argparse: [take_action], [_get_values], [_check_value] *)
Definition dest (o : opt) : string := sdrop 2 (o_long o).
Definition act (o : opt) (v : option string) (ns : names) : res (parsed names) :=
  match o_kind o, v with
  | OHelp, _ => Ok HelpShown
  | OFlag, _ => Ok (Parsed (dset String.eqb ns (dest o) VTrue))
  | OText ch, Some s =>
      if match ch with [] => true | _ => str_mem s ch end
      then Ok (Parsed (dset String.eqb ns (dest o) (VText s))) else Raise (AppExc 10000)
  | OInt ch, Some s =>
      match py_int s with
      | Some z => if match ch with [] => true | _ => zmem z ch end
                  then Ok (Parsed (dset String.eqb ns (dest o) (VInt z))) else Raise (AppExc 10000)
      | None => Raise (AppExc 10000)
      end
  | _, None => Raise (AppExc 10000)
  end.
Definition takes_value (o : opt) : bool := match o_kind o with OText _ | OInt _ => true | _ => false end.
Fixpoint acts (l : list (opt * option string)) (ns : names) : res (parsed names) :=
  match l with
  | [] => Ok (Parsed ns)
  | (o, v) :: r =>
      do p <- act o v ns;
      match p with Parsed ns' => acts r ns' | HelpShown => Ok HelpShown end
  end.

(** argparse: the loop of [consume_optional] over the value in the same
    argument: the actions to take, an option for which the argument holds no
    value, and whether a part of the argument is unrecognised. [sep]: an equals
    sign stands before [e] *)
Fixpoint chain (o : opt) (one sep : bool) (e : string) : res (list (opt * option string) * option opt * bool) :=
  if takes_value o then Ok ([(o, Some e)], None, false)
  else match e with
       | EmptyString => Raise (AppExc 10000)
       | String c e' =>
           if negb one then Raise (AppExc 10000)
           else if (sep || Ascii.eqb c "-")%bool then Raise (AppExc 10000)
           else match find_option (String "-" (String c "")) with
                | None => Ok ([(o, None)], None, true)
                | Some o' =>
                    match e' with
                    | EmptyString => Ok ([(o, None)], Some o', false)
                    | String c' e'' =>
                        do p <- (if Ascii.eqb c' "=" then chain o' true true e'' else chain o' true false e');
                        Ok ((o, None) :: fst (fst p), snd (fst p), snd p)
                    end
                end
       end.

(** argparse: the main loop of [_parse_known_args], and [parse_args]: no
    positional arguments exist, so each one is an unrecognised argument *)
Fixpoint consume (l : list (string * tok)) (ns : names) (extra : bool) : res (parsed names) :=
  match l with
  | [] => if extra then Raise (AppExc 10000) else Ok (Parsed ns)
  | (_, TPos) :: r | (_, TDash) :: r | (_, TOpt None _) :: r => consume r ns true
  | (_, TOpt (Some (o, one)) e) :: r =>
      do p <- (match e with None => Ok ([], Some o, false) | Some (sep, e) => chain o one sep e end);
      let '(pend, last, more) := p in
      match last with
      | None => do q <- acts pend ns;
                match q with Parsed ns' => consume r ns' (extra || more) | HelpShown => Ok HelpShown end
      | Some o' =>
          if takes_value o' then
            match r with
            | (v, TPos) :: r' =>
                do q <- acts (pend ++ [(o', Some v)])%list ns;
                match q with Parsed ns' => consume r' ns' extra | HelpShown => Ok HelpShown end
            | _ => Raise (AppExc 10000)
            end
          else
            do q <- acts (pend ++ [(o', None)])%list ns;
            match q with Parsed ns' => consume r ns' extra | HelpShown => Ok HelpShown end
      end
  end.

(** context.py:235-269: the values that the context reads *)
Definition text_of (ns : names) (k : string) : option string :=
  match dget String.eqb ns k with Some (VText s) => Some s | _ => None end.
Definition int_of (ns : names) (k : string) : option Z :=
  match dget String.eqb ns k with Some (VInt z) => Some z | _ => None end.
Definition flag_of (ns : names) (k : string) : bool :=
  match dget String.eqb ns k with Some VTrue => true | _ => false end.
Definition cli_of (ns : names) : cli :=
  mkCli (text_of ns "commandsFile") (text_of ns "outDir") (text_of ns "inputFile") (text_of ns "inputFile2")
    (int_of ns "start") (int_of ns "end") (int_of ns "perturbationNumber") (int_of ns "dataTime") (int_of ns "dataDate")
    (int_of ns "fmap") (text_of ns "format") (int_of ns "ext") (text_of ns "namePrefix")
    (text_of ns "offset") (text_of ns "scaleFactor") (text_of ns "validMax") (text_of ns "validMin")
    (text_of ns "valueFormat") (text_of ns "outputStepUnits") (text_of ns "loggerLevel")
    (text_of ns "intertableDir") (text_of ns "geopotentialDir")
    (flag_of ns "createIntertable") (flag_of ns "interpolationParallel")
    (text_of ns "addGeopotential") (text_of ns "downloadConf") (flag_of ns "underApi") (flag_of ns "checkConf").

(** context.py:217-235: the command line of the program *)
Definition read_argv (argv : list string) : res (parsed cli) :=
  match argv with
  | [] => Raise (AppExc 10000)
  | _ => do l <- classify argv; do p <- consume l [] false;
         Ok (match p with Parsed ns => Parsed (cli_of ns) | HelpShown => HelpShown end)
  end.
