(** * Vocabulary of C90: how a command line of pyg2p may be written.

    [documented]: the options as the manual lists them. A command line [spelled]
    from a list of given options, each with its value, is a concatenation of the
    spellings of argparse: option and value as two arguments, joined by an
    equals sign, glued to a one-letter option, several one-letter flags in one
    argument, long options cut to a prefix no other option has. *)
From Verif Require Import Base PyStr Strings Config Context Args.
Local Open Scope string_scope.

Definition documented : list opt :=
  [ mkOpt "-h" "--help" OHelp;
    mkOpt "-c" "--commandsFile" (OText []); mkOpt "-o" "--outDir" (OText []);
    mkOpt "-i" "--inputFile" (OText []); mkOpt "-I" "--inputFile2" (OText []);
    mkOpt "-s" "--start" (OInt []); mkOpt "-e" "--end" (OInt []);
    mkOpt "-m" "--perturbationNumber" (OInt []); mkOpt "-T" "--dataTime" (OInt [0; 1200]%Z);
    mkOpt "-D" "--dataDate" (OInt []); mkOpt "-f" "--fmap" (OInt []);
    mkOpt "-F" "--format" (OText ["netcdf"; "pcraster"; "notset"]);
    mkOpt "-x" "--ext" (OInt []); mkOpt "-n" "--namePrefix" (OText []);
    mkOpt "-O" "--offset" (OText []); mkOpt "-S" "--scaleFactor" (OText []);
    mkOpt "-vM" "--validMax" (OText []); mkOpt "-vm" "--validMin" (OText []);
    mkOpt "-vf" "--valueFormat" (OText []); mkOpt "-U" "--outputStepUnits" (OText []);
    mkOpt "-l" "--loggerLevel" (OText ["ERROR"; "WARNING"; "INFO"; "DEBUG"]);
    mkOpt "-N" "--intertableDir" (OText []); mkOpt "-G" "--geopotentialDir" (OText []);
    mkOpt "-B" "--createIntertable" OFlag; mkOpt "-X" "--interpolationParallel" OFlag;
    mkOpt "-g" "--addGeopotential" (OText []);
    mkOpt "-W" "--downloadConf" (OText ["geopotentials"; "intertables"]);
    mkOpt "-A" "--underApi" OFlag; mkOpt "-K" "--checkConf" OFlag ].

(** an option of the command line and its value *)
Definition given : Type := opt * option string.
Definition valued (o : opt) : Prop := In o documented /\ (exists ch, o_kind o = OText ch) \/ In o documented /\ (exists ch, o_kind o = OInt ch).
Definition switch (o : opt) : Prop := In o documented /\ (o_kind o = OFlag \/ o_kind o = OHelp).
(** [o] is a one-letter option *)
Definition letter (o : opt) (c : ascii) : Prop := o_short o = String "-" (String c "").

(** the ways to name an option: its names, or a beginning of the long name that
    is no beginning of another long name *)
Inductive named (o : opt) : string -> Prop :=
| by_short : named o (o_short o)
| by_long : named o (o_long o)
| by_prefix n : n <> "--" -> starts_with "--" n = true -> starts_with n (o_long o) = true ->
    (forall o', In o' documented -> starts_with n (o_long o') = true -> o' = o) -> named o n.

(** a negative number without exponent *)
Definition negative (v : string) : Prop :=
  (exists d, d <> "" /\ sforall is_digit d = true /\ v = "-" +++ d) \/
  (exists d f, sforall is_digit d = true /\ f <> "" /\ sforall is_digit f = true /\ v = "-" +++ d +++ "." +++ f).
(** an argument that looks like one of the options *)
Definition optlike (v : string) : Prop :=
  exists o, In o documented /\
    ((exists n w, (v = n \/ v = n +++ "=" +++ w) /\
        (n = o_short o \/ n = o_long o \/ starts_with "--" n = true /\ starts_with n (o_long o) = true)) \/
     (exists c w, letter o c /\ v = o_short o +++ w)).
(** a value that may follow its option as an argument of its own *)
Definition separate (v : string) : Prop :=
  starts_with "-" v = false \/ v = "-" \/ ~ optlike v /\ (negative v \/ contains " " v = true).

(** one-letter options in one argument, [w] without the dash, [r] the arguments
    that follow it *)
Inductive letters : list given -> string -> list string -> Prop :=
| l_switch o c : switch o -> letter o c -> letters [(o, None)] (String c "") []
| l_apart o c v : valued o -> letter o c -> separate v -> letters [(o, Some v)] (String c "") [v]
| l_joined o c v : valued o -> letter o c -> v <> "" -> starts_with "=" v = false -> letters [(o, Some v)] (String c v) []
| l_equals o c v : valued o -> letter o c -> letters [(o, Some v)] (String c (String "=" v)) []
| l_more o c gs w r : switch o -> letter o c -> letters gs w r -> letters ((o, None) :: gs) (String c w) r.

Inductive spelling : list given -> list string -> Prop :=
| s_switch o n : switch o -> named o n -> spelling [(o, None)] [n]
| s_apart o n v : valued o -> named o n -> separate v -> spelling [(o, Some v)] [n; v]
| s_equals o n v : valued o -> named o n -> spelling [(o, Some v)] [n +++ "=" +++ v]
| s_letters gs w r : letters gs w r -> spelling gs (String "-" w :: r).

Inductive spelled : list given -> list string -> Prop :=
| sp_nil : spelled [] []
| sp_app g a gs l : spelling g a -> spelled gs l -> spelled (g ++ gs) (a ++ l).

(** a value is of the type of its option and among its choices *)
Definition proper (g : given) : Prop :=
  match o_kind (fst g), snd g with
  | OText ch, Some s => ch = [] \/ In s ch
  | OInt ch, Some s => exists z, py_int s = Some z /\ (ch = [] \/ In z ch)
  | OFlag, None => True
  | _, _ => False
  end.

(** the value of the last occurrence of an option *)
Fixpoint last_given (short : string) (gs : list given) : option (option string) :=
  match gs with
  | [] => None
  | (o, v) :: r =>
      match last_given short r with
      | Some w => Some w
      | None => if String.eqb (o_short o) short then Some v else None
      end
  end.
Definition text_given (gs : list given) (short : string) : option string :=
  match last_given short gs with Some (Some s) => Some s | _ => None end.
Definition int_given (gs : list given) (short : string) : option Z :=
  match last_given short gs with Some (Some s) => py_int s | _ => None end.
Definition is_given (gs : list given) (short : string) : bool :=
  match last_given short gs with Some _ => true | None => false end.

(** what the program understands *)
Definition understood (gs : list given) : cli :=
  {| a_commands := text_given gs "-c"; a_outDir := text_given gs "-o";
     a_input := text_given gs "-i"; a_input2 := text_given gs "-I";
     a_start := int_given gs "-s"; a_end := int_given gs "-e"; a_member := int_given gs "-m";
     a_dataTime := int_given gs "-T"; a_dataDate := int_given gs "-D";
     a_fmap := int_given gs "-f"; a_format := text_given gs "-F"; a_ext := int_given gs "-x";
     a_prefix := text_given gs "-n"; a_offset := text_given gs "-O"; a_scale := text_given gs "-S";
     a_vmax := text_given gs "-vM"; a_vmin := text_given gs "-vm"; a_vformat := text_given gs "-vf";
     a_units := text_given gs "-U"; a_level := text_given gs "-l";
     a_idir := text_given gs "-N"; a_gdir := text_given gs "-G";
     a_create := is_given gs "-B"; a_parallel := is_given gs "-X";
     a_addgeo := text_given gs "-g"; a_download := text_given gs "-W";
     a_api := is_given gs "-A"; a_check := is_given gs "-K" |}.

(** ** integers as Python reads them *)
Fixpoint digit_count (s : string) : nat :=
  match s with EmptyString => O | String c s' => if is_digit c then S (digit_count s') else digit_count s' end.
(** the value of the digits of a text, other characters ignored *)
Fixpoint decimal (s : string) : Z :=
  match s with
  | EmptyString => 0%Z
  | String c s' => if is_digit c then (Z.of_nat (code c - 48) * 10 ^ Z.of_nat (digit_count s') + decimal s')%Z else decimal s'
  end.
(** groups of digits separated by single underscores *)
Inductive grouped : string -> Prop :=
| g_one d : d <> "" -> sforall is_digit d = true -> grouped d
| g_more d r : d <> "" -> sforall is_digit d = true -> grouped r -> grouped (d +++ "_" +++ r).
Definition blank (s : string) : Prop := sforall is_space s = true.
Definition integer_text (s : string) (z : Z) : Prop :=
  exists a sign ds b, s = a +++ sign +++ ds +++ b /\ blank a /\ blank b /\ grouped ds /\
    (z = decimal ds /\ (sign = "" \/ sign = "+") \/ z = (- decimal ds)%Z /\ sign = "-").
