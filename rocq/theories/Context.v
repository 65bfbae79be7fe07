(** * Context: model of src/pyg2p/main/context.py and of [ApiContext]
    (src/pyg2p/main/api.py:82-225).

    The dictionary [_vars] is a record; [JNull] is None. Values read from JSON
    keep their JSON type; numbers are integers (1.0 and 0.0 are [JNum 1] and
    [JNum 0], equal in Python). The record [cli] holds
    what was typed, [None] for an option that was not given (Args.v models how
    it is read from the command line). Not modelled: reading the command file,
    the file system (oracles), logging. *)
From Verif Require Import Base PyStr Strings Config.
Local Open Scope string_scope.

(** ** Helpers *)
Definition of_s (o : option string) : json := match o with Some s => JStr s | None => JNull end.
Definition of_z (o : option Z) : json := match o with Some z => JNum z | None => JNull end.
Definition dflt {A} (o : option A) (d : A) : A := match o with Some a => a | None => d end.
Definition is_null (j : json) : bool := match j with JNull => true | _ => false end.
(** Python [a or b] *)
Definition jor (a b : json) : json := if jtruthy a then a else b.
(** [d.get(key, default)] *)
Definition jget_d (j : json) (key : string) (d : json) : res json :=
  match j with
  | JObj o => Ok (match dget String.eqb o key with Some v => v | None => d end)
  | _ => Raise AttributeError
  end.
Definition jget (j : json) (key : string) : res json := jget_d j key JNull.
(** [int(x)] *)
Definition jint (j : json) : res Z :=
  match j with
  | JNum z => Ok z
  | JBool b => Ok (if b then 1 else 0)%Z
  | JStr s => match Z_of_str (strip_ws s) with Some z => Ok z | None => Raise ValueError end
  | _ => Raise TypeError
  end.
(** [to_boolean] on a JSON value; numbers and objects are not modelled *)
Definition jboolean (j : json) : res bool :=
  match j with
  | JNull => to_boolean PNone
  | JBool b => to_boolean (PBool b)
  | JStr s => to_boolean (PStr s)
  | _ => Raise OtherError
  end.
(** [x.lower() not in FALSE_STRINGS] *)
Definition not_false_string (j : json) : res bool :=
  match j with
  | JStr s => Ok (negb (str_mem (lower s) FALSE_STRINGS))
  | _ => Raise AttributeError
  end.

(** ** Command line: context.py:255-316; defaults of add_argument in [dflt] *)
Record cli := mkCli
  { a_commands : option string; a_outDir : option string; a_input : option string; a_input2 : option string;
    a_start : option Z; a_end : option Z; a_member : option Z; a_dataTime : option Z; a_dataDate : option Z;
    a_fmap : option Z; a_format : option string; a_ext : option Z; a_prefix : option string;
    a_offset : option string; a_scale : option string; a_vmax : option string; a_vmin : option string;
    a_vformat : option string; a_units : option string; a_level : option string;
    a_idir : option string; a_gdir : option string; a_create : bool; a_parallel : bool;
    a_addgeo : option string; a_download : option string; a_api : bool; a_check : bool }.

Definition opt_in (o : option string) (l : list string) : bool :=
  match o with None => true | Some s => str_mem s l end.
(** [choices] of context.py:271, 281, 295, 312: a value outside them is refused
    by argparse and becomes 10000 *)
Definition cli_choices (a : cli) : bool :=
  (match a_dataTime a with None => true | Some t => zmem t [0; 1200] end
   && opt_in (a_format a) ["netcdf"; "pcraster"; "notset"]
   && opt_in (a_level a) ["ERROR"; "WARNING"; "INFO"; "DEBUG"]
   && opt_in (a_download a) ["geopotentials"; "intertables"])%bool%Z.

(** ** The context *)
Record ctx := mkCtx
  { x_loglevel : json; x_input : json; x_tstart : json; x_tend : json; x_dataTime : json; x_dataDate : json;
    x_idirs_user : json; x_gdirs_user : json; x_create : json; x_parallel : json;
    x_fmap : json; x_ext : json; x_format : json; x_prefix : json; x_scale : json; x_offset : json;
    x_vmin : json; x_vmax : json; x_vformat : json; x_units : json; x_outDir : string; x_member : json;
    x_input2 : json;
    x_doAggr : bool; x_doConv : bool; x_doCorr : bool;
    x_short : json; x_descr : json; x_unit : json; x_convUnit : json; x_convFun : json; x_cutoff : bool;
    x_formula : json; x_gem : json; x_dem : json;
    x_clone : json; x_mode : json; x_lat : json; x_lon : json;
    x_unitTime : json; x_level : json;
    x_astep : json; x_atype : json; x_ahalf : json; x_aforce : bool }.

(** configuration used by the context: parameters.json, *.conf variables, data
    folders *)
Record env := mkEnv
  { e_params : list (string * json); e_uvars : list (string * string);
    e_idir : json; e_gdir : json }.

(** config.py:207-211 for any key *)
Definition param_lookup (e : env) (short : json) : res json :=
  match short with
  | JStr s => param_get (e_params e) s
  | JArr _ | JObj _ => Raise TypeError
  | _ => Raise (AppExc 1100)
  end.
Definition conversion_lookup (parameter id_ : json) : res json :=
  match parameter, id_ with
  | JObj p, JStr i => get_conversion p i
  | JObj p, _ => Raise OtherError      (* ids that are not strings: not modelled *)
  | _, _ => Raise AttributeError
  end.

(** context.py:341-355, api.py:145-158: description, unit, conversion.
    [pre] is the prefix of the keys: an at sign in command files, nothing in
    the API *)
Record conv := mkConv { k_descr : json; k_unit : json; k_do : bool; k_convUnit : json; k_fun : json; k_cut : bool }.
Definition define_conversion (e : env) (pre : string) (parconf : json) : res conv :=
  do short <- jitem parconf (pre +++ "shortName");
  do parameter <- param_lookup e short;
  do descr <- jitem parameter "@description";
  do unit <- jitem parameter "@unit";
  do ac <- jget parconf (pre +++ "applyConversion");
  if jtruthy ac then
    do c <- conversion_lookup parameter ac;
    do cu <- jitem c "@unit";
    do cf <- jitem c "@function";
    do cc <- jget c "@cutOffNegative";
    do cut <- jboolean cc;
    Ok (mkConv descr unit true cu cf cut)
  else Ok (mkConv descr unit false unit JNull false).

(** context.py:357-362, api.py:160-167; None where the keys are absent *)
Definition define_correction (pre : string) (parconf : json) : res (bool * json * json * json) :=
  do f <- jget parconf (pre +++ "correctionFormula");
  if jtruthy f then
    do g <- jget parconf (pre +++ "gem");
    if jtruthy g then
      do d <- jget parconf (pre +++ "demMap");
      if jtruthy d then Ok (true, f, g, d) else Ok (false, JNull, JNull, JNull)
    else Ok (false, JNull, JNull, JNull)
  else Ok (false, JNull, JNull, JNull).

(** context.py:403-410, api.py:205-212 *)
Definition int_option (given : json) (conf : json) (key : string) : res json :=
  if is_null given then
    do v <- jget conf key;
    if jtruthy v then (do z <- jint v; Ok (JNum z)) else Ok JNull
  else Ok given.
(** [x if x is not None else conf.get(key) or default] *)
Definition opt_or (given : json) (conf : json) (key : string) (default : json) : res json :=
  if is_null given then (do v <- jget conf key; Ok (jor v default)) else Ok given.
(** [x if x is not None else conf.get(key)] *)
Definition opt_get (given : json) (conf : json) (key : string) : res json :=
  if is_null given then jget conf key else Ok given.
(** [conf.get(key) or default] when [x == sentinel] *)
Definition sentinel_or (given sentinel : json) (conf : json) (key : string) (default : json) : res json :=
  match given, sentinel with
  | JNum a, JNum b => if Z.eqb a b then (do v <- jget conf key; Ok (jor v default)) else Ok given
  | JStr a, JStr b => if String.eqb a b then (do v <- jget conf key; Ok (jor v default)) else Ok given
  | _, _ => Ok given
  end.

(** config.py:65-81 for the four map paths *)
Definition map_path (j : json) : res string := match j with JStr s => Ok s | _ => Raise TypeError end.
Definition interpolate_all (uvars : list (string * string)) (dem : option json) (clone lat lon : json)
    : res (option string * string * string * string) :=
  do d <- match dem with Some j => map_path j | None => Ok "" end;
  do c <- map_path clone;
  do la <- map_path lat;
  do lo <- map_path lon;
  do d' <- interpolate_string uvars d;
  do c' <- interpolate_string uvars c;
  do la' <- interpolate_string uvars la;
  do lo' <- interpolate_string uvars lo;
  Ok (match dem with Some _ => Some d' | None => None end, c', la', lo').

(** context.py:414-425, api.py:216-221; [half]: the half weights key is read *)
Definition define_aggregation (pre : string) (half : bool) (conf : json) : res (bool * json * json * json * bool) :=
  do a <- jget conf "Aggregation";
  if jtruthy a then
    do st <- jget a (pre +++ "step");
    do ty <- jget a (pre +++ "type");
    do h <- (if half then (do h <- jget a (pre +++ "halfweights"); Ok (JBool (jtruthy h))) else Ok JNull);
    do force <- (if jis ty "accumulation"
                 then (do f <- jget_d a (pre +++ "forceZeroArray") (JStr "False"); not_false_string f)
                 else Ok false);
    Ok ((jtruthy st && jtruthy ty)%bool, st, ty, h, force)
  else Ok (false, JNull, JNull, JNull, false).

(** ** context.py:195-253 and 319-428: the context of a command.
    [cmd]: content of the command file, [None] if the file does not exist.
    (context.py:334 reads a name, which is only printed; relative paths of the
    command file are not modelled) *)
Definition define_exec_params (e : env) (a : cli) (cmd : option json) : res ctx :=
  match a_commands a with
  | None => Raise AttributeError                    (* None.startswith *)
  | Some _ =>
    match cmd with
    | None => Raise (AppExc 0)
    | Some u =>
      do ex <- jitem u "Execution";
      do _ <- jitem ex "@name";
      do parconf <- jitem ex "Parameter";
      do short <- jitem parconf "@shortName";
      do k <- define_conversion e "@" parconf;
      do '(docorr, formula, gem, dem) <- define_correction "@" parconf;
      do out <- jitem ex "OutMaps";
      do clone <- jitem out "@cloneMap";
      do ic <- jitem out "Interpolation";
      do mode <- jget_d ic "@mode" (JStr "grib_nearest");
      do idir <- (if jtruthy (of_s (a_idir a)) then Ok (of_s (a_idir a))
                  else (do v <- jget ic "@intertableDir"; Ok (jor v (e_idir e))));
      do gdir <- (if jtruthy (of_s (a_gdir a)) then Ok (of_s (a_gdir a))
                  else (do v <- jget ic "@geopotentialDir"; Ok (jor v (e_gdir e))));
      do lat <- jitem ic "@latMap";
      do lon <- jitem ic "@lonMap";
      do unitTime <- jget out "@unitTime";
      do prefix <- (if jtruthy (of_s (a_prefix a)) then Ok (of_s (a_prefix a))
                    else (do v <- jget out "@namePrefix"; Ok (jor v short)));
      do scale <- opt_or (of_s (a_scale a)) out "@scaleFactor" (JNum 1);
      do offset <- opt_or (of_s (a_offset a)) out "@offset" (JNum 0);
      do vmin <- opt_get (of_s (a_vmin a)) out "@validMin";
      do vmax <- opt_get (of_s (a_vmax a)) out "@validMax";
      do vformat <- opt_get (of_s (a_vformat a)) out "@valueFormat";
      do units <- opt_get (of_s (a_units a)) out "@outputStepUnits";
      do fmap <- sentinel_or (JNum (dflt (a_fmap a) 1%Z)) (JNum 1) out "@fmap" (JNum 1);
      do ext <- sentinel_or (JNum (dflt (a_ext a) 1%Z)) (JNum 1) out "@ext" (JNum 1);
      do format <- sentinel_or (JStr (dflt (a_format a) "notset")) (JStr "notset") out "@format" (JStr "pcraster");
      do tstart <- int_option (of_z (a_start a)) parconf "@tstart";
      do tend <- int_option (of_z (a_end a)) parconf "@tend";
      do dataTime <- int_option (of_z (a_dataTime a)) parconf "@dataTime";
      do dataDate <- int_option (of_z (a_dataDate a)) parconf "@dataDate";
      do level <- jget parconf "@level";
      do '(doaggr, astep, atype, ahalf, aforce) <- define_aggregation "@" true ex;
      do '(dem', clone', lat', lon') <- interpolate_all (e_uvars e) (if docorr then Some dem else None) clone lat lon;
      Ok {| x_loglevel := JStr (dflt (a_level a) "INFO"); x_input := of_s (a_input a);
            x_tstart := tstart; x_tend := tend; x_dataTime := dataTime; x_dataDate := dataDate;
            x_idirs_user := idir; x_gdirs_user := gdir; x_create := JBool (a_create a); x_parallel := JBool (a_parallel a);
            x_fmap := fmap; x_ext := ext; x_format := format; x_prefix := prefix; x_scale := scale; x_offset := offset;
            x_vmin := vmin; x_vmax := vmax; x_vformat := vformat; x_units := units;
            x_outDir := dflt (a_outDir a) "./"; x_member := of_z (a_member a); x_input2 := of_s (a_input2 a);
            x_doAggr := doaggr; x_doConv := k_do k; x_doCorr := docorr;
            x_short := short; x_descr := k_descr k; x_unit := k_unit k; x_convUnit := k_convUnit k;
            x_convFun := k_fun k; x_cutoff := k_cut k;
            x_formula := formula; x_gem := gem; x_dem := of_s dem';
            x_clone := JStr clone'; x_mode := mode; x_lat := JStr lat'; x_lon := JStr lon';
            x_unitTime := unitTime; x_level := level;
            x_astep := astep; x_atype := atype; x_ahalf := ahalf; x_aforce := aforce |}
    end
  end.

(** ** api.py:101-225: the context of the API; [c] is the parameter dictionary *)
Definition define_api_params (e : env) (c : json) : res ctx :=
  do level <- jget_d c "loggerLevel" (JStr "INFO");
  do input <- jitem c "inputFile";
  do tstart0 <- jitem c "start";
  do tend0 <- jitem c "end";
  do dataTime0 <- jget c "dataTime";
  do dataDate0 <- jget c "dataDate";
  do idir0 <- jget c "intertableDir";
  do gdir0 <- jget c "geopotentialDir";
  do create <- jget_d c "createIntertable" (JBool false);
  do parallel <- jget_d c "interpolationParallel" (JBool true);
  do fmap0 <- jget c "fmap";
  do ext0 <- jget c "ext";
  do prefix0 <- jget c "namePrefix";
  do scale0 <- jget c "scaleFactor";
  do offset0 <- jget c "offset";
  do vmin0 <- jget c "validMin";
  do vmax0 <- jget c "validMax";
  do vformat0 <- jget c "valueFormat";
  do units0 <- jget c "outputStepUnits";
  do member <- jget c "perturbationNumber";
  do input2 <- jget c "inputFile2";
  do parconf <- jitem c "Parameter";
  do short <- jitem parconf "shortName";
  do k <- define_conversion e "" parconf;
  do '(docorr, formula, gem, dem) <- define_correction "" parconf;
  do out <- jitem c "OutMaps";
  do clone <- jitem out "cloneMap";
  do ic <- jitem out "Interpolation";
  do mode <- jget_d ic "mode" (JStr "grib_nearest");
  do lat <- jitem ic "latMap";
  do lon <- jitem ic "lonMap";
  do unitTime <- jget out "unitTime";
  do prefix <- (if jtruthy prefix0 then Ok prefix0 else (do v <- jget out "namePrefix"; Ok (jor v short)));
  do scale <- opt_or scale0 out "scaleFactor" (JNum 1);
  do offset <- opt_or offset0 out "offset" (JNum 0);
  do vmin <- opt_get vmin0 out "validMin";
  do vmax <- opt_get vmax0 out "validMax";
  do vformat <- opt_get vformat0 out "valueFormat";
  do units <- opt_get units0 out "outputStepUnits";
  do fmap <- sentinel_or fmap0 (JNum 1) out "fmap" (JNum 1);
  do ext <- sentinel_or ext0 (JNum 1) out "ext" (JNum 1);
  do tstart <- int_option tstart0 parconf "tstart";
  do tend <- int_option tend0 parconf "tend";
  do dataTime <- int_option dataTime0 parconf "dataTime";
  do dataDate <- int_option dataDate0 parconf "dataDate";
  do plevel <- jget parconf "level";
  do '(doaggr, astep, atype, ahalf, aforce) <- define_aggregation "" false c;
  do '(dem', clone', lat', lon') <- interpolate_all (e_uvars e) (if docorr then Some dem else None) clone lat lon;
  Ok {| x_loglevel := level; x_input := input;
        x_tstart := tstart; x_tend := tend; x_dataTime := dataTime; x_dataDate := dataDate;
        x_idirs_user := jor idir0 (e_idir e); x_gdirs_user := jor gdir0 (e_gdir e);
        x_create := create; x_parallel := parallel;
        x_fmap := fmap; x_ext := ext; x_format := JNull; x_prefix := prefix; x_scale := scale; x_offset := offset;
        x_vmin := vmin; x_vmax := vmax; x_vformat := vformat; x_units := units;
        x_outDir := "./"; x_member := member; x_input2 := input2;
        x_doAggr := doaggr; x_doConv := k_do k; x_doCorr := docorr;
        x_short := short; x_descr := k_descr k; x_unit := k_unit k; x_convUnit := k_convUnit k;
        x_convFun := k_fun k; x_cutoff := k_cut k;
        x_formula := formula; x_gem := gem; x_dem := of_s dem';
        x_clone := JStr clone'; x_mode := mode; x_lat := JStr lat'; x_lon := JStr lon';
        x_unitTime := unitTime; x_level := plevel;
        x_astep := astep; x_atype := atype; x_ahalf := ahalf; x_aforce := aforce |}.

(** ** context.py:82-137 _check_exec_params (the branch of an execution) *)
Record fsys := mkFs { fs_file : string -> bool; fs_dir : string -> bool; fs_mkdir : string -> bool }.

Definition allowed_interp_methods : list string :=
  ["grib_nearest"; "grib_invdist"; "nearest"; "invdist"; "adw"; "cdd"; "bilinear"; "triangulation"; "bilinear_delaunay"].

(** [files.exists(x)]; a value that is not a path: os.path.exists raises *)
Definition exists_file (fs : fsys) (j : json) : res bool :=
  match j with
  | JStr s => Ok (fs_file fs s)
  | JNum _ | JBool _ => Raise OtherError            (* a file descriptor: not modelled *)
  | _ => Raise TypeError
  end.
Definition ends_with_slash (s : string) : bool := starts_with "/" (rev_string s).

(** context.py:108-115; the code of that exception is None, -1 here *)
Definition check_out_dir (fs : fsys) (d : string) : res string :=
  if String.eqb d "./" then Ok d
  else let d' := if ends_with_slash d then d else d +++ "/" in
       if fs_dir fs d' then Ok d' else if fs_mkdir fs d' then Ok d' else Raise (AppExc (-1)).

(** context.py:119-121 *)
Definition check_level (j : json) : res json :=
  if jtruthy j then
    match j with
    | JStr s => if isdigit s then (do z <- jint j; Ok (JNum z)) else Raise (AppExc 1400)
    | _ => Raise AttributeError
    end
  else Ok JNull.

(** [not a <= b] *)
Definition not_le (a b : json) : res bool :=
  match a, b with
  | JNum x, JNum y => Ok (negb (Z.leb x y))
  | JStr x, JStr y => Ok (negb (str_leb x y))
  | _, _ => Raise TypeError
  end.

Definition guard (b : bool) (c : Z) : res unit := if b then Ok tt else Raise (AppExc c).

Definition check_exec_params (fs : fsys) (x : ctx) : res ctx :=
  do _ <- guard (jtruthy (x_input x)) 1001;
  do b <- exists_file fs (x_input x);
  do _ <- guard b 1000;
  do blon <- exists_file fs (x_lon x);
  do blat <- (if blon then exists_file fs (x_lat x) else Ok true);
  do _ <- guard (blon && blat)%bool 1300;
  do bclone <- exists_file fs (x_clone x);
  do _ <- guard bclone 1310;
  do _ <- guard (match x_mode x with JStr m => str_mem m allowed_interp_methods | _ => false end) 8400;
  do out <- check_out_dir fs (x_outDir x);
  do level <- check_level (x_level x);
  do unitTime <- (if is_null (x_unitTime x) then Ok (JStr "24") else (do z <- jint (x_unitTime x); Ok (JNum z)));
  do bad <- (if (jtruthy (x_tstart x) && jtruthy (x_tend x))%bool then not_le (x_tstart x) (x_tend x) else Ok false);
  do _ <- guard (negb bad) 1500;
  do _ <- guard (negb (x_doCorr x) || (jtruthy (x_gem x) && jtruthy (x_dem x) && jtruthy (x_formula x)))%bool 4100;
  do bdem <- (if x_doCorr x then exists_file fs (x_dem x) else Ok true);
  do _ <- guard bdem 4200;
  Ok {| x_loglevel := x_loglevel x; x_input := x_input x;
        x_tstart := x_tstart x; x_tend := x_tend x; x_dataTime := x_dataTime x; x_dataDate := x_dataDate x;
        x_idirs_user := x_idirs_user x; x_gdirs_user := x_gdirs_user x; x_create := x_create x; x_parallel := x_parallel x;
        x_fmap := x_fmap x; x_ext := x_ext x; x_format := x_format x; x_prefix := x_prefix x; x_scale := x_scale x;
        x_offset := x_offset x; x_vmin := x_vmin x; x_vmax := x_vmax x; x_vformat := x_vformat x; x_units := x_units x;
        x_outDir := out; x_member := x_member x; x_input2 := x_input2 x;
        x_doAggr := x_doAggr x; x_doConv := x_doConv x; x_doCorr := x_doCorr x;
        x_short := x_short x; x_descr := x_descr x; x_unit := x_unit x; x_convUnit := x_convUnit x;
        x_convFun := x_convFun x; x_cutoff := x_cutoff x;
        x_formula := x_formula x; x_gem := x_gem x; x_dem := x_dem x;
        x_clone := x_clone x; x_mode := x_mode x; x_lat := x_lat x; x_lon := x_lon x;
        x_unitTime := unitTime; x_level := level;
        x_astep := x_astep x; x_atype := x_atype x; x_ahalf := x_ahalf x; x_aforce := x_aforce x |}.

(** context.py:180-193 ExecutionContext.__init__ for an execution (not a
    configuration command); api.py:87-99 ApiContext.__init__ *)
Definition execution_context (e : env) (fs : fsys) (a : cli) (cmd : option json) : res ctx :=
  do _ <- guard (cli_choices a) 10000;
  do x <- define_exec_params e a cmd; check_exec_params fs x.
Definition api_context (e : env) (fs : fsys) (c : json) : res ctx :=
  do x <- define_api_params e c; check_exec_params fs x.

(** ** context.py:145-175: selection of messages *)
Inductive selector := SVal (v : json) | SList (l : list json) | SFun (f : Z -> bool).
Definition selection := list (string * selector).

Definition opt_sel (k : string) (v : json) : selection := if is_null v then [] else [(k, SVal v)].

Definition select_cmd (x : ctx) (start_ end_ : Z) : res selection :=
  match x_short x with
  | JStr s =>
      Ok ([("shortName", SList [JStr s; JStr (upper s); JStr (s +++ "var")])]
          ++ opt_sel "level" (x_level x) ++ opt_sel "dataTime" (x_dataTime x) ++ opt_sel "dataDate" (x_dataDate x)
          ++ opt_sel "perturbationNumber" (x_member x)
          ++ (if Z.eqb start_ end_
              then [("endStep", SVal (JNum end_)); ("startStep", SVal (JNum start_))]
              else [("endStep", SFun (fun s => Z.leb s end_)); ("startStep", SFun (fun s => Z.leb start_ s))]))%list
  | _ => Raise AttributeError
  end.

(** context.py:170-175; [str(...)] of the short name *)
Definition select_cmd_attrs (x : ctx) : res selection :=
  match x_short x with
  | JStr s => Ok (("shortName", SVal (JStr s)) :: opt_sel "perturbationNumber" (x_member x))%list
  | _ => Raise AttributeError
  end.

(** readers/grib.py:57-70 _find on a message given by its keys. Equality of
    scalars; a function is only called on integers. *)
Definition jeq (a b : json) : bool :=
  match a, b with
  | JNum x, JNum y => Z.eqb x y
  | JStr x, JStr y => String.eqb x y
  | _, _ => false
  end.
Definition sel_match (s : selector) (v : json) : res bool :=
  match s with
  | SVal w => Ok (jeq v w)
  | SList l => Ok (existsb (jeq v) l)
  | SFun f => match v with JNum z => Ok (f z) | _ => Raise TypeError end
  end.
Fixpoint find (m : list (string * json)) (sel : selection) : res bool :=
  match sel with
  | [] => Ok true
  | (k, s) :: r => match dget String.eqb m k with
                   | None => Ok false
                   | Some v => do b <- sel_match s v; if b then find m r else Ok false
                   end
  end.
