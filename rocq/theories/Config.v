(** * Config: model of src/pyg2p/main/config.py.

    Not modelled: JSON and file-system libraries (file contents are JSON values
    or property texts: see Json.v for the text), logging, the GlobalConf singleton.
    FTP download, check_conf: Store.v. *)
From Verif Require Import Base PyStr Writers.
Local Open Scope string_scope.

(** JSON values as produced by [json.load] (numbers: integers only) *)
Inductive json : Type :=
| JNull | JBool (b : bool) | JNum (z : Z) | JStr (s : string)
| JArr (l : list json) | JObj (d : list (string * json)).

(** Python truth value *)
Definition jtruthy (j : json) : bool :=
  match j with
  | JNull => false | JBool b => b | JNum z => negb (Z.eqb z 0) | JStr s => negb (String.eqb s "")
  | JArr l => match l with [] => false | _ => true end
  | JObj d => match d with [] => false | _ => true end
  end.

(** ** Properties files: config.py:55-63 UserConfiguration.load_properties *)
Definition is_newline (c : ascii) : bool := (Nat.eqb (code c) 10 || Nat.eqb (code c) 13)%bool.
(** [.strip('QUOTE TAB')]: double quotes, blanks and tabs *)
Definition is_vstrip (c : ascii) : bool := (Nat.eqb (code c) 34 || Nat.eqb (code c) 32 || Nat.eqb (code c) 9)%bool.
Definition is_eq (c : ascii) : bool := Nat.eqb (code c) 61.

Definition load_line (props : list (string * string)) (line : string) : res (list (string * string)) :=
  let line := strip_ws line in
  if (negb (String.eqb line "") && negb (starts_with "#" line))%bool then
    match split_on is_eq line with
    | k :: v :: _ => Ok (dset String.eqb props (strip_ws k) (strip is_vstrip v))
    | _ => Raise IndexError
    end
  else Ok props.
(** iterating over a text file in universal newline mode *)
Definition load_properties (text : string) : res (list (string * string)) :=
  foldM load_line (split_on is_newline text) [].

(** config.py:43-47: all .conf files of ~/.pyg2p, in the order of os.listdir *)
Definition load_all (texts : list string) : res (list (string * string)) :=
  foldM (fun vars t => do p <- load_properties t; Ok (dupdate String.eqb vars p)) texts [].

(** ** Variables in paths: config.py:65-81 interpolate_strings *)
Definition is_word1 (c : ascii) : bool := (is_upper c || is_lower c || Nat.eqb (code c) 95)%bool.
Definition is_brace_open (c : ascii) : bool := Nat.eqb (code c) 123.
Definition is_brace_close (c : ascii) : bool := Nat.eqb (code c) 125.

(** [re_var.search(s)]: is there a brace, one or more letters or underscores, a
    closing brace? [mode]: [None] outside a brace, [Some b] after a brace and
    (b) at least one letter. *)
Fixpoint has_var_go (mode : option bool) (s : string) : bool :=
  match s with
  | EmptyString => false
  | String c s' =>
      if is_brace_open c then has_var_go (Some false) s'
      else match mode with
           | None => has_var_go None s'
           | Some some_letter =>
               if is_word1 c then has_var_go (Some true) s'
               else if (is_brace_close c && some_letter)%bool then true
               else has_var_go None s'
           end
  end.
Definition has_var (s : string) : bool := has_var_go None s.

(** [s.format( **vars)]. A field with an attribute, an index, a conversion or a
    format specification (one of . [ ! :) is not modelled and gives OtherError;
    an empty or numeric one IndexError, whatever the variables; other fields are
    looked up as they are. *)
Inductive fmode := FOut | FOpen | FIn (acc : string) | FClose.
Definition is_field_syntax (c : ascii) : bool :=
  (Nat.eqb (code c) 46 || Nat.eqb (code c) 91 || Nat.eqb (code c) 33 || Nat.eqb (code c) 58)%bool.
Definition field_value (vars : list (string * string)) (name : string) : res string :=
  match name with
  | EmptyString => Raise IndexError
  | String _ _ =>
      if sforall is_digit name then Raise IndexError
      else if sforall (fun c => negb (is_field_syntax c)) name then
        match dget String.eqb vars name with Some v => Ok v | None => Raise KeyError end
      else Raise OtherError
  end.
Fixpoint format_go (vars : list (string * string)) (m : fmode) (s : string) : res string :=
  match s with
  | EmptyString => match m with FOut => Ok "" | _ => Raise ValueError end
  | String c s' =>
      match m with
      | FOut => if is_brace_open c then format_go vars FOpen s'
                else if is_brace_close c then format_go vars FClose s'
                else do r <- format_go vars FOut s'; Ok (String c r)
      | FOpen => if is_brace_open c then (do r <- format_go vars FOut s'; Ok (String c r))
                 else if is_brace_close c then (do v <- field_value vars ""; do r <- format_go vars FOut s'; Ok (v +++ r))
                 else format_go vars (FIn (String c "")) s'
      | FIn acc => if is_brace_close c
                   then (do v <- field_value vars acc; do r <- format_go vars FOut s'; Ok (v +++ r))
                   else if is_brace_open c then Raise ValueError
                   else format_go vars (FIn (acc +++ String c "")) s'
      | FClose => if is_brace_close c then (do r <- format_go vars FOut s'; Ok (String c r))
                  else Raise ValueError
      end
  end.
Definition str_format (vars : list (string * string)) (s : string) : res string := format_go vars FOut s.

(** config.py:75-81 for one configuration string *)
Definition interpolate_string (vars : list (string * string)) (s : string) : res string :=
  if has_var s then
    do r <- str_format vars s;
    if has_var r then Raise (AppExc 8000) else Ok r
  else Ok s.

(** ** JSON configurations *)

(** content of a configuration file; [None]: not valid JSON *)
Definition jfile := option json.

(** config.py:131-140 _load: JSON errors become 8200 *)
Definition conf_load (f : jfile) : res json :=
  match f with Some j => Ok j | None => Raise (AppExc 8200) end.

(** [self.vars.update(user_vars)] *)
Definition vars_update (vars : list (string * json)) (u : json) : res (list (string * json)) :=
  match u with
  | JObj d => Ok (dupdate String.eqb vars d)
  | JStr s => if String.eqb s "" then Ok vars else Raise ValueError
  | JArr [] => Ok vars
  | JArr _ => Raise OtherError
  | JNull | JBool _ | JNum _ => Raise TypeError
  end.

(** config.py:142-145 dump: an empty (falsy) [user_vars] is replaced by the
    string of two braces, then [json.dumps(..., sort_keys=True)] (nested
    objects keep their order here) *)
Definition conf_dump (user_vars : json) : jfile :=
  if jtruthy user_vars
  then match user_vars with
       | JObj d => Some (JObj (sort_str fst d))
       | j => Some j
       end
  else Some (JStr "{}").

Record conf := { c_vars : list (string * json); c_user : json; c_file : jfile }.

(** config.py:120-129 merge_with_user_conf; [file = None] when the user has no
    configuration file *)
Definition merge_with_user_conf (global : list (string * json)) (description : string)
    (init_dict : list (string * json)) (file : option jfile) : res conf :=
  match file with
  | None =>
      let user := dupdate String.eqb [("description", JStr description)] init_dict in
      do vars <- vars_update global (JObj user);
      Ok {| c_vars := vars; c_user := JObj user; c_file := conf_dump (JObj user) |}
  | Some f =>
      do user <- conf_load f;
      do vars <- vars_update global user;
      Ok {| c_vars := vars; c_user := user; c_file := f |}
  end.

(** ** Parameters: config.py:207-221 *)
Definition param_get (vars : list (string * json)) (short_name : string) : res json :=
  match dget String.eqb vars short_name with
  | Some p => if jtruthy p then Ok p else Raise (AppExc 1100)
  | None => Raise (AppExc 1100)
  end.

(** [x[key]] on a JSON value *)
Definition jitem (j : json) (key : string) : res json :=
  match j with
  | JObj d => dgetx String.eqb d key
  | _ => Raise TypeError
  end.
(** [x == id_] for a string [id_] *)
Definition jis (j : json) (s : string) : bool :=
  match j with JStr t => String.eqb t s | _ => false end.

Fixpoint find_conversion (l : list json) (id_ : string) : res (option json) :=
  match l with
  | [] => Ok None
  | c :: l' => do i <- jitem c "@id"; if jis i id_ then Ok (Some c) else find_conversion l' id_
  end.
Definition conversion_not_found (parameter : list (string * json)) : res json :=
  do _ <- dgetx String.eqb parameter "@shortName"; Raise (AppExc 1200).
Definition get_conversion (parameter : list (string * json)) (id_ : string) : res json :=
  match dget String.eqb parameter "Conversion" with
  | Some (JArr l) => do r <- find_conversion l id_;
                     match r with Some c => Ok c | None => conversion_not_found parameter end
  | Some (JObj d) => do i <- dgetx String.eqb d "@id";
                     if jis i id_ then Ok (JObj d) else conversion_not_found parameter
  | _ => conversion_not_found parameter
  end.

(** ** Geopotentials *)

(** [os.path.basename] *)
Definition basename (p : string) : string :=
  List.last (split_on (fun c => Nat.eqb (code c) 47) p) "".

(** config.py:253-269 get_filepath. [isfile]: file_util.exists;
    [data_path], [global_path], [additional] are [None] when undefined or
    empty. *)
Fixpoint first_existing (isfile : string -> bool) (folders : list (option string)) (filename : string) : option string :=
  match folders with
  | [] => None
  | Some f :: r => if (negb (String.eqb f "") && isfile (path_join f filename))%bool
                   then Some (path_join f filename) else first_existing isfile r filename
  | None :: r => first_existing isfile r filename
  end.
Definition get_filepath (isfile : string -> bool) (data_path global_path additional : option string)
    (vars : list (string * string)) (grid_id : string) : res string :=
  match dget String.eqb vars grid_id with
  | None => Raise (AppExc 4000)
  | Some filename =>
      if String.eqb filename "" then Raise (AppExc 4000)
      else match first_existing isfile [additional; data_path; global_path] filename with
           | Some p => Ok p
           | None => Raise (AppExc 4200)
           end
  end.

(** Geopotential registry. [g_fs]: the GRIB files of the file system with the
    grid identifier each contains; [g_file]: content of the user configuration
    file, [None] when it holds the string of two braces written by [dump] for
    an empty configuration. *)
Record geo := { g_vars : list (string * string); g_user : list (string * string);
                g_file : option (list (string * string)); g_fs : list (string * string) }.
Record geo_env := { ge_global : list (string * string); ge_data : string; ge_global_path : option string;
                    ge_isdir : bool; ge_writable : bool }.

(** config.py:142-145 *)
Definition geo_dump (user : list (string * string)) : option (list (string * string)) :=
  match user with [] => None | _ => Some (sort_str fst user) end.

(** a new process: config.py:94-129 *)
Definition geo_reload (e : geo_env) (g : geo) : res geo :=
  match g_file g with
  | None => Raise ValueError
  | Some u => Ok {| g_vars := dupdate String.eqb (ge_global e) u; g_user := u; g_file := g_file g; g_fs := g_fs g |}
  end.

(** config.py:231-244 add (with check_write, 147-154); [OtherError]: the
    file is not a readable GRIB, or it already is the file of the data folder *)
Definition geo_add (e : geo_env) (g : geo) (filepath : string) : res geo :=
  match dget String.eqb (g_fs g) filepath with
  | None => Raise OtherError
  | Some id_ =>
      if dmem String.eqb (g_vars g) id_ then Raise (AppExc 8300)
      else
        let name := basename filepath in
        if String.eqb (ge_data e) "" then Raise (AppExc 8000)
        else if negb (ge_isdir e) then Raise (AppExc 8600)
        else if negb (ge_writable e) then Raise (AppExc 8500)
        else
          (* shutil.copy refuses to copy a file over itself *)
          if String.eqb filepath (path_join (ge_data e) name) then Raise OtherError else
          let fs := dset String.eqb (g_fs g) (path_join (ge_data e) name) id_ in
          let user := dset String.eqb (g_user g) id_ name in
          Ok {| g_vars := g_vars g; g_user := user; g_file := geo_dump user; g_fs := fs |}
  end.

(** config.py:246-251 remove: the first entry with that file name *)
Fixpoint key_of (d : list (string * string)) (v : string) : option string :=
  match d with
  | [] => None
  | (k, v') :: d' => if String.eqb v' v then Some k else key_of d' v
  end.
Definition geo_remove (g : geo) (filename : string) : geo :=
  match key_of (g_user g) filename with
  | None => g
  | Some k => let user := ddel String.eqb (g_user g) k in
              {| g_vars := g_vars g; g_user := user; g_file := geo_dump user; g_fs := g_fs g |}
  end.

Definition geo_lookup (e : geo_env) (g : geo) (additional : option string) (grid_id : string) : res string :=
  get_filepath (fun p => dmem String.eqb (g_fs g) p) (Some (ge_data e)) (ge_global_path e) additional (g_vars g) grid_id.
