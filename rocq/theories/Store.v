(** * Store: what pyg2p keeps on disk between runs.

    Models, from src/pyg2p/main/config.py, the life of a user configuration
    file (merge_with_user_conf 120-129, _load 131-140, dump 142-145) at the level
    of its text, with processes that are killed at any point or that run at the
    same time; Configuration.download_data (311-332); Configuration.check_conf
    (334-358); and ls of src/pyg2p/util/files.py:7-11.

    Not modelled: log messages other than the file names check_conf reports, the
    FTP protocol (a remote folder is a list of names with contents). *)
From Verif Require Import Base PyStr Writers Config Json Interp.
Local Open Scope string_scope.

(** ** A configuration file *)

(** config.py:143-145: the text that [dump] writes *)
Definition conf_text (user_vars : json) : string :=
  dumps (if jtruthy user_vars then user_vars else JStr "{}").

(** what a process does with its user variables between two dumps: an entry is
    assigned (config.py:243; interpolation/__init__.py registers tables the same
    way) or deleted (config.py:249, 357) *)
Inductive change := Put (k : string) (v : json) | Del (k : string).
Definition apply_change (user_vars : json) (c : change) : res json :=
  match user_vars with
  | JObj d => Ok (JObj (match c with Put k v => dset String.eqb d k v | Del k => ddel String.eqb d k end))
  | _ => Raise TypeError
  end.

(** config.py:120-140: a new process reads the file. [inl user]: there is no
    file and the initial variables have to be dumped; [inr user]: loaded *)
Definition conf_start (init : json) (file : option string) : res (json + json) :=
  match file with
  | None => Ok (inl init)
  | Some text =>
      do user <- conf_load (loads text);
      do _ <- vars_update [] user;
      Ok (inr user)
  end.

(** *** one process at a time, killed at any point *)

(** where a process is killed during a dump: before [open(.., 'w')], or after
    it (the file is then empty) when [n] characters have reached the file *)
Inductive stage := NotOpened | Written (n : nat).
Definition killed_dump (file : option string) (user_vars : json) (st : stage) : option string :=
  match st with
  | NotOpened => file
  | Written n => Some (stake n (conf_text user_vars))
  end.

Inductive outcome := Done | Killed | Error (e : exn).
(** [kill = Some (i, st)]: the process is killed in its [i]-th dump *)
Fixpoint do_changes (file : option string) (user : json) (cs : list change) (kill : option (nat * stage)) : option string * outcome :=
  match cs with
  | [] => (file, Done)
  | c :: cs' =>
      match apply_change user c with
      | Raise e => (file, Error e)
      | Ok user' =>
          match kill with
          | Some (O, st) => (killed_dump file user' st, Killed)
          | Some (S i, st) => do_changes (Some (conf_text user')) user' cs' (Some (i, st))
          | None => do_changes (Some (conf_text user')) user' cs' None
          end
      end
  end.
Definition session (init : json) (file : option string) (cs : list change) (kill : option (nat * stage)) : option string * outcome :=
  match conf_start init file with
  | Raise e => (file, Error e)
  | Ok (inl user) =>
      match kill with
      | Some (O, st) => (killed_dump file user st, Killed)
      | Some (S i, st) => do_changes (Some (conf_text user)) user cs (Some (i, st))
      | None => do_changes (Some (conf_text user)) user cs None
      end
  | Ok (inr user) => do_changes file user cs kill
  end.
(** the file after a history of sessions *)
Definition sessions (init : json) (file : option string) (h : list (list change * option (nat * stage))) : option string :=
  fold_left (fun f s => fst (session init f (fst s) (snd s))) h file.

(** *** several processes at the same time *)
Inductive pstate := Idle | Ready (user : json) | Pending (user : json) | Opened (user : json) | Dead (e : exn).
(** the steps of a process: [Begin]: config.py:120-140; [Do]: a change, after
    which [dump] is due; [OpenW]: [open(self.config_file, 'w')]; [WriteW]: the
    text is written and the file closed. The first dump of [Begin] also goes
    through [OpenW] and [WriteW]. Steps are atomic; the text is written by one
    step (CPython buffers a text of this size and writes it on close). *)
Inductive act := Begin | Do (c : change) | OpenW | WriteW.
(** writing from offset 0 into a file that is no longer empty *)
Definition overlay (old new : string) : string := new +++ sdrop (String.length new) old.

Record machine := { m_file : option string; m_procs : nat -> pstate }.
Definition upd (f : nat -> pstate) (p : nat) (s : pstate) : nat -> pstate := fun q => if Nat.eqb q p then s else f q.
Definition mstep (init : json) (m : machine) (ev : nat * act) : machine :=
  let p := fst ev in
  match snd ev, m_procs m p with
  | Begin, Idle =>
      {| m_file := m_file m;
         m_procs := upd (m_procs m) p (match conf_start init (m_file m) with
                                       | Raise e => Dead e
                                       | Ok (inl u) => Pending u
                                       | Ok (inr u) => Ready u
                                       end) |}
  | Do c, Ready u =>
      {| m_file := m_file m;
         m_procs := upd (m_procs m) p (match apply_change u c with Ok u' => Pending u' | Raise e => Dead e end) |}
  | OpenW, Pending u => {| m_file := Some ""; m_procs := upd (m_procs m) p (Opened u) |}
  | WriteW, Opened u =>
      {| m_file := Some (overlay (match m_file m with Some t => t | None => "" end) (conf_text u));
         m_procs := upd (m_procs m) p (Ready u) |}
  | _, _ => m
  end.
Definition mrun (init : json) (m : machine) (sched : list (nat * act)) : machine := fold_left (mstep init) sched m.

(** ** config.py:311-332 download_data *)
Definition fstore := list (string * string).
Record remote := { r_names : list string;              (* [client.nlst()] *)
                   r_content : string -> option string (* [RETR]; [None]: refused *) }.
Record download_env := {
  dl_geopotentials : option string;           (* user variable GEOPOTENTIALS *)
  dl_intertables : option string;             (* user variable INTERTABLES *)
  dl_folder : option string;                  (* folder of ftp.json *)
  dl_remote : string -> option remote;        (* [client.cwd]; [None]: refused *)
  dl_open : string -> option exn              (* why a new local file cannot be opened *)
}.
(** where an attempt ends early: at the [i]-th name of the list, before its file
    is opened, or after [n] bytes of it have been stored *)
Inductive cut := Cut (i : nat) (st : stage).

Definition no_data (f : string) : bool := existsb (String.eqb f) ["."; ".."; "readme.txt"].
(** the body of the loop, 321-330 *)
Definition fetch (e : download_env) (r : remote) (local_path : option string) (st : option stage) (fs : fstore) (f : string) : fstore * res unit :=
  match st with
  | Some NotOpened => (fs, Raise OtherError)
  | _ =>
  if no_data f then (fs, Ok tt)
  else match local_path with
  | None => (fs, Raise TypeError)
  | Some dir =>
      let p := path_join dir f in
      if dmem String.eqb fs p then (fs, Ok tt)
      else match dl_open e p with
      | Some ex => (fs, Raise ex)
      | None =>
          match r_content r f, st with
          | None, _ => (dset String.eqb fs p "", Raise OtherError)
          | Some text, Some (Written n) => (dset String.eqb fs p (stake n text), Raise OtherError)
          | Some text, _ => (dset String.eqb fs p text, Ok tt)
          end
      end
  end end.
Fixpoint fetch_all (e : download_env) (r : remote) (local_path : option string) (c : option cut) (fs : fstore) (names : list string) : fstore * res unit :=
  match names with
  | [] => (fs, Ok tt)
  | f :: names' =>
      let here := match c with Some (Cut O st) => Some st | _ => None end in
      let later := match c with Some (Cut (S i) st) => Some (Cut i st) | _ => None end in
      match fetch e r local_path here fs f with
      | (fs', Ok _) => fetch_all e r local_path later fs' names'
      | (fs', Raise ex) => (fs', Raise ex)
      end
  end.
Definition download_data (e : download_env) (dataset : string) (c : option cut) (fs : fstore) : fstore * res unit :=
  (* getattr(self.user, f'{dataset}_path') *)
  let path := if String.eqb dataset "geopotentials" then Ok (dl_geopotentials e)
              else if String.eqb dataset "intertables" then Ok (dl_intertables e)
              else Raise AttributeError in
  match path with
  | Raise ex => (fs, Raise ex)
  | Ok local_path =>
      match dl_folder e with
      | None => (fs, Raise TypeError)
      | Some folder =>
          match dl_remote e (path_join folder dataset) with
          | None => (fs, Raise OtherError)
          | Some r => fetch_all e r local_path c fs (r_names r)
          end
      end
  end.
(** the local files after a history of attempts *)
Definition downloads (e : download_env) (dataset : string) (fs : fstore) (h : list (option cut)) : fstore :=
  fold_left (fun fs c => fst (download_data e dataset c fs)) h fs.

(** ** config.py:334-358 check_conf *)
Record check_env := {
  ck_listdir : option string -> res (list string); (* os.listdir; [None]: the working directory *)
  ck_isdir : string -> bool;                       (* os.path.isdir *)
  ck_isfile : string -> bool                       (* file_util.exists *)
}.
(** files.py:25-26 is_dir *)
Definition is_dir (e : check_env) (p : string) : bool :=
  (ck_isdir e p && negb (existsb (String.eqb p) ["."; ".."; "./"; "../"]))%bool.
(** files.py:7-11 ls, with an extension. The bare name is tested, so relative to
    the working directory; [os.path.join(None, f)] is a TypeError *)
Definition ls (e : check_env) (path : option string) (extension : string) : res (list string) :=
  do names <- ck_listdir e path;
  let kept := filter (fun f => negb (is_dir e f) && ends_with extension f)%bool names in
  match path with
  | Some dir => Ok (map (path_join dir) kept)
  | None => match kept with [] => Ok [] | _ => Raise TypeError end
  end.

Record tables := { tb_vars : list (string * json); tb_user : list (string * json);
                   tb_data : option string; tb_global : option string }.

(** [name in values] for a list of JSON values *)
Definition named (values : list json) (name : string) : bool := existsb (fun v => jis v name) values.

(** the loop of 352-357: the entries that stay *)
Fixpoint keep_existing (e : check_env) (data : option string) (all : list (string * json)) (user : list (string * json)) : res (list (string * json)) :=
  match all with
  | [] => Ok user
  | (k, i) :: all' =>
      do f <- jitem i "filename";
      match data, f with
      | Some dir, JStr name =>
          keep_existing e data all' (if ck_isfile e (path_join dir name) then user else ddel String.eqb user k)
      | _, _ => Raise TypeError
      end
  end.
(** result: the files reported for tables and for geopotentials, the user
    variables of the tables and the text of intertables.json *)
Definition check_conf (e : check_env) (t g : tables) : res (list string * list string * list (string * json) * string) :=
  do used_t <- mapM (fun i => jitem i "filename") (dvals (tb_vars t));
  let used_g := dvals (tb_vars g) in
  do lt <- ls e (tb_data t) "npy";
  do lt' <- ls e (tb_global t) "npy";
  do lg <- ls e (tb_data g) "npy";
  do lg' <- ls e (tb_global g) "npy";
  let rep_t := filter (fun f => negb (named used_t (basename f))) (lt ++ lt') in
  let rep_g := filter (fun f => negb (named used_g (basename f))) (lg ++ lg') in
  do user <- keep_existing e (tb_data t) (tb_user t) (tb_user t);
  Ok (rep_t, rep_g, user, conf_text (JObj user)).
