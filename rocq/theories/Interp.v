(** * Interp: interpolation tables on disk, in the configuration and in memory
    (src/pyg2p/main/interpolation/__init__.py:20-260, 372-395), identifiers of
    grids and targets (readers/pcr.py:41-42, readers/netcdf.py:73-76,
    interpolation/latlong.py:17-45), application of scipy tables
    (__init__.py:142-161).

    Not modelled: logging, the DEBUG branches (constants False), the shape
    fields of a configuration entry, gzip and numpy file contents (a file holds
    the request its table was built for, or is truncated). *)
From Verif Require Import Base Num PyStr Writers Config GribInterp Reader.
Local Open Scope string_scope.

(** ** Paths *)
Definition is_slash (c : ascii) : bool := Nat.eqb (code c) 47.
(** [os.path.normpath]: the components kept, last first *)
Definition norm_comp (slashes : bool) (acc : list string) (comp : string) : list string :=
  if (String.eqb comp "" || String.eqb comp ".")%bool then acc
  else if negb (String.eqb comp "..") then comp :: acc
  else match acc with
       | [] => if slashes then [] else [comp]
       | last :: r => if String.eqb last ".." then comp :: acc else r
       end.
Definition initial_slashes (path : string) : string :=
  if negb (starts_with "/" path) then ""
  else if (starts_with "//" path && negb (starts_with "///" path))%bool then "//" else "/".
Definition normpath (path : string) : string :=
  if String.eqb path "" then "."
  else let s := initial_slashes path in
       let comps := rev (fold_left (norm_comp (negb (String.eqb s ""))) (split_on is_slash path) []) in
       let p := s +++ join "/" comps in
       if String.eqb p "" then "." else p.
(** [s.endswith(p)] *)
Definition ends_with (p s : string) : bool := starts_with (rev_string p) (rev_string s).

(** ** Requests: what identifies a table, __init__.py:24-26, 71, 45-48 *)
Definition suffixes : list (string * string) :=
  [("grib_nearest", "grib_nearest"); ("grib_invdist", "grib_invdist"); ("nearest", "scipy_nearest"); ("invdist", "scipy_invdist");
   ("adw", "scipy_adw"); ("cdd", "scipy_cdd"); ("bilinear", "scipy_bilinear"); ("triangulation", "scipy_triangulation");
   ("bilinear_delaunay", "scipy_bilinear_delaunay")].
Definition suffix_of (mode : string) : string := match dget String.eqb suffixes mode with Some s => s | None => "" end.
Definition is_grib_mode (mode : string) : bool := starts_with "grib_" mode.
(** the grid and target identifiers, the mode, the normalised input file name
    and the number of target cells *)
Record request := mkReq { q_grid : string; q_target : string; q_mode : string; q_source : string; q_size : Z }.
(** line 71 *)
Definition table_id (r : request) : string :=
  "I" +++ replace "$" "_" (q_grid r) +++ "_" +++ q_target r +++ suffix_of (q_mode r).
(** line 27 and 45-48: [prognum] *)
Definition table_name (r : request) (prognum : string) : string :=
  "tbl" +++ prognum +++ "_" +++ q_source r +++ "_" +++ str_of_Z (q_size r) +++ "_" +++ suffix_of (q_mode r) +++ ".npy.gz".

(** ** The world *)
(** content of a table file: the request it was built for; [None]: truncated *)
Definition content := option request.
Record disk := mkDisk { d_files : list (string * content); d_user : list (string * string) }.
(** a process: intertables_config.vars, intertables_config.user_vars (id to
    file name), _LOADED_INTERTABLES, directory of the user (empty: none, or the
    empty string; when it is None [e_write] fails, as the path of the
    configuration is then missing too) *)
Record proc := mkProc { p_vars : list (string * string); p_user : list (string * string);
                        p_cache : list (string * content); p_dir : string }.
(** constant environment: global configuration and directory, the --create
    option, the outcome of check_write *)
Record env := mkEnv { e_global : list (string * string); e_gdir : string; e_create : bool; e_write : res unit }.

Definition exists_file (d : disk) (p : string) : bool := dmem String.eqb (d_files d) p.
Definition full_path (dir name : string) : string := normpath (path_join dir name).
(** config.py:94-129 *)
Definition start (e : env) (d : disk) (dir : string) : proc :=
  mkProc (dupdate String.eqb (e_global e) (d_user d)) (d_user d) [] dir.

(** lines 76-84: the loop over names; [None]: fuel exhausted *)
Definition prognum (i : nat) : string := match i with O => "" | S _ => "_" +++ str_of_Z (Z.of_nat i) end.
Fixpoint fresh_name (fuel : nat) (d : disk) (dir : string) (r : request) (i : nat) : option string :=
  match fuel with
  | O => None
  | S fuel' => let p := full_path dir (table_name r (prognum i)) in
               if exists_file d p then fresh_name fuel' d dir r (S i) else Some p
  end.
(** lines 70-105 _intertable_filename. [OtherError]: the loop never ends. *)
Definition intertable_filename (e : env) (d : disk) (p : proc) (r : request) : res string :=
  match dget String.eqb (p_vars p) (table_id r) with
  | None =>
      if negb (e_create e) then Raise (AppExc 8100)
      else do _ <- e_write e;
           match fresh_name (S (List.length (d_files d))) d (p_dir p) r 0 with
           | Some path => Ok path
           | None => Raise OtherError
           end
  | Some filename =>
      let user := full_path (p_dir p) filename in
      (* lines 87-90: without a directory of the user only the global one is searched *)
      if (negb (String.eqb (p_dir p) "") && (exists_file d user || exists_file d (user +++ ".gz")))%bool then Ok user
      else let glob := full_path (e_gdir e) filename in
           if (exists_file d glob || exists_file d (glob +++ ".gz"))%bool then Ok glob
           else if negb (e_create e) then Raise (AppExc 8100)
           else do _ <- e_write e;
                Ok (if ends_with ".gz" user then user else user +++ ".gz")
  end.

(** np.load of a file *)
Definition load (d : disk) (path : string) : res content :=
  match dget String.eqb (d_files d) path with
  | None => Raise FileNotFoundError
  | Some None => Raise OtherError
  | Some c => Ok c
  end.
(** lines 107-129 _read_intertable *)
Definition read_intertable (d : disk) (p : proc) (path : string) : res (content * proc) :=
  match dget String.eqb (p_cache p) path with
  | Some c => Ok (c, p)
  | None =>
      do c <- (if ends_with ".gz" path then load d path
               else match load d path with
                    | Raise FileNotFoundError =>
                        if exists_file d (path +++ ".gz") then load d (path +++ ".gz") else Raise (AppExc 8100)
                    | x => x
                    end);
      Ok (c, mkProc (p_vars p) (p_user p) (dset String.eqb (p_cache p) path c) (p_dir p))
  end.

(** np.save(name): appends .npy *)
Definition saved_as (path : string) : string :=
  if ends_with ".gz" path then path else if ends_with ".npy" path then path else path +++ ".npy".
(** lines 249-255, 296-301, 350-355 *)
Definition save_table (d : disk) (path : string) (c : content) : disk :=
  mkDisk (dset String.eqb (d_files d) (saved_as path) c) (d_user d).
(** lines 372-384 update_intertable_conf *)
Definition register (d : disk) (p : proc) (r : request) (path : string) : disk * proc :=
  let name := basename path in
  let user := dset String.eqb (p_user p) (table_id r) name in
  (mkDisk (d_files d) user,
   mkProc (dset String.eqb (p_vars p) (table_id r) name) user (dset String.eqb (p_cache p) path (Some r)) (p_dir p)).

(** lines 219-224, 287-289, 334-336: is there a table to read? *)
Definition table_found (d : disk) (r : request) (path : string) : bool :=
  if is_grib_mode (q_mode r) then exists_file d path
  else (exists_file d path || exists_file d (path +++ ".gz"))%bool.

(** One interpolation: lines 196-260, 270-312, 314-371. The values are not
    modelled here, only which table is applied. For the grib modes: the message
    (or the auxiliary message set for this purpose) is available. *)
Definition interpolate (e : env) (d : disk) (p : proc) (r : request) : res (disk * proc * content) :=
  do path <- intertable_filename e d p r;
  if table_found d r path then
    do '(c, p') <- read_intertable d p path; Ok (d, p', c)
  else if e_create e then
    do _ <- e_write e;
    let '(d', p') := register (save_table d path (Some r)) p r path in
    Ok (d', p', Some r)
  else Raise (AppExc 8100).

(** ** Histories: processes one after the other, which may crash while they
    create a table *)
Inductive crash := BeforeSave | WhileSaving | AfterSave.
Inductive event := Start (dir : string) | Use (r : request) | Crash (r : request) (c : crash).
Record state := mkState { s_disk : disk; s_proc : option proc }.
(** what a crash leaves on disk *)
Definition crashed (e : env) (d : disk) (p : proc) (r : request) (c : crash) : disk :=
  match intertable_filename e d p r with
  | Raise _ => d
  | Ok path =>
      if table_found d r path then d
      else match c with
           | BeforeSave => d
           | WhileSaving => save_table d path None
           | AfterSave => save_table d path (Some r)
           end
  end.
(** the new state and, for [Use], the request and the table it got *)
Definition step (e : env) (s : state) (ev : event) : state * option (request * res content) :=
  match ev, s_proc s with
  | Start dir, _ => (mkState (s_disk s) (Some (start e (s_disk s) dir)), None)
  | Use r, Some p =>
      match interpolate e (s_disk s) p r with
      | Ok (d', p', c) => (mkState d' (Some p'), Some (r, Ok c))
      | Raise x => (s, Some (r, Raise x))
      end
  | Crash r c, Some p => (mkState (crashed e (s_disk s) p r c) None, None)
  | _, None => (s, None)
  end.
Fixpoint run (e : env) (s : state) (evs : list event) : state * list (request * res content) :=
  match evs with
  | [] => (s, [])
  | ev :: r => let '(s', o) := step e s ev in
               let '(s'', os) := run e s' r in
               (s'', match o with Some x => x :: os | None => os end)
  end.

(** ** Two processes at the same time: each one looks for a name, saves the
    table and registers it, in three steps *)
Inductive action := Choose | Save | Register.
Record worker := mkWorker { w_proc : proc; w_req : request; w_path : option string }.
Definition act (e : env) (d : disk) (w : worker) (a : action) : disk * worker :=
  match a with
  | Choose => match intertable_filename e d (w_proc w) (w_req w) with
              | Ok path => if table_found d (w_req w) path then (d, w) else (d, mkWorker (w_proc w) (w_req w) (Some path))
              | Raise _ => (d, w)
              end
  | Save => match w_path w with Some path => (save_table d path (Some (w_req w)), w) | None => (d, w) end
  | Register => match w_path w with
                | Some path => let '(d', p') := register d (w_proc w) (w_req w) path in (d', mkWorker p' (w_req w) (w_path w))
                | None => (d, w)
                end
  end.
(** a schedule: [true] is a step of the first process *)
Fixpoint race (e : env) (d : disk) (w1 w2 : worker) (sched : list (bool * action)) : disk :=
  match sched with
  | [] => d
  | (true, a) :: r => let '(d', w1') := act e d w1 a in race e d' w1' w2 r
  | (false, a) :: r => let '(d', w2') := act e d w2 a in race e d' w1 w2' r
  end.

(** ** Identifiers *)
(** [int(x)] of a finite float *)
Definition trunc (q : Qc) : Z := Z.quot (Qnum (this q)) (Zpos (Qden (this q))).
(** [f'{x:.2f}'] *)
Definition digits2 (z : Z) : string := let s := str_of_Z z in srepeat "0"%char (2 - String.length s) +++ s.
Definition fmt2 (q : Qc) : string :=
  let n := around (q * ZQ 100)%Qc in let a := Z.abs n in
  (if Qc_ltb q 0 then "-" else "") +++ str_of_Z (a / 100) +++ "." +++ digits2 (a mod 100).

(** readers/pcr.py:18-29: geometry and extremes of a map (finite), its cells *)
Record pcr_map := mkPcr { m_x : Qc; m_y : Qc; m_w : Qc; m_h : Qc; m_min : Qc; m_max : Qc; m_cells : list Qc }.
(** pcr.py:41-42 *)
Definition pcr_identifier (m : pcr_map) : string :=
  str_of_Z (trunc (m_x m)) +++ "_" +++ str_of_Z (trunc (m_y m)) +++ "_" +++ str_of_Z (trunc (m_w m)) +++ "_" +++ str_of_Z (trunc (m_h m))
  +++ "_" +++ fmt2 (m_min m) +++ "_" +++ fmt2 (m_max m).
(** latlong.py:29-37 *)
Definition pcr_target_id (lat lon : pcr_map) : string := pcr_identifier lat +++ "_" +++ pcr_identifier lon.
(** readers/netcdf.py:27-34, 73-76: a netCDF target, from its two coordinate
    arrays (at least two values each) *)
Record nc_map := mkNc { n_lats : list Qc; n_lons : list Qc }.
Definition qmin (l : list Qc) : Qc := fold_right (fun a b => if Qc_ltb a b then a else b) (List.hd (ZQ 0) l) l.
Definition qmax (l : list Qc) : Qc := fold_right (fun a b => if Qc_ltb b a then a else b) (List.hd (ZQ 0) l) l.
Definition first_step (l : list Qc) : Qc := match l with a :: b :: _ => (b - a)%Qc | _ => ZQ 0 end.
Definition nc_identifier (m : nc_map) : string :=
  let pre := str_of_Z (trunc (qmin (n_lons m))) +++ "_" +++ str_of_Z (trunc (qmin (n_lats m))) +++ "_" +++ str_of_Z (trunc (first_step (n_lons m)))
             +++ "_" +++ str_of_Z (trunc (first_step (n_lats m))) in
  (pre +++ "_" +++ fmt2 (qmin (n_lats m)) +++ "_" +++ fmt2 (qmax (n_lats m))) +++ "_" +++
  (pre +++ "_" +++ fmt2 (qmin (n_lons m)) +++ "_" +++ fmt2 (qmax (n_lons m))).

(** ** Applying a scipy table: __init__.py:142-161 *)
(** np.append(v, mv): the values of [v], masked or not, and [mv] *)
Definition append_mv (v : arr) (mv : num) : list num := List.app (adata v) [mv].
(** nnear == 1 *)
Definition apply_single (v : arr) (mv : num) (indexes : list Z) : res (list num) := mapM (py_index (append_mv v mv)) indexes.
(** np.einsum('ij,ij->i', weights, v[indexes]) *)
Definition weighted_row (w : list num) (vals : list num) : res num :=
  do ps <- ew2 nmul w vals; Ok (fold_left nadd ps (nint 0)).
Definition apply_weighted (v : arr) (mv : num) (table : list (list num * list Z)) : res (list num) :=
  mapM (fun row => do vals <- mapM (py_index (append_mv v mv)) (snd row); weighted_row (fst row) vals) table.
