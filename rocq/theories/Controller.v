(** * Controller: model of src/pyg2p/main/controller.py, of the loops of
    OutputWriter (src/pyg2p/main/writers/__init__.py:41-109) and of
    src/pyg2p/main/__init__.py (exit status, configuration commands) *)
From Verif Require Import Base Num PyStr Strings Config Context Aggregator Converter Reader.
Local Open Scope string_scope.

(** ** Choice of the time range: controller.py:36-55 *)
(** [self.ctx.get(key) or default]; the options are integers or None (context
    properties C31); other values are not modelled *)
Definition or_int (j : json) (d : Z) : res Z :=
  match j with
  | JNull => Ok d
  | JNum z => if (z =? 0)%Z then Ok d else Ok z
  | _ => Raise OtherError
  end.

(** the name of the aggregation; a value that is not a text is in no
    dictionary of functions *)
Definition aggr_name (j : json) : string := match j with JStr s => s | _ => "" end.

(** controller.py:46-54, 63-70 with the conversions of aggregator.py:30-42 *)
Definition new_aggr (x : ctx) (input : Z) (step_type : string) (start end_ : Z) : res aggr :=
  do u <- jint (x_unitTime x);
  do st <- jint (x_astep x);
  Ok (aggr_init step_type input u st (aggr_name (x_atype x)) (jtruthy (x_ahalf x)) (x_aforce x) start end_ false).

(** controller.py:40-41, 46-55: first and last step read, and the aggregator *)
Definition choose_range (x : ctx) (i : steps_info) (step_type : string) : res (Z * Z * option aggr) :=
  do s <- or_int (x_tstart x) 0;
  do e <- or_int (x_tend x) (i_end i);
  if x_doAggr x then
    do g <- new_aggr x (i_step i) step_type s e;
    let '(s, e) := real_start_end g in Ok (s, e, Some g)
  else Ok (s, e, None).

(** ** Values: controller.py:104-132 (pure part of execute) *)
(** conversion of both sets: __init__.py:199-206 *)
Definition convert_messages (ev : numexpr) (x : ctx) (m : messages) : res (option converter * messages) :=
  if x_doConv x then
    let c := converter_new (match x_convFun x with JStr s => Some s | _ => None end) (x_cutoff x) in
    let c := set_missing_value c (m_mv m) in
    do f <- convert_fields ev c (m_first m);
    do s <- convert_fields ev c (m_second m);
    Ok (Some c, mkMessages f s (m_mv m) (m_unit m) (m_level m) (m_type m) (m_step_units m) (m_date m) (m_first_step m) (m_grid m) (m_grid2 m))
  else Ok (None, m).

(** controller.py:60-74 second_res_manipulation *)
Definition second_res (x : ctx) (start end_ input : Z) (m : messages) (values : fields) : res (step * fields) :=
  do m2 <- new_aggr x input (m_type m) start end_;
  do values2 <- do_manipulation m2 (m_second m);
  do change <- first_by_end values2;
  Ok (change, dupdate step_eqb values values2).

(** controller.py:110-127: aggregation of both resolutions. Result: the fields
    and the step key at which the second resolution begins *)
Definition aggregate (x : ctx) (input end_ : Z) (g : option aggr) (m : messages) : res (fields * option step) :=
  do values <- match g with
               | Some g =>
                   let g := match m_grid2 m with Some (_, k) => change_end_step g (s_start k) | None => g end in
                   do_manipulation g (m_first m)
               | None => Ok (m_first m)
               end;
  match m_grid2 m with
  | None => Ok (values, None)
  | Some (_, k) =>
      do st <- jint (x_astep x);
      let start2 := (s_end k + st)%Z in
      if (x_doAggr x && (start2 <? end_)%Z)%bool then
        do '(change, values) <- second_res x start2 end_ input m values;
        Ok (values, Some change)
      else Ok (values, Some k)
  end.

(** controller.py:129-132 *)
Definition order_fields (c : option converter) (values : fields) : fields :=
  let values := match c with Some c => if cv_cut c then cut_off_fields values else values | None => values end in
  sort_by (fun kv => s_end (fst kv)) values.

(** controller.py:104-132 *)
Definition exec_values (ev : numexpr) (x : ctx) (input end_ : Z) (g : option aggr) (m : messages)
  : res (fields * messages * option step) :=
  do '(c, m) <- convert_messages ev x m;
  do '(values, change) <- aggregate x input end_ g m;
  Ok (order_fields c values, m, change).

(** ** Writing: writers/__init__.py:41-109 *)
(** one map handed to a writer: its number, step key, the grid it was
    interpolated from, whether that is the second one, the source field and the
    map *)
Record written := mkWritten
  { wn_map : Z; wn_step : step; wn_grid : grid; wn_second : bool; wn_field : arr; wn_out : arr }.

(** Everything outside the model: the files, the constructors of Interpolator
    and of the writer, numexpr, interpolation followed by correction (it gets
    the grid and which of the two it is), writing a PCRaster map, creating the
    NetCDF file, writing its content *)
Record ext := mkExt
  { xt_file : json -> option gfile;
    xt_writer : ctx -> num -> res unit;
    xt_numexpr : numexpr;
    xt_map : grid -> bool -> arr -> res arr;
    xt_put : written -> res unit;
    xt_nc_open : res unit;
    xt_nc_write : list written -> res unit }.

Definition at_change (m : messages) (change : option step) (k : step) : bool :=
  (have_change m && match change with Some c => step_eqb k c | None => false end)%bool.
Definition grid_of (m : messages) (second : bool) : grid :=
  if second then match m_grid2 m with Some (g, _) => g | None => m_grid m end else m_grid m.

(** body of both loops, lines 53-67 and 93-108: the map of one field *)
Definition one_map (x : ext) (m : messages) (change : option step) (second : bool) (i : Z) (kv : step * arr)
  : res (bool * written) :=
  let second := (second || at_change m change (fst kv))%bool in
  let g := grid_of m second in
  do out <- xt_map x g second (snd kv);
  Ok (second, mkWritten i (fst kv) g second (snd kv) out).

(** lines 87-109 _write_maps_pcraster: each map is written as soon as it is
    made; the maps written, and the outcome *)
Fixpoint pcr_loop (x : ext) (m : messages) (change : option step) (second : bool) (i : Z) (values : fields)
  : list written * res unit :=
  match values with
  | [] => ([], Ok tt)
  | kv :: r =>
      match one_map x m change second i kv with
      | Raise e => ([], Raise e)
      | Ok (second, w) =>
          match xt_put x w with
          | Raise e => ([], Raise e)
          | Ok _ => let '(ws, o) := pcr_loop x m change second (i + 1) r in (w :: ws, o)
          end
      end
  end.

(** lines 53-69: the maps of a NetCDF file *)
Fixpoint nc_loop (x : ext) (m : messages) (change : option step) (second : bool) (i : Z) (values : fields)
  : res (list written) :=
  match values with
  | [] => Ok []
  | kv :: r =>
      do '(second, w) <- one_map x m change second i kv;
      do ws <- nc_loop x m change second (i + 1)%Z r;
      Ok (w :: ws)
  end.

(** ** The controller object *)
(** [c_wr]: the writer: is it a NetCDF one, and has it opened its file;
    [c_out]: the maps written (ghost) *)
Record cst := mkCst
  { c_r1 : option reader; c_r2 : option reader; c_wr : option (bool * bool); c_geo : bool;
    c_out : list written; c_w : world }.
Definition cst0 (w : world) : cst := mkCst None None None false [] w.

(** state and exceptions *)
Definition M (A : Type) := cst -> res A * cst.
Definition ret {A} (a : A) : M A := fun s => (Ok a, s).
Definition lift {A} (r : res A) : M A := fun s => (r, s).
Definition bind {A B} (x : M A) (f : A -> M B) : M B :=
  fun s => match x s with (Ok a, s) => f a s | (Raise e, s) => (Raise e, s) end.
Notation "'let!' x <- e ; f" := (bind e (fun x => f)) (at level 200, x name, e at level 100, f at level 200, right associativity).
Notation "'let!' ' p <- e ; f" := (bind e (fun p => f)) (at level 200, p pattern, e at level 100, f at level 200, right associativity).

(** a constructor assigned to grib_reader, grib_reader2 *)
Definition open1 (f : option gfile) (wp : bool) : M unit := fun s =>
  match reader_new f wp (c_w s) with
  | (Ok r, w) => (Ok tt, mkCst (Some r) (c_r2 s) (c_wr s) (c_geo s) (c_out s) w)
  | (Raise e, w) => (Raise e, mkCst (c_r1 s) (c_r2 s) (c_wr s) (c_geo s) (c_out s) w)
  end.
Definition open2 (f : option gfile) (wp : bool) : M unit := fun s =>
  match reader_new f wp (c_w s) with
  | (Ok r, w) => (Ok tt, mkCst (c_r1 s) (Some r) (c_wr s) (c_geo s) (c_out s) w)
  | (Raise e, w) => (Raise e, mkCst (c_r1 s) (c_r2 s) (c_wr s) (c_geo s) (c_out s) w)
  end.
(** a method of a reader *)
Definition on1 {A} (op : reader -> world -> res A * (reader * world)) : M A := fun s =>
  match c_r1 s with
  | None => (Raise AttributeError, s)
  | Some r => let '(x, (r, w)) := op r (c_w s) in (x, mkCst (Some r) (c_r2 s) (c_wr s) (c_geo s) (c_out s) w)
  end.
Definition on2 {A} (op : reader -> world -> res A * (reader * world)) : M A := fun s =>
  match c_r2 s with
  | None => (Raise AttributeError, s)
  | Some r => let '(x, (r, w)) := op r (c_w s) in (x, mkCst (c_r1 s) (Some r) (c_wr s) (c_geo s) (c_out s) w)
  end.

Definition pcraster (x : ctx) : bool := jis (x_format x) "pcraster".

(** controller.py:36, writers/__init__.py:33-39, 138-153 *)
Definition make_writer (o : ext) (x : ctx) (mv : num) : M unit := fun s =>
  match xt_writer o x mv with
  | Ok _ => (Ok tt, mkCst (c_r1 s) (c_r2 s) (Some (negb (pcraster x), false)) (c_geo s) (c_out s) (c_w s))
  | Raise e => (Raise e, s)
  end.

(** the member asked for: the value of perturbationNumber selected in the index
    by the information request (context.py:160-164, grib.py:110-117) *)
Definition chosen_member (x : ctx) : option Z :=
  match select_cmd_attrs x with
  | Ok sel => match sel_pert sel with Ok p => p | Raise _ => None end
  | Raise _ => None
  end.

(** controller.py:43-44 *)
Definition look_for_geopotential (x : ctx) : M unit :=
  if x_doCorr x then
    let! b <- on1 (has_geopotential (chosen_member x));
    fun s => (Ok tt, mkCst (c_r1 s) (c_r2 s) (c_wr s) (c_geo s || b)%bool (c_out s) (c_w s))
  else ret tt.

(** controller.py:32-58 init_execution *)
Definition init_execution (o : ext) (x : ctx) : M (Z * selection * Z * option aggr) :=
  let! _ <- open1 (xt_file o (x_input x)) (negb (is_null (x_member x)));
  let! attrs <- lift (select_cmd_attrs x);
  let! '(i, t, mv) <- on1 (get_grib_info attrs);
  let! _ <- make_writer o x mv;
  let! _ <- look_for_geopotential x;
  let! '(s, e, g) <- lift (choose_range x i t);
  let! sel <- lift (select_cmd x s e);
  ret (i_step i, sel, e, g).

(** grib.py set_2nd_aux, get_main_aux (272-277) *)
Definition set_ext (g : option Z) (r : reader) (w : world) : res unit * (reader * world) :=
  (Ok tt, (mkReader (r_index r) (r_file r) (r_msgs r) (r_sel r) (r_step r) (r_step2 r) (r_change r) (r_main r) g, w)).
Definition get_main (r : reader) (w : world) : res (option Z) * (reader * world) := (Ok (r_main r), (r, w)).

(** controller.py:76-81, 92-96 *)
Definition second_file (o : ext) (x : ctx) (sel : selection) (m : messages) : M messages :=
  if jtruthy (x_input2 x) then
    let! _ <- open2 (xt_file o (x_input2 x)) (negb (is_null (x_member x)));
    let! m2 <- on2 (select_messages sel);
    let m := append_2nd m m2 in
    let! g <- on2 get_main;
    let! _ <- on1 (set_ext g);
    ret m
  else ret m.

(** writers/__init__.py:111-115 write_maps: the method is chosen by name *)
Definition write_maps (o : ext) (x : ctx) (values : fields) (m : messages) (change : option step) : M unit := fun s =>
  if pcraster x then
    let '(ws, r) := pcr_loop o m change false 1 values in
    (r, mkCst (c_r1 s) (c_r2 s) (c_wr s) (c_geo s) (c_out s ++ ws)%list (c_w s))
  else if jis (x_format x) "netcdf" then
    match nc_loop o m change false 0 values with
    | Raise e => (Raise e, s)
    | Ok ws =>
        match xt_nc_open o with
        | Raise e => (Raise e, s)
        | Ok _ => let s := mkCst (c_r1 s) (c_r2 s) (Some (true, true)) (c_geo s) (c_out s) (c_w s) in
                  match xt_nc_write o ws with
                  | Raise e => (Raise e, s)
                  | Ok _ => (Ok tt, mkCst (c_r1 s) (c_r2 s) (c_wr s) (c_geo s) (c_out s ++ ws)%list (c_w s))
                  end
        end
    end
  else (Raise AttributeError, s).

(** controller.py:83-138 execute *)
Definition execute (o : ext) (x : ctx) (write : bool) : M (fields * messages * option step) :=
  let! '(input, sel, e, g) <- init_execution o x;
  let! m <- on1 (select_messages sel);
  let! m <- second_file o x sel m;
  let! _ <- on1 intertable_gids;
  let! '(values, m, change) <- lift (exec_values (xt_numexpr o) x input e g m);
  let! _ <- (if write then write_maps o x values m change else ret tt);
  ret (values, m, change).

(** controller.py:140-148 close; netcdf.py:185-187 closes [nf], None before
    the file is created; pcr.py:52-55 never fails *)
Definition ctl_close : M unit :=
  let! _ <- (fun s => match c_r1 s with
                      | None => (Ok tt, s)
                      | Some r => match close r (c_w s) with
                                  | (Ok _, (_, w)) => (Ok tt, mkCst None (c_r2 s) (c_wr s) (c_geo s) (c_out s) w)
                                  | (Raise e, (r, w)) => (Raise e, mkCst (Some r) (c_r2 s) (c_wr s) (c_geo s) (c_out s) w)
                                  end
                      end);
  let! _ <- (fun s => match c_r2 s with
                      | None => (Ok tt, s)
                      | Some r => match close r (c_w s) with
                                  | (Ok _, (_, w)) => (Ok tt, mkCst (c_r1 s) None (c_wr s) (c_geo s) (c_out s) w)
                                  | (Raise e, (r, w)) => (Raise e, mkCst (c_r1 s) (Some r) (c_wr s) (c_geo s) (c_out s) w)
                                  end
                      end);
  fun s => match c_wr s with
           | Some (true, false) => (Raise AttributeError, s)
           | _ => (Ok tt, s)
           end.

(** ** main/__init__.py *)
(** what the process does: return a status, or end with an exception *)
Inductive outcome := Exit (status : Z) | Uncaught (e : exn).

(** main/__init__.py:42-55 execute: the outcome of the work, the final state
    and the outcome of the command *)
Definition run_command (o : ext) (x : ctx) (w : world) : outcome * cst :=
  let '(r, s) := execute o x true (cst0 w) in
  let status := match r with
                | Ok _ => Exit 0
                | Raise (AppExc c) => if (c =? 3000)%Z then Exit 0 else Exit 1
                | Raise e => Uncaught e
                end in
  match ctl_close s with
  | (Ok _, s) => (status, s)
  | (Raise e, s) => (Uncaught e, s)
  end.

(** context.py:180-193 and 241-253: the ExecutionContext. [Context.__init__]
    sets to_add_geopotential to False (line 28); -g only sets another
    attribute (line 243). The value tells whether it is a configuration
    command. *)
Definition to_download (a : cli) : bool := match a_download a with Some s => negb (String.eqb s "") | None => false end.
Definition is_config_command (a : cli) : bool := (false || to_download a || a_check a)%bool.

(** context.py:82-102 without execution parameters: the keys of the maps are
    not in the dictionary. What follows (103-137) is not reached. *)
Definition check_config_params (fs : fsys) (a : cli) : res unit :=
  do _ <- guard (jtruthy (of_s (a_input a))) 1001;
  do b <- exists_file fs (of_s (a_input a));
  do _ <- guard b 1000;
  Raise KeyError.

Inductive context := CConf | CExec (x : ctx).
Definition new_context (e : env) (fs : fsys) (a : cli) (cmd : option json) : res context :=
  do _ <- guard (cli_choices a) 10000;
  if is_config_command a then (do _ <- check_config_params fs a; Ok CConf)
  else (do x <- define_exec_params e a cmd; do x <- check_exec_params fs x; Ok (CExec x)).

(** what a command did: the configuration actions it performed, and whether an
    extraction was started *)
Inductive action := Downloaded (dataset : string) | AddedGeopotential (file : string) | CheckedConf | Extraction.

(** main/__init__.py:58-75 config_command: download_data takes one argument
    (config.py:311) and is called with two; to_check_conf is not a method of
    Configuration *)
Definition config_command (a : cli) : res (list action) :=
  if to_download a then Raise TypeError
  else if false then Ok (match a_addgeo a with Some f => [AddedGeopotential f] | None => [] end)
  else if a_check a then Raise AttributeError
  else Ok [].

(** main/__init__.py:13-39 pyg2p_exe (options that print and exit are not
    modelled) *)
Definition pyg2p_exe (e : env) (fs : fsys) (o : ext) (a : cli) (cmd : option json) (w : world)
  : outcome * list action * cst :=
  match new_context e fs a cmd with
  | Raise _ => (Exit 1, [], cst0 w)
  | Ok CConf =>
      match config_command a with
      | Ok l => (Exit 0, l, cst0 w)
      | Raise (AppExc _) => (Exit 1, [], cst0 w)
      | Raise ex => (Uncaught ex, [], cst0 w)
      end
  | Ok (CExec x) => let '(r, s) := run_command o x w in (r, [Extraction], s)
  end.

(** api.py:281-314 execute of the API: a reader of its own, then a controller;
    neither is closed. [map]: interpolation, correction and masking of one
    field *)
Definition api_loop (x : ext) (m : messages) (change : option step) (values : fields) : res (list written) :=
  nc_loop x m change false 0 values.
Definition api_execute (o : ext) (x : ctx) (w : world) : res (list written) * cst :=
  match reader_new (xt_file o (x_input x)) (negb (is_null (x_member x))) w with
  | (Raise e, w) => (Raise e, cst0 w)
  | (Ok r0, w) =>
      match select_cmd_attrs x with
      | Raise e => (Raise e, cst0 w)
      | Ok attrs =>
          match get_grib_info attrs r0 w with
          | (Raise e, (_, w)) => (Raise e, cst0 w)
          | (Ok _, (_, w)) =>
              match execute o x false (cst0 w) with
              | (Raise e, s) => (Raise e, s)
              | (Ok (values, m, change), s) => (api_loop o m change values, s)
              end
          end
      end
  end.
