(** * Correction: model of the reading of the geopotential and of the
    construction of correctors (src/pyg2p/main/manipulation/correction.py,
    src/pyg2p/main/context.py:139-143) with the GRIB handles they use. The
    arithmetic of a correction is in Corrector.v. *)
From Verif Require Import Base Num PyStr Config Context Aggregator Reader Corrector.
Local Open Scope string_scope.

(** correction.py:87: the selection of geopotentials *)
Definition geo_sel : selection := [("shortName", SList (map JStr geo_names))].

(** context.py:139-143 geo_file. [from_input]: the input file when
    set_input_file_with_geopotential was called (context.py:42-43), an empty
    path counts as none; [registry]: the result of get_filepath (config.py:253-269,
    [geo_lookup]) *)
Definition geo_file (from_input : option string) (registry : res string) : res string :=
  match from_input with
  | Some p => if String.eqb p "" then registry else Ok p
  | None => registry
  end.

(** what a correction asks for and uses from outside: grid id of the field, DEM
    map and its content, geopotential file, the gem formula (numexpr on one
    cell), the constructor of the Interpolator for a missing value, and the
    interpolation (it gets the id of the grid, the messages read - for their
    latitudes and longitudes - and the field) *)
Record corr_ask := mkAsk
  { ca_grid : string; ca_dem : string; ca_dem_read : res (num * list num); ca_geo : res string;
    ca_gem : num -> num; ca_interp : num -> res unit; ca_resample : string -> messages -> arr -> res (list num) }.

(** correction.py:99: numexpr writes into the array of the field; its mask is
    not changed *)
Definition gem_field (gem : num -> num) (mv : num) (v : arr) : arr :=
  let f := fun z => if negb (neqb z mv) then gem z else mv in
  match v with Nd d => Nd (map f d) | Ma d m => Ma (map f d) m end.

(** correction.py:84-107 _read_geo. The reader is closed at line 106 only. *)
Definition read_geo_file (f : option gfile) (q : corr_ask) (w : world) : res (num * list num) * world :=
  match reader_new f false w with
  | (Raise e, w) => (Raise e, w)
  | (Ok r, w) =>
      match select_messages geo_sel r w with
      | (Raise e, (_, w)) => (Raise e, w)
      | (Ok m, (r, w)) =>
          match dget step_eqb (m_first m) (m_first_step m) with
          | None => (Raise KeyError, w)
          | Some v =>
              match intertable_gids r w with
              | (Raise e, (_, w)) => (Raise e, w)
              | (Ok _, (r, w)) =>
                  match (do _ <- ca_interp q (m_mv m); ca_resample q (ca_grid q) m (gem_field (ca_gem q) (m_mv m) v)) with
                  | Raise e => (Raise e, w)
                  | Ok out =>
                      match close r w with
                      | (Raise e, (_, w)) => (Raise e, w)
                      | (Ok _, (_, w)) => (Ok (m_mv m, out), w)
                      end
                  end
              end
          end
      end
  end.

(** a corrector: correction.py:38-57 *)
Record corr_inst := mkInst
  { in_geo : string; in_grid : string; in_dem : num * list num; in_gem : num * list num }.

(** correction.py:38-57 __init__: the DEM is read first, the geopotential last *)
Definition corr_new (files : string -> option gfile) (q : corr_ask) (path : string) (w : world) : res corr_inst * world :=
  match ca_dem_read q with
  | Raise e => (Raise e, w)
  | Ok d => match read_geo_file (files path) q w with
            | (Raise e, w) => (Raise e, w)
            | (Ok g, w) => (Ok (mkInst path (ca_grid q) d g), w)
            end
  end.

(** correction.py:27-36 get_instance: the file is looked up first, the class
    level dictionary is only changed when the instance was built *)
Definition corr_get (files : string -> option gfile) (q : corr_ask) (c : list (string * corr_inst)) (w : world)
  : res corr_inst * (list (string * corr_inst) * world) :=
  match ca_geo q with
  | Raise e => (Raise e, (c, w))
  | Ok p =>
      let key := ca_grid q +++ ca_dem q in
      match dget String.eqb c key with
      | Some i => (Ok i, (c, w))
      | None => match corr_new files q p w with
                | (Raise e, w) => (Raise e, (c, w))
                | (Ok i, w) => (Ok i, (dset String.eqb c key i, w))
                end
      end
  end.

(** the requests of one process, one after the other, whatever they raise; the
    files may change in between *)
Fixpoint corr_run (h : list ((string -> option gfile) * corr_ask)) (c : list (string * corr_inst)) (w : world)
  : list (res corr_inst) * (list (string * corr_inst) * world) :=
  match h with
  | [] => ([], (c, w))
  | (files, q) :: h => let '(x, (c, w)) := corr_get files q c w in
                       let '(xs, cw) := corr_run h c w in (x :: xs, cw)
  end.
