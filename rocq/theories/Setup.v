(** * Setup: the options of the interpolation read by the contexts
    (src/pyg2p/main/context.py:363-368 and main/api.py:170-176), which
    Interpolator.__init__ hands to ScipyInterpolation
    (interpolation/__init__.py:33-43, 241-246). *)
From Verif Require Import Base PyStr Config Context.
Local Open Scope string_scope.

Record iopts := mkIopts { o_cdd_map : json; o_cdd_mode : json; o_cdd_options : json; o_broadcast : json; o_splits : json; o_rotated : json }.
(** [pre]: the at sign of command files, nothing in the API *)
Definition read_options (pre : string) (ic : json) : res iopts :=
  do m <- jget_d ic (pre +++ "cdd_map") (JStr "");
  do mo <- jget_d ic (pre +++ "cdd_mode") (JStr "");
  do o <- jget_d ic (pre +++ "cdd_options") JNull;
  do b <- jget_d ic (pre +++ "use_broadcasting") (JBool false);
  do s <- jget_d ic (pre +++ "num_of_splits") JNull;
  do r <- jget_d ic (pre +++ "rotated_target") (JBool false);
  Ok (mkIopts m mo o b s r).
(** context.py:337, 364-373 *)
Definition exec_options (cmd : json) : res iopts :=
  do ex <- jitem cmd "Execution"; do out <- jitem ex "OutMaps"; do ic <- jitem out "Interpolation"; read_options "@" ic.
(** api.py:169-178 *)
Definition api_options (c : json) : res iopts :=
  do out <- jitem c "OutMaps"; do ic <- jitem out "Interpolation"; read_options "" ic.

(** ** The options and the stored tables.
    interpolation/__init__.py:45-48 and 70-105: neither the identifier nor the
    name of a table mentions the options above; lines 219-246: a table that is
    found is applied as it is. [g] is a ghost: the options every table file was
    computed with (both under the name asked for and under the name written).
    Values of a computed table come from lines 241-251. *)
From Verif Require Import Interp.
Definition ghost := list (string * iopts).
(** the options the table applied was computed with; [None]: unknown (a table
    that was there before) *)
Definition applied_options (g : ghost) (path : string) : option iopts :=
  match dget String.eqb g path with Some o => Some o | None => dget String.eqb g (path +++ ".gz") end.
Definition interpolate_o (e : Interp.env) (d : disk) (p : proc) (g : ghost) (r : request) (o : iopts) : res (disk * proc * ghost * option iopts) :=
  do path <- intertable_filename e d p r;
  do '(d', p', _) <- interpolate e d p r;
  if table_found d r path then Ok (d', p', g, applied_options g path)
  else Ok (d', p', (path, o) :: (saved_as path, o) :: g, Some o).
(** processes one after the other, each with options of its own; the result
    lists the options asked for and those of the table applied *)
Inductive oevent := OStart (dir : string) | OUse (r : request) (o : iopts).
Fixpoint run_o (e : Interp.env) (d : disk) (p : option proc) (g : ghost) (evs : list oevent) : list (iopts * res (option iopts)) :=
  match evs with
  | [] => []
  | OStart dir :: r => run_o e d (Some (start e d dir)) g r
  | OUse q o :: r =>
      match p with
      | None => run_o e d p g r
      | Some p0 => match interpolate_o e d p0 g q o with
                   | Ok (d', p', g', used) => (o, Ok used) :: run_o e d' (Some p') g' r
                   | Raise x => (o, Raise x) :: run_o e d p g r
                   end
      end
  end.
