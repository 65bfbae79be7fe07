(** * Api: what Pyg2pApi.execute returns (src/pyg2p/main/api.py:262-314), and
    what a PCRaster execution leaves on disk *)
From Verif Require Import Base Num PyStr Strings Config Context Aggregator Converter Reader Controller Writers.
From Verif Require Interp.
Local Open Scope string_scope.

(** api.py:303-311: each field is interpolated and corrected, then
    [_mask_values] (273-279) is applied. [cm], [mv]: the mask and the missing
    value of the clone map (262-270) *)
Definition api_ext (cm : option (list bool)) (mv : num) (o : ext) : ext :=
  mkExt (xt_file o) (xt_writer o) (xt_numexpr o)
    (fun g second a => do out <- xt_map o g second a; do l <- pcr_mask_values cm mv out; Ok (Nd l))
    (xt_put o) (xt_nc_open o) (xt_nc_write o).
(** api.py:293-314: [out] is a dictionary by step, returned sorted by end step *)
Definition api_result (ws : list written) : fields :=
  sort_by (fun kv => s_end (fst kv)) (dict_of step_eqb (map (fun w => (wn_step w, wn_out w)) ws)).
Definition api_call (cm : option (list bool)) (mv : num) (o : ext) (x : ctx) (w : world) : res fields * cst :=
  let '(r, s) := api_execute (api_ext cm mv o) x w in
  (do ws <- r; Ok (api_result ws), s).

(** pcr.py:32-42: writing a map fails when its mask cannot be applied; the
    failures of the disk are not modelled here *)
Definition pcr_ext (cm : option (list bool)) (mv : num) (o : ext) : ext :=
  mkExt (xt_file o) (xt_writer o) (xt_numexpr o) (xt_map o)
    (fun w => do _ <- pcr_write cm mv (wn_out w); Ok tt)
    (xt_nc_open o) (xt_nc_write o).

(** interpolation/__init__.py:270-312, 314-371 with the auxiliary message made
    explicit: [aux] tells whether aux_for_intertable_generation (387-391) was
    called. The controller does it for the interpolator of its writer
    (controller.py:100-105); api.py:288-291 makes another interpolator and does
    not. Without it the recursive call (278-285, 324-334) gets None for the
    handle, which is not -1, and passes it to eccodes: an error of that library
    (OtherError). grib_nearest calls check_write before, grib_invdist does not
    call it. *)
Definition interpolate_aux (aux : bool) (e : Interp.env) (d : Interp.disk) (p : Interp.proc) (r : Interp.request)
  : res (Interp.disk * Interp.proc * Interp.content) :=
  do path <- Interp.intertable_filename e d p r;
  if (Interp.is_grib_mode (Interp.q_mode r) && negb aux && negb (Interp.table_found d r path) && Interp.e_create e)%bool then
    do _ <- (if String.eqb (Interp.q_mode r) "grib_nearest" then Interp.e_write e else Ok tt); Raise OtherError
  else Interp.interpolate e d p r.

(** A process that runs commands (main/__init__.py:42-55) and API calls
    (api.py:281-314) one after the other. [true]: the command returned a status,
    the call returned a dictionary *)
Inductive call :=
| Command (o : ext) (x : ctx)
| ApiCall (cm : option (list bool)) (mv : num) (o : ext) (x : ctx).
Definition perform (c : call) (w : world) : bool * world :=
  match c with
  | Command o x => let '(out, s) := run_command o x w in (match out with Exit _ => true | Uncaught _ => false end, c_w s)
  | ApiCall cm mv o x => let '(r, s) := api_call cm mv o x w in (match r with Ok _ => true | Raise _ => false end, c_w s)
  end.
Fixpoint history (cs : list call) (w : world) : list bool * world :=
  match cs with
  | [] => ([], w)
  | c :: cs => let '(b, w) := perform c w in let '(bs, w) := history cs w in (b :: bs, w)
  end.
