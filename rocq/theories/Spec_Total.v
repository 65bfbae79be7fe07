(** * Spec_Total: vocabulary of C97 (commands that succeed). *)
From Verif Require Import Base Num PyStr Strings Config Context Spec_Context Aggregator Converter Reader Spec_Reader Controller Spec_Controller Spec_Flow Spec_Series.
Local Open Scope string_scope.

Definition text_key (m : gmsg) (k : string) : Prop := exists t, dget String.eqb (gm_keys m) k = Some (JStr t).
Definition int_key (m : gmsg) (k : string) : Prop := exists z, has_int m k z.
Definition real_key (m : gmsg) (k : string) : Prop := exists v, dget String.eqb (gm_dbl m) k = Some v.

(** a message with all that is read of it: steps, size of the grid, level,
    bitmap, texts, missing value, longitudes, and a date of the calendar at an
    hour that can be read (C60: 00:00 or 10:00 to 23:59) *)
Definition complete_message (m : gmsg) : Prop :=
  Forall (int_key m) ["startStep"; "endStep"; "Nj"; "level"] /\
  Forall (text_key m) ["units"; "stepType"; "stepUnits"; "levelType"] /\
  (exists b, has_int m "bitmapPresent" b /\ (b <> 0%Z -> List.length (gm_bitmap m) = List.length (gm_values m))) /\
  real_key m "missingValue" /\ real_key m "longitudeOfFirstGridPointInDegrees" /\
  (In "longitudeOfLastGridPointInDegrees" (gm_missing m) \/ real_key m "longitudeOfLastGridPointInDegrees") /\
  exists y mo d h mi, has_int m "dataDate" (10000 * y + 100 * mo + d) /\ valid_day y mo d /\
    has_int m "dataTime" (100 * h + mi) /\ (10 <= h <= 23 /\ 0 <= mi <= 59 \/ h = 0 /\ mi = 0)%Z.

(** the messages of the variable are complete and on one grid *)
Definition complete_file (nm : string) (f : gfile) : Prop := exists n,
  Forall (fun m => forall t, dget String.eqb (gm_keys m) "shortName" = Some (JStr t) -> short_variant nm t ->
    complete_message m /\ has_int m "Nj" n) (gf_msgs f).

(** what is outside of the model does its work, in one of the two formats *)
Definition works (o : ext) (x : ctx) : Prop :=
  (forall mv, xt_writer o x mv = Ok tt) /\ (forall g b a, exists out, xt_map o g b a = Ok out) /\
  (x_format x = JStr "pcraster" /\ (forall w, xt_put o w = Ok tt) \/
   x_format x = JStr "netcdf" /\ xt_nc_open o = Ok tt /\ forall l, xt_nc_write o l = Ok tt).

(** first and last step: absent or a number (C31) *)
Definition steps_given (x : ctx) : Prop :=
  (x_tstart x = JNull \/ exists z, x_tstart x = JNum z) /\ (x_tend x = JNull \/ exists z, x_tend x = JNum z).

(** the messages of the variable end at different steps, not all at 0 *)
Definition distinct_ends (x : ctx) (nm : string) (f : gfile) : Prop :=
  forall ms es, those (same_variable x nm) (gf_msgs f) ms -> Forall2 (fun m t => has_int m "endStep" t) ms es -> NoDup es /\ es <> [0%Z].

(** the command succeeds: the maps are made and written, and the status is 0 *)
Definition succeeds (o : ext) (x : ctx) (w : world) : Prop :=
  (exists v s', execute o x true (cst0 w) = (Ok v, s')) /\ fst (run_command o x w) = Exit 0.
