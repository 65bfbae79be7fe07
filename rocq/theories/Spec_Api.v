(** * Spec_Api: vocabulary of C98 and C99 *)
From Verif Require Import Base Num PyStr Config Context Aggregator Reader Controller Writers.
Local Open Scope string_scope.

(** two executions see the same files and the same numexpr *)
Definition same_outside (o o' : ext) : Prop :=
  (forall j, xt_file o' j = xt_file o j) /\ xt_numexpr o' = xt_numexpr o.
(** interpolation and correction depend on the message behind the handle of the
    grid, on the identifier and the number of parallels of the grid, on which
    of the two grids it is and on the field *)
Definition interpolation := gmsg -> string -> option Z -> bool -> arr -> res arr.
Definition interpolates (o : ext) (f : interpolation) (w : world) : Prop :=
  forall g m second a, dget Z.eqb (w_live w) (g_gid g) = Some m -> xt_map o g second a = f m (g_id g) (g_nj g) second a.

(** the same cell, except that the program replaces a NaN by the missing value *)
Definition same_cell (mv : num) (returned written : num) : Prop :=
  written = returned \/ is_nan returned = true /\ written = mv.
(** a map on disk and an entry of the dictionary returned by the API *)
Definition same_map (cm : option (list bool)) (mv : num) (a : written) (kv : step * arr) : Prop :=
  fst kv = wn_step a /\ exists cells file,
    snd kv = Nd cells /\ pcr_write cm mv (wn_out a) = Ok file /\ Forall2 (same_cell mv) cells file.
(** a map given to the NetCDF writer and an entry of that dictionary: the
    entry is the map with the mask of the clone *)
Definition masked_map (cm : option (list bool)) (mv : num) (a : written) (kv : step * arr) : Prop :=
  fst kv = wn_step a /\ exists cells, snd kv = Nd cells /\ pcr_mask_values cm mv (wn_out a) = Ok cells.

(** ** C99: what eccodes has open: handles of messages, indexes, files *)
Definition open_count (w : world) : nat := (w_index w + w_files w)%nat.
Definition same_open (w w' : world) : Prop :=
  w_live w' = w_live w /\ w_index w' = w_index w /\ w_files w' = w_files w.
