(** * Corrector: model of src/pyg2p/main/manipulation/correction.py *)
From Verif Require Import Base Num PyStr.

(** a cell-wise formula in the three variables [p], [dem], [gem] (numexpr) *)
Definition formula3 := num -> num -> num -> num.

(** correction.py:49 on one cell:
    [where((dem!=dem_mv) & (p!=mv) & (gem!=gem_mv), FORMULA, mv)] *)
Definition correct_cell (f : formula3) (dem_mv gem_mv mv p dem gem : num) : num :=
  if negb (neqb dem dem_mv) && negb (neqb p mv) && negb (neqb gem gem_mv) then f p dem gem else mv.

(** element-wise operation of three arrays of equal size *)
Definition ew3 {A B C D} (f : A -> B -> C -> D) (x : list A) (y : list B) (z : list C) : res (list D) :=
  do fy <- ew2 f x y; ew2 (fun g c => g c) fy z.

(** correction.py:59-82 [correct] (not in debug mode). [mv] is
    [default_fillvals] of the type of [values] (line 78). *)
Definition correct (f : formula3) (dem gem : list num) (dem_mv gem_mv mv : num) (values : arr) : res arr :=
  do d <- ew3 (correct_cell f dem_mv gem_mv mv) (adata values) dem gem;
  Ok (masked_where (get_masks [values]) d).

(** correction.py:84-107 [_read_geo]: the geopotential height read from the
    GRIB ([missing], [z]), transformed by gemFormula where not missing (line
    50), then resampled by the interpolator ([resample]: its result holds
    [mv_out] in cells without source). The missing value returned is the one
    of the GRIB. *)
Definition read_geo (gem_formula : num -> num) (missing : num) (z : list num)
    (resample : list num -> list num) : num * list num :=
  (missing, resample (map (fun v => if negb (neqb v missing) then gem_formula v else missing) z)).

(** ** the class level cache *)
(** what an execution asks for: grid id, DEM map, correction formulas, the
    geopotential file of the grid and the interpolation set-up *)
Record corr_request := mkCorr
  { cr_grid : string; cr_dem : string; cr_formula : string; cr_gem : string; cr_geo : string; cr_interp : string }.
(** a Corrector instance remembers the request it was built from
    (correction.py:38-57) *)
Definition corrector := corr_request.
Definition cache := list (string * corrector).

(** correction.py:27-36 [get_instance] *)
Definition get_instance (c : cache) (r : corr_request) : corrector * cache :=
  let key := (cr_grid r +++ cr_dem r)%string in
  match dget String.eqb c key with
  | Some inst => (inst, c)
  | None => (r, dset String.eqb c key r)
  end.

(** the cache after a history of requests in one process *)
Definition run_history (h : list corr_request) : cache :=
  fold_left (fun c r => snd (get_instance c r)) h [].
