(** * Target: model of the map readers (src/pyg2p/main/readers/netcdf.py,
    src/pyg2p/main/readers/pcr.py), of src/pyg2p/main/interpolation/latlong.py
    and of the coordinates in the output of src/pyg2p/main/writers/netcdf.py. *)
From Verif Require Import Base Num PyStr Strings Writers.
Local Open Scope string_scope.

(** a two-dimensional array, by rows *)
Definition matrix := list (list num).

(** ** netCDF files *)
(** A variable of a netCDF file as the netCDF4 library shows it: its name, its
    dimensions (name and size), its type, its attributes missing_value and
    _FillValue, and [variables[k][:].data] in row major order, that is the
    values after scaling; cells that the library masks keep the stored value. *)
Record nvar := mkNvar
  { v_name : string; v_dims : list (string * nat); v_fmt : vfmt;
    v_mv : option num; v_fill : option num; v_data : list num }.
Definition nfile := list nvar.
(** [k in variables], [variables[k]] (KeyError) *)
Definition nfind (f : nfile) (k : string) : res nvar :=
  match List.find (fun v => String.eqb (v_name v) k) f with Some v => Ok v | None => Raise KeyError end.
Definition nmem (f : nfile) (k : string) : bool := existsb (fun v => String.eqb (v_name v) k) f.

(** netcdf.py:45-53 find_main_var; none or several: only a warning, then the
    local variable is not bound (UnboundLocalError) *)
Definition find_main_var (f : nfile) : res nvar :=
  match filter (fun v => Nat.leb 2 (List.length (v_dims v))) f with
  | [v] => Ok v
  | _ => Raise OtherError
  end.

(** netcdf.py:12-43 __init__. Coordinate variables are one-dimensional (a
    variable with two dimensions would be a second main variable, or the only
    one). [min()] of an empty array is a ValueError, element 1 of an array of
    one an IndexError. *)
Record nreader := mkNreader
  { nr_var : nvar; nr_rows : nat; nr_cols : nat; nr_lat : list num; nr_lon : list num; nr_mv : num }.
Definition coordinate (v : nvar) : res (list num) :=
  match v_data v with [] => Raise ValueError | [_] => Raise IndexError | l => Ok l end.
(** netcdf.py:35-43: missing_value, else _FillValue, else the default of an
    integer type, else NaN *)
Definition map_mv (v : nvar) : num :=
  match v_mv v with
  | Some x => x
  | None => match v_fill v with
            | Some x => x
            | None => if is_int_fmt (v_fmt v) then Fin (fillval (v_fmt v)) else NaN
            end
  end.
Definition nc_reader (f : nfile) : res nreader :=
  do v <- find_main_var f;
  do rc <- match v_dims v with [(_, r); (_, c)] => Ok (r, c) | _ => Raise ValueError end;
  let '(klat, klon) := if nmem f "lon" then ("lat", "lon") else ("y", "x") in
  do vlon <- nfind f klon;
  do lon <- coordinate vlon;
  do vlat <- nfind f klat;
  do lat <- coordinate vlat;
  Ok (mkNreader v (fst rc) (snd rc) lat lon (map_mv v)).

(** rows of a row major array *)
Fixpoint rows_of (c r : nat) (d : list num) : matrix :=
  match r with O => [] | S r => firstn c d :: rows_of c r (skipn c d) end.
(** netcdf.py:55-58 values *)
Definition nr_values (r : nreader) : matrix := rows_of (nr_cols r) (nr_rows r) (v_data (nr_var r)).

(** numpy broadcasting of one axis: equal sizes, or one of them 1 *)
Definition bcast (a b : nat) : res nat :=
  if Nat.eqb a b then Ok a else if Nat.eqb a 1 then Ok b else if Nat.eqb b 1 then Ok a else Raise ValueError.
(** netcdf.py:60-63 get_lat_lon_values: a column of latitudes times an array of
    ones, a row of longitudes times an array of ones (both coordinates have at
    least two values) *)
Definition lat_lon_values (r : nreader) : res (matrix * matrix) :=
  do n <- bcast (List.length (nr_lat r)) (nr_rows r);
  do m <- bcast (List.length (nr_lon r)) (nr_cols r);
  Ok (map (fun x => repeat x (nr_cols r)) (firstn n (nr_lat r)),
      repeat (firstn m (nr_lon r)) (nr_rows r)).

(** ** PCRaster maps: readers/pcr.py:11-39. The cells and the no-data value of
    the band. *)
Record pmap := mkPmap { p_cells : matrix; p_mv : num }.

(** ** Files *)
(** what the libraries find at a path; opening anything else fails inside GDAL
    or netCDF4 *)
Inductive mapfile := FNc (f : nfile) | FPcr (m : pmap).
Definition disk := string -> option mapfile.
Definition open_nc (k : disk) (p : string) : res nreader :=
  match k p with Some (FNc f) => nc_reader f | _ => Raise OtherError end.
Definition open_pcr (k : disk) (p : string) : res pmap :=
  match k p with Some (FPcr m) => Ok m | _ => Raise OtherError end.

(** path.endswith('.nc') *)
Definition ends_nc (p : string) : bool := starts_with "cn." (rev_string p).

(** ** Target coordinates: latlong.py:11-37 (the identifier is in Interp.v).
    The missing value of a netCDF target is the default one of the type of
    latitudes times ones, float64. INVALID_INTERPOL_METHOD is 8400. *)
Record target := mkTarget { t_lats : matrix; t_lons : matrix; t_mv : num }.
Definition f8_fill : num := Fin (fillval VF8).
Definition latlong (k : disk) (lat lon : string) : res target :=
  if ends_nc lat then
    if negb (String.eqb lat lon) then Raise (AppExc 8400)
    else do r <- open_nc k lat; do x <- lat_lon_values r; Ok (mkTarget (fst x) (snd x) f8_fill)
  else
    do a <- open_pcr k lat; do b <- open_pcr k lon; Ok (mkTarget (p_cells a) (p_cells b) (p_mv a)).

(** ** Altitudes: latlong.py:46-57 Dem; the same two lines read the clone of a
    netCDF output (writers/netcdf.py:26-31) and the map of CDDs *)
Definition read_map (k : disk) (p : string) : res (matrix * num) :=
  if ends_nc p then do r <- open_nc k p; Ok (nr_values r, nr_mv r)
  else do m <- open_pcr k p; Ok (p_cells m, p_mv m).

(** ** Coordinates of a netCDF output: writers/netcdf.py:38-50, 59-62, 166-167 *)
(** lines 45-50: missing coordinates become NaN; the no-data value of the
    latitudes is used for both *)
Definition nan_where (mv : num) (m : matrix) : matrix := map (map (fun x => if neqb x mv then NaN else x)) m.
Definition writer_coords (k : disk) (lat lon : string) : res (matrix * matrix) :=
  if ends_nc lat then
    if negb (String.eqb lat lon) then Raise (AppExc 8400)
    else do r <- open_nc k lat; lat_lon_values r
  else
    do a <- open_pcr k lat; do b <- open_pcr k lon;
    Ok (nan_where (p_mv a) (p_cells a), nan_where (p_mv a) (p_cells b)).
(** self.lons[0,:], self.lats[:,0]: IndexError for an array without rows or
    columns; a coordinate that does not fit the dimension of the clone is
    refused by netCDF4 *)
Definition first_row (m : matrix) : res (list num) := match m with r :: _ => Ok r | [] => Raise IndexError end.
Definition first_column (m : matrix) : res (list num) :=
  match m with [] => Raise IndexError
  | _ => mapM (fun r => match r with x :: _ => Ok x | [] => Raise IndexError end) m end.
Definition fits (n : nat) (l : list num) : res (list num) := if Nat.eqb (List.length l) n then Ok l else Raise OtherError.
Definition output_coords (k : disk) (lat lon clone : string) : res (list num * list num) :=
  do c <- read_map k clone;
  do x <- writer_coords k lat lon;
  do lons <- first_row (snd x); do lons <- fits (List.length (List.hd [] (fst c))) lons;
  do lats <- first_column (fst x); do lats <- fits (List.length (fst c)) lats;
  Ok (lats, lons).
