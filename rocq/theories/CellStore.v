(** * CellStore: the type of the cells of PCRaster maps, and the numbers stored
    in netCDF files, in double precision.

    writers/pcr.py:22 copies the clone map to memory and line 38 writes the
    cells into that copy: they get the type of the clone map, which is also the
    type of the file made from it (line 39). PCRaster maps read by GDAL have
    cells of 8 bits (boolean, ldd), 32-bit integers (nominal, ordinal) or single
    precision numbers (scalar, directional). The conversion of the double
    precision array is that of GDAL (GDALCopyWords): to integers, rounding half
    away from zero, then the nearest end of the range, NaN to 0; to single
    precision, the nearest number, beyond the greatest an infinity. *)
From Verif Require Import Base Num Float64 Writers.
Local Open Scope Z_scope.

Inductive band := Byte | Int32 | Float32.

(** nearest integer, halves away from zero *)
Definition half_away (q : Qc) : Z :=
  if Qc_ltb q 0 then - (Qnum (this (- q + Q2Qc (1 # 2))%Qc) / Zpos (Qden (this (- q + Q2Qc (1 # 2))%Qc)))
  else Qnum (this (q + Q2Qc (1 # 2))%Qc) / Zpos (Qden (this (q + Q2Qc (1 # 2))%Qc)).
Definition clamp (lo hi z : Z) : Z := if z <? lo then lo else if hi <? z then hi else z.
Definition to_int (lo hi : Z) (x : num) : num :=
  match x with
  | Fin q => nint (clamp lo hi (half_away q))
  | PInf => nint hi
  | MInf => nint lo
  | NaN => nint 0
  end.
(** greatest single precision number *)
Definition flt_max : Qc := ZQ (2 ^ 128 - 2 ^ 104).
Definition to_single (x : num) : num :=
  match x with
  | Fin q => if Qc_ltb flt_max q then PInf else if Qc_ltb q (- flt_max)%Qc then MInf else Fin (round32 q)
  | x => x
  end.
Definition gdal_cast (b : band) (x : num) : num :=
  match b with
  | Byte => to_int 0 255 x
  | Int32 => to_int (-2147483648) 2147483647 x
  | Float32 => to_single x
  end.

(** writers/pcr.py:32-42: the cells of the map file *)
Definition pcr_file (b : band) (cmask : option (list bool)) (mv : num) (values : arr) : res (list num) :=
  do d <- pcr_write cmask mv values; Ok (map (gdal_cast b) d).
(** a cell of the file as a reader of the map sees it: [None] if missing *)
Definition pcr_seen (mv x : num) : option num := if neqb x mv then None else Some x.
(** [ma.masked_values] compares with a tolerance for floating point maps only *)
Definition float_band (b : band) : bool := match b with Float32 => true | _ => false end.

(** ** netCDF, in double precision (Writers.nc_pack has the exact arithmetic).
    Scale factor and offset are float64 (netcdf.py:140-141); the library computes
    (value - offset) / scale on the float64 array, rounds to whole numbers for
    integer formats, and converts to the type of the variable. Values beyond the
    range of an integer format are not modelled. *)
Definition nc_store (f : vfmt) (s o : Qc) (x : num) : num :=
  match fdiv (fsub x (Fin o)) (Fin s) with
  | Fin q => match f with
             | VF8 => Fin q
             | VF4 => to_single (Fin q)
             | _ => Fin (ZQ (around q))
             end
  | y => y
  end.
(** netcdf.py:149-151: what is written into the cells without value *)
Definition nc_missing (f : vfmt) (s o : Qc) : num := fadd (fmul (Fin (fillval f)) (Fin s)) (Fin o).
