(** * Writers: model of src/pyg2p/main/writers/{__init__,pcr,netcdf}.py and of
    Pyg2pApi._mask_values (src/pyg2p/main/api.py:273-279).

    Not modelled: the GDAL and netCDF4 libraries themselves (conversion to the
    data type of the clone band, compression, global attributes), the DEBUG
    branches of NetCDFWriter.write, and float32 rounding of the f4 formats. *)
From Verif Require Import Base PyStr Num.
Local Open Scope string_scope.

(** [os.path.join(a, b)] *)
Definition path_join (a b : string) : string :=
  if starts_with "/" b then b
  else if (String.eqb a "" || starts_with "/" (rev_string a))%bool then a +++ b
  else a +++ "/" +++ b.

(** ** File names *)

(** writers/__init__.py:122-133 OutputWriter._name_pcr_map.
    [prefix], [fmap], [ext], [out_dir] are the outMaps.* options. *)
Definition name_pcr_map (out_dir prefix : string) (fmap ext i_map : Z) : string :=
  let map_number := (fmap + (i_map - 1) * ext)%Z in
  let zeroes := (11 - Z.of_nat (String.length prefix) - Z.of_nat (String.length (str_of_Z map_number)))%Z in
  let filename := prefix +++ srepeat "0"%char (Z.to_nat zeroes) +++ str_of_Z map_number in
  let filename := stake 8 filename +++ "." +++ stake 3 (sdrop 8 filename) in
  path_join out_dir filename.

(** writers/__init__.py:117-120 OutputWriter._name_netcdf_file.
    [aggr_type] is [None] when no aggregation section is configured
    (f-string formatting then gives the word None). *)
Definition name_netcdf_file (out_dir prefix : string) (aggr_type : option string) : string :=
  path_join out_dir (prefix +++ "_" +++ match aggr_type with Some t => t | None => "None" end +++ ".nc").

(** ** Clone mask *)
Local Open Scope Qc_scope.

Definition Qcabs (q : Qc) : Qc := if Qc_ltb q 0 then - q else q.

(** [np.isclose(x, v, rtol=1e-5, atol=1e-8)] *)
Definition isclose (x v : num) : bool :=
  match x, v with
  | Fin a, Fin b => Qc_leb (Qcabs (a - b)) (Q2Qc (1 # 100000000) + Q2Qc (1 # 100000) * Qcabs b)
  | PInf, PInf | MInf, MInf => true
  | _, _ => false
  end.

(** [ma.getmask(ma.masked_values(clone, mv))]: pcr.py:29-30, netcdf.py:34-35,
    api.py:269-270. [isfloat]: the clone map has a floating point type
    (otherwise masked_values compares with ==). [None] is numpy's nomask, the
    result when no cell of the clone is missing. *)
Definition clone_mask (isfloat : bool) (clone : list num) (mv : num) : option (list bool) :=
  let m := map (fun x => if isfloat then isclose x mv else neqb x mv) clone in
  if existsb (fun b => b) m then Some m else None.

(** ** PCRaster maps *)

(** [ma.filled(ma.masked_where(m, d), mv)] for [m] of the size of [d]
    ([masked_where] raises IndexError otherwise); [nomask] leaves [d]. *)
Definition fill_where (m : option (list bool)) (d : list num) (mv : num) : res (list num) :=
  match m with
  | None => Ok d
  | Some l => if Nat.eqb (List.length l) (List.length d)
              then Ok (zipw (fun (b : bool) x => if b then mv else x) l d)
              else Raise IndexError
  end.

(** pcr.py:44-50 and api.py:273-279 _mask_values. [self._mask | values.mask]
    of different shapes raises ValueError. *)
Definition pcr_mask_values (cmask : option (list bool)) (mv : num) (values : arr) : res (list num) :=
  match values with
  | Ma d m =>
      match cmask, m with
      | Some a, Some b => if Nat.eqb (List.length a) (List.length b)
                          then fill_where (Some (zipw orb a b)) d mv else Raise ValueError
      | _, _ => fill_where (mask_or cmask m) d mv
      end
  | Nd d => fill_where cmask d mv
  end.

(** [values[np.isnan(values)] = mv] on the data of an array; the mask is kept
    (a masked NaN cell is filled with [mv] afterwards in any case). *)
Definition nan_to (mv : num) (a : arr) : arr :=
  let f x := if is_nan x then mv else x in
  match a with Nd d => Nd (map f d) | Ma d m => Ma (map f d) m end.

(** pcr.py:32-42 PCRasterWriter.write: the cells written to the map file *)
Definition pcr_write (cmask : option (list bool)) (mv : num) (values : arr) : res (list num) :=
  pcr_mask_values cmask mv (nan_to mv values).

(** ** NetCDF: time axis *)

Inductive tfmt := I4 | F4.

(** netcdf.py:81-83 steps_units_netcdf_name *)
Definition steps_units_netcdf_name : list (string * string) :=
  [("s", "seconds"); ("m", "minutes"); ("h", "hours"); ("3h", "3h steps"); ("6h", "6h steps");
   ("12h", "12h steps"); ("D", "days"); ("M", "months"); ("Y", "years"); ("10Y", "10Y steps");
   ("30Y", "30Y steps"); ("C", "centuries")]%string.
(** netcdf.py:84-85 steps_units_conversion_time *)
Definition steps_units_conversion_time : list (string * Qc) :=
  [("s", Q2Qc (1 # 3600)); ("m", Q2Qc (1 # 60)); ("h", ZQ 1); ("3h", ZQ 3); ("6h", ZQ 6);
   ("12h", ZQ 12); ("D", ZQ 24)]%string.

(** [np.mod(q, 1) != 0] *)
Definition non_integral (q : Qc) : bool := negb (Qc_eqb q (ZQ (Qnum (this q) / Zpos (Qden (this q))))).

Record time_axis := { ta_fmt : tfmt; ta_units : string; ta_vals : list Qc }.

(** writers/__init__.py:70-72 (int32 array of the end steps; a larger value
    raises OverflowError) and netcdf.py:80-122. The products with the
    conversion factors are exact (int32 wrap-around of [time_values * 24] and
    binary rounding of 1/3600, 1/60 are not modelled). [grib] is the step unit
    of the GRIB messages, [out] the option outMaps.outputStepUnits. *)
Definition fits_i4 (z : Z) : bool := ((-2147483648 <=? z) && (z <=? 2147483647))%Z%bool.
Definition nc_time_units (grib : string) (out : option string) : string * option (Qc * Qc) :=
  match out with
  | Some o =>
      if dmem String.eqb steps_units_netcdf_name o then
        if negb (String.eqb o grib) then
          match dget String.eqb steps_units_conversion_time o, dget String.eqb steps_units_conversion_time grib with
          | Some ko, Some kg => (o, Some (kg, ko))
          | _, _ => (grib, None)
          end
        else (o, None)
      else (grib, None)
  | None => (grib, None)
  end.
Definition nc_time_axis (grib : string) (out : option string) (end_steps : list Z) : res time_axis :=
  if negb (forallb fits_i4 end_steps) then Raise OtherError
  else
    let '(units, conv) := nc_time_units grib out in
    let '(fmt, vals) := match conv with
      | Some (kg, ko) => let vs := map (fun z => ZQ z * kg / ko) end_steps in
                         ((if existsb non_integral vs then F4 else I4), vs)
      | None => (I4, map ZQ end_steps)
      end in
    do name <- dgetx String.eqb steps_units_netcdf_name units;
    Ok {| ta_fmt := fmt; ta_units := name; ta_vals := vals |}.

(** [time_nc[:] = time_values] (netcdf.py:122): an i4 variable can only hold
    values that fit in 32 bits; [None]: the stored value is unspecified (the
    cast of an out-of-range float to int32). *)
Definition nc_stored_time (fmt : tfmt) (v : Qc) : option Qc :=
  match fmt with
  | F4 => Some v
  | I4 => if fits_i4 (Qnum (this v) / Zpos (Qden (this v))) then Some v else None
  end.

(** ** NetCDF: packed values *)

(** netCDF4 value formats: those a NETCDF4_CLASSIC file (netcdf.py:53) can
    hold *)
Inductive vfmt := VI1 | VI2 | VI4 | VF4 | VF8.
Definition vfmt_of (s : string) : option vfmt :=
  dget String.eqb [("i1", VI1); ("i2", VI2); ("i4", VI4); ("f4", VF4); ("f8", VF8)]%string s.
(** [default_fillvals[value_format]] (netcdf.py:129) raises KeyError for a name
    the library does not know; createVariable (netcdf.py:131-133) then refuses
    the unsigned and 64-bit types in a NETCDF4_CLASSIC file (RuntimeError), and
    the fill value of S1 cannot be converted for [np.float64] (ValueError) *)
Definition refused_formats : list string := ["u1"; "u2"; "u4"; "i8"; "u8"]%string.
Definition nc_format (s : string) : res vfmt :=
  match vfmt_of s with
  | Some f => Ok f
  | None => if existsb (String.eqb s) refused_formats then Raise OtherError
            else if String.eqb s "S1" then Raise ValueError else Raise KeyError
  end.
Definition is_int_fmt (f : vfmt) : bool := match f with VF4 | VF8 => false | _ => true end.
(** [netCDF4.default_fillvals] *)
Definition fillval (f : vfmt) : Qc :=
  match f with
  | VI1 => ZQ (-127) | VI2 => ZQ (-32767) | VI4 => ZQ (-2147483647)
  | VF4 | VF8 => ZQ 9969209968386869046778552952102584320
  end.

(** [np.around(q)]: nearest integer, ties to even *)
Definition around (q : Qc) : Z :=
  let n := Qnum (this q) in let d := Zpos (Qden (this q)) in
  let f := (n / d)%Z in let r := (2 * (n mod d))%Z in
  if (r <? d)%Z then f else if (d <? r)%Z then (f + 1)%Z
  else if Z.even f then f else (f + 1)%Z.

(** the netCDF4 library, [set_auto_maskandscale(True)] (netcdf.py:146): what a
    value assigned to the variable is stored as. Values outside the range of an
    integer format are not modelled. *)
Definition nc_pack (f : vfmt) (scale offset : Qc) (v : num) : num :=
  match ndiv (nsub v (Fin offset)) (Fin scale) with
  | Fin q => if is_int_fmt f then Fin (ZQ (around q)) else Fin q
  | x => x
  end.

(** What a reader sees: the library masks fill values and values outside the
    valid range (compared before unpacking), then unpacks. [None] is missing. *)
Record nc_var := { nv_fmt : vfmt; nv_scale : Qc; nv_offset : Qc; nv_fill : Qc;
                   nv_min : option Qc; nv_max : option Qc; nv_cells : list (list num) }.
Definition nc_read_cell (v : nc_var) (x : num) : option num :=
  if neqb x (Fin (nv_fill v)) then None
  else if match nv_min v with Some lo => nltb x (Fin lo) | None => false end then None
  else if match nv_max v with Some hi => nltb (Fin hi) x | None => false end then None
  else Some (nadd (nmul x (Fin (nv_scale v))) (Fin (nv_offset v))).

(** netcdf.py:170-183 NetCDFWriter._mask_values for a stack of fields given as
    a plain array (which is what OutputWriter passes). A clone without missing
    cell has mask nomask, of shape (), which is never the shape of a field; a stack
    of no field has shape (0), which leaves the shape () to compare. *)
Definition nc_mask_values (cmask : option (list bool)) (mv : num) (values : list (list num)) : res (list (list num)) :=
  match cmask, values with
  | None, [] => Ok []
  | None, _ | Some _, [] => Raise ValueError
  | Some l, _ => if forallb (fun d => Nat.eqb (List.length l) (List.length d)) values
              then Ok (map (zipw (fun (b : bool) x => if b then mv else x) l) values)
              else Raise ValueError
  end.

(** netcdf.py:124-168 for one variable: [vformat] is outMaps.valueFormat
    ([None]: f8); scale, offset and the valid range have been converted with
    np.float64. *)
Definition nc_write (cmask : option (list bool)) (vformat : option string) (scale offset : Qc)
    (vmin vmax : option Qc) (values : list (list num)) : res nc_var :=
  do f <- nc_format (match vformat with Some s => s | None => "f8" end);
  let mv_scaled := Fin (fillval f * scale + offset) in
  do masked <- nc_mask_values cmask mv_scaled values;
  let filled := map (map (fun x => if is_nan x then mv_scaled else x)) masked in
  let packv o := match o with Some v => Some ((v - offset) / scale) | None => None end in
  Ok {| nv_fmt := f; nv_scale := scale; nv_offset := offset; nv_fill := fillval f;
        nv_min := packv vmin; nv_max := packv vmax;
        nv_cells := map (map (nc_pack f scale offset)) filled |}.

(** writers/__init__.py:68,73: [out_v[out_v == mv_output] = nan] (masked cells
    compare False) and [np.array(out_values, dtype=float64)], which keeps the
    data of masked arrays and drops their masks. *)
Definition nc_field (mv_out : num) (a : arr) : list num :=
  match a with
  | Ma d (Some m) => zipw (fun (b : bool) x => if negb b && neqb x mv_out then NaN else x)%bool m d
  | Nd d | Ma d None => map (fun x => if neqb x mv_out then NaN else x) d
  end.
Definition nc_write_fields (cmask : option (list bool)) (mv_out : num) (vformat : option string)
    (scale offset : Qc) (vmin vmax : option Qc) (fields : list arr) : res nc_var :=
  nc_write cmask vformat scale offset vmin vmax (map (nc_field mv_out) fields).
