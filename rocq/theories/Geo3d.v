(** * Geo3d: geographic to Cartesian coordinates
    (src/pyg2p/main/interpolation/scipy_interpolation_lib.py:664-697).
    Real numbers; rounding is not modelled. *)
From Verif Require Import Base.
From Coq Require Import Reals Lra.
Local Open Scope R_scope.

(** the keys of the grid that are used; [None]: the message has not the key *)
Record geodetic := mkGeo { g_radius : option R; g_lat_pole : option R; g_lon_pole : option R }.
Definition radians (x : R) : R := x * PI / 180.
(** lines 668-670 *)
Definition fx (lon lat : R) : R := cos lon * cos lat.
Definition fy (lon lat : R) : R := sin lon * cos lat.
Definition fz (lon lat : R) : R := sin lat.
(** [90 + None] and [radians(None)] are TypeErrors, numexpr refuses None with a
    ValueError *)
Definition need (x : exn) (o : option R) : res R := match o with Some r => Ok r | None => Raise x end.
(** lines 664-697 *)
Definition to_3d (g : geodetic) (lon lat : R) (rotate to_regular : bool) : res (R * R * R) :=
  let lo := radians lon in let la := radians lat in
  let x := fx lo la in let y := fy lo la in let z := fz lo la in
  if to_regular then
    do a <- need TypeError (g_lat_pole g); do b <- need TypeError (g_lon_pole g);
    let teta := - radians (90 + a) in let fi := - radians b in
    Ok (cos teta * cos fi * x + sin fi * y + sin teta * cos fi * z,
        cos teta * sin fi * x + cos fi * y - sin teta * sin fi * z,
        - sin teta * x + cos teta * z)
  else if rotate then
    do a <- need TypeError (g_lat_pole g); do b <- need TypeError (g_lon_pole g);
    let teta := radians (90 + a) in let fi := radians b in
    Ok (cos teta * cos fi * x + cos teta * sin fi * y + sin teta * z,
        - sin fi * x + cos fi * y,
        - sin teta * cos fi * x - sin teta * sin fi * y + cos teta * z)
  else
    do r <- need ValueError (g_radius g);
    Ok (r * x, r * y, r * z).
