(** * Exceptions: model of src/pyg2p/exceptions.py *)
From Verif Require Import Base.
Local Open Scope Z_scope.
Local Open Scope string_scope.

(** exceptions.py:1-24 the named codes *)
Definition error_names : list (string * Z) :=
  [("NOT_EXISTING_INPUT_GRIB", 1000); ("MISSING_INPUT_GRIB", 1001); ("SHORTNAME_NOT_FOUND", 1100);
   ("CONVERSION_NOT_FOUND", 1200); ("NOT_EXISTING_MAPS", 1300); ("INTERTABLE_DIR_NOT_FOUND", 1320);
   ("NOT_A_NUMBER", 1400); ("NO_MESSAGES", 3000); ("NO_GEOPOTENTIAL", 4000); ("MISSING_FORMULAS_IN_EXEC", 4100);
   ("NO_FILE_GEOPOTENTIAL", 4200); ("NO_FILE_DEM", 4300); ("NOT_IMPLEMENTED", 6100); ("NO_VAR_DEFINED", 8000);
   ("NO_INTERTABLE_CREATED", 8100); ("JSON_ERROR", 8200); ("EXISTING_GEOPOTENTIAL", 8300);
   ("INVALID_INTERPOL_METHOD", 8400); ("NO_WRITE_PERMISSIONS", 8500); ("NO_READ_PERMISSIONS", 8600);
   ("NOT_EXISTING_PATH", 8600); ("MISSING_CONFIG_FILES", 8700); ("WEIRD_STUFF", 9000); ("WRONG_ARGS", 10000)].

(** exceptions.py:29-70 [_errorMessages], in source order (beginning of each
    message); a dict literal: for equal keys the last entry wins *)
Definition message_entries : list (Z * string) :=
  [(0, "Execution command file not found"); (1000, "Did not found input file"); (1001, "Input file not set");
   (1100, "shortName not found"); (1200, "shortName - conversionId combination not found");
   (1300, "Latitude or longitude maps doesn't exist"); (1310, "Clone map doesnt exist");
   (1320, "Interlookuptables dir must exist"); (1400, "Not a number"); (1500, "TStart <= TEnd");
   (1600, "Unkwon interpolation mode"); (1700, "Unkwon ext mode"); (2000, "Found Not Handled parameter value");
   (3000, "No Messages found"); (4000, "No geopotential configured"); (4200, "Geopotential configured but file is missing");
   (4100, "Both correctionFormula, gemFormula and demMap"); (4300, "Did not found demMap file");
   (5000, "Interpolating with not existing lat/lons"); (6000, "Trying to interpolate manipulated values");
   (6100, "Not implemented"); (7001, "Geopotential grib file was not found"); (7003, "Path to grib api intertables was not found");
   (8000, "To add intertables/geopotentials"); (8100, "Interpolation table was not found"); (8200, "Error in json configuration file");
   (8300, "Geopotential already existing"); (8400, "Interpolation method not valid"); (9000, "Cannot continue");
   (8500, "You cannot write to folder"); (8600, "You cannot read from folder"); (8600, "Not existing paths");
   (8700, "Missing configuration"); (10000, "Failed to parse input arguments")].
Definition error_messages : list (Z * string) := dict_of Z.eqb message_entries.

(** exceptions.py:72-74 [get_exc]: the exception object (code, message) *)
Definition get_exc (code : Z) (details : string) : res (Z * string) :=
  do m <- dgetx Z.eqb error_messages code; Ok (code, String.append m (String.append " - " details)).

(** every code passed to [get_exc] in the package:
    aggregator.py:158,246; writers/netcdf.py:39; config.py:81,136,150,152,154,210,221,235,257,264;
    readers/grib.py:147,214,262; interpolation/__init__.py:73,96,117,230,260,292,311,340,367;
    scipy_interpolation_lib.py:556,655,874,885,910,1015,1313; latlong.py:19;
    context.py:87,92,95,98,104,107,122,129,135,137,202,212,329 *)
Definition raised_codes : list Z :=
  [6100; 8400; 8000; 8200; 8600; 8500; 1100; 1200; 8300; 4000; 4200; 3000; 8100; 5000; 6000; 9000;
   7001; 1001; 1000; 1300; 1310; 1400; 1500; 4100; 10000; 0].
