# Formal model of ec-jrc/pyg2p in Rocq (Coq 8.16.1)

## 1. Layout

`/verif/rocq/theories` (logical name `Verif`):

| file | content |
|---|---|
| `Base.v`, `Base_P.v` | Python run-time vocabulary (exceptions as values, `range`, insertion ordered dictionaries, stable sort, bisect) and its lemma library |
| `Num.v`, `Num_P.v` | numbers and (masked) arrays, numpy/numexpr operations used by the code |
| one model file per source file | branch by branch transcription; every definition cites file and lines |
| `Spec_*.v` | small independent vocabulary used in theorem statements |
| `*_P*.v` | proofs |
| `Props_*.v` | the property theorems only (`exact lemma`), non-vacuity examples, refutation witnesses, `Print Assumptions` |

Convention: if a property is false of the faithful model, the full statement is kept as
`Cxx_full : Prop` (or spelled out), `Cxx_..._refuted : ~ Cxx_full` is proved with a witness,
and what does hold is proved as `Cxx_..._partial`. The witness is the finding (section 5).
For 26 properties (C09 C10 C12 C14 C17 C18 C24 C25 C28 C37 C39 C40 C49 C50 C57 C58 C62 C63 C64 C65
C66 C76 C78 C80 C83 C90) the first wording turned out to be false only outside a natural condition
(well-formed entries, sizes that fit the format, documented use). Their statement in
properties.jsonl now names the condition, and what the code does without it, and all of it is
proved; the first wording stays in the field `first_wording`, together with the names of the
`_refuted` theorems that show it false, and the theorems are no longer called `_partial`. Properties
whose failure is a defect for inputs a user may well have stay `partial`. The loss of masks
by extraction (C12) and cut-off (C18) is now part of C11.

## 2. Modelling decisions

* Exceptions are values: `res A := Ok a | Raise exn`. Exceptions carry the Python class or the application error code.
* Loops are folds over lists (`foldM`, `mapM`), dictionaries are association lists in insertion order.
* Numbers: exact rationals `Qc` extended with `+inf`, `-inf`, `NaN` (IEEE comparison rules, `x/0` rules).
  Rounding is a second layer (C109-C118): `Float64.v` rounds a rational to binary64 (proved equal to the rounding of Flocq, `round64_ieee`), `AggregatorWith.v` is the aggregator over
  any four operations (with the exact ones it is `Aggregator.v` by reflexivity), `Float_Sum.v` gives numpy's sums and einsum in any order as relations.
  The other properties are about exact arithmetic. Not modelled: signed zeros, dtype ranges (except where a property is about them).
* Arrays: `Nd data` (plain ndarray) or `Ma data mask` (numpy masked array), flattened. Shape mismatches raise `ValueError`; size-1 broadcasting is not modelled.
* Transcendental functions (cos, exp, sqrt ...) are function parameters of the definitions and quantified in theorems, with the facts needed as explicit hypotheses, satisfied in the examples.
* File system, GRIB/NetCDF/PCRaster libraries, scipy's kd-tree are parameters (oracles) of the model: the result of the external call is an arbitrary argument constrained by explicit hypotheses of the theorem.

Assumed numpy / numexpr behaviour (part of the trusted base):
`ne.evaluate` ignores masks and returns a plain array; `/` is true division; `ndarray += MaskedArray` leaves a plain array
holding the raw data; `np.append`/`np.concatenate` drop masks; `ma.masked_where(None, x)` means "no mask";
masked array arithmetic ORs masks; `masked * scalar` keeps the original data under masked cells.

## 3. Trusted base

* Coq 8.16.1 kernel, `vm_compute` (used for witnesses), coqc.
* `Print Assumptions` under each theorem: see section 6 (every theorem is "Closed under the global context" unless listed there).
* The reading of /repo: each definition cites the lines it models.
* The assumptions on numpy/numexpr/Python listed in section 2 and in the header of each model file.

## 4. Per property: model and proof method

| id | model | theorems in | method |
|---|---|---|---|
| C01-C16 | `Aggregator.v` (manipulation/aggregator.py, complete) | `Props_Aggregation.v`, `Props_Aggregation2.v` (C04 with any number of gaps; vocabulary `Spec_Aggregation2.v`) | induction over the step range (loop invariants on the output dictionary), relational induction for C15/C16 |
| C17-C19 | `Converter.v` (manipulation/conversion.py; `Messages.apply_conversion`) | `Props_Manip.v` | pointwise lemmas on `where`, list induction |
| C20-C21 | `Corrector.v` (manipulation/correction.py) | `Props_Manip.v` | pointwise lemmas; state machine over a history of executions sharing the class-level cache |
| C22-C27, C66 | `Config.v` (main/config.py) | `Props_Config.v`, `Props_Config4.v` (C22, exact content; vocabulary `Spec_Config4.v`) | induction over lines / entries / histories; dictionary algebra; file system as predicate |
| C28-C29, C34-C36 | `Controller.v` (main/controller.py, main/__init__.py), using Reader, Aggregator, Writers, Interp | `Props_Controller.v` | effect trace of a whole execution; case analysis; sorting lemmas |
| C30-C33 | `Context.v` (main/context.py) | `Props_Context.v` | first-failure decision list; precedence lemmas |
| C37-C40 | `Writers.v` (main/writers/*.py) | `Props_Writers.v` | decimal representation lemmas, pointwise lemmas, rational arithmetic |
| C41-C43 | `Interp.v` (main/interpolation/__init__.py, latlong.py) | `Props_Interp.v` | search loop invariant over a shared file system with crashes and several processes; list induction |
| C44-C47 | `GribInterp.v` (interpolation/grib_interpolation_lib.py) | `Props_GribInterp.v` | permutation/partition lemmas, rational arithmetic |
| C48-C50 | `Scipy.v` (interpolation/scipy_interpolation_lib.py: tables, splits, nearest, invdist); `BilinearSplits.v` (mode bilinear in parts) | `Props_Scipy.v`, `Props_Bilinear10.v` (C48 in mode bilinear), `Props_Triang7.v` (C48 in the Delaunay modes), `Props_Widest.v` (numbers of splits of mode bilinear; the widest angle and the pairing of C75) | rational arithmetic with an oracle for the kd-tree |
| C51, C67 | `Adw.v` (same file, ADW) | `Props_Adw.v` | real arithmetic (exp, cos as in Reals) |
| C52, C68, C69 | `Adw.v` (same file, CDD) | `Props_Cdd.v` | real arithmetic, any answer of argpartition |
| C53, C54, C70-C72 | `Bilinear.v` (same file, bilinear) | `Props_Bilinear*.v` | real plane geometry; kd-tree, fsolve and argsort as oracles; fuel for the search loop, theorems for every fuel |
| C55, C73-C75 | `Triang.v` (same file, triangulation / bilinear_delaunay) | `Props_Triang*.v` | real plane geometry, barycentric coordinates; Delaunay, argsort and fsolve as oracles |
| C56 | `Geo3d.v` (`GeocentricConverter` and rotation) | `Props_Geo3d.v` | trigonometry over Reals |
| C57-C60 | `Reader.v` (main/readers/grib.py, util/generics.py, `Messages`) | `Props_Reader.v`, `Props_Reader3.v` | invariants over message lists and handle sets |
| C61-C63 | `Strings.v` (main/api.py, util/strings.py, main/context.py argument handling) | `Props_Strings.v` | string induction |
| C22, C32, C33, C61, C68 (texts) | `PyStr.v` (character classes, strip, change of case) | `Props_Chars.v` | against literal lists of characters (all 256 codes by computation, texts by induction), so that the specifications that speak of blanks and digits do not depend on the model's classes |
| C64 | `Aggregator.v` / `Controller.v` (`Step`, keys) | `Props_Controller.v` | equality/ordering lemmas |
| C76-C78 | `Setup.v` (options of interpolation in context.py, api.py), `Context.v`, `Config.v`, `Interp.v` | `Props_Setup.v`, `Props_Setup2.v` | inversion of the set-up; equality of two set-ups; history of executions with a ghost of the options a table was made with |
| C79 | `Reader.v` | `Props_Reader2.v` | inversion, permutations of the accepted messages |
| C80-C83 | `Target.v` (readers/netcdf.py, readers/pcr.py, interpolation/latlong.py, the output side of the writers) | `Props_Target.v` | inversion of the reader; pointwise lemmas on cells of arrays |
| C84 | `Flow_P.v`, vocabulary in `Spec_Flow.v` (composition of `Reader.v`, `Controller.v`) | `Props_Flow.v` | inversion of the state monad of the execution; reader invariants (`good_world`) carried through every call; permutations for the selection |
| C85 | `Adw.v` (`part_cdd`, `cdd_s`, `station_cdd`, `read_options`) | `Props_Cdd2.v` | row by row from the KD-tree specification; formulas of C52, C69; truncation lemma for the place of a station |
| C24 (text), C86-C89 | `Json.v` (json.dumps with indent and sorted keys, json.load), `Store.v` (dump and load as text, killed and concurrent processes, download_data, check_conf, files.ls) | `Props_Store.v`, `Props_Store2.v` | printer/parser inversion by induction on values, with the parser extended to longer texts (so that a cut text is rejected); invariants over histories of sessions, schedules and attempts |
| C90 | `Args.v` (the option table and argparse of CPython 3.11.10: classification of arguments, abbreviations, grouped flags, int()); the model was compared with the real argparse on 2400 random command lines without a difference | `Props_Args.v` | soundness and completeness of the parser against an inductive description of spellings, by induction on the arguments |
| C91 | `Details.v` (parameter_details; the repr of lists and objects is a parameter) | `Props_Details.v` | case analysis, induction on the conversions |
| C92 | `Scipy.v` (check_counts, scipy_invdist: lines 523-563, mode invdist, no splits) | `Props_Scipy2.v` | the four nearest points from the KD-tree specification |
| C93 | `Program.v` (arguments, context, execution, exit status: read_argv + pyg2p_exe) | `Props_Program.v`, `Program_P.v` | composition of C90, C32, C34, C84 and an analysis of where the error for no messages can come from |
| C94-C96 | `Controller.v`, `Reader.v`, `Aggregator.v`, `Converter.v` (composed by `execute`) | `Spec_Series.v`, `Series_P.v`, `Props_Series.v`, `Props_Half.v` (half weights), `Props_Gaps.v` (missing steps, as far as C04 holds) | inversion of a successful execution, the messages selected (second attempt included), then C01, C07/C10, C12 and the order of writing (C35) |
| C97 | as C94-C96 | `Spec_Total.v`, `Total_P.v`, `Props_Total.v`, `Props_Half.v`, `Props_Gaps.v` | forward simulation: every step of the execution returns a value when the messages are complete; the windows by C01, C07, C12 |
| C98 | Api.v (returned dictionary, mask, PCRaster writing, missing auxiliary message) on Controller.v; Spec_Api.v, Props_Api.v; a simulation between the two executions, which differ in the numbers of the handles (Sim_P.v to Sim_P6.v): equal errors, equal fields, grids that denote the same messages; then the loops of the two outputs | partial: full statement refuted (NaN; tables of the grib modes), the rest proved |
| C99 | histories of commands and API calls (Api.v perform, history); induction over the history with C28; counts of indexes and files (Sim_P7.v) | partial: refuted for API calls, the exact number of readers left open proved; commands leave nothing open |
| C100 | look_for_geopotential / has_geopotential with the member left selected in the index (Reader.v, Controller.v chosen_member), geo_file (Correction.v); state of the controller followed through execute (Correction_P2.v geo_execute) | partial: refuted for ensemble members; exact condition proved |
| C101 | _read_geo through the real reader model (Correction.v read_geo_file); dictionary of the steps built message by message, first smallest end step, last binding (Correction_P.v) | partial: refuted for files with several grids; exact choice proved |
| C102 | get_instance, __init__, _read_geo over histories with files changing (Correction.v corr_run); counts of handles by induction (Correction_P.v) | partial: refuted for failures; exact counts proved |
| C103 | the fallback of the constructor (reader without index) through init_execution and select_messages (Correction_P2.v not_indexed) | partial: refuted; such commands never write anything, proved |
| C104 | nc_format of the netCDF writer (Writers.v), the library's refusal of the types outside the classic data model | partial: refuted for u1, u2, u4, i8, u8; the exact formats and fill values proved |
| C105 | the bilinear search of Bilinear.v (build_weights_bilinear) with arbitrary retries and fuel, against within/surrounds | partial: refuted on the northernmost parallel; the rectangle of the four nearest points proved to give the classical value |
| C106 | the bilinear search for one source in both longitude conventions (turned) | partial: refuted for sources west of Greenwich; equality proved within both ranges or for global sources |
| C107 | the bilinear search with a KD-tree over the source, angles from an exact spec (is_angle, with a witness built from acos), argsort as in C54 | partial: refuted (AttributeError without a quadrilateral); proved to be the only failure |
| C108 | `Interp.v` (file search, reading, saving, crashes), places and directories said independently in `Props_Interp2.v` | partial: refuted for compressed tables in the grib modes and for a kill during the second creation; proved: every outcome of the search, all later histories |
| C109 | `Float64.v`, `AggregatorWith.v`; vocabulary `Spec_Float.v` | proved: the loops for two arithmetics are related step by step (`form_with`); link to Flocq |
| C110 | `AggregatorWith.v` with rounded operations | proved: error analysis of three roundings, signs by monotonicity of the rounding; missing steps (`Props_Float4.v`): the loop always interpolates between original fields (`AggregatorWith_P4.v`, for any arithmetic), and the rounded interpolation is monotone and stays between them (`Float_Line_P.v`; when the difference of two doubles is rounded up it is far from the subnormals, so the factor below 1 absorbs the errors); totals (`Props_Float5.v`, `Float_Total_P.v`): the exact parts telescope, the errors add up to the same relative error because no part is negative |
| C111 | same | proved: induction over the sum with the invariant error at most 2 j u times the sum of absolute values; half weights (`Props_Float3.v`): the loops are evaluations in the sense of `Float_Sum.v`, quotient of two sums; the exact range is refuted |
| C112 | `Float_Sum.v` (`einsum_any`: any order, bracketing, fusing) | proved by induction over the evaluation |
| C113 | `Float_Sum.v` (`normalised64`, `invdist_weights64`) | proved: quotient of a weight by a rounded sum, inverse squares |
| C114 | same | proved from C112 and C113; exactness refuted |
| C115 | `CellStore.v`: GDAL's conversion of the written array to the type of the clone map | single precision clones: relative error of Flocq; whole numbers: nearest and clamped; beyond the range of single precision: infinite (`Props_Overflow.v`); refuted by a mask clone |
| C116 | `CellStore.v`: scaling and unscaling of the fill value in float64 | error bound (integer and f4 formats), absorption lemma (f8); refuted with the scale factor 0.03 |
| C117 | same | error bounds from Flocq's relative errors |
| C118 | `CornersFloat.v` (weights of quadrilaterals and triangles in float64, results of fsolve and of the triangulation given); vocabulary `Spec_Corners.v` | partial: quadrilaterals proved (three roundings, C112); triangles: error bound, refuted for the sign |
| C119 | `Install.v` (setup_data_files over a map of files, copying by setuptools, histories of installations and user changes); vocabulary `Spec_Install.v` | proved: the three destination folders are disjoint, induction over the history |
| C120 | `Numexpr.v`: texts of numbers, names, + - * / and parentheses (Python's precedence), evaluated with a rounding after every operation; a literal is the nearest double; division by a decimal literal is the multiplication by its rounded reciprocal, as numexpr compiles it | proved: two roundings per formula (`Numexpr_P.v`); the order by monotonicity of the rounding, by induction on the formula; the reading by soundness of the parser for an inductive grammar, other names refused by induction on the formula |
| C121 | the same, in the corrector of `Corrector.v` | proved: four roundings (`Numexpr_P2.v`); the order by monotonicity; cells by C20 |
| C65 | `Exceptions.v` (exceptions/__init__.py) | `Props_Manip.v` | finite table |

`tools/claims.txt` holds the exact theorem names and notes (MANIFEST.json is generated from it).
No property is considered inexpressible.

## 5. Findings (behaviour of the code that contradicts a listed property)

Each item marked with an id has a `_refuted` theorem with a concrete witness. Items without id were noticed
while reading and are recorded in the model's comments.

**Aggregation.** C04 two adjacent missing steps raise IndexError; a missing start of the first window is interpolated at the wrong time.
C06 the mask of the window end is dropped. C09 half weights with one available end leave the range of the inputs. C10 one window may extend past the requested end.
C11, C12 masks are lost by averages and instantaneous values. C14 input step 0 gives a wrong read window. C64 two fields with the same end step are merged.

**Conversion, correction.** C17 every `x=` is deleted from the formula, also that of `x==0`. C18 masked cells are not protected from the cut-off.
C20 missing cells of the geopotential / DEM are computed with. C21 the class-level cache of correctors is keyed by grid id and DEM only and survives executions. C65 NO_READ_PERMISSIONS and NOT_EXISTING_PATH share the code 8600. A missing DEM file raises 4200 and not 4300.

**Configuration.** C22 a value containing `=` is cut. C24 an empty user configuration is written as a file that cannot be reloaded.
C25 missing id / short name give KeyError. C26 a geopotential added is not found by the same process, a second add overwrites, equal base names overwrite each other's file.
C66 an undefined `{VAR}` gives KeyError and not 8000. C29 the commands -W, -K, -g never do anything.

**Execution context.** C30 an end of 0 skips the range check; a numeric JSON level gives AttributeError; the JSON format is never checked.
C31 `-f 1`, `-x 1` given on the command line lose to the command file; dataTime 0 of the file is ignored.
C33 the API ignores half weights; the text `False` switches them on. C61-C63 API arguments: flags with values, names cut by `strip`, empty strings; different names can be normalised to one (C62).
C76 a correction without formula, gem or DEM is silently not done. C77 a stored table is reused whatever the options, the cdd_map path is not variable-expanded, the text `False` is a true switch.
C78 the defaults of API and command file differ (fmap, ext, parallel, intertable directory, half weights, format).

**Reading.** C57 upper case short names are read twice. C58 several levels give step 0. C59 second close TypeError, second selection and get_id leak handles.
C60 dataTime 03:00-09:59 ValueError, 01:mm/02:mm and 00:mm misread. C34 a selection that is empty is retried by startStep and returns fields outside the window; start absent means 0; end 0 means the end of the file.

C79 the unit and the step type come from the second message, the rest from the first; a second file in another unit is labelled with the unit of the first.

**Controller.** C28 a NetCDF writer closed before its file exists raises AttributeError. C35 change of resolution without aggregation is a TypeError, a single window after the change is lost. C36 instantaneous aggregations produce the change step twice; accumulations lose the first resolution. The API never closes its readers; API format None is NetCDF.

**Writers.** C37 names longer than 11 characters are cut and collide. C38 the NetCDF writer raises ValueError for a clone without missing cells and drops masks.
C39 time values overflow int32 silently. C40 negative scale factors turn the valid range around; integer variables truncate.

**Interpolation tables.** C41 two directories (-N), a name already in the global directory, or two processes at once give wrong / lost tables.
C42 identifiers ignore latitudes, rotation, the cells and decimals of the cell size: a table is applied to another geometry. C43 np.append drops masks.
C44 grib_invdist with an exact match reads point 0 with coefficient 0; a longitude of -1e10 misaligns the table. C47 1-249 cells: ZeroDivisionError.

**scipy modes.** C48 splits: nearest never works; more splits than rows ValueError; 0 ZeroDivisionError; negative: uninitialised table; CDD Hofstra/Mix ValueError; NewEtAl silently other values; bilinear: the number of retries is the number of rows of the part, so with splits a cell may silently take the quadrilateral of the cell before it; bilinear_delaunay: the pairs of triangles are made anew in every part, so the same cell may get another quadrilateral; every mode with a progress bar fails on parts of less than 250 cells.
C49 nearest below 250 cells ZeroDivisionError; no Nj TypeError. C50 a cell out of bounds gets NaN; fewer than four points IndexError.
C51 equidistant neighbours give NaN weights. C67 radius off by one with exactly 4 or 10 points. C52 neighbours in one direction give NaN. C68 cdd_options read by position. C69 OnlyTOP10 drops the nearest on a tie.
C53 a cell whose retries are used up takes the quadrilateral of the previous cell. C70 equator points and target longitudes above 180 are drawn elsewhere. C71 hence rows depend on other cells. C72 the search can run for ever.
C55 the first padded point is not mapped back (`>` for `>=`); latitudes of the target are scaled from the first column; sources south of or up to the equator fail. C73 bilinear_delaunay depends on the order of cells. C74 IndexError for a single triangle.
C56 to_regular has a wrong sign and the rotation forgets the radius: rotated targets are never interpolated.
Several exceptions are created without `raise` (lines 556, 874, 885, 910, 1313 of scipy_interpolation_lib.py).

**Target maps.** C80 a netCDF target over (lon, lat) is silently transposed when square; a second variable with two dimensions gives UnboundLocalError; a time dimension gives ValueError.
C81 a netCDF DEM whose missing_value differs from _FillValue, or a float variable without both, has its fill value taken as an altitude.
C82 with a netCDF target, cells without value are written as 9.97e36 in PCRaster maps and API arrays. C83 the coordinates of a netCDF output are the first row and column of the target: wrong for rotated grids and when the first row or column has missing cells.

C84 a selection that is empty in the requested window is repeated with the range of the file, and fields outside the window are written. With no member requested, two members at the same step share a key and one field is lost.
C85 in mode NewEtAl the place of a station in the CDD map is truncated and not rounded: a station in the half of its cell nearer to the first cell of the target gets the cut-off of the neighbouring cell.
C86 a file left incomplete by an interrupted download exists, and is skipped by every later download.
C87 the configuration file is truncated before it is written: a process killed in between leaves a file that makes every later start fail with JSON_ERROR.
C88 processes that run at the same time overwrite each other's entries; a start during a dump fails with JSON_ERROR; two dumps at the same time can leave the tail of the longer text.
C89 check_conf indexes the description string with 'filename' and so fails on every configuration file made by pyg2p; it looks for names ending in npy although tables are .npy.gz; bare names are tested for being folders relative to the working directory; when it removes every entry it writes the string of two braces, which cannot be loaded.
C90 a negative number with an exponent (`-vm -1e5`) is taken for an unknown option and the line is refused; it has to be written `-vm=-1e5`. Beginnings of long option names (`--st`) are accepted.
C91 parameter_details raises KeyError for a parameter without conversion or whose conversion has no @cutOffNegative: 16 of the 32 parameters shipped and the example written at the first start; without a name it lists the keys of the user file, including `description`, and not the shipped parameters.

C92 scipy_interpolation_lib.py:556 creates the exception for a field whose size differs from the coordinates but does not raise it: longer fields are accepted silently, shorter ones fail with IndexError only if a nearest point has no value.
- C93 main/__init__.py:53-56 turns every NO_MESSAGES error into status 0, also the one raised for an empty geopotential file by the correction (correction.py:85-88), when part of the maps is already written; and a file that has the variable only under a variant name (capitals, var) is skipped with status 0 because the steps are looked up under the exact name (context.py:170-178 against 145-150).
- C94 amounts since the start are found only because the selection is tried again without the first step when nothing matches (grib.py:142-145): a file that mixes such messages with others of the same variable in the window loses them; the theorem therefore asks that all messages of the variable begin at step 0.
- C97 the hypotheses are the list of what a command needs to succeed: in particular readable hours (C60), windows that all have their bounds (C04, C05) and no messages of type accum for averages and instantaneous maps.
- C98 (api.py:281-314): PCRasterWriter.write replaces NaN by the missing value before writing (pcr.py:33), Pyg2pApi._mask_values does not: a cell
  that is NaN after conversion or interpolation is NaN in the returned dictionary and missing in the map of the command. The API makes an interpolator of its own (api.py:291)
  and never gives it the auxiliary message (controller.py:100-105 gives it to the interpolator of the writer, which the API does not use):
  with grib_nearest or grib_invdist and no table, the command creates the table and the API passes None to eccodes.
- C99 (api.py:286-290): neither the reader nor the controller of an API call is closed: each call leaves two readers (indexes or files) open, three with a second input file, and all handles selected.
- C100 (grib.py:84-105 with 113-117): has_geopotential selects only the short name; the member selected by get_grib_info stays selected in the index, so in an ensemble file a geopotential
  without perturbationNumber (common to all members) is not found and the registered file is used instead, or its absence is an error.
- C101 (correction.py:84-107): the grid id of the geopotential is never compared with that of the field; with several geopotential messages the choice follows steps and level only:
  z on pressure levels, or z and orog together (different quantities), are not told apart: the last of the same step and level wins.
- C102 (correction.py:84-107): no try/finally: every failure after GRIBReader(...) leaves the reader open. The instance is not stored then, so each retry leaks again. The maps of a command
  (C28, C99: xt_map) are modelled with a correction that leaves nothing open, which by C102_success_partial is the case of every correction that succeeds; a failing one leaks in addition.
- C103 (grib.py:24-48, 107-137): when codes_index_new_from_file fails the file is read as a stream; get_grib_info reads it to its end and nothing rewinds it: select_messages finds nothing, the command
  ends with NO_MESSAGES (status 0, no map) for every such input file. A second input file is only selected from and works.
- C104 (netcdf.py:53, 129-133; README valueFormat): files are created as NETCDF4_CLASSIC, whose data model has no unsigned and no 64-bit integers: u1, u2, u4, i8 and u8 end with the RuntimeError of the library.
- A stack of no field (no map to write) passes the mask check only for a clone without missing cell (netcdf.py:172: values.shape[1:] is then (), as is the shape of nomask).
- C105 (scipy_interpolation_lib.py:164-206, 1199-1304): lat <= lat_in counts as up, so on the northernmost parallel no point is ever down: the replacement rules never end, the row is the stale quadrilateral of the previous cell or an exception.
- C106 (scipy_interpolation_lib.py:1157-1166, 1226-1229): the extreme longitudes of the source are compared without normalisation with a target in -180..180: a source in 0..360 west of Greenwich gives only missing cells; one that crosses Greenwich passes for global.
- C108 (interpolation/__init__.py:275-286, 322-336): the grib modes test only the plain path although the search accepts path + '.gz': a compressed table is found, then refused (8100) or built again.
- C108 (interpolation/__init__.py:93-99, 252-256): a table whose file was lost is written again under its registered name; a kill during that leaves a damaged file which every later process finds and fails to read.
- C66: doubled braces around a name give a text that still looks like a variable and is refused with 8000; a single brace is a ValueError.
- C26: removing the only entry of a user file without description writes the JSON string "{}", which no later process can load (ValueError).
- C111 (aggregator.py:208-232): the average of equal values need not be that value: 0.1 three times gives 0.10000000000000002.
- C114: a constant field interpolated with normalised weights is not exactly constant: weights for the distances 0.1 and 0.6 turn 3.0 into 3.0000000000000004, so values can exceed a bound such as 100 % by some units in the last place.
- C115: the cells of PCRaster maps get the type of the clone map. With a boolean or nominal clone (a mask) the values are silently rounded to whole numbers and cut to the range (0.4 becomes 0, 300 in a byte map becomes 255, which is its missing value).
- C116: in netCDF files of format f8 (the default) with a scale factor such as 0.03, 0.7, 1.1 (about a quarter of the decimal fractions with three digits), the cells without value are stored as the neighbour of the fill value: scaling and unscaling 15 * 2^119 is not exact. Readers take them as numbers near 1e37 times the scale factor.
- C118 (scipy_interpolation_lib.py:1509-1511): the third weight of a triangle is 1 - (b0 + b1) and nothing is clipped (the bilinear weights are): for a target on the border of its triangle it can be -2.2e-16; precipitation that is 0 at two corners becomes negative. The cut-off of negative values is applied before the interpolation.
- C119 (setup.py:117-126), the other side: since existing files are never replaced, a correction of a released user configuration (parameters.json) does not reach users who have an older one, changed or not; only the package's own copy is refreshed, and the user's entries take precedence (C23).

- C97 averages without half weights from step 0 always fail when the last step plus 1 is a multiple of the aggregation step, in particular every hourly average: the window added by aggregator.py:170 needs a message after the last step, and messages are only read up to it.

- C80: a netCDF target whose only gridded variable has one row is accepted with several latitudes: the latitudes get as many rows as the file has latitudes, the longitudes one row (C80_other_size).
- C61: commands of several lines: only the first line is read, the rest is silently dropped (C61_first_line); a carriage return in the middle of any line is a csv.Error that nothing catches (C61_carriage_return).

## 6. Print Assumptions

Every theorem in the manifest is followed in its `Props_*.v` file by `Print Assumptions`. The theorems of
`Props_Aggregation`, `Props_Manip`, `Props_Config`, `Props_Context`, `Props_Strings`, `Props_Writers`, `Props_Reader`,
`Props_Controller`, `Props_Interp`, `Props_GribInterp` and `Props_Scipy` over rationals print "Closed under the global context".
The theorems over real numbers (`Props_Adw`, `Props_Cdd`, `Props_Bilinear*`, `Props_Triang*`, `Props_Geo3d`, and those of the other files that mention
real functions, and `Props_Float`, `Props_Float2`, `Props_Float3`, `Props_Float4`, `Props_Float5`, `Props_Numexpr`, `Props_Numexpr2`, `Props_Cells`, `Props_Corners`, `Props_Widest`, `Props_Overflow`, whose error bounds are proved with Flocq's real numbers) print a subset of these axioms of Coq's standard library:

* `ClassicalDedekindReals.sig_forall_dec`, `ClassicalDedekindReals.sig_not_dec` (construction of the reals)
* `FunctionalExtensionality.functional_extensionality_dep`
* `Classical_Prop.classic`

No axiom, parameter or admitted proof is added by this development.

## 7. What is not modelled

rounding outside C109-C118, C120 and C121, numexpr texts with functions, powers, comparisons or exponents, dtype ranges other than the int32 time axis, numpy size-1 broadcasting, numba typing limits, values beyond the range of an integer netCDF format (the conversion of GDAL to the type of a PCRaster clone map is modelled from its documentation),
logging and progress output, the text layout of NetCDF metadata attributes, the internals of eccodes, GDAL, netCDF4, scipy, the operating system beyond a map of paths to contents.
The external routines appear as parameters; their contracts are hypotheses, and each contract is shown satisfiable by an example.

## 8. Testing the theorems

`tools/mutate.py` edits one definition of the model in a scratch copy, rebuilds the dependent files and reports which theorems of the manifest fail (a failing proof is admitted in the scratch copy so that dependents are still tested);
`tools/addlog.py` records the attempts in `seeded/LOG.jsonl`. An attempt with `survived` lists claims none of whose theorems failed; its `note` says why (equivalent program, or which theorem was tightened).
