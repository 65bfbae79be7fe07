{"id": "C01", "title": "Accumulation of a complete series", "statement": "When every GRIB end step needed is present, accumulation with step s from start to end returns exactly one field per t = start, start+s, ... <= end, keyed (t-s, t), whose every cell is (v[t]-v[t-s])*unit_time/s; it raises nothing and adds no other key.", "quantifier": "all positive steps, all start/end, all field sizes and cell values, any extra steps in the input", "why_tests_cant": "unbounded start/end/step/field combinations; a test fixes a handful", "anchors": ["src/pyg2p/main/manipulation/aggregator.py:Aggregator.do_manipulation", "src/pyg2p/main/manipulation/aggregator.py:Aggregator._accumulation"]}
{"id": "C02", "title": "Accumulation conserves the total", "statement": "Whenever accumulation succeeds, summing the output fields times s/unit_time over consecutive windows gives the difference between the field used at the last window end and the field used at the first window start, so no amount is lost or counted twice, even when intermediate steps had to be reconstructed.", "quantifier": "every successful run: all inputs incl. irregular, incomplete or unsorted step sets", "why_tests_cant": "must hold for every pattern of missing steps, each of which takes a different branch", "anchors": ["src/pyg2p/main/manipulation/aggregator.py:Aggregator._accumulation"]}
{"id": "C03", "title": "Start step 0 means the first accumulation window", "statement": "Requesting accumulation from step 0 gives exactly the same result (fields, keys, errors) as requesting it from the first window end (start = aggregation step).", "quantifier": "all inputs and all aggregation settings with start 0", "why_tests_cant": "a relation between two runs over all inputs", "anchors": ["src/pyg2p/main/manipulation/aggregator.py:Aggregator._accumulation", "README.md"]}
{"id": "C04", "title": "Missing accumulation steps are linearly interpolated", "statement": "When a requested step lies between two available steps, the value used for it is the linear interpolation between the nearest available steps on its two sides, at that step; any number of gaps is handled.", "quantifier": "all sets of available steps and all requested windows lying inside their range", "why_tests_cant": "infinitely many gap patterns", "anchors": ["src/pyg2p/main/manipulation/aggregator.py:Aggregator._accumulation"]}
{"id": "C05", "title": "Zero field for step 0 and forceZeroArray", "statement": "If step 0 is absent from the input, or forceZeroArray is requested, the first window (0, s) subtracts a zero field: its output is v[s]*unit_time/s. Other windows are unaffected by forceZeroArray.", "quantifier": "all inputs with the window (0,s) requested", "why_tests_cant": "must hold for all inputs and independent of the rest of the series", "anchors": ["src/pyg2p/main/manipulation/aggregator.py:Aggregator._accumulation"]}
{"id": "C06", "title": "Accumulation keeps missing cells missing", "statement": "A cell masked (missing) in either of the two fields of an accumulation window is masked in the output of that window.", "quantifier": "all mask patterns of the two fields", "why_tests_cant": "all masks / all fields", "anchors": ["src/pyg2p/main/manipulation/aggregator.py:Aggregator._accumulation", "src/pyg2p/util/numeric.py:get_masks"]}
{"id": "C07", "title": "Average is the back-filled mean", "statement": "Without half weights, the average output for window (a, a+s] is cell-wise the arithmetic mean over the s unit steps t in (a, a+s] of the field at the first available step >= t, as documented in the README.", "quantifier": "all step sets (sorted or not, regular or not), all windows, all fields", "why_tests_cant": "all irregular step patterns", "anchors": ["src/pyg2p/main/manipulation/aggregator.py:Aggregator._average", "README.md"]}
{"id": "C08", "title": "Half-weight average is the trapezoidal mean", "statement": "With half weights and n+1 >= 2 available steps in [a, a+s] the output is the weighted mean of those steps, interior weight s/n and half of it at the window ends; when both ends are available the weights sum to exactly s, so the result is the trapezoidal mean.", "quantifier": "all step sets with at least two steps in the window, all fields", "why_tests_cant": "all numbers and positions of available steps", "anchors": ["src/pyg2p/main/manipulation/aggregator.py:Aggregator._average", "README.md"]}
{"id": "C09", "title": "Averages stay within the data range", "statement": "Every cell of an average output lies between the minimum and maximum of the same cell over the input fields, and a cell constant in time keeps its value exactly (exact arithmetic), with and without half weights; half weights need at least two available steps in the window (with a single one the output is no number).", "quantifier": "all inputs for which the run succeeds, all windows (with half weights: that have two available steps)", "why_tests_cant": "for all inputs", "anchors": ["src/pyg2p/main/manipulation/aggregator.py:Aggregator._average"], "first_wording": "Every cell of an average output lies between the minimum and maximum of the same cell over the input fields; a cell constant in time keeps its value exactly (exact arithmetic), with and without half weights. [all inputs for which the run succeeds and each window has data] (false of the code in this generality: C09_half_weights_single_step_refuted)"}
{"id": "C10", "title": "Average windows", "statement": "The windows averaged are exactly the consecutive windows [a, a+s]: from a = start-s on and ending at the requested end at the latest when start > 0 and the data are of the first temporal resolution; from a = start on and ending at most one unit after the requested end when start = 0 or the data are of the second temporal resolution. No window occurs twice.", "quantifier": "all start, end, steps and fields for which the run succeeds", "why_tests_cant": "off-by-one errors at particular start/end/step residues", "anchors": ["src/pyg2p/main/manipulation/aggregator.py:Aggregator._average"], "first_wording": "For start > 0 (or second temporal resolution) averages are produced exactly for the consecutive windows [a, a+s] starting at start-s (resp. start) that fit before end; no window extends past the requested end step. [all start, end, step] (false of the code in this generality: C10_window_past_end_refuted, C10_hourly_from_zero_refuted)"}
{"id": "C11", "title": "Averages, extracted steps and the cut-off keep missing cells missing", "statement": "A cell that is masked in a field contributing to an average window, in a field copied by an instantaneous extraction, or in a field whose negative values are cut off is masked in the output.", "quantifier": "all mask patterns", "why_tests_cant": "all masks", "anchors": ["src/pyg2p/main/manipulation/aggregator.py:Aggregator._average", "src/pyg2p/util/numeric.py:get_masks"]}
{"id": "C12", "title": "Instantaneous extraction copies fields", "statement": "Instantaneous aggregation returns, for exactly t = first, first+s, ... <= end, keyed (t,t), the values of the field at t if available, zeros if t = 0 is unavailable, otherwise the values of the first available later field; it never invents other values, and it succeeds if data reach the end. (What becomes of the mask is property C11.)", "quantifier": "all step sets, start, end, step", "why_tests_cant": "all irregular step patterns", "anchors": ["src/pyg2p/main/manipulation/aggregator.py:Aggregator._instantaneous", "src/pyg2p/main/manipulation/aggregator.py:Aggregator._find_start"], "first_wording": "Instantaneous aggregation returns, for t = first, first+s, ... <= end, keyed (t,t), the field at t if available, zeros if t = 0 is unavailable, otherwise the first available later field; it never invents other values. [all step sets, start, end, step] (false of the code in this generality: C12_masks_refuted)"}
{"id": "C13", "title": "Unsupported aggregation is refused", "statement": "average or instantaneous aggregation of an accumulated GRIB parameter always raises the NOT_IMPLEMENTED application error and returns no field; accumulation is never refused for the step type.", "quantifier": "all inputs and settings", "why_tests_cant": "for all inputs", "anchors": ["src/pyg2p/main/manipulation/aggregator.py:Aggregator._average", "src/pyg2p/main/manipulation/aggregator.py:Aggregator._instantaneous", "src/pyg2p/exceptions.py"]}
{"id": "C14", "title": "The step window read from the GRIB suffices", "statement": "The (start, end) window the aggregator asks the reader to load contains every step that the requested accumulation windows, or the average windows of a request with start > 0, refer to, and never starts below 0, whenever the time step of the input is not 0.", "quantifier": "all start, end, aggregation step, all non-zero time steps of the input", "why_tests_cant": "arithmetic over all integers", "anchors": ["src/pyg2p/main/manipulation/aggregator.py:Aggregator.get_real_start_end_steps", "src/pyg2p/main/controller.py:Controller.init_execution"], "first_wording": "The (start, end) window the aggregator asks the reader to load contains every step that the requested accumulation or average windows refer to, and never starts below 0. [all start, end, aggregation step] (false of the code in this generality: C14_zero_input_step_refuted)"}
{"id": "C15", "title": "Aggregation works cell by cell", "statement": "The value of cell i in any accumulation, average or instantaneous output depends only on cell i of the input fields: restricting or permuting the cells of all the inputs commutes with aggregation, and the keys and errors do not depend on the values at all.", "quantifier": "all cell selections, all inputs, all aggregation types", "why_tests_cant": "a relational property over pairs of runs", "anchors": ["src/pyg2p/main/manipulation/aggregator.py:Aggregator.do_manipulation"]}
{"id": "C16", "title": "Aggregation is linear", "statement": "Scaling all input fields by k scales all outputs by k, so a multiplicative unit conversion before or after aggregation gives the same maps.", "quantifier": "all scale factors, all inputs, all aggregation types, every successful run", "why_tests_cant": "a relation over pairs of runs for all inputs", "anchors": ["src/pyg2p/main/manipulation/aggregator.py:Aggregator.do_manipulation", "src/pyg2p/main/manipulation/conversion.py:Converter.convert"]}
{"id": "C17", "title": "Unit conversion respects missing values", "statement": "Converting a field with the configured function x=EXPR applies EXPR to every cell different from the missing value and leaves missing-value cells and the mask untouched, for every EXPR that does not itself contain the text x= (such as a comparison x==0); the identity conversion returns the field unchanged.", "quantifier": "all fields, masks, missing values and functions whose text has no second x=", "why_tests_cant": "all fields", "anchors": ["src/pyg2p/main/manipulation/conversion.py:Converter.convert"], "first_wording": "Converting a field applies the configured function to every cell different from the missing value and leaves missing-value cells and the mask untouched; the identity conversion returns the field unchanged. [all fields, masks, functions and missing values] (false of the code in this generality: C17_comparison_refuted)"}
{"id": "C18", "title": "Negative cut-off", "statement": "With the cut-off option every output cell is >= 0, cells >= 0 keep their value, negative ones become 0, no field is added, lost or reordered, and applying it twice is the same as once. (What becomes of the mask is property C11.)", "quantifier": "all lists of fields", "why_tests_cant": "all fields", "anchors": ["src/pyg2p/main/manipulation/conversion.py:Converter.cut_off_negative", "src/pyg2p/main/controller.py:Controller.execute"], "first_wording": "With the cut-off option every output cell is >= 0, cells >= 0 keep their value, applying it twice is the same as once, and masked cells stay masked. [all fields and masks] (false of the code in this generality: C18_masks_refuted)"}
{"id": "C19", "title": "Conversion covers every message", "statement": "Applying a conversion to the messages read from a GRIB converts each field of the first and of the second resolution exactly once, keeps all the step keys and their number, and only then reports the converted fields.", "quantifier": "all message sets at one or two resolutions", "why_tests_cant": "all message sets", "anchors": ["src/pyg2p/__init__.py:Messages.apply_conversion"]}
{"id": "C20", "title": "DEM correction formula", "statement": "A corrected map equals the correction formula evaluated at every cell where parameter, DEM and geopotential are all present, and is missing everywhere one of them is missing.", "quantifier": "all maps, formulas and missing values", "why_tests_cant": "all maps", "anchors": ["src/pyg2p/main/manipulation/correction.py:Corrector.correct"]}
{"id": "C21", "title": "A corrector matches the request", "statement": "The correction applied in an execution uses the formula and geopotential file of that execution, whatever was executed before in the same process.", "quantifier": "all sequences of executions in a process", "why_tests_cant": "depends on the history of the process", "anchors": ["src/pyg2p/main/manipulation/correction.py:Corrector.get_instance"]}
{"id": "C22", "title": "Properties files", "statement": "Loading a properties file maps every key to the text after its first \"=\" (trimmed of blanks and quotes); comments and blank lines are ignored; the last definition of a key wins.", "quantifier": "all file contents", "why_tests_cant": "all texts", "anchors": ["src/pyg2p/main/config.py:load_properties"]}
{"id": "C23", "title": "User configuration overrides global configuration", "statement": "After merging, each key defined by the user has the user value, every other key keeps the global value, and no key is lost or invented; merging is idempotent.", "quantifier": "all configuration contents", "why_tests_cant": "all contents", "anchors": ["src/pyg2p/main/config.py:BaseConfiguration.merge_with_user_conf"]}
{"id": "C24", "title": "Configuration dump round trip", "statement": "Dumping a non-empty user configuration and loading it again yields the same user entries, also on the level of the text of the file for values of any depth, and global entries never leak into the user file; a text cut anywhere or followed by anything but blanks is not read as a configuration; an empty user configuration is dumped as a text that the next start refuses (ValueError).", "quantifier": "all user configurations with distinct keys", "why_tests_cant": "all contents", "anchors": ["src/pyg2p/main/config.py:BaseConfiguration.dump"], "first_wording": "Dumping the user configuration and loading it again yields the same user entries, and global entries never leak into the user file. [all user configurations, including the empty one] (false of the code in this generality: C24_empty_refuted, C24_text_empty_refuted)"}
{"id": "C25", "title": "Parameter and conversion lookup", "statement": "Looking up a parameter that is not configured raises application error 1100 and otherwise returns exactly the configured entry; looking up a conversion returns the first conversion of the parameter with that id and otherwise raises 1200, provided the parameter has a short name and its conversions have ids.", "quantifier": "all configurations; for conversions, parameters with short name whose conversions have ids", "why_tests_cant": "all contents", "anchors": ["src/pyg2p/main/config.py:ParametersConfiguration.get", "src/pyg2p/main/config.py:ParametersConfiguration.get_conversion"], "first_wording": "Looking up a parameter/conversion that is not configured raises the dedicated application error (1100/1200) and otherwise returns exactly the configured entry for that id and conversion id. [all configurations and ids] (false of the code in this generality: C25_keyerror_refuted)"}
{"id": "C26", "title": "Geopotential registry", "statement": "Adding a geopotential file for a grid makes it the one returned for that grid, a second different file for the same grid is refused (or the duplicate is reported), removing it restores the previous state, and other grids are never affected.", "quantifier": "all histories of add/remove/lookup", "why_tests_cant": "all operation sequences", "anchors": ["src/pyg2p/main/config.py:GeopotentialsConfiguration.add", "src/pyg2p/main/config.py:GeopotentialsConfiguration.remove", "src/pyg2p/main/config.py:GeopotentialsConfiguration.get_filepath"]}
{"id": "C27", "title": "Path lookup order", "statement": "A geopotential or interpolation file is searched in the user/data path before the global path; the global file is used only if the user one is absent, and a missing file raises the dedicated error instead of returning a non-existing path.", "quantifier": "all file-system states", "why_tests_cant": "all combinations of existing files", "anchors": ["src/pyg2p/main/config.py:GeopotentialsConfiguration.get_filepath", "src/pyg2p/main/interpolation/__init__.py:Interpolator._intertable_filename"]}
{"id": "C28", "title": "Exit status", "statement": "The command returns 0 exactly when the execution succeeded or the GRIB had no matching message and 1 on every other application error, and index and files are closed in every case, message handles whenever a status is returned. The only exception is a NetCDF writer that was made but whose file was never created: then the process ends with AttributeError instead of a status.", "quantifier": "all outcomes of every stage of the execution", "why_tests_cant": "all failure points", "anchors": ["src/pyg2p/main/__init__.py:pyg2p_exe", "src/pyg2p/main/__init__.py:main", "src/pyg2p/main/controller.py:Controller.close"], "first_wording": "The command returns 0 exactly when the execution succeeded or the GRIB had no matching message, 1 on every other application error, and resources are closed in every case. [all outcomes of every stage of the execution] (false of the code in this generality: C28_netcdf_refuted)"}
{"id": "C29", "title": "Configuration commands", "statement": "Each configuration command (-g, -W, -K) performs its configuration action and does not run an extraction.", "quantifier": "all command lines", "why_tests_cant": "all combinations of options", "anchors": ["src/pyg2p/main/__init__.py:config_command", "src/pyg2p/main/context.py:Context.is_config_command"]}
{"id": "C30", "title": "Execution parameter validation", "statement": "An execution context is accepted only if parameter, lat/long or clone maps, interpolation mode, output format, tstart <= tend, level and required files are valid; otherwise the error code of the first violated rule in the documented order is raised.", "quantifier": "all parameter combinations", "why_tests_cant": "exponentially many combinations", "anchors": ["src/pyg2p/main/context.py:Context._check_exec_params"]}
{"id": "C31", "title": "Command line overrides the JSON file", "statement": "For every option available in both places, a value given on the command line is the one used; the JSON value is used only if the command line does not give one; defaults only if neither does.", "quantifier": "all combinations of CLI and JSON values", "why_tests_cant": "all combinations", "anchors": ["src/pyg2p/main/context.py:Context._define_exec_params"]}
{"id": "C32", "title": "Message selection", "statement": "The selection passed to the GRIB reader accepts a message if and only if its short name is one of the variants, its start/end steps lie in the requested window (both equal to the step for a single step), and the optional level, date, time and perturbation number match.", "quantifier": "all messages and all requests", "why_tests_cant": "all messages", "anchors": ["src/pyg2p/main/context.py:Context.create_select_cmd_for_reader", "src/pyg2p/main/readers/grib.py:GRIBReader._find"]}
{"id": "C33", "title": "Aggregation options", "statement": "Aggregation takes place iff both its step and type are given; forceZeroArray is honoured only for accumulation and only for strings that are not one of the documented false spellings; half weights are honoured by both the command and the API.", "quantifier": "all option strings", "why_tests_cant": "all strings", "anchors": ["src/pyg2p/main/context.py:Context._define_exec_params", "src/pyg2p/main/api.py:ApiContext", "src/pyg2p/util/strings.py:FALSE_STRINGS"]}
{"id": "C34", "title": "Requested time range is honoured", "statement": "The start and end step used for an execution are the requested ones when given and those of the GRIB otherwise.", "quantifier": "all requests and all GRIB ranges", "why_tests_cant": "all integers", "anchors": ["src/pyg2p/main/controller.py:Controller.init_execution"]}
{"id": "C35", "title": "Maps are written in chronological order", "statement": "The fields handed to the writer are sorted by end step, contain exactly the aggregated/selected fields of both resolutions, each written once with its own grid.", "quantifier": "all field sets", "why_tests_cant": "all step sets", "anchors": ["src/pyg2p/main/controller.py:Controller.execute"]}
{"id": "C36", "title": "Resolution change hand-over", "statement": "When the GRIB resolution changes, the windows aggregated at the first resolution end before the change step and those at the second begin after it: no window is produced twice, and none mixes resolutions.", "quantifier": "all series with a resolution change", "why_tests_cant": "all series", "anchors": ["src/pyg2p/main/controller.py:Controller.second_res_manipulation", "src/pyg2p/main/controller.py:Controller.execute"]}
{"id": "C37", "title": "PCRaster map names", "statement": "The i-th output map is named prefix + zero padded number (fmap + (i-1)*ext) split as 8.3 (11 characters), and different maps of an execution get different names, whenever prefix and number together have at most 11 characters.", "quantifier": "all prefixes, first numbers, extensions and indexes that fit in the 8.3 name", "why_tests_cant": "all lengths of prefix and numbers", "anchors": ["src/pyg2p/main/writers/__init__.py:OutputWriter._name_pcr_map"], "first_wording": "The i-th output map is named prefix + zero padded number (fmap + (i-1)*ext) split as 8.3 (11 characters), and different maps of an execution get different names. [all prefixes, first numbers, extensions and indexes] (false of the code in this generality: C37_distinct_refuted)"}
{"id": "C38", "title": "Writers store missing value where missing", "statement": "In written maps every cell that is NaN, masked in the field, or masked in the clone map holds the missing value, and every other cell holds the field value.", "quantifier": "all fields, masks and clone maps", "why_tests_cant": "all fields", "anchors": ["src/pyg2p/main/writers/pcr.py:PCRasterWriter._mask_values", "src/pyg2p/main/writers/netcdf.py:NetCDFWriter._mask_values"]}
{"id": "C39", "title": "NetCDF time axis", "statement": "The time coordinate of map k equals its end step converted to the requested time unit (value * unit of the axis = end step * unit of the GRIB, in seconds), or is the end step itself if one of the units cannot be converted; it is strictly increasing when end steps are, stays an exact integer whenever it is stored as integer, and is stored exactly if it fits in the 32 bits of the variable.", "quantifier": "all step units, target units and end steps; storage: values within 32 bits", "why_tests_cant": "all integers and units", "anchors": ["src/pyg2p/main/writers/netcdf.py:NetCDFWriter.write"], "first_wording": "The time coordinate of map k equals its end step converted to the requested time unit (hour = end_step * source unit / target unit), is strictly increasing when end steps are, and stays an exact integer whenever it is stored as integer. [all step units, target units and end steps] (false of the code in this generality: C39_overflow_refuted)"}
{"id": "C40", "title": "NetCDF packing", "statement": "The packed representation of a value under scale and offset decodes back to the value exactly in the floating point formats and to within half the scale factor in the integer formats; the fill value is packed consistently with the data; with a positive scale the packed valid range contains exactly the packed values of the range (integer formats: bounds that are whole packed numbers), so that a reader of the file gets a value exactly where there is one inside the range.", "quantifier": "all scales != 0 (valid range: > 0), offsets and values, in exact arithmetic", "why_tests_cant": "all reals", "anchors": ["src/pyg2p/main/writers/netcdf.py:NetCDFWriter.write"], "first_wording": "The packed representation of value v under scale and offset decodes back to v, and the valid range and the fill value are packed consistently with the data. [all scales != 0, offsets and values] (false of the code in this generality: C40_integer_refuted, C40_negative_scale_refuted)"}
{"id": "C41", "title": "Interpolation table names", "statement": "A new interpolation table never overwrites an existing one: the chosen name is not in use in the configuration, is determined by grid, target and mode, and a later lookup for the same grid, target and mode finds it.", "quantifier": "all configurations and previous builds", "why_tests_cant": "all histories", "anchors": ["src/pyg2p/main/interpolation/__init__.py:Interpolator._intertable_filename", "src/pyg2p/main/interpolation/__init__.py:Interpolator.update_intertable_conf"]}
{"id": "C42", "title": "Grid and target identifiers distinguish", "statement": "Two source grids (or two target maps) that differ in a way that changes the interpolation table get different identifiers, so a cached table is never applied to another geometry.", "quantifier": "all pairs of grids / targets", "why_tests_cant": "pairs of inputs", "anchors": ["src/pyg2p/__init__.py:GribGridDetails._build_id", "src/pyg2p/main/readers/pcr.py:PCRasterReader.identifier", "src/pyg2p/main/readers/netcdf.py:NetCDFReader.identifier"]}
{"id": "C43", "title": "Applying a scipy interpolation table", "statement": "Applying a table yields for each target cell the weighted sum of the source values at its indexes; the index one past the end denotes the missing value; with convex weights the result is within the range of the source values used.", "quantifier": "all tables, all fields", "why_tests_cant": "all tables", "anchors": ["src/pyg2p/main/interpolation/__init__.py:Interpolator._interpolate_scipy_append_mv"]}
{"id": "C44", "title": "Applying a grib_nearest / grib_invdist table", "statement": "Each target cell with a table row receives the value (or weighted sum of four values) of its source points; every other cell is the missing value; masked source points give missing cells.", "quantifier": "all tables and fields", "why_tests_cant": "all tables", "anchors": ["src/pyg2p/main/interpolation/__init__.py:Interpolator.grib_nearest", "src/pyg2p/main/interpolation/__init__.py:Interpolator.grib_inverse_distance"]}
{"id": "C45", "title": "GRIB inverse distance coefficients", "statement": "For every target point the four coefficients are non-negative and sum to 1, coincide with 1/d normalisation, and an exactly matching point gets coefficient 1 with the others 0.", "quantifier": "all distances", "why_tests_cant": "all distances", "anchors": ["src/pyg2p/main/interpolation/grib_interpolation_lib.py:_compute_coeffs_and_idxs"]}
{"id": "C46", "title": "Parallel table building equals sequential", "statement": "Building a grib_nearest or grib_invdist table in parallel with any number of workers gives the same table as the sequential construction.", "quantifier": "all target maps, all worker counts and chunkings", "why_tests_cant": "all partitions and schedules", "anchors": ["src/pyg2p/main/interpolation/grib_interpolation_lib.py:grib_nearest", "src/pyg2p/main/interpolation/grib_interpolation_lib.py:grib_invdist", "src/pyg2p/main/interpolation/grib_interpolation_lib.py:grib_nearest_parallel"]}
{"id": "C47", "title": "Table building works for small targets", "statement": "Building an interpolation table succeeds whatever the number of target cells (e.g. fewer than 250).", "quantifier": "all target sizes", "why_tests_cant": "all sizes", "anchors": ["src/pyg2p/util/generics.py:progress_step_and_backchar", "src/pyg2p/main/interpolation/grib_interpolation_lib.py:grib_nearest", "src/pyg2p/main/interpolation/grib_interpolation_lib.py:grib_invdist"]}
{"id": "C48", "title": "Splitting target map does not change the result", "statement": "Building a scipy table with num_of_splits > 1 gives the same table as without splits.", "quantifier": "all target sizes and all numbers of splits", "why_tests_cant": "all partitions", "anchors": ["src/pyg2p/main/interpolation/scipy_interpolation_lib.py:ScipyInterpolation.interpolate", "src/pyg2p/main/interpolation/scipy_interpolation_lib.py:ScipyInterpolation.interpolate_split"]}
{"id": "C49", "title": "Nearest neighbour table", "statement": "A target cell is mapped to its nearest source point if this is within the search bound and to missing otherwise, for targets of at least 250 cells (smaller ones are property C47); the bound is the largest second-nearest distance increased by 4/Nj of it, and needs a grid with Nj.", "quantifier": "all source points, search structures, fields and targets of at least 250 cells", "why_tests_cant": "all inputs", "anchors": ["src/pyg2p/main/interpolation/scipy_interpolation_lib.py:ScipyInterpolation._build_nn"], "first_wording": "A target cell is mapped to its nearest source point if this is within the search bound and to missing otherwise. [all targets and distances] (false of the code in this generality: C49_small_refuted, C49_no_nj_refuted)"}
{"id": "C50", "title": "Inverse distance weights", "statement": "For each target with a neighbour within bound, weights are non-negative, sum to one and are proportional to 1/d^2; a coincident source point gets weight 1; a target without neighbours has no value (NaN, whatever the missing value; the writers store it as missing, C38). Needs at least four source points; with fewer every non-empty target is an IndexError.", "quantifier": "all source points, search structures, bounds, fields and targets", "why_tests_cant": "all reals", "anchors": ["src/pyg2p/main/interpolation/scipy_interpolation_lib.py:ScipyInterpolation._build_weights_invdist"], "first_wording": "For each target with a neighbour within bound, weights are non-negative, sum to one and are proportional to 1/d^2; a coincident source point gets weight 1; a target without neighbours yields missing. [all distance vectors] (false of the code in this generality: C50_missing_refuted, C50_few_points_refuted)"}
{"id": "C51", "title": "Angular distance weights (Shepard)", "statement": "ADW weights are non-negative, sum to one, the directional factor lies in [0,2], and the vectorised directional computation equals the textbook double loop that skips the diagonal.", "quantifier": "all neighbour sets", "why_tests_cant": "all reals", "anchors": ["src/pyg2p/main/interpolation/scipy_interpolation_lib.py:ScipyInterpolation._build_weights_invdist", "src/pyg2p/main/interpolation/scipy_interpolation_lib.py:adw_compute_weights_from_cutoff_distances"]}
{"id": "C52", "title": "CDD weights", "statement": "Correlation-distance-decay weights are non-negative, decrease with distance and vanish beyond the cut-off as specified.", "quantifier": "all distances", "why_tests_cant": "all reals", "anchors": ["src/pyg2p/main/interpolation/scipy_interpolation_lib.py:ScipyInterpolation._build_weights_invdist"]}
{"id": "C53", "title": "Bilinear weights", "statement": "Bilinear weights are non-negative, sum to one, reproduce the value at a grid corner and reproduce every affine function of the two cell coordinates.", "quantifier": "all positions inside a cell", "why_tests_cant": "all reals", "anchors": ["src/pyg2p/main/interpolation/scipy_interpolation_lib.py:ScipyInterpolation._build_weights_bilinear"]}
{"id": "C54", "title": "Quadrilateral ordering", "statement": "Ordering the four neighbour points clockwise returns a permutation of the same four points with matching coordinates.", "quantifier": "all point quadruples", "why_tests_cant": "all reals", "anchors": ["src/pyg2p/main/interpolation/scipy_interpolation_lib.py:get_clockwise_points"]}
{"id": "C55", "title": "Triangulation weights and indexes", "statement": "Barycentric weights of a target inside a triangle are non-negative, sum to one and reproduce affine functions; indices of points added as padding around the globe are mapped back to the original source point.", "quantifier": "all targets, triangles and paddings", "why_tests_cant": "all inputs", "anchors": ["src/pyg2p/main/interpolation/scipy_interpolation_lib.py:ScipyInterpolation._build_weights_triangulation"]}
{"id": "C56", "title": "Geographic to Cartesian", "statement": "Coordinates are mapped on the sphere of the given radius (so that straight-line distance orders points like great-circle distance), and rotations of rotated grids preserve distances.", "quantifier": "all latitudes, longitudes and rotations", "why_tests_cant": "all reals", "anchors": ["src/pyg2p/main/interpolation/scipy_interpolation_lib.py:ScipyInterpolation.to_3d"]}
{"id": "C57", "title": "GRIB message selection by resolution", "statement": "Reading messages keeps, per step key, exactly the selected messages; with one grid all their fields are in the first set, and if the grid size changes once the fields after the change go to the second resolution set and none is lost; the message handed to the construction of the table of a grid is a selected message of that grid. The variants of the short name must be different, which is so unless the name is its own upper case.", "quantifier": "all message sequences with at most one change of grid, all selections with pairwise different names", "why_tests_cant": "all sequences", "anchors": ["src/pyg2p/main/readers/grib.py:GRIBReader.select_messages"], "first_wording": "Reading messages keeps, per step key, exactly the selected messages; if the grid size changes once the fields after the change go to the second resolution set and none is lost. [all message sequences] (false of the code in this generality: C57_upper_case_refuted)"}
{"id": "C58", "title": "Step detection", "statement": "The start and end step reported for a set of messages are the minimum start step and the maximum end step; if their end steps are pairwise different, the time step reported is the spacing between consecutive end steps, and a single change of spacing is detected with the step at which it occurs.", "quantifier": "all message step sets (spacing: with pairwise different end steps, as for one level)", "why_tests_cant": "all sets", "anchors": ["src/pyg2p/main/readers/grib.py:GRIBReader._find_start_end_steps"], "first_wording": "The start, end and time step reported for a set of messages are the minimum start step, the maximum end step and the spacing between consecutive end steps; a single change of spacing is detected with the step at which it occurs. [all message step sets] (false of the code in this generality: C58_levels_refuted)"}
{"id": "C59", "title": "GRIB handles are released", "statement": "All message handles opened by a reader operation are released when it is closed, none is used after release, and a reader may be closed more than once.", "quantifier": "all sequences of reader operations", "why_tests_cant": "all histories", "anchors": ["src/pyg2p/main/readers/grib.py:GRIBReader.close", "src/pyg2p/main/readers/grib.py:GRIBReader.get_grib_info", "src/pyg2p/main/readers/grib.py:GRIBReader.get_id"]}
{"id": "C60", "title": "Reference date", "statement": "The reference time of the messages equals GRIB dataDate and dataTime for every hour of the day.", "quantifier": "all dates and times", "why_tests_cant": "all times", "anchors": ["src/pyg2p/__init__.py:Messages", "src/pyg2p/main/readers/grib.py:GRIBReader.select_messages"]}
{"id": "C61", "title": "API command builder", "statement": "A command built through the API yields the arguments of the last setting of each option, independent of the order of the calls, and running it is equivalent to the corresponding command line.", "quantifier": "all sequences of builder calls", "why_tests_cant": "all sequences", "anchors": ["src/pyg2p/main/api.py:Command", "src/pyg2p/util/strings.py:to_argdict", "src/pyg2p/util/strings.py:to_argv"]}
{"id": "C62", "title": "Normalised file names", "statement": "Normalising a file name for use in identifiers yields 3 to 10 characters without dot, dash, underscore or upper-case letter whenever at least 3 remain, namely (names without digits) the first ten of the path without its extension; otherwise it yields the whole name with its dots replaced by underscores.", "quantifier": "all file names", "why_tests_cant": "all strings", "anchors": ["src/pyg2p/util/files.py:normalize_filename"], "first_wording": "Normalising a file name for use in identifiers yields at most 10 characters and (when at least 3 remain) no dot, dash, underscore or upper-case letter. [all file names] (false of the code in this generality: C62_long_name_refuted, C62_collision_refuted)"}
{"id": "C63", "title": "Boolean options", "statement": "Boolean option strings are true iff they begin with T/t or Y/y; None is false; booleans are unchanged; no non-empty string crashes, the empty one is an IndexError.", "quantifier": "all strings, booleans and None", "why_tests_cant": "all strings", "anchors": ["src/pyg2p/util/strings.py:to_boolean"], "first_wording": "Boolean option strings are true iff they begin with T/t or Y/y; None is false; booleans are unchanged; no string crashes. [all strings] (false of the code in this generality: C63_empty_string_refuted)"}
{"id": "C64", "title": "Step keys", "statement": "Two step keys are interchangeable as dictionary keys iff all five components are equal, and the sort before writing never loses or merges fields; the aggregations, which look fields up by end step, lose none if the end steps differ.", "quantifier": "all keys and sets of fields (aggregations: with pairwise different end steps)", "why_tests_cant": "all pairs", "anchors": ["src/pyg2p/__init__.py:Step"], "first_wording": "Two step keys are interchangeable as dictionary keys iff all five components are equal, and sorting steps never loses or merges fields. [all pairs of keys] (false of the code in this generality: C64_refuted)"}
{"id": "C65", "title": "Application errors", "statement": "Raising an application error by code never fails for a code that the program raises or names, an unknown code is a KeyError, and distinct error names have distinct codes, with the only exception of code 8600.", "quantifier": "all codes and names", "why_tests_cant": "all codes", "anchors": ["src/pyg2p/exceptions.py"], "first_wording": "Each error code denotes one documented error, raising an application error by code never fails for a defined code, and distinct error names have distinct codes. [all codes] (false of the code in this generality: C65_distinct_refuted)"}
{"id": "C66", "title": "User variables in map paths", "statement": "A variable {NAME} in the dem map, clone map or latitude/longitude map path is replaced by the value the user configuration gives it, and no accepted path has a variable left; a path with a variable the user has not defined is refused (KeyError, not the documented 8000), one whose expansion still contains a variable with application error 8000, one with a single brace with ValueError; a path without variable is used as it is.", "quantifier": "all paths and all user variable definitions", "why_tests_cant": "must hold for every template and every set of definitions", "anchors": ["src/pyg2p/main/config.py: UserConfiguration.interpolate_strings"], "first_wording": "A variable {NAME} in the dem map, clone map or latitude/longitude map path is replaced by the value the user configuration gives it; a variable the user has not defined is reported with application error 8000. [all paths and all user variable definitions] (false of the code in this generality: C66_undefined_refuted)"}
{"id": "C67", "title": "Search radius of ADW", "statement": "Mode adw uses the search radius of Shepard 1968 as documented: the fifth distance if at most four source points are within the reference radius, the eleventh distance if more than ten are, the reference radius otherwise; exactly the neighbours nearer than this radius get a weight.", "quantifier": "all cells, distances and reference radii", "why_tests_cant": "all reals, boundary counts", "anchors": ["src/pyg2p/main/interpolation/scipy_interpolation_lib.py:adw_compute_weights_from_cutoff_distances"]}
{"id": "C68", "title": "CDD options are read by name", "statement": "The parameters given in @cdd_options (m_const, min_num_of_station, radius_ratio, weights_mode) are the ones used, whatever their order in the command file.", "quantifier": "all values and orders of the options", "why_tests_cant": "all orders and values", "anchors": ["src/pyg2p/main/interpolation/scipy_interpolation_lib.py:ScipyInterpolation._build_weights_invdist", "README.md"]}
{"id": "C69", "title": "OnlyTOP10 keeps the ten largest weights", "statement": "With weights_mode OnlyTOP10 the ten neighbours with the largest weights are kept and the remaining one, a smallest, gets weight zero.", "quantifier": "all weights of a cell, all orders numpy.argpartition may return", "why_tests_cant": "all reals, ties, unspecified order", "anchors": ["src/pyg2p/main/interpolation/scipy_interpolation_lib.py:ScipyInterpolation._build_weights_invdist"]}
{"id": "C70", "title": "Bilinear corners denote the right places", "statement": "When the four source points around a target are compared with it as points of a latitude/longitude plane, the coordinates used for a source point denote the place of that source point on the earth and are at most 90 degrees of longitude away from the target, also across the date line and beyond the poles.", "quantifier": "all targets and source points, longitudes in either convention (-180..180 or 0..360)", "why_tests_cant": "all real coordinates", "anchors": ["src/pyg2p/main/interpolation/scipy_interpolation_lib.py:get_correct_lat_lon"]}
{"id": "C71", "title": "Bilinear rows do not depend on other cells", "statement": "The row of a bilinear table for a target cell depends on the source grid and on this cell only, not on the cells interpolated before it.", "quantifier": "all grids, cells and histories of cells before", "why_tests_cant": "all histories", "anchors": ["src/pyg2p/main/interpolation/scipy_interpolation_lib.py:ScipyInterpolation._build_weights_bilinear"]}
{"id": "C72", "title": "Bilinear table construction terminates", "statement": "Building a bilinear table ends, with a table or an error, for every source grid and target.", "quantifier": "all grids and targets", "why_tests_cant": "termination for all inputs", "anchors": ["src/pyg2p/main/interpolation/scipy_interpolation_lib.py:ScipyInterpolation._build_weights_bilinear", "src/pyg2p/main/interpolation/scipy_interpolation_lib.py:ScipyInterpolation.replaceIndexCloseToPoint"]}
{"id": "C73", "title": "Triangulation rows do not depend on other cells", "statement": "In modes triangulation and bilinear_delaunay, the row of a target place is the same in all tables built from the same source, whatever other cells the target has and in whatever order they come.", "quantifier": "all sources, all pairs of targets that contain the same place", "why_tests_cant": "all targets and cell orders", "anchors": ["src/pyg2p/main/interpolation/scipy_interpolation_lib.py:ScipyInterpolation._build_weights_triangulation"]}
{"id": "C74", "title": "Triangulation tables are built for every target", "statement": "In modes triangulation and bilinear_delaunay, building a table succeeds for every target whenever the source points can be triangulated (and the progress display and the latitude scaling do not fail).", "quantifier": "all sources, triangulations and targets with at least 250 cells", "why_tests_cant": "all triangulations and targets", "anchors": ["src/pyg2p/main/interpolation/scipy_interpolation_lib.py:ScipyInterpolation._build_weights_triangulation"]}
{"id": "C75", "title": "Weights of bilinear_delaunay tables", "statement": "A table of mode bilinear_delaunay has one row per target cell; every row has four indexes and either four NaN weights or four weights that are non-negative and sum to one; an index is a source point, the place of the missing value appended after the source values, or -1 with weight 0. A triangle without partner gets as partner the triangle across the side opposite to its widest angle, if that one has no partner either, and the row of the cell then has the corners of both.", "quantifier": "all sources, honest triangulations and sorts, answers of the root finder, targets", "why_tests_cant": "all inputs and solver answers", "anchors": ["src/pyg2p/main/interpolation/scipy_interpolation_lib.py:ScipyInterpolation._build_weights_triangulation"]}
{"id": "C76", "title": "Conversion and correction as configured", "statement": "A command (or API call) whose configuration of the parameter names a conversion converts with exactly that conversion (function, cut-off, units); a correction is done exactly when formula, gem formula and DEM are all given, and then uses exactly these (a request that lacks one of them is silently not done); without a request neither is done.", "quantifier": "all configurations, commands, API dictionaries", "why_tests_cant": "must hold for all configurations, commands, API dictionaries", "anchors": ["src/pyg2p/main/context.py:Context._define_exec_params", "src/pyg2p/main/config.py:Configuration"], "first_wording": "A command (or API call) whose configuration of the parameter names a conversion converts with exactly that conversion (function, cut-off, units); a requested correction uses the configured formula and geopotential with the given DEM; without a request neither is done. [all configurations, commands, API dictionaries] (false of the code in this generality: C76_incomplete_correction_refuted)"}
{"id": "C77", "title": "Interpolation options are honoured", "statement": "The interpolation options of a command (mode options, splits, parallel, CDD map and options) are read as given, paths with configuration variables are expanded, and every interpolation is done with the options it was asked for.", "quantifier": "all commands and all histories of executions over shared table directories", "why_tests_cant": "must hold for all commands and all histories of executions over shared table directories", "anchors": ["src/pyg2p/main/context.py:Context._define_exec_params", "src/pyg2p/main/interpolation/__init__.py:Interpolator"]}
{"id": "C78", "title": "API and command file agree", "statement": "An API call and a command line execution that state the same request, every item explicitly, are accepted or refused alike and lead to the same execution parameters and interpolation options (output format and half weights apart, which the API does not take); the defaults of the two interfaces differ.", "quantifier": "all requests, environments and file systems", "why_tests_cant": "must hold for all requests, environments and file systems", "anchors": ["src/pyg2p/main/context.py:Context", "src/pyg2p/main/api.py"], "first_wording": "An API call and a command line execution that state the same request are accepted or refused alike and lead to the same execution parameters. [all requests, environments and file systems] (false of the code in this generality: C78_defaults_refuted)"}
{"id": "C79", "title": "Description of the selected fields", "statement": "The unit, step type, step unit, level type and missing value reported for selected messages are those of every selected message, including those of a second file.", "quantifier": "all files, selections and reader states", "why_tests_cant": "must hold for all files, selections and reader states", "anchors": ["src/pyg2p/main/readers/grib.py:GRIBReader.select_messages", "src/pyg2p/__init__.py:Messages"]}
{"id": "C80", "title": "Coordinates of the target grid", "statement": "The target latitudes and longitudes used for the interpolation are those the latMap/lonMap files give for each cell, whether they are PCRaster maps or a netCDF file whose only gridded variable is over (latitude, longitude); two different netCDF files are refused with 8400, and a netCDF file (a path ending in .nc) whose coordinate variables are absent, have a single value or another size than the variable is an error, except that a variable of one row takes all latitudes. (A variable over (lon, lat) or a second gridded variable is outside of this.)", "quantifier": "all PCRaster maps, all netCDF files with a single variable over (lat, lon)", "why_tests_cant": "must hold for all netCDF files, PCRaster maps and pairs of paths", "anchors": ["src/pyg2p/main/readers/netcdf.py:NetCDFReader", "src/pyg2p/main/interpolation/latlong.py:LatLong"], "first_wording": "The target latitudes and longitudes used for the interpolation are those the latMap/lonMap files give for each cell, whether they are PCRaster maps or a netCDF file with a variable over latitude and longitude; other inputs are refused with an application error. [all netCDF files, PCRaster maps and pairs of paths] (false of the code in this generality: C80_transposed_refuted, C80_two_variables_refuted)"}
{"id": "C81", "title": "Missing cells of DEM and clone maps", "statement": "A cell that is missing in a DEM or clone map, by the conventions of its format, is recognised as missing when the map is used.", "quantifier": "all netCDF and PCRaster maps", "why_tests_cant": "must hold for all netCDF and PCRaster maps", "anchors": ["src/pyg2p/main/readers/netcdf.py:NetCDFReader", "src/pyg2p/main/readers/pcr.py:PCRasterReader", "src/pyg2p/main/interpolation/latlong.py:Dem"]}
{"id": "C82", "title": "Target cells without value are missing in the output", "statement": "A target cell for which the interpolation has no value is missing in the output, in the terms of the output format, and every other cell keeps its value.", "quantifier": "all targets, clone maps and interpolated fields", "why_tests_cant": "must hold for all targets, clone maps and interpolated fields", "anchors": ["src/pyg2p/main/interpolation/__init__.py:Interpolator", "src/pyg2p/main/writers/pcr.py:PCRasterWriter", "src/pyg2p/main/writers/netcdf.py:NetCDFWriter"]}
{"id": "C83", "title": "Coordinates of netCDF output", "statement": "The latitude and longitude variables of a netCDF output give for each row and column the coordinates of the target cells written there, for targets whose rows are parallels and whose columns are meridians and, for PCRaster targets, whose first row and first column are not missing.", "quantifier": "all regular targets and clone maps", "why_tests_cant": "must hold for all targets and clone maps", "anchors": ["src/pyg2p/main/writers/netcdf.py:NetCDFWriter", "src/pyg2p/main/interpolation/latlong.py:LatLong"], "first_wording": "The latitude and longitude variables of a netCDF output give for each row and column the coordinates of the target cells written there. [all targets and clone maps] (false of the code in this generality: C83_rotated_refuted, C83_missing_corner_refuted)"}
{"id": "C84", "title": "From the messages of the input file to the maps written", "statement": "An execution without aggregation and conversion writes exactly one map for each message of the input file that matches the requested variable, level, date, time, member and window of steps, with that message's interpolated values, and no other map.", "quantifier": "all input files, requests, targets and interpolation results", "why_tests_cant": "must hold for every file (any number, order and mixture of messages) and every request", "anchors": ["src/pyg2p/main/controller.py:Controller.execute", "src/pyg2p/main/readers/grib.py:GRIBReader.select_messages", "src/pyg2p/main/writers/__init__.py:OutputWriter"]}
{"id": "C85", "title": "Cut-off distances of a whole target", "statement": "In mode cdd every target cell (Hofstra, MixHofstraShepard) or every station (NewEtAl) uses the correlation distance of its own cell of the CDD map, with the parameters given or else the standard ones, for its eleven nearest stations.", "quantifier": "all targets, stations, CDD maps and options", "why_tests_cant": "must hold for every cell of every target and all reals", "anchors": ["src/pyg2p/main/interpolation/scipy_interpolation_lib.py:cdd_newetal_compute_weights_from_cutoff_distances", "src/pyg2p/main/interpolation/scipy_interpolation_lib.py:ScipyInterpolation._build_weights_invdist"]}
{"id": "C86", "title": "Download of data", "statement": "Configuration.download_data leaves every file of the remote folder (except '.', '..' and readme.txt) complete in the user's folder, never changes a file the user had, and stays correct after any number of interrupted attempts.", "quantifier": "all remote folders, local files, and histories of attempts interrupted at any byte", "why_tests_cant": "quantifies over every interruption point and every history of attempts", "anchors": ["src/pyg2p/main/config.py:Configuration.download_data", "src/pyg2p/util/files.py:exists"]}
{"id": "C87", "title": "Configuration file after a killed process", "statement": "When processes that change a user configuration file are killed, the next process can still load the file, and finds all changes whose dump was finished.", "quantifier": "all histories of processes, each with any changes and killed at any point (also in the middle of writing)", "why_tests_cant": "quantifies over crash points and histories", "anchors": ["src/pyg2p/main/config.py:BaseConfiguration.dump", "src/pyg2p/main/config.py:BaseConfiguration._load", "src/pyg2p/main/config.py:BaseConfiguration.merge_with_user_conf"]}
{"id": "C88", "title": "Configuration file shared by processes", "statement": "When several processes load and change the same user configuration file, none of them fails because of another one and in the end the file holds the last value given to each key.", "quantifier": "all numbers of processes, changes and interleavings of their steps", "why_tests_cant": "quantifies over schedules", "anchors": ["src/pyg2p/main/config.py:BaseConfiguration.dump", "src/pyg2p/main/config.py:GeopotentialsConfiguration.add", "src/pyg2p/main/config.py:BaseConfiguration.merge_with_user_conf"]}
{"id": "C89", "title": "Check of the configuration", "statement": "Configuration.check_conf removes from intertables.json exactly the entries whose table file is missing, reports the files of the folders that no entry names, and leaves a configuration that can be loaded.", "quantifier": "all configurations and contents of the folders", "why_tests_cant": "must hold for every configuration and every file system", "anchors": ["src/pyg2p/main/config.py:Configuration.check_conf", "src/pyg2p/util/files.py:ls"]}
{"id": "C90", "title": "Command line", "statement": "Every command line of pyg2p written with the documented options in any spelling (short or long name, unambiguous beginning of a long name, value as next argument unless it looks like an option, or after an equals sign, or glued to a one-letter option, grouped one-letter flags), with values of the right type and among the choices, is accepted and each option has the value of its last occurrence; every other command line shows the help or is refused with code 10000.", "quantifier": "all lists of arguments", "why_tests_cant": "there are infinitely many command lines; completeness of the accepted spellings cannot be seen from examples", "anchors": ["src/pyg2p/main/context.py:Context._define_input_args", "src/pyg2p/main/context.py:Context.add_args"], "first_wording": "Every command line of pyg2p written with the documented options in any spelling (short or long name, unambiguous beginning of a long name, value as next argument or after an equals sign or glued to a one-letter option, grouped one-letter flags), with values of the right type and among the choices, is accepted and each option has the value of its last occurrence; every other command line shows the help or is refused with code 10000. [all lists of arguments] (false of the code in this generality: C90_negative_refuted)"}
{"id": "C91", "title": "Details of a parameter", "statement": "Pyg2pApi.parameter_details(name) shows description, unit and every conversion of each configured parameter, and without a name it lists the short names of all configured parameters.", "quantifier": "all global and user configurations and all names", "why_tests_cant": "must hold for every configuration", "anchors": ["src/pyg2p/main/api.py:Pyg2pApi.parameter_details", "src/pyg2p/main/config.py:ParametersConfiguration"]}
{"id": "C92", "title": "Source fields of the wrong size", "statement": "A source field whose number of values differs from the number of its source coordinates is refused by the scipy interpolation (inverse distance weighting); no table is made from it.", "quantifier": "all source coordinates, numbers of values and target grids", "why_tests_cant": "must hold for every pair of sizes and every geometry", "anchors": ["src/pyg2p/main/interpolation/scipy_interpolation_lib.py:ScipyInterpolation.__init__"]}
{"id": "C93", "title": "Exit status of the whole program", "statement": "Status 0 of a run of the program means that the help was shown, or that every map of the requested extraction was written, or that there was nothing to extract and nothing was written; and whatever the status, the maps written are the first ones of the extraction, in order and numbered without gaps (a NetCDF file is complete or absent), and nothing is written if the arguments or the command file are refused.", "quantifier": "all argument lists, configurations, command files, GRIB files, interpolations and writers (which may fail at any map)", "why_tests_cant": "ranges over every command line, every file content and every point of failure", "anchors": ["src/pyg2p/main/__init__.py:pyg2p_exe", "src/pyg2p/main/__init__.py:execute", "src/pyg2p/main/controller.py:Controller.execute", "src/pyg2p/main/context.py:ExecutionContext", "src/pyg2p/main/manipulation/correction.py:Corrector._read_geo"]}
{"id": "C94", "title": "Accumulated maps, from the messages to what is written", "statement": "If the messages of the variable hold amounts since the start of the forecast (start step 0), on one grid with one message per end step, and every begin and end of a window has its message (step 0 may be missing), then a successful extraction with accumulation writes exactly one map per window of the request (first end = the requested first step or, for 0, the aggregation step; then every aggregation step up to the last one), in order and numbered without gaps, on the grid of the messages; in every cell where both messages have data the field that is interpolated is the (converted) amount at the end minus that at the begin (0 at step 0 when the file has no message there or zeros are forced), times the time unit over the aggregation step, and 0 if that is negative and the cut-off of a conversion is on. The steps read do not limit the amounts: the messages at the begin of the windows are read although they start before the window. Where messages are missing at other ends of windows, and enough messages follow, the same maps are written with the amounts on the straight line between the nearest messages.", "quantifier": "all contexts, files, windows, aggregation steps, time units, conversions and cell values", "why_tests_cant": "ranges over every file content and request; the selection by start step only works through a second attempt that drops it", "anchors": ["src/pyg2p/main/controller.py:Controller.execute", "src/pyg2p/main/controller.py:Controller.create_select_cmd_for_aggregation_attrs", "src/pyg2p/main/readers/grib.py:GRIBReader.select_messages", "src/pyg2p/main/manipulation/aggregator.py:Aggregator._accumulation", "src/pyg2p/main/manipulation/conversion.py:Converter"]}
{"id": "C95", "title": "Averaged maps, from the messages to what is written", "statement": "A successful extraction with averages of messages on one grid with one message per end step writes exactly one map per window, in order and numbered without gaps, on the grid of the messages that lie between the first step read and the last step; for every step of a window there is a message at or after it, and each cell of the field that is interpolated is the mean over the steps of the window of the (converted) value of the first message at or after the step, 0 if negative and cut off. With half weights it is the trapezoid mean of the messages from the begin to the end of the window, in the cells where all of them (two at least) have a value.", "quantifier": "all contexts, files, windows, aggregation steps, conversions and cell values", "why_tests_cant": "ranges over every file content and request", "anchors": ["src/pyg2p/main/controller.py:Controller.execute", "src/pyg2p/main/readers/grib.py:GRIBReader.select_messages", "src/pyg2p/main/manipulation/aggregator.py:Aggregator._average", "src/pyg2p/main/manipulation/conversion.py:Converter"]}
{"id": "C96", "title": "Maps at single steps, from the messages to what is written", "statement": "A successful extraction with instantaneous aggregation of messages (not averages) on one grid with one message per end step writes one map for every aggregation step from the first one to the last one, in order and numbered without gaps, on the grid of the messages: the field that is interpolated holds the (converted) values of the message of that step; without such a message, zeros at step 0 and the values of the next message at any other step.", "quantifier": "all contexts, files, steps, conversions and cell values", "why_tests_cant": "ranges over every file content and request", "anchors": ["src/pyg2p/main/controller.py:Controller.execute", "src/pyg2p/main/readers/grib.py:GRIBReader.select_messages", "src/pyg2p/main/manipulation/aggregator.py:Aggregator._instantaneous"]}
{"id": "C97", "title": "Commands on complete data succeed", "statement": "When the single input file holds the variable and every message of it is complete (steps, texts, missing value, longitudes, a date with a readable hour) and on one grid, the writer, interpolation and conversion accept what they are given, and the file holds the messages that the request needs (plain extraction: at least one in the range; accumulation: one at each end of every window, but for step 0; averages and instantaneous maps: messages up to the last step; averages from step 0 without half weights: the last step plus 1 is no multiple of the aggregation step), then the command does not stop: every map is made and written and the exit status is 0.", "quantifier": "all contexts, files, steps, aggregations, cell values, writers, interpolations and initial worlds", "why_tests_cant": "absence of every error, for every complete file and every request", "anchors": ["src/pyg2p/main/__init__.py:pyg2p_exe", "src/pyg2p/main/controller.py:Controller.execute", "src/pyg2p/main/readers/grib.py:GRIBReader", "src/pyg2p/main/manipulation/aggregator.py:Aggregator"]}
{"id": "C98", "title": "API and program give the same maps", "statement": "For the same request Pyg2pApi.execute returns, by step and in the order of the end steps, exactly the cells of the maps that the pyg2p command writes, and it fails exactly when the command fails, with the same error.", "quantifier": "all requests, input files (one or two, one or two grids), states of the library, interpolation functions, clone maps", "why_tests_cant": "both paths must agree for every request and file, whatever was opened before", "anchors": ["src/pyg2p/main/api.py:Pyg2pApi.execute", "src/pyg2p/main/controller.py:Controller.execute", "src/pyg2p/main/writers/__init__.py:OutputWriter.write_maps", "src/pyg2p/main/writers/pcr.py:PCRasterWriter.write", "src/pyg2p/main/interpolation/__init__.py:Interpolator"]}
{"id": "C99", "title": "Nothing stays open over a history", "statement": "After any sequence of commands and API calls in one process that end normally, the GRIB message handles, indexes and files open are those open before.", "quantifier": "all sequences of commands and API calls, of any length", "why_tests_cant": "leaks show over arbitrarily long histories", "anchors": ["src/pyg2p/main/__init__.py:execute", "src/pyg2p/main/controller.py:Controller.close", "src/pyg2p/main/api.py:Pyg2pApi.execute", "src/pyg2p/main/readers/grib.py:GRIBReader.close"]}
{"id": "C100", "title": "Geopotential taken from the input file", "statement": "When a correction is asked for, the geopotential is read from the input file if and only if that file holds a geopotential message (fis, z, FIS or orog); otherwise the file registered for the grid is used.", "quantifier": "all requests (with and without ensemble member), all input files, whatever is registered and already open", "why_tests_cant": "depends on which messages of any file are seen through the selection left in the index by the information request", "anchors": ["src/pyg2p/main/controller.py:Controller.init_execution", "src/pyg2p/main/readers/grib.py:GRIBReader.has_geopotential", "src/pyg2p/main/context.py:Context.geo_file"]}
{"id": "C101", "title": "Geopotential field of the corrected grid", "statement": "The field used as geopotential by a correction is that of a geopotential message on the grid of the field being corrected.", "quantifier": "all geopotential files (any number of messages, grids, levels, steps and names), formulas, interpolations", "why_tests_cant": "the choice among the messages must be right for every content of the file", "anchors": ["src/pyg2p/main/manipulation/correction.py:Corrector._read_geo", "src/pyg2p/main/readers/grib.py:GRIBReader.select_messages"]}
{"id": "C102", "title": "Corrections leave nothing open", "statement": "After any sequence of corrections in one process, successful or failed, the message handles, indexes and files open are those open before.", "quantifier": "all sequences of requests of correctors, files changing in between, failures at every point", "why_tests_cant": "leaks depend on the point of failure and accumulate over histories", "anchors": ["src/pyg2p/main/manipulation/correction.py:Corrector.get_instance", "src/pyg2p/main/manipulation/correction.py:Corrector._read_geo", "src/pyg2p/main/readers/grib.py:GRIBReader.close"]}
{"id": "C103", "title": "Files that cannot be indexed", "statement": "A command writes the same maps whether or not eccodes can build an index of its input file.", "quantifier": "all requests and all input files", "why_tests_cant": "must hold for every request and file; the fallback reads the file as a stream", "anchors": ["src/pyg2p/main/readers/grib.py:GRIBReader.__init__", "src/pyg2p/main/readers/grib.py:GRIBReader.scan_grib", "src/pyg2p/main/readers/grib.py:GRIBReader.get_grib_info"]}
{"id": "C104", "title": "Documented value formats", "statement": "A netCDF output can be written in every documented value format (i1, i2, i4, i8, u1, u2, u4, u8, f4, f8; f8 when none is given), with the default fill value of that format marking the missing cells.", "quantifier": "all documented formats, packings, valid ranges, clones with a missing cell and stacks of fields", "why_tests_cant": "must hold for every format together with every packing, clone and stack of fields", "anchors": ["src/pyg2p/main/writers/netcdf.py:NetCDFWriter.write", "src/pyg2p/main/writers/netcdf.py:NetCDFWriter.init_dataset"]}
{"id": "C105", "title": "Bilinear interpolation finds the surrounding cell", "statement": "With bilinear interpolation, a target cell inside the latitude and longitude range of a source laid out on parallels gets the weights of four source points that surround it.", "quantifier": "all sources on parallels, nearest-neighbour structures and target cells in range that are no source point", "why_tests_cant": "must hold for every grid and every position of the target in it, borders included; the search is a loop with replacement rules", "anchors": ["src/pyg2p/main/interpolation/scipy_interpolation_lib.py:ScipyInterpolation._build_weights_bilinear", "src/pyg2p/main/interpolation/scipy_interpolation_lib.py:getClockwisePoints"]}
{"id": "C106", "title": "Longitude convention of the source", "statement": "The bilinear interpolation of a target cell does not depend on whether the longitudes of the source are given in 0..360 or in -180..180.", "quantifier": "all sources, both conventions, all target cells", "why_tests_cant": "must hold for every region, in particular those west of Greenwich or crossing it", "anchors": ["src/pyg2p/main/interpolation/scipy_interpolation_lib.py:ScipyInterpolation._build_weights_bilinear"]}
{"id": "C107", "title": "Bilinear interpolation always gives a row", "statement": "Building a bilinear table never fails: every target cell gets a row, for every source with enough points, no two of them at the same place.", "quantifier": "all sources with at least six points more than the retries, pairwise at different places, nearest-neighbour structures, sort orders and target cells", "why_tests_cant": "must hold for every layout of the points met by the search: the code has an assertion for vertices that should always be found, indexes into lists of replacements, and attributes set only on success", "anchors": ["src/pyg2p/main/interpolation/scipy_interpolation_lib.py:ScipyInterpolation._build_weights_bilinear", "src/pyg2p/main/interpolation/scipy_interpolation_lib.py:getNonConvexVertex", "src/pyg2p/main/interpolation/scipy_interpolation_lib.py:ScipyInterpolation.replaceIndex"]}
{"id": "C108", "title": "Stored interpolation tables are found", "statement": "An interpolation table that is configured and stored, plain or gzip-compressed, in the directory of the user or else in the global directory is the one applied, however the directory is written; it is neither refused nor rebuilt, and a process killed while it creates a table does not make it unusable for later processes.", "quantifier": "all configurations, directories, file systems, modes and histories of later processes", "why_tests_cant": "quantifies over file systems, spellings of the directory, crash points and histories", "anchors": ["src/pyg2p/main/interpolation/__init__.py:Interpolator._intertable_filename", "src/pyg2p/main/interpolation/__init__.py:Interpolator._read_intertable", "src/pyg2p/main/interpolation/__init__.py:Interpolator.interpolate_scipy", "src/pyg2p/main/interpolation/__init__.py:Interpolator.grib_nearest"]}
{"id": "C109", "title": "Rounding does not change the shape of an aggregation", "statement": "In double precision an aggregation gives the same steps in the same order, fields of the same size with the same masked cells, and the same error, as with exact arithmetic; extraction of steps is exact.", "quantifier": "all aggregations, parameters and input fields", "why_tests_cant": "must hold for every value of every cell; tests only compare a few values with a tolerance", "anchors": ["src/pyg2p/main/manipulation/aggregator.py:Aggregator._accumulation", "src/pyg2p/main/manipulation/aggregator.py:Aggregator._average", "src/pyg2p/main/manipulation/aggregator.py:Aggregator._instantaneous"]}
{"id": "C110", "title": "Accumulations in double precision", "statement": "A cell of an accumulation between two available steps, computed in double precision, is (end - start) * unit / step up to a relative error of 2^-51 (and 2^-1073 for numbers near zero): it is never negative when the amount did not decrease and never positive when it did not increase; in particular it is exactly zero when nothing was added. The same signs hold when missing steps are interpolated (with rounding) between the nearest fields: no window of a cell whose amounts never decrease is negative. And the windows of such a cell add up to its change over the whole period, up to the same relative error (and 2^-1073 for each window): rounding does not lose rain, however many windows there are.", "quantifier": "all series of finite doubles up to 2^900, steps and units up to 2^53, windows and cells", "why_tests_cant": "needs every rounding mode case of three operations on every pair of doubles", "anchors": ["src/pyg2p/main/manipulation/aggregator.py:Aggregator._accumulation"]}
{"id": "C111", "title": "Averages in double precision", "statement": "A cell of an average without half weights, computed in double precision in the order of the code, is the mean of the values of its window up to 2^-52 times the sum of their absolute values (and 2^-1074); with half weights it is the trapezoidal mean of the available steps of its window up to (number of steps) * 2^-49 times the mean of their absolute values (and 2^-1072). It is not negative when the values are not; it may lie outside the range of the values by that error.", "quantifier": "all series of finite doubles up to 2^900 (half weights: 2^800, at least two available steps in the window), windows of up to 2^20 steps and cells", "why_tests_cant": "rounding errors accumulate over every possible sequence of values", "anchors": ["src/pyg2p/main/manipulation/aggregator.py:Aggregator._average"]}
{"id": "C112", "title": "Interpolated values in double precision", "statement": "A cell interpolated with a table in double precision is the exact weighted sum up to n * 2^-52 times the sum of the absolute products (n neighbours; and n * 2^-1074), whatever the order of the additions and whether they are fused with multiplications; products of one sign never give the other sign; a value that is not a number gives a result that is not a number; rounding never makes an interpolation fail.", "quantifier": "all tables with up to 2^20 neighbours, weights and values up to 2^450, orders and bracketings of the additions", "why_tests_cant": "the order of the additions depends on the build of numpy and the processor: all of them must be covered", "anchors": ["src/pyg2p/main/interpolation/__init__.py:Interpolator._interpolate_scipy_append_mv"]}
{"id": "C113", "title": "Stored weights in double precision", "statement": "Weights divided by their sum in double precision are between 0 and 1, each is its exact share up to n * 2^-51 of it, and they add up to 1 up to n * 2^-50, whatever the order of the additions; inverse distance weights are proportional to the inverse squares of the distances up to n * 2^-49 of each.", "quantifier": "all lists of up to 2^20 weights not negative and not all zero, all orders of the additions; all distances between 1e-10 and 2^400", "why_tests_cant": "all orders of the additions and all distances", "anchors": ["src/pyg2p/main/interpolation/scipy_interpolation_lib.py:ScipyInterpolation._build_weights_invdist"]}
{"id": "C114", "title": "Interpolation in double precision does not leave the range of the values", "statement": "A value interpolated with stored normalised weights lies between the least and the greatest value used, up to n * 2^-50 of the greatest absolute value; a constant field is reproduced up to that error, not exactly.", "quantifier": "all weights as in C113, values up to 2^450, orders of the additions", "why_tests_cant": "all values and all orders of the additions, in the weights and in the interpolation", "anchors": ["src/pyg2p/main/interpolation/__init__.py:Interpolator._interpolate_scipy_append_mv", "src/pyg2p/main/interpolation/scipy_interpolation_lib.py:ScipyInterpolation._build_weights_invdist"]}
{"id": "C115", "title": "PCRaster maps hold the computed values to single precision", "statement": "A cell of a PCRaster output map is missing exactly where the field or the clone map is missing, and otherwise holds the computed value to single precision (24 bits), whatever clone map is used. (The cells get the type of the clone map: with a clone of whole numbers the values are rounded to whole numbers and cut to the range of the type.)", "quantifier": "all clone maps (8 bit, 32 bit whole numbers, single precision), missing values and fields", "why_tests_cant": "tests use one kind of clone map; all values and all types", "anchors": ["src/pyg2p/main/writers/pcr.py:PCRasterWriter.write", "src/pyg2p/main/writers/pcr.py:PCRasterWriter.__init__"]}
{"id": "C116", "title": "Cells without value of netCDF files hold the declared fill value, with rounding", "statement": "Whatever the value format, the scale factor and the offset, the number stored in a cell without value is exactly the fill value declared by the variable, so that readers take it as missing.", "quantifier": "all formats, all double precision scale factors between 2^-500 and 2^500 and offsets up to 2^40 times the scale factor", "why_tests_cant": "whether the fill value survives scaling and unscaling depends on the rounding for each scale factor", "anchors": ["src/pyg2p/main/writers/netcdf.py:NetCDFWriter.write"]}
{"id": "C117", "title": "Precision of the values of netCDF files", "statement": "What a reader unpacks from a netCDF output file differs from the computed value by at most 2^-51 of (value - offset) in double precision, 2^-24 of it (and little more) in single precision and half a scale factor (and little more) in the integer formats; in double precision without scale factor and offset it is the value itself.", "quantifier": "all formats, double precision values, scale factors between 2^-500 and 2^500, offsets up to 2^40 and values up to 2^120 scale factors", "why_tests_cant": "all values, scale factors and offsets", "anchors": ["src/pyg2p/main/writers/netcdf.py:NetCDFWriter.write"]}
{"id": "C118", "title": "Bilinear and triangle interpolation do not leave the range of the values, with rounding", "statement": "In double precision the four weights of mode bilinear are between 0 and 1 and add up to 1 up to 2^-50, whatever the solver gives; the interpolated value stays between the values at the corners up to 4 * 2^-50 of the largest; values that are not negative never give a negative value. The same is wanted of the triangles of modes triangulation and bilinear_delaunay.", "quantifier": "all double precision results of the solver, all triangles and target points, all values up to 2^450, all orders of the additions, fused or not", "why_tests_cant": "all positions and all values; whether a weight falls below 0 depends on the rounding for each triangle", "anchors": ["src/pyg2p/main/interpolation/scipy_interpolation_lib.py:ScipyInterpolation._build_weights_bilinear", "src/pyg2p/main/interpolation/scipy_interpolation_lib.py:ScipyInterpolation._build_weights_triangulation", "src/pyg2p/main/interpolation/__init__.py:Interpolator._interpolate_scipy_append_mv"]}
{"id": "C119", "title": "Installing a release keeps the user's configuration", "statement": "Installing any release with setup.py leaves every file that exists as it is, except the package's own configuration files under the installation prefix: configuration files and command file samples in ~/.pyg2p hold what the user wrote last, over any history of installations and changes. Configuration files and samples the user does not have arrive with the released text, the package's own files always get the released text, and no other file appears or changes.", "quantifier": "all homes, prefixes, releases (lists of files and contents), files present before, and histories of installations and user changes", "why_tests_cant": "all sets of existing files and all sequences of upgrades and edits", "anchors": ["setup.py:setup_data_files", "setup.py:exists"]}
{"id": "C120", "title": "Unit conversions in double precision", "statement": "Each conversion function shipped in parameters.json (x-273.15, x*1000, 1000*x, -x*1000, x*(-0.0353), x*(-0.00147)), read as the text it is and computed in double precision, gives in every cell that is not missing the value of that line up to a relative error of 2^-51 (of |x| and of the constant, for kelvin to Celsius; 2^-1073 near zero); amounts that are zero stay exactly zero. And a conversion text in which x occurs once, with any numbers added, subtracted, multiplied or divided by, never exchanges two cells: of two values the larger one stays the larger (or they become equal), or all are reversed. Texts are read by the usual precedence, equal operators from the left; a text that names anything but x is refused with an error and no field is converted.", "quantifier": "all finite doubles up to 2^900 (order: all numbers whose result is finite), all fields and masks; for the order all texts of the grammar", "why_tests_cant": "needs every pair of doubles and every literal", "anchors": ["src/pyg2p/main/manipulation/conversion.py:Converter.convert", "configuration/global/parameters.json"]}
{"id": "C121", "title": "Altitude correction in double precision", "statement": "The correction p+gem-dem*0.0065 of the README, computed in double precision, gives in every cell where the parameter, the geopotential and the elevation are present that value up to 2^-50 of the sum of the absolute values of the three parts (2^-1072 near zero), and (z/9.81)*0.0065 up to a relative error of 2^-49. Of two cells with the same parameter and geopotential the higher one is never made the warmer one, and a warmer cell at the same or a lower altitude is never made the colder one.", "quantifier": "all finite doubles up to 2^900, all fields, DEMs and missing values", "why_tests_cant": "needs every triple of doubles", "anchors": ["src/pyg2p/main/manipulation/correction.py:Corrector.correct", "README.md"]}
