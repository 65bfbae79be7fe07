C01 | proved | C01_accumulation_complete | exact key set, values and success, any number of steps and cells
C02 | proved | C02_accumulation_conserves | telescoping sum, including reconstructed steps
C03 | proved | C03_start_zero_is_first_window C03_same_read_window | result, keys, errors and read window coincide
C04 | partial | C04_missing_steps_refuted C04_one_missing_step_partial C04_gaps_partial C04_first_start_missing_refuted | refuted in general: a second gap near the end raises IndexError (the fields reconstructed are appended to the list that is searched), and a missing start of the first window is interpolated at the wrong time; proved for one missing step inside the grid, and for any number of missing steps as long as at each of them there are more fields for later steps than steps reconstructed before
C05 | proved | C05_zero_first_field C05_force_zero_is_local C05_whole_series | 
C06 | partial | C06_masks_refuted C06_masks_partial | refuted: the mask of the window end is dropped; proved: the output mask is exactly the mask of the window start
C07 | proved | C07_average_backfilled_mean C07_average_succeeds | 
C08 | proved | C08_half_weights_trapezoid C08_weights_sum_to_step | 
C09 | proved | C09_average_in_range C09_constant_kept C09_half_weights_single_step_refuted | the condition named in the statement is needed: C09_half_weights_single_step_refuted refute the property without it. refuted for half weights with a single available end; proved whenever both window ends are available or half weights are off
C10 | proved | C10_average_windows C10_window_past_end_refuted C10_hourly_from_zero_refuted | the condition named in the statement is needed: C10_window_past_end_refuted, C10_hourly_from_zero_refuted refute the property without it. windows characterised exactly; refuted: one window may extend past the end
C11 | partial | C11_masks_refuted C11_never_masked_partial C11_extracted_never_masked_partial C11_cut_off_never_masked_partial C12_masks_refuted C18_masks_refuted | refuted: averages and extracted steps are never masked, the cut-off loses the mask
C12 | proved | C12_instantaneous_copies C12_instantaneous_succeeds C12_masks_refuted | the condition named in the statement is needed: C12_masks_refuted refute the property without it. values proved; masks are lost (refuted)
C13 | proved | C13_refuses_accumulated C13_accumulation_never_refused | 
C14 | proved | C14_read_window C14_zero_input_step_refuted | the condition named in the statement is needed: C14_zero_input_step_refuted refute the property without it. proved when the input step is non-zero, refuted otherwise
C15 | proved | C15_cell_local C15_keys_and_errors_independent_of_values | 
C16 | proved | C16_linear | 
C17 | proved | C17_conversion C17_identity C17_comparison_refuted | the condition named in the statement is needed: C17_comparison_refuted refute the property without it. proved for expressions whose text does not contain another x= ; refuted for comparisons such as x==0, because every x= is deleted from the text
C18 | proved | C18_cut_off C18_idempotent C18_masks_refuted | the condition named in the statement is needed: C18_masks_refuted refute the property without it. values proved; masked cells are not protected (refuted)
C19 | proved | C19_conversion_covers | 
C20 | partial | C20_correction_partial C20_missing_cells_refuted C20_geopotential_partial | proved for cells where input, geopotential and DEM are all present; missing-cell handling refuted
C21 | partial | C21_stale_corrector_refuted C21_own_corrector_partial C21_kept | the process-wide cache serves a stale corrector; proved for the first use of each key
C61 | partial | C61_order_irrelevant C61_argv_partial C61_flag_refuted C61_api_flag_refuted C61_quoted C61_white C61_first_line C61_carriage_return | commands made of option/value pairs and quoted arguments proved; an option without value shifts the pairing of all following ones, and the flag -A of the API is lost (refuted)
C62 | proved | C62_long_name_refuted C62_normalized C62_extension C62_no_extension C62_date C62_collision_refuted | the condition named in the statement is needed: C62_long_name_refuted, C62_collision_refuted refute the property without it. at most 10 clean characters when at least 3 remain, exact result for names with and without extension; shorter ones keep the whole name (longer than 10, upper case: refuted), different files get the same name (refuted)
C63 | proved | C63_boolean C63_empty_string_refuted | the condition named in the statement is needed: C63_empty_string_refuted refute the property without it. exact for None, booleans and non-empty texts; the empty text is an IndexError (refuted)
C65 | proved | C65_every_raised_code_is_defined C65_unknown_code C65_distinct C65_distinct_refuted | the condition named in the statement is needed: C65_distinct_refuted refute the property without it. every code that is raised or named is defined, exact behaviour for unknown codes; code 8600 has two names (refuted), and it is the only one
C37 | proved | C37_distinct_refuted C37_distinct C37_shape C37_netcdf | the condition named in the statement is needed: C37_distinct_refuted refute the property without it. proved when prefix and number fit in 11 characters; otherwise names are truncated and collide (refuted)
C38 | partial | C38_pcraster C38_api C38_full_clone_refuted C38_netcdf_masks_refuted C38_netcdf_partial | PCRaster and API proved in full; NetCDF proved for unmasked fields and clones with a missing cell, refuted otherwise
C39 | proved | C39_time_axis C39_requested_unit C39_source_unit C39_strictly_increasing C39_integers_exact C39_overflow_refuted C39_stored | the condition named in the statement is needed: C39_overflow_refuted refute the property without it. conversion, order and integrality proved; storage in 32-bit integers refuted for huge values
C40 | proved | C40_roundtrip_float C40_integer_refuted C40_roundtrip_integer C40_fill C40_negative_scale_refuted C40_range_float C40_range_integer C40_file_float C40_file_integer | the condition named in the statement is needed: C40_integer_refuted, C40_negative_scale_refuted refute the property without it. floating formats exact; integer formats truncate the packed value (refuted; exact for values on the scale grid) and a negative scale factor turns the valid range around (refuted; exact for positive ones); fill values exact; both formats for whole files
C22 | partial | C22_value_with_equals_refuted C22_properties_partial C22_malformed_line C22_files_partial C22_exact C22_strip | proved for lines with one equals sign; a value containing one is cut (refuted); C22_exact says exactly what several files give every key, the cut values included
C23 | proved | C23_merge C23_first_run C23_idempotent C23_not_json C23_accepted | 
C24 | proved | C24_empty_refuted C24_dump_reload C24_text C24_text_empty_refuted C24_text_cut | the condition named in the statement is needed: C24_empty_refuted, C24_text_empty_refuted refute the property without it. proved for non-empty user configurations, also at the level of the text of the file (json.dumps and json.load for values of any depth); the empty one cannot be reloaded (refuted)
C25 | proved | C25_parameter C25_keyerror_refuted C25_conversion | the condition named in the statement is needed: C25_keyerror_refuted refute the property without it. proved when conversions have ids and the parameter a short name; KeyError otherwise (refuted)
C26 | partial | C26_same_process_lookup_refuted C26_second_add_refuted C26_same_name_refuted C26_add_partial C26_refused C26_remove_partial C26_history_partial C26_last_removed_refuted C26_removed_partial | proved across processes for distinct file names, over all histories; refuted within one process and for equal base names
C27 | proved | C27_lookup_order | 
C66 | proved | C66_undefined_refuted C66_undefined_keyerror C66_interpolation C66_no_variable C66_no_variable_left C66_braces C66_lone_brace | the condition named in the statement is needed: C66_undefined_refuted refute the property without it. proved when all variables are defined; an undefined one gives KeyError instead of 8000 (refuted)
C30 | partial | C30_end_zero_refuted C30_numeric_level_refuted C30_format_refuted C30_check_partial C30_execution_partial C30_api_partial C30_earlier_errors C30_accepted C30_unusable_directory | proved (exact code of the first violated rule) for text levels and ranges without a 0 bound; the JSON format is never checked (refuted)
C31 | partial | C31_fmap_one_refuted C31_midnight_refuted C31_overrides_partial C31_command_line | proved outside the sentinel values; -f 1 loses to the file and dataTime 0 of the file is ignored (refuted)
C32 | proved | C32_selection C32_scalars C32_attributes C32_upper | 
C33 | partial | C33_command C33_api_halfweights_refuted C33_halfweights_text_refuted C33_lower | command file options proved; the API never passes half weights and a false text switches them on (refuted)
C57 | proved | C57_upper_case_refuted C57_messages C57_variants C57_tables | the condition named in the statement is needed: C57_upper_case_refuted refute the property without it. proved when the short names of the selection differ (always, unless the name is its own upper case) and the grid changes at most once; an upper case name is read twice and duplicates fields (refuted)
C58 | proved | C58_levels_refuted C58_steps | the condition named in the statement is needed: C58_levels_refuted refute the property without it. proved for messages with pairwise different end steps (exact start, end, time steps and change point); several levels give a step of 0 (refuted)
C59 | partial | C59_close_twice C59_refuted C59_two_selections_refuted C59_get_id_leaks C59_partial | proved for readers used as the program does (at most one selection, closed once); a second close fails, a second selection and get_id leak handles (refuted)
C60 | partial | C60_hour_refuted C60_partial C60_exact C60_messages C60_impossible | the exact outcome is proved for every time of day; 03:00 to 09:59 are refused and 01:mm, 02:mm misread (refuted)
C28 | proved | C28_netcdf_refuted C28_exact C28_status C28_pcraster | the condition named in the statement is needed: C28_netcdf_refuted refute the property without it. the exact status and release of index and files are proved for every execution; the documented status fails only for a NetCDF writer whose file was never created (close raises AttributeError: refuted). Handles are released in every execution that returns a status.
C29 | partial | C29_refuted C29_none_done C29_partial | no configuration action is ever done (refuted for -W, -K, -g); proved: -W and -K never start an extraction, -g is ignored
C34 | partial | C34_start_refuted C34_end_zero_refuted C34_partial C34_outside_refuted C34_inside_partial | exact range proved; without requested start 0 is used, requested end 0 is ignored (refuted); fields outside the window only after the retry of the selection
C35 | partial | C35_order C35_single C35_two_grids C35_selected_refuted C35_no_aggregation C35_last_refuted C35_two_partial | order proved for all executions; exact fields and grids proved for one resolution, and for two resolutions with aggregation and more than one window after the change; without aggregation TypeError, with exactly one window it is lost (refuted)
C36 | partial | C36_refuted C36_partial C36_accumulated_lost | proved except that instantaneous aggregations produce the change step twice (refuted); windows of averages from 0 may end one step later; accumulated fields lose the first resolution
C64 | proved | C64_keys C64_dictionary C64_sort C64_refuted C64_by_end_step | the condition named in the statement is needed: C64_refuted refute the property without it. keys and the final sort proved; the aggregations index by end step, merging fields with equal end step (refuted)
C44 | partial | C44_nearest_table C44_invdist_table C44_nearest_end_to_end C44_masked_first_point_refuted C44_low_longitude C44_invdist_end_to_end_partial | any table with distinct cells proved; end to end proved for grib_nearest; for grib_invdist an exact match also reads point 0 with coefficient 0, so a masked or infinite point 0 makes the cell missing (refuted), and a longitude of exactly -1e10 breaks the table
C45 | proved | C45_neighbours C45_table | any distances, and every row of the table built; longitudes of exactly -1e10 excluded from the table theorem (C44_low_longitude)
C46 | proved | C46_any_chunks C46_parallel_equals_sequential | any partition into non-empty chunks; maps with at least one cell; below 250 cells the sequential construction fails (C47)
C47 | partial | C47_small_targets_fail C47_refuted C47_partial | the sequential construction fails for every map of 1 to 249 cells (refuted); parallel construction and larger maps proved
C41 | partial | C41_new_name C41_never_overwrites C41_found_again C41_partial C41_two_directories_refuted C41_in_use_refuted C41_concurrent_refuted | one directory for new tables, any sequence of processes, crashes at any point of a creation: proved. False with two directories (-N), for names of tables of the global directory, and for two processes at the same time (refuted). Names without .gz/.npy and double extensions .gz.gz excluded
C42 | partial | C42_refuted C42_grid_keys C42_wrong_table_applied C42_pcraster_partial C42_netcdf_partial C42_grid_partial C42_table_identifier C42_pcraster_numbers_partial C42_pcraster_exact_partial C42_netcdf_numbers_partial | identifiers ignore latitudes, rotation, cells and decimals of the cell size (refuted); what they do determine is proved
C43 | proved | C43_nearest C43_weighted_sum C43_convex C43_single_weight C43_mask_ignored | exact arithmetic; masks of the source field are ignored (np.append drops them), which the last theorem records
C48 | partial | C48_partial C48_cellwise C48_nearest_splits_fail C48_refuted C48_other_numbers C48_adw C48_cdd_refuted C48_newetal_refuted C48_bilinear_rotated C48_bilinear_partial C48_bilinear_small C48_bilinear_refuted C48_bilinear_other_numbers C48_triangulation C48_delaunay_refuted | proved for inverse distance, adw and every cell-by-cell builder, for 1 <= splits <= rows; refuted for nearest (every number of splits fails), cdd Hofstra and MixHofstraShepard (every number of splits >= 2 fails), cdd NewEtAl (silently another table), for more splits than rows, zero and negative numbers; mode bilinear: the same table for rotated grids, and for the others when every search ends within the rows of its part (the number of retries is the number of rows of the part: refuted otherwise, a cell then silently takes the quadrilateral of the cell before it); parts of less than 250 cells fail; mode triangulation: the same table (parts of at least 250 cells); mode bilinear_delaunay: refuted, the pairs of triangles are made anew in every part
C49 | proved | C49_table C49_small_refuted C49_bound C49_no_nj_refuted | the condition named in the statement is needed: C49_small_refuted, C49_no_nj_refuted refute the property without it. proved for targets of 250 cells or more; smaller targets raise ZeroDivisionError, grids without Nj raise TypeError
C50 | proved | C50_table C50_missing_refuted C50_few_points_refuted | the condition named in the statement is needed: C50_missing_refuted, C50_few_points_refuted refute the property without it. weights proved; a target without neighbours within the bound gets NaN and not the missing value; fewer than four source points raise IndexError
C51 | partial | C51_broadcasting C51_broadcasting_directional C51_partial C51_coincident C51_equidistant C51_refuted | both computations are equal and the weights are exactly the formula, convex, with directional factor in [0,2], whenever the first and fourth distance differ; a coincident source point is taken; if the radius equals the smallest distance (for example eleven equidistant points, a target at the pole) all weights are NaN (refuted)
C52 | partial | C52_decay C52_mix_decay C52_hofstra_partial C52_hofstra_missing C52_mix_partial C52_newetal_partial C52_same_direction C52_refuted | decays and weights proved for the three modes when the used neighbours are not all in the same direction; otherwise, and in Hofstra with fewer than three neighbours in the cdd, all weights are NaN (refuted)
C67 | partial | C67_partial C67_refuted | proved unless exactly 4 or exactly 10 points are within the reference radius; in these cases the code uses another radius (refuted)
C68 | partial | C68_partial C68_refuted C68_number_of_options C68_accepted C68_text C68_digits | proved for the documented order; any other order silently exchanges the parameters (refuted); fewer or more options are a ValueError; exactly which values are accepted, whatever the names
C69 | partial | C69_one_dropped C69_partial C69_refuted | for any order numpy may return exactly one neighbour is dropped and it is not the only largest; with numpy's selection of the last place, right if the nearest is strictly ahead; on a tie of the two nearest the nearest is dropped (refuted)
C56 | partial | C56_sphere_partial C56_order C56_full_turn C56_rotate_partial C56_regular_exact C56_refuted C56_incomplete | unrotated grids: sphere of the radius, order of great-circle distances proved; the rotation keeps proportions but is on the unit sphere; the way back (to_regular, rotated_target) has a wrong sign and keeps distances exactly for the poles given; as it forgets the radius, a rotated target is at least the radius minus 3 m away from every source point (refuted)
C53 | partial | C53_weights C53_table C53_coincident C53_found C53_one_solution C53_affine_partial C53_corner_partial C53_refuted C53_rotated_choice | every row is missing or four convex weights, the accepted quadrilateral is strictly convex around the target, the solution is unique and exact for affine functions and at corners (if fsolve finds it); a cell whose retries are used up before a quadrilateral was formed silently takes the one of the cell before and reproduces nothing, for any solver (refuted)
C54 | proved | C54_permutation C54_rectangle | any argsort; neighbours in the result are neighbours in every rectangle, first the south-west corner
C70 | partial | C70_partial C70_place_partial C70_equator_refuted C70_longitude_refuted C70_refuted | proved for target longitudes -180..180 and points not on the equator (or within 90 degrees); a point of the equator more than 90 degrees away is drawn elsewhere, targets with longitudes above 180 are drawn far from their neighbours (refuted)
C71 | partial | C71_partial C71_table_partial C71_rotated_partial C71_refuted | cells that can be computed alone, and all cells of rotated sources, have the same row anywhere; refuted for a cell that runs out of retries (takes the quadrilateral of the cell before)
C72 | partial | C72_rotated_partial C72_rotated_table_partial C72_rotated_build C72_refuted | rotated sources: at most 20 rounds for a cell; a source of four points around the pole for which the search replaces a point by itself for ever (refuted)
C55 | partial | C55_partial C55_south_refuted C55_equator_refuted C55_column_refuted C55_refuted | mode triangulation: rows are NaN or three convex weights, exact for affine functions of the Mercator ordinate and the longitude, for northern or rotated sources and targets whose rows follow parallels, if the first padded point is not used; refuted otherwise: first padded point not mapped back, target rows with several latitudes, sources up to the equator only or south of it
C73 | partial | C73_partial C73_bilinear_refuted C73_refuted | proved for mode triangulation; bilinear_delaunay pairs triangles in the order of the cells (refuted for every honest sort, angle and solver)
C74 | partial | C74_partial C74_refuted | mode triangulation: only the triangulation itself can fail; bilinear_delaunay raises IndexError, e.g. for a source of one triangle
C75 | proved | C75 C75_widest C75_pairing C75_alone C75_kept | any honest triangulation, any valid argsort, any answers of fsolve
C76 | proved | C76_command C76_api C76_incomplete_correction_refuted | the condition named in the statement is needed: C76_incomplete_correction_refuted refute the property without it. what is converted and corrected is exactly the configured conversion / correction when every item is there; a correction request that lacks one of formula, gem, DEM is silently not done (refuted)
C77 | partial | C77_options C77_cdd_path_refuted C77_map_paths_partial C77_text_switch_refuted C77_stored_options_refuted C77_same_options_partial | options are read as given and a history with equal options uses tables made with them; a stored table is used whatever the options ask for, the cdd_map path is not expanded, the text False is a true switch (all refuted)
C78 | proved | C78_same_context C78_same_verdict C78_same_options C78_defaults_refuted | the condition named in the statement is needed: C78_defaults_refuted refute the property without it. same context, verdict and options when every item is given explicitly; the defaults of the two interfaces differ (refuted)
C79 | partial | C79_units_refuted C79_source C79_alike_partial C79_information C79_second_file C79_second_unit_refuted | exact source of every item; holds for every message if the selected messages agree; otherwise refuted, also for the fields of a second file in another unit
C80 | proved | C80_transposed_refuted C80_two_variables_refuted C80_netcdf C80_pcraster C80_two_files C80_suffix C80_no_coordinates C80_other_size | the condition named in the statement is needed: C80_transposed_refuted, C80_two_variables_refuted refute the property without it. a variable over (lon, lat) is silently transposed on a square grid, a second gridded variable gives UnboundLocalError (refuted); exact for a single variable over (lat, lon) and for PCRaster maps
C81 | partial | C81_two_attributes_refuted C81_default_fill_refuted C81_partial C81_pcraster | missing_value different from _FillValue, or neither attribute on a float variable: a fill value is taken as an altitude (refuted); holds when the attributes agree, and for PCRaster maps
C82 | partial | C82_netcdf_target_refuted C82_other_type_refuted C82_pcraster_partial C82_netcdf_partial | with a netCDF target a PCRaster or API output holds 9.97e36 and not the no-data value of the clone (refuted); exact for PCRaster targets, and for netCDF output
C83 | proved | C83_rotated_refuted C83_missing_corner_refuted C83_pcraster C83_netcdf | the condition named in the statement is needed: C83_rotated_refuted, C83_missing_corner_refuted refute the property without it. first row and first column are used: wrong for curvilinear targets and when those cells are missing (refuted); exact for regular targets
C84 | partial | C84_outside_refuted C84_members_refuted C84_flow C84_plain_partial | a selection that is empty in the window is retried with the steps of the file and fields outside the window are written; two members at the same step with none requested: one field is lost (refuted); otherwise the maps written are exactly those of the messages asked for
C85 | partial | C85_hofstra C85_mix_partial C85_newetal_partial C85_own_cell_refuted | exact for Hofstra and the mixed mode (standard or given parameters, all weights or only ten); in mode NewEtAl a station in the half of its cell towards the first cell of the target gets the cut-off distance of the neighbouring cell (refuted)
C86 | partial | C86_interrupted_refuted C86_attempt C86_history_partial C86_refused | a file left by an interrupted attempt is skipped for ever (refuted); an attempt without error is exact; after any history new files are prefixes of the remote ones and at most one for each failed attempt is incomplete
C87 | partial | C87_killed_refuted C87_partial C87_killed_writing C87_never_repaired | a process killed while it writes leaves a file that no later process can read or repair (refuted); proved for kills at every other point
C88 | partial | C88_lost_refuted C88_start_refuted C88_overlap_refuted C88_last_writer C88_serial_partial | updates are lost, a start during a dump fails, overlapping dumps leave an unreadable file (refuted); proved when no other process dumps between the start and the last dump of a process, and the exact content for whole dumps
C89 | partial | C89_description C89_refuted C89_partial C89_all_removed_refuted C89_unused_refuted C89_reported_partial | always fails with the description entry pyg2p itself writes; tables ending in .npy.gz are never reported; removing all entries leaves a file that cannot be loaded (refuted); otherwise exact
C90 | proved | C90_options C90_exact C90_refusals C90_help C90_numbers C90_negative_refuted | the condition named in the statement is needed: C90_negative_refuted refute the property without it. accepted lines are exactly the spellings of the documented options, last occurrence wins, integers as Python reads them; a value such as -1e5 cannot follow its option as an argument of its own (refuted)
C91 | partial | C91_exact_partial C91_refuted C91_no_conversion C91_list_partial C91_list_refuted C91_first_start | exact text for parameters with all items; parameters without conversion or without @cutOffNegative give KeyError (16 of the 32 parameters shipped), the list names the keys of the user file only, description included (refuted)
C92 | partial | C92_more C92_fewer_partial C92_refuted | the exception for the difference is created but not raised (line 556): refuted; with more values never refused, with fewer IndexError exactly if one of the four nearest points of a cell has no value
C93 | partial | C93_zero_partial C93_prefix C93_plain_partial C93_refuted C93_silent_refuted | the full statement (status 0 means complete, or nothing to extract) is refuted: the correction raises the error for no messages too, so status 0 with part of the maps; proved if writers and interpolation never raise that error; the maps written are always a numbered prefix; plain requests followed from the arguments to the maps; files with only variant names are silently skipped (refuted)
C94 | proved | C94_accumulated C94_gaps | C94_gaps: other missing bounds, under the condition of C04_gaps_partial; one input file, one grid, amounts since step 0 with every window bound but step 0 available, with or without forceZeroArray, the last step is positive
C95 | proved | C95_average C95_half | one input file, one grid, one message per end step, some message in the range read; from step 0 the last window may end one step after the last one (C10)
C96 | proved | C96_instantaneous | one input file, one grid, one message per end step, step type not avg, some message in the range read
C97 | proved | C97_plain C97_accumulated C97_gaps C97_average C97_average_half C97_average_from_zero C97_average_from_zero_fails C97_instantaneous | one input file and one grid; hours 00:00 or 10:00-23:59 (C60); averages and instantaneous maps of messages that are not of type accum, averages without half weights from step 0 succeed exactly if the last step plus 1 is no multiple of the aggregation step (the extra window of C10)
C98 | partial | C98_pcraster_partial C98_netcdf_partial C98_nan_refuted C98_tables_partial C98_tables_refuted | The full statement is false: a NaN is returned where the program writes the missing value, and with a grib mode the API cannot create a missing table. Proved: for every request and file, PCRaster output: same errors, same steps in the same order, same cells but for NaN; NetCDF output: same maps up to the clone mask; same tables in the scipy modes and in the grib modes when the table exists or may not be created. Hypotheses: half weights not asked for (the API has no such option), writers can be made, interpolation depends on the message and not on the number of its handle.
C99 | partial | C99_commands_partial C99_history_partial C99_api_refuted | The full statement is false: every API call leaves two readers open (three with a second file), proved exactly for every history. Proved for histories of commands: indexes and files always, handles when every command returns a status.
C100 | partial | C100_no_member_partial C100_member_partial C100_member_refuted | The full statement is false: with an ensemble member asked for, a geopotential that carries no member number (or another one) is not seen, because the member stays selected in the index (refuted). Proved for every successful execution: exactly when no member is asked for, and with member p the input file is used if and only if it holds a geopotential of member p.
C101 | partial | C101_which_partial C101_one_grid_partial C101_grid_refuted | The full statement is false: the grid of the messages is not compared with that of the field (refuted with a file holding z on two grids). Proved: exactly which message is taken (names in the order fis, z, FIS, orog; before the first change of the number of parallels; last with the steps and level of the first with the smallest end step; missing value of the first message), and the full statement when all geopotentials of the file are on that grid. The gem formula and the interpolation are arbitrary functions.
C102 | partial | C102_success_partial C102_failures_partial C102_refuted | The full statement is false: a correction that fails after opening the geopotential file leaves its index or file and its handles open, each time it is asked for again (refuted). Proved for every history: exactly one index or file per such failure, nothing when all succeed, and nothing foreign is ever closed.
C103 | partial | C103_partial C103_command_partial C103_refuted | The full statement is false: the information request reads the stream to its end, so nothing is left to select (refuted). Proved: with such an input file no execution succeeds, no map is written, and the command ends as if no message had matched (status 0).
C104 | partial | C104_partial C104_unsigned_refuted | The full statement is false: the file is created in the classic data model, which has no unsigned and no 64-bit integers, so five of the ten documented formats fail (refuted; the refusal by the netCDF library is part of the model). Proved: exactly i1, i2, i4, f4 and f8 work, with their default fill value, and every other name but S1 is a missing key.
C105 | partial | C105_north C105_refuted C105_rectangle_partial C105_exchanges_partial C105_vertex | The full statement is false: a target on the northernmost parallel that is no source point never finds a quadrilateral, whatever the retries, and gets the stale quadrilateral of the previous cell or a failure (refuted). Proved: a target in the rectangle of its four nearest points, but on its northern side, gets exactly the classical bilinear value of its corners in the first round, if the solver finds the root; and so does one that reaches its rectangle by any number of exchanges, each of the point that does not fit by an independent rule (farthest of three on a side, farther of two on different parallels, mirrored second points).
C106 | partial | C106_partial C106_west C106_greenwich C106_refuted | The full statement is false: with a regional source west of Greenwich in 0..360 every target cell that is no source point is missing, and a region that crosses Greenwich is taken for global (refuted, with the exact rows). Proved: the rows are equal for all targets within both ranges and for global sources.
C107 | partial | C107_partial C107_table_partial C107_refuted | The full statement is false: without any quadrilateral so far (for instance on the northernmost parallel) the cell fails with AttributeError (refuted). Proved for all such sources: this is the only failure, none occurs for rotated sources; in particular a quadrilateral that is not convex always has the vertex whose absence is asserted against, and replacements never run out. The points on the equator must be less than a quarter turn from the target (C70).
C108 | partial | C108_grib_refuted C108_scipy_partial C108_grib_partial C108_killed C108_killed_new C108_same_directory | The full statement is false: in the two grib modes a table stored only with the extension .gz is refused or rebuilt (refuted), and a process killed while it writes again a table whose file was lost leaves a file no later process can read or repair. Proved: the order of the places searched for the scipy modes with every outcome, what the grib modes do in each case, all histories after a kill, and that the spelling of the directory does not matter
C109 | proved | C109_ieee C109_overflow C109_form C109_extraction | The rounding is proved to be that of IEEE binary64 as defined in Flocq (no axiom of Flocq is used). Overflow gives infinities; zeros have no sign.
C110 | proved | C110_accumulation C110_gaps C110_total | C110_gaps: with missing steps, windows of a cell that never decreases are not negative and those of a constant cell are zero
C111 | proved | C111_average C111_half_weights C111_exact_refuted | The mean of three times 0.1 is more than 0.1 (refuted for the exact range).
C112 | proved | C112_cell C112_nan C112_same_failures | 
C113 | proved | C113_weights C113_invdist | The distances themselves are taken as given doubles.
C114 | proved | C114_between C114_exact_refuted | Two stations at 0.1 and 0.6 with the value 3 give more than 3.
C115 | partial | C115_float_partial C115_integer_partial C115_overflow C115_integer_refuted | Proved for clone maps of single precision numbers; with clones of whole numbers (a mask, say) 0.4 is written as 0: exact rule proved. The conversion is that of GDAL (assumed).
C116 | partial | C116_partial C116_exact_partial C116_refuted | False in double precision, the default format, for most decimal scale factors (0.03, 0.7, 1.1): the cells hold the neighbour of the fill value and are read as numbers. Proved for the other formats, and for double precision with scale factors with which 15 can be multiplied exactly (1, whole numbers, halves...).
C117 | proved | C117_values C117_default C117_exact_refuted | The reader is taken to unpack exactly.
C118 | partial | C118_quadrilateral_partial C118_between_partial C118_shares_of_bilinear C118_no_solution C118_triangle_partial C118_negative_refuted | False in triangles: at the point (1,98) of the triangle (15,0), (0,105), (0,0) the third weight is -2.2e-16, so that a field of values that are not negative gets a negative one. Proved for quadrilaterals; for triangles the weights are those of the stored matrix up to 2^-50 of the products.
C119 | proved | C119_kept C119_only C119_delivered C119_history | The copying done by setuptools is taken as documented for data_files (absolute folders as given, relative ones inside the prefix); HOME is an absolute path.
C120 | proved | C120_conversions C120_order C120_shipped_order C120_names C120_grammar | numexpr on + - * / (its multiplication by the reciprocal included) is modelled from its documentation; other functions and powers are not
C121 | proved | C121_correction C121_order C121_geopotential | the interpolation of the geopotential in between is covered by C112-C114
