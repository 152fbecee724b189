{
 "claims": [
  {
   "property": "C01",
   "status": "proved",
   "theorems": [
    "C01_write_read_roundtrip"
   ],
   "note": "For every grid of the documented shapes at binary64, bit-exact (NaN payloads included), strict or not."
  },
  {
   "property": "C02",
   "status": "proved",
   "theorems": [
    "C02_file_layout"
   ],
   "note": "Length and each 64-bit big-endian word of the file."
  },
  {
   "property": "C03",
   "status": "proved",
   "theorems": [
    "C03_truncated_file_rejected",
    "C03_interrupted_write_rejected",
    "C03_failed_write_rejected"
   ],
   "note": "Every file shorter than 16*(ni+1)*(nj+1)*8 bytes is rejected; every prefix of a write and every failed write is such a file."
  },
  {
   "property": "C04",
   "status": "proved",
   "theorems": [
    "C04_strict_rejects_exactly_nonzero_padding",
    "C04_nonstrict_accepts_any_padding"
   ],
   "note": "Padding is tested on the raw 64-bit words; zero means the patterns of +0.0 and -0.0."
  },
  {
   "property": "C05",
   "status": "proved",
   "theorems": [
    "C05_read_write_canonical",
    "C05_read_write_identity"
   ],
   "note": "Also for files with trailing bytes and nonzero padding (canonical form)."
  },
  {
   "property": "C06",
   "status": "proved",
   "theorems": [
    "C06_wrong_counts_rejected"
   ],
   "note": "Holds for all counts, zero included."
  },
  {
   "property": "C07",
   "status": "proved",
   "theorems": [
    "C07_none_fields_read_back_as_nan",
    "C07_missing_field_raises"
   ],
   "note": "None becomes NaN; a missing key is a KeyError and leaves a file that cannot be read."
  },
  {
   "property": "C08",
   "status": "proved",
   "theorems": [
    "C08_nearest_is_a_minimiser"
   ],
   "note": "For every geodesic (inv is a parameter), every libm, every visiting order; distances may be NaN."
  },
  {
   "property": "C09",
   "status": "proved",
   "theorems": [
    "C09_nearest_outside_domain"
   ],
   "note": "1e10 is the initial minimum of util.nearest; the unmatched result is (-1,-1,1e10)."
  },
  {
   "property": "C10",
   "status": "proved",
   "theorems": [
    "C10_fill_preserves"
   ],
   "note": "Existing corner points and all entries outside the region are unchanged, for every visiting order."
  },
  {
   "property": "C11",
   "status": "proved",
   "theorems": [
    "C11_fill_subdivides",
    "C11_fill_order_independent"
   ],
   "note": "New points are the geodesic subdivision points, with 360 added to negative longitudes when no longitude was negative; independent of the visiting order of both loops."
  },
  {
   "property": "C12",
   "status": "proved",
   "theorems": [
    "C12_longitudes_0_360",
    "C12_longitudes_unchanged"
   ],
   "note": "The geodesic's longitudes are assumed in [-180,180]; if some longitude is negative nothing is changed."
  },
  {
   "property": "C13",
   "status": "proved",
   "theorems": [
    "C13_mkgrid_shapes_and_positions",
    "C13_regrid_shapes_and_positions"
   ],
   "note": "For tomitgrid of any compute grid, mkgrid and every successful regrid."
  },
  {
   "property": "C14",
   "status": "proved",
   "theorems": [
    "C14_edge_lengths",
    "C14_mkgrid_edge_lengths",
    "C14_regrid_edge_lengths"
   ],
   "note": "Sums of two half-cell lengths, zero if one of them is zero."
  },
  {
   "property": "C15",
   "status": "proved",
   "theorems": [
    "C15_areas",
    "C15_mkgrid_areas",
    "C15_regrid_areas"
   ],
   "note": "Sums of four quarter-cell areas, zero if one of them is zero; the formula chosen as in C44."
  },
  {
   "property": "C16",
   "status": "proved",
   "theorems": [
    "C16_boundary_zero",
    "C16_mkgrid_boundary_zero",
    "C16_regrid_boundary_zero"
   ],
   "note": "Boundary entries of the fields that straddle the boundary."
  },
  {
   "property": "C17",
   "status": "proved",
   "theorems": [
    "C17_mkgrid_contract",
    "C17_mkgrid_rejects"
   ],
   "note": "Corners bit for bit; subscales below 1 are rejected."
  },
  {
   "property": "C18",
   "status": "proved",
   "theorems": [
    "C18_mkgrid_is_regrid_of_one_cell"
   ],
   "note": "Pointwise equality of all sixteen matrices (geq), for every geodesic under which each requested corner is strictly nearest to itself among the four."
  },
  {
   "property": "C19",
   "status": "proved",
   "theorems": [
    "C19_regrid_preserves_corners"
   ],
   "note": "All points of the selected rectangle, all four orientations; assumes the source supplies XG and YG of equal shape and both corners are found."
  },
  {
   "property": "C20",
   "status": "proved",
   "theorems": [
    "C20_regrid_aligns_diagonal"
   ],
   "note": "For all four orientations."
  },
  {
   "property": "C21",
   "status": "proved",
   "theorems": [
    "C21_at_most_three_rotations"
   ],
   "note": "The number of rotations is exactly quarter_turns, at most 3, for every memory layout; fewer is not enough."
  },
  {
   "property": "C22",
   "status": "proved",
   "theorems": [
    "C22_one_unmatched_corner_hangs"
   ],
   "note": "OutOfFuel for every fuel: the loop condition never becomes true."
  },
  {
   "property": "C23",
   "status": "proved",
   "theorems": [
    "C23_mitgridfile_first",
    "C23_pair_before_matrices",
    "C23_usage_errors"
   ],
   "note": "Precedence as independence of the lower-priority arguments; regrid's own usage errors occur exactly for usage_error arguments, assuming np.loadtxt does not produce these messages. Errors of malformed files are C03."
  },
  {
   "property": "C24",
   "status": "proved",
   "theorems": [
    "C24_callers_matrices_rotated",
    "C24_unchanged_iff_no_rotation"
   ],
   "note": "rr_dict is the caller's dictionary after the call. 'Unchanged exactly when no rotation' needs both found points strictly nearest (a rotationally symmetric grid with ties could be rotated onto itself)."
  },
  {
   "property": "C25",
   "status": "proved",
   "theorems": [
    "C25_degenerate_regions_rejected"
   ],
   "note": "Also when neither corner has a point nearer than 1e10; success exactly when both are found and differ in both indices."
  },
  {
   "property": "C26",
   "status": "proved",
   "theorems": [
    "C26_opposite_edges_and_slices"
   ],
   "note": "For every geodesic and all tile sizes; slices are compared as lists of positions."
  },
  {
   "property": "C27",
   "status": "proved",
   "theorems": [
    "C27_adjacent_tiles_accepted"
   ],
   "note": "Coinciding corners, dist(p,p)=0, and a tolerance that is a number >= 0; no other pair of corners near."
  },
  {
   "property": "C28",
   "status": "proved",
   "theorems": [
    "C28_rejects_unless_edges_meet",
    "C28_rejects_distant_tiles",
    "C28_rejects_single_or_diagonal_corners",
    "C28_rejects_all_corners"
   ],
   "note": "Any pair of tiles without a matching pair of opposite edges raises ValueError; separate theorems for distant, single/diagonal and all-corner cases. The tolerance must not be +inf."
  },
  {
   "property": "C29",
   "status": "proved",
   "theorems": [
    "C29_corners_decide"
   ],
   "note": "Any change of the tiles off their corners (shapes included) leaves the reported edges unchanged as long as B stays big enough."
  },
  {
   "property": "C30",
   "status": "proved",
   "theorems": [
    "C30_addfringe_keeps_tile_a"
   ],
   "note": "addfringe at file level: shapes of A, every non-zero entry (NaN included) kept, XG and YG unchanged everywhere. For every libm and geodesic."
  },
  {
   "property": "C31",
   "status": "proved",
   "theorems": [
    "C31_fringe_never_computed"
   ],
   "note": "Documents a defect: every zero entry of A at a boundary-straddling position comes back as +0.0, whatever tile B is; B never reaches the boundary quantities."
  },
  {
   "property": "C32",
   "status": "proved",
   "theorems": [
    "C32_result_independent_of_tile_b"
   ],
   "note": "Stronger than the statement: the two B tiles may even match on different edges; only the sign flag of the edge-cell middles matters, and not even that if A has a negative longitude."
  },
  {
   "property": "C33",
   "status": "proved",
   "theorems": [
    "C33_addfringe_idempotent"
   ],
   "note": "The result is written with write_mitgrid and read back as tile A of the second run; the second run returns the same edges and the same grid."
  },
  {
   "property": "C34",
   "status": "proved",
   "theorems": [
    "C34_stitch_places_every_entry"
   ],
   "note": "Placement stated with origins of the two tiles in the combined one; A' is the grid addfringe returned, which agrees with A as C30 says."
  },
  {
   "property": "C35",
   "status": "proved",
   "theorems": [
    "C35_stitch_rejects_different_widths",
    "C35_stitch_accepts_equal_widths"
   ],
   "note": "Both directions: unequal counts along the edge found never return; equal counts always do once addfringe returned."
  },
  {
   "property": "C36",
   "status": "proved",
   "theorems": [
    "C36_stitch_symmetric",
    "C36_adjacent_tiles_stitch_both_ways"
   ],
   "note": "First theorem: any two runs that find opposite edges. Second: for adjacent tiles (as in C27, in both directions, because the rounding of the tolerance depends on the order) both runs succeed and agree off the seam. Filled means every zero outside XG, YG is +0.0 on the rim."
  },
  {
   "property": "C37",
   "status": "proved",
   "theorems": [
    "C37_seam_not_computed"
   ],
   "note": "Documents a defect; covers all four edge pairs."
  },
  {
   "property": "C38",
   "status": "proved",
   "theorems": [
    "C38_results_can_be_read_back_sec",
    "C38_results_can_be_read_back"
   ],
   "note": "For every computed result of the four mains whose output file can be opened: the write succeeds, strict reading with the counts passed on returns the same grid, and the file has exactly the size of these counts. Paths are distinct names of distinct files."
  },
  {
   "property": "C39",
   "status": "proved",
   "theorems": [
    "C39_failed_commands_change_nothing"
   ],
   "note": "A raised exception (including an unwritable or missing outfile) leaves every file as it was; success changes only outfile. Disk-full during a write is outside the model."
  },
  {
   "property": "C40",
   "status": "proved",
   "theorems": [
    "C40_histories_keep_files_whole"
   ],
   "note": "Histories of any length with permissions changing between commands."
  },
  {
   "property": "C41",
   "status": "proved",
   "theorems": [
    "C41_unit_sphere",
    "C41_angles",
    "C41_longitude_mod_360",
    "C41_rad_ignored",
    "C41_rad_refuted",
    "C41_shapes"
   ],
   "note": "Exact reals (libm functions as the real ones). Unit norm, angle characterisation, longitude mod 360; rad has no effect, and the documented scaling is refuted."
  },
  {
   "property": "C42",
   "status": "proved",
   "theorems": [
    "C42_half_the_diagonals",
    "C42_shape",
    "C42_nonneg",
    "C42_relabelling",
    "C42_translation",
    "C42_scaling",
    "C42_rigid_motions",
    "C42_parallelogram",
    "C42_flat_convex",
    "C42_at_most_two_triangles"
   ],
   "note": "Exact reals. Also invariance under rotations, flat convex quadrilaterals, and the bound by the two triangles' areas."
  },
  {
   "property": "C43",
   "status": "proved",
   "theorems": [
    "C43_two_excesses",
    "C43_rigid_motions",
    "C43_excess_range",
    "C43_areas_not_negative"
   ],
   "note": "Exact reals, corners pairwise apart: all acos arguments in range, value = two Girard excesses, each within [0,2pi]; invariant under rotation and reflection."
  },
  {
   "property": "C44",
   "status": "proved",
   "theorems": [
    "C44_formula_choice"
   ],
   "note": "Means of the nonzero half-cell edges below 10e3 in both directions; empty means are NaN and select the faceted formula."
  },
  {
   "property": "C45",
   "status": "proved",
   "theorems": [
    "C45_mkgrid_great_circles",
    "C45_regrid_great_circles"
   ],
   "note": "Exact reals; any geodesic that measures great-circle distances and divides arcs evenly (a concrete sphere is constructed). The corners of each original cell must lie in an open hemisphere."
  },
  {
   "property": "C46",
   "status": "proved",
   "theorems": [
    "C46_areas_tile"
   ],
   "note": "Exact reals, any geodesic, both area formulas, nonzero quarter areas. The stored RAZ/RAW/RAS (zero where they straddle the boundary) sum to the quarters off the outer ring."
  },
  {
   "property": "C47",
   "status": "proved",
   "theorems": [
    "C47_default_tracer_boundaries"
   ],
   "note": "All regional grids, results directories and xESMF behaviours (oracle); tracer files hold the outermost cells, one number per cell, depth and time."
  },
  {
   "property": "C48",
   "status": "proved",
   "theorems": [
    "C48_accepted_arguments",
    "C48_vectors_rejected",
    "C48_numbers_rejected",
    "C48_one_index_fills_the_side"
   ],
   "note": "Acceptance exactly characterised; vectors of two or more indices raise ValueError and nonzero numbers TypeError with nothing written; an accepted one-element vector fills the side with one value."
  },
  {
   "property": "C49",
   "status": "proved",
   "theorems": [
    "C49_every_boundary_is_written",
    "C49_zero_means_default",
    "C49_output_directory",
    "C49_file_sizes"
   ],
   "note": "Every successful run writes all four boundaries of every response with results; void arguments give the same result as None."
  },
  {
   "property": "C50",
   "status": "proved",
   "theorems": [
    "C50_default_boundary_files",
    "C50_boundaries_always_found"
   ],
   "note": "Every number of every file of a default run, and success of the boundary step on the doubled grid."
  },
  {
   "property": "C51",
   "status": "proved",
   "theorems": [
    "C51_not_fortran_order",
    "C51_files_are_row_major"
   ],
   "note": "Offset of every number, and agreement with Fortran order for all contents exactly if at most one extent exceeds 1."
  },
  {
   "property": "C52",
   "status": "proved",
   "theorems": [
    "C52_name_determines_shapes",
    "C52_weights_of_other_grids_reused"
   ],
   "note": "Name equality characterised; a second set of regridders with equal shapes in the same directory reuses the first's weights whatever the grids."
  },
  {
   "property": "C53",
   "status": "proved",
   "theorems": [
    "C53_mds_fields",
    "C53_result_can_be_written",
    "C53_parent_of_getobcs"
   ],
   "note": "Arrays read have to be two-dimensional: rdmds of a 1-D array raises, and 3-D arrays raise outside the try block. Counts come from the first field not empty in both directions. The theorem on writing covers every directory whose readable fields agree in shape."
  },
  {
   "property": "C54",
   "status": "proved",
   "theorems": [
    "C54_written_arrays_read_back",
    "C54_folded_records_read_back",
    "C54_single_precision",
    "C54_other_files_kept",
    "C54_stale_tiles_refuted"
   ],
   "note": "For every directory without duplicate names and without old tiles fbase.ddd.ddd.meta; both byte orders, with or without iteration number; also folded leading dimensions and single precision storage (rounding to nearest even; NaN payloads not modelled). The hypothesis on tiles is needed: C54_stale_tiles_refuted. times, deltat, dimlist, rec, lev, region, usememmap and map2glob are not modelled."
  },
  {
   "property": "C55",
   "status": "proved",
   "theorems": [
    "C55_meta_parses_back"
   ],
   "note": "Entries exactly as listed, in order, also with simulation text and field names, which come back without trailing blanks; texts may not contain quotes, backslashes or line ends, field names no closing brace, and the list of fields may not be empty."
  },
  {
   "property": "C56",
   "status": "proved",
   "theorems": [
    "C56_strip_comments_removes_exactly_comments",
    "C56_plain_text_unchanged",
    "C56_literals_untouched",
    "C56_defined"
   ],
   "note": "Full specification as an inductive relation on texts; strip_comments computes it, and it is a function."
  },
  {
   "property": "C57",
   "status": "proved",
   "theorems": [
    "C57_scan_sorted_and_complete"
   ],
   "note": "For every listing without duplicate names; iteration numbers are exactly ten digits, as in the glob pattern."
  },
  {
   "property": "C58",
   "status": "proved",
   "theorems": [
    "C58_coincident_corners",
    "C58_degenerate_RAC"
   ],
   "note": "For every C library meeting a stated contract (acos NaN above 1, 0 at 1; sine of zero zero, never infinite): the area of a quarter with two coinciding corners whose computed self product is not below 1 is NaN, for all other operands, and RAC of its cell is NaN unless another quarter is exactly zero. The contract has a concrete instance."
  },
  {
   "property": "C59",
   "status": "proved",
   "theorems": [
    "C59_edge_vector_is_cell_middles"
   ],
   "note": "The vector is exactly the middle line of the strip of B's cells next to the edge, subdivided by two."
  },
  {
   "property": "C60",
   "status": "proved",
   "theorems": [
    "C60_one_time_per_file",
    "C60_names_of_result_files",
    "C60_times_distinct_refuted"
   ],
   "note": "One (sorted) entry per T data file; distinctness refuted by a tiled result."
  },
  {
   "property": "C61",
   "status": "proved",
   "theorems": [
    "C61_negative_index_north",
    "C61_negative_index_south_off_by_one",
    "C61_negative_index_west_off_by_one"
   ],
   "note": "North exact; south and west off by one (tracers and tangential velocities); IndexError at the most negative index."
  },
  {
   "property": "C62",
   "status": "proved",
   "theorems": [
    "C62_only_boundary_files_change",
    "C62_results_never_changed"
   ],
   "note": "Any outcome, any file that is not one of the OB files."
  },
  {
   "property": "C63",
   "status": "proved",
   "theorems": [
    "C63_any_diagonal",
    "C63_areas_add_up"
   ],
   "note": "Exact reals, convex cells."
  },
  {
   "property": "C64",
   "status": "proved",
   "theorems": [
    "C64_mkgrid_total_area",
    "C64_regrid_total_area"
   ],
   "note": "Exact reals, spherical geodesic, spherical formula in use. Latitude-longitude boxes are shown convex; for regrid convexity of the original cells is a hypothesis."
  },
  {
   "property": "C65",
   "status": "proved",
   "theorems": [
    "C65_tiles_read_as_asked",
    "C65_stored_tiles_read_back"
   ],
   "note": "For tile files in the layout MITgcm writes (SpecRdMds.tile_text) without map2glob. Levels may be picked only if every tile has all of them, and at most as many as there are; both conditions are shown to be needed (C68)."
  },
  {
   "property": "C66",
   "status": "proved",
   "theorems": [
    "C66_mapping_lengthens_short_files",
    "C66_other_sizes_refused",
    "C66_only_asked_records_needed",
    "C66_missing_record_refused"
   ],
   "note": "One file without tiles, no level or region option."
  },
  {
   "property": "C67",
   "status": "proved",
   "theorems": [
    "C67_parts_of_the_whole"
   ],
   "note": "The region has to lie inside the array."
  },
  {
   "property": "C68",
   "status": "proved",
   "theorems": [
    "C68_unsqueezed_records_fail",
    "C68_levels_of_layered_tiles_refuted"
   ],
   "note": "The documented behaviour is false; the theorem gives the failure for every record count but one."
  },
  {
   "property": "C69",
   "status": "proved",
   "theorems": [
    "C69_csv_pair",
    "C69_binary_pair",
    "C69_binary_size_checked",
    "C69_each_name_decides_refuted"
   ],
   "note": "The text reader np.loadtxt is a parameter. The documented choice by each file's own name is refuted by C69_each_name_decides_refuted."
  },
  {
   "property": "C70",
   "status": "proved",
   "theorems": [
    "C70_mapped_tiles_read",
    "C70_region_refused",
    "C70_unit_entry"
   ],
   "note": "Tiles whose block of whole steps is larger than the array (they fit, but numpy's reshape fails) are excluded; so are negative steps."
  },
  {
   "property": "C71",
   "status": "proved",
   "theorems": [
    "C71_copied_files",
    "C71_tiles_gathered",
    "C71_meta_with_more_refuted"
   ],
   "note": "Files with an iteration number, times or fields refute the documented use. Names of simulations ending in white space are excluded from byte equality (they come back without it)."
  },
  {
   "property": "C72",
   "status": "proved",
   "theorems": [
    "C72_times_read_back",
    "C72_unreadable_times",
    "C72_crowded_times"
   ],
   "note": "Times are doubles. Lists that have both a time that is not finite and a crowded one are not covered."
  },
  {
   "property": "C73",
   "status": "proved",
   "theorems": [
    "C73_infinite_step",
    "C73_step_of_last_time",
    "C73_time_of_step",
    "C73_both_given",
    "C73_nothing_to_compute_from",
    "C73_there_and_back",
    "C73_whole_time_units",
    "C73_step_lost_refuted"
   ],
   "note": "Beyond 2^49 steps the floor division is not characterised; negative deltat is not covered. The last theorem refutes that a step survives."
  },
  {
   "property": "C74",
   "status": "proved",
   "theorems": [
    "C74_accepted_lines",
    "C74_lines_unambiguous",
    "C74_order_irrelevant",
    "C74_values_typed"
   ],
   "note": "argparse is modelled as in CPython 3.11 for ASCII argument strings; the model was compared with argparse itself on 6400 random lines outside the checked development."
  },
  {
   "property": "C75",
   "status": "proved",
   "theorems": [
    "C75_sgmkgrid_sec",
    "C75_sgregrid_sec",
    "C75_sgaddfringe_sec",
    "C75_sgstitch_sec",
    "C75_sgmkgrid_runs",
    "C75_sgregrid_runs",
    "C75_sgaddfringe_runs",
    "C75_sgstitch_runs",
    "C75_sgmkgrid_writes"
   ],
   "note": "The cell counts of these theorems are not negative (C91 for the others); sgmkgrid's subscales may be any integers. sgmkgrid with --verbose needs its four coordinates: C92_mkgrid_missing_coordinate."
  },
  {
   "property": "C76",
   "status": "proved",
   "theorems": [
    "C76_decimals_are_nearest",
    "C76_decimals_follow_their_option",
    "C76_integers",
    "C76_other_values_refused",
    "C76_every_number_follows_its_option_refuted"
   ],
   "note": "The documented use of any number is refuted by C76_every_number_follows_its_option_refuted. Integers of more than 4300 digits, which CPython 3.11 refuses, are not treated separately."
  },
  {
   "property": "C77",
   "status": "proved",
   "theorems": [
    "C77_exit_codes",
    "C77_required_options",
    "C77_refused_lines_change_nothing",
    "C77_only_the_named_file",
    "C77_sgmkgrid_requires_nothing"
   ],
   "note": "Exit statuses only; the messages printed are not modelled."
  },
  {
   "property": "C78",
   "status": "proved",
   "theorems": [
    "C78_sggetobcs_runs",
    "C78_refused_lines_change_nothing",
    "C78_resultsdir_always_given",
    "C78_ob_options_do_nothing"
   ],
   "note": "Missing OB options and zeros are the only values with which the command can succeed."
  },
  {
   "property": "C79",
   "status": "proved",
   "theorems": [
    "C79_one_name_each",
    "C79_writes_these_files",
    "C79_reads_these_files",
    "C79_iterations_independent"
   ],
   "note": "Names in SpecSeries.iteration_text, independent of the formatting function. The frame theorem covers every rdmds option; the refutations of C80 show the two places where names and iterations do not correspond."
  },
  {
   "property": "C80",
   "status": "proved",
   "theorems": [
    "C80_series_read_back",
    "C80_whole_series",
    "C80_all_and_last",
    "C80_every_iteration_found_refuted",
    "C80_minus_one_refuted"
   ],
   "note": "C80_every_iteration_found_refuted and C80_minus_one_refuted show two claims that do not hold; the theorems state the exact range (found: 0 to 9999999999)."
  },
  {
   "property": "C81",
   "status": "proved",
   "theorems": [
    "C81_reads_what_it_says",
    "C81_refuses_everything_else",
    "C81_one_meaning",
    "C81_comments_ignored",
    "C81_blank_before_comma",
    "C81_commas_separate_refuted",
    "C81_parse_error_refuted"
   ],
   "note": "parsemeta equals the grammar of SpecMeta.v on every text; the two claims of the comments that are false are refuted"
  },
  {
   "property": "C82",
   "status": "proved",
   "theorems": [
    "C82_integers",
    "C82_written_integers",
    "C82_doubles",
    "C82_command_line_values",
    "C82_integers_as_doubles",
    "C82_same_number_same_double"
   ],
   "note": "int() and float() equal the grammar of SpecNumber.v on every text (ASCII texts; other digits and white space of Unicode are not modelled)"
  },
  {
   "property": "C83",
   "status": "proved",
   "theorems": [
    "C83_cartesian_accuracy",
    "C83_near_the_sphere"
   ],
   "note": "double precision model (Flocq binary64); the C library's sine and cosine are a parameter with an accuracy contract (good_libm), met by lib83; error constants are proved, not optimal"
  },
  {
   "property": "C84",
   "status": "proved",
   "theorems": [
    "C84_planar_areas",
    "C84_planar_grid"
   ],
   "note": "double precision; covers the planar formula only (the spherical one has no useful bound, see C58 and C86); C84_planar_grid asks that every quarter is larger than the error bound, since tomitgrid drops sums with a zero term"
  },
  {
   "property": "C85",
   "status": "proved",
   "theorems": [
    "C85_flat_and_spherical",
    "C85_fourth_order",
    "C85_planar_RAC"
   ],
   "note": "the exact comparison is in real arithmetic; C85_planar_RAC combines it with the rounding bound of C84"
  },
  {
   "property": "C86",
   "status": "proved",
   "theorems": [
    "C86_tiny_cells",
    "C86_tiny_RAC"
   ],
   "note": "double precision; contract small_angles beside libm_ok (C58), both met by lib83"
  },
  {
   "property": "C87",
   "status": "proved",
   "theorems": [
    "C87_names_found",
    "C87_tiles_in_directories",
    "C87_placed_tiles_in_directories",
    "C87_no_files_no_array",
    "C87_any_name_read_back_refuted",
    "C87_iterations_once_refuted"
   ],
   "note": "Two refutations: names with brackets are not read back, and iterations can be listed twice under a wildcard. Found with given iterations (not NaN or Inf)."
  },
  {
   "property": "C88",
   "status": "proved",
   "theorems": [
    "C88_read_files_agree",
    "C88_returned_entries",
    "C88_returned_keys",
    "C88_unknown_byte_order"
   ],
   "note": "Two numbers agree when their values do, so 1 and 1.0 count as the same, as they do in Python; the values of ints and floats are compared without rounding."
  },
  {
   "property": "C89",
   "status": "proved",
   "theorems": [
    "C89_records_given",
    "C89_records_read_back",
    "C89_other_counts_refused",
    "C89_unknown_names_refused"
   ],
   "note": "nrecords equal to the number of elements is refused because ndims becomes 0 and arr.shape[:-0] is empty."
  },
  {
   "property": "C90",
   "status": "proved",
   "theorems": [
    "C90_single_elements",
    "C90_stored_elements",
    "C90_stored_same",
    "C90_default_type"
   ],
   "note": "The type given is float, None or float32; others are not modelled. Numbers are converted when they are put in the array, as numpy does; NaN payloads are not kept."
  },
  {
   "property": "C91",
   "status": "proved",
   "theorems": [
    "C91_every_line_runs",
    "C91_every_obcs_line_runs",
    "C91_fails_or_as_with_other_counts",
    "C91_negative_tile_counts_fail",
    "C91_negative_mitgrid_counts_fail",
    "C91_negative_obcs_counts_fail",
    "C91_csv_counts_unused",
    "C91_count_left_out",
    "C91_as_before",
    "C91_negative_read",
    "C91_minus_one_reads_anything",
    "C91_two_unknown_refused",
    "C91_negative_write",
    "C91_slices"
   ],
   "note": "numpy reads a negative extent of reshape as the one unknown extent, negative slice bounds and indices from the end; np.ones and np.zeros refuse negative extents. other_counts: the same command but for the counts. C91_minus_one_reads_anything is for reading without strict."
  },
  {
   "property": "C92",
   "status": "proved",
   "theorems": [
    "C92_output_apart",
    "C92_verbose_changes_nothing_else",
    "C92_quiet_prints_nothing",
    "C92_mkgrid_missing_coordinate",
    "C92_done_means_written",
    "C92_reading",
    "C92_regrid_says",
    "C92_edges_named",
    "C92_fields_shown",
    "C92_coordinates",
    "C92_verbose_never_matters_refuted",
    "C92_work_shown",
    "C92_turns_shown"
   ],
   "note": "The four grid commands; sggetobcs is C93. Printed arrays are kept as arrays, without the text numpy gives them. That -v never matters is refuted by C92_verbose_never_matters_refuted."
  },
  {
   "property": "C93",
   "status": "proved",
   "theorems": [
    "C93_output_apart",
    "C93_verbose_changes_nothing_else",
    "C93_quiet_prints_nothing",
    "C93_verbose_command",
    "C93_mds_fields",
    "C93_parent_grid",
    "C93_regional_grid",
    "C93_announced_and_written",
    "C93_successful_run",
    "C93_success_message_refuted",
    "C93_depths_printed_refuted"
   ],
   "note": "Refuted parts: C93_depths_printed_refuted, C93_success_message_refuted. What xESMF prints is not modelled."
  },
  {
   "property": "C94",
   "status": "proved",
   "theorems": [
    "C94_refining_a_written_cell_sec",
    "C94_boxes_side_by_side_agree",
    "C94_boxes_above_each_other_agree",
    "C94_neighbouring_boxes_stitch_alike_sec",
    "C94_refining_a_written_cell",
    "C94_neighbouring_boxes_stitch_alike"
   ],
   "note": "C94_refining_a_written_cell: run of sgmkgrid for one cell then sgregrid of its file equals, in bytes, sgmkgrid directly. C94_boxes_side_by_side_agree and C94_boxes_above_each_other_agree: entries on the common line. C94_neighbouring_boxes_stitch_alike: the two sgmkgrid runs and sgstitch in either order. Conditions on pyproj's distances (corner tests) are stated on the corners of the boxes; that no inner entry is zero is a condition on the two grids."
  },
  {
   "property": "C95",
   "status": "proved",
   "theorems": [
    "C95_reports_change_nothing",
    "C95_iterations_returned_refuted",
    "C95_reports",
    "C95_found",
    "C95_nothing_looked_for",
    "C95_nothing_found",
    "C95_warnings",
    "C95_folding_by_default"
   ],
   "note": "The reports of rdmds are those of MdsSays.rdmdsV; C95_iterations_returned_refuted refutes the pair (array, iterations) its description promises. C95_reports says which meta files are named however the call ends; C95_found what is said about the iterations on disk (names without wildcards, no name twice in the directory). C95_warnings is about wrmds, with C95_folding_by_default the case of no further arguments."
  },
  {
   "property": "C96",
   "status": "proved",
   "theorems": [
    "C96_zeros_computed",
    "C96_seam_computed_next_time",
    "C96_seam_left_as_second_tile",
    "C96_three_in_a_row"
   ],
   "note": "The three tiles are any grids of the documented shapes written to files; the freshly computed values are given by the documented formulas on points between the corner points."
  },
  {
   "property": "C97",
   "status": "proved",
   "theorems": [
    "C97_mkgrid_lengths",
    "C97_regrid_lengths",
    "C97_edges_true",
    "C97_regrid_edges_true"
   ],
   "note": "The geodesic library enters as a hypothesis (accurate): distances measured to within e, pieces equal to within e. A computable library meeting it is given (map_accurate) and used in the example. Lines along i between old rows are covered for old rows only; DYG lines for every column."
  },
  {
   "property": "C98",
   "status": "proved",
   "theorems": [
    "C98_nearest_within",
    "C98_nearest_plain",
    "C98_regrid_snaps"
   ],
   "note": "The accuracy of the geodesic library is a hypothesis (measured); it is shown to hold for the computable library of C97 in the example. C98_margin_case shows what happens inside the margin."
  },
  {
   "property": "C99",
   "status": "proved",
   "theorems": [
    "C99_csv_read",
    "C99_csv_refused",
    "C99_every_file",
    "C99_regrid_csv",
    "C99_regrid_refuses"
   ],
   "note": "np.loadtxt is numpy code outside the repository; it is modelled from its documentation and Python implementation (LoadTxt.v). Hexadecimal numbers, underscores and non-ASCII whitespace are outside the model."
  },
  {
   "property": "C100",
   "status": "proved",
   "theorems": [
    "C100_closed_grid_refused",
    "C100_open_grid_refined",
    "C100_getobcs_fails_on_closed_grids"
   ],
   "note": "regrid and getobcs fail on grids that close on themselves: a finding; distances are arbitrary functions, both numpy memory layouts covered."
  },
  {
   "property": "C101",
   "status": "proved",
   "theorems": [
    "C101_coinciding_corners",
    "C101_parent_from_results_never_works",
    "C101_written_parent_never_works"
   ],
   "note": "getobcs never succeeds with the parent grid from the results directory: a finding; no hypothesis on files, regional grid or libraries."
  },
  {
   "property": "C102",
   "status": "proved",
   "theorems": [
    "C102_from_where_to_where",
    "C102_what_is_interpolated",
    "C102_outermost_velocities_zero"
   ],
   "note": "positions and values handed to the interpolation library; hypothesis: regrid finds the grids' own opposite corners (otherwise the velocity grids are other grids, see C100, C101); the zero padding of the outermost velocities is a finding."
  },
  {
   "property": "C103",
   "status": "proved",
   "theorems": [
    "C103_succeeds_exactly_if",
    "C103_numbers_written"
   ],
   "note": "exact condition for success and the meaning of every number written, for default boundaries; results of four or more dimensions and depths missing at later times are refused as in the model's at_depth."
  },
  {
   "property": "C104",
   "status": "proved",
   "theorems": [
    "C104_turned_input_same_grid",
    "C104_transposed_input_mirrored"
   ],
   "note": "Finding: a grid stored with i northward and j eastward (transposed) is accepted and gives a left-handed result, where the outermost corners asked for are right but north-east and south-west are exchanged; regrid's rotations cannot undo a transposition."
  },
  {
   "property": "C105",
   "status": "proved",
   "theorems": [
    "C105_dictionaries_turned",
    "C105_same_outcome",
    "C105_found_corners_kept",
    "C105_turned_by"
   ],
   "note": "ObcsDicts.v is getobcs over the caller's dictionaries, so that one dictionary may be given for both grids. With grids whose own corners are not found, one dictionary for both can give other velocity points than two copies: this is not claimed either way."
  }
 ]
}
