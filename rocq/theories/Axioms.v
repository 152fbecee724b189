(** Axioms: what each group of property theorems rests on, one [Print Assumptions] per file.
    (The traversal is slow, so theorems are grouped; DESIGN.md lists the result per theorem.) *)
From Verif Require Import PropGridIO PropUtil PropFill PropMkGrid PropRegrid PropPair PropMatchEdges PropFringe PropStitch PropCli PropMds PropObcs PropGeom PropSphere PropDegenerate PropRdMds PropMapTile PropWrMds PropArgs PropSeries PropMeta PropRounding PropGlob PropParent PropAgree PropRecords PropObcsOut PropAs PropCounts PropVerbose PropVerboseMore PropVerboseObcs PropWorkflow PropMdsSays PropRestitch PropLengths PropSnap PropCsv PropGlobe PropPadded PropVelocity PropRun PropTurned PropSlice PropDicts.

Definition axioms_of_PropGridIO :=
  (@C01_write_read_roundtrip,
   @C02_file_layout,
   @C03_truncated_file_rejected,
   @C03_interrupted_write_rejected,
   @C03_failed_write_rejected,
   @C04_strict_rejects_exactly_nonzero_padding,
   @C04_nonstrict_accepts_any_padding,
   @C05_read_write_canonical,
   @C05_read_write_identity,
   @C06_wrong_counts_rejected,
   @C07_none_fields_read_back_as_nan,
   @C07_missing_field_raises).
Print Assumptions axioms_of_PropGridIO.

Definition axioms_of_PropUtil :=
  (@C08_nearest_is_a_minimiser,
   @C09_nearest_outside_domain).
Print Assumptions axioms_of_PropUtil.

Definition axioms_of_PropFill :=
  (@C10_fill_preserves,
   @C11_fill_subdivides,
   @C11_fill_order_independent,
   @C12_longitudes_0_360,
   @C12_longitudes_unchanged).
Print Assumptions axioms_of_PropFill.

Definition axioms_of_PropMkGrid :=
  (@C13_mkgrid_shapes_and_positions,
   @C13_regrid_shapes_and_positions,
   @C14_edge_lengths,
   @C14_mkgrid_edge_lengths,
   @C14_regrid_edge_lengths,
   @C15_areas,
   @C15_mkgrid_areas,
   @C15_regrid_areas,
   @C16_boundary_zero,
   @C16_mkgrid_boundary_zero,
   @C16_regrid_boundary_zero,
   @C17_mkgrid_contract,
   @C17_mkgrid_rejects,
   @C44_formula_choice).
Print Assumptions axioms_of_PropMkGrid.

Definition axioms_of_PropRegrid :=
  (@C19_regrid_preserves_corners,
   @C20_regrid_aligns_diagonal,
   @C21_at_most_three_rotations,
   @C22_one_unmatched_corner_hangs,
   @C23_mitgridfile_first,
   @C23_pair_before_matrices,
   @C23_usage_errors,
   @C25_degenerate_regions_rejected,
   @C24_callers_matrices_rotated,
   @C24_unchanged_iff_no_rotation,
   @C18_mkgrid_is_regrid_of_one_cell).
Print Assumptions axioms_of_PropRegrid.

Definition axioms_of_PropPair :=
  (@C69_csv_pair,
   @C69_binary_pair,
   @C69_binary_size_checked,
   @C69_each_name_decides_refuted).
Print Assumptions axioms_of_PropPair.

Definition axioms_of_PropMatchEdges :=
  (@C26_opposite_edges_and_slices,
   @C59_edge_vector_is_cell_middles,
   @C27_adjacent_tiles_accepted,
   @C28_rejects_unless_edges_meet,
   @C28_rejects_distant_tiles,
   @C28_rejects_single_or_diagonal_corners,
   @C28_rejects_all_corners,
   @C29_corners_decide).
Print Assumptions axioms_of_PropMatchEdges.

Definition axioms_of_PropFringe :=
  (@C30_addfringe_keeps_tile_a,
   @C31_fringe_never_computed,
   @C32_result_independent_of_tile_b,
   @C33_addfringe_idempotent).
Print Assumptions axioms_of_PropFringe.

Definition axioms_of_PropStitch :=
  (@C34_stitch_places_every_entry,
   @C35_stitch_rejects_different_widths,
   @C35_stitch_accepts_equal_widths,
   @C36_stitch_symmetric,
   @C36_adjacent_tiles_stitch_both_ways,
   @C37_seam_not_computed).
Print Assumptions axioms_of_PropStitch.

Definition axioms_of_PropCli :=
  (@C38_results_can_be_read_back_sec,
   @C38_results_can_be_read_back,
   @C39_failed_commands_change_nothing,
   @C40_histories_keep_files_whole).
Print Assumptions axioms_of_PropCli.

Definition axioms_of_PropMds :=
  (@C54_written_arrays_read_back,
   @C54_folded_records_read_back,
   @C54_single_precision,
   @C54_other_files_kept,
   @C54_stale_tiles_refuted,
   @C55_meta_parses_back,
   @C56_strip_comments_removes_exactly_comments,
   @C56_plain_text_unchanged,
   @C56_literals_untouched,
   @C56_defined,
   @C57_scan_sorted_and_complete,
   @C53_mds_fields,
   @C53_result_can_be_written).
Print Assumptions axioms_of_PropMds.

Definition axioms_of_PropObcs :=
  (@C50_default_boundary_files,
   @C47_default_tracer_boundaries,
   @C50_boundaries_always_found,
   @C48_accepted_arguments,
   @C48_vectors_rejected,
   @C48_numbers_rejected,
   @C48_one_index_fills_the_side,
   @C49_every_boundary_is_written,
   @C49_zero_means_default,
   @C51_not_fortran_order,
   @C51_files_are_row_major,
   @C52_name_determines_shapes,
   @C52_weights_of_other_grids_reused,
   @C60_one_time_per_file,
   @C60_names_of_result_files,
   @C61_negative_index_north,
   @C61_negative_index_south_off_by_one,
   @C61_negative_index_west_off_by_one,
   @C62_only_boundary_files_change,
   @C62_results_never_changed,
   @C60_times_distinct_refuted).
Print Assumptions axioms_of_PropObcs.

Definition axioms_of_PropGeom :=
  (@C41_unit_sphere,
   @C41_angles,
   @C41_longitude_mod_360,
   @C41_rad_ignored,
   @C41_rad_refuted,
   @C41_shapes,
   @C42_half_the_diagonals,
   @C42_shape,
   @C42_nonneg,
   @C42_relabelling,
   @C42_translation,
   @C42_scaling,
   @C42_rigid_motions,
   @C42_parallelogram,
   @C42_flat_convex,
   @C42_at_most_two_triangles,
   @C43_two_excesses,
   @C43_rigid_motions,
   @C43_excess_range,
   @C43_areas_not_negative).
Print Assumptions axioms_of_PropGeom.

Definition axioms_of_PropSphere :=
  (@C45_mkgrid_great_circles,
   @C45_regrid_great_circles,
   @C46_areas_tile,
   @C63_any_diagonal,
   @C63_areas_add_up,
   @C64_mkgrid_total_area,
   @C64_regrid_total_area).
Print Assumptions axioms_of_PropSphere.

Definition axioms_of_PropDegenerate :=
  (@C58_coincident_corners,
   @C58_degenerate_RAC).
Print Assumptions axioms_of_PropDegenerate.

Definition axioms_of_PropRdMds :=
  (@C65_tiles_read_as_asked,
   @C65_stored_tiles_read_back,
   @C66_mapping_lengthens_short_files,
   @C66_other_sizes_refused,
   @C66_only_asked_records_needed,
   @C66_missing_record_refused,
   @C67_parts_of_the_whole,
   @C68_unsqueezed_records_fail,
   @C68_levels_of_layered_tiles_refuted).
Print Assumptions axioms_of_PropRdMds.

Definition axioms_of_PropMapTile :=
  (@C70_mapped_tiles_read,
   @C70_region_refused,
   @C70_unit_entry).
Print Assumptions axioms_of_PropMapTile.

Definition axioms_of_PropWrMds :=
  (@C71_copied_files,
   @C71_tiles_gathered,
   @C72_times_read_back,
   @C72_unreadable_times,
   @C72_crowded_times,
   @C71_meta_with_more_refuted,
   @C73_step_of_last_time,
   @C73_time_of_step,
   @C73_both_given,
   @C73_nothing_to_compute_from,
   @C73_there_and_back,
   @C73_whole_time_units,
   @C73_step_lost_refuted).
Print Assumptions axioms_of_PropWrMds.

Definition axioms_of_PropArgs :=
  (@C74_accepted_lines,
   @C74_lines_unambiguous,
   @C74_order_irrelevant,
   @C74_values_typed,
   @C75_sgmkgrid_sec,
   @C75_sgregrid_sec,
   @C75_sgaddfringe_sec,
   @C75_sgstitch_sec,
   @C75_sgmkgrid_runs,
   @C75_sgregrid_runs,
   @C75_sgaddfringe_runs,
   @C75_sgstitch_runs,
   @C75_sgmkgrid_writes,
   @C76_decimals_are_nearest,
   @C76_decimals_follow_their_option,
   @C76_integers,
   @C76_other_values_refused,
   @C76_every_number_follows_its_option_refuted,
   @C77_exit_codes,
   @C77_required_options,
   @C77_refused_lines_change_nothing,
   @C77_only_the_named_file,
   @C77_sgmkgrid_requires_nothing,
   @C78_sggetobcs_runs,
   @C78_refused_lines_change_nothing,
   @C78_resultsdir_always_given,
   @C78_ob_options_do_nothing).
Print Assumptions axioms_of_PropArgs.

Definition axioms_of_PropSeries :=
  (@C79_one_name_each,
   @C79_writes_these_files,
   @C79_reads_these_files,
   @C79_iterations_independent,
   @C80_series_read_back,
   @C80_whole_series,
   @C80_all_and_last,
   @C80_every_iteration_found_refuted,
   @C80_minus_one_refuted).
Print Assumptions axioms_of_PropSeries.

Definition axioms_of_PropMeta :=
  (@C81_reads_what_it_says,
   @C81_refuses_everything_else,
   @C81_one_meaning,
   @C81_comments_ignored,
   @C81_blank_before_comma,
   @C81_commas_separate_refuted,
   @C81_parse_error_refuted,
   @C82_integers,
   @C82_written_integers,
   @C82_doubles,
   @C82_command_line_values,
   @C82_integers_as_doubles,
   @C82_same_number_same_double).
Print Assumptions axioms_of_PropMeta.

Definition axioms_of_PropRounding :=
  (@C83_cartesian_accuracy,
   @C83_near_the_sphere,
   @C84_planar_areas,
   @C84_planar_grid,
   @C85_flat_and_spherical,
   @C85_fourth_order,
   @C85_planar_RAC,
   @C86_tiny_cells,
   @C86_tiny_RAC).
Print Assumptions axioms_of_PropRounding.

Definition axioms_of_PropGlob :=
  (@C87_names_found,
   @C87_tiles_in_directories,
   @C87_placed_tiles_in_directories,
   @C87_no_files_no_array,
   @C87_any_name_read_back_refuted,
   @C87_iterations_once_refuted).
Print Assumptions axioms_of_PropGlob.

Definition axioms_of_PropParent :=
  (@C53_parent_of_getobcs).
Print Assumptions axioms_of_PropParent.

Definition axioms_of_PropAgree :=
  (@C88_read_files_agree,
   @C88_returned_entries,
   @C88_returned_keys,
   @C88_unknown_byte_order).
Print Assumptions axioms_of_PropAgree.

Definition axioms_of_PropRecords :=
  (@C89_records_given,
   @C89_records_read_back,
   @C89_other_counts_refused,
   @C73_infinite_step,
   @C89_unknown_names_refused).
Print Assumptions axioms_of_PropRecords.

Definition axioms_of_PropObcsOut :=
  (@C49_output_directory,
   @C49_file_sizes).
Print Assumptions axioms_of_PropObcsOut.

Definition axioms_of_PropAs :=
  (@C90_single_elements,
   @C90_stored_elements,
   @C90_stored_same,
   @C90_default_type).
Print Assumptions axioms_of_PropAs.

Definition axioms_of_PropCounts :=
  (@C91_every_line_runs,
   @C91_every_obcs_line_runs,
   @C91_fails_or_as_with_other_counts,
   @C91_negative_tile_counts_fail,
   @C91_negative_mitgrid_counts_fail,
   @C91_negative_obcs_counts_fail,
   @C91_csv_counts_unused,
   @C91_count_left_out,
   @C91_as_before,
   @C91_negative_read,
   @C91_minus_one_reads_anything,
   @C91_two_unknown_refused,
   @C91_negative_write).
Print Assumptions axioms_of_PropCounts.

Definition axioms_of_PropVerbose :=
  (@C92_output_apart,
   @C92_verbose_changes_nothing_else,
   @C92_quiet_prints_nothing,
   @C92_mkgrid_missing_coordinate,
   @C92_done_means_written,
   @C92_reading,
   @C92_regrid_says,
   @C92_edges_named,
   @C92_fields_shown,
   @C92_coordinates,
   @C92_verbose_never_matters_refuted).
Print Assumptions axioms_of_PropVerbose.

Definition axioms_of_PropVerboseMore :=
  (@C92_work_shown,
   @C92_turns_shown).
Print Assumptions axioms_of_PropVerboseMore.

Definition axioms_of_PropVerboseObcs :=
  (@C93_output_apart,
   @C93_verbose_changes_nothing_else,
   @C93_quiet_prints_nothing,
   @C93_verbose_command,
   @C93_mds_fields,
   @C93_parent_grid,
   @C93_regional_grid,
   @C93_announced_and_written,
   @C93_successful_run,
   @C93_success_message_refuted,
   @C93_depths_printed_refuted).
Print Assumptions axioms_of_PropVerboseObcs.

Definition axioms_of_PropWorkflow :=
  (@C94_refining_a_written_cell_sec,
   @C94_boxes_side_by_side_agree,
   @C94_boxes_above_each_other_agree,
   @C94_neighbouring_boxes_stitch_alike_sec,
   @C94_refining_a_written_cell,
   @C94_neighbouring_boxes_stitch_alike).
Print Assumptions axioms_of_PropWorkflow.

Definition axioms_of_PropMdsSays :=
  (@C95_reports_change_nothing,
   @C95_iterations_returned_refuted,
   @C95_reports,
   @C95_found,
   @C95_nothing_looked_for,
   @C95_nothing_found,
   @C95_warnings,
   @C95_folding_by_default).
Print Assumptions axioms_of_PropMdsSays.

Definition axioms_of_PropRestitch :=
  (@C96_zeros_computed,
   @C96_seam_computed_next_time,
   @C96_seam_left_as_second_tile,
   @C96_three_in_a_row).
Print Assumptions axioms_of_PropRestitch.

Definition axioms_of_PropLengths :=
  (@C97_mkgrid_lengths,
   @C97_regrid_lengths,
   @C97_edges_true,
   @C97_regrid_edges_true).
Print Assumptions axioms_of_PropLengths.

Definition axioms_of_PropSnap :=
  (@C98_nearest_within,
   @C98_nearest_plain,
   @C98_regrid_snaps).
Print Assumptions axioms_of_PropSnap.

Definition axioms_of_PropCsv :=
  (@C99_csv_read,
   @C99_csv_refused,
   @C99_every_file,
   @C99_regrid_csv,
   @C99_regrid_refuses).
Print Assumptions axioms_of_PropCsv.

Definition axioms_of_PropGlobe :=
  (@C100_closed_grid_refused,
   @C100_open_grid_refined,
   @C100_getobcs_fails_on_closed_grids).
Print Assumptions axioms_of_PropGlobe.

Definition axioms_of_PropPadded :=
  (@C101_coinciding_corners,
   @C101_parent_from_results_never_works,
   @C101_written_parent_never_works).
Print Assumptions axioms_of_PropPadded.

Definition axioms_of_PropVelocity :=
  (@C102_from_where_to_where,
   @C102_what_is_interpolated,
   @C102_outermost_velocities_zero).
Print Assumptions axioms_of_PropVelocity.

Definition axioms_of_PropRun :=
  (@C103_succeeds_exactly_if,
   @C103_numbers_written).
Print Assumptions axioms_of_PropRun.

Definition axioms_of_PropTurned :=
  (@C104_turned_input_same_grid,
   @C104_transposed_input_mirrored).
Print Assumptions axioms_of_PropTurned.

Definition axioms_of_PropSlice :=
  (@C91_slices).
Print Assumptions axioms_of_PropSlice.

Definition axioms_of_PropDicts :=
  (@C105_dictionaries_turned,
   @C105_same_outcome,
   @C105_found_corners_kept,
   @C105_turned_by).
Print Assumptions axioms_of_PropDicts.
