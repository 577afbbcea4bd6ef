{
 "claims": [
  {
   "property": "C01",
   "status": "partial",
   "theorems": [
    "ids_unique_partial",
    "ids_unique_refuted"
   ],
   "note": "Sessions in which every construction creates at least one particle. Refuted in general: creating an empty set resets the counter, and the next set reuses ids."
  },
  {
   "property": "C02",
   "status": "proved",
   "theorems": [
    "session_refines_records"
   ],
   "note": "All sessions of allowed operations refine lists of whole records."
  },
  {
   "property": "C03",
   "status": "proved",
   "theorems": [
    "add_exactly_once",
    "session_refines_records"
   ],
   "note": "Excludes adding a set with non-increasing ids into an empty set."
  },
  {
   "property": "C04",
   "status": "partial",
   "theorems": [
    "remove_positions_exact",
    "remove_mask_exact",
    "remove_id_exact",
    "remove_positions_twice_refuted"
   ],
   "note": "Removal by positions, mask, id. Refuted when a position is named twice in one call."
  },
  {
   "property": "C05",
   "status": "partial",
   "theorems": [
    "lookup_by_id_exact",
    "lookup_many_partial",
    "lookup_many_refuted",
    "lookup_many_misses_refuted",
    "lookup_after_add_to_empty_refuted"
   ],
   "note": "Single lookups for every session of allowed operations. Lookups of several ids on a set with increasing ids raise or miss."
  },
  {
   "property": "C06",
   "status": "partial",
   "theorems": [
    "other_sets_untouched",
    "add_to_empty_shares_storage_refuted"
   ],
   "note": "Sets that were not themselves added into an empty set. That case shares storage (refuted)."
  },
  {
   "property": "C07",
   "status": "proved",
   "theorems": [
    "calls_tile",
    "calls_tile_jit",
    "completed_calls_tile"
   ],
   "note": "Whole set, both modes, exact up to the isclose tolerance atol (any 0 <= atol < |dt|); completed_calls_tile covers kernels that err, delete, repeat or adapt dt."
  },
  {
   "property": "C08",
   "status": "proved",
   "theorems": [
    "not_started_untouched",
    "not_started_untouched_jit"
   ],
   "note": "All kernels, recovery kernels and outcomes of execute. In JIT mode for particles with dt different from 0."
  },
  {
   "property": "C09",
   "status": "proved",
   "theorems": [
    "failed_call_undone",
    "failed_call_undone_jit"
   ],
   "note": "Every call of one particle's loop in one pass, both modes."
  },
  {
   "property": "C10",
   "status": "partial",
   "theorems": [
    "deleted_gone_partial",
    "deleted_gone_jit_partial",
    "deleted_gone_refuted"
   ],
   "note": "Absence is proved for runs that complete. Refuted when a later particle stops the execution."
  },
  {
   "property": "C11",
   "status": "proved",
   "theorems": [
    "dispatch",
    "dispatch_jit"
   ],
   "note": "Every particle's history follows the recovery protocol; both modes."
  },
  {
   "property": "C12",
   "status": "partial",
   "theorems": [
    "particles_independent_partial",
    "particles_independent_jit_partial",
    "stop_couples_refuted"
   ],
   "note": "For runs of the set that complete. A particle that stops the execution does affect the others."
  },
  {
   "property": "C13",
   "status": "partial",
   "theorems": [
    "zero_run_once_partial",
    "zero_run_once_jit_partial",
    "zero_run_once_refuted"
   ],
   "note": "For kernels that do not fail at dt = 0. Refuted with one failure and recovery."
  },
  {
   "property": "C14",
   "status": "partial",
   "theorems": [
    "modes_agree_partial",
    "modes_agree_refuted"
   ],
   "note": "Whole execute incl. recovery. Excludes update_next_dt in a failing call (refuted), dt set to 0, and dt changes within tolerance."
  },
  {
   "property": "C15",
   "status": "proved",
   "theorems": [
    "execute_covers",
    "execute_once_one_window",
    "execute_wrong_side",
    "zero_outputdt_never_ends_refuted"
   ],
   "note": "Every forcing reader that announces reload times strictly ahead, both directions, also runs that do not move time. Times are integer ticks. outputdt = 0, which execute accepts, never ends."
  },
  {
   "property": "C16",
   "status": "proved",
   "theorems": [
    "writes_exact",
    "writes_no_period",
    "writes_no_file",
    "execute_order",
    "shows_exact",
    "callbacks_exact"
   ],
   "note": "Runs that complete and move time; regular writes (writes of deleted particles belong to kernel.execute). Also the order of release, write, show and callbacks at one time, the shown frames and the callback times."
  },
  {
   "property": "C17",
   "status": "partial",
   "theorems": [
    "releases_exact_partial",
    "releases_backward_skipped_refuted",
    "zero_run_releases_refuted",
    "batches_alike_each_other",
    "batches_original_partial",
    "batches_moved_refuted"
   ],
   "note": "Any split into consecutive calls in one direction. Refuted when the direction is reversed, for runs that do not move time, and for the positions of the batches, which follow the kernel before the first release."
  },
  {
   "property": "C18",
   "status": "partial",
   "theorems": [
    "export_exact_partial",
    "export_there_and_back_refuted",
    "export_once_in_path_refuted"
   ],
   "note": "Any session of writes in which no particle is recorded twice at one time. The excluded sessions raise IndexError at export (refuted). netCDF storage is not modelled."
  },
  {
   "property": "C19",
   "status": "partial",
   "theorems": [
    "writes_recorded_partial",
    "write_same_time",
    "deletion_recorded_partial",
    "deletion_at_last_write_refuted",
    "deleted_first_refuted",
    "write_no_error_partial",
    "write_between_steps_refuted"
   ],
   "note": "Any session. Refuted: deletion at the time of the last regular write, deleted_only=True with only the first particle deleted, IndexError when writing between steps."
  },
  {
   "property": "C20",
   "status": "partial",
   "theorems": [
    "once_written_once_partial",
    "once_export_partial",
    "once_export_ondelete_refuted",
    "once_missing_refuted",
    "once_collision_refuted"
   ],
   "note": "At most once and at the first write at which the particle is active. Export fails with write_ondelete (refuted)."
  },
  {
   "property": "C21",
   "status": "proved",
   "theorems": [
    "position_in_cell",
    "position_in_cell_jit",
    "outside_error",
    "outside_error_jit"
   ],
   "note": "Scipy and JIT search on rectilinear z grids, non-periodic, axes of any length; flat meshes, and spherical ones whose longitudes increase along an arc (the others are in C39)."
  },
  {
   "property": "C22",
   "status": "proved",
   "theorems": [
    "position_in_cell",
    "position_in_cell_jit",
    "depth_errors",
    "depth_errors_jit"
   ],
   "note": "Increasing and decreasing depth axes, z levels, default grid indexing."
  },
  {
   "property": "C23",
   "status": "partial",
   "theorems": [
    "modes_sample_same_partial",
    "modes_sample_same_refuted",
    "history_indices",
    "history_time_index",
    "position_in_cell_jit"
   ],
   "note": "Any history of samplings. Refuted at the end of the time axis of a periodic field, where Scipy mode uses the first frame and JIT mode the last. Rectilinear meshes, flat or along an arc of the sphere."
  },
  {
   "property": "C24",
   "status": "partial",
   "theorems": [
    "sample_value",
    "sample_value_jit_partial",
    "sample_error",
    "sample_error_jit",
    "sample_periodic",
    "sample_periodic_jit_partial",
    "sample_periodic_jit_refuted",
    "time_search_ends_refuted",
    "period_accepted",
    "scipy_period_partial",
    "scipy_period_refuted",
    "jit_period_partial",
    "jit_period_refuted"
   ],
   "note": "Scipy mode in full; JIT mode except at the ends of the periods (refuted). With deferred loading the C search may not end (refuted). A period longer than the data: right between the times given; in the rest of the period Scipy mode returns the last frame and JIT mode does not end (both refuted), for fields in memory."
  },
  {
   "property": "C25",
   "status": "proved",
   "theorems": [
    "frame_sample",
    "frame_sample_jit",
    "node_exact",
    "corners_bound",
    "trilinear_exact",
    "faces_agree"
   ],
   "note": "Linear interpolation on rectilinear z grids, both modes."
  },
  {
   "property": "C26",
   "status": "proved",
   "theorems": [
    "sample_value",
    "frame_time_exact",
    "between_frames"
   ],
   "note": "Fields with all frames in memory."
  },
  {
   "property": "C27",
   "status": "partial",
   "theorems": [
    "land_average_jit",
    "land_average_jit_3D",
    "land_average_partial",
    "land_average_3D",
    "average_bounds",
    "average_positive",
    "land_average_refuted",
    "land_only_zero",
    "land_node_jit_partial",
    "land_node_jit_3D_partial",
    "land_node",
    "land_node_3D_partial",
    "land_node_jit_refuted",
    "land_node_3D_refuted",
    "land_modes_partial",
    "land_modes_3D_partial"
   ],
   "note": "All corner values and coordinates. Refuted: the Scipy 2D routine uses the transposed mask, the Scipy 3D routine returns a transposed node, the JIT routines return the only sea value on a land node."
  },
  {
   "property": "C28",
   "status": "partial",
   "theorems": [
    "summed_value",
    "summed_error",
    "summed_any_order",
    "summed_any_grouping",
    "addition_components",
    "addition_fresh_refuted",
    "addition_ends_refuted",
    "addition_vector_refuted",
    "summed_vector_jit_partial",
    "summed_vector_error_jit_partial",
    "summed_vector_error_refuted",
    "nested_first_in_bounds_jit",
    "nested_out_of_bounds_jit",
    "nested_first_in_bounds_partial",
    "nested_no_component",
    "nested_out_of_bounds_partial",
    "nested_cases",
    "nested_out_of_bounds_refuted",
    "nested_modes_agree_partial",
    "nested_modes_agree_refuted"
   ],
   "note": "All lists of components and outcomes. Refuted: JIT summed vector fields ignore errors of all but the last component; Scipy nested fields also skip sampling errors; + changes a summed field in place, never ends on S+S and drops vector fields."
  },
  {
   "property": "C29",
   "status": "partial",
   "theorems": [
    "chunk_cell_partial",
    "chunk_history_partial",
    "chunk_progress_partial",
    "chunk_size_one_refuted",
    "chunk_one_row_refuted",
    "chunk_after_python_refuted"
   ],
   "note": "All decompositions with no chunk of size 1 but the last of a dimension, and unsplit fields. Refuted: chunks of size 1, fields of one row or column split along the other dimension, JIT runs after a Scipy run."
  },
  {
   "property": "C30",
   "status": "partial",
   "theorems": [
    "deferred_values_partial",
    "deferred_forward",
    "deferred_forward_run_partial",
    "deferred_forward_starts_partial",
    "deferred_forward_continues_partial",
    "deferred_backward_run_partial",
    "deferred_backward_starts_partial",
    "deferred_backward_continues_partial",
    "deferred_backward_refuted",
    "deferred_backward_period_refuted",
    "deferred_forward_refuted",
    "deferred_values_refuted",
    "deferred_scipy_sample_refuted"
   ],
   "note": "All series of files, histories and runs, several grids. Refuted: backward starts between frames, backward starts after the last time of a periodic series, forward starts before its first time, the frame added to a file of several frames, Scipy samples at the end of a period."
  },
  {
   "property": "C31",
   "status": "partial",
   "theorems": [
    "halo_axis_extended",
    "halo_grid",
    "halo_fieldset_partial",
    "halo_values_inside",
    "halo_values_periodic",
    "halo_values_inside_jit_partial",
    "halo_values_periodic_jit_partial",
    "halo_groups_refuted",
    "halo_twice_refuted",
    "halo_again_refuted"
   ],
   "note": "All increasing axes, halo sizes, directions, rectilinear and curvilinear grids; sampled values on rectilinear meshes in both modes, flat or spherical round the whole circle. Refuted: components of summed and nested fields keep their size; a second halo on deferred fields is refused when data are read."
  },
  {
   "property": "C32",
   "status": "partial",
   "theorems": [
    "c_text_read_as_grammar",
    "c_text_unambiguous",
    "expression_partial",
    "subtraction_groups_left",
    "or_under_and_refuted",
    "comparison_in_sum_refuted",
    "comparison_in_comparison_refuted",
    "integer_division_refuted",
    "remainder_refuted",
    "summed_field_in_product_refuted",
    "and_as_number_refuted",
    "short_circuit_sample_refuted"
   ],
   "note": "All expressions whose missing parentheses do not matter, without integer division or samples behind a short circuit, in all states. Refuted: or under and, comparisons inside arithmetic or comparisons, integer division, negative remainders, summed fields in products, and/or as numbers, samples behind a short circuit."
  },
  {
   "property": "C33",
   "status": "partial",
   "theorems": [
    "kernel_partial",
    "kernel_straight_partial",
    "flags_only_record",
    "while_not_entered_refuted",
    "swap_refuted",
    "delete_on_sample_refuted",
    "summed_field_in_test_refuted",
    "after_delete_refuted",
    "sample_in_while_refuted",
    "sample_before_pass_refuted",
    "power_assignment_refuted"
   ],
   "note": "All kernel bodies of statements that fit, all particles and runs. Refuted: loops not entered, tuple assignments that read their targets, samples in tests before delete or pass, summed fields in tests, statements after delete, samples in loop tests, **=."
  },
  {
   "property": "C34",
   "status": "proved",
   "theorems": [
    "euler_exact",
    "euler_first_order",
    "rk4_exact",
    "rk4_taylor",
    "rk4_fourth_order",
    "lin_deriv_is_derivative",
    "rk4_3d_exact",
    "rk4_3d_fourth_order",
    "euler_in_both_modes",
    "rk4_in_both_modes",
    "rk4_3d_in_both_modes",
    "failed_sample_moves_nothing"
   ],
   "note": "Over the reals (no rounding): EE exact for constant velocity, RK4 and RK4_3D exact for time polynomials of degree at most 3, degree 4 Taylor polynomial for linear fields with the exact Lagrange error term dt^5/120; dt of either sign. The kernel programs, run as Python and as generated C, compute the modelled step (rational samples)."
  },
  {
   "property": "C35",
   "status": "proved",
   "theorems": [
    "rk45_accepts_within_tolerance",
    "rk45_time_fourth",
    "rk45_time_fifth",
    "rk45_exact",
    "rk45_orders",
    "rk45_repeats"
   ],
   "note": "Over the reals, for every velocity field: accept, repeat, doubling, with the solutions of Fehlberg's tableau defined independently; both solutions exact for time polynomials and of order 4 and 5 in linear fields. The tolerance is the constant 1e-5 of the kernel. The JIT translation of this kernel (local arrays) is not modelled."
  },
  {
   "property": "C36",
   "status": "partial",
   "theorems": [
    "conversion_round_trip",
    "meridional_arc",
    "zonal_arc",
    "units_of_field",
    "known_meshes_accepted",
    "jit_factor_partial",
    "summed_latitude_refuted"
   ],
   "note": "Over the reals, all values and latitudes strictly between the poles, all five converters. The C text is read by the C grammar; it equals the Scipy factor for every latitude argument binding at least as tightly as a product; refuted for a bare sample of a summed field."
  },
  {
   "property": "C37",
   "status": "partial",
   "theorems": [
    "face_velocity",
    "face_velocity_in_time",
    "shared_face_east_west",
    "shared_face_north_south",
    "rectangular_cell",
    "meridional_velocity_linear_refuted",
    "cgrid_modes_agree_partial",
    "wide_flat_cell_refuted",
    "vertical_velocity",
    "vertical_velocity_in_both_modes"
   ],
   "note": "Over the reals: every convex cell of rectilinear and curvilinear grids, flat and spherical (also across the date line), NEMO and MITGCM indexing, all data. Refuted: on a spherical mesh the meridional velocity itself is not linear (its transport is); in JIT mode flat cells between 180 and 360 units wide get the wrong sign. The 3D interpolation on s-levels is not modelled."
  },
  {
   "property": "C38",
   "status": "partial",
   "theorems": [
    "field_on_its_grid",
    "same_index_same_grid",
    "no_other_grids",
    "indices_stay_valid",
    "appended_only_if_new",
    "equal_grids_shared",
    "dimrange_is_intersection",
    "dimrange_of_single_values",
    "dimrange_defined",
    "exact_time_axis_refuted",
    "mesh_and_loading_refuted",
    "auto_grid_twice_refuted",
    "chunks_after_none_refuted"
   ],
   "note": "All sequences of fields and grids of any shape. Equal means numpy's allclose (1e-8 + 1e-5 relative) on lon, lat, depth and time; refuted for exact equality, for the mesh and deferred loading (not compared), for 'auto' chunks with a shared grid object (listed twice) and for dict chunks after a grid without chunks (exception)."
  },
  {
   "property": "C39",
   "status": "partial",
   "theorems": [
    "sphere_found_partial",
    "sphere_found_jit",
    "sphere_outside",
    "sphere_gap_jit",
    "sphere_sampled",
    "sphere_sampled_jit_partial",
    "halo_found_partial",
    "halo_found_jit",
    "halo_gap_jit",
    "sphere_gap_refuted",
    "halo_east_refuted",
    "closed_circle_refuted",
    "wide_cell_refuted"
   ],
   "note": "Searches and sampled values in both modes. Refuted: Scipy mode raises IndexError in the gap of a grid across 180 degrees and east of a zonally periodic grid; on a closed circle the JIT value at -180 depends on the previous cell; cells wider than 180 degrees are never entered in JIT mode."
  },
  {
   "property": "C40",
   "status": "partial",
   "theorems": [
    "found_in_cell_partial",
    "start_cell_found",
    "lattice_position_found",
    "lattice_position_sound",
    "lattice_outside_not_found",
    "lattice_outside_error_jit",
    "box_outside_error",
    "rectilinear_as_curvilinear",
    "curv_sample_between",
    "curv_sample_linear",
    "north_rows_refuted",
    "stale_refuted",
    "south_refuted",
    "outside_index_refuted"
   ],
   "note": "Over the reals, horizontal search and 2D linear samples in both modes. Soundness on general grids is partial: rows running eastward, and every cell extended beyond its sides reaches the position. Refuted: xsi is wrong in sheared cells whose rows run due north; a cell whose quadratic has no root keeps the eta of the cell before and may be returned; cells with nodes from north to south and sides that are not parallel are never found; outside a sheared flat grid Scipy mode raises IndexError."
  },
  {
   "property": "C41",
   "status": "partial",
   "theorems": [
    "level_value_sampled",
    "level_value_sampled_jit_partial",
    "level_outcomes",
    "level_value_one",
    "level_outside",
    "level_outside_jit",
    "level_modes_same_partial",
    "level_linear_field",
    "level_value_between",
    "flat_levels_sampled",
    "one_column_refuted"
   ],
   "note": "Rectilinear s grids with 3D or 4D depth, linear interpolation, spherical arcs included; exact arithmetic. JIT part needs two or more rows and columns: with one column JIT mode reads beyond the depth array (one_column_refuted); at exactly the last time of a periodic field JIT mode samples the last frame."
  },
  {
   "property": "C42",
   "status": "partial",
   "theorems": [
    "restart_rows_partial",
    "restart_last_partial",
    "restart_reuses_ids_refuted",
    "restart_shares_ids_refuted",
    "restart_early_record_refuted",
    "restart_twice_refuted"
   ],
   "note": "Exact, for files of sessions in which no particle is recorded twice at one time. Variables not written cannot be restored. Refuted: uniqueness of ids after a restart (the counter is set back to 0 and then to the largest restarted id), default restart when a record of a not yet released particle is the latest, and one row per particle when it was recorded twice before its release. netCDF storage and conversion of datetimes are not modelled."
  },
  {
   "property": "C43",
   "status": "proved",
   "theorems": [
    "windows_do_not_matter",
    "interruptions_do_not_matter",
    "two_calls_as_one",
    "off_step_output_refuted",
    "off_step_start_refuted"
   ],
   "note": "The two refuted theorems show that the condition of whole steps is needed: a shortened step stays short for the rest of the call, and a particle that starts between two steps takes ever shorter ones. Batches are any function of the release time; where the code lets them depend on the first window is C18's finding."
  },
  {
   "property": "C44",
   "status": "partial",
   "theorems": [
    "sum_in_order",
    "in_order_deterministic",
    "sum_compiled_partial",
    "sum_declares",
    "kernel_names",
    "left_over_local_refuted",
    "reserved_local_refuted",
    "array_of_earlier_kernel_refuted",
    "array_in_both_refuted"
   ],
   "note": "The Python side and the declarations are proved in full. The C side is proved for kernels without loops and deletions that fit C33; with loops C33 itself depends on the run. The refuted theorems show where the claim fails: locals read before they are set, locals called tol or output_time, and names of arrays."
  },
  {
   "property": "C45",
   "status": "partial",
   "theorems": [
    "uniform_within",
    "uniform_distribution",
    "randint_within",
    "randint_even",
    "randint_swapped_refuted",
    "normal_symmetric",
    "normal_polar_method",
    "normal_bounded",
    "exponential_within",
    "exponential_distribution",
    "mises_within",
    "mises_angle"
   ],
   "note": "Everything stated is proved, over exact real arithmetic and for an arbitrary rand(). randint with the ends swapped is refuted (numbers above both). Missing: that the polar method and Best and Fisher's method give the normal and von Mises laws (measure theory), and single precision rounding."
  },
  {
   "property": "C46",
   "status": "partial",
   "theorems": [
    "euler_maruyama_statistics",
    "uniform_diffusion_statistics",
    "milstein_statistics",
    "milstein_forward",
    "milstein_backward_refuted",
    "slope_of_quadratic",
    "uniform_diffusivity_all_agree",
    "step_bounded",
    "step_symmetric",
    "failed_diffusion_moves_nothing",
    "euler_maruyama_in_both_modes",
    "milstein_in_both_modes",
    "uniform_diffusion_in_both_modes",
    "summed_diffusivity_refuted"
   ],
   "note": "Mean and spread are proved for any average with the stated moments; that the generators have these moments is not. The Milstein mean is refuted backward in time (the drift term is lost), and equal modes for a diffusivity that is a sum of fields. The programs of both modes start after the two draws."
  },
  {
   "property": "C47",
   "status": "partial",
   "theorems": [
    "analytical_exact_partial",
    "analytical_path_unique",
    "analytical_next_cell",
    "analytical_line_partial",
    "spherical_time_refuted",
    "backward_in_cell_refuted",
    "stagnant_face_refuted",
    "near_face_refuted",
    "flux_difference_refuted",
    "resting_longitude_refuted",
    "next_frame_refuted",
    "horizontal_level_refuted"
   ],
   "note": "Exact path, place and time proved for rectilinear flat grids forward in time, where the tolerances of the kernel do not come into play; on spherical grids without W the line but not the time. Refuted: the time on spherical meshes, backward runs, places near stagnant faces or within 1e-10 of a face, longitudes above 225 plus latitude, steps past the next frame, the level of U and V in three dimensions. Curvilinear cells are modelled but not covered."
  },
  {
   "property": "C48",
   "status": "proved",
   "theorems": [
    "run_keeps",
    "advection_arrives",
    "advection_in_time",
    "euler_run_exact",
    "rk4_run_exact",
    "rk4_3d_run_exact",
    "rk4_there_and_back",
    "euler_run_error",
    "rk4_run_error",
    "rk4_3d_run_error",
    "rk4_run_fourth_order",
    "rk4_3d_run_fourth_order",
    "euler_runs_converge",
    "rk4_runs_converge",
    "rk4_3d_runs_converge"
   ],
   "note": "Real numbers instead of floats. Fourth order is proved for linear flows; for Lipschitz flows the bound is of the first order (no higher one holds of all of them). AdvectionRK45, which changes dt, is not covered here (see C35)."
  },
  {
   "property": "C49",
   "status": "partial",
   "theorems": [
    "method_sampled",
    "method_sampled_jit_partial",
    "indices_carried",
    "method_modes_partial",
    "method_value_determined",
    "method_outside_error",
    "surface_sampled",
    "surface_sampled_jit",
    "surface_modes_partial",
    "nearest_tie_refuted",
    "nearest_pop_refuted",
    "pop_two_levels_refuted",
    "pop_uniform_refuted",
    "mom5_surface_refuted",
    "mom5_return_refuted",
    "tracer_face_refuted",
    "w_mitgcm_refuted",
    "w_flat_refuted"
   ],
   "note": "The full claim is false in JIT mode and in the surface layer of MOM5 (the refuted theorems name each case); what is left out of the partial theorems is those cases, and the end of the axis of a periodic field as in C23. The land tracer is in C27, C-grid velocities in C37."
  },
  {
   "property": "C50",
   "status": "partial",
   "theorems": [
    "particle_type_variables",
    "particle_type_allowed",
    "set_has_what_was_asked",
    "set_is_made",
    "processes_share_the_set",
    "copy_of_a_later_variable_refuted",
    "copy_of_an_unknown_name_refuted",
    "one_id_for_all_refuted",
    "negative_label_refuted"
   ],
   "note": "Proved for explicit ids of one per particle and for copies of variables that come before in the order of the class (64-bit variables first); the refuted theorems show what happens otherwise. Left out: rounding to the dtype, dates, arguments of more dimensions, multiple inheritance."
  },
  {
   "property": "C51",
   "status": "partial",
   "theorems": [
    "file_holds_the_run",
    "file_in_step_holds_the_run",
    "file_shows_what_is_kept",
    "file_rk4_on_course",
    "file_rk4_within"
   ],
   "note": "For distinct, non-negative ids, outputdt not below the resolution of time, files without write_ondelete, variables that are written at every output; the kernel environment starts anew in every window. Off-step runs may end in the IndexError of C20 instead of a file. Of the advection kernels RK4 is carried to the file; the others follow from file_shows_what_is_kept."
  },
  {
   "property": "C52",
   "status": "partial",
   "theorems": [
    "relative_time_is_the_gap",
    "whole_seconds_return",
    "frames_keep_their_stamps",
    "increasing_stamps_are_read",
    "completing_keeps_dates",
    "completing_succeeds",
    "completing_again",
    "samples_by_date",
    "periodic_samples_by_date",
    "default_times_by_date",
    "times_as_dates",
    "undated_end_refused",
    "run_by_date",
    "parts_of_seconds_refuted",
    "repeated_stamps_refuted",
    "full_axis_in_memory_refuted",
    "periodic_in_memory_refuted",
    "single_frame_refuted",
    "default_times_in_memory_refuted",
    "undated_release_refuted"
   ],
   "note": "Periodic sampling and default times by date hold for grids loaded later; in memory time_full is not moved (refuted). Fields of one frame keep their own origin, so they are found by date only when extrapolating. Run invariance is for recovery kernels that leave the particle going on or deleted. The arithmetic of calendars is that of numpy and cftime; floating point and units of datetime64 coarser than nanoseconds are not modelled."
  },
  {
   "property": "C53",
   "status": "partial",
   "theorems": [
    "crash_keeps_returned_writes_partial",
    "several_processes_export_partial",
    "unreadable_directory_stops_conversion",
    "returned_writes_lost_refuted",
    "shared_particle_refuted"
   ],
   "note": "Holds unless a process dies before its first call of write has returned or while it saves pset_info.npy, which is overwritten in place (refuted: everything is lost then, although the data are on disk). No particle is recorded by two processes and none twice for one time; variables written once under the conditions of C18. The process dies, not the machine: file operations reach the disk in order."
  },
  {
   "property": "C54",
   "status": "partial",
   "theorems": [
    "face_velocity_3d_partial",
    "face_velocity_3d_in_time_partial",
    "jit_face_velocity_3d",
    "jit_moving_levels_in_time",
    "modes_agree_3d_partial",
    "shared_face_3d_east_west",
    "shared_face_3d_north_south",
    "shared_face_3d_vertical",
    "uniform_flow_3d",
    "balanced_box_3d_partial",
    "unbalanced_box_3d_refuted",
    "moving_levels_3d_refuted",
    "depths_negated_3d",
    "decreasing_levels_3d_refuted",
    "mitgcm_3d_refuted"
   ],
   "note": "Proved on all six faces, in time, in both modes, for levels whose depth grows with the index and, in Scipy mode, do not move in time (refuted otherwise: decreasing levels reverse u and v, and with moving levels Scipy mode uses those of the first time while JIT uses those of the time index). Linear inside a box only if as much flows in as out (refuted otherwise: particles are moved sideways although U and V are 0). MITgcm indexing is ignored (refuted). The values of phi1D_quad inside other cells have no independent specification. JIT mode on a flat mesh: cells narrower than 180. Exact real arithmetic."
  },
  {
   "property": "C55",
   "status": "partial",
   "theorems": [
    "data_from_array",
    "data_from_array_periodic",
    "data_from_files",
    "data_from_files_periodic",
    "data_from_files_deferred_partial",
    "reading_ways_agree_partial",
    "limits_and_factor_refuted",
    "factor_zero_refuted",
    "node_coordinates",
    "node_depth",
    "latitudes_turned",
    "shape_checked_partial",
    "missing_levels_refuted"
   ],
   "note": "Proved for arrays and for files read at once. Frame by frame, and for the agreement of the ways, without limits together with a factor and with a factor other than 0 (both refuted otherwise: the limits are applied after the factor, and a factor of 0 is ignored). Shapes: three-dimensional data for a grid of several levels are accepted without levels when the number of times fits (refuted). Not modelled: dask, halos (C31), B-grid and POP shapes, floating-point rounding."
  },
  {
   "property": "C56",
   "status": "partial",
   "theorems": [
    "line_positions",
    "cell_probability",
    "released_in_cell",
    "all_released",
    "released_on_positive",
    "released_on_tracer",
    "release_per_area_refuted",
    "release_levels_refuted",
    "release_two_levels_refuted",
    "release_one_row_refuted",
    "released_in_curvilinear_cell",
    "density_counts",
    "density_in_cells",
    "density_relative",
    "density_per_area_partial",
    "density_area_refuted",
    "density_weights_refuted",
    "density_zero_weight_refuted",
    "density_shape_refuted"
   ],
   "note": "Proved for fields of one level and, for tracers of C-grids, of two or more rows and columns of cells; the probability is that of the field's value alone, not per area (refuted otherwise: other shapes raise or are one column off). Densities on rectilinear flat grids, per area when the steps are equal (refuted otherwise); weights as names or lists (arrays raise, refuted); on curvilinear grids the shape is wrong (refuted). Not modelled: single precision, that the generator is uniform."
  },
  {
   "property": "C57",
   "status": "partial",
   "theorems": [
    "rk45_run_steps",
    "rk45_in_time",
    "rk45_modes_agree",
    "rk45_run_end",
    "rk45_arrives",
    "rk45_arrives_refuted",
    "rk45_run_on_course",
    "rk45_run_exact",
    "rk45_estimate_refuted"
   ],
   "note": "Exact real arithmetic; AdvectionRK45 the only kernel, no recovery kernels and no deletions; that the C code of the kernel body computes the same is not part of it. Arriving is proved for velocities that change at a limited rate and refuted at fronts, where the particle is left behind without an error. The estimates are not the true error (refuted), which is bounded only where the velocities are low-degree polynomials of the time."
  },
  {
   "property": "C58",
   "status": "partial",
   "theorems": [
    "saved_field",
    "saved_field_near",
    "saved_numbers",
    "saved_deferred",
    "saved_set",
    "saved_numbers_refuted",
    "saved_curvilinear_refuted",
    "saved_method_refuted",
    "saved_again_refuted",
    "saved_periodic_refuted",
    "saved_vector_refuted",
    "saved_calendar_refuted"
   ],
   "note": "Exact rationals instead of single precision; xarray's encoding is assumed to return what it was given and dates in whole nanoseconds. Curvilinear grids that are nearly rectilinear come back rectilinear with nearby coordinates (exactness refuted). Numbers as times come back relative to the first (refuted unless they start at 0); calendars of cftime, the interpolation method and extrapolation in time are lost (refuted); fields with an added periodic frame, fields not yet loaded, and field sets with vector fields raise (refuted). s grids raise NotImplementedError, as documented."
  },
  {
   "property": "C59",
   "status": "partial",
   "theorems": [
    "together_coords",
    "together_frames",
    "together_frames_deferred",
    "together_alone",
    "together_units",
    "together_units_first",
    "together_units_refuted",
    "together_coords_refuted",
    "together_dates_refuted",
    "together_last_refuted",
    "together_type_refuted",
    "together_mixed_refuted",
    "together_dims_refuted"
   ],
   "note": "Coordinates: proved for one dictionary of dimensions or files not given by dimension (otherwise refuted). Dates and values: proved when the variables have the same dates (otherwise refuted). Units: proved without a dictionary of types, and for the first field with one (otherwise refuted). Same as alone: proved when no variable or every variable has files by dimension (mixtures and one dictionary by dimension raise: refuted). Coordinates are lines; no chunks, timestamps or periods."
  }
 ]
}