{"claims": [
 {"property": "C01", "status": "proved", "theorems": ["C01_primitives_of_conservatives", "C01_conservatives_of_primitives", "C01_conservatives_formula"], "note": "exact arithmetic"},
 {"property": "C02", "status": "proved", "theorems": ["C02_names", "C02_distinct_rows", "C02_duplicates", "C02_collision_refuted"], "note": "names of HydroState; the collision proviso is necessary"},
 {"property": "C03", "status": "proved", "theorems": ["C03_cut", "C03_reverse", "C03_box", "C03_cut_needs_axis", "C03_bad_axis", "C03_negative_axis_refuted", "C03_windows"], "note": "index requests for four-dimensional arrays"},
 {"property": "C04", "status": "proved", "theorems": ["C04_cfl", "C04_advection", "C04_advection_refuted"], "note": "exact arithmetic; advection_dt for Python numbers"},
 {"property": "C05", "status": "proved", "theorems": ["C05_llf", "C05_hllc", "C05_upwind"], "note": "exact arithmetic"},
 {"property": "C06", "status": "proved", "theorems": ["C06_C08_hllc_structure", "C06_denominators"], "note": "exact arithmetic"},
 {"property": "C07", "status": "proved", "theorems": ["C07_hllc_contact"], "note": "exact arithmetic"},
 {"property": "C08", "status": "proved", "theorems": ["C06_C08_hllc_structure"], "note": "exact arithmetic, all rows"},
 {"property": "C09", "status": "proved", "theorems": ["C09_llf_mirror", "C09_hllc_mirror", "C09_upwind_mirror", "C09_upwind_mirror_refuted"], "note": "exact arithmetic"},
 {"property": "C10", "status": "proved", "theorems": ["C10_llf_wall", "C10_hllc_wall"], "note": "exact arithmetic"},
 {"property": "C11", "status": "proved", "theorems": ["C11_axes"], "note": "exact arithmetic"},
 {"property": "C12", "status": "proved", "theorems": ["C12_interpolation_exact", "C12_cell_centers_exact"], "note": "exact arithmetic"},
 {"property": "C13", "status": "proved", "theorems": ["C13_reconstruction_exact", "C13_fv_averages_exact", "C13_there_and_back"], "note": "exact arithmetic"},
 {"property": "C14", "status": "proved", "theorems": ["C14_interpolation_sweep", "C14_reconstruction_sweep", "C14_errors"], "note": "any arithmetic, including binary64"},
 {"property": "C15", "status": "proved", "theorems": ["C15_fv_average_exact", "C15_quadrature_size"], "note": "exact arithmetic; numpy's leggauss enters as a hypothesis (its n-point rule is exact for degree 2n-1)"},
 {"property": "C16", "status": "proved", "theorems": ["C16_mesh", "C16_slabs"], "note": "exact arithmetic"},
 {"property": "C17", "status": "proved", "theorems": ["C17_interior_unchanged", "C17_inactive_axis"], "note": "any arithmetic"},
 {"property": "C18", "status": "proved", "theorems": ["C18_periodic", "C18_wide_ghosts_refuted"], "note": "any arithmetic; the second theorem shows the hypothesis \"ghost width <= n\" is needed and not checked by the code"},
 {"property": "C19", "status": "proved", "theorems": ["C19_copying_boundaries"], "note": "any arithmetic"},
 {"property": "C20", "status": "proved", "theorems": ["C20_dirichlet_function", "C20_all_cells", "C20_too_wide"], "note": "coordinates in exact arithmetic"},
 {"property": "C21", "status": "proved", "theorems": ["C21_dmr_refuted"], "note": "the property is false of the code"},
 {"property": "C22", "status": "proved", "theorems": ["C22_minmod_is_limited", "C22_moncen_is_limited", "C22_minmod_value", "C22_moncen_value", "C22_face_values_between_neighbours", "C22_moncen_vanishes_at_extrema_refuted"], "note": "over the reals; the last theorem shows that the claim fails in binary64 through underflow"},
 {"property": "C23", "status": "proved", "theorems": ["C23_inadmissible_candidates_flagged_refuted", "C23_last_entry_is_flagged", "C25_flagged_cells"], "note": "claim refuted for dicts with several entries; proved for the last entry"},
 {"property": "C24", "status": "proved", "theorems": ["C24_nan_candidates_flagged_refuted"], "note": "claim refuted: NaN candidates are never flagged"},
 {"property": "C25", "status": "proved", "theorems": ["C25_flagged_cells", "C25_sed_only_removes_flags"], "note": ""},
 {"property": "C26", "status": "proved", "theorems": ["C26_smoothness_in_unit_interval", "C26_constants_do_not_matter", "C26_parabolas_are_smooth_lines_are_not", "C26_mirror_symmetry_refuted"], "note": ""},
 {"property": "C27", "status": "proved", "theorems": ["C27_troubled_faces", "C27_real_and_binary64"], "note": "for every arithmetic with max_of_flags, instantiated for reals and binary64"},
 {"property": "C28", "status": "proved", "theorems": ["C28_weights_along_one_axis", "C28_weights_along_two_axes", "C28_meaning_of_weights", "C28_wraps_around_refuted", "C28_periodic_z_raises_refuted", "C28_three_axes_raise_refuted"], "note": "over the reals; the wrap-around part of the statement is refuted as the statement says"},
 {"property": "C29", "status": "proved", "theorems": ["C29_weighted_fluxes", "C29_replaced_fluxes", "C29_nan_survives"], "note": "revise_fluxes on any configuration the weight tables cover"},
 {"property": "C30", "status": "proved", "theorems": ["C30_linear_systems", "C30_quadrature", "C30_ssprk2_time_refuted", "C30_run_matches_orders"], "note": "The claim for time-dependent slopes is refuted for ssprk2: its second stage is evaluated at t."},
 {"property": "C31", "status": "proved", "theorems": ["C31_convex_sets"], "note": ""},
 {"property": "C32", "status": "proved", "theorems": ["C32_stops_at_T", "C32_log_every_step", "C32_terminates", "C32_solver_stops_at_T", "C32_solver_terminates", "C32_zero_time_refuted"], "note": "Also proved for the Euler solver itself. Refuted for T = 0: IndexError."},
 {"property": "C33", "status": "proved", "theorems": ["C33_sterbenz", "C33_fixed_step_runs", "C33_fixed_step_odes", "C33_ends_past_T_refuted"], "note": "Whole runs with a fixed time step are bit-exact when T and the downbeats are at least one step; otherwise a run can end past T."},
 {"property": "C34", "status": "proved", "theorems": ["C34_forward_from_any_time", "C34_second_call_refuted", "C34_negative_downbeats_refuted", "C34_float_refuted"], "note": "Refuted for past or negative downbeats, and in binary64 even for positive downbeats of a fresh object."},
 {"property": "C35", "status": "proved", "theorems": ["C35_n_steps", "C35_timestamps", "C35_n_ignored"], "note": ""},
 {"property": "C36", "status": "proved", "theorems": ["C36_flux_arrays_have_interface_shape"], "note": "Every arithmetic, every size and degree up to 8, main and fallback scheme, every boundary type that defines the ghost cells (periodic, free, outflow, reflective, prescribed)."},
 {"property": "C37", "status": "proved", "theorems": ["C37_uniform_flow_is_preserved"], "note": "Real arithmetic. Walls excluded (a uniform flow into a wall is not steady)."},
 {"property": "C38", "status": "proved", "theorems": ["C38_periodic_runs_conserve", "C38_runs_end"], "note": "Real arithmetic; every degree, Riemann solver, integrator and way of calling integrate. C38_runs_end shows such runs end normally."},
 {"property": "C39", "status": "proved", "theorems": ["C39_limited_boxes_conserve_refuted", "C39_agreeing_ends_conserve", "C39_forced_trouble_conserves"], "note": "The plain claim is refuted; conservation is proved (exact real arithmetic, no convex blending) when the masks agree at the two ends of every line of cells, in particular with force_trouble."},
 {"property": "C40", "status": "proved", "theorems": ["C40_walls_conserve", "C40_symmetric_data_stay_symmetric", "C40_symmetric_data_stay_symmetric_hllc"], "note": "Conservation with and without slope limiting, LLF and HLLC. Symmetry without limiting: LLF for any data, HLLC under the proviso that traces are physical (expressed by simulate_checked)."},
 {"property": "C41", "status": "proved", "theorems": ["C41_scalars_do_not_act_on_gas", "C41_uniform_concentration_stays"], "note": "First theorem: bit for bit, every arithmetic. Second: exact arithmetic; the proviso that cell-centre densities do not vanish is a run that stops otherwise (simulate_checked)."},
 {"property": "C42", "status": "proved", "theorems": ["C42_memory_independent", "C42_small_grid_refuted"], "note": "Whole runs, every heap; the small-grid case is refuted by a binary64 computation."},
 {"property": "C43", "status": "proved", "theorems": ["C43_translations", "C43_translations_with_adaptive_steps", "C43_translations_with_forced_limiting", "C43_limited_translations_refuted"], "note": "Bit for bit with a fixed time step in any arithmetic; with adaptive steps, and with limiting and forced trouble, over the reals. With detected trouble it is refuted."},
 {"property": "C44", "status": "proved", "theorems": ["C44_axes_are_equivalent", "C44_axes_are_equivalent_with_limiting", "C44_blended_directions_refuted"], "note": "Exact arithmetic. The unrestricted claim is refuted for convex blending (periodic z axis)."},
 {"property": "C45", "status": "proved", "theorems": ["C45_first_order_runs_stay_positive", "C45_default_step_in_the_plane_refuted"], "note": "Positivity in exact arithmetic; the counterexample is computed in binary64."},
 {"property": "C46", "status": "proved", "theorems": ["C46_log_is_the_mean", "C46_first_step_refuted"], "note": "proved for every step from the second on, with the exact value after the first step; refuted as a mean after the first step (trouble_counter starts at 1)"},
 {"property": "C47", "status": "proved", "theorems": ["C47_saved_then_read", "C47_runs_are_saved", "C47_attributes", "C47_overwrite_replaces", "C47_files", "C47_runs_append", "C47_in_step", "C47_state_refuted", "C47_fv_ic_refuted", "C47_meanwhile_refuted", "C47_step_count_refuted"], "note": "pickle is a pair of functions assumed to be inverse; files are written byte by byte"},
 {"property": "C48", "status": "proved", "theorems": ["C48_crash_points", "C48_elsewhere", "C48_recovery", "C48_stuck_refuted", "C48_old_result_refuted"], "note": "the claim as first stated is refuted; what holds after a crash at each point is proved"},
 {"property": "C49", "status": "proved", "theorems": ["C49_isolated", "C49_live", "C49_alias_refuted", "C49_add_shares_refuted"], "note": "buffers modelled as a heap; the hypothesis that all arrays belong to the library in use is necessary"},
 {"property": "C50", "status": "proved", "theorems": ["C50_finite_map", "C50_get_numpy", "C50_add_type", "C50_switch", "C50_no_cupy", "C50_to_dict", "C50_device_refuted"], "note": "failing calls return no new state in the model, as the code raises before assigning"},
 {"property": "C51", "status": "proved", "theorems": ["C51_start", "C51_stop", "C51_add", "C51_sum", "C51_solver", "C51_interrupted_refuted", "C51_default_prefix_refuted"], "note": "the timer calls of the solver are modelled as sequences, branches on data as booleans; report: C63"},
 {"property": "C52", "status": "proved", "theorems": ["C52_sinus", "C52_square", "C52_slotted_disk", "C52_shock", "C52_double_shock", "C52_shu_osher", "C52_kelvin_helmholtz", "C52_double_mach", "C52_athena_blast", "C52_shock_tube", "C52_shock_cube", "C52_refused", "C52_sedov_center", "C52_sedov_corner", "C52_sedov_refused", "C52_sedov_symmetric_if_even", "C52_sedov_centered_refuted", "C52_sedov_default_energy_refuted", "C52_initial_state", "C52_initial_averages", "C52_positive_conditions", "C52_initial_state_positive", "C52_sedov_positive", "C52_runs_stay_positive", "C52_missing_scalars"], "note": "All conditions by region over the reals; sin, exp, tan, pi are the real ones. Refuted: a blast with an odd number of cells is not centred, and with the default conservative_ic=False it holds E1/(gamma-1)."},
 {"property": "C53", "status": "proved", "theorems": ["C53_lookup", "C53_summary", "C53_cell_of_coordinate", "C53_solver_snapshots", "C53_rings", "C53_averages_in_range", "C53_rings_partition", "C53_centre_refuted", "C53_integer_radii", "C53_integer_radii_refuted", "C53_line", "C53_picture", "C53_pixels", "C53_pixels_refuted", "C53_trouble", "C53_forced_trouble_refuted", "C53_trouble_line_refuted", "C53_trouble_picture_refuted", "C53_overlay_refuted", "C53_overlay_hides", "C53_plot_fields_line", "C53_solver_logs", "C53_snapshot_list_refuted", "C53_overlay_true_refuted", "C53_plot_fields_refuted"], "note": "Over the real numbers. The data handed to matplotlib is modelled, matplotlib itself is not. Refuted parts: the centre cell, integer radii, plots of and with trouble, snapshot lists, overlay_trouble=True, pixel positions, the panels of plot_fields."},
 {"property": "C54", "status": "proved", "theorems": ["C54_order_irrelevant", "C54_dirs_distinct", "C54_snapshot_times", "C54_conditions_refuted", "C54_prefix_refuted", "C54_import_refuted"], "note": "The claim as first stated is refuted; proved: arguments printed without underscores give distinct directories, and the snapshot times"},
 {"property": "C55", "status": "proved", "theorems": ["C55_accepts", "C55_constructed", "C55_default_settings", "C55_ic_sides", "C55_default_slabs", "C55_narrow_slabs_refuted", "C55_averaged_ic_sides_refuted", "C55_defaults_refuted", "C55_documented_solver_refuted", "C55_floors_unread", "C55_floors_refuted", "C55_fixed_refuted"], "note": "The acceptance condition and the settings are proved for every argument and any arithmetic, and what the defaults amount to once there are cells along x is spelled out; the floors, the fixed variables, the defaults alone, the documented name and two accepted but unusable settings are refuted."},
 {"property": "C56", "status": "proved", "theorems": ["C56_traces", "C56_smooth_cells", "C56_fluxes", "C56_conversions", "C56_periodic_run", "C56_orders", "C56_start", "C56_accepts", "C56_end_time_refuted", "C56_end_reached_refuted", "C56_unknown_start_refuted", "C56_nan_run_refuted"], "note": "Over the reals; the scheme theorem is for periodic runs on at least four cells. 'free' boundaries are covered by the acceptance theorem, the marker theorem away from ghosts, and the refutations."},
 {"property": "C57", "status": "proved", "theorems": ["C57_ghosts_defined", "C57_mixed_periodic_refuted", "C57_none_refuted", "C57_wide_symmetric_refuted"], "note": "positive part under explicit hypotheses, refuted otherwise"},
 {"property": "C58", "status": "proved", "theorems": ["C58_limited_runs_complete", "C58_convex_runs_complete", "C58_convex_runs_in_space_refuted"], "note": "Convex blending over the reals; without it in any arithmetic where the maximum of two flags is a flag (reals, binary64, rationals)."},
 {"property": "C59", "status": "proved", "theorems": ["C59_textbook_fluxes"], "note": ""},
 {"property": "C60", "status": "proved", "theorems": ["C60_flux_balance"], "note": "The weights are the tables (their exactness is C12, C13); detection and mixing weights are the functions characterised by C25 to C28."},
 {"property": "C61", "status": "proved", "theorems": ["C61_mirror_images_llf", "C61_mirror_images_hllc"], "note": "Exact arithmetic. Advection upwinding is not mirror symmetric (C09)."},
 {"property": "C62", "status": "proved", "theorems": ["C62_transport_exact", "C62_step_exact", "C62_run_exact"], "note": "The flux balance is exact for polynomial densities in a uniform flow (cells whose stencils stay inside the grid), and steps and runs of fixed size carry such densities exactly when the integrator's order covers the degree."},
 {"property": "C63", "status": "proved", "theorems": ["C63_report", "C63_solver_report", "C63_header_refuted", "C63_to_dict"], "note": "Formatting and rounding of numbers are parameters; strings are ASCII."},
 {"property": "C64", "status": "proved", "theorems": ["C64_details", "C64_no_repository", "C64_bar_refuted", "C64_comma_refuted", "C64_git_missing_refuted", "C64_no_refs_refuted"], "note": "What git prints is a parameter; strings are ASCII."},
 {"property": "C65", "status": "proved", "theorems": ["C65_constructed", "C65_same_manager_refuted", "C65_copy_refuted", "C65_undone_refuted", "C65_reset", "C65_to_dict", "C65_to_dict_refuted"], "note": "Buffers modelled as a heap; objects other than arrays told apart by a number."},
 {"property": "C66", "status": "proved", "theorems": ["C66_result", "C66_whole_steps", "C66_times", "C66_times_refuted", "C66_progress", "C66_progress_refuted", "C66_resume_refuted", "C66_downbeats_refuted", "C66_neither_refuted", "C66_no_integrator_refuted"], "note": "Any arithmetic (C66_times: real clock); also the state left by exceptions, the timer and the progress bar."},
 {"property": "C67", "status": "proved", "theorems": ["C67_middle_states", "C67_first_order_runs_stay_positive", "C67_default_step_refuted"], "note": "Positivity in exact arithmetic for CFL times active axes at most 1/4; at the default 0.8 refuted in binary64. Nothing is claimed between 1/4 and 0.8."},
 {"property": "C68", "status": "proved", "theorems": ["C68_stages_see_the_start", "C68_moving_boundary_rhs", "C68_moving_boundary_run", "C68_two_stages_refuted"], "note": "Exactness in exact arithmetic without slope limiting; the refutation is computed in exact rationals for ssprk2 only."},
 {"property": "C69", "status": "proved", "theorems": ["C69_units", "C69_convert", "C69_units_with_limiting", "C69_minmod_refuted", "C69_smoothness_refuted", "C69_floor_refuted"], "note": "exact arithmetic; with slope limiting for limiters other than minmod and without smooth-extrema detection (or with forced trouble), the exceptions being refuted"},
 {"property": "C70", "status": "proved", "theorems": ["C70_transverse_boost", "C70_cfl_refuted"], "note": "Exact arithmetic, fixed time step, copying boundaries, no limiting, no vacuum at cell centres; with CFL time steps the invariance is refuted in binary64."},
 {"property": "C71", "status": "proved", "theorems": ["C71_steps", "C71_overshooting", "C71_exact", "C71_solver", "C71_undeclared_refuted"], "note": "times in exact arithmetic; steps for every number type"},
 {"property": "C72", "status": "proved", "theorems": ["C72_scalar_bounds", "C72_upwind", "C72_higher_order_refuted"], "note": "Over the reals; the bound for first-order runs under the CFL conditions of C45 and C67. Refuted in binary64 for quadratic reconstruction without limiting."},
 {"property": "C73", "status": "proved", "theorems": ["C73_extruded_runs", "C73_extruded_runs_with_limiting", "C73_smooth_extrema_never_seen", "C73_cfl_refuted"], "note": "Over the reals. Refuted in binary64 for CFL time steps. Reflecting sides along the idle axis are not covered."},
 {"property": "C74", "status": "proved", "theorems": ["C74_wall_is_symmetry_plane_llf", "C74_wall_is_symmetry_plane_hllc", "C74_wall_with_limiting_llf", "C74_wall_with_limiting_hllc", "C74_upper_wall_llf", "C74_upper_wall_hllc", "C74_upper_wall_with_limiting_llf", "C74_upper_wall_with_limiting_hllc", "C74_upwind_refuted"], "note": "over the reals, with and without slope limiting (with it, the trouble detection must see the same in both domains: wall_fair, or trouble forced); HLLC under physical traces (with limiting and forced trouble only those of the fall-back scheme); refuted for the upwind solver in exact rational arithmetic"},
 {"property": "C75", "status": "proved", "theorems": ["C75_mirror_images_with_limiting", "C75_symmetric_data_with_limiting", "C75_hllc_with_limiting", "C75_symmetric_hllc_with_limiting", "C75_absolute_range_refuted"], "note": "Exact arithmetic, LLF solver unconditionally and HLLC solver for runs whose states give traces with positive density and non-negative pressure; smooth-extrema detector off (that detector is not mirror symmetric, see C26_mirror_symmetry_refuted). The absolute range is refuted in exact rational arithmetic with the upwind solver."},
 {"property": "C76", "status": "proved", "theorems": ["C76_limited_balance", "C76_one_share", "C76_troubled_cells"], "note": "convex blending: one or two active axes; sed_eps > 0 when smooth-extrema detection is on"},
 {"property": "C77", "status": "proved", "theorems": ["C77_drift_bounds", "C77_long_step_refuted"], "note": "maximum principle for the forced, limited scheme of degree one with the upwind solver; refuted for steps that cross 4/5 of a cell"},
 {"property": "C78", "status": "proved", "theorems": ["C78_untroubled_runs", "C78_nothing_watched", "C78_same_fallback", "C78_forced_runs"], "note": "Over the reals; convex blending with one or two active axes."},
 {"property": "C79", "status": "proved", "theorems": ["C79_walls_are_symmetry_planes_llf", "C79_walls_are_symmetry_planes_hllc", "C79_corner_blast_llf", "C79_corner_blast_hllc", "C79_symmetric_data_stay_symmetric", "C79_corner_blast_symmetric"], "note": "Over the reals; boundaries that copy cells; HLLC at degree zero or with forced minmod or moncen slopes, as long as density and internal energy stay physical; the boundary of an axis without ghost cells must be named alike in both runs."},
 {"property": "C80", "status": "proved", "theorems": ["C80_total_variation", "C80_unlimited_refuted", "C80_long_step_refuted"], "note": "Over the reals; one active axis, uniform velocity, upwind solver, forced limiting. Refuted in exact rationals without limiting and for steps that cross 4/5 of a cell."},
 {"property": "C81", "status": "proved", "theorems": ["C81_idle_ends_do_nothing", "C81_active_ends_refuted"], "note": ""},
 {"property": "C82", "status": "proved", "theorems": ["C82_limited_density_positive", "C82_default_step_refuted", "C82_pressure_refuted"], "note": ""},
 {"property": "C83", "status": "proved", "theorems": ["C83_place_has_no_effect", "C83_idle_extent_fixed_step", "C83_long_idle_extent", "C83_short_idle_extent_refuted"], "note": "The first two theorems hold for any arithmetic, the third for exact arithmetic; that idle extents never matter is refuted."},
 {"property": "C84", "status": "proved", "theorems": ["C84_log_of_last_step", "C84_untroubled_step", "C84_troubled_step_refuted", "C84_cut_step_refuted"], "note": "The first two for every limited Euler run of a given number of steps on closed boundaries in exact arithmetic; the other two are computed binary64 counterexamples."},
 {"property": "C85", "status": "proved", "theorems": ["C85_uniform_flow_log", "C85_steady_flow"], "note": ""}
]}
