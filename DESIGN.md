# Design

A Rocq (Coq 8.16.1) model of FVHOE (`/repo/fvhoe`), a high-order finite-volume
solver for the compressible Euler equations, and proofs of the properties listed in
`properties.jsonl`.

## How the code is modelled

* **Numbers.** Every numerical function is written once, over a record `Num`
  (`Num.v`) of the operations the Python code uses (`+ - * /`, `abs`, `sqrt`,
  `min`, `max`, comparisons, integer literals). It is instantiated with
  - `RNum`: the reals of the standard library ("exact arithmetic");
  - `QNum`: rationals, used to *compute* witnesses (no square roots needed there);
  - `FNum`: IEEE binary64 with NaN and infinities, from the standard library's
    executable `SpecFloat` (no primitive floats, no axioms).
  A theorem quantified over `N : Num` holds for the double-precision program bit for bit.
  A theorem about `RNum` is about the algorithm in exact arithmetic; round-off is not
  modelled there, and DESIGN says so per theorem below.
* **Arrays.** A NumPy array of shape `(nvars, nx, ny, nz)` is a record: row count,
  shape, and a function from row and index to the element (`NdArray.v`). Views are
  index maps; slice assignment and binary operators check shapes with NumPy's
  broadcasting rule and return an error value when NumPy raises. Memory from
  `np.empty`/`np.pad(mode="empty")` is a universally quantified argument.
* **Exceptions** are values of type `exn`; every function that can raise returns
  `res A := Ok a | Err e` (`Err.v`).
* **Loops** are folds, or fuelled recursion with a theorem that enough fuel exists.
* **Mutable state** (solver, timer, array manager, file system) is passed explicitly.

Model files carry no proofs. Proofs are in files ending in `P.v` (or `Q.v`, `R.v`, `S.v`, `T.v` where a subject has several). Property theorems are in
`Props*.v`, each followed by `Print Assumptions`, with an `Example` next to it which
exhibits a case meeting its hypotheses. Specifications independent of the model
(`Spec*.v`) define what a statement means (periodic index, exact average, physical flux...).

`_refuted` theorems state that the English property *fails* of the code, with a concrete
witness. `_partial` theorems prove a part; what is missing is written beside them.

## Plan per property

| id | modelled | proof |
|---|---|---|
| C01 | `HydroM.compute_primitives/conservatives` | field algebra over RNum, row by row |
| C02 | `HydroStateM` (name map as association list) | induction on the passive-name list; refutation by computation |
| C03 | `PySlice` (CPython's slice adjustment), `HydroStateM.call` | integer arithmetic |
| C04 | `HydroM.hydro_dt` (max over all cells), `advection_dt` | fold-max bounds over RNum; field arithmetic |
| C05-C11 | `RiemannM` | real algebra and inequalities, case analysis on branches; C11 generic in `Num` |
| C12-C13 | `StencilsM`, `FvM.stencil_sweep` | exactness on monomials by `field`/`lra`, linearity, `RInt` for averages |
| C14 | same | computation of shapes, generic in `Num` |
| C15 | `FvM.fv_average`; Gauss nodes/weights enter through their defining moment equations (NumPy's `leggauss` is not in the repo) | linearity of the triple sum |
| C16 | `FvM.meshgen` | integer/real algebra |
| C17-C21 | `BcM.apply` | index-map lemmas, axis-generic, generic in `Num` |
| C22 | `LimitM.minmod/moncen/MUSCL` | case analysis, lra |
| C23-C25 | `LimitM.detect_troubled_cells` | max/min over 3^d windows; refutations by `vm_compute` |
| C26 | `SedM` | real case analysis |
| C27-C29 | `LimitM.broadcast`, `SolverM.revise_fluxes` | pointwise characterisation |
| C30-C31 | `OdeM` over abstract vector operations | algebra, convexity |
| C32-C35 | `OdeM.integrate` fuelled loop | invariant on the loop |
| C33 | Flocq `binary64` subtraction/addition | Sterbenz; witness computed with SpecFloat |
| C36-C44 | `SolverM` (hydrofluxes, hydrodynamics, integrators) | relation-preservation lemmas through every array operation |
| C45 | 1D LLF update | real inequalities; 2D refutation over rationals/reals |
| C46 | `SolverM.log_troubles` | invariant over step histories |
| C47-C48 | `SnapM` (file system as finite map, files written byte by byte, crash = prefix) | case analysis |
| C49-C50 | `ArrMgrM` (heap with locations) | invariant over operation sequences |
| C51 | `TimerM` | invariant over operation sequences |
| C52 | `ICM` | real analysis on the formulas |
| C53 | `VizM` | induction on lists |
| C54 | `ScriptM` (string building) | computation of a collision |
| C55 | `InitM` | inversion of the constructor, computed witnesses |
| C56 | `RomainM` | closed form of the scheme, invariants of its loop, computed witnesses |
| C57 | `BcM.apply` | every padded cell traced to an interior cell or a prescribed value, for every content of fresh memory; computed witnesses |
| C58 | `SolverM.revise_fluxes`, `LimitM`, `OdeM` | shapes of every intermediate array, induction on steps; refutation in 3D by computation |
| C59 | `RiemannM` | case analysis against textbook formulas over `RNum` |
| C60 | `SolverM` | characterisation of every intermediate array on the unbounded grid |
| C61 | `SolverM` | relation between a run and its mirror image |
| C62 | `SolverM`, `OdeM` | tensor products of one-dimensional exactness; Taylor expansion along the flow; induction on steps |
| C63-C64 | `ReportM` | strings: lengths, splitting and stripping |
| C65 | `BcObjM` (manager and heap in a state monad) | inversion of the construction, computed witnesses |
| C66 | `CallM` (object, timer and bar in a state monad) | simulation of the pure loop of `OdeM`, computed witnesses |
| C67 | HLLC star states, first-order updates as positive combinations | real inequalities (a quadratic without roots), binary64 witness |
| C68 | right-hand side and steps with prescribed moving boundary values | rewriting the configuration; polynomial exactness, invariant of the run; rational witness |
| C69 | runs of two configurations that differ by the units of length, speed and density | covariance of every stage of the scheme; relation between two runs whose clocks differ by a factor; homogeneity of the slopes and of the trouble detection; absolute tolerances of minmod and of the smoothness test |
| C70 | runs whose initial states differ by a constant speed along an ignorable axis | covariance of primitive variables, stencils (weights sum to one) and Riemann solvers; locality of the fluxes; relation between runs; binary64 witness for the CFL step |
| C71 | two calls of integrate on one object against one call | the loop does not look at snapshots; the sorted list of targets splits at the stop; more fuel does not matter |
| C72 | passive scalars in first-order runs against their initial bounds | the update of density and scalar has the same non-negative coefficients; sign of the HLLC mass flux in every wave configuration |
| C73 | runs on data that repeat one layer of cells against the run with one layer | every weighted sum along the idle axis is the identity (weights add up to 1), the fluxes along it cancel; with limiting, the flags and blending weights do not vary along the axis, and the smooth-extrema detector finds alpha = 0 on constant lines; the CFL case refuted in binary64 |
| C74 | a reflecting wall is a plane of symmetry: the run in half the domain is half of the run in the doubled domain without the wall (LLF; HLLC with physical traces; with and without slope limiting; refuted for the upwind solver) | the filled ghost cells of the half domain are the values of the doubled one; the symmetric continuation commutes with traces, Riemann solvers, balances and the integrators; rational counterexample for upwind |
| C75 | mirror images of runs with slope limiting (LLF, or HLLC where the traces are physical; forced trouble or a detector that treats both directions alike, such as the default one without smooth-extrema detection); refuted for the absolute range | the padded, interpolated and MUSCL traces, the detector flags, the interface weights and the blended balances of the mirror image are the mirror images; one generic simulation argument; rational counterexample |
| C76 | the slope-limited right-hand side in full: candidate step, troubled cells, smoothness, shares of the faces, mixture of fluxes | `limited_rhs` (C75) composed with the closed forms of C25, C27–C29 and C60; the smoothness formula is restated with centred indices |
| C77 | uniform transport keeps the density within its bounds (forced limiting, upwind, short steps); refuted for steps of 4/5 of a cell | degree-one stencils are the identity, so the update is a convex combination of a cell and its upwind neighbours (`drift_step`); SSP stages through `step_convex_inv`; loop through `fine_integrate`; refutation computed in exact rationals |
| C78 | runs with slope limiting that acts nowhere or everywhere | the right-hand side of C76 with all weights 0 (against the unlimited right-hand side on narrower ghost zones) or all weights 1 (against the same with degrees cut to 1) |
| C79 | several reflecting walls as symmetry planes, corner blasts, axis-symmetric data | C74 once per wall, the doubled domain being again a domain with walls; low-degree and limited traces lie between cells, so physical cells suffice for HLLC; C66 with the state as its own image |
| C80 | total variation in one dimension | the increment form of C77 (each cell moves towards its upwind neighbour by a fraction of the jump), Harten's argument on a line or ring of cells, convexity of the total variation for the SSP integrators; refuted in exact rationals otherwise |
| C81 | boundary conditions of idle axes have no effect | every padded array of a run has width zero along idle axes, and the blending asks for periodicity of active axes only; equality of the right-hand sides, so of the runs |
| C82 | limited runs keep the density positive | the two face values of a cell are positive and average to its density; the LLF mass flux is at most what a signal sweeps over; convex integrators; refutation at CFL 0.8 by evaluation in binary64 |
| C83 | place and extents of the domain | equality of the right-hand sides; refutation by computation in binary64 |
| C84 | trouble log of the last step and the step it describes | one Euler step of the model is related to the flags of the detector by the theorems on the limited right-hand side, the log to the flags by the averages of C46, iterated along the run; a binary64 run |
| C85 | troubled cells of uniform flow | the log is that of the last candidate (C84), the candidate of a uniform state is the state, and the criteria of the detector are evaluated on constant fields |

## Trusted base

* The kernel of Coq 8.16.1 (`vm_compute` included: computed witnesses use it).
* That the model says what the Python code does. Every definition cites the lines it models.
* What each theorem says. The vocabulary of the statements is in `Spec*.v` and in the model
  files; proofs are in files ending in `P.v`, `Q.v`, `R.v`, `S.v` and `T.v`.
* Libraries: the standard library, Coquelicot (derivatives and integrals in the accuracy
  statements: `SpecPoly.v`, `SpecExact.v`) and Flocq (rounding, in the proof of C33 only). Neither adds axioms.
* No axiom, admitted lemma, functor, module type or plugin is defined here; no kernel check is
  switched off.

### Axioms

All axioms come from the standard library:

* `ClassicalDedekindReals.sig_forall_dec`, `ClassicalDedekindReals.sig_not_dec` (the real
  numbers),
* `FunctionalExtensionality.functional_extensionality_dep` (the real numbers, and equality of
  arrays as functions),
* `Classical_Prop.classic` (excluded middle; through lemmas of the libraries).

What `Print Assumptions` lists, theorem by theorem:

**none (closed under the global context)** (148): `C02_collision_refuted`, `C02_distinct_rows`, `C02_duplicates`, `C02_names`, `C03_bad_axis`, `C03_box`, `C03_cut`, `C03_cut_needs_axis`, `C03_negative_axis_refuted`, `C03_reverse`, `C03_windows`, `C14_errors`, `C14_interpolation_sweep`, `C14_reconstruction_sweep`, `C15_quadrature_size`, `C17_inactive_axis`, `C17_interior_unchanged`, `C18_periodic`, `C18_wide_ghosts_refuted`, `C19_copying_boundaries`, `C20_all_cells`, `C20_too_wide`, `C21_dmr_refuted`, `C22_moncen_vanishes_at_extrema_refuted`, `C23_inadmissible_candidates_flagged_refuted`, `C24_nan_candidates_flagged_refuted`, `C25_sed_only_removes_flags`, `C26_mirror_symmetry_refuted`, `C27_troubled_faces`, `C28_three_axes_raise_refuted`, `C29_nan_survives`, `C30_run_matches_orders`, `C33_ends_past_T_refuted`, `C34_float_refuted`, `C34_negative_downbeats_refuted`, `C34_second_call_refuted`, `C35_n_ignored`, `C35_n_steps`, `C35_timestamps`, `C36_flux_arrays_have_interface_shape`, `C38_runs_end`, `C39_limited_boxes_conserve_refuted`, `C41_scalars_do_not_act_on_gas`, `C42_memory_independent`, `C42_small_grid_refuted`, `C43_limited_translations_refuted`, `C43_translations`, `C45_default_step_in_the_plane_refuted`, `C47_attributes`, `C47_files`, `C47_fv_ic_refuted`, `C47_in_step`, `C47_meanwhile_refuted`, `C47_overwrite_replaces`, `C47_runs_append`, `C47_runs_are_saved`, `C47_saved_then_read`, `C47_state_refuted`, `C47_step_count_refuted`, `C48_crash_points`, `C48_elsewhere`, `C48_old_result_refuted`, `C48_recovery`, `C48_stuck_refuted`, `C49_add_shares_refuted`, `C49_alias_refuted`, `C49_isolated`, `C49_live`, `C50_add_type`, `C50_device_refuted`, `C50_finite_map`, `C50_get_numpy`, `C50_switch`, `C50_to_dict`, `C51_add`, `C51_solver`, `C51_start`, `C51_stop`, `C52_sedov_symmetric_if_even`, `C53_forced_trouble_refuted`, `C53_overlay_hides`, `C53_overlay_true_refuted`, `C53_plot_fields_line`, `C53_plot_fields_refuted`, `C53_snapshot_list_refuted`, `C53_trouble_line_refuted`, `C53_trouble_picture_refuted`, `C54_conditions_refuted`, `C54_dirs_distinct`, `C54_import_refuted`, `C54_order_irrelevant`, `C54_prefix_refuted`, `C55_default_slabs`, `C55_fixed_refuted`, `C55_floors_refuted`, `C55_floors_unread`, `C56_nan_run_refuted`, `C57_ghosts_defined`, `C57_mixed_periodic_refuted`, `C57_none_refuted`, `C57_wide_symmetric_refuted`, `C58_convex_runs_in_space_refuted`, `C58_limited_runs_complete`, `C63_header_refuted`, `C63_report`, `C63_solver_report`, `C63_to_dict`, `C64_bar_refuted`, `C64_comma_refuted`, `C64_details`, `C64_git_missing_refuted`, `C64_no_refs_refuted`, `C64_no_repository`, `C65_constructed`, `C65_copy_refuted`, `C65_reset`, `C65_same_manager_refuted`, `C65_to_dict`, `C65_to_dict_refuted`, `C65_undone_refuted`, `C66_downbeats_refuted`, `C66_neither_refuted`, `C66_no_integrator_refuted`, `C66_progress`, `C66_progress_refuted`, `C66_result`, `C66_resume_refuted`, `C66_times_refuted`, `C66_whole_steps`, `C67_default_step_refuted`, `C68_stages_see_the_start`, `C68_two_stages_refuted`, `C70_cfl_refuted`, `C71_steps`, `C71_undeclared_refuted`, `C72_higher_order_refuted`, `C73_cfl_refuted`, `C74_upwind_refuted`, `C75_absolute_range_refuted`, `C77_long_step_refuted`, `C80_long_step_refuted`, `C80_unlimited_refuted`, `C81_active_ends_refuted`, `C82_default_step_refuted`, `C82_pressure_refuted`, `C83_short_idle_extent_refuted`, `C84_cut_step_refuted`, `C84_troubled_step_refuted`

**functional_extensionality_dep** (10): `C50_no_cupy`, `C55_accepts`, `C55_averaged_ic_sides_refuted`, `C55_constructed`, `C55_defaults_refuted`, `C55_documented_solver_refuted`, `C55_narrow_slabs_refuted`, `C81_idle_ends_do_nothing`, `C83_idle_extent_fixed_step`, `C83_place_has_no_effect`

**sig_forall_dec, functional_extensionality_dep** (2): `C28_meaning_of_weights`, `C56_orders`

**sig_forall_dec, sig_not_dec, functional_extensionality_dep** (167): `C01_conservatives_formula`, `C01_conservatives_of_primitives`, `C01_primitives_of_conservatives`, `C04_advection`, `C04_advection_refuted`, `C04_cfl`, `C05_hllc`, `C05_llf`, `C05_upwind`, `C06_C08_hllc_structure`, `C06_denominators`, `C07_hllc_contact`, `C09_hllc_mirror`, `C09_llf_mirror`, `C09_upwind_mirror`, `C09_upwind_mirror_refuted`, `C10_hllc_wall`, `C10_llf_wall`, `C11_axes`, `C12_cell_centers_exact`, `C12_interpolation_exact`, `C13_fv_averages_exact`, `C13_reconstruction_exact`, `C13_there_and_back`, `C15_fv_average_exact`, `C16_mesh`, `C16_slabs`, `C20_dirichlet_function`, `C22_face_values_between_neighbours`, `C22_minmod_is_limited`, `C22_minmod_value`, `C22_moncen_is_limited`, `C22_moncen_value`, `C23_last_entry_is_flagged`, `C25_flagged_cells`, `C26_constants_do_not_matter`, `C26_parabolas_are_smooth_lines_are_not`, `C26_smoothness_in_unit_interval`, `C27_real_and_binary64`, `C28_periodic_z_raises_refuted`, `C28_weights_along_one_axis`, `C28_weights_along_two_axes`, `C28_wraps_around_refuted`, `C29_replaced_fluxes`, `C29_weighted_fluxes`, `C30_linear_systems`, `C30_quadrature`, `C30_ssprk2_time_refuted`, `C31_convex_sets`, `C32_log_every_step`, `C32_solver_stops_at_T`, `C32_solver_terminates`, `C32_stops_at_T`, `C32_terminates`, `C32_zero_time_refuted`, `C34_forward_from_any_time`, `C37_uniform_flow_is_preserved`, `C38_periodic_runs_conserve`, `C39_agreeing_ends_conserve`, `C39_forced_trouble_conserves`, `C40_symmetric_data_stay_symmetric`, `C40_symmetric_data_stay_symmetric_hllc`, `C40_walls_conserve`, `C41_uniform_concentration_stays`, `C43_translations_with_adaptive_steps`, `C43_translations_with_forced_limiting`, `C44_axes_are_equivalent`, `C44_blended_directions_refuted`, `C45_first_order_runs_stay_positive`, `C46_first_step_refuted`, `C46_log_is_the_mean`, `C51_default_prefix_refuted`, `C51_interrupted_refuted`, `C51_sum`, `C52_athena_blast`, `C52_double_mach`, `C52_double_shock`, `C52_initial_averages`, `C52_initial_state`, `C52_initial_state_positive`, `C52_kelvin_helmholtz`, `C52_missing_scalars`, `C52_positive_conditions`, `C52_refused`, `C52_runs_stay_positive`, `C52_sedov_center`, `C52_sedov_centered_refuted`, `C52_sedov_corner`, `C52_sedov_default_energy_refuted`, `C52_sedov_positive`, `C52_sedov_refused`, `C52_shock`, `C52_shock_cube`, `C52_shock_tube`, `C52_shu_osher`, `C52_sinus`, `C52_slotted_disk`, `C52_square`, `C53_averages_in_range`, `C53_cell_of_coordinate`, `C53_centre_refuted`, `C53_integer_radii`, `C53_integer_radii_refuted`, `C53_line`, `C53_lookup`, `C53_overlay_refuted`, `C53_picture`, `C53_pixels`, `C53_pixels_refuted`, `C53_rings`, `C53_rings_partition`, `C53_solver_logs`, `C53_solver_snapshots`, `C53_summary`, `C53_trouble`, `C54_snapshot_times`, `C55_default_settings`, `C55_ic_sides`, `C56_accepts`, `C56_conversions`, `C56_end_reached_refuted`, `C56_end_time_refuted`, `C56_fluxes`, `C56_smooth_cells`, `C56_start`, `C56_traces`, `C56_unknown_start_refuted`, `C58_convex_runs_complete`, `C59_textbook_fluxes`, `C60_flux_balance`, `C61_mirror_images_hllc`, `C61_mirror_images_llf`, `C62_transport_exact`, `C66_times`, `C67_first_order_runs_stay_positive`, `C67_middle_states`, `C68_moving_boundary_rhs`, `C69_convert`, `C69_floor_refuted`, `C69_minmod_refuted`, `C69_smoothness_refuted`, `C69_units`, `C70_transverse_boost`, `C71_exact`, `C71_overshooting`, `C71_solver`, `C72_scalar_bounds`, `C72_upwind`, `C73_extruded_runs`, `C74_upper_wall_hllc`, `C74_upper_wall_llf`, `C74_wall_is_symmetry_plane_hllc`, `C74_wall_is_symmetry_plane_llf`, `C76_limited_balance`, `C76_troubled_cells`, `C77_drift_bounds`, `C78_forced_runs`, `C78_nothing_watched`, `C78_same_fallback`, `C78_untroubled_runs`, `C80_total_variation`, `C82_limited_density_positive`, `C83_long_idle_extent`, `C84_log_of_last_step`, `C84_untroubled_step`, `C85_steady_flow`, `C85_uniform_flow_log`

**sig_forall_dec, sig_not_dec, classic, functional_extensionality_dep** (26): `C33_fixed_step_odes`, `C33_fixed_step_runs`, `C33_sterbenz`, `C44_axes_are_equivalent_with_limiting`, `C56_periodic_run`, `C62_run_exact`, `C62_step_exact`, `C68_moving_boundary_run`, `C69_units_with_limiting`, `C73_extruded_runs_with_limiting`, `C73_smooth_extrema_never_seen`, `C74_upper_wall_with_limiting_hllc`, `C74_upper_wall_with_limiting_llf`, `C74_wall_with_limiting_hllc`, `C74_wall_with_limiting_llf`, `C75_hllc_with_limiting`, `C75_mirror_images_with_limiting`, `C75_symmetric_data_with_limiting`, `C75_symmetric_hllc_with_limiting`, `C76_one_share`, `C79_corner_blast_hllc`, `C79_corner_blast_llf`, `C79_corner_blast_symmetric`, `C79_symmetric_data_stay_symmetric`, `C79_walls_are_symmetry_planes_hllc`, `C79_walls_are_symmetry_planes_llf`

## What is modelled

| file in /repo/fvhoe | model | what is left out |
|---|---|---|
| `stencils.py` | `StencilsM` | - |
| `fv.py` | `FvM` | `leggauss` is NumPy's: nodes and weights enter through their moment equations |
| `hydro.py` | `HydroM` (numerics), `HydroStateM` (names and index requests) | `__hash__` |
| `riemann_solvers.py` | `RiemannM` | - |
| `boundary_conditions.py` | `BcM` (apply, trim_slabs), `BcObjM` (construction) | value functions are parameters |
| `slope_limiting.py`, `smooth_extrema_detection.py` | `LimitM`, `SedM` | CuPy back end |
| `ode.py` | `OdeM`, `SnapM` (saving), `TimerM` (timer calls), `ReportM` (commit details), `CallM` (integrate with timer, progress bar and exceptions) | how tqdm draws |
| `solver.py` | `SolverM` (right-hand side, fallback, trouble log, run), `InitM` (constructor), `ICM` (initial state), `SnapM` (read/write snapshots), `VizM` (plot_fields) | the snapshot helper function; `cupy=True` |
| `initial_conditions.py` | `ICM` | sin, exp, tan and pi are parameters (the real functions where that matters) |
| `array_management.py` | `ArrMgrM` | the message printed without CuPy |
| `timer.py` | `TimerM`, `ReportM` | decimal formatting and rounding of numbers are parameters |
| `scripting.py` | `ScriptM` | the plots of the snapshot helper |
| `visualization.py` | `VizM` | what matplotlib does with the data; colours, norms, contour levels |
| `romain_solver.py` | `RomainM` | printed messages |

Not modelled: CuPy arithmetic (the array manager knows which library an array belongs to,
nothing else), warnings and other printed text, docstrings, abstract methods with empty bodies,
`experiments/`, `examples/` and `tests/`.

### Simplifications

* Floating point: theorems over `RNum` are about exact arithmetic. Theorems over every `Num`
  hold for binary64 as well. Refutations are computed in binary64 or in exact rationals; the
  statement says which. Transcendental functions have no binary64 model.
* NumPy's arithmetic warnings (division by zero, overflow) are not exceptions, as by default.
* `np.max` and `np.min` over arrays are folds of the binary operations, which propagate NaN in
  `FNum` as NumPy's do.
* Python integers are `Z`; array extents and indices are `Z` with explicit range checks.
* Memory sharing between arrays is modelled by addresses in the array manager and in the
  construction of boundary conditions. The solver's arrays are values.
* Files are written front to back, byte by byte; a crash leaves a prefix. pickle is a pair of
  inverse functions.

The numbers a theorem is about can be read off its statement: `RNum`, `QNum`, `FNum`, or a
quantified `N : Num`.
