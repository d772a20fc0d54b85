{"id": "C01", "title": "Primitive/conservative conversion is a bijection", "statement": "compute_primitives(compute_conservatives(w)) returns w and compute_conservatives(compute_primitives(u)) returns u in every row, for any number of passive scalars, whenever the density is non-zero and gamma is not 1 (exact arithmetic).", "quantifier": "all states, all gamma != 1, any number of passive scalars", "why_tests_cant": "infinitely many real states; tests sample random boxes with density in [1,3]", "anchors": ["fvhoe/hydro.py: compute_primitives, compute_conservatives"]}
{"id": "C02", "title": "Variable names address distinct rows", "statement": "For every HydroState built from distinct passive names that do not collide with built-in names, rho, v/m components, P/E and each passive scalar address pairwise distinct rows 0..nvars-1, primitive and conservative names of the same quantity share a row, duplicates are rejected and unknown names raise ValueError. Without the no-collision proviso the claim is false: a passive scalar called 'rho' silently captures the density name.", "quantifier": "all tuples of passive scalar names", "why_tests_cant": "name tuples are unbounded", "anchors": ["fvhoe/hydro.py: HydroState.__init__", "HydroState.__call__"]}
{"id": "C03", "title": "Slice requests select exactly the requested cells", "statement": "HydroState(axis,cut=(a,b)) on an axis of n cells selects cells a..b-1 with Python negative-index meaning and 0 meaning 'unbounded', step=-1 with cut (0,0) reverses the axis, and out-of-range axes are rejected with ValueError; get_symmetric_slices(k) yields k windows of n-k+1 cells shifted by one each. (Refuted for axes below -4, which raise IndexError.) Names, bounds along several axes, cut and step combine: the result is the box of cells of the bounds, cut replaces the bounds of its axis, and the step applies to that axis only.", "quantifier": "all axis lengths, cuts, window counts", "why_tests_cant": "unbounded sizes", "anchors": ["fvhoe/hydro.py: HydroState.__call__", "fvhoe/fv.py: get_symmetric_slices"]}
{"id": "C04", "title": "CFL time step is positive and honours the CFL bound", "statement": "hydro_dt is positive for positive CFL, h, csq_floor and ndim>=1, and in every cell dt*(|vx|+|vy|+|vz|+ndim*c)/h <= CFL with c the floored sound speed, hence dt*(|v_d|+c)/h <= CFL in each direction; it equals the bound in some cell (it is the largest such step).  advection_dt: for velocities that are non-negative and not all zero the step is positive, uses up exactly the CFL number with the sum of the velocities and none alone exceeds it; with velocities of opposite sign the CFL number is exceeded along an axis and with the default (zero) velocities it raises ZeroDivisionError.", "quantifier": "all primitive arrays, any shape", "why_tests_cant": "all states", "anchors": ["fvhoe/hydro.py: hydro_dt, compute_sound_speed"]}
{"id": "C05", "title": "Riemann solvers are consistent", "statement": "When both sides of an interface hold the same admissible state, llf, hllc and advection_upwind return exactly the physical flux of that state (upwind: the pressureless flux), in every direction and for all passive scalars.", "quantifier": "all admissible states, gamma>1, directions, passive counts", "why_tests_cant": "all real states", "anchors": ["fvhoe/riemann_solvers.py: llf, hllc, advection_upwind", "fvhoe/hydro.py: compute_fluxes"]}
{"id": "C06", "title": "HLLC is well defined", "statement": "For every pair of states with positive density and pressure, gamma>=1 and csq_floor>0, hllc's wave speeds satisfy Sl < v* < Sr, none of its denominators vanishes and both star densities are positive.", "quantifier": "all pairs of admissible states", "why_tests_cant": "inequality over a continuum", "anchors": ["fvhoe/riemann_solvers.py: hllc"]}
{"id": "C07", "title": "HLLC resolves contacts exactly", "statement": "If both sides share normal velocity and pressure, hllc returns the exact upwind Godunov flux; for zero velocity it is the pure pressure flux, so a stationary contact never diffuses.", "quantifier": "all density/tangential velocity/passive jumps", "why_tests_cant": "continuum", "anchors": ["fvhoe/riemann_solvers.py: hllc"]}
{"id": "C08", "title": "HLLC star fluxes satisfy the jump conditions", "statement": "In the subsonic region the flux returned by hllc for density, normal momentum and energy equals F_K + S_K (U*_K - U_K) for the side K it samples, i.e. the Rankine-Hugoniot conditions hold across both acoustic waves.", "quantifier": "all admissible pairs", "why_tests_cant": "continuum", "anchors": ["fvhoe/riemann_solvers.py: hllc"]}
{"id": "C09", "title": "Riemann solvers are mirror symmetric", "statement": "Swapping the two sides and reversing the normal velocity negates mass, tangential momentum, energy and passive fluxes and leaves normal momentum flux unchanged (llf and hllc).", "quantifier": "all admissible pairs, directions", "why_tests_cant": "continuum incl. branch boundaries", "anchors": ["fvhoe/riemann_solvers.py: llf, hllc"]}
{"id": "C10", "title": "Solid walls pass no mass, energy or scalars", "statement": "When the state on one side of an interface is the mirror image of the other, llf and hllc return zero mass, energy, tangential momentum and passive flux.", "quantifier": "all admissible states", "why_tests_cant": "continuum", "anchors": ["fvhoe/riemann_solvers.py: llf, hllc", "fvhoe/boundary_conditions.py: _set_symmetric_bc"]}
{"id": "C11", "title": "Directions are interchangeable in the Riemann solvers", "statement": "Relabelling the axes of both states and of the requested direction relabels the flux in the same way, for all three solvers.", "quantifier": "all states, permutations of axes", "why_tests_cant": "continuum", "anchors": ["fvhoe/riemann_solvers.py", "fvhoe/hydro.py: compute_fluxes"]}
{"id": "C12", "title": "Face and centre interpolation is exact on polynomials", "statement": "For p=0..8, conservative_interpolation applied to the exact cell averages of any polynomial of degree <= p returns its exact value at the left face, cell centre or right face; the weights sum to 1; the stencil has 2*ceil(p/2)+1 points.", "quantifier": "all polynomials of degree <= p, all cell positions and sizes", "why_tests_cant": "all coefficient vectors", "anchors": ["fvhoe/stencils.py: get_conservative_interpolation_stencil_weights", "fvhoe/fv.py: conservative_interpolation"]}
{"id": "C13", "title": "Reconstruction of averages from point values is exact on polynomials", "statement": "For p=0..8, transverse_reconstruction applied to point values of a polynomial of degree <= p returns its exact cell averages, and composing it with centre interpolation is the identity on such data, in one and three dimensions.", "quantifier": "all polynomials of degree <= p", "why_tests_cant": "all coefficient vectors", "anchors": ["fvhoe/stencils.py: get_transverse_reconstruction_stencil_weights", "fvhoe/fv.py: interpolate_cell_centers, interpolate_fv_averages"]}
{"id": "C14", "title": "Stencil sweeps have the documented shape and value", "statement": "A sweep with a k-point stencil shortens the axis by k-1, leaves other axes alone, and each output is the weighted sum of the k consecutive inputs; unsupported p raises NotImplementedError and unknown positions raise an error.", "quantifier": "all arrays, axes, p, positions", "why_tests_cant": "unbounded sizes", "anchors": ["fvhoe/fv.py: stencil_sweep", "fvhoe/stencils.py"]}
{"id": "C15", "title": "Initial averages are exact on polynomials", "statement": "fv_average with degree p uses ceil((p+1)/2) Gauss points per axis and returns the exact cell average of every polynomial of degree <= p in each coordinate, and is exact (a plain average of one) on constants.", "quantifier": "all polynomials, meshes", "why_tests_cant": "all coefficients", "anchors": ["fvhoe/fv.py: fv_average, get_legendre_quadrature"]}
{"id": "C16", "title": "Mesh and ghost-slab coordinates are one uniform mesh", "statement": "fv_uniform_meshgen returns centres x0+(i+1/2)h; each slab returned for ghost thickness g continues the same formula to indices -g..-1 and n..n+g-1 and spans the padded extent in the other axes.", "quantifier": "all domains, cell counts, thicknesses", "why_tests_cant": "all sizes", "anchors": ["fvhoe/fv.py: fv_uniform_meshgen"]}
{"id": "C17", "title": "Padding never alters the interior", "statement": "BoundaryCondition.apply returns an array of shape n+2g whose central block equals the input, whatever the boundary types, and a boundary type on an axis with zero ghost width is inconsequential.", "quantifier": "all arrays, ghost widths, boundary types", "why_tests_cant": "unbounded", "anchors": ["fvhoe/boundary_conditions.py: BoundaryCondition.apply"]}
{"id": "C18", "title": "Periodic ghosts wrap around, corners included", "statement": "With periodic boundaries and ghost width <= n on each axis, every padded cell (edges and corners included) equals the input cell with each index reduced modulo n, independently of the uninitialised memory used for padding. If the ghost width exceeds n the result depends on uninitialised memory (the code does not reject it).", "quantifier": "all arrays, sizes, widths", "why_tests_cant": "unbounded", "anchors": ["fvhoe/boundary_conditions.py: _set_periodic_bc, apply"]}
{"id": "C19", "title": "Free, outflow and reflective ghosts mirror the interior", "statement": "free copies the edge cell, outflow mirrors the interior, reflective mirrors it and negates exactly the normal momentum, on either side, corners included, for ghost width <= n.", "quantifier": "all arrays, sizes, widths, mixes of boundary types", "why_tests_cant": "unbounded", "anchors": ["fvhoe/boundary_conditions.py: _set_free_bc, _set_symmetric_bc, apply"]}
{"id": "C20", "title": "Dirichlet ghosts receive the prescribed values at ghost-cell coordinates", "statement": "A function-valued Dirichlet (or ic) boundary is evaluated at exactly the coordinates of the ghost cells it fills, for every ghost width up to slab_buffer_size, larger widths raise ValueError, and array values fill each variable with its constant.", "quantifier": "all functions, widths, buffers", "why_tests_cant": "unbounded", "anchors": ["fvhoe/boundary_conditions.py: trim_slabs, _set_dirichlet_bc"]}
{"id": "C21", "title": "The double-Mach-reflection boundary can be applied", "statement": "BoundaryCondition.apply with 'special-case-double-mach-reflection-y=0' returns a padded array. (Refuted: it always raises TypeError.)", "quantifier": "all arrays with non-zero ghost width", "why_tests_cant": "all inputs", "anchors": ["fvhoe/boundary_conditions.py: apply lines 374-395"]}
{"id": "C22", "title": "Limited slopes never create new extrema", "statement": "minmod and moncen slopes lie between zero and the (twice the, for moncen) smaller one-sided difference in magnitude and vanish at extrema; MUSCL face values lie between the cell and its neighbours.", "quantifier": "all real data", "why_tests_cant": "continuum", "anchors": ["fvhoe/slope_limiting.py: minmod, moncen, MUSCL_interpolations"]}
{"id": "C23", "title": "Every physically inadmissible candidate is flagged", "statement": "detect_troubled_cells flags every cell in which some variable of PAD_bounds is outside its bounds. (Refuted: only the last variable of the dict is tested, so with the default bounds a negative density is not flagged; proved for the last entry.)", "quantifier": "all candidates and bounds dicts", "why_tests_cant": "all states", "anchors": ["fvhoe/slope_limiting.py: detect_troubled_cells"]}
{"id": "C24", "title": "Non-finite candidates are flagged", "statement": "A cell whose candidate is NaN is flagged as troubled. (Refuted: NaN passes both NAD and PAD tests.)", "quantifier": "all float states with a NaN", "why_tests_cant": "all states", "anchors": ["fvhoe/slope_limiting.py: detect_troubled_cells"]}
{"id": "C25", "title": "NAD flags exactly the over/undershoots", "statement": "Without SED, a cell is NAD-troubled iff some selected variable leaves [m - eps*range, M + eps*range] (relative) or [(1-eps)m,(1+eps)M] (absolute) with m,M the extrema over the 3^d neighbourhood (global modes: see code) and SED can only remove flags.", "quantifier": "all arrays and tolerances", "why_tests_cant": "all states", "anchors": ["fvhoe/slope_limiting.py: detect_troubled_cells"]}
{"id": "C26", "title": "Smooth extrema are recognised", "statement": "The smooth-extremum detector lies in [0,1], equals 1 on every profile that is parabolic along each axis with curvature above tolerance, and is invariant under adding constants. (Refuted parts: a profile linear along some axis scores 0, and the detector is not mirror symmetric.)", "quantifier": "all data", "why_tests_cant": "continuum", "anchors": ["fvhoe/smooth_extrema_detection.py"]}
{"id": "C27", "title": "Troubled interfaces are exactly the faces of troubled cells", "statement": "Without convex blending an interface weight is 1 iff one of the adjacent interior cells is troubled, else 0.", "quantifier": "all trouble masks, dimensions", "why_tests_cant": "unbounded masks", "anchors": ["fvhoe/slope_limiting.py: broadcast_to_troubled_interfaces"]}
{"id": "C28", "title": "Convex blending weights", "statement": "With convex=True in 1D/2D all weights lie in [0,1], equal 1 on faces of troubled cells, vanish farther than the stencil reach, and wrap around periodic boundaries. (Refuted part: periodic wrap is silently a no-op in 1D and 2D; with a periodic z axis in 2D the call raises ValueError; 3D raises.)", "quantifier": "all trouble masks, sizes", "why_tests_cant": "unbounded masks", "anchors": ["fvhoe/slope_limiting.py: broadcast_to_troubled_interfaces, convex_1d_broadcast_to_troubled_interfaces, convex_2d_broadcast_to_troubled_interfaces"]}
{"id": "C29", "title": "Flux revision replaces only troubled fluxes", "statement": "After revise_fluxes an interface with weight 0 keeps its high-order flux, one with weight 1 carries the fallback flux, and any other lies between the two (exact arithmetic). In floating point a NaN in either flux survives even where its weight is 0.", "quantifier": "all fluxes and masks", "why_tests_cant": "continuum", "anchors": ["fvhoe/solver.py: revise_fluxes"]}
{"id": "C30", "title": "Runge-Kutta steps have their nominal order", "statement": "On linear autonomous systems euler, ssprk2, ssprk3, rk4 multiply by the Taylor polynomial of exp of degree 1,2,3,4; for f depending on time only they integrate polynomials of degree 0,1,2,3 exactly. (Refuted for ssprk2: its second stage is evaluated at t instead of t+dt.)", "quantifier": "all linear systems, step sizes, polynomials in t", "why_tests_cant": "continuum", "anchors": ["fvhoe/ode.py: euler, ssprk2, ssprk3, rk4"]}
{"id": "C31", "title": "SSP steps stay in convex sets preserved by forward Euler", "statement": "Any convex set of states that is mapped into itself by every forward Euler step of size dt is mapped into itself by ssprk2 and ssprk3 steps of size dt.", "quantifier": "all vector fields and convex sets", "why_tests_cant": "second-order quantification", "anchors": ["fvhoe/ode.py: ssprk2, ssprk3"]}
{"id": "C32", "title": "integrate(T) stops exactly at T with the requested snapshots", "statement": "With exact=True (exact arithmetic), a fresh solver, T>0, positive steps and non-negative downbeats, the run ends with t=T and the recorded snapshot times are exactly 0, the distinct downbeats in (0,T) in increasing order, and T; times never decrease; the loop ends within T/dt_min + #downbeats steps.", "quantifier": "all step-size histories bounded below, all downbeat lists", "why_tests_cant": "all histories", "anchors": ["fvhoe/ode.py: integrate, take_step, _hit_target"]}
{"id": "C33", "title": "Exact target hitting in floating point", "statement": "If t >= target/2 (Sterbenz) the truncated step lands on the target exactly in binary64; in general t+(target-t) can differ from the target, so a run with exact=True can end past T.", "quantifier": "all binary64 times", "why_tests_cant": "2^128 pairs", "anchors": ["fvhoe/ode.py: _hit_target, integrate"]}
{"id": "C34", "title": "integrate never runs backwards", "statement": "Every step taken by integrate has non-negative length. (Refuted: on a second call, downbeats earlier than the current time make the solver take negative steps; also for negative downbeats. Proved for fresh solvers with non-negative downbeats.)", "quantifier": "all call histories", "why_tests_cant": "all histories", "anchors": ["fvhoe/ode.py: integrate, _hit_target"]}
{"id": "C35", "title": "integrate(n) takes exactly n steps", "statement": "integrate(n=n) takes exactly n steps and records one snapshot before and one after; timestamps has step_count+1 entries, the last equal to t. If T is given n is ignored.", "quantifier": "all n, states", "why_tests_cant": "unbounded", "anchors": ["fvhoe/ode.py: integrate, take_step"]}
{"id": "C36", "title": "Flux arrays always have interface shape", "statement": "For all cell counts and degrees px,py,pz in 0..8, with or without slope limiting, hydrofluxes succeeds and returns F,G,H of shapes (nvars,nx+1,ny,nz), (nvars,nx,ny+1,nz), (nvars,nx,ny,nz+1).", "quantifier": "all n, p, active-dimension subsets", "why_tests_cant": "unbounded sizes", "anchors": ["fvhoe/solver.py: hydrofluxes, interpolate_primitives_from_conservatives"]}
{"id": "C37", "title": "Uniform flow is preserved", "statement": "A spatially uniform admissible state has zero time derivative for every degree, Riemann solver and boundary type periodic/free/outflow, with or without slope limiting, in any number of dimensions, hence is preserved for all time.  Reflecting boundaries are included when the uniform flow has no momentum normal to them.", "quantifier": "all states, sizes, degrees, dims", "why_tests_cant": "continuum x unbounded", "anchors": ["fvhoe/solver.py: hydrodynamics"]}
{"id": "C38", "title": "Periodic runs conserve mass, momentum, energy and scalars", "statement": "With periodic boundaries and no slope limiting, the sum over cells of every conserved variable is unchanged by any number of steps of any integrator.", "quantifier": "all states, sizes, degrees, solvers, step histories", "why_tests_cant": "all histories", "anchors": ["fvhoe/solver.py: euler_equation, hydrofluxes", "fvhoe/ode.py"]}
{"id": "C39", "title": "Slope limiting keeps conservation", "statement": "With a posteriori slope limiting, periodic runs conserve every conserved variable. (Refuted: the first and last interface of a periodic axis get different weights when only one of the two cells sharing it is troubled. Proved when the masks agree at the two ends.)", "quantifier": "all states and masks", "why_tests_cant": "all states", "anchors": ["fvhoe/solver.py: revise_fluxes", "fvhoe/slope_limiting.py: broadcast_to_troubled_interfaces"]}
{"id": "C40", "title": "Reflecting boxes conserve mass and energy", "statement": "With reflective boundaries on every active axis, total mass, energy and scalars are unchanged by any step, with or without slope limiting. Without slope limiting, data symmetric about the middle plane of the box stay symmetric (LLF for any data, HLLC as long as the traces are physical).", "quantifier": "all states, sizes, degrees", "why_tests_cant": "all histories", "anchors": ["fvhoe/solver.py", "fvhoe/boundary_conditions.py"]}
{"id": "C41", "title": "Passive scalars are passive", "statement": "The evolution of density, momentum, energy and dt is bit-for-bit independent of the number and values of passive scalars, and a scalar that is uniform stays uniform.", "quantifier": "all scalar fields, states, configurations", "why_tests_cant": "all fields", "anchors": ["fvhoe/solver.py: hydrodynamics", "fvhoe/riemann_solvers.py"]}
{"id": "C42", "title": "Results do not depend on uninitialised memory", "statement": "If every active axis has at least as many cells as ghost zones, the time derivative is independent of the contents of freshly allocated arrays. Otherwise it may depend on them: no check rejects small grids.", "quantifier": "all heap contents", "why_tests_cant": "all heap contents", "anchors": ["fvhoe/solver.py", "fvhoe/boundary_conditions.py: apply"]}
{"id": "C43", "title": "Periodic evolution commutes with translations", "statement": "Cyclically shifting the initial data on a periodic mesh shifts the time derivative likewise (bit-for-bit, no limiting).  With slope limiting it still holds (in exact arithmetic) when every cell is treated as troubled, and fails when trouble is detected.", "quantifier": "all data, shifts", "why_tests_cant": "unbounded", "anchors": ["fvhoe/solver.py: hydrodynamics"]}
{"id": "C44", "title": "The three coordinate directions are equivalent", "statement": "Exchanging the axes of a problem (cells, degrees, bounds, boundary types, components of the momentum) exchanges the axes of the whole run: same times, same exceptions, states and snapshots with the axes exchanged. In particular a 1D problem posed along x, y or z yields the same evolution. Claimed without slope limiting and with copying boundaries (periodic, outflow, reflective); with convex blending it fails, because a periodic z axis raises.  With slope limiting it holds when trouble is forced or the detection looks at all velocities or none and puts no bounds on them, as with the default options (smooth-extrema detection included), if both problems can be blended.", "quantifier": "all permutations of the axes, all data, degrees, sizes, Riemann solvers, integrators, periodic/outflow/reflective boundaries", "why_tests_cant": "all data", "anchors": ["fvhoe/solver.py: hydrofluxes"]}
{"id": "C45", "title": "First-order LLF preserves positivity under its CFL condition", "statement": "With p=0, the LLF flux and forward Euler steps (what run() uses for degree 0), a whole run from a state of positive density and internal energy keeps both positive, and all snapshots have positive density and pressure, if CFL times the number of active axes is at most 1 (in 1D: any CFL<=1). In 2D the default CFL=0.8 does not suffice: there is a positive state whose density becomes negative in one step.", "quantifier": "all positive states, sizes, copying boundaries, gamma>1, stopping rules", "why_tests_cant": "continuum", "anchors": ["fvhoe/riemann_solvers.py: llf", "fvhoe/hydro.py: hydro_dt"]}
{"id": "C46", "title": "Trouble log is the mean over Runge-Kutta stages", "statement": "After each step, the logged trouble equals the mean of the trouble arrays of that step's stages. (Refuted for the first step, which divides by one too many; proved for all later steps.)  Precisely: for every completed run with limiting (real numbers, any integrator), a run that also keeps a diary of all detections has one detection per stage, and the three log arrays at the end and in all snapshots equal the totals over the stages of the last step divided by the number of stages (one more after the first step).", "quantifier": "all histories of stage masks", "why_tests_cant": "all histories", "anchors": ["fvhoe/solver.py: log_troubles, step_helper_function"]}
{"id": "C47", "title": "Saved snapshots are read back unchanged", "statement": "A run saved with snapshot_dir and repeated with overwrite=False returns the same snapshots without stepping; overwrite=True replaces all previous contents. (Refuted part: time and state are not restored.) A successful write leaves exactly arrs.pkl, attrs.json (the names of the attributes are listed) and timing.txt; as long as nothing is read, several calls of integrate on one object append to snapshots and snapshot_times in step.", "quantifier": "all snapshot lists and directory states", "why_tests_cant": "all histories", "anchors": ["fvhoe/solver.py: read_snapshots, write_snapshots", "fvhoe/ode.py: integrate"]}
{"id": "C48", "title": "Saving is crash safe", "statement": "After a crash at any point of write_snapshots, a later run with overwrite=False either finds a complete result or recomputes it. (Refuted: several crash points leave a directory that makes every later run fail; overwriting destroys the previous result first.)", "quantifier": "all crash points", "why_tests_cant": "all crash points", "anchors": ["fvhoe/solver.py: write_snapshots, read_snapshots"]}
{"id": "C49", "title": "Snapshots are isolated from later evolution", "statement": "Arrays handed out in snapshots never change when the solver continues; get_numpy returns an independent copy while calling the manager returns the live array. (Proved for managers whose arrays were all added with the current library; refuted for arrays added before enable_cupy; without CuPy add keeps the caller's own array.)", "quantifier": "all operation histories", "why_tests_cant": "aliasing over all histories", "anchors": ["fvhoe/array_management.py", "fvhoe/solver.py: snapshot"]}
{"id": "C50", "title": "Array manager is a faithful name-to-array map", "statement": "Names are unique, add/remove/get behave as a finite map, failures leave it unchanged, get_numpy returns a NumPy array. (Refuted: after disable_cupy it may return a device array.) Whether CuPy is in use is decided by the last switch, and without CuPy the manager is a finite map under all actions including the switches. After any sequence of calls, to_dict lists the names present in the order in which they were last added, each once.", "quantifier": "all operation sequences", "why_tests_cant": "all histories", "anchors": ["fvhoe/array_management.py"]}
{"id": "C51", "title": "Timer protocol", "statement": "A category can be started only when idle and stopped only when running, other operations raise and change nothing, accumulated time is the sum of the intervals and never decreases for a monotone clock; a solver step leaves every category idle. (Refuted: an exception during a run leaves categories running, and the next run raises RuntimeError; hydrofluxes with its default timer_prefix raises ValueError.)", "quantifier": "all operation sequences and clocks", "why_tests_cant": "all histories", "anchors": ["fvhoe/timer.py"]}
{"id": "C52", "title": "Initial conditions are as documented", "statement": "Sinus density stays within rho_min_max and attains neither outside, Square/ShockTube/Shock1D/DoubleShock1D take exactly the documented values by region, SedovBlast deposits total energy E1 (center) or E1/2^d (corner), passives fill their own rows.", "quantifier": "all coordinates and parameters", "why_tests_cant": "continuum", "anchors": ["fvhoe/initial_conditions.py"]}
{"id": "C53", "title": "Nearest-snapshot lookup and radial averages", "statement": "get_indices_from_coordinates returns an index minimising the distance (first such), sample_circular_average bins partition the covered radii and each average lies within the range of its samples.  Line plots and pictures show the requested quantity at the cells closest to the coordinates; trouble plots accept every snapshot of a limited run unless trouble is forced.  The textual summary of a lookup names the time of the snapshot found and, per axis, the coordinate of the cell found or the first and last coordinate.", "quantifier": "all snapshot lists, coordinates", "why_tests_cant": "all inputs", "anchors": ["fvhoe/visualization.py"]}
{"id": "C54", "title": "Distinct configurations use distinct result directories", "statement": "EulerSolver_wrapper maps different problems to different directories. (Refuted: ic and bc are not part of the name; names are not injective.)", "quantifier": "all configurations", "why_tests_cant": "all configurations", "anchors": ["fvhoe/scripting.py: EulerSolver_wrapper"]}
{"id": "C55", "title": "The constructor gives the solver it was asked for", "statement": "EulerSolver(...) succeeds exactly when every axis has a cell, the degrees are not negative, the initial condition can be evaluated, some axis is active, the slab buffer is not empty and the Riemann solver is known; the solver then has the settings, boundary conditions and initial state of its arguments, and ghost cells behind an \"ic\" side hold the initial condition at their centres. (Refuted: interpolated densities and pressures lie below density_floor and pressure_floor and a fixed primitive variable changes, because the three options are never read; the constructor refuses its own defaults and the documented solver \"advection_upwinding\"; it accepts slab buffers that are too narrow and \"ic\" sides with averaged initial conditions, with which no right-hand side can be evaluated.)  Given cells along x and nothing else, the solver is a square wave of density 2 on 1 moving at speed 1 in the periodic unit interval, with HLLC, gamma 5/3, CFL number 0.8 and no limiting.", "quantifier": "for all arguments of the constructor, any arithmetic; coordinates in exact arithmetic", "why_tests_cant": "all states", "anchors": ["fvhoe/solver.py: __init__, hydrofluxes"]}
{"id": "C56", "title": "The 1D reference solver agrees with the main solver", "statement": "romain_solver's interface traces for space=1..5 use the same weights as the main solver for p=0..4, its llf/hllc fluxes equal the main ones on 1D states, and its periodic runs conserve all variables.  Precisely: the traces use the 3D solver's weights where the three surrounding markers say smooth, and otherwise stay between the neighbouring cells' values; every periodic step on n >= 4 cells is a Runge-Kutta step (order 1..4 tableaux) of the limited scheme on the endless repeated line with the CFL time step; the initial data are the stated ones with positive density and pressure. Refuted: that the run ends at, or always reaches, the end time; that unknown initial data or boundary names are refused (binary64 runs end with a NaN time after one step).", "quantifier": "all 1D data", "why_tests_cant": "all data", "anchors": ["fvhoe/romain_solver.py"]}
{"id": "C57", "title": "Every accepted boundary specification defines all ghost cells", "statement": "After BoundaryCondition.apply no padded cell depends on uninitialised memory. (Refuted: a side that is periodic only on the right, a side of type None, and periodic or symmetric sides with more ghost cells than cells leave or copy uninitialised memory without any error. Proved when each active side copies or prescribes values, there are enough cells, and a right periodic side has a left periodic partner.)", "quantifier": "all arrays, ghost widths, boundary specifications and contents of freshly allocated memory", "why_tests_cant": "uninitialised memory is usually zero or stale but plausible data in a test run, so a test passes by luck", "anchors": ["fvhoe/boundary_conditions.py:88-107", "fvhoe/boundary_conditions.py:306-402"]}
{"id": "C58", "title": "Runs with slope limiting complete", "statement": "With a known limiter, NAD range and NAD mode and boundary conditions that define every ghost cell, a run with a posteriori slope limiting takes all its steps without any exception and keeps the shape of the state, whatever the data; with convex blending in one dimension, and in two unless z is a periodic one of the two axes. (Refuted for convex blending in three dimensions: as soon as a cell is troubled the run raises.)", "quantifier": "all configurations, data, integrators and numbers of steps", "why_tests_cant": "shape errors depend on the combination of degrees, dimensions, ghost widths, detection options and on whether trouble occurs at all", "anchors": ["fvhoe/solver.py: revise_fluxes", "fvhoe/solver.py: log_troubles", "fvhoe/slope_limiting.py: detect_troubled_cells", "fvhoe/slope_limiting.py: broadcast_to_troubled_interfaces"]}
{"id": "C59", "title": "The Riemann solvers are the textbook fluxes", "statement": "For any two primitive states, direction and variable, llf returns the Rusanov flux 1/2 (F(wl) + F(wr)) - 1/2 max(|v|+c) (U(wr) - U(wl)), hllc returns Toro's HLLC flux with Davis' wave speeds (the flux of the undisturbed or of the star state on the side the face lies on), and advection_upwind returns the conserved state of the side the left velocity comes from, times that side's velocity.", "quantifier": "all real states, directions, rows, gamma and sound-speed floors", "why_tests_cant": "a wrong sign of the dissipation or a wrong side keeps consistency, symmetry and conservation, and shows only as instability or loss of accuracy", "anchors": ["fvhoe/riemann_solvers.py: advection_upwind", "fvhoe/riemann_solvers.py: llf", "fvhoe/riemann_solvers.py: hllc"]}
{"id": "C60", "title": "The right-hand side is the finite-volume flux balance", "statement": "Whenever the right-hand side is evaluated without an exception it equals, in every cell and row, minus the sum over the active axes of the difference of the two face fluxes divided by the cell size. The face flux is the average, with the tabulated weights over the two transverse directions, of the numerical flux between the upper trace of the cell below and the lower trace of the cell above; the traces are centred stencils of averaged primitive variables; these are computed from cell averages extended by the boundary conditions at the time the solver carries. With limiting the flux is (1 - theta) times this flux plus theta times the flux of degree at most one with limited slopes, with theta given by the troubled cells. The time step is the fixed one or CFL times the smallest cell size over the largest signal speed among all cells and ghost cells the fluxes can reach.", "quantifier": "all configurations with tabulated degrees and boundary conditions that define the ghost cells, all states, all histories of the solver", "why_tests_cant": "the code reaches these values through padded arrays, trimming and six orders of sweeps; an offset by one cell or a swapped axis changes values by the size of the truncation error only", "anchors": ["fvhoe/solver.py: hydrodynamics", "fvhoe/solver.py: hydrofluxes", "fvhoe/solver.py: euler_equation", "fvhoe/solver.py: revise_fluxes", "fvhoe/solver.py: interpolate_primitives_from_conservatives"]}
{"id": "C61", "title": "Mirror images of runs", "statement": "Without slope limiting, reflecting the initial state in a plane normal to an axis and exchanging the boundary types at the two ends of that axis reflects the whole run: same times, same step count, reflected states and snapshots, or the same exception (LLF for any data; HLLC as long as the traces have positive density and non-negative pressure).", "quantifier": "all states, sizes, degrees 0..8, dimensions, copying boundary types, integrators, downbeats", "why_tests_cant": "a test mirrors a few states; asymmetries of a stencil, of an upwind choice or of a ghost index show up only for particular data, degrees and axes", "anchors": ["fvhoe/solver.py", "fvhoe/fv.py", "fvhoe/stencils.py", "fvhoe/riemann_solvers.py", "fvhoe/boundary_conditions.py"]}
{"id": "C62", "title": "Polynomial densities are transported exactly", "statement": "In a gas of uniform velocity and pressure whose density is a positive polynomial of at most the degrees of the scheme, and whose cells hold exact cell means, the right-hand side equals minus the exact mean of the divergence of the Euler flux in every cell whose stencil lies inside the grid. If the total degree is at most the order of the integrator and the density changes by less than its value over a step, one step, and n steps of fixed size, leave in such cells the exact means of the density carried along for the elapsed time.", "quantifier": "all configurations with tabulated degrees 0..8 per axis in one to three dimensions, all three Riemann solvers, all four integrators, all velocities, pressures, concentrations and polynomials", "why_tests_cant": "a test sees an error that falls at some rate for one profile; whether the composition of interpolation, Riemann solver, transverse quadrature and integrator has no error at all on polynomials cannot be seen from rounded runs", "anchors": ["fvhoe/solver.py: hydrodynamics", "fvhoe/solver.py: interpolate_primitives_from_conservatives", "fvhoe/fv.py", "fvhoe/stencils.py", "fvhoe/ode.py: euler, ssprk2, ssprk3, rk4"]}
{"id": "C63", "title": "The timer's report", "statement": "The report of a timer, after any calls, has a heading, a rule and one line per category in the order they were added; rule and lines have the same width, with the name flush left and the time flush right; the heading stands over its columns exactly when some category has at least eight letters, which holds for the solver (refuted in general). to_dict lists the same categories with rounded times.", "quantifier": "all timers, categories and sequences of calls; any formatting of the times", "why_tests_cant": "alignment depends on the longest name and the widest time, which grow at run time", "anchors": ["fvhoe/timer.py: Timer.report", "fvhoe/timer.py: Timer.to_dict", "fvhoe/solver.py: __init__"]}
{"id": "C64", "title": "The recorded commit", "statement": "get_commit_details records hash, author, date and branch as git prints them if the author's name has no bar and the branch neither bar nor comma; the claim fails for such names, for a detached HEAD (recorded as branch HEAD), when git is not installed and when git prints no ref names (the constructor raises).", "quantifier": "all hashes, authors, dates, branches and lists of further ref names", "why_tests_cant": "a test runs in one repository, on one branch, by one author", "anchors": ["fvhoe/ode.py: ODE.get_commit_details", "fvhoe/ode.py: ODE.__init__"]}
{"id": "C65", "title": "Constructing boundary conditions", "statement": "A constructed BoundaryCondition has the types and values given, single ones standing for both ends; NumPy arrays are registered in the array manager under names that were free and replaced by the manager's arrays with the same contents; slab coordinates are registered and their thickness recorded; nothing else in the manager changes. reset_value changes one end only. Refuted: that the arrays are copies, that several boundary conditions can share a manager, that a failed construction leaves no trace, and that to_dict tells boundary conditions apart.", "quantifier": "all fields, managers (NumPy or CuPy), memories and slab dictionaries", "why_tests_cant": "aliasing and leftover names show up only when the caller's arrays are changed later or a construction is repeated", "anchors": ["fvhoe/boundary_conditions.py: BoundaryCondition.__post_init__", "fvhoe/boundary_conditions.py: BoundaryCondition.reset_value", "fvhoe/boundary_conditions.py: BoundaryCondition.to_dict"]}
{"id": "C66", "title": "A call of integrate", "statement": "integrate does what its loop does, takes complete steps and snapshots only, also when it raises, and leaves the object ready for another call when it does not; until a time, the time spent in SNAPSHOTS is part of TOTAL; the progress bar appears only on request, shows the time after each step and is closed at the end. (Refuted: after an exception in a run every further call raises and takes no step, whatever its arguments, because TOTAL is still being timed; the bar is not closed when the call raises; a call for a number of steps shows a bar even with progress_bar=False, and its TOTAL excludes SNAPSHOTS; downbeats in a tuple, which is an iterable as documented, raise TypeError; with neither T nor n, or without an integrator, the call raises with TOTAL running.)", "quantifier": "all objects, steppers, arguments, clocks and exceptions", "why_tests_cant": "exceptions can come from any step of any run", "anchors": ["fvhoe/ode.py: ODE.integrate", "fvhoe/ode.py: ODE.progress_bar_action", "fvhoe/ode.py: ODE.take_step"]}
{"id": "C67", "title": "Positivity with the default Riemann solver", "statement": "Between any two gases both middle states of the HLLC solver have positive density and internal energy, and a first-order run with HLLC and forward Euler steps keeps density and pressure positive, also in its snapshots, if CFL times the number of active axes is at most 1/4. (Refuted for the default CFL of 0.8 in one dimension: three cells of gas, all arguments the defaults, and one step gives a snapshot with a negative pressure, without any exception.)", "quantifier": "all gas states, meshes, closed boundaries, run lengths and clocks; gamma > 1; positive floor", "why_tests_cant": "the states that lose pressure are rare: a few in ten thousand random ones", "anchors": ["fvhoe/riemann_solvers.py: hllc", "fvhoe/solver.py: EulerSolver.hydrodynamics", "fvhoe/hydro.py: hydro_dt"]}
{"id": "C68", "title": "Boundary values that depend on time", "statement": "Every stage of a time step, of any integrator, sees the prescribed boundary values of the time at which the step starts. If the sides prescribe the exact cell means of a gas of uniform velocity and pressure carrying a polynomial density, the right-hand side is exact in every cell, boundary cells included, and forward Euler runs with a density of total degree at most 1 are exact in every cell. (Refuted for a method with stages: in the same situation one step of ssprk2 is wrong in every cell of a two-cell duct, because its second stage should see the boundary a step later; rhs evaluations receive a time f(t, u) but ignore it.)", "quantifier": "all number systems, configurations, integrators and states for the first part; all meshes, degrees, velocities, clocks and run lengths for the exactness", "why_tests_cant": "the defect lowers the order near a boundary without any visible failure; prescribed values are functions of time and space", "anchors": ["fvhoe/solver.py: EulerSolver.f", "fvhoe/solver.py: EulerSolver.interpolate_primitives_from_conservatives", "fvhoe/boundary_conditions.py: BoundaryCondition.apply", "fvhoe/ode.py: ODE.ssprk2"]}
{"id": "C69", "title": "Runs do not depend on the units", "statement": "In exact arithmetic, without slope limiting, converting a configuration and its initial state to other units of length L, speed V and density D (bounds, fixed time step, sound-speed floor, prescribed boundary values, end time and snapshot times included) yields the same run in the other units: same number of steps, same exceptions, every time multiplied by L/V, every row of the state and of the snapshots multiplied by its unit. Every configuration has such a conversion. The same holds with slope limiting for the moncen limiter or the fall-back without slopes, when the bounds of the physical admissibility test are converted too and the smooth-extrema detector is off or trouble is forced. It fails for the minmod limiter, whose denominator has an absolute floor of 1e-16, and for the smooth-extrema detector, whose tolerance is absolute: whether a parabola counts as smooth depends on the units. It also fails when the floor of the squared sound speed is left as it is: whatever the floor, cold gas at rest then takes its first step with the wrong length in any other unit of speed.", "quantifier": "all positive L, V, D, all tabulated configurations with defined ghost cells, all integrators, Riemann solvers, states, end times, step counts and snapshot times", "why_tests_cant": "tests run a few literal problems; scale covariance ranges over a three-parameter family of problems and every branch of the Riemann solvers and of the integration loop", "anchors": ["fvhoe/solver.py: EulerSolver.hydrodynamics", "fvhoe/solver.py: EulerSolver.hydrofluxes", "fvhoe/hydro.py: hydro_dt", "fvhoe/riemann_solvers.py: hllc", "fvhoe/riemann_solvers.py: llf", "fvhoe/ode.py: ODE.integrate", "fvhoe/boundary_conditions.py: BoundaryCondition.apply", "fvhoe/smooth_extrema_detection.py: compute_1d_smooth_extrema_detector"]}
{"id": "C70", "title": "A speed along an ignorable axis is carried along", "statement": "In exact arithmetic, with a fixed time step, boundaries that copy cells of the domain and no slope limiting: adding a constant speed W along an ignorable (one-cell, degree-0) axis to the initial gas adds it to the gas of the whole run. Clock, history, number of steps and snapshot times are the same; the momentum along that axis changes by W times the density and the energy accordingly, all other rows are the same, as long as no vacuum occurs at the cell centres the fluxes look at. With time steps from the CFL condition this fails: the velocity along ignorable axes counts in the condition, so that one-dimensional gas sliding along y takes smaller steps than the same gas at rest.", "quantifier": "all real W, all ignorable axes, tabulated configurations, degrees, Riemann solvers, integrators, states without vacuum, end times and snapshot times", "why_tests_cant": "tests run a few literal problems; the invariance ranges over all speeds and states, and every branch of the Riemann solvers", "anchors": ["fvhoe/solver.py: EulerSolver.hydrodynamics", "fvhoe/solver.py: EulerSolver.hydrofluxes", "fvhoe/solver.py: EulerSolver.interpolate_primitives", "fvhoe/hydro.py: hydro_dt", "fvhoe/hydro.py: compute_primitives", "fvhoe/riemann_solvers.py: hllc", "fvhoe/riemann_solvers.py: llf", "fvhoe/riemann_solvers.py: advection_upwind"]}
{"id": "C71", "title": "Stopping and continuing", "statement": "Two calls of integrate on one object have the effect of one: a steps and then b steps are a+b steps; with exact=False running until T1 and then until T2 is running until T2; with exact=True it is running until T2 with T1 among the downbeats, and either side succeeds if the other does. Time, state, time stamps, step count and the remaining attributes are the same; the snapshot between the calls is taken twice. (Refuted part: with exact=True and T1 not declared as a downbeat, the results differ.)", "quantifier": "for all right-hand sides that propose positive steps (all steps at all for exact=False and for step counts), integrators, snapshot functions, times, downbeats, log_every_step and objects; for all solver configurations that step forward", "why_tests_cant": "tests run a few calls with one right-hand side; the equality is over every sequence of truncated steps and every order and repetition of downbeats", "anchors": ["fvhoe/ode.py: ODE.integrate", "fvhoe/ode.py: ODE.take_step", "fvhoe/ode.py: ODE.snapshot"]}
{"id": "C72", "title": "Bounds of passive scalars", "statement": "In a first-order run (degree 0 in every direction, forward Euler steps, CFL time steps) the concentration of a passive scalar stays between any two bounds it satisfies in every cell at the start, in the final state and in every snapshot: with the LLF flux if the CFL number times the number of active axes is at most 1, with the HLLC flux if it is at most 1/4. The HLLC flux of a scalar is the mass flux times the concentration on the side the mass comes from. (Refuted part: with quadratic reconstruction and no slope limiting a uniform flow with concentrations 0 and 1 leaves [0, 1] in one step.)", "quantifier": "for all bounds, scalars, grids, walls, periodic and outflow sides, states with positive density and internal energy, end times, downbeats and fuel", "why_tests_cant": "tests look at a few profiles; the bound is over all states, and the sign of the mass flux has to agree with the side the scalar is taken from in every wave configuration", "anchors": ["fvhoe/riemann_solvers.py: hllc", "fvhoe/riemann_solvers.py: llf", "fvhoe/solver.py: EulerSolver.f"]}
{"id": "C73", "title": "Data that do not vary along an axis", "statement": "With a fixed time step, boundaries that copy cells and no slope limiting, a run whose initial state repeats one layer of cells along an axis without reflecting sides is, layer by layer, the run with that single layer and degree 0 along that axis: same times, steps, states and snapshots, or the same exception. (Refuted part: with CFL time steps the multi-dimensional run takes shorter steps, because the speed of sound is counted once per active axis.)  With slope limiting the same is true of the run with the smooth-extrema detector off: where that detector is on, with a positive tolerance and an active idle axis, it never takes an extremum of such data for a smooth one, so it has no effect on the run.", "quantifier": "for all axes, numbers of cells and degrees along the axis, grids and degrees along the other axes, states, Riemann solvers, integrators, end times, downbeats and fuel", "why_tests_cant": "tests compare a few one- and two-dimensional results up to a tolerance; the equality is over all states and all combinations of degrees, and needs every interpolation and flux average along the idle axis to be exact on constants", "anchors": ["fvhoe/solver.py: EulerSolver.f", "fvhoe/solver.py: EulerSolver.hydrofluxes", "fvhoe/fv.py: transverse_reconstruction", "fvhoe/hydro.py: hydro_dt"]}
{"id": "C74", "title": "A reflecting wall is a plane of symmetry", "statement": "A run next to a reflecting wall at the lower end of an axis is the upper half of the run in the doubled domain whose initial state is continued symmetrically behind the wall (normal momentum with the opposite sign) and whose new lower end has the boundary type of the upper end: the same times, symmetric states and snapshots, or the same exception. Holds without slope limiting for the LLF solver for every state, and for the HLLC solver as long as the traces are physical. It is false for the upwind solver, which looks only at the left velocity. With slope limiting (every limiter, with or without convex blending) the same holds if trouble is forced, or if the smooth-extrema detector is off, the normal velocity is not looked at or has a local relative range, and the bounds in force are not bounds of that velocity. The same holds of a wall at the upper end of an axis whose lower end is not periodic, with the domain continued beyond the wall: with LLF for every state, with HLLC as long as the traces are physical, both with and without slope limiting.", "quantifier": "all configurations with tabulated degrees and copying boundaries, all axes, integrators, stopping rules, snapshot times and states", "why_tests_cant": "tests/test_sedov_reflection_symmetry.py compares one blast wave at one resolution to a tolerance", "anchors": ["fvhoe/boundary_conditions.py: BoundaryCondition.apply", "fvhoe/solver.py: EulerSolver.hydrofluxes", "fvhoe/riemann_solvers.py: llf, hllc, advection_upwind"]}
{"id": "C75", "title": "Mirror symmetry of runs with slope limiting", "statement": "With slope limiting on (every limiter, convex blending or not, forced trouble or detection with the default options but without smooth-extrema detection), the LLF solver and boundaries that copy cells, the run on the mirror image of the initial state along an axis, with the boundaries at the two ends exchanged, is the mirror image of the run: same times and steps, mirrored states and snapshots, or the same exception. In particular symmetric data stay symmetric. It is false when numerical admissibility uses the absolute range and looks at the velocity along that axis, because the bounds of a negative velocity are then moved inwards. (The smooth-extrema detector itself is not mirror symmetric, C26.)  The same holds with the HLLC solver (the default) for the runs whose evaluated states all pass a test of their cells that guarantees positive density and non-negative pressure in the traces of the scheme and of its fallback (of the fallback alone, if trouble is forced).", "quantifier": "all configurations with tabulated degrees and copying boundaries, all axes, integrators, stopping rules, snapshot times and states", "why_tests_cant": "a test compares a few runs at one resolution to a tolerance; the detector decides by comparisons of floating-point numbers", "anchors": ["fvhoe/slope_limiting.py: detect_troubled_cells, broadcast_to_troubled_interfaces, MUSCL_interpolations", "fvhoe/solver.py: EulerSolver.hydrodynamics, EulerSolver.revise_fluxes"]}
{"id": "C76", "title": "The slope-limited right-hand side in full", "statement": "With slope limiting on, the right-hand side can be evaluated for every state of the right shape, and it is the balance of face fluxes (1 - theta) F_high + theta F_low, where F_high is the flux of the given degrees and F_low that of the limited scheme of degree one. A cell is troubled if and only if trouble is forced, or the explicit Euler step with the unlimited fluxes (with boundary conditions applied anew) violates the last entry of the physical bounds, or that step takes a selected primitive variable out of the range of the cell and its neighbours before the step (local or global tolerance, relative or absolute) and, when smooth-extrema detection is on, the result is not smooth there along some active axis. theta is 1 on the faces of troubled cells and 0 elsewhere, or with convex blending the largest weight (1, 3/4, 1/2, 1/4) a troubled cell gives to the two cells at the face. Hence a troubled cell follows the limited scheme alone, and without convex blending a cell without troubled neighbours follows the high-degree scheme alone.", "quantifier": "all states, all configurations with tabulated degrees up to 8, all boundary conditions that define the ghost cells, all detector options the code knows, in real arithmetic (convex blending: one or two active axes)", "why_tests_cant": "The repository's tests run a few problems and compare with thresholds; they cannot establish that the composition of fluxes, candidate step, detector, smoothness test, broadcast and mixture equals a formula for every state and configuration.", "anchors": ["fvhoe/solver.py: EulerSolver.hydrodynamics, hydrofluxes, revise_fluxes, euler_equation", "fvhoe/slope_limiting.py: detect_troubled_cells, broadcast_to_troubled_interfaces, MUSCL_interpolations", "fvhoe/smooth_extrema_detection.py"]}
{"id": "C77", "title": "Transport by a uniform velocity keeps the density within its bounds", "statement": "With slope limiting on and trouble forced everywhere, the upwind solver, boundaries that copy cells (periodic, free, outflow, reflective) and a gas that moves with one velocity V parallel to the reflecting sides: if a step crosses at most 2/3 of a cell with minmod slopes, or 1/2 of a cell with monotonised central slopes (a fixed step; or the CFL rule with CFL number at most 2/3 or 1/2, degrees at most one and a positive sound speed floor), then after any run with euler, ssprk2 or ssprk3 every cell still moves with velocity V and its density lies within the bounds of the initial density; the snapshots show the same when no degree exceeds one. With a step that crosses 4/5 of a cell (the default CFL number) and minmod slopes this is false.", "quantifier": "all initial densities with a positive lower bound, all energies and passive scalars, all velocities, all numbers of cells, degrees and axes, all run lengths and snapshot times, in real arithmetic", "why_tests_cant": "A maximum principle is a statement about every initial density and every number of steps; the repository's advection tests compare a few profiles with exact solutions to within thresholds.", "anchors": ["fvhoe/slope_limiting.py: minmod, moncen, MUSCL_interpolations", "fvhoe/riemann_solvers.py: upwind", "fvhoe/solver.py: EulerSolver.hydrodynamics, revise_fluxes, hydro_dt", "fvhoe/ode.py: euler, ssprk2, ssprk3"]}
{"id": "C78", "title": "Slope limiting acts where trouble is found and nowhere else", "statement": "A run with slope limiting in which no evaluated state has a troubled cell has the times, steps, states and snapshots of the run without slope limiting; in particular, when no variable is watched and no bounds are set, slope limiting has no effect on any run. At the other extreme, with forced trouble and a fixed time step, the states of a run do not depend on the polynomial degrees beyond 1: they are those of the run of degree one with the same limiter. Whatever cells are flagged, slope limiting also leaves a run unchanged when its fall-back scheme is the scheme itself: degrees of at most one with slope_limiter None (central differences), or degrees zero with any limiter.", "quantifier": "for all grids, degrees, boundary conditions that define the ghost cells, Riemann solvers, integrators, limiters, blending options (convex blending on boxes on which it works), states, end times, downbeats and fuel", "why_tests_cant": "a test compares two runs on one grid; that the blended fluxes reduce exactly to one of the two families, ghost cells and candidate steps included, has to hold for every state and every degree", "anchors": ["fvhoe/solver.py: EulerSolver.f", "fvhoe/solver.py: EulerSolver.revise_fluxes", "fvhoe/slope_limiting.py: detect_troubled_cells", "fvhoe/slope_limiting.py: broadcast_to_troubled_interfaces"]}
{"id": "C79", "title": "Corner blasts and their mirror images", "statement": "A run in a domain with reflecting walls at the lower ends of some axes is, cell by cell, the upper part of the run in the domain continued symmetrically behind all these walls: with the LLF solver for any state, with or without slope limiting; with the HLLC solver at degree zero or with forced slope limiting as long as the cells stay physical. In particular the Sedov blast started in the corner with walls is the upper part of the Sedov blast started in the centre of the full domain. Data that do not distinguish some of the axes never come to distinguish them, and the blast in the corner is such data.", "quantifier": "for all numbers of cells, degrees, sets of walls, dimensions, energies, integrators, end times, downbeats and fuel", "why_tests_cant": "tests/test_sedov_reflection_symmetry.py compares two runs of 16 cells per axis for two sets of dimensions, on one duration, up to rounding", "anchors": ["tests/test_sedov_reflection_symmetry.py", "fvhoe/initial_conditions.py: sedov_blast", "fvhoe/boundary_conditions.py: BoundaryCondition", "fvhoe/solver.py: EulerSolver.f"]}
{"id": "C80", "title": "Limited transport does not increase the total variation", "statement": "With one active axis, a uniform velocity, the upwind solver, forced slope limiting and steps that cross at most 2/3 of a cell (minmod) or half a cell (moncen), no run with euler, ssprk2 or ssprk3 increases the total variation of the density, in the final state and (at degree at most one) in the snapshots. Without slope limiting, or at the default CFL number, it can grow.", "quantifier": "for all numbers of cells, degrees, velocities, densities, axes, ring or open ends, end times, downbeats, truncated steps and fuel", "why_tests_cant": "a test looks at one profile after one duration; that oscillations cannot build up is a statement about every profile and every number of steps", "anchors": ["fvhoe/solver.py: EulerSolver.revise_fluxes", "fvhoe/slope_limiting.py: minmod", "fvhoe/slope_limiting.py: moncen", "fvhoe/riemann_solvers.py: advection_upwind", "fvhoe/ode.py: ODE.ssprk3"]}
{"id": "C81", "title": "Boundary conditions of idle axes have no effect", "statement": "What is said about the ends of an axis with one cell and degree zero has no effect on any run: two sets of boundary conditions that agree on the active axes give the same final state, snapshots, numbers of steps and exceptions, bit for bit in any arithmetic, with or without slope limiting and blended fluxes. On an axis with more cells they matter.", "quantifier": "for all configurations, boundary conditions (also unknown or incomplete ones on the idle axes), states, heaps, integrators, end times and fuel, in every arithmetic", "why_tests_cant": "the tests vary the conditions of idle axes in a few cases and compare with a tolerance; that nothing on the way reads them is a statement about all runs", "anchors": ["fvhoe/boundary_conditions.py: BoundaryCondition.apply", "fvhoe/slope_limiting.py: broadcast_to_troubled_interfaces", "fvhoe/solver.py: EulerSolver.interpolate_primitives_from_conservatives", "fvhoe/solver.py: EulerSolver.revise_fluxes"]}
{"id": "C82", "title": "Limited runs keep the density positive", "statement": "With the LLF solver, forced slope limiting (minmod or moncen) and a fixed time step in which the signals of the reconstruction cross less than half a cell, added over the active axes, runs with euler, ssprk2 and ssprk3 keep the density positive in the final state and (at degree at most one) in the snapshots, whatever the pressure. At the default CFL number 0.8 a single such step can make the density negative in one dimension.  The pressure has no such bound: a computed binary64 step that is short enough keeps all densities positive and leaves a negative total energy.", "quantifier": "for all numbers of cells, degrees, states of positive density, boundary conditions that copy cells, end times, downbeats, truncated steps and fuel", "why_tests_cant": "tests run a few blasts and tubes; that no state can be emptied is a statement about all states and all numbers of steps", "anchors": ["fvhoe/solver.py: EulerSolver.revise_fluxes", "fvhoe/slope_limiting.py: minmod", "fvhoe/slope_limiting.py: moncen", "fvhoe/riemann_solvers.py: llf", "fvhoe/ode.py: ODE.ssprk3"]}
{"id": "C83", "title": "The place of the domain and the extent of idle axes", "statement": "A run depends on the bounds of the domain only through its extents, so moving the domain has no effect, bit for bit (the initial state and the boundary data being given). Along an axis with one cell and degree zero the extent has no effect either when the step is fixed, and none in exact arithmetic with steps from the CFL condition as long as that extent is at least the smallest cell of the other axes. A shorter one does have an effect: min(self.h) includes the idle axes, so such a run takes more steps and ends in another state; refuted by a computed binary64 run (one step against two to the same time).", "quantifier": "all arithmetics, configurations, integrators, step counts, end times, snapshot times, memory contents and initial states (the third theorem: real arithmetic; the refutation: one binary64 run)", "why_tests_cant": "the tests use the default (0, 1) for every idle axis, so the term never binds; equality of whole runs for all domains is not testable", "anchors": ["fvhoe/solver.py:220-254", "fvhoe/solver.py:505-516", "fvhoe/solver.py:734-751"]}
{"id": "C84", "title": "What the trouble log says about the last step", "statement": "After a run of k limited Euler steps the log of troubled cells is positive exactly at the cells where the candidate of the last step, i.e. the state after k - 1 steps advanced by the unlimited fluxes, fails the detector (forced trouble, the last physical bound, or an overshoot of the neighbourhood range that is not smooth), and is zero elsewhere: nothing is left over from earlier steps. If it is zero everywhere, the last step was exactly the unlimited Euler step, the new state itself passes every criterion of the detector against the state before, and so do the primitive averages in the last snapshot. If it is not, nothing follows: the fallback is applied once and not checked, and refuted by a computed binary64 run, a cell flagged for a negative density under the physical bound 0 still has a negative density after the limited step.  Runs to an end time differ: f returns dt before _hit_target cuts it, so the detector judges the uncut step; in a computed binary64 run a cell is flagged for a negative density, and the limiter changes the result, although the cut step without limiting keeps every density positive.", "quantifier": "all configurations with tabulated degrees, closed boundary conditions (periodic, outflow, reflective), slope limiter and options accepted by the solver, all step counts, snapshot settings, memory contents and initial states, in exact arithmetic (the refutation: one binary64 run)", "why_tests_cant": "the tests never read the trouble log of a run; the statement ties it to the states of all runs", "anchors": ["fvhoe/solver.py:653-732", "fvhoe/solver.py:794-838", "fvhoe/ode.py:245-255"]}
{"id": "C85", "title": "Uniform flow and the trouble detector", "statement": "In a limited run from a uniform state, which the run preserves (C37), the log of troubled cells after any number of Euler steps is positive in every cell or zero in every cell. It is positive exactly if trouble is forced, or the state violates the last physical bound, or the admissible range is absolute and a variable the detector looks at is negative (with a positive tolerance): the bounds (1 - eps) m and (1 + eps) M exclude m itself when it is negative. Smooth-extrema detection does not prevent it, since it takes constant data for rough. So with the absolute range a gas flowing steadily to the left through a periodic box is trouble everywhere and at every step, and the same gas flowing to the right never; with the relative range neither is.", "quantifier": "all configurations with tabulated degrees, closed boundaries along which the gas does not run into walls, known options, all uniform states, step counts, memory contents and snapshot settings, in exact arithmetic", "why_tests_cant": "the tests do not look at the trouble log; the statement is an equivalence over all states and options", "anchors": ["fvhoe/slope_limiting.py:87-244", "fvhoe/solver.py:653-732"]}
