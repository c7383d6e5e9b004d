#!/usr/bin/env python3
"""Writes ../properties.jsonl.  The list below is the source of truth."""
import json, os
P = []
import atexit
HERE = os.path.dirname(os.path.abspath(__file__))
def _write():
    with open(os.path.join(HERE, "..", "properties.jsonl"), "w") as f:
        for x in P:
            f.write(json.dumps(x, ensure_ascii=False) + "\n")
    print(len(P))
atexit.register(_write)
def p(id, title, statement, quantifier, why, anchors):
    P.append(dict(id=id, title=title, statement=statement, quantifier=quantifier,
                  why_tests_cant=why, anchors=anchors))
S = "src/disc_solver/"
UNC = "The state space is a continuum of real parameters; a unit test samples isolated points (the repo's test_odes.py tests one vector of sevens)."

p("C01", "ODE right-hand side satisfies the continuity equation",
  "Whenever the ODE right-hand side reports success for a state with nonzero polar velocity (not sonic) and nonzero density outside Taylor mode, the returned derivatives make the steady self-similar continuity equation (5/2-2β)v_r + v_θ' + v_θ/ρ (ρ' - ρ tan θ) vanish exactly, β=5/4-γ, for both the B_φ' and the E_r formulation and with or without diffusivity derivatives.",
  "all angles, all 11-component states, all γ, a_0, Kepler norms and flag combinations", UNC,
  [S+"solve/solution.py:ode_system", S+"analyse/validate_plot.py:validate_continuity"])
p("C02", "ODE right-hand side keeps the field solenoidal",
  "The returned B_θ' satisfies B_θ' = (β-2)B_r + B_θ tan θ in every mode (including Taylor mode).",
  "all angles, states, parameters, flags", UNC,
  [S+"solve/solution.py:ode_system", S+"analyse/validate_plot.py:validate_solenoid"])
p("C03", "ODE right-hand side satisfies radial momentum",
  "Outside Taylor mode the returned derivatives make the radial momentum residual (as computed by the validation command) zero.",
  "all angles, states with nonzero v_θ and ρ, nonnegative Kepler norm, all parameters and flags", UNC,
  [S+"solve/solution.py:ode_system", S+"analyse/validate_plot.py:validate_radial_momentum"])
p("C04", "ODE right-hand side satisfies azimuthal momentum",
  "Outside Taylor mode the returned derivatives make the azimuthal momentum residual zero.",
  "all angles, states with nonzero v_θ and ρ, all parameters and flags", UNC,
  [S+"solve/solution.py:ode_system", S+"analyse/validate_plot.py:validate_azimuthal_mometum"])
p("C05", "ODE right-hand side satisfies polar momentum",
  "Outside Taylor mode and away from v_θ=±1 the returned derivatives make the polar momentum residual zero.",
  "all angles, states with nonzero v_θ and ρ and v_θ²≠1, all parameters and flags", UNC,
  [S+"solve/solution.py:ode_system", S+"analyse/validate_plot.py:validate_polar_momentum"])
p("C06", "ODE right-hand side keeps the azimuthal electric field zero",
  "The returned B_r' makes the azimuthal component of the electric field computed from the state vanish (equivalently the polar induction equation of the repo's ODE test holds).",
  "all angles, states with nonzero magnetic field and nonzero effective diffusivity, all modes", UNC,
  [S+"solve/deriv_funcs.py:deriv_B_r_func", S+"solve/j_e_funcs.py:E_φ_func", S+"analyse/validate_plot.py:validate_E_φ"])
p("C07", "The validation command's polar induction residual vanishes on exact derivatives",
  "For derivatives produced by the ODE right-hand side itself the polar-induction residual printed by the validation command is zero.",
  "all states and parameters", UNC,
  [S+"analyse/validate_plot.py:validate_polar_induction", S+"solve/deriv_funcs.py:deriv_B_r_func"])
p("C08", "Diffusivities track B²/ρ along a whole solution",
  "Along any differentiable solution of the ODE system with diffusivity derivatives enabled, η_X - η_X0·B²/ρ is constant for X in O, A, H; starting from the midplane state built from an input (B=1, ρ=1) it is identically zero, so the three diffusivities keep their initial ratios; with diffusivity derivatives disabled they are constant.",
  "all differentiable solution curves on an interval, all parameters", "Quantifies over whole solution trajectories of a differential system.",
  [S+"solve/deriv_funcs.py:deriv_η_skw_func", S+"solve/solution.py:ode_system"])
p("C09", "Field-direction derivatives and the auxiliary A are true derivatives",
  "For any differentiable nonvanishing field and diffusivity curves, the returned unit-vector derivatives are the derivatives of B/|B| (hence orthogonal to it) and A is the derivative of C.",
  "all differentiable curves B(θ), η(θ) and all θ where the denominators are nonzero", "A derivative is a limit statement over all curves.",
  [S+"solve/deriv_funcs.py:B_unit_derivs", S+"solve/deriv_funcs.py:A_func", S+"solve/deriv_funcs.py:C_func"])
p("C10", "E_r formulation is self-consistent",
  "With the electric-field formulation selected, the radial electric field recomputed from the state and the returned derivatives equals the stored E_r.",
  "all states and parameters with nonzero denominators", UNC,
  [S+"solve/deriv_funcs.py:deriv_B_φ_func", S+"solve/deriv_funcs.py:Z_5_func", S+"solve/j_e_funcs.py:E_r_func"])
p("C11", "B_φ'' formulation obeys the steady induction law",
  "Along every solution in the B_φ' formulation the radial electric field computed from the state satisfies dE_r/dθ = (γ-3/4) E_θ.",
  "all differentiable solutions, all parameters", "Derivative along every solution; the repo's own numeric test of it is a tautology.",
  [S+"solve/deriv_funcs.py:dderiv_B_φ_soln", S+"solve/deriv_funcs.py:deriv_E_r_func"])
p("C12", "Generalised Ohm's law dissipates energy and Hall does no work",
  "For a unit field direction, the fluid-frame electric field E' computed by the E functions satisfies E'·b = η_O J·b, E'·J = η_O|J|² + η_A|J_perp|² (independent of η_H), hence E'·J ≥ 0 for nonnegative η_O, η_A.",
  "all currents, unit vectors, diffusivities", UNC,
  [S+"solve/j_e_funcs.py", S+"analyse/validate_plot.py:get_E_values"])
p("C13", "Computed current is divergence free",
  "For any twice differentiable toroidal field the current given by the J functions satisfies the self-similar divergence-free condition (γ-1/4)J_r + J_θ' - J_θ tan θ = 0.",
  "all differentiable B_φ(θ), all γ, all θ", "Quantifies over functions.",
  [S+"solve/j_e_funcs.py:J_r_func", S+"solve/j_e_funcs.py:J_θ_func"])
p("C14", "Midplane boundary values are regular",
  "The initial state built from an input makes the numerators of the radial and azimuthal momentum equations vanish at the midplane, with v_φ the larger root of the resulting quadratic, B_r'=..., E_r consistent with the E_r function; if no real v_φ exists the call fails with a solver error instead of returning a state.",
  "all inputs with nonzero Ohmic+ambipolar diffusivity and nonzero Alfvén number", UNC,
  [S+"solve/config.py:define_conditions", S+"solve/config.py:v_φ_boundary_func", S+"solve/config.py:B_φ_prime_boundary_func", S+"solve/config.py:E_r_boundary_func"])
p("C15", "First-order Taylor coefficients equal the ODE at the midplane",
  "At θ=0 and the midplane initial state, the ODE right-hand side in Taylor mode returns exactly the first-order Taylor coefficients used by the Taylor jump, in both formulations.",
  "all inputs with nonzero denominators", UNC,
  [S+"solve/deriv_midplane.py:get_taylor_first_order", S+"solve/solution.py:ode_system"])
p("C16", "Third-order Taylor coefficients are assigned to their own variable",
  "The third-order coefficient used for each variable is the third derivative computed for that variable.",
  "all parameters", UNC, [S+"solve/deriv_midplane.py:get_taylor_third_order"])
p("C17", "Taylor jump evaluates the cubic Taylor polynomial",
  "The state produced by the Taylor jump is the polynomial whose value and first three derivatives at θ=0 are the initial state and the first, second and third order coefficients.",
  "all coefficient vectors and stop angles", UNC, [S+"solve/solution.py:taylor_jump", S+"solve/solution.py:taylor_solution"])
p("C18", "After the Taylor start the ODE integration begins where the Taylor part stopped",
  "The angle at which the main integration starts is the angle at which its starting state was computed.",
  "all angle grids and stop angles", "Quantifies over all grids.", [S+"solve/solution.py:taylor_jump", S+"solve/solution.py:taylor_solution"])
p("C19", "The sonic jump lands on the requested velocity",
  "The jump across the sonic point moves the state along its tangent so that v_θ increases by exactly before+after; every other component moves by its derivative times the same angle step, and the continued angle grid is strictly increasing and starts at the landing angle when the angular scale is one.",
  "all states with nonzero v_θ', all increasing grids", UNC, [S+"solve/solution.py:jump_across_sonic"])
p("C20", "Isothermal shock jump conserves mass and momentum flux",
  "The post-shock state conserves ρ v_θ and ρ(v_θ²+1), maps supersonic to subsonic and back, is an involution, and leaves every other component unchanged.",
  "all states with nonzero v_θ", UNC, [S+"solve/shock.py:get_shock_modified_initial_conditions"])
p("C21", "MHD wave speeds are real and ordered",
  "For positive density and nonzero field the three squared wave speeds are real with 0 ≤ slow ≤ Alfvén ≤ fast, slow ≤ c² ≤ fast, slow+fast = v_a²+c², slow·fast = v_a²c²cos²ψ; therefore a point that is super-fast is super-Alfvénic and super-slow.",
  "all states and sound speeds", UNC, [S+"critical_points.py:mhd_wave_speeds", S+"critical_points.py:get_mach_numbers"])
p("C22", "Change to cylindrical components is a rotation",
  "Conversion of (r,θ) to (R,z) components preserves length and scalar products, is invertible, is the identity in the midplane and composes by adding angles.",
  "all vectors and angles", UNC, [S+"utils.py:spherical_r_θ_to_cylindrical_R_z", S+"utils.py:convert_spherical_to_cylindrical"])
p("C23", "Radial rescaling is a group action preserving Mach numbers",
  "Rescaling a solution to radius 1 is the identity, rescaling twice multiplies radii, every slot of the array is written, and Alfvén/velocity ratios are unchanged; in the electric-field formulation it fails with an error.",
  "all states, positive radii and γ", UNC, [S+"utils.py:scale_solution_to_radii", S+"utils.py:convert_solution_to_vertical"])
p("C24", "Angular scaling conversions are inverse",
  "rad_to_scaled and scaled_to_rad are mutually inverse for a nonzero scale and both preserve absence (None).",
  "all angles, nonzero scales", UNC, [S+"solve/utils.py:rad_to_scaled", S+"solve/utils.py:scaled_to_rad"])
p("C25", "Solution validation accepts exactly physical solutions",
  "A solution is accepted iff the integrator reported success, and v_θ is nonnegative and nondecreasing and ρ nonnegative on the whole grid.",
  "all solution arrays, including arrays containing NaN", "Quantifies over arrays of any length.",
  [S+"solve/utils.py:validate_solution", S+"solve/stepper.py:is_solution_best"])
p("C26", "First-crossing index",
  "first_closest_index returns the least index at or past which the target value is reached from the side of the first non-NaN element, and None iff the array never reaches it.",
  "all arrays (any length, NaN allowed) and targets", "Arrays of any length.", [S+"utils.py:first_closest_index"])
p("C27", "Interpolated crossing angle lies in the crossing interval",
  "interp_for_value returns a point between the grid points that bracket the first crossing.",
  "all grids and sampled values", "Arrays of any length.", [S+"utils.py:interp_for_value", S+"critical_points.py:get_all_sonic_points"])
p("C28", "Deduplication keeps one maximal value per abscissa",
  "deduplicate_and_interpolate hands the interpolator pairwise distinct abscissae, exactly those of the input in order of first appearance, each with the maximum of its ordinates.",
  "all lists", "Lists of any length.", [S+"utils.py:deduplicate_and_interpolate"])
p("C29", "Closest value lookup",
  "get_closest_value_sorted returns the y whose x is closest to the requested x.",
  "all sorted xs", "Lists of any length.", [S+"utils.py:get_closest_value_sorted"])
p("C30", "Solution selection",
  "get_solutions returns solution \"0\" by default, the final solution for \"final\", the final solution if there is one and otherwise the highest numbered one for \"latest\", and otherwise the named one.",
  "all runs", "All histories of adding solutions.", [S+"utils.py:get_solutions"])
p("C31", "Search loop is bounded and its callbacks are exclusive",
  "The search calls the solver function at most num_attempts times, the pass callback at most once and only after a success, never steps after a success, calls the stop callback only after a stop signal, and returns None when attempts are exhausted or a step error occurs.",
  "all (stateful) callbacks and attempt bounds", "All schedules of callback outcomes.", [S+"solve/stepper.py:binary_searcher"])
p("C32", "Step sizes",
  "Whatever the sequence of solution types, the step size used at call n is the initial size until the type first differs from the first type, and is halved at that call and at every later call; the first change must come within the first max_search_steps calls, otherwise a step error.",
  "all sequences of solution types", "All histories.", [S+"solve/stepper.py:stepper_creator"])
p("C33", "Bisection of γ converges",
  "If solutions diverge exactly above a critical γ* and flip sign below it, then once a type change has occurred γ after k further steps is within (initial step)/2^k of γ*, and γ never leaves the initial bracket; for arbitrary answers γ stays within the initial step of where bisection started.",
  "all γ*, all starting values, all step counts", "All histories and real thresholds.", [S+"solve/stepper.py:step_input", S+"solve/stepper.py:stepper_creator"])
p("C34", "Stepping terminates",
  "Computing the next input always terminates.",
  "all step sizes and γ", "Termination for every input.", [S+"solve/stepper.py:step_input", S+"solve/stepper.py:solver"])
p("C35", "Stored solutions keep the input they were computed with",
  "After the stepper, or the fast crosser, asks for the next input, the input recorded in the already produced solution is unchanged.",
  "all solutions and step outcomes", "All histories of mutation.", [S+"solve/stepper.py:step_input", S+"solve/fast_crosser.py:stepper_creator"])
p("C36", "Solutions container numbering",
  "Under additions only, solutions are named 0,1,2,... in order, no stored solution is ever overwritten, and the last solution is the most recently added; an add that would overwrite fails leaving the container unchanged.",
  "all sequences of container operations", "All operation histories.", [S+"file_format/_containers.py:Solutions"])
p("C37", "Final solution is write-once",
  "A run's final solution can be set exactly once; later sets fail and leave it unchanged; finalise sets it to the last solution only if it was never set and is idempotent.",
  "all sequences of operations", "All operation histories.", [S+"file_format/_containers.py:Run"])
p("C38", "Problem log",
  "Recording problems never loses or reorders entries: after any sequence of recordings the entries under an angle are exactly those recorded under it in order; merging two logs concatenates per angle; looking up or testing membership does not change the log.",
  "all sequences of operations", "All operation histories.", [S+"file_format/_containers.py:Problems", S+"file_format/_containers.py:InternalData"])
p("C39", "Internal data concatenation and reversal",
  "Joining internal data is associative and preserves the alignment of angles, parameters and derivatives; reversing is an involution that distributes over joining in reverse order.",
  "all data of any length", "Lists of any length.", [S+"file_format/_containers.py:InternalData", S+"file_format/_containers.py:JacobianData"])
p("C40", "Initial conditions carry consistent diffusivities",
  "Every successfully constructed InitialConditions has an 11-component state whose diffusivity slots equal its diffusivity attributes; a conflicting construction fails; create_modified keeps this.",
  "all constructor argument combinations", "All inputs.", [S+"file_format/_containers.py:InitialConditions"])
p("C41", "Slice and MCMC-variable text round trip",
  "Converting a slice or MCMC variable selection to configuration text and back gives the original.",
  "all slices and selections", "Infinite value space.", [S+"file_format/_containers.py:str_to_slice", S+"file_format/_containers.py:slice_to_str", S+"file_format/_containers.py:mcmc_vars_str_to_obj", S+"file_format/_containers.py:MCMCVars"])
p("C42", "Overrides change exactly the named fields",
  "Validated overrides contain only known fields with the last value winning; an unknown field fails; applying them changes exactly the named fields of the configuration.",
  "all override lists and configurations", "Lists of any length.", [S+"solve/utils.py:validate_overrides", S+"solve/utils.py:add_overrides"])
p("C43", "Re-solving precedence of inputs",
  "Merging a stored configuration, a stored solution input and overrides gives a solution input where overridden fields come from the overrides, other fields that differ between configuration and solution come from the solution, and the rest from the configuration.",
  "all configurations, solution inputs and override sets", "All inputs.", [S+"solve/config.py:new_inputs_with_overrides"])
p("C44", "CSV comments",
  "The CSV reader yields exactly the non-comment lines in order and collects exactly the comments in order; comments and metadata written by the writer are read back; data lines are untouched.",
  "all files", "Files of any length.", [S+"solve/utils.py:CSVReaderHelper", S+"solve/utils.py:CSVWriterHelper"])
p("C45", "CSV column filtering and labels",
  "Every input row produced from CSV has the given label, only allowed columns, unchanged values, in file order, one per data row.",
  "all tables", "Tables of any size.", [S+"solve/utils.py:add_labels", S+"solve/utils.py:filter_csv_columns", S+"solve/utils.py:get_csv_inputs"])
p("C46", "Current file format round trips",
  "Dumping any configuration, solution input, run, internal data, initial conditions, solution, problem log, MCMC selection or slice and loading it with the current loader returns an equal object.",
  "all objects", "Infinite value space.", [S+"file_format/_dumpers.py", S+"file_format/_loaders.py"])
p("C47", "Every older file version still loads",
  "For each container class and each historical version, loading a group holding that version's fields succeeds and preserves the stored values, converting β to γ=5/4-β.",
  "all historical versions and stored values", "All stored contents.", [S+"file_format/_loaders.py"])
p("C48", "Use of the E_r flag is propagated on load",
  "Loading a run fills the E_r flag of its configuration and of every solution that lacks it from the run, and never overwrites a present one.",
  "all runs with any number of solutions", "Any number of solutions.", [S+"file_format/_loaders.py:_run_loader5", S+"file_format/_loaders.py:_run_loader6"])
p("C49", "MCMC keeps the best solution",
  "After any sequence of evaluated points the best solution is the first one attaining the maximal finite log probability, every finite-probability solution is stored exactly once in order, and it is None iff none was finite.",
  "all sequences of evaluations", "All histories.", [S+"solve/mcmc.py"])
p("C50", "MCMC parameter vector round trip",
  "Encoding an input into the parameter vector and back leaves it unchanged, and decoding changes only the selected parameters.",
  "all selections and inputs", "All inputs.", [S+"solve/mcmc.py"])
p("C51", "Golden/bisection crosser keeps its bracket",
  "Once it has limits, the fast-point crosser's next radial velocity always lies within the current limits, the limits only shrink, and the search ends when they can no longer be separated.",
  "all histories of solution outcomes", "All histories.", [S+"solve/fast_crosser.py"])
p("C52", "Evaluating the sonic root function does not change the midplane conditions",
  "Building the modified sonic conditions leaves the original initial conditions untouched.",
  "all inputs and root-solver iterations", "All call histories (aliasing).", [S+"solve/sonic_root.py:total_vars_to_mod_cons"])
p("C53", "Joined solutions are aligned and flagged",
  "A solution assembled from Taylor, main and post-sonic parts has as many angles as states, angles strictly increasing, and its flag reports the status of the last integration.",
  "all segment outcomes", "All outcomes of the integrator.", [S+"solve/solution.py:solution", S+"solve/solution.py:main_solution"])
p("C54", "Conflicting solver options are rejected",
  "Incompatible combinations of jump, interpolation, root function and Taylor options fail with a solver error before any integration; compatible ones are accepted.",
  "all combinations of options", "Combinatorial option space.", [S+"solve/solution.py:main_solution"])
p("C55", "Batch runner output",
  "The CSV runner writes one row per input whose solve succeeded with a final solution, in input order, whatever the order in which workers finish; failures are skipped.",
  "all input lists and outcomes", "Any number of inputs and schedules.", [S+"solve/csvrunner.py", S+"solve/hdf5runner.py"])
p("C56", "Exit status reflects success and an unknown method stores no run",
  "The solve command returns status 0 iff the chosen method reported success; an unknown method fails without leaving an output file.",
  "all methods and outcomes", "All outcomes.", [S+"solve/__init__.py:solve", S+"solve/__init__.py:main"])
p("C57", "Trajectory following makes unit-direction steps",
  "Each computed direction is a unit vector equal to the rotated normalised (v_r, v_θ) and independent of the radial power; consecutive points are exactly one step length apart, step lengths never grow, and at most max_steps points are produced.",
  "all velocity fields, starting points and step counts", "All trajectories.", [S+"analyse/trajectory.py"])
p("C58", "Solution filters",
  "A filter \"a-b\" selects every integer from a to b inclusive, single names select themselves, and order is preserved; sorting solutions yields a sorted permutation.",
  "all filters", "All strings.", [S+"analyse/diverge_plot.py:parse_solution_filter", S+"analyse/info.py:sort_solutions"])
p("C59", "Diffusivity-space exploration varies each diffusivity as named",
  "Each generated input in the Taylor-space scan has the Ohmic, Hall and ambipolar values taken from the axis of the same name.",
  "all grids", "Grids of any size.", [S+"solve/taylor_space.py:solution_input_generator"])
p("C60", "Jacobian shock search test values",
  "The shock search tests, in order, exactly the grid points whose v_θ lies strictly between the limits, at angles above the least one and, if only points past the maximum are wanted, above the angle where v_θ is largest.",
  "all solutions", "Arrays of any length.", [S+"solve/shock.py:find_shock_test_values"])
p("C61", "Hydrostatic auxiliary derivative",
  "X_dash is the derivative of X in the hydrostatic and modified hydrostatic solvers.",
  "all differentiable diffusivities and field directions", "Limit statement.", [S+"solve/hydrostatic.py:X_dash_func", S+"solve/hydrostatic.py:X_func"])
p("C62", "Hydrostatic azimuthal velocity solves the momentum equations",
  "Where v_θ = 0 and Ohm's law and azimuthal momentum hold, radial momentum holds exactly when v_φ is a root of the quadratic the hydrostatic right-hand side checks; every such state is accepted; the derivatives of B_r, B_θ and ρ it returns are exactly those of Ohm's law, div B = 0 and polar momentum; and the starting state meets the quadratic with its larger root.",
  "all curves of states, radii and parameters", UNC, [S+"solve/hydrostatic.py:ode_system", S+"solve/hydrostatic.py:b_func", S+"solve/hydrostatic.py:c_func", S+"solve/hydrostatic.py:hydrostatic_define_conditions"])
p("C63", "Modified hydrostatic velocities solve the linearised momentum equations",
  "The modified-hydrostatic v_φ and v_r satisfy the azimuthal and linearised radial momentum equations at every point, the remaining derivatives satisfy the remaining equations, the starting state is consistent with them and with symmetry about the midplane, and the stored velocities are the ones computed at each angle.",
  "all states, radii, parameters and root trackers", UNC, [S+"solve/mod_hydro.py:ode_system", S+"solve/mod_hydro.py:v_r_func", S+"solve/mod_hydro.py:fix_solution", S+"solve/mod_hydro.py:mod_hydro_define_conditions"])
p("C64", "Sonic point derivative decomposition",
  "The up/down decomposition used to find v_θ' at the sonic point recombines to the actual derivatives for every v_θ'.",
  "all states", UNC, [S+"solve/sonic_point.py"])
p("C65", "Second-order Taylor coefficients are the second derivatives of solutions",
  "For every twice differentiable curve that leaves the midplane with the solver's initial state and first-order coefficients and satisfies the equations near the midplane, the second-order coefficients used by the Taylor start are its second derivatives.",
  "all inputs and all such curves", "Limit statement about every solution curve.",
  [S+"solve/deriv_midplane.py:get_taylor_second_order", S+"solve/deriv_midplane.py:Y_1_func"])
p("C66", "Angular scaling is a change of variable",
  "Solving in the scaled angle x = θ/θ_scale gives the same physical solution as solving in θ: a curve following the scaled system, read in physical angle, follows the unscaled system; and the grid after the sonic jump stays increasing.",
  "all systems, scales and curves", "Limit statement about every solution curve.",
  [S+"solve/solution.py:ode_system", S+"solve/hydrostatic.py:ode_system", S+"solve/mod_hydro.py:ode_system", S+"solve/solution.py:jump_across_sonic", S+"solve/utils.py:rad_to_scaled"])
p("C67", "Conversion at constant cylindrical radius",
  "Cylindrical conversion gives, at each latitude, the values of the self-similar fluid on the cylinder of unit radius, and heights in units of the scale height.",
  "all states, latitudes and c_s/v_k", UNC,
  [S+"utils.py:convert_spherical_to_cylindrical", S+"utils.py:get_vertical_scaling"])
p("C68", "Reported MHD speeds are the wave speeds of the equations solved",
  "The slow, Alfvén and fast speeds used for Mach numbers and critical points are exactly the phase speeds of linear waves along θ in the fluid whose equations are being solved (magnetic coupling a_0).",
  "all states with B_θ ≠ 0, all couplings and phase speeds", UNC,
  [S+"critical_points.py:mhd_wave_speeds"])
p("C69", "Tangential electric field is continuous across the shock",
  "The tangential electric field E_r of the post-shock state equals that of the pre-shock state.",
  "all states", UNC, [S+"solve/shock.py:get_shock_modified_initial_conditions"])
p("C70", "Physical normalisation is consistent",
  "The normalisation gives v_norm² = (c_s/v_k)² G M / r, η_norm = r v_norm, and the physical Alfvén speed of a normalised state is v_norm times that of the normalised equations with coupling (v_a/c_s)².",
  "all inputs, radii, masses and densities", UNC, [S+"utils.py:get_normalisation"])
p("C73", "Automatic splitter",
  "The automatic splitter judges every rejected solution as diverging or sign-flipping (never anything else), a recorded negative velocity is a sign flip, its judgement depends on the computed v_θ and the v_θ derivatives only, and an unknown splitter name falls back to the automatic splitter.",
  "all solutions, problem logs, derivative tables and names", UNC,
  [S+"solve/stepper.py:v_θ_deriv_splitter", S+"solve/stepper.py:create_soln_splitter"])
p("C74", "The step search finds the transonic solution",
  "If solutions diverge above some γ* and flip sign below it, every γ within ε of γ* is accepted, and γ* is within (max_search_steps-1) initial steps of a positive starting γ, then with enough attempts the step solver reports success, the run's final solution is an accepted one, and every attempt is stored in order.",
  "all thresholds, tolerances, starting values, attempt counts and acceptance tests", UNC,
  [S+"solve/stepper.py:solver", S+"solve/stepper.py:stepper_creator", S+"solve/stepper.py:step_input"])
p("C75", "A run loaded from an older file can be saved again",
  "Whatever was loaded from a file of an older version can be written by the current version, and reading that gives the same object.",
  "all stored objects of all historical versions", "All stored contents of every version.", [S+"file_format/_loaders.py", S+"file_format/_dumpers.py"])
p("C71", "Configuration file round trip",
  "A configuration written to a configuration file and read back is the same configuration, and gives the solver the same input; options that are None stay None.",
  "all configurations whose values are plain text or None", UNC,
  [S+"file_format/_containers.py:ConfigInput.to_conf_file", S+"solve/config.py:get_input_from_conffile"])
p("C72", "Solver input and configuration agree",
  "Turning a solver input into a configuration and back gives the same solver input, also through the file written by the configuration dump command; this holds for every solver input the program can hold.",
  "all solver inputs", UNC,
  [S+"file_format/_containers.py:SolutionInput.to_config_input", S+"file_format/_containers.py:ConfigInput.to_soln_input", S+"analyse/dump_config.py:dump_cfg"])
p("C76", "Integration stops at the requested velocity",
  "The stopping function vanishes exactly where v_θ equals the requested velocity; on every continuous trajectory that starts below the target and reaches it there is a first such angle, at which v_θ is the target and before which it is below.",
  "all targets and continuous trajectories", "Every trajectory.", [S+"solve/utils.py:velocity_stop_generator"])
p("C77", "Internal data records every accepted call",
  "With recording on, after any sequence of right-hand-side calls the internal data holds, in order, the physical angle, the state and the returned derivatives of exactly the accepted calls, and the problem log holds exactly the rejected ones under their angles; with recording off there is none.",
  "all systems and call sequences", "Every call history.", [S+"solve/solution.py:ode_system", S+"file_format/_containers.py:InternalData", S+"file_format/_containers.py:Problems"])
p("C78", "Stored radial electric field obeys Faraday's law",
  "In the electric-field formulation the radial electric field of the state and the polar field of Ohm's law satisfy the azimuthal component of curl E = 0 at every radius, along every solution.",
  "all solutions, radii and parameters", "Derivative along every solution.", [S+"solve/deriv_funcs.py:deriv_E_r_func", S+"solve/solution.py:ode_system"])
p("C79", "Batch results can be used as batch inputs",
  "The table written by the CSV runner, given to it as input, stands for exactly the solver inputs that were written, in order; also when the table was made by several runs appending to it.",
  "all batches, schedules and final inputs", "Every table, over the writer, the comment filter, the CSV parser and the conversions.",
  [S+"solve/csvrunner.py:csvrunner", S+"solve/utils.py:get_csv_inputs", S+"file_format/_containers.py:ConfigInput.to_soln_input"])
p("C80", "A method that reports success leaves a final solution",
  "If the single, step, MCMC or fast-crosser method reports success, the run's final solution is a solution the method computed; if it reports failure, there is none.",
  "all runs, inputs and solver outcomes", "Every history of attempts.", [S+"solve/single.py:solver", S+"solve/stepper.py:solver", S+"solve/mcmc.py:solver", S+"solve/fast_crosser.py:solver"])
p("C81", "Existing files are never changed",
  "Whatever a solve, re-solve or batch does, a file that existed before is unchanged; a solve onto an existing name fails with a file error; a solve that crashes leaves what was stored so far; and a batch processes all its inputs.",
  "all file systems, methods, batches and crash points", "Every file system and crash point.", [S+"solve/__init__.py:solve", S+"solve/resolve.py:resolve", S+"solve/hdf5runner.py:SolutionFinder"])
p("C82", "The fast crosser keeps the best solution",
  "The fast crosser stores every solution it computes once, an attempt without a solution does not end the search, and its final solution is one of those that reached furthest.",
  "all histories of solution outcomes", "All histories.", [S+"solve/fast_crosser.py:solver", S+"solve/fast_crosser.py:solution_generator"])
p("C83", "The grid of angles",
  "A solve's angles are as many as num_angles says, start at the start angle and end at the stop angle (both given in degrees), are evenly spaced, and increase when start is below stop.",
  "all inputs", "All counts and end points.", [S+"solve/config.py:define_conditions"])
p("C84", "The shock search saves each shock once and harms nothing",
  "Every test of the shock search that gives a solution of at least five angles leaves a file holding that solution alone, as the final one, marked post-shock and naming its origin; a failing test affects no other; no existing file is changed; the outcome does not depend on the order of the tests; a test is reported exactly if its file is saved and the figure of the saved solution is drawn.",
  "all solver outcomes, file systems and orders of the tests", "Every schedule and failure pattern.", [S+"solve/shock.py:ShockFinder", S+"solve/shock.py:compute_shock"])
p("C85", "The sonic root method",
  "The first guess of the sonic state is the straight line through the last two points of the midplane solution taken at sonic speed; the function whose root is sought vanishes exactly when the solution from the sonic point meets the one from the midplane in angle, velocity, field and density; a stored solution is the one from the midplane followed by the reversed one from the sonic point; the integration from the sonic point is asked for equally spaced angles from the guessed sonic point to the end of the midplane solution; and an integration from the sonic point that ends normally yields a stored solution.",
  "all solutions, guesses and root solver histories", "Every history of the root solver.", [S+"solve/sonic_root.py:solver", S+"solve/sonic_root.py:generate_root_func", S+"solve/sonic_root.py:get_root_results", S+"solve/sonic_root.py:guess_root_vals"])
p("C86", "Hydrostatic velocity derivatives",
  "The derivatives of v_r, v_φ and B_φ' returned by the hydrostatic right-hand side are those of the velocities solving its momentum equations; at the midplane, where these are even functions, they vanish.",
  "all inputs and differentiable curves", "Limit statement about every curve.", [S+"solve/hydrostatic.py:Z_3_func", S+"solve/hydrostatic.py:deriv_v_r_func", S+"solve/hydrostatic.py:dderiv_B_φ_func"])
p("C87", "Critical points of a solution",
  "For a solution that starts slower than the slow wave, the index answered for each critical point is the first row whose Mach number is at least one and none if there is no such row; the angle answered is where the line through the neighbouring samples reaches one; and both come in the order slow, Alfvén, fast and slow, sonic, fast.",
  "all solutions with positive density and nonzero B_θ", UNC, [S+"critical_points.py:get_critical_point_indices", S+"critical_points.py:get_all_sonic_points"])
p("C88", "crosses-points",
  "The info command prints the last critical point a solution has crossed; a solution for which it prints a point has crossed the ones before it.",
  "all solutions that start slower than the slow wave", UNC, [S+"analyse/info.py:info", S+"critical_points.py:get_all_sonic_points"])
p("C89", "Jacobians of a solution",
  "The matrix computed for a row of a solution tends, as the step tends to zero, to the matrix of partial derivatives of the right-hand side the integrator was given; it depends on that row alone; the coefficients answered reproduce the solution from the eigenvectors and the critical row; and if the critical point is not reached the last row takes its place.",
  "all states with a field, positive density, Ohmic diffusion and a velocity off the sonic speed; all solutions", "Limit statement about every state.", [S+"analyse/compute_jacobian.py:compute_jacobian", S+"analyse/compute_jacobian.py:compute_jacobian_at_index", S+"analyse/compute_jacobian.py:get_eigenvector_coef_around_critical_point"])
p("C90", "The component plot",
  "For every equation of the component plot the parts drawn add up to the curve labelled all terms, and that curve is the derivative the integrator computes times the factor the equation carries; solutions holding E_r are refused.",
  "all rows, angles and parameters", UNC, [S+"analyse/component_plot.py:compute_components", S+"analyse/component_plot.py:generate_plot"])
p("C91", "Statistics of a solution",
  "In the table of statistics each maximal Mach number is the greatest among the rows where it is a number, with the angle of the first row that has it, and is not a number if there is none; the flags say whether v_θ rises up to twenty degrees and ends at ten at most; the maximal angle is the greatest angle; each max_diff entry bounds by how much its equation is violated; max_B_p_on_B_t is the greatest ratio of the poloidal to the toroidal field.",
  "all solutions with a row", UNC, [S+"analyse/stats.py:compute_max_difference_in_equations", S+"analyse/stats.py:get_max_mach_numbers", S+"analyse/stats.py:compute_B_poloidal_vs_B_toroidal", S+"analyse/stats.py:is_v_θ_monotonic"])
p("C92", "Mass fluxes",
  "M_dot_out is the mass that leaves per unit time through the two cones at the last latitude between the two radii; M_dot_in is the net mass that enters through the two spheres; for a solution that conserves mass their ratio is one; Σ is a property of the solution, not of the grid it is sampled on.",
  "all solutions, radii and grids", "Statement about integrals of every solution.", [S+"analyse/phys_ratio_plot.py:compute_M_dot_out", S+"analyse/phys_ratio_plot.py:compute_M_dot_in", S+"analyse/phys_ratio_plot.py:compute_M_dot_out_on_M_dot_in", S+"analyse/phys_ratio_plot.py:compute_Σ"])
p("C93", "Tables of statistics over many files",
  "ds-stats adds to its output file one header and then, file by file and solution by solution in order, one row per solution with every value in the column of its name; a file that cannot be read or a solution whose statistics cannot be computed costs no other row; read back, the file holds the names of the columns and the solutions, each once.",
  "all files, readable or not, all solutions, all failures, all earlier contents of the output file", "Any number of files and solutions failing at any point.", [S+"analyse/stats.py:write_stats", S+"analyse/stats.py:get_all_solutions", S+"analyse/stats.py:compute_solution_stats", S+"analyse/stats.py:FIELD_NAMES"])
p("C94", "Tables of solutions as batch inputs",
  "A table made by ds-dumpcsv, ds-dump or ds-stats can be given to the CSV runner: its rows stand for exactly the inputs of the solutions in it, in order; also if it was made by several commands.",
  "all solutions and result files", "Every table, over the writers, the comment filter, the CSV parser and the conversions.", [S+"analyse/stats.py:write_inputs", S+"analyse/stats.py:write_stats", S+"analyse/dump_csv.py:dump_csv", S+"solve/utils.py:get_csv_inputs"])
p("C95", "Runs of the hydrostatic and mod_hydro methods",
  "A run of either method starts exactly one integration, over the angles of the input from its midplane state, and stores what it returned as solution 0 and as the final solution; a method that reports success has integrated the disc over those angles; the internal data holds every call of the right-hand side that succeeded and reports every one that was rejected, and its lists belong together; an input the method cannot handle is refused before any integration and leaves the run as it was.",
  "all inputs, integrator answers and histories of calls", "Every answer of the integrator and every history of calls.", [S+"solve/hydrostatic.py:solver", S+"solve/hydrostatic.py:solution", S+"solve/hydrostatic.py:hydrostatic_solution", S+"solve/mod_hydro.py:solver", S+"solve/mod_hydro.py:solution", S+"solve/mod_hydro.py:mod_hydro_solution"])
p("C96", "Residuals of hydro-check",
  "Each curve of hydro-check vanishes where the solution satisfies the equation of its method that the curve is named after; the numbers printed are the greatest residuals in the range of angles.",
  "all differentiable curves of states without vertical velocity, all ranges", UNC, [S+"analyse/hydro_check_plot.py:generate_hydro_check_plot", S+"analyse/hydro_check_plot.py:validate_hydro_azimuthal_mometum", S+"analyse/hydro_check_plot.py:validate_radial_momentum_mod_φ"])
p("C97", "Figures of the eight-panel plots",
  "Each panel of ds-plot, ds-vert-plot, ds-compare-plot, ds-derivs-plot and ds-params-plot shows the quantity its label names, at exactly the samples in the range asked for, with the wave speeds, sonic point and roots asked for; ds-compare-plot draws every solution given, each in its own colour and measured from its own Keplerian speed; a figure does not depend on what the same process plotted before, nor do the settings the common function hands out.",
  "all solutions, options and histories of plots in one process", "Every history of plots, and every solution.", [S+"analyse/utils.py:get_common_arguments", S+"analyse/utils.py:COMMON_ARGUMENTS", S+"analyse/utils.py:distinct_color_map", S+"analyse/utils.py:plot_log_lines", S+"analyse/plot.py:generate_plot", S+"analyse/vert_plot.py:generate_plot", S+"analyse/compare_plot.py:generate_plot", S+"analyse/derivs_plot.py:generate_derivs_plot", S+"analyse/params_plot.py:generate_params_plot"])
p("C98", "Physical units, conservation and surface density plots",
  "Every line of ds-combine-plot shows the quantity it is named after in the unit on its axis, the Alfvén line being the Alfvén speed of the gas; ds-conserve-plot draws ρ v_θ of every solution of a file, which is flat for a flow that conserves mass; ds-surface-density draws the column density of the flow, whatever grid it is sampled on and from the start of the range.",
  "all solutions, units, ranges and grids", "Statement about every flow and every grid.", [S+"analyse/combine_plot.py:generate_plot_combine", S+"analyse/conserve_plot.py:generate_conserve_plot", S+"analyse/surface_density_plot.py:generate_surface_density_plot"])
p("C99", "Taylor, accretion, Mach ratio and derivative plots",
  "ds-taylor-plot shows every recorded derivative, or the ratio of the two formulae, at its angle in degrees; ds-sonic-ratio-plot and ds-v-deriv-cmp draw every solution given, the former the ratio of v_θ to the wave speeds; ds-acc-plot draws the accretion and wind rates; all of them for the samples in the range asked for, and they refuse solutions without the data they need.",
  "all solutions, internal data and ranges", "Every history of recorded calls and every range.", [S+"analyse/taylor_plot.py:generate_taylor_plot", S+"analyse/acc_plot.py:generate_acc_plot", S+"analyse/sonic_ratio_plot.py:generate_plot", S+"analyse/v_deriv_cmp.py:generate_plot"])
p("C100", "What a configuration file means",
  "For every configuration file, every option of the solver's input is the text the file gives for it in its section, or its documented default when the file does not give it; overrides come on top, the last one winning; everything else in the file is ignored.",
  "all configuration files and override lists", "Files with any sections and options.", [S+"solve/config.py:get_input_from_conffile", S+"solve/utils.py:add_overrides"])
p("C101", "Where log messages go",
  "The terminal shows exactly the messages from its own threshold on (errors with -q, everything from debug on with -v, else --stderr-level); a log file, if one was asked for, receives exactly the messages from its own threshold on, whatever the terminal shows; handlers set up before the command receive nothing.",
  "all logging options, all sequences of messages, all outer handlers", "Every sequence of messages under every combination of options.", [S+"logging.py:log_handler", S+"logging.py:logging_options", S+"logging.py:enable_multiprocess_log_handing"])
p("C102", "What a plotting command draws",
  "A single-solution command draws exactly the solution asked for, under the title asked for or FILE:RANGE; a multi-solution command draws every pair of file and solution given, in order, each under its own name, and leaves out only what cannot be loaded; an all-solutions command draws the solutions in the order in which they were added; the figure is saved and shown exactly as asked.",
  "all result files, option values and lists of solutions", "Every result file and every list of solutions.", [S+"analyse/utils.py:single_solution_plotter", S+"analyse/utils.py:multiple_solution_plotter", S+"analyse/utils.py:analysis_func_wrapper", S+"analyse/utils.py:analysis_func_wrapper_multisolution", S+"analyse/utils.py:analyse_main_wrapper", S+"analyse/utils.py:analyse_main_wrapper_multisolution", S+"analyse/utils.py:analyse_multisolution_wrapper", S+"analyse/utils.py:plot_output_wrapper", S+"analyse/compare_plot.py:compare_plot"])
p("C103", "Divergence, current and field, validation and ratio plots; the speed of the jet",
  "ds-diverge-plot draws v_θ of every solution selected, in its own colour, with the wave speeds asked for; ds-j-e-plot draws the current of the magnetic field and the electric field of Ohm's law; ds-validate-plot draws the residuals of the equations and prints the greatest of each, which is zero for what the solver recorded; ds-phys-ratio-plot draws one point per solution whose colour tells v_r and whose marker a_0; ds-stats reports the greatest vertical speed of the flow on the cylinder of radius 1 with its height.",
  "all solutions, ranges, selections and recorded data", UNC, [S+"analyse/diverge_plot.py:generate_diverge_plot", S+"analyse/diverge_plot.py:diverge_plot", S+"analyse/j_e_plot.py:generate_plot", S+"analyse/validate_plot.py:generate_validate_plot", S+"analyse/phys_ratio_plot.py:generate_plot", S+"analyse/stats.py:compute_max_vert_jet_velocity"])
p("C104", "Options of the plotting commands take effect",
  "For every plotting command and every command line: it is refused exactly when it names too few or too many files, has an option the command does not take, a text the option cannot take, or two alternatives; otherwise the drawing is made with exactly the value of the last occurrence of each option, or its documented default when it is absent, for the file and solution named, and ds-flow-file writes the trajectories.",
  "every command line (any sequence of options and texts) of 20 plotting commands and of ds-flow-file, every way of reading numbers from texts, every file",
  "the sequences of options are unbounded, and whether an option has an effect depends on every function between the parser and the drawing",
  [S+"analyse/utils.py:common_plotting_options", S+"analyse/utils.py:get_common_plot_args", S+"analyse/utils.py:analyse_main_wrapper", S+"analyse/utils.py:analyse_main_wrapper_multisolution", S+"analyse/utils.py:analyse_multisolution_wrapper", S+"analyse/utils.py:single_solution_plotter", S+"analyse/utils.py:multiple_solution_plotter", S+"analyse/trajectory.py:traj_main", S+"analyse/trajectory.py:get_args", S+"analyse/trajectory.py:save_trajectory", S+"analyse/vert_plot.py:plot_parser", S+"analyse/compute_jacobian.py:eigen_parser", S+"analyse/compute_jacobian.py:get_eigen_args"])
p("C105", "Saved trajectories",
  "Saving the trajectories of a solution writes three files: the critical angles and the greatest angle, the streamline, and the field line; each names its source, and the lines hold every position reached by steps of the length asked for, with the direction of the flow or field there, until the steps are used up or a step and a hundredth of it leave the solution. No existing file is changed. Either all three files are written or none.",
  "all solutions, start positions, step lengths, numbers of steps, file names and existing files", "Every set of existing files and every solution.", [S+"analyse/trajectory.py:save_trajectory", S+"analyse/trajectory.py:follow_trajectory", S+"solve/utils.py:CSVWriterHelper"])
p("C106", "Drawn trajectories",
  "The trajectory plot draws exactly the positions that saving writes, the streamline and the field line; a line through the origin for each angle asked for that the solution has; and the line at the greatest angle of the streamline, which touches the streamline and has no position of it above.",
  "all solutions, start positions, step lengths, numbers of steps and choices of angles", UNC, [S+"analyse/trajectory.py:generate_plot", S+"analyse/trajectory.py:get_trajectory"])
p("C107", "Options of the solving commands take effect",
  "For ds-soln, ds-resoln, ds-csvrunner and ds-hdf5runner and every command line: it is refused with status 2 exactly when it does not have the positional arguments, has an option the command does not take, a text the option cannot take, or two alternatives; an override of a field that does not exist is an error before anything is written; otherwise the work is done with the value of the last occurrence of each option or its default, with paths expanded and each overridden field at the value given last, messages are handled as the logging options say, and ds-soln and ds-resoln exit with 0 only if the chosen method reported success and its finished run is in a new file named as asked.",
  "every command line (any sequence of options and texts), every way of expanding paths and reading numbers, every method, every set of existing files",
  "the sequences of options are unbounded, and whether an option has an effect depends on every function between the parser and the solver",
  [S+"solve/utils.py:add_solver_arguments", S+"solve/utils.py:add_worker_arguments", S+"solve/__init__.py:main", S+"solve/resolve.py:main", S+"solve/csvrunner.py:main", S+"solve/hdf5runner.py:main", S+"logging.py:log_handler"])
p("C108", "ds-info prints what was asked for",
  "For every command line ds-info is refused with status 2 exactly when it does not name a file, a solution and a documented group or has a wrong option; otherwise the group asked for is printed to the given stream: all attributes of the input, the initial conditions or the configuration of the run, one line each from which name and value can be read back; the state of the solution; the angles of the four critical points, None for one not reached; the fastest point crossed; the angle of the sonic point in units of the scale height; or the names of all solutions ordered by log probability. The groups about the run do not depend on the solution named.",
  "every command line, every run with any solutions and attributes, every text of a value",
  "attribute names, values, numbers of solutions and which points are reached range over unbounded sets",
  [S+"analyse/info.py:info_main", S+"analyse/info.py:info", S+"analyse/info.py:info_parser"])
p("C109", "Export commands only change the output asked for",
  "For ds-tocsv, ds-tocfg, ds-stats and ds-dumpcsv and every command line: it is refused exactly when the positional arguments are missing or an option is unknown or used wrongly; otherwise only the output named last with --file (standard output if none or '-') is changed; ds-tocsv, ds-stats and ds-dumpcsv add to what it held, ds-tocfg replaces it by the configuration of the solution; if the result file or the solution cannot be found nothing is changed, and a command that fails leaves an existing file as it was.",
  "every command line, every state of the file system, every result file and solution",
  "which file changes and what it held before depend on the whole history of the file system",
  [S+"analyse/dump_csv.py:dump_main", S+"analyse/dump_config.py:dump_main", S+"analyse/stats.py:many_file_wrapper", S+"analyse/stats.py:stats_main", S+"analyse/stats.py:dump_csv_inputs_main", S+"utils.py:open_or_stream"])
p("C110", "Eigenvalue and eigenvector plots show the whole spectrum",
  "For every solution with at least one Jacobian: the eigenvalue plot shows, for every sample in the range of angles with a finite Jacobian, the real and the imaginary part of every eigenvalue at the angle of the sample, the sign by the marker, in the colour and under the number of the eigenvalue; a part that is zero and a sample whose Jacobian is not finite show nothing, and nothing else is shown. The eigenvector plot has a panel for every eigenvalue with that eigenvalue in black and each component of its eigenvector in the same way. The norm plot has the squared length of each eigenvector, so one everywhere for unit eigenvectors.",
  "every sequence of angles and Jacobians, finite or not, every answer of the eigenvalue routine, every range",
  "the number of samples, which Jacobians are finite and the spectra are arbitrary",
  [S+"analyse/compute_jacobian.py:plot_jacobian_eigenvalues", S+"analyse/compute_jacobian.py:plot_jacobian_eigenvectors", S+"analyse/compute_jacobian.py:plot_jacobian_eigenvector_norm", S+"analyse/compute_jacobian.py:plot_log_complex_data"])
p("C111", "Batches over worker processes",
  "ds-csvrunner, ds-hdf5runner and ds-shock: for every schedule of the workers at most as many items are worked on at once as workers were asked for, items are started in order and each is worked on exactly once whatever fails; what is written and printed and how the command ends are those of handling the results one after another in input order, at any moment the beginning of that; the command ends, and with status 0 exactly if no item and no handling of a result raised an error. ds-shock tests the solution named of the file named and leaves the same files for every schedule. A number of workers below one is reported as such and nothing is done.",
  "every schedule, every pattern of results and errors, every moment the command may be stopped at, every command line",
  "schedules and failures interleave in unboundedly many ways",
  [S+"utils.py:nicer_mp_pool", S+"solve/csvrunner.py:csvrunner", S+"solve/hdf5runner.py:hdf5runner", S+"solve/shock.py:compute_shock", S+"solve/shock.py:shock_main"])
p("C112", "A whole MCMC run",
  "The MCMC method starts each of its walkers at the varied parameters of the input, each changed by a tenth of its value times the normal number drawn for it. A point is worth minus infinity if a parameter is not positive or its midplane or solve fails with the solver's own error, otherwise -10 exp(-max v_θ) minus the sum of the squares of the changes of the squared steps of v_θ, which is negative and larger for a faster flow that is equally uneven. For every sampler the run tries the starting positions and then, for each iteration, two groups of proposals; it keeps every solution with a score in order and ends with the first of the best, whatever single points give.",
  "every input, every draw of random numbers, every sampler (any function of what was tried before), every outcome of every solve",
  "the points tried depend on all random draws and on all earlier outcomes",
  [S+"solve/mcmc.py:solver", S+"solve/mcmc.py:generate_initial_positions", S+"solve/mcmc.py:get_logprob_of_soln", S+"solve/mcmc.py:get_outflow_rate_probability", S+"solve/mcmc.py:LogProbGenerator"])
p("C113", "Splitting by hand",
  "With split method human: at every question the user sees a plot of all solutions judged so far, numbered from 0 in order; they are asked until a line, white space around it apart, is 'sign flip', 'diverge' or 'STOP', with one complaint for every other line, and that line is the answer. Whatever they type, the run holds the solutions shown that have a flag, in order, and at most one more. After any sequence of answers STOP makes the solution last shown the final one and the command succeeds; if the typing ends without an answer the command fails, keeps the solutions shown and has no final one.",
  "every sequence of lines typed, every outcome of the solves, every number of attempts and search steps, any arithmetic",
  "sessions are unbounded and the inputs solved depend on all answers before",
  [S+"solve/stepper.py:human_view_splitter_generator", S+"solve/stepper.py:stepper_creator", S+"solve/stepper.py:alternate_cleanup_generator", S+"solve/stepper.py:solver"])
p("C114", "The plot of the Taylor space",
  "ds-plot-taylor-space ends, whatever samples are drawn, with a figure of 10000 points: each sample has a midplane state and no divisor of the coefficients is zero. The row of each point holds its own γ, v_rin/c_s, v_a/c_s and c_s/v_k in the order of the names, and the outputs are the coefficients of θ² at the midplane of the disc with these parameters and the diffusivities asked for (η_O = 0.005, η_A = 0.001, η_H = 0.008). The two numbers printed are the least such coefficients of v_r and of v_φ. The axis limits leave points to be seen.",
  "every draw of 10000 samples within the ranges", UNC,
  [S+"solve/taylor_space.py:main", S+"solve/taylor_space.py:plot_taylor_space", S+"solve/taylor_space.py:compute_taylor_space", S+"solve/taylor_space.py:solution_input_generator"])
p("C115", "The lower half of the disc is the mirror image of the upper",
  "The mirror image of every curve the solver's right-hand side accepts (θ to -θ, with v_θ, B_r and B_φ changing sign) follows the same system below the midplane, with the Taylor terms too. The midplane state of every input is its own mirror image, and a Taylor step taken downwards arrives at the mirror image of where the step upwards arrives. So solving one half is enough.",
  "all systems, curves, angles, inputs and steps", UNC,
  [S+"solve/solution.py:ode_system", S+"solve/config.py:define_conditions", S+"solve/solution.py:taylor_jump"])
p("C116", "Field sign, sense of rotation and units do not matter",
  "Outside the Taylor region: reversing the magnetic field together with the sign of the Hall diffusivity, reversing the rotation together with that sign, and changing the units of field and density (a_0 and the midplane diffusivities change with them) each take every solution to a solution. So only the sign of the Hall effect relative to field and rotation matters.",
  "all systems without Taylor terms, all curves, angles and positive units", UNC,
  [S+"solve/solution.py:ode_system", S+"solve/deriv_funcs.py"])
p("C117", "The Taylor start does not care which way round the disc turns",
  "The Taylor coefficients of a disc that turns the other way round, with the Hall diffusivity changing sign, are those of the disc with the signs of the azimuthal components changed.",
  "all midplane states", UNC,
  [S+"solve/deriv_midplane.py:taylor_series", S+"solve/deriv_midplane.py:Y_2_func", S+"solve/deriv_midplane.py:Y_3_func"])
p("C118", "In floating-point arithmetic the step search ends at two neighbouring numbers of opposite type",
  "If solutions diverge above some bound, flip sign below another, and are judged in any pattern between the two, then the step search ends by itself with success: its final solution is the only one accepted, or none was accepted, the final one diverges, and the one for the next smaller floating-point number flips sign. Without acceptance it takes at most one attempt per bit of precision more than the search for the first change of type, and the loop that enlarges the last step runs at most five times. (All numbers visited have one exponent.)",
  "all binary floating-point formats, judges, acceptance tests, starting values and first steps", UNC,
  [S+"solve/stepper.py:step_input", S+"solve/stepper.py:stepper_creator", S+"solve/stepper.py:solver", S+"float_handling.py:FLOAT_TYPE"])
p("C119", "In floating-point arithmetic the step search ends next to the threshold, also when it crosses a power of two",
  "If solutions diverge above a threshold and flip sign below it, then the step search ends by itself with success; if no solution was accepted, the final one diverges, and the one for the next smaller floating-point number flips sign, wherever the search has passed.",
  "all binary floating-point formats, thresholds, acceptance tests, starting values and first steps, searches over two neighbouring ranges of exponents", UNC,
  [S+"solve/stepper.py:step_input", S+"solve/stepper.py:stepper_creator", S+"solve/stepper.py:solver", S+"float_handling.py:FLOAT_TYPE"])
p("C120", "A run records where it came from, and solving it again gives the same solution",
  "However a solving command ends, a file it leaves holds a run with the configuration that was solved (overrides included), the configuration file, version, float type and method, the E_r flag of the input that the method was given, and the file and solution it is based on; files that were there are unchanged. Re-solving without overrides gives the same solution, however often. A file that is not named is named after the label of the run in it.",
  "all configuration files, overrides, old runs, table rows, methods that only add solutions, and any number of re-solves", UNC,
  [S+"solve/__init__.py:solve", S+"solve/resolve.py:resolve", S+"solve/hdf5runner.py:SolutionFinder", S+"solve/config.py:new_inputs_with_overrides", S+"solve/single.py:solver"])
p("C121", "Plain dictionaries in old files come back as they were written",
  "A dictionary with text keys that is stored in a file and read back has the same keys with the same values, in whatever order the file lists them.",
  "all dictionaries and orders of listing", UNC,
  [S+"file_format/_old_dict_loading.py:_dict_dumper", S+"file_format/_old_dict_loading.py:_dict_loader", S+"file_format/__init__.py:registries"])
p("C122", "A solution is determined by where it starts",
  "Two solutions of the system on the same interval, away from its singular states, move apart at most exponentially in either direction; so if they agree at one angle, they agree at every angle. A solution that runs through the midplane is its own mirror image if its state there is.",
  "all systems (Taylor mode, interpolated v_θ', both ways of following the azimuthal field), all pairs of regular solutions, intervals and angles", UNC,
  [S+"solve/solution.py:ode_system", S+"solve/deriv_funcs.py"])
p("C123", "Solutions that start physical stay physical",
  "Outside the Taylor region, a solution with positive density at one angle has positive density at every angle it reaches without its vertical velocity vanishing. So the checks for negative density and velocity never stop an exact solution that starts with positive ones, and diffusivities that follow B²/ρ keep their signs while there is a field.",
  "all systems without Taylor terms, all solutions, intervals and angles", UNC,
  [S+"solve/solution.py:ode_system", S+"solve/deriv_funcs.py:deriv_η_skw_func"])
p("C124", "The output of the batch runner is a table",
  "What ds-csvrunner adds to its output is a table that a batch can read again: comments, column names and one row per input with a solution, whether the output is a file or standard output, and whatever the tasks print.",
  "all batches, outcomes, outputs and orders in which the processes print", UNC,
  [S+"solve/csvrunner.py:csvrunner", S+"solve/csvrunner.py:SolutionFinder", S+"utils.py:open_or_stream"])
p("C125", "Mass, magnetic flux and angular momentum between two angles add up",
  "Between any two angles of an exact solution, the mass, the magnetic flux and the angular momentum (of gas and field together) that pass through the two cones differ exactly by what the radial flow brings in between them; in a disc that accretes everywhere between the two angles the vertical mass flux grows with height exactly if γ is positive.",
  "all solver parameters, solutions and pairs of angles, including a start at the midplane", UNC,
  [S+"solve/solution.py:ode_system", S+"solve/deriv_funcs.py"])
p("C126", "The error of a numerical solution is bounded by the error of its slopes",
  "Away from the singular states, a curve whose slopes are those the code computes up to an error, and which starts up to an error where a solution starts, stays close to that solution: one constant, which depends only on the parameters of the solver, the interval and the distance kept from the singular states, bounds the error of all such curves; so a solver whose errors tend to zero finds the solution, equally well at all angles.",
  "all solver parameters, intervals, margins, exact solutions and approximations of them", UNC,
  [S+"solve/solution.py:ode_system", S+"solve/deriv_funcs.py"])
p("C127", "The error of the Taylor start is of third order in the stop angle",
  "With a Taylor start the integration begins at the stop angle, at a state computed from the midplane. The difference between that state and the solution that leaves the midplane at that angle is at most a multiple of the third power of the stop angle, so that halving the stop angle divides it by about eight.",
  "all inputs with midplane values, curves that leave the midplane regularly and satisfy the equations, switches and quantities", UNC,
  [S+"solve/solution.py:taylor_jump", S+"solve/deriv_midplane.py:get_taylor_second_order", S+"solve/deriv_midplane.py:get_taylor_first_order"])
p("C128", "A small change of the parameters changes the solution little",
  "Outside the Taylor region and away from the singular states, two solutions for different γ, a_0, Keplerian speed and diffusivities in the midplane stay as close, up to constants which depend only on the first set of parameters, the interval, the margin and the bounds, as their parameters and the states they start from are; so the solution depends continuously on the parameters, equally well at all angles. A neighbouring guess in a search for a solution gives a neighbouring solution.",
  "all solver parameters, intervals, margins, bounds, second sets of parameters and pairs of exact solutions", UNC,
  [S+"solve/solution.py:ode_system", S+"solve/deriv_funcs.py"])
p("C129", "Through every state that is not singular there is exactly one solution",
  "Through every state with gas, field, Ohmic diffusion and rising gas, not at the sound speed, there is a solution of the system the code integrates, on an interval around the angle, and no other. One length of the interval serves all states that keep the same distance from the singular ones. So a solution goes on until it nears a singular state, the axis, or a quantity grows without bound: nothing else ends it.",
  "all solver parameters, angles, states that are not singular, and solutions that keep a margin", UNC,
  [S+"solve/solution.py:ode_system", S+"solve/deriv_funcs.py"])
p("C130", "With nearly the same parameters and start there is nearly the same solution",
  "If a solution keeps a distance from the singular states on an interval of angles, then every set-up of the same system with nearly the same γ, field strength, Keplerian speed and midplane diffusivities has, from nearly the same start, a solution on the whole interval, and it stays as close to the first as required. So the outcome an observer of the run sees does not hang on the last digit: gas that passes a given speed (or stays below it, or slows down again, which the step search calls a sign flip) does so for all set-ups and starts nearby.",
  "all solutions with a margin, all distances, and all set-ups and starts within a tolerance", UNC,
  [S+"solve/solution.py:ode_system", S+"solve/deriv_funcs.py", S+"solve/stepper.py:solution_generator"])
p("C131", "Between a sign flip and no sign flip there is an edge, and the solution at the edge does not slow down",
  "The step search changes γ until the vertical speed neither falls again (a sign flip) nor diverges. For set-ups that depend continuously on a number such as γ, with gas that slows down at one end of a range of numbers and does not at the other, there is an edge: for all numbers below it the gas slows down, at the edge it does not. At the edge the vertical speed never falls, up to the last angle or up to an angle where the solution has used up any given distance from the singular states. The sign of the slope of the vertical speed at the start decides the behaviour at once. The set-ups the search tries, the same input with γ varied and the start after the Taylor jump, are such a family where the midplane rotates and the Taylor coefficients are defined.",
  "all continuous families of set-ups and starts, all ranges, all margins", UNC,
  [S+"solve/stepper.py:v_θ_deriv_splitter", S+"solve/stepper.py:solver", S+"solve/solution.py:ode_system", S+"solve/solution.py:taylor_jump", S+"solve/config.py:define_conditions"])
p("C132", "The step search converges to a solution that does not slow down, whatever the answers on the way",
  "In exact arithmetic, for any solutions that are each said to diverge or to flip their sign, in whatever order along γ: if the step search meets both answers within the steps it may take, the values of γ it tries converge, the distance to the limit halving with every attempt, and next to the limit, as near as one likes, there are both answers. If sign flip means that the gas slows down, then at the limit it does not, although just below it does; the vertical speed of the solution at the limit never falls, up to the last angle or until any given distance from the singular states is used up.",
  "all answers, starting values, numbers of steps, continuous families of set-ups; for the code's own set-ups all inputs with a regular midplane", UNC,
  [S+"solve/stepper.py:solver", S+"solve/stepper.py:stepper_creator", S+"solve/stepper.py:step_input", S+"solve/stepper.py:v_θ_deriv_splitter", S+"solve/solution.py:taylor_jump"])
p("C133", "The flow passes the speed of sound only where what drives it vanishes",
  "The right-hand side divides by 1 - v_θ². What is divided, the drive of the polar momentum balance, is continuous through the speed of sound. Gas can come up to the speed of sound only where the drive is not negative; where it is positive the acceleration grows without bound (what the step search calls divergence), so a bounded acceleration means that the drive is zero. A flow that passes from below to above the speed of sound without a jump has a drive of exactly zero there; if the drive has a rate of change k along the flow there, k is not positive and the flow passes without a kink, with the acceleration √(-k/2). Below the speed of sound, the angle needed from one speed to another is bounded on both sides by the drive.",
  "all set-ups without interpolated derivative, all curves whose vertical speed obeys the system (so all solutions), all sonic points with regular field, density and diffusivities", UNC,
  [S+"solve/solution.py:ode_system", S+"solve/solution.py:jump_across_sonic", S+"solve/sonic_root.py:solver"])
p("C134", "On every fine grid the automatic splitter gives the answer that fits the gas between the grid points",
  "Without stored internal data the splitter sees the vertical speed at the grid angles only. Its answer is 'diverge' exactly if a sample lies between the cutoff and the sound speed and either a sample exceeds the sound speed or no later sample near the sound speed is smaller than an earlier one; 'sign flip' otherwise. For every vertical speed that changes continuously there is a spacing below which every grid, uniform or not, gives one and the same answer, and it is the one the same rule gives for all angles, not only those of the grid. A 'sign flip' from samples that come near to the sound speed is never wrong: the gas does slow down, in the sense used in C131 and C132.",
  "all cutoffs, all continuous speeds, all ranges, all increasing grids as fine as the spacing the theorem gives; all regular solutions", UNC,
  [S+"solve/stepper.py:v_θ_deriv_splitter", S+"utils.py:is_monotonically_increasing"])
p("C135", "On fine grids the acceptance of a solution means what it should between the grid points too",
  "A stored solution is validated, and judged to be the best one, by its samples. For every vertical speed and density that change continuously there is a spacing below which all grids give the same verdict of validity: valid exactly if neither is ever negative and the gas never slows down, at any angle. There is a number of angles from which on all evenly spaced grids, and so all inputs with that many angles, give the same verdict on whether the solution is a best one: it is exactly if it is valid in that sense, comes within a tenth of the sound speed without reaching it, and bends down while it is there.",
  "all continuous speeds and densities, all ranges, all increasing grids as fine as the spacing (validity), all inputs with at least the number of angles (best)", UNC,
  [S+"solve/utils.py:validate_solution", S+"solve/stepper.py:is_solution_best", S+"solve/config.py:define_conditions"])
p("C136", "Through every state that is not singular there is exactly one hydrostatic solution",
  "The hydrostatic method integrates a system whose right-hand side divides by the field strength, the density, the resistivity, the rotation, the root of a discriminant, a determinant and a coefficient. As long as none of these vanish, two solutions of it with the same parameters, whatever the switches for the derivatives of the resistivities and of the velocities, move apart at most exponentially in either direction; if they agree in all quantities at one angle, they agree at every angle above and below it. And through every state at which none of them vanish there is a solution for some range of angles around it, along which the code accepts every state; a solution whose quantities tend to such a state goes on beyond it, so that a solution can only end at a singular state or without a limit.",
  "all parameters and switches of the hydrostatic system, all pairs of curves that solve it on an interval without meeting a zero denominator, all pairs of angles of the interval", UNC,
  [S+"solve/hydrostatic.py:ode_system", S+"solve/hydrostatic.py:dderiv_B_φ_func", S+"solve/hydrostatic.py:Z_6_func", S+"solve/hydrostatic.py:deriv_v_r_func"])
p("C137", "Rounding cannot make the right-hand side divide by zero",
  "In floating-point arithmetic no component of the direction of the field the solver computes exceeds one. So with Ohmic diffusion the denominators of C, A and B_r', and Z_5, are at least the Ohmic diffusivity, whatever the rounding; and what the polar momentum balance is divided by has the sign it should have on either side of the speed of sound and is zero only at the speed of sound itself.",
  "all binary floating-point formats, all fields whose largest component has a square that does not underflow, all diffusivities and velocities that are numbers of the format", UNC,
  [S+"solve/solution.py:ode_system", S+"solve/deriv_funcs.py:C_func", S+"solve/deriv_funcs.py:Z_5_func", S+"solve/deriv_funcs.py:deriv_B_r_func", S+"solve/deriv_funcs.py:A_func", S+"float_handling.py:FLOAT_TYPE"])
p("C138", "In floating-point arithmetic the grid of angles is accurate and increases",
  "The angles at which a solution is asked for start at the given start and end at the given stop, each converted from degrees to radians. Every angle between is the evenly spaced one to within a dozen unit roundoffs of the larger end angle. The angles strictly increase.",
  "all binary floating-point formats of eleven bits or more, all ends, all numbers of angles for which the format has room", UNC,
  [S+"solve/config.py:define_conditions", S+"solve/hydrostatic.py", S+"solve/mod_hydro.py", S+"float_handling.py:FLOAT_TYPE"])
p("C139", "In floating-point arithmetic a shock conserves mass and momentum to a few roundings",
  "The flow behind a shock, as computed, is slower than sound and not thinner than the flow ahead of it. The flux of mass and the flux of momentum behind it are those ahead of it to within four and five unit roundoffs.",
  "all binary floating-point formats, all densities that do not underflow, all velocities at which a shock is tried", UNC,
  [S+"solve/shock.py:get_v_θ_post", S+"solve/shock.py:get_ρ_post", S+"float_handling.py:FLOAT_TYPE"])
p("C140", "Through every state that is not singular there is exactly one solution of the modified hydrostatic method",
  "The modified hydrostatic method, used without the radial electric field, integrates a system whose right-hand side divides by the field strength, the density, the resistivity, the rotation, the Keplerian speed, two determinants and a coefficient. As long as none of these vanish, two solutions with the same parameters move apart at most exponentially in either direction; if they agree in all quantities at one angle, they agree at every angle above and below it. Through every state at which none of them vanish there is a solution for some range of angles around it, along which the code accepts every state; a solution whose quantities tend to such a state goes on beyond it.",
  "all parameters and switches of the modified hydrostatic system without the radial electric field, all pairs of curves that solve it on an interval without meeting a zero denominator, all pairs of angles of the interval", UNC,
  [S+"solve/mod_hydro.py:ode_system", S+"solve/mod_hydro.py:Z_6_func", S+"solve/mod_hydro.py:Z_7_func", S+"solve/mod_hydro.py:deriv_v_r_func", S+"solve/mod_hydro.py:deriv_v_φ_func"])
p("C141", "The version a run records tells which revision of the code made it",
  "Every output file records a version. In a git checkout it is the nearest tag v..., without the v, followed by the number of commits since and the abbreviated commit unless the checkout is the tagged commit itself, and by a mark if files were changed; in an archive written by git it is a tag of the archived commit. So two output files with the same version were made by the same revision.",
  "all checkouts and archives: all tags, whatever hyphens they have, all distances, commits and lengths of abbreviation, changed or not", UNC,
  [S+"_version_.py:get_versions", S+"_version_.py:git_pieces_from_vcs", S+"_version_.py:git_versions_from_keywords", S+"_version_.py:render_pep440", S+"_version.py:version", S+"solve/__init__.py:solve"])
p("C142", "In floating-point arithmetic an angle survives the conversion to scaled units and back",
  "An angle that is converted to scaled units and back is what it was to within two roundings, whatever the scale; exactly, if the scale is a power of two; and with the default scale neither conversion changes it at all. Neither conversion swaps two angles, though it can make neighbouring ones equal. No angle stays no angle.",
  "all binary floating-point formats, all scales, all angles that do not underflow in either unit", UNC,
  [S+"solve/utils.py:rad_to_scaled", S+"solve/utils.py:scaled_to_rad", S+"float_handling.py:FLOAT_TYPE"])
p("C143", "In floating-point arithmetic the wave speeds are real, positive and ordered",
  "The squares of the speeds of the slow, the Alfvén and the fast wave that are computed for a state are numbers, none is negative, they are in this order, and the slow one is zero only where it is so exactly; so a flow that is faster than one of the waves is faster than the slower ones.",
  "all binary floating-point formats, all fields whose vertical part does not underflow when squared, all positive densities", UNC,
  [S+"critical_points.py:mhd_wave_speeds", S+"critical_points.py:get_mach_numbers"])
p("C144", "The hydrostatic approximations leave the induction equation alone",
  "The hydrostatic methods neglect the vertical motion and the inertia in the radial and the vertical force balance, nothing else: for a state, and for the velocity derivatives they return with it, the derivative of B_φ' they return is the one that the full equations give for a vertical velocity of zero.",
  "all parameters of the two hydrostatic methods without the radial electric field, all angles and states at which no denominator vanishes", UNC,
  [S+"solve/hydrostatic.py:dderiv_B_φ_func", S+"solve/hydrostatic.py:Z_6_func", S+"solve/hydrostatic.py:Z_7_func", S+"solve/mod_hydro.py:Z_6_func", S+"solve/mod_hydro.py:Z_7_func", S+"solve/deriv_funcs.py:dderiv_B_φ_soln"])
p("C145", "The sign of the field and the units do not matter in the hydrostatic methods either",
  "A disc whose field is reversed, together with the sign of the Hall effect, and a disc whose field and density are measured in other units, with a_0 in those units, are the same disc: the hydrostatic methods return the same derivatives for them, reversed and in those units.",
  "all parameters of the two hydrostatic methods without the radial electric field, all units, all angles and states at which no denominator vanishes, all solutions", UNC,
  [S+"solve/hydrostatic.py:ode_system", S+"solve/hydrostatic.py:Z_7_func", S+"solve/mod_hydro.py:ode_system", S+"solve/mod_hydro.py:Z_3_func"])
p("C146", "The hydrostatic methods keep the azimuthal force balance and the budgets of flux and angular momentum",
  "Both hydrostatic methods start at the midplane with gas that flows inwards as fast as the field takes its angular momentum. Along every solution the radial velocity departs from this balance by the same amount at every angle, so gas that starts in balance stays in balance, although only derivatives are integrated. Between two cones the magnetic flux changes by what goes through radially, and, from such a start, so does the angular momentum of gas and field.",
  "all parameters of the two hydrostatic methods without the radial electric field and with velocity derivatives, unscaled angles, all their solutions, all pairs of angles", UNC,
  [S+"solve/hydrostatic.py:ode_system", S+"solve/hydrostatic.py:Z_1_func", S+"solve/hydrostatic.py:deriv_v_r_func", S+"solve/hydrostatic.py:hydrostatic_define_conditions", S+"solve/mod_hydro.py:deriv_v_r_func", S+"solve/mod_hydro.py:deriv_v_φ_func", S+"solve/mod_hydro.py:mod_hydro_define_conditions"])
p("C147", "In the hydrostatic methods pressure carries the weight of the disc",
  "Along every solution of the hydrostatic methods the pressure of gas and field falls from one cone to the next by exactly the weight of what is between them. So where the field is bent outwards and not wound up too strongly the pressure does not rise with height, and the density never exceeds the pressure at the start. Where the field exerts no force, the density is that of an isothermal atmosphere in its own orbital motion.",
  "all parameters of the two hydrostatic methods without the radial electric field, unscaled angles, all their solutions, all pairs of angles", UNC,
  [S+"solve/hydrostatic.py:ode_system", S+"solve/mod_hydro.py:ode_system"])
