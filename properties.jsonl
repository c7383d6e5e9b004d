{"id": "C01", "title": "ODE right-hand side satisfies the continuity equation", "statement": "Whenever the ODE right-hand side reports success for a state with nonzero polar velocity (not sonic) and nonzero density outside Taylor mode, the returned derivatives make the steady self-similar continuity equation (5/2-2β)v_r + v_θ' + v_θ/ρ (ρ' - ρ tan θ) vanish exactly, β=5/4-γ, for both the B_φ' and the E_r formulation and with or without diffusivity derivatives.", "quantifier": "all angles, all 11-component states, all γ, a_0, Kepler norms and flag combinations", "why_tests_cant": "The state space is a continuum of real parameters; a unit test samples isolated points (the repo's test_odes.py tests one vector of sevens).", "anchors": ["src/disc_solver/solve/solution.py:ode_system", "src/disc_solver/analyse/validate_plot.py:validate_continuity"]}
{"id": "C02", "title": "ODE right-hand side keeps the field solenoidal", "statement": "The returned B_θ' satisfies B_θ' = (β-2)B_r + B_θ tan θ in every mode (including Taylor mode).", "quantifier": "all angles, states, parameters, flags", "why_tests_cant": "The state space is a continuum of real parameters; a unit test samples isolated points (the repo's test_odes.py tests one vector of sevens).", "anchors": ["src/disc_solver/solve/solution.py:ode_system", "src/disc_solver/analyse/validate_plot.py:validate_solenoid"]}
{"id": "C03", "title": "ODE right-hand side satisfies radial momentum", "statement": "Outside Taylor mode the returned derivatives make the radial momentum residual (as computed by the validation command) zero.", "quantifier": "all angles, states with nonzero v_θ and ρ, nonnegative Kepler norm, all parameters and flags", "why_tests_cant": "The state space is a continuum of real parameters; a unit test samples isolated points (the repo's test_odes.py tests one vector of sevens).", "anchors": ["src/disc_solver/solve/solution.py:ode_system", "src/disc_solver/analyse/validate_plot.py:validate_radial_momentum"]}
{"id": "C04", "title": "ODE right-hand side satisfies azimuthal momentum", "statement": "Outside Taylor mode the returned derivatives make the azimuthal momentum residual zero.", "quantifier": "all angles, states with nonzero v_θ and ρ, all parameters and flags", "why_tests_cant": "The state space is a continuum of real parameters; a unit test samples isolated points (the repo's test_odes.py tests one vector of sevens).", "anchors": ["src/disc_solver/solve/solution.py:ode_system", "src/disc_solver/analyse/validate_plot.py:validate_azimuthal_mometum"]}
{"id": "C05", "title": "ODE right-hand side satisfies polar momentum", "statement": "Outside Taylor mode and away from v_θ=±1 the returned derivatives make the polar momentum residual zero.", "quantifier": "all angles, states with nonzero v_θ and ρ and v_θ²≠1, all parameters and flags", "why_tests_cant": "The state space is a continuum of real parameters; a unit test samples isolated points (the repo's test_odes.py tests one vector of sevens).", "anchors": ["src/disc_solver/solve/solution.py:ode_system", "src/disc_solver/analyse/validate_plot.py:validate_polar_momentum"]}
{"id": "C06", "title": "ODE right-hand side keeps the azimuthal electric field zero", "statement": "The returned B_r' makes the azimuthal component of the electric field computed from the state vanish (equivalently the polar induction equation of the repo's ODE test holds).", "quantifier": "all angles, states with nonzero magnetic field and nonzero effective diffusivity, all modes", "why_tests_cant": "The state space is a continuum of real parameters; a unit test samples isolated points (the repo's test_odes.py tests one vector of sevens).", "anchors": ["src/disc_solver/solve/deriv_funcs.py:deriv_B_r_func", "src/disc_solver/solve/j_e_funcs.py:E_φ_func", "src/disc_solver/analyse/validate_plot.py:validate_E_φ"]}
{"id": "C07", "title": "The validation command's polar induction residual vanishes on exact derivatives", "statement": "For derivatives produced by the ODE right-hand side itself the polar-induction residual printed by the validation command is zero.", "quantifier": "all states and parameters", "why_tests_cant": "The state space is a continuum of real parameters; a unit test samples isolated points (the repo's test_odes.py tests one vector of sevens).", "anchors": ["src/disc_solver/analyse/validate_plot.py:validate_polar_induction", "src/disc_solver/solve/deriv_funcs.py:deriv_B_r_func"]}
{"id": "C08", "title": "Diffusivities track B²/ρ along a whole solution", "statement": "Along any differentiable solution of the ODE system with diffusivity derivatives enabled, η_X - η_X0·B²/ρ is constant for X in O, A, H; starting from the midplane state built from an input (B=1, ρ=1) it is identically zero, so the three diffusivities keep their initial ratios; with diffusivity derivatives disabled they are constant.", "quantifier": "all differentiable solution curves on an interval, all parameters", "why_tests_cant": "Quantifies over whole solution trajectories of a differential system.", "anchors": ["src/disc_solver/solve/deriv_funcs.py:deriv_η_skw_func", "src/disc_solver/solve/solution.py:ode_system"]}
{"id": "C09", "title": "Field-direction derivatives and the auxiliary A are true derivatives", "statement": "For any differentiable nonvanishing field and diffusivity curves, the returned unit-vector derivatives are the derivatives of B/|B| (hence orthogonal to it) and A is the derivative of C.", "quantifier": "all differentiable curves B(θ), η(θ) and all θ where the denominators are nonzero", "why_tests_cant": "A derivative is a limit statement over all curves.", "anchors": ["src/disc_solver/solve/deriv_funcs.py:B_unit_derivs", "src/disc_solver/solve/deriv_funcs.py:A_func", "src/disc_solver/solve/deriv_funcs.py:C_func"]}
{"id": "C10", "title": "E_r formulation is self-consistent", "statement": "With the electric-field formulation selected, the radial electric field recomputed from the state and the returned derivatives equals the stored E_r.", "quantifier": "all states and parameters with nonzero denominators", "why_tests_cant": "The state space is a continuum of real parameters; a unit test samples isolated points (the repo's test_odes.py tests one vector of sevens).", "anchors": ["src/disc_solver/solve/deriv_funcs.py:deriv_B_φ_func", "src/disc_solver/solve/deriv_funcs.py:Z_5_func", "src/disc_solver/solve/j_e_funcs.py:E_r_func"]}
{"id": "C11", "title": "B_φ'' formulation obeys the steady induction law", "statement": "Along every solution in the B_φ' formulation the radial electric field computed from the state satisfies dE_r/dθ = (γ-3/4) E_θ.", "quantifier": "all differentiable solutions, all parameters", "why_tests_cant": "Derivative along every solution; the repo's own numeric test of it is a tautology.", "anchors": ["src/disc_solver/solve/deriv_funcs.py:dderiv_B_φ_soln", "src/disc_solver/solve/deriv_funcs.py:deriv_E_r_func"]}
{"id": "C12", "title": "Generalised Ohm's law dissipates energy and Hall does no work", "statement": "For a unit field direction, the fluid-frame electric field E' computed by the E functions satisfies E'·b = η_O J·b, E'·J = η_O|J|² + η_A|J_perp|² (independent of η_H), hence E'·J ≥ 0 for nonnegative η_O, η_A.", "quantifier": "all currents, unit vectors, diffusivities", "why_tests_cant": "The state space is a continuum of real parameters; a unit test samples isolated points (the repo's test_odes.py tests one vector of sevens).", "anchors": ["src/disc_solver/solve/j_e_funcs.py", "src/disc_solver/analyse/validate_plot.py:get_E_values"]}
{"id": "C13", "title": "Computed current is divergence free", "statement": "For any twice differentiable toroidal field the current given by the J functions satisfies the self-similar divergence-free condition (γ-1/4)J_r + J_θ' - J_θ tan θ = 0.", "quantifier": "all differentiable B_φ(θ), all γ, all θ", "why_tests_cant": "Quantifies over functions.", "anchors": ["src/disc_solver/solve/j_e_funcs.py:J_r_func", "src/disc_solver/solve/j_e_funcs.py:J_θ_func"]}
{"id": "C14", "title": "Midplane boundary values are regular", "statement": "The initial state built from an input makes the numerators of the radial and azimuthal momentum equations vanish at the midplane, with v_φ the larger root of the resulting quadratic, B_r'=..., E_r consistent with the E_r function; if no real v_φ exists the call fails with a solver error instead of returning a state.", "quantifier": "all inputs with nonzero Ohmic+ambipolar diffusivity and nonzero Alfvén number", "why_tests_cant": "The state space is a continuum of real parameters; a unit test samples isolated points (the repo's test_odes.py tests one vector of sevens).", "anchors": ["src/disc_solver/solve/config.py:define_conditions", "src/disc_solver/solve/config.py:v_φ_boundary_func", "src/disc_solver/solve/config.py:B_φ_prime_boundary_func", "src/disc_solver/solve/config.py:E_r_boundary_func"]}
{"id": "C15", "title": "First-order Taylor coefficients equal the ODE at the midplane", "statement": "At θ=0 and the midplane initial state, the ODE right-hand side in Taylor mode returns exactly the first-order Taylor coefficients used by the Taylor jump, in both formulations.", "quantifier": "all inputs with nonzero denominators", "why_tests_cant": "The state space is a continuum of real parameters; a unit test samples isolated points (the repo's test_odes.py tests one vector of sevens).", "anchors": ["src/disc_solver/solve/deriv_midplane.py:get_taylor_first_order", "src/disc_solver/solve/solution.py:ode_system"]}
{"id": "C16", "title": "Third-order Taylor coefficients are assigned to their own variable", "statement": "The third-order coefficient used for each variable is the third derivative computed for that variable.", "quantifier": "all parameters", "why_tests_cant": "The state space is a continuum of real parameters; a unit test samples isolated points (the repo's test_odes.py tests one vector of sevens).", "anchors": ["src/disc_solver/solve/deriv_midplane.py:get_taylor_third_order"]}
{"id": "C17", "title": "Taylor jump evaluates the cubic Taylor polynomial", "statement": "The state produced by the Taylor jump is the polynomial whose value and first three derivatives at θ=0 are the initial state and the first, second and third order coefficients.", "quantifier": "all coefficient vectors and stop angles", "why_tests_cant": "The state space is a continuum of real parameters; a unit test samples isolated points (the repo's test_odes.py tests one vector of sevens).", "anchors": ["src/disc_solver/solve/solution.py:taylor_jump", "src/disc_solver/solve/solution.py:taylor_solution"]}
{"id": "C18", "title": "After the Taylor start the ODE integration begins where the Taylor part stopped", "statement": "The angle at which the main integration starts is the angle at which its starting state was computed.", "quantifier": "all angle grids and stop angles", "why_tests_cant": "Quantifies over all grids.", "anchors": ["src/disc_solver/solve/solution.py:taylor_jump", "src/disc_solver/solve/solution.py:taylor_solution"]}
{"id": "C19", "title": "The sonic jump lands on the requested velocity", "statement": "The jump across the sonic point moves the state along its tangent so that v_θ increases by exactly before+after; every other component moves by its derivative times the same angle step, and the continued angle grid is strictly increasing and starts at the landing angle when the angular scale is one.", "quantifier": "all states with nonzero v_θ', all increasing grids", "why_tests_cant": "The state space is a continuum of real parameters; a unit test samples isolated points (the repo's test_odes.py tests one vector of sevens).", "anchors": ["src/disc_solver/solve/solution.py:jump_across_sonic"]}
{"id": "C20", "title": "Isothermal shock jump conserves mass and momentum flux", "statement": "The post-shock state conserves ρ v_θ and ρ(v_θ²+1), maps supersonic to subsonic and back, is an involution, and leaves every other component unchanged.", "quantifier": "all states with nonzero v_θ", "why_tests_cant": "The state space is a continuum of real parameters; a unit test samples isolated points (the repo's test_odes.py tests one vector of sevens).", "anchors": ["src/disc_solver/solve/shock.py:get_shock_modified_initial_conditions"]}
{"id": "C21", "title": "MHD wave speeds are real and ordered", "statement": "For positive density and nonzero field the three squared wave speeds are real with 0 ≤ slow ≤ Alfvén ≤ fast, slow ≤ c² ≤ fast, slow+fast = v_a²+c², slow·fast = v_a²c²cos²ψ; therefore a point that is super-fast is super-Alfvénic and super-slow.", "quantifier": "all states and sound speeds", "why_tests_cant": "The state space is a continuum of real parameters; a unit test samples isolated points (the repo's test_odes.py tests one vector of sevens).", "anchors": ["src/disc_solver/critical_points.py:mhd_wave_speeds", "src/disc_solver/critical_points.py:get_mach_numbers"]}
{"id": "C22", "title": "Change to cylindrical components is a rotation", "statement": "Conversion of (r,θ) to (R,z) components preserves length and scalar products, is invertible, is the identity in the midplane and composes by adding angles.", "quantifier": "all vectors and angles", "why_tests_cant": "The state space is a continuum of real parameters; a unit test samples isolated points (the repo's test_odes.py tests one vector of sevens).", "anchors": ["src/disc_solver/utils.py:spherical_r_θ_to_cylindrical_R_z", "src/disc_solver/utils.py:convert_spherical_to_cylindrical"]}
{"id": "C23", "title": "Radial rescaling is a group action preserving Mach numbers", "statement": "Rescaling a solution to radius 1 is the identity, rescaling twice multiplies radii, every slot of the array is written, and Alfvén/velocity ratios are unchanged; in the electric-field formulation it fails with an error.", "quantifier": "all states, positive radii and γ", "why_tests_cant": "The state space is a continuum of real parameters; a unit test samples isolated points (the repo's test_odes.py tests one vector of sevens).", "anchors": ["src/disc_solver/utils.py:scale_solution_to_radii", "src/disc_solver/utils.py:convert_solution_to_vertical"]}
{"id": "C24", "title": "Angular scaling conversions are inverse", "statement": "rad_to_scaled and scaled_to_rad are mutually inverse for a nonzero scale and both preserve absence (None).", "quantifier": "all angles, nonzero scales", "why_tests_cant": "The state space is a continuum of real parameters; a unit test samples isolated points (the repo's test_odes.py tests one vector of sevens).", "anchors": ["src/disc_solver/solve/utils.py:rad_to_scaled", "src/disc_solver/solve/utils.py:scaled_to_rad"]}
{"id": "C25", "title": "Solution validation accepts exactly physical solutions", "statement": "A solution is accepted iff the integrator reported success, and v_θ is nonnegative and nondecreasing and ρ nonnegative on the whole grid.", "quantifier": "all solution arrays, including arrays containing NaN", "why_tests_cant": "Quantifies over arrays of any length.", "anchors": ["src/disc_solver/solve/utils.py:validate_solution", "src/disc_solver/solve/stepper.py:is_solution_best"]}
{"id": "C26", "title": "First-crossing index", "statement": "first_closest_index returns the least index at or past which the target value is reached from the side of the first non-NaN element, and None iff the array never reaches it.", "quantifier": "all arrays (any length, NaN allowed) and targets", "why_tests_cant": "Arrays of any length.", "anchors": ["src/disc_solver/utils.py:first_closest_index"]}
{"id": "C27", "title": "Interpolated crossing angle lies in the crossing interval", "statement": "interp_for_value returns a point between the grid points that bracket the first crossing.", "quantifier": "all grids and sampled values", "why_tests_cant": "Arrays of any length.", "anchors": ["src/disc_solver/utils.py:interp_for_value", "src/disc_solver/critical_points.py:get_all_sonic_points"]}
{"id": "C28", "title": "Deduplication keeps one maximal value per abscissa", "statement": "deduplicate_and_interpolate hands the interpolator pairwise distinct abscissae, exactly those of the input in order of first appearance, each with the maximum of its ordinates.", "quantifier": "all lists", "why_tests_cant": "Lists of any length.", "anchors": ["src/disc_solver/utils.py:deduplicate_and_interpolate"]}
{"id": "C29", "title": "Closest value lookup", "statement": "get_closest_value_sorted returns the y whose x is closest to the requested x.", "quantifier": "all sorted xs", "why_tests_cant": "Lists of any length.", "anchors": ["src/disc_solver/utils.py:get_closest_value_sorted"]}
{"id": "C30", "title": "Solution selection", "statement": "get_solutions returns solution \"0\" by default, the final solution for \"final\", the final solution if there is one and otherwise the highest numbered one for \"latest\", and otherwise the named one.", "quantifier": "all runs", "why_tests_cant": "All histories of adding solutions.", "anchors": ["src/disc_solver/utils.py:get_solutions"]}
{"id": "C31", "title": "Search loop is bounded and its callbacks are exclusive", "statement": "The search calls the solver function at most num_attempts times, the pass callback at most once and only after a success, never steps after a success, calls the stop callback only after a stop signal, and returns None when attempts are exhausted or a step error occurs.", "quantifier": "all (stateful) callbacks and attempt bounds", "why_tests_cant": "All schedules of callback outcomes.", "anchors": ["src/disc_solver/solve/stepper.py:binary_searcher"]}
{"id": "C32", "title": "Step sizes", "statement": "Whatever the sequence of solution types, the step size used at call n is the initial size until the type first differs from the first type, and is halved at that call and at every later call; the first change must come within the first max_search_steps calls, otherwise a step error.", "quantifier": "all sequences of solution types", "why_tests_cant": "All histories.", "anchors": ["src/disc_solver/solve/stepper.py:stepper_creator"]}
{"id": "C33", "title": "Bisection of γ converges", "statement": "If solutions diverge exactly above a critical γ* and flip sign below it, then once a type change has occurred γ after k further steps is within (initial step)/2^k of γ*, and γ never leaves the initial bracket; for arbitrary answers γ stays within the initial step of where bisection started.", "quantifier": "all γ*, all starting values, all step counts", "why_tests_cant": "All histories and real thresholds.", "anchors": ["src/disc_solver/solve/stepper.py:step_input", "src/disc_solver/solve/stepper.py:stepper_creator"]}
{"id": "C34", "title": "Stepping terminates", "statement": "Computing the next input always terminates.", "quantifier": "all step sizes and γ", "why_tests_cant": "Termination for every input.", "anchors": ["src/disc_solver/solve/stepper.py:step_input", "src/disc_solver/solve/stepper.py:solver"]}
{"id": "C35", "title": "Stored solutions keep the input they were computed with", "statement": "After the stepper, or the fast crosser, asks for the next input, the input recorded in the already produced solution is unchanged.", "quantifier": "all solutions and step outcomes", "why_tests_cant": "All histories of mutation.", "anchors": ["src/disc_solver/solve/stepper.py:step_input", "src/disc_solver/solve/fast_crosser.py:stepper_creator"]}
{"id": "C36", "title": "Solutions container numbering", "statement": "Under additions only, solutions are named 0,1,2,... in order, no stored solution is ever overwritten, and the last solution is the most recently added; an add that would overwrite fails leaving the container unchanged.", "quantifier": "all sequences of container operations", "why_tests_cant": "All operation histories.", "anchors": ["src/disc_solver/file_format/_containers.py:Solutions"]}
{"id": "C37", "title": "Final solution is write-once", "statement": "A run's final solution can be set exactly once; later sets fail and leave it unchanged; finalise sets it to the last solution only if it was never set and is idempotent.", "quantifier": "all sequences of operations", "why_tests_cant": "All operation histories.", "anchors": ["src/disc_solver/file_format/_containers.py:Run"]}
{"id": "C38", "title": "Problem log", "statement": "Recording problems never loses or reorders entries: after any sequence of recordings the entries under an angle are exactly those recorded under it in order; merging two logs concatenates per angle; looking up or testing membership does not change the log.", "quantifier": "all sequences of operations", "why_tests_cant": "All operation histories.", "anchors": ["src/disc_solver/file_format/_containers.py:Problems", "src/disc_solver/file_format/_containers.py:InternalData"]}
{"id": "C39", "title": "Internal data concatenation and reversal", "statement": "Joining internal data is associative and preserves the alignment of angles, parameters and derivatives; reversing is an involution that distributes over joining in reverse order.", "quantifier": "all data of any length", "why_tests_cant": "Lists of any length.", "anchors": ["src/disc_solver/file_format/_containers.py:InternalData", "src/disc_solver/file_format/_containers.py:JacobianData"]}
{"id": "C40", "title": "Initial conditions carry consistent diffusivities", "statement": "Every successfully constructed InitialConditions has an 11-component state whose diffusivity slots equal its diffusivity attributes; a conflicting construction fails; create_modified keeps this.", "quantifier": "all constructor argument combinations", "why_tests_cant": "All inputs.", "anchors": ["src/disc_solver/file_format/_containers.py:InitialConditions"]}
{"id": "C41", "title": "Slice and MCMC-variable text round trip", "statement": "Converting a slice or MCMC variable selection to configuration text and back gives the original.", "quantifier": "all slices and selections", "why_tests_cant": "Infinite value space.", "anchors": ["src/disc_solver/file_format/_containers.py:str_to_slice", "src/disc_solver/file_format/_containers.py:slice_to_str", "src/disc_solver/file_format/_containers.py:mcmc_vars_str_to_obj", "src/disc_solver/file_format/_containers.py:MCMCVars"]}
{"id": "C42", "title": "Overrides change exactly the named fields", "statement": "Validated overrides contain only known fields with the last value winning; an unknown field fails; applying them changes exactly the named fields of the configuration.", "quantifier": "all override lists and configurations", "why_tests_cant": "Lists of any length.", "anchors": ["src/disc_solver/solve/utils.py:validate_overrides", "src/disc_solver/solve/utils.py:add_overrides"]}
{"id": "C43", "title": "Re-solving precedence of inputs", "statement": "Merging a stored configuration, a stored solution input and overrides gives a solution input where overridden fields come from the overrides, other fields that differ between configuration and solution come from the solution, and the rest from the configuration.", "quantifier": "all configurations, solution inputs and override sets", "why_tests_cant": "All inputs.", "anchors": ["src/disc_solver/solve/config.py:new_inputs_with_overrides"]}
{"id": "C44", "title": "CSV comments", "statement": "The CSV reader yields exactly the non-comment lines in order and collects exactly the comments in order; comments and metadata written by the writer are read back; data lines are untouched.", "quantifier": "all files", "why_tests_cant": "Files of any length.", "anchors": ["src/disc_solver/solve/utils.py:CSVReaderHelper", "src/disc_solver/solve/utils.py:CSVWriterHelper"]}
{"id": "C45", "title": "CSV column filtering and labels", "statement": "Every input row produced from CSV has the given label, only allowed columns, unchanged values, in file order, one per data row.", "quantifier": "all tables", "why_tests_cant": "Tables of any size.", "anchors": ["src/disc_solver/solve/utils.py:add_labels", "src/disc_solver/solve/utils.py:filter_csv_columns", "src/disc_solver/solve/utils.py:get_csv_inputs"]}
{"id": "C46", "title": "Current file format round trips", "statement": "Dumping any configuration, solution input, run, internal data, initial conditions, solution, problem log, MCMC selection or slice and loading it with the current loader returns an equal object.", "quantifier": "all objects", "why_tests_cant": "Infinite value space.", "anchors": ["src/disc_solver/file_format/_dumpers.py", "src/disc_solver/file_format/_loaders.py"]}
{"id": "C47", "title": "Every older file version still loads", "statement": "For each container class and each historical version, loading a group holding that version's fields succeeds and preserves the stored values, converting β to γ=5/4-β.", "quantifier": "all historical versions and stored values", "why_tests_cant": "All stored contents.", "anchors": ["src/disc_solver/file_format/_loaders.py"]}
{"id": "C48", "title": "Use of the E_r flag is propagated on load", "statement": "Loading a run fills the E_r flag of its configuration and of every solution that lacks it from the run, and never overwrites a present one.", "quantifier": "all runs with any number of solutions", "why_tests_cant": "Any number of solutions.", "anchors": ["src/disc_solver/file_format/_loaders.py:_run_loader5", "src/disc_solver/file_format/_loaders.py:_run_loader6"]}
{"id": "C49", "title": "MCMC keeps the best solution", "statement": "After any sequence of evaluated points the best solution is the first one attaining the maximal finite log probability, every finite-probability solution is stored exactly once in order, and it is None iff none was finite.", "quantifier": "all sequences of evaluations", "why_tests_cant": "All histories.", "anchors": ["src/disc_solver/solve/mcmc.py"]}
{"id": "C50", "title": "MCMC parameter vector round trip", "statement": "Encoding an input into the parameter vector and back leaves it unchanged, and decoding changes only the selected parameters.", "quantifier": "all selections and inputs", "why_tests_cant": "All inputs.", "anchors": ["src/disc_solver/solve/mcmc.py"]}
{"id": "C51", "title": "Golden/bisection crosser keeps its bracket", "statement": "Once it has limits, the fast-point crosser's next radial velocity always lies within the current limits, the limits only shrink, and the search ends when they can no longer be separated.", "quantifier": "all histories of solution outcomes", "why_tests_cant": "All histories.", "anchors": ["src/disc_solver/solve/fast_crosser.py"]}
{"id": "C52", "title": "Evaluating the sonic root function does not change the midplane conditions", "statement": "Building the modified sonic conditions leaves the original initial conditions untouched.", "quantifier": "all inputs and root-solver iterations", "why_tests_cant": "All call histories (aliasing).", "anchors": ["src/disc_solver/solve/sonic_root.py:total_vars_to_mod_cons"]}
{"id": "C53", "title": "Joined solutions are aligned and flagged", "statement": "A solution assembled from Taylor, main and post-sonic parts has as many angles as states, angles strictly increasing, and its flag reports the status of the last integration.", "quantifier": "all segment outcomes", "why_tests_cant": "All outcomes of the integrator.", "anchors": ["src/disc_solver/solve/solution.py:solution", "src/disc_solver/solve/solution.py:main_solution"]}
{"id": "C54", "title": "Conflicting solver options are rejected", "statement": "Incompatible combinations of jump, interpolation, root function and Taylor options fail with a solver error before any integration; compatible ones are accepted.", "quantifier": "all combinations of options", "why_tests_cant": "Combinatorial option space.", "anchors": ["src/disc_solver/solve/solution.py:main_solution"]}
{"id": "C55", "title": "Batch runner output", "statement": "The CSV runner writes one row per input whose solve succeeded with a final solution, in input order, whatever the order in which workers finish; failures are skipped.", "quantifier": "all input lists and outcomes", "why_tests_cant": "Any number of inputs and schedules.", "anchors": ["src/disc_solver/solve/csvrunner.py", "src/disc_solver/solve/hdf5runner.py"]}
{"id": "C56", "title": "Exit status reflects success and an unknown method stores no run", "statement": "The solve command returns status 0 iff the chosen method reported success; an unknown method fails without leaving an output file.", "quantifier": "all methods and outcomes", "why_tests_cant": "All outcomes.", "anchors": ["src/disc_solver/solve/__init__.py:solve", "src/disc_solver/solve/__init__.py:main"]}
{"id": "C57", "title": "Trajectory following makes unit-direction steps", "statement": "Each computed direction is a unit vector equal to the rotated normalised (v_r, v_θ) and independent of the radial power; consecutive points are exactly one step length apart, step lengths never grow, and at most max_steps points are produced.", "quantifier": "all velocity fields, starting points and step counts", "why_tests_cant": "All trajectories.", "anchors": ["src/disc_solver/analyse/trajectory.py"]}
{"id": "C58", "title": "Solution filters", "statement": "A filter \"a-b\" selects every integer from a to b inclusive, single names select themselves, and order is preserved; sorting solutions yields a sorted permutation.", "quantifier": "all filters", "why_tests_cant": "All strings.", "anchors": ["src/disc_solver/analyse/diverge_plot.py:parse_solution_filter", "src/disc_solver/analyse/info.py:sort_solutions"]}
{"id": "C59", "title": "Diffusivity-space exploration varies each diffusivity as named", "statement": "Each generated input in the Taylor-space scan has the Ohmic, Hall and ambipolar values taken from the axis of the same name.", "quantifier": "all grids", "why_tests_cant": "Grids of any size.", "anchors": ["src/disc_solver/solve/taylor_space.py:solution_input_generator"]}
{"id": "C60", "title": "Jacobian shock search test values", "statement": "The shock search tests, in order, exactly the grid points whose v_θ lies strictly between the limits, at angles above the least one and, if only points past the maximum are wanted, above the angle where v_θ is largest.", "quantifier": "all solutions", "why_tests_cant": "Arrays of any length.", "anchors": ["src/disc_solver/solve/shock.py:find_shock_test_values"]}
{"id": "C61", "title": "Hydrostatic auxiliary derivative", "statement": "X_dash is the derivative of X in the hydrostatic and modified hydrostatic solvers.", "quantifier": "all differentiable diffusivities and field directions", "why_tests_cant": "Limit statement.", "anchors": ["src/disc_solver/solve/hydrostatic.py:X_dash_func", "src/disc_solver/solve/hydrostatic.py:X_func"]}
{"id": "C62", "title": "Hydrostatic azimuthal velocity solves the momentum equations", "statement": "Where v_θ = 0 and Ohm's law and azimuthal momentum hold, radial momentum holds exactly when v_φ is a root of the quadratic the hydrostatic right-hand side checks; every such state is accepted; the derivatives of B_r, B_θ and ρ it returns are exactly those of Ohm's law, div B = 0 and polar momentum; and the starting state meets the quadratic with its larger root.", "quantifier": "all curves of states, radii and parameters", "why_tests_cant": "The state space is a continuum of real parameters; a unit test samples isolated points (the repo's test_odes.py tests one vector of sevens).", "anchors": ["src/disc_solver/solve/hydrostatic.py:ode_system", "src/disc_solver/solve/hydrostatic.py:b_func", "src/disc_solver/solve/hydrostatic.py:c_func", "src/disc_solver/solve/hydrostatic.py:hydrostatic_define_conditions"]}
{"id": "C63", "title": "Modified hydrostatic velocities solve the linearised momentum equations", "statement": "The modified-hydrostatic v_φ and v_r satisfy the azimuthal and linearised radial momentum equations at every point, the remaining derivatives satisfy the remaining equations, the starting state is consistent with them and with symmetry about the midplane, and the stored velocities are the ones computed at each angle.", "quantifier": "all states, radii, parameters and root trackers", "why_tests_cant": "The state space is a continuum of real parameters; a unit test samples isolated points (the repo's test_odes.py tests one vector of sevens).", "anchors": ["src/disc_solver/solve/mod_hydro.py:ode_system", "src/disc_solver/solve/mod_hydro.py:v_r_func", "src/disc_solver/solve/mod_hydro.py:fix_solution", "src/disc_solver/solve/mod_hydro.py:mod_hydro_define_conditions"]}
{"id": "C64", "title": "Sonic point derivative decomposition", "statement": "The up/down decomposition used to find v_θ' at the sonic point recombines to the actual derivatives for every v_θ'.", "quantifier": "all states", "why_tests_cant": "The state space is a continuum of real parameters; a unit test samples isolated points (the repo's test_odes.py tests one vector of sevens).", "anchors": ["src/disc_solver/solve/sonic_point.py"]}
{"id": "C65", "title": "Second-order Taylor coefficients are the second derivatives of solutions", "statement": "For every twice differentiable curve that leaves the midplane with the solver's initial state and first-order coefficients and satisfies the equations near the midplane, the second-order coefficients used by the Taylor start are its second derivatives.", "quantifier": "all inputs and all such curves", "why_tests_cant": "Limit statement about every solution curve.", "anchors": ["src/disc_solver/solve/deriv_midplane.py:get_taylor_second_order", "src/disc_solver/solve/deriv_midplane.py:Y_1_func"]}
{"id": "C66", "title": "Angular scaling is a change of variable", "statement": "Solving in the scaled angle x = θ/θ_scale gives the same physical solution as solving in θ: a curve following the scaled system, read in physical angle, follows the unscaled system; and the grid after the sonic jump stays increasing.", "quantifier": "all systems, scales and curves", "why_tests_cant": "Limit statement about every solution curve.", "anchors": ["src/disc_solver/solve/solution.py:ode_system", "src/disc_solver/solve/hydrostatic.py:ode_system", "src/disc_solver/solve/mod_hydro.py:ode_system", "src/disc_solver/solve/solution.py:jump_across_sonic", "src/disc_solver/solve/utils.py:rad_to_scaled"]}
{"id": "C67", "title": "Conversion at constant cylindrical radius", "statement": "Cylindrical conversion gives, at each latitude, the values of the self-similar fluid on the cylinder of unit radius, and heights in units of the scale height.", "quantifier": "all states, latitudes and c_s/v_k", "why_tests_cant": "The state space is a continuum of real parameters; a unit test samples isolated points (the repo's test_odes.py tests one vector of sevens).", "anchors": ["src/disc_solver/utils.py:convert_spherical_to_cylindrical", "src/disc_solver/utils.py:get_vertical_scaling"]}
{"id": "C68", "title": "Reported MHD speeds are the wave speeds of the equations solved", "statement": "The slow, Alfvén and fast speeds used for Mach numbers and critical points are exactly the phase speeds of linear waves along θ in the fluid whose equations are being solved (magnetic coupling a_0).", "quantifier": "all states with B_θ ≠ 0, all couplings and phase speeds", "why_tests_cant": "The state space is a continuum of real parameters; a unit test samples isolated points (the repo's test_odes.py tests one vector of sevens).", "anchors": ["src/disc_solver/critical_points.py:mhd_wave_speeds"]}
{"id": "C69", "title": "Tangential electric field is continuous across the shock", "statement": "The tangential electric field E_r of the post-shock state equals that of the pre-shock state.", "quantifier": "all states", "why_tests_cant": "The state space is a continuum of real parameters; a unit test samples isolated points (the repo's test_odes.py tests one vector of sevens).", "anchors": ["src/disc_solver/solve/shock.py:get_shock_modified_initial_conditions"]}
{"id": "C70", "title": "Physical normalisation is consistent", "statement": "The normalisation gives v_norm² = (c_s/v_k)² G M / r, η_norm = r v_norm, and the physical Alfvén speed of a normalised state is v_norm times that of the normalised equations with coupling (v_a/c_s)².", "quantifier": "all inputs, radii, masses and densities", "why_tests_cant": "The state space is a continuum of real parameters; a unit test samples isolated points (the repo's test_odes.py tests one vector of sevens).", "anchors": ["src/disc_solver/utils.py:get_normalisation"]}
{"id": "C73", "title": "Automatic splitter", "statement": "The automatic splitter judges every rejected solution as diverging or sign-flipping (never anything else), a recorded negative velocity is a sign flip, its judgement depends on the computed v_θ and the v_θ derivatives only, and an unknown splitter name falls back to the automatic splitter.", "quantifier": "all solutions, problem logs, derivative tables and names", "why_tests_cant": "The state space is a continuum of real parameters; a unit test samples isolated points (the repo's test_odes.py tests one vector of sevens).", "anchors": ["src/disc_solver/solve/stepper.py:v_θ_deriv_splitter", "src/disc_solver/solve/stepper.py:create_soln_splitter"]}
{"id": "C74", "title": "The step search finds the transonic solution", "statement": "If solutions diverge above some γ* and flip sign below it, every γ within ε of γ* is accepted, and γ* is within (max_search_steps-1) initial steps of a positive starting γ, then with enough attempts the step solver reports success, the run's final solution is an accepted one, and every attempt is stored in order.", "quantifier": "all thresholds, tolerances, starting values, attempt counts and acceptance tests", "why_tests_cant": "The state space is a continuum of real parameters; a unit test samples isolated points (the repo's test_odes.py tests one vector of sevens).", "anchors": ["src/disc_solver/solve/stepper.py:solver", "src/disc_solver/solve/stepper.py:stepper_creator", "src/disc_solver/solve/stepper.py:step_input"]}
{"id": "C75", "title": "A run loaded from an older file can be saved again", "statement": "Whatever was loaded from a file of an older version can be written by the current version, and reading that gives the same object.", "quantifier": "all stored objects of all historical versions", "why_tests_cant": "All stored contents of every version.", "anchors": ["src/disc_solver/file_format/_loaders.py", "src/disc_solver/file_format/_dumpers.py"]}
{"id": "C71", "title": "Configuration file round trip", "statement": "A configuration written to a configuration file and read back is the same configuration, and gives the solver the same input; options that are None stay None.", "quantifier": "all configurations whose values are plain text or None", "why_tests_cant": "The state space is a continuum of real parameters; a unit test samples isolated points (the repo's test_odes.py tests one vector of sevens).", "anchors": ["src/disc_solver/file_format/_containers.py:ConfigInput.to_conf_file", "src/disc_solver/solve/config.py:get_input_from_conffile"]}
{"id": "C72", "title": "Solver input and configuration agree", "statement": "Turning a solver input into a configuration and back gives the same solver input, also through the file written by the configuration dump command; this holds for every solver input the program can hold.", "quantifier": "all solver inputs", "why_tests_cant": "The state space is a continuum of real parameters; a unit test samples isolated points (the repo's test_odes.py tests one vector of sevens).", "anchors": ["src/disc_solver/file_format/_containers.py:SolutionInput.to_config_input", "src/disc_solver/file_format/_containers.py:ConfigInput.to_soln_input", "src/disc_solver/analyse/dump_config.py:dump_cfg"]}
{"id": "C76", "title": "Integration stops at the requested velocity", "statement": "The stopping function vanishes exactly where v_θ equals the requested velocity; on every continuous trajectory that starts below the target and reaches it there is a first such angle, at which v_θ is the target and before which it is below.", "quantifier": "all targets and continuous trajectories", "why_tests_cant": "Every trajectory.", "anchors": ["src/disc_solver/solve/utils.py:velocity_stop_generator"]}
{"id": "C77", "title": "Internal data records every accepted call", "statement": "With recording on, after any sequence of right-hand-side calls the internal data holds, in order, the physical angle, the state and the returned derivatives of exactly the accepted calls, and the problem log holds exactly the rejected ones under their angles; with recording off there is none.", "quantifier": "all systems and call sequences", "why_tests_cant": "Every call history.", "anchors": ["src/disc_solver/solve/solution.py:ode_system", "src/disc_solver/file_format/_containers.py:InternalData", "src/disc_solver/file_format/_containers.py:Problems"]}
{"id": "C78", "title": "Stored radial electric field obeys Faraday's law", "statement": "In the electric-field formulation the radial electric field of the state and the polar field of Ohm's law satisfy the azimuthal component of curl E = 0 at every radius, along every solution.", "quantifier": "all solutions, radii and parameters", "why_tests_cant": "Derivative along every solution.", "anchors": ["src/disc_solver/solve/deriv_funcs.py:deriv_E_r_func", "src/disc_solver/solve/solution.py:ode_system"]}
{"id": "C79", "title": "Batch results can be used as batch inputs", "statement": "The table written by the CSV runner, given to it as input, stands for exactly the solver inputs that were written, in order; also when the table was made by several runs appending to it.", "quantifier": "all batches, schedules and final inputs", "why_tests_cant": "Every table, over the writer, the comment filter, the CSV parser and the conversions.", "anchors": ["src/disc_solver/solve/csvrunner.py:csvrunner", "src/disc_solver/solve/utils.py:get_csv_inputs", "src/disc_solver/file_format/_containers.py:ConfigInput.to_soln_input"]}
{"id": "C80", "title": "A method that reports success leaves a final solution", "statement": "If the single, step, MCMC or fast-crosser method reports success, the run's final solution is a solution the method computed; if it reports failure, there is none.", "quantifier": "all runs, inputs and solver outcomes", "why_tests_cant": "Every history of attempts.", "anchors": ["src/disc_solver/solve/single.py:solver", "src/disc_solver/solve/stepper.py:solver", "src/disc_solver/solve/mcmc.py:solver", "src/disc_solver/solve/fast_crosser.py:solver"]}
{"id": "C81", "title": "Existing files are never changed", "statement": "Whatever a solve, re-solve or batch does, a file that existed before is unchanged; a solve onto an existing name fails with a file error; a solve that crashes leaves what was stored so far; and a batch processes all its inputs.", "quantifier": "all file systems, methods, batches and crash points", "why_tests_cant": "Every file system and crash point.", "anchors": ["src/disc_solver/solve/__init__.py:solve", "src/disc_solver/solve/resolve.py:resolve", "src/disc_solver/solve/hdf5runner.py:SolutionFinder"]}
{"id": "C82", "title": "The fast crosser keeps the best solution", "statement": "The fast crosser stores every solution it computes once, an attempt without a solution does not end the search, and its final solution is one of those that reached furthest.", "quantifier": "all histories of solution outcomes", "why_tests_cant": "All histories.", "anchors": ["src/disc_solver/solve/fast_crosser.py:solver", "src/disc_solver/solve/fast_crosser.py:solution_generator"]}
{"id": "C83", "title": "The grid of angles", "statement": "A solve's angles are as many as num_angles says, start at the start angle and end at the stop angle (both given in degrees), are evenly spaced, and increase when start is below stop.", "quantifier": "all inputs", "why_tests_cant": "All counts and end points.", "anchors": ["src/disc_solver/solve/config.py:define_conditions"]}
{"id": "C84", "title": "The shock search saves each shock once and harms nothing", "statement": "Every test of the shock search that gives a solution of at least five angles leaves a file holding that solution alone, as the final one, marked post-shock and naming its origin; a failing test affects no other; no existing file is changed; the outcome does not depend on the order of the tests; a test is reported exactly if its file is saved and the figure of the saved solution is drawn.", "quantifier": "all solver outcomes, file systems and orders of the tests", "why_tests_cant": "Every schedule and failure pattern.", "anchors": ["src/disc_solver/solve/shock.py:ShockFinder", "src/disc_solver/solve/shock.py:compute_shock"]}
{"id": "C85", "title": "The sonic root method", "statement": "The first guess of the sonic state is the straight line through the last two points of the midplane solution taken at sonic speed; the function whose root is sought vanishes exactly when the solution from the sonic point meets the one from the midplane in angle, velocity, field and density; a stored solution is the one from the midplane followed by the reversed one from the sonic point; the integration from the sonic point is asked for equally spaced angles from the guessed sonic point to the end of the midplane solution; and an integration from the sonic point that ends normally yields a stored solution.", "quantifier": "all solutions, guesses and root solver histories", "why_tests_cant": "Every history of the root solver.", "anchors": ["src/disc_solver/solve/sonic_root.py:solver", "src/disc_solver/solve/sonic_root.py:generate_root_func", "src/disc_solver/solve/sonic_root.py:get_root_results", "src/disc_solver/solve/sonic_root.py:guess_root_vals"]}
{"id": "C86", "title": "Hydrostatic velocity derivatives", "statement": "The derivatives of v_r, v_φ and B_φ' returned by the hydrostatic right-hand side are those of the velocities solving its momentum equations; at the midplane, where these are even functions, they vanish.", "quantifier": "all inputs and differentiable curves", "why_tests_cant": "Limit statement about every curve.", "anchors": ["src/disc_solver/solve/hydrostatic.py:Z_3_func", "src/disc_solver/solve/hydrostatic.py:deriv_v_r_func", "src/disc_solver/solve/hydrostatic.py:dderiv_B_φ_func"]}
{"id": "C87", "title": "Critical points of a solution", "statement": "For a solution that starts slower than the slow wave, the index answered for each critical point is the first row whose Mach number is at least one and none if there is no such row; the angle answered is where the line through the neighbouring samples reaches one; and both come in the order slow, Alfvén, fast and slow, sonic, fast.", "quantifier": "all solutions with positive density and nonzero B_θ", "why_tests_cant": "The state space is a continuum of real parameters; a unit test samples isolated points (the repo's test_odes.py tests one vector of sevens).", "anchors": ["src/disc_solver/critical_points.py:get_critical_point_indices", "src/disc_solver/critical_points.py:get_all_sonic_points"]}
{"id": "C88", "title": "crosses-points", "statement": "The info command prints the last critical point a solution has crossed; a solution for which it prints a point has crossed the ones before it.", "quantifier": "all solutions that start slower than the slow wave", "why_tests_cant": "The state space is a continuum of real parameters; a unit test samples isolated points (the repo's test_odes.py tests one vector of sevens).", "anchors": ["src/disc_solver/analyse/info.py:info", "src/disc_solver/critical_points.py:get_all_sonic_points"]}
{"id": "C89", "title": "Jacobians of a solution", "statement": "The matrix computed for a row of a solution tends, as the step tends to zero, to the matrix of partial derivatives of the right-hand side the integrator was given; it depends on that row alone; the coefficients answered reproduce the solution from the eigenvectors and the critical row; and if the critical point is not reached the last row takes its place.", "quantifier": "all states with a field, positive density, Ohmic diffusion and a velocity off the sonic speed; all solutions", "why_tests_cant": "Limit statement about every state.", "anchors": ["src/disc_solver/analyse/compute_jacobian.py:compute_jacobian", "src/disc_solver/analyse/compute_jacobian.py:compute_jacobian_at_index", "src/disc_solver/analyse/compute_jacobian.py:get_eigenvector_coef_around_critical_point"]}
{"id": "C90", "title": "The component plot", "statement": "For every equation of the component plot the parts drawn add up to the curve labelled all terms, and that curve is the derivative the integrator computes times the factor the equation carries; solutions holding E_r are refused.", "quantifier": "all rows, angles and parameters", "why_tests_cant": "The state space is a continuum of real parameters; a unit test samples isolated points (the repo's test_odes.py tests one vector of sevens).", "anchors": ["src/disc_solver/analyse/component_plot.py:compute_components", "src/disc_solver/analyse/component_plot.py:generate_plot"]}
{"id": "C91", "title": "Statistics of a solution", "statement": "In the table of statistics each maximal Mach number is the greatest among the rows where it is a number, with the angle of the first row that has it, and is not a number if there is none; the flags say whether v_θ rises up to twenty degrees and ends at ten at most; the maximal angle is the greatest angle; each max_diff entry bounds by how much its equation is violated; max_B_p_on_B_t is the greatest ratio of the poloidal to the toroidal field.", "quantifier": "all solutions with a row", "why_tests_cant": "The state space is a continuum of real parameters; a unit test samples isolated points (the repo's test_odes.py tests one vector of sevens).", "anchors": ["src/disc_solver/analyse/stats.py:compute_max_difference_in_equations", "src/disc_solver/analyse/stats.py:get_max_mach_numbers", "src/disc_solver/analyse/stats.py:compute_B_poloidal_vs_B_toroidal", "src/disc_solver/analyse/stats.py:is_v_θ_monotonic"]}
{"id": "C92", "title": "Mass fluxes", "statement": "M_dot_out is the mass that leaves per unit time through the two cones at the last latitude between the two radii; M_dot_in is the net mass that enters through the two spheres; for a solution that conserves mass their ratio is one; Σ is a property of the solution, not of the grid it is sampled on.", "quantifier": "all solutions, radii and grids", "why_tests_cant": "Statement about integrals of every solution.", "anchors": ["src/disc_solver/analyse/phys_ratio_plot.py:compute_M_dot_out", "src/disc_solver/analyse/phys_ratio_plot.py:compute_M_dot_in", "src/disc_solver/analyse/phys_ratio_plot.py:compute_M_dot_out_on_M_dot_in", "src/disc_solver/analyse/phys_ratio_plot.py:compute_Σ"]}
{"id": "C93", "title": "Tables of statistics over many files", "statement": "ds-stats adds to its output file one header and then, file by file and solution by solution in order, one row per solution with every value in the column of its name; a file that cannot be read or a solution whose statistics cannot be computed costs no other row; read back, the file holds the names of the columns and the solutions, each once.", "quantifier": "all files, readable or not, all solutions, all failures, all earlier contents of the output file", "why_tests_cant": "Any number of files and solutions failing at any point.", "anchors": ["src/disc_solver/analyse/stats.py:write_stats", "src/disc_solver/analyse/stats.py:get_all_solutions", "src/disc_solver/analyse/stats.py:compute_solution_stats", "src/disc_solver/analyse/stats.py:FIELD_NAMES"]}
{"id": "C94", "title": "Tables of solutions as batch inputs", "statement": "A table made by ds-dumpcsv, ds-dump or ds-stats can be given to the CSV runner: its rows stand for exactly the inputs of the solutions in it, in order; also if it was made by several commands.", "quantifier": "all solutions and result files", "why_tests_cant": "Every table, over the writers, the comment filter, the CSV parser and the conversions.", "anchors": ["src/disc_solver/analyse/stats.py:write_inputs", "src/disc_solver/analyse/stats.py:write_stats", "src/disc_solver/analyse/dump_csv.py:dump_csv", "src/disc_solver/solve/utils.py:get_csv_inputs"]}
{"id": "C95", "title": "Runs of the hydrostatic and mod_hydro methods", "statement": "A run of either method starts exactly one integration, over the angles of the input from its midplane state, and stores what it returned as solution 0 and as the final solution; a method that reports success has integrated the disc over those angles; the internal data holds every call of the right-hand side that succeeded and reports every one that was rejected, and its lists belong together; an input the method cannot handle is refused before any integration and leaves the run as it was.", "quantifier": "all inputs, integrator answers and histories of calls", "why_tests_cant": "Every answer of the integrator and every history of calls.", "anchors": ["src/disc_solver/solve/hydrostatic.py:solver", "src/disc_solver/solve/hydrostatic.py:solution", "src/disc_solver/solve/hydrostatic.py:hydrostatic_solution", "src/disc_solver/solve/mod_hydro.py:solver", "src/disc_solver/solve/mod_hydro.py:solution", "src/disc_solver/solve/mod_hydro.py:mod_hydro_solution"]}
{"id": "C96", "title": "Residuals of hydro-check", "statement": "Each curve of hydro-check vanishes where the solution satisfies the equation of its method that the curve is named after; the numbers printed are the greatest residuals in the range of angles.", "quantifier": "all differentiable curves of states without vertical velocity, all ranges", "why_tests_cant": "The state space is a continuum of real parameters; a unit test samples isolated points (the repo's test_odes.py tests one vector of sevens).", "anchors": ["src/disc_solver/analyse/hydro_check_plot.py:generate_hydro_check_plot", "src/disc_solver/analyse/hydro_check_plot.py:validate_hydro_azimuthal_mometum", "src/disc_solver/analyse/hydro_check_plot.py:validate_radial_momentum_mod_φ"]}
{"id": "C97", "title": "Figures of the eight-panel plots", "statement": "Each panel of ds-plot, ds-vert-plot, ds-compare-plot, ds-derivs-plot and ds-params-plot shows the quantity its label names, at exactly the samples in the range asked for, with the wave speeds, sonic point and roots asked for; ds-compare-plot draws every solution given, each in its own colour and measured from its own Keplerian speed; a figure does not depend on what the same process plotted before, nor do the settings the common function hands out.", "quantifier": "all solutions, options and histories of plots in one process", "why_tests_cant": "Every history of plots, and every solution.", "anchors": ["src/disc_solver/analyse/utils.py:get_common_arguments", "src/disc_solver/analyse/utils.py:COMMON_ARGUMENTS", "src/disc_solver/analyse/utils.py:distinct_color_map", "src/disc_solver/analyse/utils.py:plot_log_lines", "src/disc_solver/analyse/plot.py:generate_plot", "src/disc_solver/analyse/vert_plot.py:generate_plot", "src/disc_solver/analyse/compare_plot.py:generate_plot", "src/disc_solver/analyse/derivs_plot.py:generate_derivs_plot", "src/disc_solver/analyse/params_plot.py:generate_params_plot"]}
{"id": "C98", "title": "Physical units, conservation and surface density plots", "statement": "Every line of ds-combine-plot shows the quantity it is named after in the unit on its axis, the Alfvén line being the Alfvén speed of the gas; ds-conserve-plot draws ρ v_θ of every solution of a file, which is flat for a flow that conserves mass; ds-surface-density draws the column density of the flow, whatever grid it is sampled on and from the start of the range.", "quantifier": "all solutions, units, ranges and grids", "why_tests_cant": "Statement about every flow and every grid.", "anchors": ["src/disc_solver/analyse/combine_plot.py:generate_plot_combine", "src/disc_solver/analyse/conserve_plot.py:generate_conserve_plot", "src/disc_solver/analyse/surface_density_plot.py:generate_surface_density_plot"]}
{"id": "C99", "title": "Taylor, accretion, Mach ratio and derivative plots", "statement": "ds-taylor-plot shows every recorded derivative, or the ratio of the two formulae, at its angle in degrees; ds-sonic-ratio-plot and ds-v-deriv-cmp draw every solution given, the former the ratio of v_θ to the wave speeds; ds-acc-plot draws the accretion and wind rates; all of them for the samples in the range asked for, and they refuse solutions without the data they need.", "quantifier": "all solutions, internal data and ranges", "why_tests_cant": "Every history of recorded calls and every range.", "anchors": ["src/disc_solver/analyse/taylor_plot.py:generate_taylor_plot", "src/disc_solver/analyse/acc_plot.py:generate_acc_plot", "src/disc_solver/analyse/sonic_ratio_plot.py:generate_plot", "src/disc_solver/analyse/v_deriv_cmp.py:generate_plot"]}
{"id": "C100", "title": "What a configuration file means", "statement": "For every configuration file, every option of the solver's input is the text the file gives for it in its section, or its documented default when the file does not give it; overrides come on top, the last one winning; everything else in the file is ignored.", "quantifier": "all configuration files and override lists", "why_tests_cant": "Files with any sections and options.", "anchors": ["src/disc_solver/solve/config.py:get_input_from_conffile", "src/disc_solver/solve/utils.py:add_overrides"]}
{"id": "C101", "title": "Where log messages go", "statement": "The terminal shows exactly the messages from its own threshold on (errors with -q, everything from debug on with -v, else --stderr-level); a log file, if one was asked for, receives exactly the messages from its own threshold on, whatever the terminal shows; handlers set up before the command receive nothing.", "quantifier": "all logging options, all sequences of messages, all outer handlers", "why_tests_cant": "Every sequence of messages under every combination of options.", "anchors": ["src/disc_solver/logging.py:log_handler", "src/disc_solver/logging.py:logging_options", "src/disc_solver/logging.py:enable_multiprocess_log_handing"]}
{"id": "C102", "title": "What a plotting command draws", "statement": "A single-solution command draws exactly the solution asked for, under the title asked for or FILE:RANGE; a multi-solution command draws every pair of file and solution given, in order, each under its own name, and leaves out only what cannot be loaded; an all-solutions command draws the solutions in the order in which they were added; the figure is saved and shown exactly as asked.", "quantifier": "all result files, option values and lists of solutions", "why_tests_cant": "Every result file and every list of solutions.", "anchors": ["src/disc_solver/analyse/utils.py:single_solution_plotter", "src/disc_solver/analyse/utils.py:multiple_solution_plotter", "src/disc_solver/analyse/utils.py:analysis_func_wrapper", "src/disc_solver/analyse/utils.py:analysis_func_wrapper_multisolution", "src/disc_solver/analyse/utils.py:analyse_main_wrapper", "src/disc_solver/analyse/utils.py:analyse_main_wrapper_multisolution", "src/disc_solver/analyse/utils.py:analyse_multisolution_wrapper", "src/disc_solver/analyse/utils.py:plot_output_wrapper", "src/disc_solver/analyse/compare_plot.py:compare_plot"]}
{"id": "C103", "title": "Divergence, current and field, validation and ratio plots; the speed of the jet", "statement": "ds-diverge-plot draws v_θ of every solution selected, in its own colour, with the wave speeds asked for; ds-j-e-plot draws the current of the magnetic field and the electric field of Ohm's law; ds-validate-plot draws the residuals of the equations and prints the greatest of each, which is zero for what the solver recorded; ds-phys-ratio-plot draws one point per solution whose colour tells v_r and whose marker a_0; ds-stats reports the greatest vertical speed of the flow on the cylinder of radius 1 with its height.", "quantifier": "all solutions, ranges, selections and recorded data", "why_tests_cant": "The state space is a continuum of real parameters; a unit test samples isolated points (the repo's test_odes.py tests one vector of sevens).", "anchors": ["src/disc_solver/analyse/diverge_plot.py:generate_diverge_plot", "src/disc_solver/analyse/diverge_plot.py:diverge_plot", "src/disc_solver/analyse/j_e_plot.py:generate_plot", "src/disc_solver/analyse/validate_plot.py:generate_validate_plot", "src/disc_solver/analyse/phys_ratio_plot.py:generate_plot", "src/disc_solver/analyse/stats.py:compute_max_vert_jet_velocity"]}
{"id": "C104", "title": "Options of the plotting commands take effect", "statement": "For every plotting command and every command line: it is refused exactly when it names too few or too many files, has an option the command does not take, a text the option cannot take, or two alternatives; otherwise the drawing is made with exactly the value of the last occurrence of each option, or its documented default when it is absent, for the file and solution named, and ds-flow-file writes the trajectories.", "quantifier": "every command line (any sequence of options and texts) of 20 plotting commands and of ds-flow-file, every way of reading numbers from texts, every file", "why_tests_cant": "the sequences of options are unbounded, and whether an option has an effect depends on every function between the parser and the drawing", "anchors": ["src/disc_solver/analyse/utils.py:common_plotting_options", "src/disc_solver/analyse/utils.py:get_common_plot_args", "src/disc_solver/analyse/utils.py:analyse_main_wrapper", "src/disc_solver/analyse/utils.py:analyse_main_wrapper_multisolution", "src/disc_solver/analyse/utils.py:analyse_multisolution_wrapper", "src/disc_solver/analyse/utils.py:single_solution_plotter", "src/disc_solver/analyse/utils.py:multiple_solution_plotter", "src/disc_solver/analyse/trajectory.py:traj_main", "src/disc_solver/analyse/trajectory.py:get_args", "src/disc_solver/analyse/trajectory.py:save_trajectory", "src/disc_solver/analyse/vert_plot.py:plot_parser", "src/disc_solver/analyse/compute_jacobian.py:eigen_parser", "src/disc_solver/analyse/compute_jacobian.py:get_eigen_args"]}
{"id": "C105", "title": "Saved trajectories", "statement": "Saving the trajectories of a solution writes three files: the critical angles and the greatest angle, the streamline, and the field line; each names its source, and the lines hold every position reached by steps of the length asked for, with the direction of the flow or field there, until the steps are used up or a step and a hundredth of it leave the solution. No existing file is changed. Either all three files are written or none.", "quantifier": "all solutions, start positions, step lengths, numbers of steps, file names and existing files", "why_tests_cant": "Every set of existing files and every solution.", "anchors": ["src/disc_solver/analyse/trajectory.py:save_trajectory", "src/disc_solver/analyse/trajectory.py:follow_trajectory", "src/disc_solver/solve/utils.py:CSVWriterHelper"]}
{"id": "C106", "title": "Drawn trajectories", "statement": "The trajectory plot draws exactly the positions that saving writes, the streamline and the field line; a line through the origin for each angle asked for that the solution has; and the line at the greatest angle of the streamline, which touches the streamline and has no position of it above.", "quantifier": "all solutions, start positions, step lengths, numbers of steps and choices of angles", "why_tests_cant": "The state space is a continuum of real parameters; a unit test samples isolated points (the repo's test_odes.py tests one vector of sevens).", "anchors": ["src/disc_solver/analyse/trajectory.py:generate_plot", "src/disc_solver/analyse/trajectory.py:get_trajectory"]}
{"id": "C107", "title": "Options of the solving commands take effect", "statement": "For ds-soln, ds-resoln, ds-csvrunner and ds-hdf5runner and every command line: it is refused with status 2 exactly when it does not have the positional arguments, has an option the command does not take, a text the option cannot take, or two alternatives; an override of a field that does not exist is an error before anything is written; otherwise the work is done with the value of the last occurrence of each option or its default, with paths expanded and each overridden field at the value given last, messages are handled as the logging options say, and ds-soln and ds-resoln exit with 0 only if the chosen method reported success and its finished run is in a new file named as asked.", "quantifier": "every command line (any sequence of options and texts), every way of expanding paths and reading numbers, every method, every set of existing files", "why_tests_cant": "the sequences of options are unbounded, and whether an option has an effect depends on every function between the parser and the solver", "anchors": ["src/disc_solver/solve/utils.py:add_solver_arguments", "src/disc_solver/solve/utils.py:add_worker_arguments", "src/disc_solver/solve/__init__.py:main", "src/disc_solver/solve/resolve.py:main", "src/disc_solver/solve/csvrunner.py:main", "src/disc_solver/solve/hdf5runner.py:main", "src/disc_solver/logging.py:log_handler"]}
{"id": "C108", "title": "ds-info prints what was asked for", "statement": "For every command line ds-info is refused with status 2 exactly when it does not name a file, a solution and a documented group or has a wrong option; otherwise the group asked for is printed to the given stream: all attributes of the input, the initial conditions or the configuration of the run, one line each from which name and value can be read back; the state of the solution; the angles of the four critical points, None for one not reached; the fastest point crossed; the angle of the sonic point in units of the scale height; or the names of all solutions ordered by log probability. The groups about the run do not depend on the solution named.", "quantifier": "every command line, every run with any solutions and attributes, every text of a value", "why_tests_cant": "attribute names, values, numbers of solutions and which points are reached range over unbounded sets", "anchors": ["src/disc_solver/analyse/info.py:info_main", "src/disc_solver/analyse/info.py:info", "src/disc_solver/analyse/info.py:info_parser"]}
{"id": "C109", "title": "Export commands only change the output asked for", "statement": "For ds-tocsv, ds-tocfg, ds-stats and ds-dumpcsv and every command line: it is refused exactly when the positional arguments are missing or an option is unknown or used wrongly; otherwise only the output named last with --file (standard output if none or '-') is changed; ds-tocsv, ds-stats and ds-dumpcsv add to what it held, ds-tocfg replaces it by the configuration of the solution; if the result file or the solution cannot be found nothing is changed, and a command that fails leaves an existing file as it was.", "quantifier": "every command line, every state of the file system, every result file and solution", "why_tests_cant": "which file changes and what it held before depend on the whole history of the file system", "anchors": ["src/disc_solver/analyse/dump_csv.py:dump_main", "src/disc_solver/analyse/dump_config.py:dump_main", "src/disc_solver/analyse/stats.py:many_file_wrapper", "src/disc_solver/analyse/stats.py:stats_main", "src/disc_solver/analyse/stats.py:dump_csv_inputs_main", "src/disc_solver/utils.py:open_or_stream"]}
{"id": "C110", "title": "Eigenvalue and eigenvector plots show the whole spectrum", "statement": "For every solution with at least one Jacobian: the eigenvalue plot shows, for every sample in the range of angles with a finite Jacobian, the real and the imaginary part of every eigenvalue at the angle of the sample, the sign by the marker, in the colour and under the number of the eigenvalue; a part that is zero and a sample whose Jacobian is not finite show nothing, and nothing else is shown. The eigenvector plot has a panel for every eigenvalue with that eigenvalue in black and each component of its eigenvector in the same way. The norm plot has the squared length of each eigenvector, so one everywhere for unit eigenvectors.", "quantifier": "every sequence of angles and Jacobians, finite or not, every answer of the eigenvalue routine, every range", "why_tests_cant": "the number of samples, which Jacobians are finite and the spectra are arbitrary", "anchors": ["src/disc_solver/analyse/compute_jacobian.py:plot_jacobian_eigenvalues", "src/disc_solver/analyse/compute_jacobian.py:plot_jacobian_eigenvectors", "src/disc_solver/analyse/compute_jacobian.py:plot_jacobian_eigenvector_norm", "src/disc_solver/analyse/compute_jacobian.py:plot_log_complex_data"]}
{"id": "C111", "title": "Batches over worker processes", "statement": "ds-csvrunner, ds-hdf5runner and ds-shock: for every schedule of the workers at most as many items are worked on at once as workers were asked for, items are started in order and each is worked on exactly once whatever fails; what is written and printed and how the command ends are those of handling the results one after another in input order, at any moment the beginning of that; the command ends, and with status 0 exactly if no item and no handling of a result raised an error. ds-shock tests the solution named of the file named and leaves the same files for every schedule. A number of workers below one is reported as such and nothing is done.", "quantifier": "every schedule, every pattern of results and errors, every moment the command may be stopped at, every command line", "why_tests_cant": "schedules and failures interleave in unboundedly many ways", "anchors": ["src/disc_solver/utils.py:nicer_mp_pool", "src/disc_solver/solve/csvrunner.py:csvrunner", "src/disc_solver/solve/hdf5runner.py:hdf5runner", "src/disc_solver/solve/shock.py:compute_shock", "src/disc_solver/solve/shock.py:shock_main"]}
{"id": "C112", "title": "A whole MCMC run", "statement": "The MCMC method starts each of its walkers at the varied parameters of the input, each changed by a tenth of its value times the normal number drawn for it. A point is worth minus infinity if a parameter is not positive or its midplane or solve fails with the solver's own error, otherwise -10 exp(-max v_θ) minus the sum of the squares of the changes of the squared steps of v_θ, which is negative and larger for a faster flow that is equally uneven. For every sampler the run tries the starting positions and then, for each iteration, two groups of proposals; it keeps every solution with a score in order and ends with the first of the best, whatever single points give.", "quantifier": "every input, every draw of random numbers, every sampler (any function of what was tried before), every outcome of every solve", "why_tests_cant": "the points tried depend on all random draws and on all earlier outcomes", "anchors": ["src/disc_solver/solve/mcmc.py:solver", "src/disc_solver/solve/mcmc.py:generate_initial_positions", "src/disc_solver/solve/mcmc.py:get_logprob_of_soln", "src/disc_solver/solve/mcmc.py:get_outflow_rate_probability", "src/disc_solver/solve/mcmc.py:LogProbGenerator"]}
{"id": "C113", "title": "Splitting by hand", "statement": "With split method human: at every question the user sees a plot of all solutions judged so far, numbered from 0 in order; they are asked until a line, white space around it apart, is 'sign flip', 'diverge' or 'STOP', with one complaint for every other line, and that line is the answer. Whatever they type, the run holds the solutions shown that have a flag, in order, and at most one more. After any sequence of answers STOP makes the solution last shown the final one and the command succeeds; if the typing ends without an answer the command fails, keeps the solutions shown and has no final one.", "quantifier": "every sequence of lines typed, every outcome of the solves, every number of attempts and search steps, any arithmetic", "why_tests_cant": "sessions are unbounded and the inputs solved depend on all answers before", "anchors": ["src/disc_solver/solve/stepper.py:human_view_splitter_generator", "src/disc_solver/solve/stepper.py:stepper_creator", "src/disc_solver/solve/stepper.py:alternate_cleanup_generator", "src/disc_solver/solve/stepper.py:solver"]}
{"id": "C114", "title": "The plot of the Taylor space", "statement": "ds-plot-taylor-space ends, whatever samples are drawn, with a figure of 10000 points: each sample has a midplane state and no divisor of the coefficients is zero. The row of each point holds its own γ, v_rin/c_s, v_a/c_s and c_s/v_k in the order of the names, and the outputs are the coefficients of θ² at the midplane of the disc with these parameters and the diffusivities asked for (η_O = 0.005, η_A = 0.001, η_H = 0.008). The two numbers printed are the least such coefficients of v_r and of v_φ. The axis limits leave points to be seen.", "quantifier": "every draw of 10000 samples within the ranges", "why_tests_cant": "The state space is a continuum of real parameters; a unit test samples isolated points (the repo's test_odes.py tests one vector of sevens).", "anchors": ["src/disc_solver/solve/taylor_space.py:main", "src/disc_solver/solve/taylor_space.py:plot_taylor_space", "src/disc_solver/solve/taylor_space.py:compute_taylor_space", "src/disc_solver/solve/taylor_space.py:solution_input_generator"]}
{"id": "C115", "title": "The lower half of the disc is the mirror image of the upper", "statement": "The mirror image of every curve the solver's right-hand side accepts (θ to -θ, with v_θ, B_r and B_φ changing sign) follows the same system below the midplane, with the Taylor terms too. The midplane state of every input is its own mirror image, and a Taylor step taken downwards arrives at the mirror image of where the step upwards arrives. So solving one half is enough.", "quantifier": "all systems, curves, angles, inputs and steps", "why_tests_cant": "The state space is a continuum of real parameters; a unit test samples isolated points (the repo's test_odes.py tests one vector of sevens).", "anchors": ["src/disc_solver/solve/solution.py:ode_system", "src/disc_solver/solve/config.py:define_conditions", "src/disc_solver/solve/solution.py:taylor_jump"]}
{"id": "C116", "title": "Field sign, sense of rotation and units do not matter", "statement": "Outside the Taylor region: reversing the magnetic field together with the sign of the Hall diffusivity, reversing the rotation together with that sign, and changing the units of field and density (a_0 and the midplane diffusivities change with them) each take every solution to a solution. So only the sign of the Hall effect relative to field and rotation matters.", "quantifier": "all systems without Taylor terms, all curves, angles and positive units", "why_tests_cant": "The state space is a continuum of real parameters; a unit test samples isolated points (the repo's test_odes.py tests one vector of sevens).", "anchors": ["src/disc_solver/solve/solution.py:ode_system", "src/disc_solver/solve/deriv_funcs.py"]}
{"id": "C117", "title": "The Taylor start does not care which way round the disc turns", "statement": "The Taylor coefficients of a disc that turns the other way round, with the Hall diffusivity changing sign, are those of the disc with the signs of the azimuthal components changed.", "quantifier": "all midplane states", "why_tests_cant": "The state space is a continuum of real parameters; a unit test samples isolated points (the repo's test_odes.py tests one vector of sevens).", "anchors": ["src/disc_solver/solve/deriv_midplane.py:taylor_series", "src/disc_solver/solve/deriv_midplane.py:Y_2_func", "src/disc_solver/solve/deriv_midplane.py:Y_3_func"]}
{"id": "C118", "title": "In floating-point arithmetic the step search ends at two neighbouring numbers of opposite type", "statement": "If solutions diverge above some bound, flip sign below another, and are judged in any pattern between the two, then the step search ends by itself with success: its final solution is the only one accepted, or none was accepted, the final one diverges, and the one for the next smaller floating-point number flips sign. Without acceptance it takes at most one attempt per bit of precision more than the search for the first change of type, and the loop that enlarges the last step runs at most five times. (All numbers visited have one exponent.)", "quantifier": "all binary floating-point formats, judges, acceptance tests, starting values and first steps", "why_tests_cant": "The state space is a continuum of real parameters; a unit test samples isolated points (the repo's test_odes.py tests one vector of sevens).", "anchors": ["src/disc_solver/solve/stepper.py:step_input", "src/disc_solver/solve/stepper.py:stepper_creator", "src/disc_solver/solve/stepper.py:solver", "src/disc_solver/float_handling.py:FLOAT_TYPE"]}
{"id": "C119", "title": "In floating-point arithmetic the step search ends next to the threshold, also when it crosses a power of two", "statement": "If solutions diverge above a threshold and flip sign below it, then the step search ends by itself with success; if no solution was accepted, the final one diverges, and the one for the next smaller floating-point number flips sign, wherever the search has passed.", "quantifier": "all binary floating-point formats, thresholds, acceptance tests, starting values and first steps, searches over two neighbouring ranges of exponents", "why_tests_cant": "The state space is a continuum of real parameters; a unit test samples isolated points (the repo's test_odes.py tests one vector of sevens).", "anchors": ["src/disc_solver/solve/stepper.py:step_input", "src/disc_solver/solve/stepper.py:stepper_creator", "src/disc_solver/solve/stepper.py:solver", "src/disc_solver/float_handling.py:FLOAT_TYPE"]}
{"id": "C120", "title": "A run records where it came from, and solving it again gives the same solution", "statement": "However a solving command ends, a file it leaves holds a run with the configuration that was solved (overrides included), the configuration file, version, float type and method, the E_r flag of the input that the method was given, and the file and solution it is based on; files that were there are unchanged. Re-solving without overrides gives the same solution, however often. A file that is not named is named after the label of the run in it.", "quantifier": "all configuration files, overrides, old runs, table rows, methods that only add solutions, and any number of re-solves", "why_tests_cant": "The state space is a continuum of real parameters; a unit test samples isolated points (the repo's test_odes.py tests one vector of sevens).", "anchors": ["src/disc_solver/solve/__init__.py:solve", "src/disc_solver/solve/resolve.py:resolve", "src/disc_solver/solve/hdf5runner.py:SolutionFinder", "src/disc_solver/solve/config.py:new_inputs_with_overrides", "src/disc_solver/solve/single.py:solver"]}
{"id": "C121", "title": "Plain dictionaries in old files come back as they were written", "statement": "A dictionary with text keys that is stored in a file and read back has the same keys with the same values, in whatever order the file lists them.", "quantifier": "all dictionaries and orders of listing", "why_tests_cant": "The state space is a continuum of real parameters; a unit test samples isolated points (the repo's test_odes.py tests one vector of sevens).", "anchors": ["src/disc_solver/file_format/_old_dict_loading.py:_dict_dumper", "src/disc_solver/file_format/_old_dict_loading.py:_dict_loader", "src/disc_solver/file_format/__init__.py:registries"]}
{"id": "C122", "title": "A solution is determined by where it starts", "statement": "Two solutions of the system on the same interval, away from its singular states, move apart at most exponentially in either direction; so if they agree at one angle, they agree at every angle. A solution that runs through the midplane is its own mirror image if its state there is.", "quantifier": "all systems (Taylor mode, interpolated v_θ', both ways of following the azimuthal field), all pairs of regular solutions, intervals and angles", "why_tests_cant": "The state space is a continuum of real parameters; a unit test samples isolated points (the repo's test_odes.py tests one vector of sevens).", "anchors": ["src/disc_solver/solve/solution.py:ode_system", "src/disc_solver/solve/deriv_funcs.py"]}
{"id": "C123", "title": "Solutions that start physical stay physical", "statement": "Outside the Taylor region, a solution with positive density at one angle has positive density at every angle it reaches without its vertical velocity vanishing. So the checks for negative density and velocity never stop an exact solution that starts with positive ones, and diffusivities that follow B²/ρ keep their signs while there is a field.", "quantifier": "all systems without Taylor terms, all solutions, intervals and angles", "why_tests_cant": "The state space is a continuum of real parameters; a unit test samples isolated points (the repo's test_odes.py tests one vector of sevens).", "anchors": ["src/disc_solver/solve/solution.py:ode_system", "src/disc_solver/solve/deriv_funcs.py:deriv_η_skw_func"]}
{"id": "C124", "title": "The output of the batch runner is a table", "statement": "What ds-csvrunner adds to its output is a table that a batch can read again: comments, column names and one row per input with a solution, whether the output is a file or standard output, and whatever the tasks print.", "quantifier": "all batches, outcomes, outputs and orders in which the processes print", "why_tests_cant": "The state space is a continuum of real parameters; a unit test samples isolated points (the repo's test_odes.py tests one vector of sevens).", "anchors": ["src/disc_solver/solve/csvrunner.py:csvrunner", "src/disc_solver/solve/csvrunner.py:SolutionFinder", "src/disc_solver/utils.py:open_or_stream"]}
{"id": "C125", "title": "Mass, magnetic flux and angular momentum between two angles add up", "statement": "Between any two angles of an exact solution, the mass, the magnetic flux and the angular momentum (of gas and field together) that pass through the two cones differ exactly by what the radial flow brings in between them; in a disc that accretes everywhere between the two angles the vertical mass flux grows with height exactly if γ is positive.", "quantifier": "all solver parameters, solutions and pairs of angles, including a start at the midplane", "why_tests_cant": "The state space is a continuum of real parameters; a unit test samples isolated points (the repo's test_odes.py tests one vector of sevens).", "anchors": ["src/disc_solver/solve/solution.py:ode_system", "src/disc_solver/solve/deriv_funcs.py"]}
{"id": "C126", "title": "The error of a numerical solution is bounded by the error of its slopes", "statement": "Away from the singular states, a curve whose slopes are those the code computes up to an error, and which starts up to an error where a solution starts, stays close to that solution: one constant, which depends only on the parameters of the solver, the interval and the distance kept from the singular states, bounds the error of all such curves; so a solver whose errors tend to zero finds the solution, equally well at all angles.", "quantifier": "all solver parameters, intervals, margins, exact solutions and approximations of them", "why_tests_cant": "The state space is a continuum of real parameters; a unit test samples isolated points (the repo's test_odes.py tests one vector of sevens).", "anchors": ["src/disc_solver/solve/solution.py:ode_system", "src/disc_solver/solve/deriv_funcs.py"]}
{"id": "C127", "title": "The error of the Taylor start is of third order in the stop angle", "statement": "With a Taylor start the integration begins at the stop angle, at a state computed from the midplane. The difference between that state and the solution that leaves the midplane at that angle is at most a multiple of the third power of the stop angle, so that halving the stop angle divides it by about eight.", "quantifier": "all inputs with midplane values, curves that leave the midplane regularly and satisfy the equations, switches and quantities", "why_tests_cant": "The state space is a continuum of real parameters; a unit test samples isolated points (the repo's test_odes.py tests one vector of sevens).", "anchors": ["src/disc_solver/solve/solution.py:taylor_jump", "src/disc_solver/solve/deriv_midplane.py:get_taylor_second_order", "src/disc_solver/solve/deriv_midplane.py:get_taylor_first_order"]}
{"id": "C128", "title": "A small change of the parameters changes the solution little", "statement": "Outside the Taylor region and away from the singular states, two solutions for different γ, a_0, Keplerian speed and diffusivities in the midplane stay as close, up to constants which depend only on the first set of parameters, the interval, the margin and the bounds, as their parameters and the states they start from are; so the solution depends continuously on the parameters, equally well at all angles. A neighbouring guess in a search for a solution gives a neighbouring solution.", "quantifier": "all solver parameters, intervals, margins, bounds, second sets of parameters and pairs of exact solutions", "why_tests_cant": "The state space is a continuum of real parameters; a unit test samples isolated points (the repo's test_odes.py tests one vector of sevens).", "anchors": ["src/disc_solver/solve/solution.py:ode_system", "src/disc_solver/solve/deriv_funcs.py"]}
{"id": "C129", "title": "Through every state that is not singular there is exactly one solution", "statement": "Through every state with gas, field, Ohmic diffusion and rising gas, not at the sound speed, there is a solution of the system the code integrates, on an interval around the angle, and no other. One length of the interval serves all states that keep the same distance from the singular ones. So a solution goes on until it nears a singular state, the axis, or a quantity grows without bound: nothing else ends it.", "quantifier": "all solver parameters, angles, states that are not singular, and solutions that keep a margin", "why_tests_cant": "The state space is a continuum of real parameters; a unit test samples isolated points (the repo's test_odes.py tests one vector of sevens).", "anchors": ["src/disc_solver/solve/solution.py:ode_system", "src/disc_solver/solve/deriv_funcs.py"]}
{"id": "C130", "title": "With nearly the same parameters and start there is nearly the same solution", "statement": "If a solution keeps a distance from the singular states on an interval of angles, then every set-up of the same system with nearly the same γ, field strength, Keplerian speed and midplane diffusivities has, from nearly the same start, a solution on the whole interval, and it stays as close to the first as required. So the outcome an observer of the run sees does not hang on the last digit: gas that passes a given speed (or stays below it, or slows down again, which the step search calls a sign flip) does so for all set-ups and starts nearby.", "quantifier": "all solutions with a margin, all distances, and all set-ups and starts within a tolerance", "why_tests_cant": "The state space is a continuum of real parameters; a unit test samples isolated points (the repo's test_odes.py tests one vector of sevens).", "anchors": ["src/disc_solver/solve/solution.py:ode_system", "src/disc_solver/solve/deriv_funcs.py", "src/disc_solver/solve/stepper.py:solution_generator"]}
{"id": "C131", "title": "Between a sign flip and no sign flip there is an edge, and the solution at the edge does not slow down", "statement": "The step search changes γ until the vertical speed neither falls again (a sign flip) nor diverges. For set-ups that depend continuously on a number such as γ, with gas that slows down at one end of a range of numbers and does not at the other, there is an edge: for all numbers below it the gas slows down, at the edge it does not. At the edge the vertical speed never falls, up to the last angle or up to an angle where the solution has used up any given distance from the singular states. The sign of the slope of the vertical speed at the start decides the behaviour at once. The set-ups the search tries, the same input with γ varied and the start after the Taylor jump, are such a family where the midplane rotates and the Taylor coefficients are defined.", "quantifier": "all continuous families of set-ups and starts, all ranges, all margins", "why_tests_cant": "The state space is a continuum of real parameters; a unit test samples isolated points (the repo's test_odes.py tests one vector of sevens).", "anchors": ["src/disc_solver/solve/stepper.py:v_θ_deriv_splitter", "src/disc_solver/solve/stepper.py:solver", "src/disc_solver/solve/solution.py:ode_system", "src/disc_solver/solve/solution.py:taylor_jump", "src/disc_solver/solve/config.py:define_conditions"]}
{"id": "C132", "title": "The step search converges to a solution that does not slow down, whatever the answers on the way", "statement": "In exact arithmetic, for any solutions that are each said to diverge or to flip their sign, in whatever order along γ: if the step search meets both answers within the steps it may take, the values of γ it tries converge, the distance to the limit halving with every attempt, and next to the limit, as near as one likes, there are both answers. If sign flip means that the gas slows down, then at the limit it does not, although just below it does; the vertical speed of the solution at the limit never falls, up to the last angle or until any given distance from the singular states is used up.", "quantifier": "all answers, starting values, numbers of steps, continuous families of set-ups; for the code's own set-ups all inputs with a regular midplane", "why_tests_cant": "The state space is a continuum of real parameters; a unit test samples isolated points (the repo's test_odes.py tests one vector of sevens).", "anchors": ["src/disc_solver/solve/stepper.py:solver", "src/disc_solver/solve/stepper.py:stepper_creator", "src/disc_solver/solve/stepper.py:step_input", "src/disc_solver/solve/stepper.py:v_θ_deriv_splitter", "src/disc_solver/solve/solution.py:taylor_jump"]}
{"id": "C133", "title": "The flow passes the speed of sound only where what drives it vanishes", "statement": "The right-hand side divides by 1 - v_θ². What is divided, the drive of the polar momentum balance, is continuous through the speed of sound. Gas can come up to the speed of sound only where the drive is not negative; where it is positive the acceleration grows without bound (what the step search calls divergence), so a bounded acceleration means that the drive is zero. A flow that passes from below to above the speed of sound without a jump has a drive of exactly zero there; if the drive has a rate of change k along the flow there, k is not positive and the flow passes without a kink, with the acceleration √(-k/2). Below the speed of sound, the angle needed from one speed to another is bounded on both sides by the drive.", "quantifier": "all set-ups without interpolated derivative, all curves whose vertical speed obeys the system (so all solutions), all sonic points with regular field, density and diffusivities", "why_tests_cant": "The state space is a continuum of real parameters; a unit test samples isolated points (the repo's test_odes.py tests one vector of sevens).", "anchors": ["src/disc_solver/solve/solution.py:ode_system", "src/disc_solver/solve/solution.py:jump_across_sonic", "src/disc_solver/solve/sonic_root.py:solver"]}
{"id": "C134", "title": "On every fine grid the automatic splitter gives the answer that fits the gas between the grid points", "statement": "Without stored internal data the splitter sees the vertical speed at the grid angles only. Its answer is 'diverge' exactly if a sample lies between the cutoff and the sound speed and either a sample exceeds the sound speed or no later sample near the sound speed is smaller than an earlier one; 'sign flip' otherwise. For every vertical speed that changes continuously there is a spacing below which every grid, uniform or not, gives one and the same answer, and it is the one the same rule gives for all angles, not only those of the grid. A 'sign flip' from samples that come near to the sound speed is never wrong: the gas does slow down, in the sense used in C131 and C132.", "quantifier": "all cutoffs, all continuous speeds, all ranges, all increasing grids as fine as the spacing the theorem gives; all regular solutions", "why_tests_cant": "The state space is a continuum of real parameters; a unit test samples isolated points (the repo's test_odes.py tests one vector of sevens).", "anchors": ["src/disc_solver/solve/stepper.py:v_θ_deriv_splitter", "src/disc_solver/utils.py:is_monotonically_increasing"]}
{"id": "C135", "title": "On fine grids the acceptance of a solution means what it should between the grid points too", "statement": "A stored solution is validated, and judged to be the best one, by its samples. For every vertical speed and density that change continuously there is a spacing below which all grids give the same verdict of validity: valid exactly if neither is ever negative and the gas never slows down, at any angle. There is a number of angles from which on all evenly spaced grids, and so all inputs with that many angles, give the same verdict on whether the solution is a best one: it is exactly if it is valid in that sense, comes within a tenth of the sound speed without reaching it, and bends down while it is there.", "quantifier": "all continuous speeds and densities, all ranges, all increasing grids as fine as the spacing (validity), all inputs with at least the number of angles (best)", "why_tests_cant": "The state space is a continuum of real parameters; a unit test samples isolated points (the repo's test_odes.py tests one vector of sevens).", "anchors": ["src/disc_solver/solve/utils.py:validate_solution", "src/disc_solver/solve/stepper.py:is_solution_best", "src/disc_solver/solve/config.py:define_conditions"]}
{"id": "C136", "title": "Through every state that is not singular there is exactly one hydrostatic solution", "statement": "The hydrostatic method integrates a system whose right-hand side divides by the field strength, the density, the resistivity, the rotation, the root of a discriminant, a determinant and a coefficient. As long as none of these vanish, two solutions of it with the same parameters, whatever the switches for the derivatives of the resistivities and of the velocities, move apart at most exponentially in either direction; if they agree in all quantities at one angle, they agree at every angle above and below it. And through every state at which none of them vanish there is a solution for some range of angles around it, along which the code accepts every state; a solution whose quantities tend to such a state goes on beyond it, so that a solution can only end at a singular state or without a limit.", "quantifier": "all parameters and switches of the hydrostatic system, all pairs of curves that solve it on an interval without meeting a zero denominator, all pairs of angles of the interval", "why_tests_cant": "The state space is a continuum of real parameters; a unit test samples isolated points (the repo's test_odes.py tests one vector of sevens).", "anchors": ["src/disc_solver/solve/hydrostatic.py:ode_system", "src/disc_solver/solve/hydrostatic.py:dderiv_B_φ_func", "src/disc_solver/solve/hydrostatic.py:Z_6_func", "src/disc_solver/solve/hydrostatic.py:deriv_v_r_func"]}
{"id": "C137", "title": "Rounding cannot make the right-hand side divide by zero", "statement": "In floating-point arithmetic no component of the direction of the field the solver computes exceeds one. So with Ohmic diffusion the denominators of C, A and B_r', and Z_5, are at least the Ohmic diffusivity, whatever the rounding; and what the polar momentum balance is divided by has the sign it should have on either side of the speed of sound and is zero only at the speed of sound itself.", "quantifier": "all binary floating-point formats, all fields whose largest component has a square that does not underflow, all diffusivities and velocities that are numbers of the format", "why_tests_cant": "The state space is a continuum of real parameters; a unit test samples isolated points (the repo's test_odes.py tests one vector of sevens).", "anchors": ["src/disc_solver/solve/solution.py:ode_system", "src/disc_solver/solve/deriv_funcs.py:C_func", "src/disc_solver/solve/deriv_funcs.py:Z_5_func", "src/disc_solver/solve/deriv_funcs.py:deriv_B_r_func", "src/disc_solver/solve/deriv_funcs.py:A_func", "src/disc_solver/float_handling.py:FLOAT_TYPE"]}
{"id": "C138", "title": "In floating-point arithmetic the grid of angles is accurate and increases", "statement": "The angles at which a solution is asked for start at the given start and end at the given stop, each converted from degrees to radians. Every angle between is the evenly spaced one to within a dozen unit roundoffs of the larger end angle. The angles strictly increase.", "quantifier": "all binary floating-point formats of eleven bits or more, all ends, all numbers of angles for which the format has room", "why_tests_cant": "The state space is a continuum of real parameters; a unit test samples isolated points (the repo's test_odes.py tests one vector of sevens).", "anchors": ["src/disc_solver/solve/config.py:define_conditions", "src/disc_solver/solve/hydrostatic.py", "src/disc_solver/solve/mod_hydro.py", "src/disc_solver/float_handling.py:FLOAT_TYPE"]}
{"id": "C139", "title": "In floating-point arithmetic a shock conserves mass and momentum to a few roundings", "statement": "The flow behind a shock, as computed, is slower than sound and not thinner than the flow ahead of it. The flux of mass and the flux of momentum behind it are those ahead of it to within four and five unit roundoffs.", "quantifier": "all binary floating-point formats, all densities that do not underflow, all velocities at which a shock is tried", "why_tests_cant": "The state space is a continuum of real parameters; a unit test samples isolated points (the repo's test_odes.py tests one vector of sevens).", "anchors": ["src/disc_solver/solve/shock.py:get_v_θ_post", "src/disc_solver/solve/shock.py:get_ρ_post", "src/disc_solver/float_handling.py:FLOAT_TYPE"]}
{"id": "C140", "title": "Through every state that is not singular there is exactly one solution of the modified hydrostatic method", "statement": "The modified hydrostatic method, used without the radial electric field, integrates a system whose right-hand side divides by the field strength, the density, the resistivity, the rotation, the Keplerian speed, two determinants and a coefficient. As long as none of these vanish, two solutions with the same parameters move apart at most exponentially in either direction; if they agree in all quantities at one angle, they agree at every angle above and below it. Through every state at which none of them vanish there is a solution for some range of angles around it, along which the code accepts every state; a solution whose quantities tend to such a state goes on beyond it.", "quantifier": "all parameters and switches of the modified hydrostatic system without the radial electric field, all pairs of curves that solve it on an interval without meeting a zero denominator, all pairs of angles of the interval", "why_tests_cant": "The state space is a continuum of real parameters; a unit test samples isolated points (the repo's test_odes.py tests one vector of sevens).", "anchors": ["src/disc_solver/solve/mod_hydro.py:ode_system", "src/disc_solver/solve/mod_hydro.py:Z_6_func", "src/disc_solver/solve/mod_hydro.py:Z_7_func", "src/disc_solver/solve/mod_hydro.py:deriv_v_r_func", "src/disc_solver/solve/mod_hydro.py:deriv_v_φ_func"]}
{"id": "C141", "title": "The version a run records tells which revision of the code made it", "statement": "Every output file records a version. In a git checkout it is the nearest tag v..., without the v, followed by the number of commits since and the abbreviated commit unless the checkout is the tagged commit itself, and by a mark if files were changed; in an archive written by git it is a tag of the archived commit. So two output files with the same version were made by the same revision.", "quantifier": "all checkouts and archives: all tags, whatever hyphens they have, all distances, commits and lengths of abbreviation, changed or not", "why_tests_cant": "The state space is a continuum of real parameters; a unit test samples isolated points (the repo's test_odes.py tests one vector of sevens).", "anchors": ["src/disc_solver/_version_.py:get_versions", "src/disc_solver/_version_.py:git_pieces_from_vcs", "src/disc_solver/_version_.py:git_versions_from_keywords", "src/disc_solver/_version_.py:render_pep440", "src/disc_solver/_version.py:version", "src/disc_solver/solve/__init__.py:solve"]}
{"id": "C142", "title": "In floating-point arithmetic an angle survives the conversion to scaled units and back", "statement": "An angle that is converted to scaled units and back is what it was to within two roundings, whatever the scale; exactly, if the scale is a power of two; and with the default scale neither conversion changes it at all. Neither conversion swaps two angles, though it can make neighbouring ones equal. No angle stays no angle.", "quantifier": "all binary floating-point formats, all scales, all angles that do not underflow in either unit", "why_tests_cant": "The state space is a continuum of real parameters; a unit test samples isolated points (the repo's test_odes.py tests one vector of sevens).", "anchors": ["src/disc_solver/solve/utils.py:rad_to_scaled", "src/disc_solver/solve/utils.py:scaled_to_rad", "src/disc_solver/float_handling.py:FLOAT_TYPE"]}
{"id": "C143", "title": "In floating-point arithmetic the wave speeds are real, positive and ordered", "statement": "The squares of the speeds of the slow, the Alfvén and the fast wave that are computed for a state are numbers, none is negative, they are in this order, and the slow one is zero only where it is so exactly; so a flow that is faster than one of the waves is faster than the slower ones.", "quantifier": "all binary floating-point formats, all fields whose vertical part does not underflow when squared, all positive densities", "why_tests_cant": "The state space is a continuum of real parameters; a unit test samples isolated points (the repo's test_odes.py tests one vector of sevens).", "anchors": ["src/disc_solver/critical_points.py:mhd_wave_speeds", "src/disc_solver/critical_points.py:get_mach_numbers"]}
{"id": "C144", "title": "The hydrostatic approximations leave the induction equation alone", "statement": "The hydrostatic methods neglect the vertical motion and the inertia in the radial and the vertical force balance, nothing else: for a state, and for the velocity derivatives they return with it, the derivative of B_φ' they return is the one that the full equations give for a vertical velocity of zero.", "quantifier": "all parameters of the two hydrostatic methods without the radial electric field, all angles and states at which no denominator vanishes", "why_tests_cant": "The state space is a continuum of real parameters; a unit test samples isolated points (the repo's test_odes.py tests one vector of sevens).", "anchors": ["src/disc_solver/solve/hydrostatic.py:dderiv_B_φ_func", "src/disc_solver/solve/hydrostatic.py:Z_6_func", "src/disc_solver/solve/hydrostatic.py:Z_7_func", "src/disc_solver/solve/mod_hydro.py:Z_6_func", "src/disc_solver/solve/mod_hydro.py:Z_7_func", "src/disc_solver/solve/deriv_funcs.py:dderiv_B_φ_soln"]}
{"id": "C145", "title": "The sign of the field and the units do not matter in the hydrostatic methods either", "statement": "A disc whose field is reversed, together with the sign of the Hall effect, and a disc whose field and density are measured in other units, with a_0 in those units, are the same disc: the hydrostatic methods return the same derivatives for them, reversed and in those units.", "quantifier": "all parameters of the two hydrostatic methods without the radial electric field, all units, all angles and states at which no denominator vanishes, all solutions", "why_tests_cant": "The state space is a continuum of real parameters; a unit test samples isolated points (the repo's test_odes.py tests one vector of sevens).", "anchors": ["src/disc_solver/solve/hydrostatic.py:ode_system", "src/disc_solver/solve/hydrostatic.py:Z_7_func", "src/disc_solver/solve/mod_hydro.py:ode_system", "src/disc_solver/solve/mod_hydro.py:Z_3_func"]}
{"id": "C146", "title": "The hydrostatic methods keep the azimuthal force balance and the budgets of flux and angular momentum", "statement": "Both hydrostatic methods start at the midplane with gas that flows inwards as fast as the field takes its angular momentum. Along every solution the radial velocity departs from this balance by the same amount at every angle, so gas that starts in balance stays in balance, although only derivatives are integrated. Between two cones the magnetic flux changes by what goes through radially, and, from such a start, so does the angular momentum of gas and field.", "quantifier": "all parameters of the two hydrostatic methods without the radial electric field and with velocity derivatives, unscaled angles, all their solutions, all pairs of angles", "why_tests_cant": "The state space is a continuum of real parameters; a unit test samples isolated points (the repo's test_odes.py tests one vector of sevens).", "anchors": ["src/disc_solver/solve/hydrostatic.py:ode_system", "src/disc_solver/solve/hydrostatic.py:Z_1_func", "src/disc_solver/solve/hydrostatic.py:deriv_v_r_func", "src/disc_solver/solve/hydrostatic.py:hydrostatic_define_conditions", "src/disc_solver/solve/mod_hydro.py:deriv_v_r_func", "src/disc_solver/solve/mod_hydro.py:deriv_v_φ_func", "src/disc_solver/solve/mod_hydro.py:mod_hydro_define_conditions"]}
{"id": "C147", "title": "In the hydrostatic methods pressure carries the weight of the disc", "statement": "Along every solution of the hydrostatic methods the pressure of gas and field falls from one cone to the next by exactly the weight of what is between them. So where the field is bent outwards and not wound up too strongly the pressure does not rise with height, and the density never exceeds the pressure at the start. Where the field exerts no force, the density is that of an isothermal atmosphere in its own orbital motion.", "quantifier": "all parameters of the two hydrostatic methods without the radial electric field, unscaled angles, all their solutions, all pairs of angles", "why_tests_cant": "The state space is a continuum of real parameters; a unit test samples isolated points (the repo's test_odes.py tests one vector of sevens).", "anchors": ["src/disc_solver/solve/hydrostatic.py:ode_system", "src/disc_solver/solve/mod_hydro.py:ode_system"]}
