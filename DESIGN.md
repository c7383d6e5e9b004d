# Design of the Rocq model of DiscSolver

Source: `/repo` (aragilar/DiscSolver at the pinned commit), read as text; nothing was built or run.
Properties: `properties.jsonl` (C01…). Status and theorems per property: `MANIFEST.json`.
Wrong programs tried against the theorems: `seeded/mutants.py` (the edits), `seeded/LOG.jsonl` (what failed).

## Layout (`rocq/theories`)

| file family | content |
|---|---|
| `Lib_Py.v` | the reading of Python used everywhere: exceptions as results, insertion-ordered dictionaries, `str`/`int` of numbers |
| `Lib_Deriv.v` | differentiation lemmas and a tactic; nothing about the code |
| `Model_*.v` | Gallina definitions, one per Python function, each citing file and lines. No proofs. |
| `Spec_*.v` | small independent specifications (the MHD equations in spherical coordinates, abstract maps, what a filter means, …) |
| `Proofs_*.v` | lemmas |
| `Props_*.v` | the property theorems (`Cnn_…`), each followed by an `Example` with a concrete case that meets its hypotheses |
| `Witness_*.v` | larger concrete states and curves used by those examples and by refutations |

Two model files are generated from the source text and committed: `Model_FormatTables.v` (`tools/gen_format.py`,
the tables of dumpers, loaders and container fields) and the straight-line formulas of `Model_Hydro.v`,
`Model_ModHydro.v` and `Model_SonicPoint.v` (`tools/gen_hydro.py`, `tools/py2coq.py`; output inspected and committed).
The generators are not needed for the build.

## Modelling conventions

* Floating point numbers in the physics part are modelled as Coq reals `R`: **rounding is not modelled**, except in the step search (Model_Float.v, C118, C119) in the denominators of the right-hand side (Model_FloatRhs.v, C137), in the grid of angles (Model_FloatGrid.v, C138), in the jump of a shock (Model_FloatShock.v, C139), in the scaling of angles (Model_FloatScale.v, C142) and in the wave speeds (Model_FloatWaves.v, C143).
  Where NaN matters (validation, index search, best-so-far, crossing search) a float is `option R`, `None` being NaN, and
  every comparison with NaN is false.
* numpy state vectors are functions `nat -> R` indexed by the `ODEIndex` integers, so a wrong index is visible.
  Element-wise numpy arithmetic over a grid is modelled at one grid point.
* Python exceptions are values of a result type, never defaults; which exception is raised is part of the model.
* Division: theorems over `R` carry the nonzero-denominator hypotheses under which Python would not produce inf or nan;
  `x/0` of Coq never carries a claim.
* External calls (the CVODE integrator, h5py/h5preserve, emcee, scipy's root finder and interpolators, numpy's random numbers and
  cubic roots, the clock, the delimiter sniffer, the process pool) are arguments of the model, universally quantified in the theorems, with
  their contract, where one is needed, as an explicit hypothesis.
* Shared mutable objects are modelled where the code shares them (the stepper's input, the sonic root method's initial
  conditions): a heap, or the value the shared array holds after each call.
* If the code violates a property, the theorem is named `…_refuted` and gives a witness (or, better, shows that *every* state of a
  class violates it); `…_exact` theorems give the precise deviation, and `…_partial` theorems the domain on which the property does hold.
  Such properties have status `partial` in `MANIFEST.json` with a note that begins `REFUTED`.

## Plan and outcome per property

"PDE" means: stated against the partial differential equations of `Spec_MHD.v` for the self-similar fluid that the state describes.

### The differential equations (`solve/solution.py`, `deriv_funcs.py`, `j_e_funcs.py`, `analyse/validate_plot.py`)

Modelled line by line over `R` in `Model_Deriv`, `Model_Ode`, `Model_Validate`; proofs by unfolding and `field`, statements about
curves with `derivable_pt_lim` and the mean value theorem.

* C01–C06: PDE for each equation, and the validation command's residual; all modes, both formulations. Proved.
* C07: the validation command's polar-induction residual. False (sign of the Hall and ambipolar terms): exact residual, witness.
* C08, C09: along every differentiable curve. Proved.
* C10: E_r recomputed from the derivatives. False (sign of two terms in `Z_5`): exact defect, witness, sub-case where it holds.
* C11: steady induction law in the B_φ' formulation. False (sign of the tan group in `dderiv_B_φ_soln`): exact defect along every solution.
* C12, C13: vector algebra and `J = curl B`. Proved.  * C78: Faraday's law for the stored E_r. Proved.
* C66: angular scaling. False unless the scale is 1: the right-hand side is not multiplied by `θ_scale`; exact factor proved.
* C76: the stopping function; intermediate value theorem on `Icc`. Proved.
* C77: what the right-hand side records, over any history of calls (`Model_Record`); induction. Proved.

### Midplane and Taylor start (`solve/config.py`, `taylor.py`, `solution.py`)

* C14, C15, C17, C19, C83: `Model_Midplane`; `field`, `sqrt` lemmas, induction on the grid. Proved.
* C16: third-order coefficients. False: the v_θ slot holds v_φ's second derivative. What it should be is derived from mass conservation, and
  shown to be computed by the code and dropped.
* C18: start angle after the Taylor part. False for every input (`numpy.insert` result discarded).
* C65: second-order coefficients against every twice differentiable solution. Right for B_θ, E_r and η; false for ρ and for (v_r, v_φ, B_φ), exact defects (differentiate the azimuthal momentum equation twice at the midplane, Proofs_TaylorPhi.v).

### Shocks, waves, coordinates (`solve/shock.py`, `critical_points.py`, `analyse/utils.py`, `utils.py`)

* C20–C24, C70: algebra on `Model_Waves`. Proved.
* C67: false (height in scale heights used in place of tan θ). C68: false (coupling 1/(4π) in place of a_0). C69: false for
  the B_φ' formulation, exact jump proved, right for the E_r formulation.

### Arrays, searching, stepping (`utils.py`, `solve/utils.py`, `solve/stepper.py`)

* C25–C29: list functions over floats with NaN; induction. C25 false with NaN, C27 if the curve turns back, C29 off the grid; exact theorems.
* C30: selection of solutions; false only while no final solution was set.
* C31–C35, C73, C74: the stepper as a state machine with callbacks; induction on attempts; bisection by an invariant; heap for the aliasing of
  the input (C35 false). C34 false for a zero step. C73 false (row in place of column).

### Containers and files (`file_format/*`)

* C36, C37: `Model_Run`, histories of operations. Proved.  * C38–C40: `Model_Containers`. Partly false (membership test inserts, problem log not
  reversed, sizes not checked).
* C41–C43, C71, C72: text conversions, configuration files, overrides (`Model_Inputs`). C41, C71, C72 false for particular values.
* C46–C48, C75: dumpers and loaders are tables (generated from the source) interpreted by one function that models keyword construction of
  `attr.s` classes. Case analysis over tables, induction over stored objects. Partly false for old versions.

### Methods and commands (`solve/*.py`)

* C44, C45, C55, C79: CSV text at character level (`Model_Csv`): universal newlines, the csv module's reader and writer, header test,
  comments; the batch under any schedule and any crash point. Partly false.
* C49, C50 (MCMC), C51, C82 (fast crosser), C80, C56, C81 (methods, commands and an abstract file system), C52, C85 (sonic root),
  C59 (Taylor space), C60, C84 (shock search): state machines with the solver as an argument, induction over histories.
* C53, C54: assembling a solution from its segments (`Model_Solution`), for every integrator.
* C57: trajectories; C58: filters and sorting.

### Hydrostatic methods and the sonic point (`hydrostatic.py`, `mod_hydro.py`, `sonic_point.py`)

* C61: derivative of X. False (sign), exact error, exact domain.  * C62: PDE for v_θ = 0. Proved.
* C63: modified hydrostatic velocities; the cubic root tracker is any function answering roots. Proved with E_r; false without.
* C86: Z_2, Z_3 and the midplane derivatives. False, exact.  * C64: the sonic point quadratic. False in three helper functions, exact; right without
  ambipolar diffusion. (Dead code: nothing calls it.)

### Analysis commands (`critical_points.py`, `analyse/*.py`)

* C87: `Model_Critical`; indices by the first-index theorem (C26) and the order of the Mach numbers (C21). Proved for indices; for angles false in
  general, proved if no Mach number decreases.  * C88: crosses-points, case analysis. False as stated, exact.
* C89: `Model_Jacobian`; difference quotients of the model's right-hand side tend to its partial derivatives; inverse and eigenvectors are arguments. Proved but
  for the fallback without a critical point, which raises.  * C90: `Model_Components`; parts against totals against `Model_Ode`. False for radial momentum, exact.
* C91: `Model_Stats`; greatest element by induction. Proved for Mach numbers and flags; false for max_diff (signed) and B_p/B_t (inverted), exact.
* C92: primitives of the flux densities of the self-similar fluid (mean value theorem). Out is exact up to cos θ; the ratio and Σ are false, with witnesses.
* C93, C94: `Model_Tables` over `Model_Csv`; the values of the statistics and what reading a file answers are arguments. Induction over entries; the columns by
  computation over the concrete name lists. Proved for new files and ValueErrors; false for appended files and other exceptions, exact.
* C95: the two hydrostatic solvers over an arbitrary integrator (`Model_HydroSolver`); case analysis on its answer, induction over the calls. Three parts false.
* C96: hydro-check (`Model_HydroCheck`) against the equations of `Spec_MHD`; `field`. False for the radial curve of the hydrostatic method.
* C97: the shared settings table as a store, the figures as lists of points (`Model_Plots`); an invariant of the store over all histories of plots, then panel by
  panel against `Spec_Plots`. Proved for figures but for two labels; false for the settings function itself, exact.
* C98, C99: the other plots (`Model_PlotsOther`) on the same primitives; conservation against `mass_conserved` of `Spec_MHD`, σ by refining the grid.
* C100: `get_input_from_conffile` (already in `Model_Inputs`) against a table of sections and defaults in `Spec_Inputs`, through the general lemma on constructing a configuration.
* C101: the stack of logbook handlers and its bubbling rule (`Model_Logging`) against thresholds in `Spec_Logging`; one message by cases, sequences by induction. False
  for the log file with -v or -q, exact.
* C102: the wrappers of the plotting commands (`Model_Commands`) with the drawing function, the file and the result of opening it as arguments. False for missing solutions.
* C103: four more plots and the jet speed (`Model_PlotsMore`) on the primitives of `Model_Plots`; the current and field by C12, the residuals by C01–C06, colours by an
  invariant of the two mappings, the jet by C67. Three parts false, exact.
* C104: argparse as a function from option occurrences to a namespace, Python keyword calls as `bind`, and for each command its parser, argument extraction and signatures
  (`Model_Options`); a table of what each option means (`Spec_Options`). A checked correspondence between table and parser gives the value under each name by induction over the
  occurrences; each command is then computed.
* C105, C106: the saving function over a map from names to contents, the figure as the list of what is added to its axes; the line followed is specified by its positions, directions, spacing and end, the files by their text; C105 is refuted for "all or nothing"
* C107: the argparse model of C104 for the commands that solve; the call each makes as a record of its keyword arguments; for ds-soln and ds-resoln also the files and the exit status; proved from a table of the options; the options without effect are found by a theorem that two command lines differing only in them do the same
* C108: the print calls of ds-info as a list of (stream, text) with an optional exception, after the argparse model of C104; lines are stated by what a reader gets back from them (name, padding, colon, value); the order of the solutions is that of C58, the points are those of C21
* C109: a file system with contents by name and standard output; open_or_stream in both modes, under the command lines; what the tables hold is C93, here only where it ends up
* C110: the eigenvalue routines are arguments answering pairs of numbers or raising; a marker gives which part and which sign a point shows, log axes hide zero; the figure read back is a permutation of the parts of the spectrum
* C111: a transition system for multiprocessing.Pool and imap (take, end, hand over, raise, leave the loop, join), with the shared files as state; invariants over all runs, a measure for termination; instantiated with the tasks of the three commands, so that the sequential models of C55 and C84 hold for every schedule
* C112: the score of a column of numbers and NaN, the starting positions from arbitrary draws, and the sampler as an arbitrary function from what was tried to the next group; refinement to C49 point by point, induction over the groups
* C113: the lines typed are a list, the screen a list of events; the stepping solver with a splitter that carries this state; invariant over all attempts, and the session of a user who answers and then stops or leaves
* C114: main of taylor_space.py with the random draws as an argument that meets numpy's contract; bounds on the midplane rotation and on all divisors over the whole parameter box, then sign arguments
* C115: mirror image of a curve and of the right-hand side (Spec_Symmetry.v), function by function of solve/deriv_funcs.py; midplane state and Taylor polynomial by parity of their slots.
* C116: the same for the reversed field, the reversed rotation and other units; every function of the right-hand side is even, odd or homogeneous.
* C117: parity of the Taylor coefficients in the sense of rotation; false for v_r'', concrete witness; proved for the coefficients that have it.
* C118: Model_Float.v instantiates the arithmetic of the stepping solver with rounding (Flocq's `round`, any precision); invariant: the distances to the last diverging and the last sign-changing number differ from the step by less than one unit in the last place.
* C119: the same search over two neighbouring ranges of exponents; the invariant has a bound for each side of the power of two and each parity.  False as stated: Witness_Float.v runs the search on pairs of integers and is proved to follow the model; proved with a bound of four units in the last place.
* C120: Model_Prepare.v puts the preparation of ds-soln, ds-resoln and ds-hdf5runner together with the inputs (Model_Inputs.v) and the open file (Model_Solve.v); for every outcome, old files are unchanged and the record in the new one is compared with what the configuration file, the overrides, the old run or the table row say.  Solving again: C43 with the stored input equal to the configuration's, then induction on the number of re-solves.  The default file name is refuted for ds-resoln.
* C121: dumper and loader of plain dictionaries (Model_OldDict.v), with a file that keeps attributes and items in any order; false for an empty dictionary under "attrs".
* C122: for two exact solutions (Spec_Ode.v) on a closed interval, every expression of the right-hand side is continuous along both and differs by at most a multiple of their distance (Lib_Gronwall.v: closed under the operations used, given nonzero denominators, which Proofs_Unique.v derives from the physical conditions of Spec_Unique.v); then Grönwall's lemma.
* C123: ρ v_θ of an exact solution satisfies M' = k M with k continuous; Grönwall's lemma (Lib_Gronwall.v) for M², then continuity; with C08 for the diffusivities.
* C124: ds-csvrunner's writes to its output and to standard output, with any merge of the workers' lines (Model_CsvOutput); a line without quotes is read as the record of its comma-separated cells, so a table with message lines has one input per line; written to a file: C55 and C79.
* C125: the fluxes of Spec_Budget.v have the radial fluxes as derivatives inside the interval; the fundamental theorem (Coquelicot), extended to ends where the solution is only continuous.
* C126: on the set of pairs of states with a margin every denominator of the code is bounded from below, so each slope differs by at most a multiple of the distance (arithmetic of Lib_Lipschitz.v); Grönwall's lemma for the squared distance plus ε².
* C127: the error as a function of the stop angle vanishes at 0 with its first derivative; the mean value theorem on the error minus its quadratic part gives the law; the coefficients come from C65; a square law with nonzero coefficient excludes a bound by the third power.
* C128: with the state fixed, each slope is Lipschitz in the parameters on the states with a margin (the arithmetic of C126); so a solution for other parameters is an approximate solution, and C126 applies.
* C129: the slopes with angle and state clamped to a box around the start are bounded, Lipschitz and continuous, so Picard iteration converges (Lib_Picard.v); on a short interval the solution stays in the box, where the clamp does nothing; the length depends on the margin only, so a solution with a margin is continued by a restart just before the end, and C122 says that both agree; a solution that tends to a regular state has a margin near the end.
* C130: the other set-up's solution is continued (C129) as long as it keeps half of the margin; the error bound (C126, with one constant for all parts of the interval) and the Lipschitz bound in the parameters (C128) keep it so close to the first that it never loses that half, so it reaches the end. The outcome follows with uniqueness (C122) and the maximum of the velocity on the interval.
* C131: slowing down before a singular state survives small changes (C130), so the set of numbers with slowing gas is open and the supremum of an initial part of it does not belong to it; at the edge C129 continues the solution and a fall of the speed would contradict the edge. The slope at the start: existence (C129), continuity of the slopes, uniqueness (C122). Example: infalling gas with γ from 0 to 1/8. The family of the step search: every Taylor coefficient is continuous in γ where its denominator is not zero (Proofs_Edge.v).
* C132: the stepper's variables after the first change of the answer hold a bracket: a sign flip one step below, a divergence one step above, for every judge. Nested intervals give the limit, and openness of slowing down (C130) the rest. C131 supplies the code's own family. Examples: a judge with three changes, and the disc of C131.
* C133: along every solution (1 - v_θ²) v_θ' is the drive, whose continuity at v_θ = 1 follows from that of the slopes of a system that takes v_θ' from outside (slopes_continuous). Mean value theorem on v_θ - v_θ³/3 for the work, and on v_θ on both sides of the sonic point. Example: v_θ = 1 + θ.
* C134: the model of the splitter applied to samples of a function; the differences of a filtered sorted grid are monotone iff all pairs are; continuity at the one, two or one witnesses gives the spacing.
* C135: as C134, from the exact list characterisations of C25. For the best solution: samples that are concave step by step are concave over any number of steps, so a strict upward bend of the curve shows on all large even grids.
* C136: as C122. The right-hand side is cut into pieces, each shown to change along two regular solutions by at most a multiple of their distance; then Gronwall. Existence: near a regular state every piece satisfies a Lipschitz condition (a class of functions closed under the operations of the code), then Picard.
* C137: Model_FloatRhs.v repeats the denominators with each operation rounded. Key lemma: the rounded square root of the rounded square of a number is not below the number (half a unit in the last place of the square moves the root by less than half a unit); the rest is that rounding keeps order.
* C138: Model_FloatGrid.v is numpy's linspace and the conversion to radians with each operation rounded. Error budget by hand, one factor 1 ± 2^-prec per operation; increasing because two neighbours are further apart than twice the error.
* C139: Model_FloatShock.v, the three operations of a shock with each result rounded; one factor 1 ± 2^-prec per operation. Strictly below the speed of sound because a number of the format above one is at least one unit in the last place above it.
* C140: as C136, with the pieces it shares with mod_hydro reused (Proofs_ModHydroUnique.v).
* C141: Model_Version.v, the version code of the style the project uses, on what git answers. The pattern is found again in every description, since neither the distance nor the commit has a hyphen; equal versions are cut at the first plus sign and at the dots. Refuted by two archives.
* C142: Model_FloatScale.v, the two conversions with each result rounded; one factor 1 ± 2^-prec per operation, order because rounding keeps it, powers of two because they only change the exponent.
* C143: Model_FloatWaves.v, critical_points.py:12-41 with each result rounded. Real because the square of the sum loses at most four roundings; ordered because the root of the rounded square of a number is at most that number; refuted by absorption (the slow speed), by a tie in double precision (NaN) and by two densities for which the seven operations are evaluated one by one (the Alfvén speed).
* C144: Model_Hydro.v, Model_ModHydro.v and, for the comparison, dderiv_B_φ_soln of Model_Deriv.v at v_θ = 0, γ = 0. The difference is computed exactly: the numerator of the shared formula is that of the full one plus the slips (lemma shared_formula); what the elimination of the velocity derivatives adds follows from the pieces of the right-hand side of C136 and C140.
* C145: the pieces of the right-hand sides (C136, C140), one after the other: each is even, odd or scales with the units. Refuted by two states evaluated by hand.
* C146: the derivative of the balance speed along a curve, with the right-hand sides put in (C136, C140), is v_r'; so the difference is constant (mean value theorem). The budgets as for C125, from the pieces both methods share.
* C147: the derivative of the pressure along a solution is minus the weight, so the budget follows as for C125; the sign of the weight gives the confinement; the logarithm of the density gives the atmosphere.

Not expressible in this model: rounding error and step-size control of CVODE, matplotlib rendering, HDF5 byte layout, real process
scheduling (only its bookkeeping is modelled: any order, any crash point).

## Findings: defects of the code met while proving

Physics
* `validate_polar_induction` has the wrong sign of its Hall and ambipolar terms (C07).
* `Z_5` of the E_r formulation has two wrong signs (C10); the `tan` group of `dderiv_B_φ_soln` has a wrong sign (C11).
* The third-order Taylor coefficient of v_φ is stored in the v_θ slot (C16); the second-order coefficient of ρ (`Y_1`) is wrong (C65).
* `numpy.insert` returns a copy; the Taylor stop angle is never inserted (C18).
* The right-hand side is not multiplied by `θ_scale` (C66); with a scale other than 1 the sonic jump scales the landing angle twice.
* Conversion at constant cylindrical radius uses the height in scale heights (C67).  Wave speeds use B²/(4πρ) on normalised values (C68).
* After a shock, B_φ' is not adjusted, so E_r jumps (C69), and η no longer follows B²/ρ.
* Hydrostatic: sign in `X_dash` (C61); `Z_3` has X²/16 for X²/8 and 2a_0 for a_0, slips in `Z_2`, `Z_7` lacks 2a_0, B_φ'' is not zero in the midplane (C86).
  Modified hydrostatic: the variant without E_r has wrong derivatives (C63): v_φ' lacks a_0/ρ in its term with B_φ'' and a term with v_r' (C63_v_φ_exact); its right-hand side writes v_r and v_φ into the integrator's array.
* Sonic point: `A_down`, `Z_5_up`, `dderiv_B_φ_down` (C64).
* The interpolation of a critical angle uses the sample after the crossing, so the slow point can be placed after the sonic one (C87); crosses-points
  prints alfven for subsonic solutions (C88).
* `compute_jacobian` with global eigenvectors and no critical point raises IndexError (C89). Two radial terms of the component plot carry v_r² for v_r²/2 (C90).
* `compute_B_poloidal_vs_B_toroidal` returns the inverse of its name; the `max_diff` of the statistics is signed (C91); `taylor_plot` converts to degrees twice.
* `compute_M_dot_out` lacks cos θ, `compute_M_dot_in` lacks cos θ and has the power 2γ-1 for 2γ, `compute_Σ` sums samples (C92).
* ds-stats and ds-dumpcsv write their header at every run into a file opened for appending (C93, C94); ds-stats stops at the first exception that is no ValueError.
* The hydrostatic methods report success for failed integrations, drop calls with a negative discriminant without a trace, and fill only three of nine lists (C95).
* hydro-check tests hydrostatic solutions against the linearised radial equation of mod_hydro (C96).
* `get_common_arguments` changes and hands out the module's own dicts: `no_v_φ_offset` returns the offset of an earlier plot; ds-compare-plot never learns that a run
  uses E_r and labels it B_φ'; the ds-params-plot panel titled (v_φ - v_k)/c_s shows v_φ (C97).
* The Alfvén line of ds-combine-plot is off by the factor of C68; ρ v_θ of ds-conserve-plot is not conserved; ds-surface-density sums samples (C98).
* ds-taylor-plot converts to degrees twice; ds-taylor-plot and ds-acc-plot ignore --start and --stop (C99).
* ds-phys-ratio-plot reuses colours after ten values of v_r and markers after 22 of a_0; a solution without a sample in range stops it (C103).
* ds-flow-file never works: it passes `with_max_v_angle` to `save_trajectory`, which has no such parameter, so every use is a TypeError (C104).
* ds-vert-plot accepts --v_θ and ignores it; --start and --stop of every plot accept texts that are not numbers and pass None on (C104).
* Saving trajectories opens three files one after the other for exclusive creation: when a later name is taken or a line starts outside the solution, the earlier files stay behind and block every further attempt (C105).
* ds-csvrunner accepts --output-dir, ds-hdf5runner accepts --output-file, and both accept --log-file, --quiet and the other logging options; none of these has any effect (C107).
* With an angular scale above one the grid after a jump over the sonic point starts at the landing angle and goes on with smaller angles (C53).
* ds-info FILE NAME run and ds-info FILE NAME solutions do not depend on NAME but fail with KeyError if there is no such solution (C108).
* ds-info FILE NAME sonic-on-scale always prints to standard output, and ends in TypeError if the solution has no sonic point (C108).
* ds-tocfg opens its output for writing before it converts the solution: for a solution without interpolation slice, such as every one found after a shock, an existing file is emptied and the command ends in AttributeError (C109).
* nicer_mp_pool: if Pool raises (--nworkers 0) the finally block reads the unbound name pool, so the command ends in UnboundLocalError; ds-csvrunner has written its comments and header row by then (C111).
* The MCMC log probability of a solution with NaN in v_θ is NaN, which emcee refuses with ValueError: one such solution ends the run without a final solution (C112). The input field threads is read, stored and converted but no solver uses it.
* Splitting by hand: after 20 equal answers a STOP is taken for a failed search and no solution becomes final; the complaint about a wrong line does not name STOP (C113).
* ds-plot-taylor-space: every point of every figure is that of a disc with η_A and η_H exchanged; the axes of B_θ and ρ start at 0 though all coefficients are negative (C114).
* The Taylor coefficients of v_r, v_φ and B_φ violate azimuthal momentum conservation for every accreting, rotating disc with 0 <= γ <= 1/4 (C65, exact defect), and v_r'' depends on which way round the disc turns (C117): in `ddderiv_B_φ_midplane` the term `Y_2`, which is even under counter-rotation, enters an odd coefficient.
* The Taylor coefficients of B_r, B_φ and v_r violate Ohm's law (E_φ = 0), also in a purely Ohmic disc (C65_induction_refuted; exact defect for all diffusivities in C65_induction_exact). `ddderiv_B_r_midplane` and `ddderiv_B_φ_midplane` are given `Y_3` and `Y_2`; `Y_2` has the terms of the equation for B_r and `Y_3` those of the equation for B_φ.
* Through C65 the error of the Taylor start in the density is of second, not third order in the stop angle (C127, exact leading term).
* An error in a batch ends the command only after all remaining items have been worked on, and their results are dropped (C111_end); the status of ds-hdf5runner and ds-shock is 0 even if every item failed to solve (C111_hdf5_status, C111_shock_files).
* ds-csvrunner prints its table to standard output by default, where its own messages and those of its workers go too: the output of every batch with at least one input, read as a batch, ends in an exception (C124).

Search methods
* The stepper and the fast crosser edit the stored solution's own input (C35), loops for ever on a zero step (C34), and its automatic splitter reads a row in place of a column (C73).
* When the step search crosses a power of two it can end with success above a smaller number that diverges as well (C119); the threshold is missed by a few units in the last place.
* ds-resoln names its file after the label of the old run even if the label is overridden (solve/resolve.py:54-57); ds-soln and ds-hdf5runner use the overridden label (C120).
* A stored plain dictionary loses an entry "attrs" that is an empty dictionary (file_format/_old_dict_loading.py:20-21; C121).
* The fast crosser's limits grow, it never stops by itself, stores every solution twice, and keeps the last, not the best (C51, C82); a failing long solve ends it.
* MCMC reports success without any solution (C80).
* Sonic root: `SolverStatus.SUCESS` is misspelt and `init_con` is shared (C52, C85).
* Taylor space: Hall and ambipolar exchanged (C59).  Shock search: without the directory `shock_tests` every shock is lost silently (C84); the new run
  records the text of the range, not the name of the solution.
* `v_θ_sonic_crit` and `after_sonic` are passed on but never read; `extra_args.get("root_func")` is never set; a failed first integration is still followed by the jump (C53).
* The slow wave speed is a difference of nearly equal numbers: in double precision it is exactly zero once the squares of the Alfvén and the sound speed differ by a factor of 2^61, so the slow Mach number there is infinite (or NaN at rest), and it is NaN, with the fast speed, for a vertical field whose Alfvén speed is the speed of sound to the last place (C143).
* B_φ'' of the hydrostatic methods is not that of the induction equation (C144): in hydrostatic.py:262-330, which both use, the coupling of the currents appears where its derivative belongs, tan θ is missing where the resistance is multiplied by it, and the electric field of the motion is missing from E_θ; Z_7 of hydrostatic.py lacks a factor 2 a_0; Z_7 of mod_hydro.py is a copy of Z_6 rather than the part of v_φ' + C v_r' without B_φ''.
* The result of the hydrostatic methods depends on the unit of density (hydrostatic.py:253-259, Z_7) or of the field (mod_hydro.py:166-170, Z_3), as no physical law does (C145).

Files and commands
* Membership tests and look-ups of the problem log insert keys (C38).  NaN passes validation (C25).
* `slice(5, None)` comes back as `slice(None, 5)` (C41); a dumped configuration of a shock run fails (C72).
* Inputs of versions 1–3 and 5 and internal data of versions 1–2 never load (C47); inputs older than version 14 cannot be saved again (C75).
* The header test of a CSV input looks at one line and always says yes (C45); a row that does not convert ends the batch (C55).
* An archive of a commit that has no tag v<digit>... records the version 0+unknown, so files made by different such archives cannot be told apart (C141); a source tree outside git in a directory whose name starts with "None" takes the rest of that name as its version (_version_.py:55 sets the prefix to the string "None").
* hdf5runner with a fixed output name fails on its second input (C81); `solve` and `resolve` leave an empty file for an unknown method (C56).
* `Run.finalise` on a run without solutions is an IndexError; `open_or_stream` leaks on an exception; `nicer_mp_pool` refers to an unbound name if creating
  the pool fails; `get_common_arguments` changes a shared list.
* Filters: "5-3" selects 3, "1 - 3" does not parse as a range (C58).  `traj_main` passes an argument its plot does not take.
* Long double values lose precision when read from text.
* With -v the log file stays empty and with -q errors are kept out of it: the handler of the terminal does not let messages through (C101).
* Multi-solution plots leave out a missing "final" solution with a warning but stop with KeyError for any other missing name, and without any -r (C102).

## Trusted base

1. **The Coq 8.16.1 kernel** (`coqc`; `coqchk` passes on the compiled files), the standard library, Flocq (for C118, C119 and C137 to C139, C142, C143) and Coquelicot (for C129 and what rests on it), which add no axioms.  No own axioms, no `Admitted`, no
   functors or module types, no kernel check switched off, no plugin beyond those Coq loads by default.
2. **Axioms**: those `Print Assumptions` lists, all of the standard library; table at the end.
3. **The reading of the source** recorded in the comments of `Model_*.v`: in particular
   * `Lib_Py`: dictionaries keep insertion order; `str`, `int`, `float` texts as far as used;
   * attrs: constructors take exactly the declared fields, missing or unknown keywords are `TypeError`;
   * h5preserve/h5py: an object is a tree of attributes, items and a version; `None` and slices cannot be attributes; strings come back as text; reading
     through the cache returns the same object;
   * csv: the default dialect, `QUOTE_MINIMAL`, `Sniffer.has_header` as in CPython; configparser with its default `=`/`:` delimiters and no interpolation
     of `%`-free texts;
   * the integrator (`keeps_grid`): it answers angles of the grid it was given up to where it stopped, one state per angle, starting with the given state;
   * emcee and scipy's root finder evaluate any sequence of points; the pool gives each task its own copy of what is sent;
   * logbook: a record goes down the stack of handlers until one that handles it does not bubble; a wrapper has the level and bubbling of what it wraps;
   * the straight-line formulas: `tools/compare_formulas.py` compares their syntax trees with those of the cited lines of the source, without running
     either; all 347 formulas it can read on both sides agree (what it lists as unmatched are record and array accesses and tuples, read by eye).
4. **Not modelled**: rounding outside the step search (C118, C119), the denominators of the right-hand side (C137), the grid of angles (C138), the jump of a shock (C139), the scaling of angles (C142) and the wave speeds (C143), and overflow anywhere; matplotlib (a figure is its panels, lines and points); the texts of log messages; argparse beyond the options the commands declare (help texts,
   abbreviations of options); the HDF5 byte layout; signals and memory limits; the styles of version numbers the project does not use (_version_.py:422-601); what only looks at a running computation or a figure, `jacobian_viewer_generator` (solve/solution.py:306-332) and `add_label_display_on_select` (analyse/utils.py:529-536); the functions no code calls, `compute_coefs_of_subtracted_solution` (analyse/compute_jacobian.py:500-522) and `cot` (utils.py:107-117).

### Axioms per theorem

`Print Assumptions` of every theorem in `MANIFEST.json` (`tools/gen_assumptions.py`):

<!-- assumptions: begin -->
709 theorems.

**Closed under the global context (no axioms)** (144):
`C22_E_r_rejected`, `C23_E_r_rejected`, `C26_empty`, `C30_default`, `C30_final`, `C30_named`, `C30_latest_partial`, `C30_latest_refuted`, `C31_calls`, `C31_bounds`, `C34_exact`, `C35_overwritten_refuted`, `C35_unchanged_partial`, `C36_additions`, `C36_add_preserves`, `C36_add_fails_iff`, `C36_add_error`, `C36_deletion_blocks`, `C36_last`, `C37_write_once`, `C37_set`, `C37_finalise`, `C37_shock_run`, `C38_history`, `C38_lookup`, `C38_merge`, `C38_distinct_keys`, `C38_membership_refuted`, `C38_delete_refuted`, `C39_built`, `C39_join`, `C39_flip`, `C39_associative`, `C39_flip_join`, `C39_flip_join_problems_refuted`, `C41_slice_exact`, `C41_slice_partial`, `C41_slice_refuted`, `C41_mcmc`, `C41_mcmc_config_refuted`, `C42_validate`, `C42_unknown`, `C42_none`, `C44_reader`, `C44_reader_unique`, `C44_written_partial`, `C44_comments_back`, `C44_written_refuted`, `C44_trailing_space_refuted`, `C45_rows_partial`, `C45_headerless_refuted`, `C47_registered`, `C50_selection`, `C55_handed_over`, `C56_zero`, `C56_success`, `C56_failure`, `C56_unknown_command`, `C56_unknown_batch`, `C56_unknown_refuted`, `C58_filter`, `C58_down_refuted`, `C58_inner_space_refuted`, `C58_error`, `C58_select`, `C73_names`, `C73_unknown_refuted`, `C75_run_refuted`, `C71_none_range_refuted`, `C79_no_mcmc_refuted`, `C80_step_last`, `C80_single`, `C80_step`, `C80_no_final_single`, `C80_no_final_step`, `C81_batch_all`, `C81_solve`, `C81_batch`, `C81_crash`, `C81_fixed_name_refuted`, `C82_failed_partial`, `C85_joined`, `C93_columns`, `C93_table_partial`, `C93_table_exists`, `C93_other_error_exact`, `C93_files`, `C93_sources`, `C93_order`, `C93_appended_refuted`, `C93_final_twice_refuted`, `C94_dump`, `C97_colors`, `C101_stderr`, `C101_outer`, `C101_file`, `C101_file_exact`, `C101_file_refuted`, `C101_no_file`, `C102_single`, `C102_single_failure`, `C102_single_refused`, `C102_multi`, `C102_missing_refuted`, `C102_unreadable`, `C102_no_runs_refuted`, `C102_all`, `C102_all_refused`, `C103_j_e_refused`, `C104_flow_file_plain_refuted`, `C107_usage`, `C107_options`, `C107_unknown_override`, `C107_status`, `C107_csvrunner_refuted`, `C107_hdf5runner_refuted`, `C107_quiet_refuted`, `C108_read_back`, `C111_workers`, `C111_written`, `C111_end`, `C111_schedule`, `C111_prefix`, `C111_ends`, `C111_completes`, `C111_status`, `C111_hdf5_status`, `C111_csv_workers`, `C111_csv_no_workers_refuted`, `C113_answer`, `C113_answer_exact`, `C113_every_run`, `C113_stop`, `C113_leave`, `C113_late_stop_refuted`, `C121_round_trip_partial`, `C121_empty_attrs_refuted`, `C121_written`, `C141_refuted`, `C141_plus_refuted`, `C141_checkout`, `C141_identifies_partial`, `C141_archive`, `C141_archive_untagged`.

**`ClassicalDedekindReals.sig_forall_dec`** (7):
`C59_inputs_partial`, `C59_exact`, `C104_usage_multiple`, `C104_usage_all`, `C104_multiple`, `C104_all`, `C104_vert_scale_refuted`.

**`ClassicalDedekindReals.sig_forall_dec`, `FunctionalExtensionality.functional_extensionality_dep`** (166):
`C09_A_is_derivative_of_C`, `C16_third_order_partial`, `C16_computed_partial`, `C17_taylor_polynomial`, `C17_taylor_segment`, `C18_start_angle_refuted`, `C18_start_angle_exact`, `C18_remaining_grid_partial`, `C20_jump_conditions`, `C20_jump_unique`, `C20_involution`, `C20_supersonic_iff`, `C20_others_unchanged`, `C20_angles`, `C24_inverse`, `C24_monotone`, `C25_validate_refuted`, `C25_validate_exact`, `C25_validate_partial`, `C25_physical_accepted`, `C25_best_block`, `C26_first_index`, `C26_no_number`, `C26_nan_target`, `C27_bracket_refuted`, `C27_rising_partial`, `C27_falling_partial`, `C27_exact_hit`, `C28_dedup`, `C28_first_occurrences_spec`, `C28_defined`, `C29_closest_refuted`, `C29_lookup_exact`, `C29_on_grid_partial`, `C32_sizes`, `C32_search`, `C32_error`, `C33_converges`, `C33_starts`, `C33_bracket`, `C33_negative_start`, `C34_zero_step_refuted`, `C34_hang_refuted`, `C34_terminates_partial`, `C35_refuted`, `C40_consistent_partial`, `C40_conflict`, `C40_conflict_others`, `C40_create_modified`, `C40_size_refuted`, `C40_short_refuted`, `C42_apply`, `C43_merge`, `C43_no_overrides`, `C46_round_trip_partial`, `C46_inputs_exact`, `C46_derivatives_refuted`, `C46_nan_refuted`, `C47_solution_input_partial`, `C47_config_input_partial`, `C47_solution`, `C47_run`, `C47_initial_conditions`, `C47_broken_versions_refuted`, `C48_filled_partial`, `C48_uncached_refuted`, `C48_old_runs_refuted`, `C49_valid`, `C49_best`, `C49_crash`, `C49_final`, `C50_decode`, `C50_round_trip`, `C55_any_schedule`, `C55_outcome`, `C55_rows_partial`, `C55_complete_partial`, `C55_crash_prefix`, `C55_unknown_method`, `C55_bad_row_refuted`, `C57_repeated_exact`, `C58_sorted`, `C59_swapped_refuted`, `C61_exact`, `C61_partial`, `C64_A_exact`, `C64_Z_5_exact`, `C64_η`, `C64_quadratic`, `C64_choice`, `C65_η_constant`, `C69_E_r_formulation_partial`, `C73_two_valued`, `C73_negative_velocity`, `C73_raises_iff`, `C73_by_velocity`, `C73_column_refuted`, `C74_search_succeeds`, `C75_inputs_refuted`, `C75_filled_inputs`, `C75_old_runs_refuted`, `C71_round_trip`, `C71_none_partial`, `C71_solver_input`, `C71_mcmc_none_refuted`, `C72_round_trip_partial`, `C72_dump_config_partial`, `C72_no_slice_refuted`, `C72_after_shock_refuted`, `C72_no_mcmc_refuted`, `C76_zero_iff`, `C79_results_as_inputs_partial`, `C79_appended_refuted`, `C80_mcmc_refuted`, `C84_kept`, `C84_files`, `C84_any_order`, `C84_reported`, `C84_all_reported`, `C84_no_directory_refuted`, `C94_inputs_partial`, `C94_stats_partial`, `C94_appended_refuted`, `C100_values`, `C100_overrides`, `C100_rest_ignored`, `C103_ratio_colors`, `C103_ratio_markers`, `C104_usage`, `C104_options`, `C104_flow`, `C104_flow_file_refuted`, `C104_unreadable_angle_refuted`, `C108_usage`, `C108_listing`, `C108_run`, `C108_status`, `C108_points`, `C108_solutions`, `C108_scale_exact`, `C108_missing_solution_refuted`, `C108_no_final`, `C109_usage`, `C109_only_output`, `C109_tocsv`, `C109_tocfg`, `C109_not_found`, `C109_tocfg_lost_refuted`, `C109_tables`, `C111_csvrunner`, `C111_shock_files`, `C112_positions`, `C112_start_sign`, `C117_taylor_refuted`, `C117_taylor_partial`, `C120_soln`, `C120_resoln`, `C120_row`, `C120_row_unknown`, `C120_again`, `C120_chain`, `C120_methods`, `C120_label_refuted`, `C124_file_partial`, `C124_file_as_input_partial`, `C124_stdout_refuted`.

**`ClassicalDedekindReals.sig_forall_dec`, `ClassicalDedekindReals.sig_not_dec`, `FunctionalExtensionality.functional_extensionality_dep`** (206):
`C01_validate_continuity`, `C01_rhs_accepts_iff`, `C02_validate_solenoid`, `C03_validate_radial`, `C04_validate_azimuthal`, `C05_validate_polar`, `C06_validate_E_φ`, `C07_polar_induction_refuted`, `C07_polar_induction_exact`, `C07_polar_induction_partial`, `C09_unit_derivs`, `C10_E_r_consistency_refuted`, `C10_E_r_defect_exact`, `C10_E_r_consistency_partial`, `C11_induction_refuted`, `C11_induction_defect_exact`, `C12_dissipation`, `C12_E_is_ohms_law`, `C14_conditions_exist_iff`, `C14_largest_rotation`, `C14_initial_state`, `C15_first_order`, `C16_third_order_refuted`, `C19_jump_velocity`, `C19_jump_tangent`, `C19_jump_angles`, `C19_jump_defined`, `C21_discriminant_nonneg`, `C21_ordered`, `C21_mach_ordered`, `C21_superfast`, `C22_is_coordinate_change`, `C22_rotation`, `C35_crosser_refuted`, `C51_finding_partial`, `C51_outside_refuted`, `C51_no_stop_refuted`, `C51_grows_refuted`, `C53_joined`, `C53_aligned`, `C53_internal`, `C53_flag_exact`, `C53_taylor_stop`, `C53_crossing`, `C53_jump`, `C53_flag_partial`, `C53_nondecreasing_partial`, `C53_interpolated_refuted`, `C53_scaled_jump_refuted`, `C53_flag_refuted`, `C53_finished_lost_refuted`, `C54_rejected`, `C54_accepted`, `C54_solution_partial`, `C54_taylor_refuted`, `C57_spacing_partial`, `C59_scan_partial`, `C59_table_refuted`, `C60_test_points`, `C61_refuted`, `C62_initial`, `C63_initial`, `C63_stored`, `C63_v_r`, `C63_v_φ_exact`, `C63_midplane_refuted`, `C64_B_r`, `C64_B_φ_exact`, `C64_S`, `C64_ρ`, `C64_no_ambipolar`, `C64_A_refuted`, `C64_Z_5_refuted`, `C64_B_φ_refuted`, `C64_slope_partial`, `C66_angular_scaling_refuted`, `C66_angular_scaling_exact`, `C66_angular_scaling_partial`, `C66_jump_scaled_refuted`, `C66_hydro_scaling_exact`, `C66_hydro_scaling_refuted`, `C66_mod_scaling_exact`, `C66_mod_scaling_refuted`, `C67_constant_radius_exact`, `C68_wave_speeds_exact`, `C68_alfven_factor`, `C69_tangential_E_refuted`, `C69_tangential_E_exact`, `C70_normalisation`, `C76_first_root`, `C77_one_call`, `C77_rejected`, `C77_history`, `C77_comparison`, `C77_not_stored`, `C80_crosser`, `C82_twice_refuted`, `C82_long_solve_refuted`, `C82_best_refuted`, `C83_angles`, `C84_command`, `C85_angles`, `C86_Z_2_exact`, `C86_Z_3_exact`, `C86_v_r`, `C86_midplane_refuted`, `C86_Z_3_refuted`, `C87_indices`, `C87_angles_partial`, `C87_angles_refuted`, `C88_exact`, `C88_refuted`, `C89_jacobian`, `C89_linear_rows`, `C89_rows`, `C89_coefs`, `C89_fallback_refuted`, `C90_parts_partial`, `C90_radial_exact`, `C90_radial_refuted`, `C90_all_terms`, `C90_plotted`, `C91_max_mach`, `C91_flags`, `C91_residuals_exact`, `C91_residuals_refuted`, `C91_ratio_exact`, `C91_ratio_refuted`, `C92_Σ_refuted`, `C95_hydro_refused`, `C95_hydro`, `C95_mod_hydro`, `C95_roots_refused`, `C95_roots`, `C95_finished_run`, `C95_success_refuted`, `C95_hydro_history`, `C95_mod_hydro_history`, `C95_rejected_refuted`, `C95_aligned_exact`, `C95_aligned_refuted`, `C96_printed`, `C96_refused`, `C98_combine`, `C98_alfven_exact`, `C98_conserve`, `C98_σ_exact`, `C98_σ_refuted`, `C99_taylor_values`, `C99_taylor_ratio_exact`, `C99_taylor_refuted`, `C99_taylor_refused`, `C99_acc_exact`, `C99_range_refuted`, `C99_sonic_ratio`, `C99_v_deriv`, `C103_diverge`, `C103_diverge_command`, `C103_j_e_φ`, `C103_validate`, `C103_validate_zero`, `C103_validate_printed`, `C103_validate_refused`, `C110_eigenvalues`, `C110_eigenvectors`, `C110_norm`, `C110_norm_unit`, `C110_no_samples`, `C110_failed`, `C111_shock_usage`, `C111_shock`, `C111_shock_missing`, `C111_no_workers_refuted`, `C112_score`, `C112_unscored`, `C112_worth`, `C112_run`, `C112_returns`, `C112_failed`, `C112_nan_refuted`, `C112_nan_start_refuted`, `C114_figure_partial`, `C114_diffusivities_refuted`, `C114_off_axes_refuted`, `C115_mirror`, `C115_lower_half`, `C115_midplane`, `C115_taylor`, `C116_field_reversed`, `C116_counter_rotating`, `C116_units`, `C116_hall_sign`, `C131_start_continuous`, `C131_regular`, `C132_limit`, `C133_solutions`, `C144_refuted`, `C144_hydro_exact`, `C144_mod_exact`, `C145_hydro_partial`, `C145_solutions_partial`, `C145_mod_sign`, `C145_mod_solutions`, `C145_units_refuted`, `C145_mod_units_refuted`, `C146_start`.

**`ClassicalDedekindReals.sig_forall_dec`, `Classical_Prop.classic`, `FunctionalExtensionality.functional_extensionality_dep`** (4):
`C134_answer`, `C134_fine`, `C135_valid`, `C135_best`.

**`ClassicalDedekindReals.sig_forall_dec`, `ClassicalDedekindReals.sig_not_dec`, `Classical_Prop.classic`, `FunctionalExtensionality.functional_extensionality_dep`** (182):
`C01_mass_conserved`, `C02_solenoidal`, `C03_momentum_r`, `C04_momentum_φ`, `C05_momentum_θ`, `C06_E_φ_vanishes`, `C08_eta_tracks_B_sq_over_ρ`, `C08_eta_from_midplane`, `C08_eta_constant_without_derivs`, `C12_J_is_curl_B`, `C13_current_divergence_free`, `C14_midplane_regular`, `C16_true_v_θ_third`, `C22_conversion_complete`, `C23_is_self_similar_fluid`, `C23_derivative_slot`, `C23_identity`, `C23_compose`, `C23_mach_invariant`, `C52_exact`, `C52_refuted`, `C52_recorded_refuted`, `C57_direction`, `C57_unit`, `C57_points`, `C57_repeated_refuted`, `C57_start_refuted`, `C62_quadratic`, `C62_accepts`, `C62_derivatives`, `C63_velocities`, `C65_B_θ_second`, `C65_E_r_second`, `C65_η_second_partial`, `C65_ρ_second_refuted`, `C65_ρ_second_exact`, `C65_v_second_refuted`, `C65_v_second_exact`, `C65_v_second_wrong`, `C65_radial_exact`, `C65_induction_exact`, `C65_induction_refuted`, `C67_constant_radius_refuted`, `C68_wave_speeds_refuted`, `C78_faraday`, `C85_length`, `C85_guess`, `C85_root`, `C85_normal_end_refuted`, `C85_only_failures_refuted`, `C92_out_exact`, `C92_out_refuted`, `C92_balance`, `C92_ratio_refuted`, `C92_in_half_refuted`, `C96_azimuthal`, `C96_approximate_exact`, `C96_radial_mod`, `C96_radial_exact`, `C96_radial_refuted`, `C97_history`, `C97_settings_exact`, `C97_settings_refuted`, `C97_plot`, `C97_vert`, `C97_vert_refused`, `C97_compare`, `C97_compare_label_refuted`, `C97_derivs`, `C97_params_exact`, `C97_params_label_refuted`, `C98_alfven_refuted`, `C98_conserve_exact`, `C98_conserve_refuted`, `C102_compare`, `C103_j_e`, `C103_ratio`, `C103_ratio_empty`, `C103_jet_exact`, `C103_jet_low`, `C103_jet_refuted`, `C105_existing`, `C105_saved`, `C105_outcome`, `C105_all_or_nothing_refuted`, `C105_outside_refuted`, `C105_again_refuted`, `C106_figure`, `C106_command`, `C106_outcome`, `C106_files`, `C106_tangent`, `C112_faster`, `C118_search_ends`, `C118_threshold`, `C118_rounded`, `C118_tiny_step_endless`, `C119_neighbours_refuted`, `C119_near_partial`, `C122_stays_close`, `C122_determined`, `C122_mirror_image`, `C123_density_positive`, `C123_never_rejected`, `C123_diffusivities`, `C125_mass`, `C125_flux`, `C125_angular_momentum`, `C125_ejection`, `C126_error_bound`, `C126_converges`, `C127_error_exact`, `C127_B_θ_partial`, `C127_E_r_partial`, `C127_density_exact`, `C127_density_third_order`, `C127_third_order_refuted`, `C128_close`, `C128_continuous`, `C129_exists`, `C129_through`, `C129_continues`, `C129_reaches`, `C129_ends`, `C130_persists`, `C130_outcome`, `C130_sign_flip`, `C130_threshold`, `C131_edge`, `C131_rises`, `C131_falls_at_once`, `C131_rises_at_once`, `C131_step_search`, `C132_edge`, `C132_step_search`, `C133_work`, `C133_distance`, `C133_reach`, `C133_transonic`, `C133_slope`, `C134_solutions`, `C135_angles`, `C136_stays_close`, `C136_determined`, `C136_through`, `C136_continues`, `C137_direction`, `C137_denominators`, `C137_sonic`, `C138_accuracy`, `C138_increasing`, `C138_ends`, `C139_shock`, `C140_stays_close`, `C140_determined`, `C140_through`, `C140_continues`, `C142_round_trip`, `C142_default`, `C142_power_of_two`, `C142_order`, `C142_merges`, `C143_real_partial`, `C143_ordered_partial`, `C143_mach_partial`, `C143_slow_refuted`, `C143_real_refuted`, `C143_alfven_refuted`, `C146_balance`, `C146_mod_balance`, `C146_flux`, `C146_mod_flux`, `C146_angular_momentum`, `C146_mod_angular_momentum`, `C146_frozen`, `C146_mod_frozen`, `C147_pressure`, `C147_mod_pressure`, `C147_confined`, `C147_mod_confined`, `C147_atmosphere`, `C147_mod_atmosphere`.
<!-- assumptions: end -->
