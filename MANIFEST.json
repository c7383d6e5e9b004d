{
 "claims": [
  {
   "property": "C01",
   "status": "proved",
   "theorems": [
    "C01_mass_conserved",
    "C01_validate_continuity",
    "C01_rhs_accepts_iff"
   ],
   "note": "PDE div(rho v)=0 in spherical coordinates for the self-similar fluid, and the validation command's residual."
  },
  {
   "property": "C02",
   "status": "proved",
   "theorems": [
    "C02_solenoidal",
    "C02_validate_solenoid"
   ],
   "note": ""
  },
  {
   "property": "C03",
   "status": "proved",
   "theorems": [
    "C03_momentum_r",
    "C03_validate_radial"
   ],
   "note": ""
  },
  {
   "property": "C04",
   "status": "proved",
   "theorems": [
    "C04_momentum_φ",
    "C04_validate_azimuthal"
   ],
   "note": ""
  },
  {
   "property": "C05",
   "status": "proved",
   "theorems": [
    "C05_momentum_θ",
    "C05_validate_polar"
   ],
   "note": ""
  },
  {
   "property": "C06",
   "status": "proved",
   "theorems": [
    "C06_E_φ_vanishes",
    "C06_validate_E_φ"
   ],
   "note": ""
  },
  {
   "property": "C07",
   "status": "partial",
   "theorems": [
    "C07_polar_induction_refuted",
    "C07_polar_induction_exact",
    "C07_polar_induction_partial"
   ],
   "note": "REFUTED: the residual is nonzero; exact value proved for every state; it vanishes for purely Ohmic diffusivity."
  },
  {
   "property": "C08",
   "status": "proved",
   "theorems": [
    "C08_eta_tracks_B_sq_over_ρ",
    "C08_eta_from_midplane",
    "C08_eta_constant_without_derivs"
   ],
   "note": ""
  },
  {
   "property": "C09",
   "status": "proved",
   "theorems": [
    "C09_unit_derivs",
    "C09_A_is_derivative_of_C"
   ],
   "note": ""
  },
  {
   "property": "C10",
   "status": "partial",
   "theorems": [
    "C10_E_r_consistency_refuted",
    "C10_E_r_defect_exact",
    "C10_E_r_consistency_partial"
   ],
   "note": "REFUTED in general; exact defect proved; consistent when B_φ=0 or without Hall/ambipolar terms."
  },
  {
   "property": "C11",
   "status": "partial",
   "theorems": [
    "C11_induction_refuted",
    "C11_induction_defect_exact"
   ],
   "note": "REFUTED: exact defect 2 d/dθ(B_φ N) proved along every solution."
  },
  {
   "property": "C12",
   "status": "proved",
   "theorems": [
    "C12_dissipation",
    "C12_E_is_ohms_law",
    "C12_J_is_curl_B"
   ],
   "note": ""
  },
  {
   "property": "C13",
   "status": "proved",
   "theorems": [
    "C13_current_divergence_free"
   ],
   "note": ""
  },
  {
   "property": "C14",
   "status": "proved",
   "theorems": [
    "C14_conditions_exist_iff",
    "C14_largest_rotation",
    "C14_initial_state",
    "C14_midplane_regular"
   ],
   "note": "All six MHD equations hold at the midplane for curves leaving along the solver's derivatives."
  },
  {
   "property": "C15",
   "status": "proved",
   "theorems": [
    "C15_first_order"
   ],
   "note": ""
  },
  {
   "property": "C16",
   "status": "partial",
   "theorems": [
    "C16_third_order_refuted",
    "C16_third_order_partial",
    "C16_true_v_θ_third",
    "C16_computed_partial"
   ],
   "note": "REFUTED: the v_θ slot holds the v_φ second derivative; the B_r and B_φ slots are right; the third derivative v_θ should have is proved from mass conservation, and shown to be computed and dropped."
  },
  {
   "property": "C17",
   "status": "proved",
   "theorems": [
    "C17_taylor_polynomial",
    "C17_taylor_segment"
   ],
   "note": ""
  },
  {
   "property": "C18",
   "status": "partial",
   "theorems": [
    "C18_start_angle_refuted",
    "C18_start_angle_exact",
    "C18_remaining_grid_partial"
   ],
   "note": "REFUTED: numpy insert's result is discarded, so the main integration always starts strictly after the Taylor stop angle."
  },
  {
   "property": "C19",
   "status": "proved",
   "theorems": [
    "C19_jump_velocity",
    "C19_jump_tangent",
    "C19_jump_angles",
    "C19_jump_defined"
   ],
   "note": ""
  },
  {
   "property": "C20",
   "status": "proved",
   "theorems": [
    "C20_jump_conditions",
    "C20_jump_unique",
    "C20_involution",
    "C20_supersonic_iff",
    "C20_others_unchanged",
    "C20_angles"
   ],
   "note": ""
  },
  {
   "property": "C21",
   "status": "proved",
   "theorems": [
    "C21_discriminant_nonneg",
    "C21_ordered",
    "C21_mach_ordered",
    "C21_superfast"
   ],
   "note": ""
  },
  {
   "property": "C22",
   "status": "proved",
   "theorems": [
    "C22_is_coordinate_change",
    "C22_rotation",
    "C22_conversion_complete",
    "C22_E_r_rejected"
   ],
   "note": ""
  },
  {
   "property": "C23",
   "status": "proved",
   "theorems": [
    "C23_is_self_similar_fluid",
    "C23_derivative_slot",
    "C23_identity",
    "C23_compose",
    "C23_mach_invariant",
    "C23_E_r_rejected"
   ],
   "note": "Mach numbers are invariant when the sound speed is rescaled too (it is 1/sqrt(r) in the equations)."
  },
  {
   "property": "C24",
   "status": "proved",
   "theorems": [
    "C24_inverse",
    "C24_monotone"
   ],
   "note": ""
  },
  {
   "property": "C25",
   "status": "partial",
   "theorems": [
    "C25_validate_refuted",
    "C25_validate_exact",
    "C25_validate_partial",
    "C25_physical_accepted",
    "C25_best_block"
   ],
   "note": "REFUTED for arrays with NaN (comparisons with NaN are false, so NaN passes); exact characterisation for all arrays; equivalence proved for NaN-free arrays."
  },
  {
   "property": "C26",
   "status": "proved",
   "theorems": [
    "C26_first_index",
    "C26_no_number",
    "C26_empty",
    "C26_nan_target"
   ],
   "note": ""
  },
  {
   "property": "C27",
   "status": "partial",
   "theorems": [
    "C27_bracket_refuted",
    "C27_rising_partial",
    "C27_falling_partial",
    "C27_exact_hit"
   ],
   "note": "REFUTED when the sample after the crossing turns back; proved with the exact value otherwise."
  },
  {
   "property": "C28",
   "status": "proved",
   "theorems": [
    "C28_dedup",
    "C28_first_occurrences_spec",
    "C28_defined"
   ],
   "note": ""
  },
  {
   "property": "C29",
   "status": "partial",
   "theorems": [
    "C29_closest_refuted",
    "C29_lookup_exact",
    "C29_on_grid_partial"
   ],
   "note": "REFUTED: returns the value at the least abscissa not below the request; exact characterisation proved; right on grid points."
  },
  {
   "property": "C30",
   "status": "partial",
   "theorems": [
    "C30_default",
    "C30_final",
    "C30_named",
    "C30_latest_partial",
    "C30_latest_refuted"
   ],
   "note": "REFUTED: while no final solution was ever set, 'latest' and 'final' give the placeholder instead of a solution; everything else proved."
  },
  {
   "property": "C31",
   "status": "proved",
   "theorems": [
    "C31_calls",
    "C31_bounds"
   ],
   "note": ""
  },
  {
   "property": "C32",
   "status": "proved",
   "theorems": [
    "C32_sizes",
    "C32_search",
    "C32_error"
   ],
   "note": ""
  },
  {
   "property": "C33",
   "status": "proved",
   "theorems": [
    "C33_converges",
    "C33_starts",
    "C33_bracket",
    "C33_negative_start"
   ],
   "note": "Exact arithmetic. C33_negative_start: with a negative starting γ the search walks away from the threshold."
  },
  {
   "property": "C34",
   "status": "partial",
   "theorems": [
    "C34_zero_step_refuted",
    "C34_hang_refuted",
    "C34_terminates_partial",
    "C34_exact"
   ],
   "note": "REFUTED: a zero step (starting γ = 0) never terminates; exact characterisation in any arithmetic."
  },
  {
   "property": "C35",
   "status": "partial",
   "theorems": [
    "C35_refuted",
    "C35_overwritten_refuted",
    "C35_crosser_refuted",
    "C35_unchanged_partial"
   ],
   "note": "REFUTED: the step method and the fast crosser edit the solution's own input in place."
  },
  {
   "property": "C36",
   "status": "proved",
   "theorems": [
    "C36_additions",
    "C36_add_preserves",
    "C36_add_fails_iff",
    "C36_add_error",
    "C36_deletion_blocks",
    "C36_last"
   ],
   "note": ""
  },
  {
   "property": "C37",
   "status": "proved",
   "theorems": [
    "C37_write_once",
    "C37_set",
    "C37_finalise",
    "C37_shock_run"
   ],
   "note": ""
  },
  {
   "property": "C38",
   "status": "partial",
   "theorems": [
    "C38_history",
    "C38_lookup",
    "C38_merge",
    "C38_distinct_keys",
    "C38_membership_refuted",
    "C38_delete_refuted"
   ],
   "note": "Recordings, lookups and merges proved for all histories. REFUTED for membership tests, which report every key as present and create it, and for lookups, which create missing keys; deleting by angle always fails (only text keys can be deleted)."
  },
  {
   "property": "C39",
   "status": "partial",
   "theorems": [
    "C39_built",
    "C39_join",
    "C39_flip",
    "C39_associative",
    "C39_flip_join",
    "C39_flip_join_problems_refuted"
   ],
   "note": "Proved for the recorded arrays of everything the recording, joining and reversing operations can build. REFUTED for the problem log, whose entries are not reversed."
  },
  {
   "property": "C40",
   "status": "partial",
   "theorems": [
    "C40_consistent_partial",
    "C40_conflict",
    "C40_conflict_others",
    "C40_create_modified",
    "C40_size_refuted",
    "C40_short_refuted"
   ],
   "note": "Slots and attributes agree for every accepted construction. REFUTED for the size: a 12-component state is accepted; an 8-component state with no diffusivities is accepted with NaN slots beside None attributes."
  },
  {
   "property": "C41",
   "status": "partial",
   "theorems": [
    "C41_slice_exact",
    "C41_slice_partial",
    "C41_slice_refuted",
    "C41_mcmc",
    "C41_mcmc_config_refuted"
   ],
   "note": "All MCMC selections round-trip. REFUTED for slices: exactly those with a stop (and a start if there is a step) survive; slice(5, None) comes back as slice(None, 5). Inside a configuration an empty MCMC selection turns into None, which selects everything."
  },
  {
   "property": "C42",
   "status": "proved",
   "theorems": [
    "C42_validate",
    "C42_unknown",
    "C42_apply",
    "C42_none"
   ],
   "note": "An empty text for an optional field stands for None, as in every configuration."
  },
  {
   "property": "C43",
   "status": "proved",
   "theorems": [
    "C43_merge",
    "C43_no_overrides"
   ],
   "note": "For all configurations that convert; equality of values is Python's (1 == 1.0)."
  },
  {
   "property": "C44",
   "status": "partial",
   "theorems": [
    "C44_reader",
    "C44_reader_unique",
    "C44_written_partial",
    "C44_comments_back",
    "C44_written_refuted",
    "C44_trailing_space_refuted"
   ],
   "note": "Reading is exact for all files. Written comments and rows are read back, for all one-line comments and all fields without carriage returns. REFUTED for a field of several lines whose later line looks like a comment (the line is lost), and for trailing white space of a comment."
  },
  {
   "property": "C45",
   "status": "partial",
   "theorems": [
    "C45_rows_partial",
    "C45_headerless_refuted"
   ],
   "note": "One input per non-blank row after the header, in order, exactly the allowed columns, the label replaced. REFUTED for files without a header: the header test looks at one line only and always says yes, so the first row of data is taken as the header. Assumes of the delimiter guess only that it fails on a blank line."
  },
  {
   "property": "C46",
   "status": "partial",
   "theorems": [
    "C46_round_trip_partial",
    "C46_inputs_exact",
    "C46_derivatives_refuted",
    "C46_nan_refuted"
   ],
   "note": "Every well-formed object of the eleven classes comes back the same (up to the order entries are listed in). REFUTED for two kinds of object: stored derivatives come back as h5preserve's wrapper, and initial conditions whose diffusivity is NaN cannot be read."
  },
  {
   "property": "C47",
   "status": "partial",
   "theorems": [
    "C47_registered",
    "C47_solution_input_partial",
    "C47_config_input_partial",
    "C47_solution",
    "C47_run",
    "C47_initial_conditions",
    "C47_broken_versions_refuted"
   ],
   "note": "REFUTED for inputs of versions 1-3 and 5 and internal data of versions 1-2, for which no file whatever loads; all other versions proved."
  },
  {
   "property": "C48",
   "status": "partial",
   "theorems": [
    "C48_filled_partial",
    "C48_uncached_refuted",
    "C48_old_runs_refuted"
   ],
   "note": "Proved for run versions 5 and 6 read through h5preserve's cache. REFUTED without the cache and for run versions 1-4, which leave the flag None."
  },
  {
   "property": "C49",
   "status": "proved",
   "theorems": [
    "C49_valid",
    "C49_best",
    "C49_crash",
    "C49_final"
   ],
   "note": "The sampler is any sequence of points; points with an invalid or unsolvable input count as minus infinity."
  },
  {
   "property": "C50",
   "status": "proved",
   "theorems": [
    "C50_selection",
    "C50_decode",
    "C50_round_trip"
   ],
   "note": ""
  },
  {
   "property": "C51",
   "status": "partial",
   "theorems": [
    "C51_finding_partial",
    "C51_outside_refuted",
    "C51_no_stop_refuted",
    "C51_grows_refuted"
   ],
   "note": "REFUTED, for every history of outcomes in exact arithmetic: once limits are found, every further value lies outside them, the limits only grow (to 1 + n times the golden ratio of their distance) and no outcome ends the search. The sign of the first golden-section point is the wrong way round. Proved for the phases that look for the limits."
  },
  {
   "property": "C52",
   "status": "partial",
   "theorems": [
    "C52_exact",
    "C52_refuted",
    "C52_recorded_refuted"
   ],
   "note": "REFUTED: the modified conditions are written into the midplane conditions' own array, so after each evaluation these hold the guess, and every stored solution but the first records the sonic state as its initial conditions. C52_exact says what they hold."
  },
  {
   "property": "C53",
   "status": "partial",
   "theorems": [
    "C53_joined",
    "C53_aligned",
    "C53_internal",
    "C53_flag_exact",
    "C53_taylor_stop",
    "C53_crossing",
    "C53_jump",
    "C53_flag_partial",
    "C53_nondecreasing_partial",
    "C53_interpolated_refuted",
    "C53_scaled_jump_refuted",
    "C53_flag_refuted",
    "C53_finished_lost_refuted"
   ],
   "note": "REFUTED in part. For every integrator outcome the joined solution holds the parts in order, with as many angles as states, and the internal data of all parts. The flag and the roots are those of the first main integration: a failure after crossing the sonic point is not reported (C53_flag_refuted). Angles never decrease, and increase strictly unless the sonic point was crossed by interpolation, where some angle is always there twice (C53_interpolated_refuted). A jump is made even if no root was met: a finished integration is then lost (C53_finished_lost_refuted). With an angular scale above one the grid after a jump goes back (C53_scaled_jump_refuted). C53_crossing, C53_jump: where each segment starts and stops. Partial: the angles are covered for forward jumps and a scale of at most one; the integrator's contract is the hypothesis keeps_grid."
  },
  {
   "property": "C54",
   "status": "partial",
   "theorems": [
    "C54_rejected",
    "C54_accepted",
    "C54_solution_partial",
    "C54_taylor_refuted"
   ],
   "note": "REFUTED in part: the main solver rejects exactly the conflicting options (and grids of fewer than two angles) before integrating and otherwise starts exactly one integration with what was asked; a full solve does so unless the Taylor start is integrated, in which case that integration has already been started when the conflict is found."
  },
  {
   "property": "C55",
   "status": "partial",
   "theorems": [
    "C55_handed_over",
    "C55_any_schedule",
    "C55_outcome",
    "C55_rows_partial",
    "C55_complete_partial",
    "C55_crash_prefix",
    "C55_unknown_method",
    "C55_bad_row_refuted"
   ],
   "note": "For every schedule and crash point: one row per solved input in input order, and the text so far is a prefix of the final text. REFUTED when a row cannot be converted: that exception is not a solver error and ends the batch, losing all later rows."
  },
  {
   "property": "C56",
   "status": "partial",
   "theorems": [
    "C56_zero",
    "C56_success",
    "C56_failure",
    "C56_unknown_command",
    "C56_unknown_batch",
    "C56_unknown_refuted"
   ],
   "note": "REFUTED in part: the exit status is 0 exactly when the method reported success (and the run could be closed). On the command line and in a batch an unknown method leaves no file; called as a function, solve and resolve create the file first and leave it behind without solutions."
  },
  {
   "property": "C57",
   "status": "partial",
   "theorems": [
    "C57_direction",
    "C57_unit",
    "C57_points",
    "C57_spacing_partial",
    "C57_repeated_exact",
    "C57_repeated_refuted",
    "C57_start_refuted"
   ],
   "note": "REFUTED in part: when the step is cut the current point is emitted a second time, so two consecutive points coincide, and a start beyond the last stored angle is a TypeError. Proved: the directions, their length and independence of the radial power, the number of points, and exactly which neighbours are one step apart. Real arithmetic; interpolation of the solution is an argument."
  },
  {
   "property": "C58",
   "status": "partial",
   "theorems": [
    "C58_filter",
    "C58_down_refuted",
    "C58_inner_space_refuted",
    "C58_error",
    "C58_select",
    "C58_sorted"
   ],
   "note": "REFUTED in part: a range that goes down (5-3) selects its second end only and white space before the second end of a range becomes part of the last name. Proved for all filters made of names and rising ranges with white space around items, for the selection and for the stable sort."
  },
  {
   "property": "C59",
   "status": "partial",
   "theorems": [
    "C59_inputs_partial",
    "C59_exact",
    "C59_swapped_refuted",
    "C59_scan_partial",
    "C59_table_refuted"
   ],
   "note": "REFUTED: the Hall and ambipolar values are exchanged in every generated input (right only if they are equal). Proved: everything else about the inputs, the lengths, and the table of the scan."
  },
  {
   "property": "C60",
   "status": "proved",
   "theorems": [
    "C60_test_points"
   ],
   "note": ""
  },
  {
   "property": "C61",
   "status": "partial",
   "theorems": [
    "C61_exact",
    "C61_partial",
    "C61_refuted"
   ],
   "note": "REFUTED: the sign of the term with the derivative of the denominator is wrong for the ambipolar part. C61_exact gives the error; C61_partial says the function is right exactly when η_A b_r b_φ (η_O + η_A (1 - b_φ²))' = 0."
  },
  {
   "property": "C62",
   "status": "proved",
   "theorems": [
    "C62_quadratic",
    "C62_accepts",
    "C62_derivatives",
    "C62_initial"
   ],
   "note": "At every radius, from the partial differential equations of Spec_MHD."
  },
  {
   "property": "C63",
   "status": "partial",
   "theorems": [
    "C63_velocities",
    "C63_initial",
    "C63_stored",
    "C63_v_r",
    "C63_v_φ_exact",
    "C63_midplane_refuted"
   ],
   "note": "REFUTED for the variant without E_r, which integrates the velocities: at its first point the derivative of B_φ' is not zero. Proved for the variant with E_r, for every root tracker that answers roots, at points where the right-hand side accepts the state. Not claimed for that variant: that B_φ' is Ohm's law's; its Z_5 has the sign defect of C10."
  },
  {
   "property": "C64",
   "status": "partial",
   "theorems": [
    "C64_A_exact",
    "C64_Z_5_exact",
    "C64_B_r",
    "C64_B_φ_exact",
    "C64_S",
    "C64_ρ",
    "C64_η",
    "C64_quadratic",
    "C64_choice",
    "C64_no_ambipolar",
    "C64_A_refuted",
    "C64_Z_5_refuted",
    "C64_B_φ_refuted",
    "C64_slope_partial"
   ],
   "note": "REFUTED: A_down repeats a term of A_up, Z_5_up lacks a factor 2 and dderiv_B_φ_down lacks C B_r. The exact theorems give each defect. Right for the density, the diffusivities, B_r and the bracket; without ambipolar diffusion and without either Hall diffusion or radial field the whole quadratic is right for every smooth crossing (C64_no_ambipolar). The function is not called anywhere in the code base."
  },
  {
   "property": "C65",
   "status": "partial",
   "theorems": [
    "C65_B_θ_second",
    "C65_E_r_second",
    "C65_η_second_partial",
    "C65_η_constant",
    "C65_ρ_second_refuted",
    "C65_ρ_second_exact",
    "C65_v_second_refuted",
    "C65_v_second_exact",
    "C65_v_second_wrong",
    "C65_radial_exact",
    "C65_induction_exact",
    "C65_induction_refuted"
   ],
   "note": "Right for B_θ and E_r; REFUTED for the density, with the exact defect. REFUTED for the velocities along the disc: the coefficients of v_r, v_φ (second order) and B_φ (third order) violate azimuthal momentum conservation by a fixed amount, so for every accreting and rotating disc with 0 <= γ <= 1/4 at least one of them is wrong. Radial momentum is obeyed up to the defect of the density. REFUTED for B_r (third order) with B_φ and v_r: they violate the azimuthal component of Ohm's law, with the exact defect for all diffusivities."
  },
  {
   "property": "C66",
   "status": "partial",
   "theorems": [
    "C66_angular_scaling_refuted",
    "C66_angular_scaling_exact",
    "C66_angular_scaling_partial",
    "C66_jump_scaled_refuted",
    "C66_hydro_scaling_exact",
    "C66_hydro_scaling_refuted",
    "C66_mod_scaling_exact",
    "C66_mod_scaling_refuted"
   ],
   "note": "REFUTED: the right-hand side is not multiplied by θ_scale, so the physical derivative is off by exactly 1/θ_scale; right for scale one. So it is in the two hydrostatic methods. The landing angle of the jump is scaled twice."
  },
  {
   "property": "C67",
   "status": "partial",
   "theorems": [
    "C67_constant_radius_refuted",
    "C67_constant_radius_exact"
   ],
   "note": "REFUTED: the rescaling radius uses the height in scale heights instead of tan θ; right only in the midplane or for c_s/v_k = 1."
  },
  {
   "property": "C68",
   "status": "partial",
   "theorems": [
    "C68_wave_speeds_refuted",
    "C68_wave_speeds_exact",
    "C68_alfven_factor"
   ],
   "note": "REFUTED: the code uses B²/(4πρ) on normalised values, i.e. the waves of coupling 1/(4π) instead of a_0."
  },
  {
   "property": "C69",
   "status": "partial",
   "theorems": [
    "C69_tangential_E_refuted",
    "C69_tangential_E_exact",
    "C69_E_r_formulation_partial"
   ],
   "note": "REFUTED for the B_φ' formulation (jump is exactly Δv_θ B_φ without Hall/ambipolar terms); holds for the E_r formulation."
  },
  {
   "property": "C70",
   "status": "proved",
   "theorems": [
    "C70_normalisation"
   ],
   "note": ""
  },
  {
   "property": "C73",
   "status": "partial",
   "theorems": [
    "C73_names",
    "C73_two_valued",
    "C73_negative_velocity",
    "C73_raises_iff",
    "C73_by_velocity",
    "C73_column_refuted",
    "C73_unknown_refuted"
   ],
   "note": "REFUTED: it reads the sixth stored row instead of the v_θ column (IndexError with fewer than six rows), and an unknown name is a TypeError."
  },
  {
   "property": "C74",
   "status": "proved",
   "theorems": [
    "C74_search_succeeds"
   ],
   "note": ""
  },
  {
   "property": "C75",
   "status": "partial",
   "theorems": [
    "C75_inputs_refuted",
    "C75_filled_inputs",
    "C75_run_refuted",
    "C75_old_runs_refuted"
   ],
   "note": "REFUTED: inputs older than version 14 have use_E_r None, which cannot be written; proved to work once the flag is filled (versions 6-13)."
  },
  {
   "property": "C71",
   "status": "partial",
   "theorems": [
    "C71_round_trip",
    "C71_none_partial",
    "C71_solver_input",
    "C71_mcmc_none_refuted",
    "C71_none_range_refuted"
   ],
   "note": "Proved for text values without the configuration parser's special forms, and for None in optional options. An optional None is left out of the file and means None again to the solver. REFUTED for an MCMC selection of None, which comes back as the default full selection, and for None in options that must be written, where writing fails with a TypeError."
  },
  {
   "property": "C72",
   "status": "partial",
   "theorems": [
    "C72_round_trip_partial",
    "C72_dump_config_partial",
    "C72_no_slice_refuted",
    "C72_after_shock_refuted",
    "C72_no_mcmc_refuted"
   ],
   "note": "Proved for every input whose slice can be written and whose MCMC selection is present and not empty. REFUTED for inputs without a slice (as after a shock, where the dump fails) and for a missing MCMC selection."
  },
  {
   "property": "C76",
   "status": "proved",
   "theorems": [
    "C76_zero_iff",
    "C76_first_root"
   ],
   "note": ""
  },
  {
   "property": "C77",
   "status": "proved",
   "theorems": [
    "C77_one_call",
    "C77_rejected",
    "C77_history",
    "C77_comparison",
    "C77_not_stored"
   ],
   "note": ""
  },
  {
   "property": "C78",
   "status": "proved",
   "theorems": [
    "C78_faraday"
   ],
   "note": ""
  },
  {
   "property": "C79",
   "status": "partial",
   "theorems": [
    "C79_results_as_inputs_partial",
    "C79_appended_refuted",
    "C79_no_mcmc_refuted"
   ],
   "note": "Proved for the table of one run and printable inputs. REFUTED for a table to which a second run was appended (its header is read as an input and stops the batch) and for an empty MCMC selection (comes back as None, which selects everything)."
  },
  {
   "property": "C80",
   "status": "partial",
   "theorems": [
    "C80_step_last",
    "C80_single",
    "C80_step",
    "C80_crosser",
    "C80_no_final_single",
    "C80_no_final_step",
    "C80_mcmc_refuted"
   ],
   "note": "REFUTED for MCMC, which reports success when no point had a solution; exact for the step, single and fast-crosser methods (the crosser never reports failure: without a stored solution it raises)."
  },
  {
   "property": "C81",
   "status": "partial",
   "theorems": [
    "C81_batch_all",
    "C81_solve",
    "C81_batch",
    "C81_crash",
    "C81_fixed_name_refuted"
   ],
   "note": "REFUTED for a batch with a fixed output name, which ends at its second input. Otherwise proved for all histories: no existing file is ever changed and a crash leaves what was stored so far."
  },
  {
   "property": "C82",
   "status": "partial",
   "theorems": [
    "C82_twice_refuted",
    "C82_failed_partial",
    "C82_long_solve_refuted",
    "C82_best_refuted"
   ],
   "note": "REFUTED: a solution is stored twice, a failing long solve ends the whole search, and the final solution is the last one, not the best. A failing step search is passed over."
  },
  {
   "property": "C83",
   "status": "proved",
   "theorems": [
    "C83_angles"
   ],
   "note": ""
  },
  {
   "property": "C84",
   "status": "partial",
   "theorems": [
    "C84_command",
    "C84_kept",
    "C84_files",
    "C84_any_order",
    "C84_reported",
    "C84_all_reported",
    "C84_no_directory_refuted"
   ],
   "note": "REFUTED if the directory shock_tests does not exist: the error of every save is caught, so all shocks found are lost and the search ends normally. Proved otherwise. Each task works on its own copy of the run (multiprocessing)."
  },
  {
   "property": "C85",
   "status": "partial",
   "theorems": [
    "C85_length",
    "C85_angles",
    "C85_guess",
    "C85_root",
    "C85_joined",
    "C85_normal_end_refuted",
    "C85_only_failures_refuted"
   ],
   "note": "REFUTED in part: the status name is misspelt (SUCESS), so an integration from the sonic point that does not fail raises AttributeError, which ends the method; only failed ones are ever stored. The guess, the root function and the joining are proved right."
  },
  {
   "property": "C86",
   "status": "partial",
   "theorems": [
    "C86_Z_2_exact",
    "C86_Z_3_exact",
    "C86_v_r",
    "C86_midplane_refuted",
    "C86_Z_3_refuted"
   ],
   "note": "REFUTED: Z_3 is not the derivative of the quadratic's root in v_r, and in every Ohmic thin inflowing disc the derivatives of B_φ', v_r and v_φ at the midplane are not zero. C86_v_r proves v_r' right given v_φ' = Z_2 + Z_3 v_r'."
  },
  {
   "property": "C87",
   "status": "partial",
   "theorems": [
    "C87_indices",
    "C87_angles_partial",
    "C87_angles_refuted"
   ],
   "note": "REFUTED for the angles: if a Mach number falls again right after its crossing the interpolation leaves the interval and the slow point is placed after the sonic one. C87_indices proves the whole claim for the indices; C87_angles_partial proves it for the angles if no Mach number decreases."
  },
  {
   "property": "C88",
   "status": "partial",
   "theorems": [
    "C88_exact",
    "C88_refuted"
   ],
   "note": "REFUTED: alfven is printed for a solution that is nowhere supersonic. C88_exact says for every solution what is printed, and that nothing fails."
  },
  {
   "property": "C89",
   "status": "partial",
   "theorems": [
    "C89_jacobian",
    "C89_linear_rows",
    "C89_rows",
    "C89_coefs",
    "C89_fallback_refuted"
   ],
   "note": "REFUTED for the last part: with --global-eigvecs and no critical point the index -1 gives an empty slice and every run ends in an IndexError. The other parts are proved, with the eigenvector routine and the matrix inverse as arguments."
  },
  {
   "property": "C90",
   "status": "partial",
   "theorems": [
    "C90_parts_partial",
    "C90_radial_exact",
    "C90_radial_refuted",
    "C90_all_terms",
    "C90_plotted"
   ],
   "note": "REFUTED for the radial momentum: its parts exceed the total by v_r²/2, because the radial terms carry v_r² for v_r²/2. Proved for the other five equations; all six totals are the integrator's."
  },
  {
   "property": "C91",
   "status": "partial",
   "theorems": [
    "C91_max_mach",
    "C91_flags",
    "C91_residuals_exact",
    "C91_residuals_refuted",
    "C91_ratio_exact",
    "C91_ratio_refuted"
   ],
   "note": "REFUTED for two parts: max_diff entries are the greatest signed residual, so an equation can fail by any amount while its entry is negative; max_B_p_on_B_t is the greatest toroidal over poloidal ratio. The other parts are proved."
  },
  {
   "property": "C92",
   "status": "partial",
   "theorems": [
    "C92_out_exact",
    "C92_out_refuted",
    "C92_balance",
    "C92_ratio_refuted",
    "C92_in_half_refuted",
    "C92_Σ_refuted"
   ],
   "note": "REFUTED: the outflow lacks the cosine of the last latitude (exact), the inflow lacks it too and has the power 2γ-1 for 2γ, so the ratio is over 2 for a solution whose true ratio is 1 (C92_balance) and divides by zero at γ=1/2; Σ is a sum over samples and grows without bound with the grid."
  },
  {
   "property": "C93",
   "status": "partial",
   "theorems": [
    "C93_columns",
    "C93_table_partial",
    "C93_table_exists",
    "C93_other_error_exact",
    "C93_files",
    "C93_sources",
    "C93_order",
    "C93_appended_refuted",
    "C93_final_twice_refuted"
   ],
   "note": "Proved for new files and for failures that are ValueErrors; columns and sources match one to one. REFUTED: any other exception ends the command and loses all later rows (exact); a second run puts the column names among the solutions; the final solution of a run is there twice."
  },
  {
   "property": "C94",
   "status": "partial",
   "theorems": [
    "C94_inputs_partial",
    "C94_stats_partial",
    "C94_dump",
    "C94_appended_refuted"
   ],
   "note": "Proved for a table in a new file and printable inputs, for all three commands; ds-dump without header continues a table. REFUTED for two ds-dumpcsv runs into one file: the second header is read as an input and stops the batch."
  },
  {
   "property": "C95",
   "status": "partial",
   "theorems": [
    "C95_hydro_refused",
    "C95_hydro",
    "C95_mod_hydro",
    "C95_roots_refused",
    "C95_roots",
    "C95_finished_run",
    "C95_success_refuted",
    "C95_hydro_history",
    "C95_mod_hydro_history",
    "C95_rejected_refuted",
    "C95_aligned_exact",
    "C95_aligned_refuted"
   ],
   "note": "REFUTED for three parts: an integration that failed at its first angle is stored and reported as a success by both methods; a call rejected for a negative discriminant leaves no trace; the six lists of the Taylor comparison stay empty, so the lists belong together exactly if no call was accepted. The rest is proved for every integrator."
  },
  {
   "property": "C96",
   "status": "partial",
   "theorems": [
    "C96_azimuthal",
    "C96_approximate_exact",
    "C96_radial_mod",
    "C96_radial_exact",
    "C96_radial_refuted",
    "C96_printed",
    "C96_refused"
   ],
   "note": "REFUTED for the radial curve on a hydrostatic solution: it is (v_k - v_φ)²/(2 v_k), 1/6 in the witness, because the command uses the linearised equation of mod_hydro, for which the claim is proved. The azimuthal curve is proved; the approximate one is the share of the terms it leaves out (exact)."
  },
  {
   "property": "C97",
   "status": "partial",
   "theorems": [
    "C97_history",
    "C97_settings_exact",
    "C97_settings_refuted",
    "C97_plot",
    "C97_vert",
    "C97_vert_refused",
    "C97_colors",
    "C97_compare",
    "C97_compare_label_refuted",
    "C97_derivs",
    "C97_params_exact",
    "C97_params_label_refuted"
   ],
   "note": "Proved after every history for ds-plot, ds-vert-plot and ds-derivs-plot and for the lines of ds-compare-plot. REFUTED for three parts: the common function hands out an offset left by an earlier plot to a caller that asked for none, and changes settings others still hold (exact); ds-compare-plot labels E_r as B_φ'; the ds-params-plot panel titled (v_φ - v_k)/c_s shows v_φ."
  },
  {
   "property": "C98",
   "status": "partial",
   "theorems": [
    "C98_combine",
    "C98_alfven_exact",
    "C98_alfven_refuted",
    "C98_conserve",
    "C98_conserve_exact",
    "C98_conserve_refuted",
    "C98_σ_exact",
    "C98_σ_refuted"
   ],
   "note": "REFUTED for three parts: the Alfvén line in km/s is the physical one exactly if (v_a/c_s)² = 1/(4π); for a flow that conserves mass the slope of ρ v_θ is ρ (v_θ tan θ - 2γ v_r), nonzero in the witness; σ is a sum over samples, before the range too, without bound as the grid is refined. The lines themselves are proved."
  },
  {
   "property": "C99",
   "status": "partial",
   "theorems": [
    "C99_taylor_values",
    "C99_taylor_ratio_exact",
    "C99_taylor_refuted",
    "C99_taylor_refused",
    "C99_acc_exact",
    "C99_range_refuted",
    "C99_sonic_ratio",
    "C99_v_deriv"
   ],
   "note": "REFUTED for two parts: the ratios of ds-taylor-plot stand at angles converted to degrees twice; ds-taylor-plot and ds-acc-plot ignore the range. The rest is proved."
  },
  {
   "property": "C100",
   "status": "proved",
   "theorems": [
    "C100_values",
    "C100_overrides",
    "C100_rest_ignored"
   ],
   "note": "Proved for every parsed configuration file (its sections and options; parsing of the text is not modelled) and all overrides that pass validation."
  },
  {
   "property": "C101",
   "status": "partial",
   "theorems": [
    "C101_stderr",
    "C101_outer",
    "C101_file",
    "C101_file_exact",
    "C101_file_refuted",
    "C101_no_file"
   ],
   "note": "Proved for the terminal, for outer handlers, and for the file without -q and -v. REFUTED for the file with -v or -q: it receives only the messages below the threshold of the terminal (exact), so with -v nothing and with -q no error."
  },
  {
   "property": "C102",
   "status": "partial",
   "theorems": [
    "C102_single",
    "C102_single_failure",
    "C102_single_refused",
    "C102_multi",
    "C102_missing_refuted",
    "C102_unreadable",
    "C102_no_runs_refuted",
    "C102_all",
    "C102_all_refused",
    "C102_compare"
   ],
   "note": "Proved for single-solution and all-solutions commands and for multi-solution commands whose solutions exist. REFUTED for the rest: a missing solution other than \"final\" stops a multi-solution command with KeyError, as does a command line without any -r."
  },
  {
   "property": "C103",
   "status": "partial",
   "theorems": [
    "C103_diverge",
    "C103_diverge_command",
    "C103_j_e",
    "C103_j_e_φ",
    "C103_j_e_refused",
    "C103_validate",
    "C103_validate_zero",
    "C103_validate_printed",
    "C103_validate_refused",
    "C103_ratio",
    "C103_ratio_colors",
    "C103_ratio_markers",
    "C103_ratio_empty",
    "C103_jet_exact",
    "C103_jet_low",
    "C103_jet_refuted"
   ],
   "note": "REFUTED for three parts: the residual of polar induction is not zero (C07); colours tell v_r apart exactly if at most ten values are plotted, markers a_0 up to 22; the jet speed reported is scaled to sqrt(1 + (tan θ / c)²), not to the cylinder (C67), and so always too low for c < 1. The rest is proved."
  },
  {
   "property": "C104",
   "status": "partial",
   "theorems": [
    "C104_usage",
    "C104_usage_multiple",
    "C104_usage_all",
    "C104_options",
    "C104_multiple",
    "C104_all",
    "C104_flow",
    "C104_flow_file_refuted",
    "C104_flow_file_plain_refuted",
    "C104_vert_scale_refuted",
    "C104_unreadable_angle_refuted"
   ],
   "note": "Proved for every command line of the plotting commands. REFUTED for three parts: ds-flow-file stops with a TypeError on every command line (it passes with_max_v_angle, which the saving function does not take); --v_θ of ds-vert-plot changes nothing; a --start or --stop that is not a number is not refused but passed on as None. The text of the command line before argparse splits it is not modelled."
  },
  {
   "property": "C105",
   "status": "partial",
   "theorems": [
    "C105_existing",
    "C105_saved",
    "C105_outcome",
    "C105_all_or_nothing_refuted",
    "C105_outside_refuted",
    "C105_again_refuted"
   ],
   "note": "Proved: contents, existing files, and exactly when saving succeeds. REFUTED: all or nothing - when the third name is taken, or a line starts outside the solution, the earlier files are made and stay, and then every further attempt fails because they exist."
  },
  {
   "property": "C106",
   "status": "proved",
   "theorems": [
    "C106_figure",
    "C106_command",
    "C106_outcome",
    "C106_files",
    "C106_tangent"
   ],
   "note": "Also: drawn exactly when both lines start inside the solution and have at least one step."
  },
  {
   "property": "C107",
   "status": "partial",
   "theorems": [
    "C107_usage",
    "C107_options",
    "C107_unknown_override",
    "C107_status",
    "C107_csvrunner_refuted",
    "C107_hdf5runner_refuted",
    "C107_quiet_refuted"
   ],
   "note": "Proved for every command line of the four commands. REFUTED for some options of the batch commands: ds-csvrunner takes --output-dir, ds-hdf5runner takes --output-file, and both take the logging options, and nothing depends on them (with --quiet every message still appears)."
  },
  {
   "property": "C108",
   "status": "partial",
   "theorems": [
    "C108_usage",
    "C108_read_back",
    "C108_listing",
    "C108_run",
    "C108_status",
    "C108_points",
    "C108_solutions",
    "C108_scale_exact",
    "C108_missing_solution_refuted",
    "C108_no_final"
   ],
   "note": "Proved for every command line and run. REFUTED in part: the groups about the run (run, solutions) print nothing and end in KeyError if the solution named does not exist; sonic-on-scale prints to standard output whatever stream is given, and ends in TypeError if there is no sonic point."
  },
  {
   "property": "C109",
   "status": "partial",
   "theorems": [
    "C109_usage",
    "C109_only_output",
    "C109_tocsv",
    "C109_tocfg",
    "C109_not_found",
    "C109_tocfg_lost_refuted",
    "C109_tables"
   ],
   "note": "Proved except for the last part. REFUTED: ds-tocfg empties its output file before it converts the solution, so for a solution without interpolation slice (every one found after a shock) an existing file is lost and the command ends in AttributeError."
  },
  {
   "property": "C110",
   "status": "proved",
   "theorems": [
    "C110_eigenvalues",
    "C110_eigenvectors",
    "C110_norm",
    "C110_norm_unit",
    "C110_no_samples",
    "C110_failed"
   ],
   "note": "Proved for at most 20 equations (the colours) and 12 panels; the code has 11. Without samples the plots end in IndexError or ValueError; an error of the eigenvalue routine ends the plot."
  },
  {
   "property": "C111",
   "status": "partial",
   "theorems": [
    "C111_workers",
    "C111_written",
    "C111_end",
    "C111_schedule",
    "C111_prefix",
    "C111_ends",
    "C111_completes",
    "C111_status",
    "C111_hdf5_status",
    "C111_csvrunner",
    "C111_csv_workers",
    "C111_csv_no_workers_refuted",
    "C111_shock_usage",
    "C111_shock",
    "C111_shock_missing",
    "C111_shock_files",
    "C111_no_workers_refuted"
   ],
   "note": "Proved for every schedule of the steps a multiprocessing pool can take. After an error every remaining item is still worked on and its result dropped (C111_end). REFUTED for a number of workers below one: the pool's ValueError is replaced by a NameError from the clean-up, and ds-csvrunner has already written comments and column names to its output."
  },
  {
   "property": "C112",
   "status": "partial",
   "theorems": [
    "C112_positions",
    "C112_start_sign",
    "C112_score",
    "C112_faster",
    "C112_unscored",
    "C112_worth",
    "C112_run",
    "C112_returns",
    "C112_failed",
    "C112_nan_refuted",
    "C112_nan_start_refuted"
   ],
   "note": "Proved when no point is worth NaN and no solve fails with a foreign error (C112_returns, C112_run). REFUTED for solutions with a NaN in v_θ: their score is NaN, which the log probability function hands on; emcee refuses NaN with ValueError, so the whole run ends without a final solution although it holds the solutions found so far. C112_failed: these are the only ways for a run that has begun to fail. emcee's groups and its refusal of NaN are modelled from its documentation."
  },
  {
   "property": "C113",
   "status": "partial",
   "theorems": [
    "C113_answer",
    "C113_answer_exact",
    "C113_every_run",
    "C113_stop",
    "C113_leave",
    "C113_late_stop_refuted"
   ],
   "note": "Proved for every session, for STOP if fewer answers were given than there are search steps. REFUTED for a STOP after as many equal answers as search steps (20): the search is counted as failed before the answer is looked at, no solution becomes final and the command fails. The complaint does not mention STOP."
  },
  {
   "property": "C114",
   "status": "partial",
   "theorems": [
    "C114_figure_partial",
    "C114_diffusivities_refuted",
    "C114_off_axes_refuted"
   ],
   "note": "Proved for every draw, with the ambipolar and Hall diffusivities exchanged. REFUTED for the diffusivities asked for: the scan works with η_A = 0.008 and η_H = 0.001, and the coefficient of B_θ of every point of every figure is larger than the right one. REFUTED for the limits: the axes of B_θ and ρ start at 0, and both coefficients are negative at every point of every figure. What spaceplot draws is not modelled."
  },
  {
   "property": "C115",
   "status": "proved",
   "theorems": [
    "C115_mirror",
    "C115_lower_half",
    "C115_midplane",
    "C115_taylor"
   ],
   "note": ""
  },
  {
   "property": "C116",
   "status": "proved",
   "theorems": [
    "C116_field_reversed",
    "C116_counter_rotating",
    "C116_units",
    "C116_hall_sign"
   ],
   "note": "Without the Taylor terms, whose coefficients take B_θ = ρ = 1 for granted; their symmetry is C117."
  },
  {
   "property": "C117",
   "status": "partial",
   "theorems": [
    "C117_taylor_refuted",
    "C117_taylor_partial"
   ],
   "note": "REFUTED: v_r'' at the midplane changes when the disc turns the other way round (3/4 against 29/44 for a purely Ohmic disc). Proved for all first-order coefficients and the second-order ones of ρ, B_θ, E_r and the diffusivities."
  },
  {
   "property": "C118",
   "status": "proved",
   "theorems": [
    "C118_search_ends",
    "C118_threshold",
    "C118_rounded",
    "C118_tiny_step_endless"
   ],
   "note": "Rounding to nearest, ties to even, in any format of at least three bits (Model_Float.v, with Flocq). The bounds and one first step on each side must lie in one binade. C118_tiny_step_endless: the loop that enlarges the step would not end for a much smaller step, which the search is proved not to reach."
  },
  {
   "property": "C119",
   "status": "partial",
   "theorems": [
    "C119_neighbours_refuted",
    "C119_near_partial"
   ],
   "note": "REFUTED: in double precision, from 0.7 with a threshold just below 1/2, the search reports success and leaves a smaller number that diverges as well. Proved for every search over two neighbouring ranges of exponents: the search ends by itself, and the final number is at most four units in the last place (of the lower range) above one that flips sign, so also that near to the threshold."
  },
  {
   "property": "C120",
   "status": "partial",
   "theorems": [
    "C120_soln",
    "C120_resoln",
    "C120_row",
    "C120_row_unknown",
    "C120_again",
    "C120_chain",
    "C120_methods",
    "C120_label_refuted"
   ],
   "note": "REFUTED: ds-resoln names its file after the label of the old run, also if --override gives the new run another label. Everything else is proved; the same solution again is proved for the single method with a solution function that depends on its input only."
  },
  {
   "property": "C121",
   "status": "partial",
   "theorems": [
    "C121_round_trip_partial",
    "C121_empty_attrs_refuted",
    "C121_written"
   ],
   "note": "REFUTED: an entry attrs that is an empty dictionary is lost. Proved for all other dictionaries; those with an attrs that is no dictionary cannot be written."
  },
  {
   "property": "C122",
   "status": "proved",
   "theorems": [
    "C122_stays_close",
    "C122_determined",
    "C122_mirror_image"
   ],
   "note": "About exact solutions of the system; Grönwall's lemma is proved in Lib_Gronwall.v. Regular states are spelled out in Spec_Unique.v; the denominators of the code are proved nonzero there."
  },
  {
   "property": "C123",
   "status": "proved",
   "theorems": [
    "C123_density_positive",
    "C123_never_rejected",
    "C123_diffusivities"
   ],
   "note": "About exact solutions; by Grönwall's lemma for the square of the vertical mass flux."
  },
  {
   "property": "C124",
   "status": "partial",
   "theorems": [
    "C124_file_partial",
    "C124_file_as_input_partial",
    "C124_stdout_refuted"
   ],
   "note": "REFUTED: on standard output, which is the default, the messages of the tasks and of the command are mixed into the table; every batch with at least one input leaves a table that stops a batch which reads it. Proved for an output in a file."
  },
  {
   "property": "C125",
   "status": "proved",
   "theorems": [
    "C125_mass",
    "C125_flux",
    "C125_angular_momentum",
    "C125_ejection"
   ],
   "note": "About exact solutions without the Taylor terms (C125_flux: with them too) and with the angles in radians; the integrals are Coquelicot's Riemann integrals. The solution need only be continuous at the two ends."
  },
  {
   "property": "C126",
   "status": "proved",
   "theorems": [
    "C126_error_bound",
    "C126_converges"
   ],
   "note": "The right-hand side is proved Lipschitz on every set of states with a margin (Proofs_Error.v, Lib_Lipschitz.v); Spec_Error.v spells out the margin, which asks for Ohmic diffusion. The approximation must be differentiable, as the interpolant of an integrator is; the integrator itself is not modelled."
  },
  {
   "property": "C127",
   "status": "partial",
   "theorems": [
    "C127_error_exact",
    "C127_B_θ_partial",
    "C127_E_r_partial",
    "C127_density_exact",
    "C127_density_third_order",
    "C127_third_order_refuted"
   ],
   "note": "REFUTED: the error of the density is of second order, -γ(1-4γ)v_r²/4 times the square of the stop angle, so it is of third order only if γ is 0 or 1/4 or there is no radial flow. For every quantity the leading error is proved to be half the difference between the code's second-order coefficient and the second derivative; so none is of first order, and B_θ and E_r have none of second order (stated as smaller than every multiple of the square). Angles in radians (θ_scale = 1)."
  },
  {
   "property": "C128",
   "status": "proved",
   "theorems": [
    "C128_close",
    "C128_continuous"
   ],
   "note": "By C126: a solution for other parameters follows the equations up to a multiple of the gap between the parameters (Proofs_Param.v). The interval, the angular scale and an interpolated v_θ' are the same for both; the Keplerian speed is in units of the sound speed. That there are solutions to compare is C129."
  },
  {
   "property": "C129",
   "status": "proved",
   "theorems": [
    "C129_exists",
    "C129_through",
    "C129_continues",
    "C129_reaches",
    "C129_ends"
   ],
   "note": "By Picard iteration (Lib_Picard.v, with Coquelicot's integral) for the slopes the code computes, which are continuous along continuous curves and Lipschitz where there is a margin; uniqueness by C122. The ambipolar diffusivity must be positive, or constant (diffusivities without derivatives, or zero in the midplane). C129_continues, C129_reaches and C129_ends: outside the Taylor region. C129_ends: a solution whose quantities tend to a state that is not singular does not end there."
  },
  {
   "property": "C130",
   "status": "proved",
   "theorems": [
    "C130_persists",
    "C130_outcome",
    "C130_sign_flip",
    "C130_threshold"
   ],
   "note": "C129_reaches for the other set-up, C126 and C128 on the part of the interval it reaches: where the tolerance is small the other solution cannot use up half of the margin. Outside the Taylor region; changes that switch ambipolar diffusion on are left out."
  },
  {
   "property": "C131",
   "status": "proved",
   "theorems": [
    "C131_edge",
    "C131_rises",
    "C131_falls_at_once",
    "C131_rises_at_once",
    "C131_start_continuous",
    "C131_step_search",
    "C131_regular"
   ],
   "note": "About the solutions of the system, not about the samples the splitter sees (C73, C74). Slowing down is an open condition (C130), so the supremum of the numbers below which all slow down is not one of them. Outside the Taylor region; the changes do not switch ambipolar diffusion on. The set-ups of the step search (same input, γ varied, start after the Taylor jump) are shown to be such a family where the midplane rotates and the denominators Y_5, Y_6 of the Taylor coefficients are not zero, and this is shown for inflowing gas without Hall effect."
  },
  {
   "property": "C132",
   "status": "proved",
   "theorems": [
    "C132_limit",
    "C132_edge",
    "C132_step_search"
   ],
   "note": "No threshold is assumed, unlike C33 and C74. The judge of C132_edge is the solution itself, not the samples the splitter sees (C73). Exact arithmetic; for floats see C118, C119."
  },
  {
   "property": "C133",
   "status": "proved",
   "theorems": [
    "C133_work",
    "C133_distance",
    "C133_reach",
    "C133_transonic",
    "C133_slope",
    "C133_solutions"
   ],
   "note": "Stated for curves that obey the polar momentum balance of the code (C05) in the slot of v_θ; C133_solutions says that solutions do. Outside the Taylor region. The example is such a curve, 1 + θ, not a solution of the whole system: that a transonic solution of the whole system exists is not proved."
  },
  {
   "property": "C134",
   "status": "proved",
   "theorems": [
    "C134_answer",
    "C134_fine",
    "C134_solutions"
   ],
   "note": "Without stored internal data; with it the splitter reads another row (C73). Samples are exact. Gas that slows down only below the cutoff is answered 'diverge' (example C134_unseen)."
  },
  {
   "property": "C135",
   "status": "proved",
   "theorems": [
    "C135_valid",
    "C135_best",
    "C135_angles"
   ],
   "note": "For the status flag SUCCESS and exact samples at all angles of the grid; what the tests do with NaN is in C25."
  },
  {
   "property": "C136",
   "status": "proved",
   "theorems": [
    "C136_stays_close",
    "C136_determined",
    "C136_through",
    "C136_continues"
   ],
   "note": "As C122 and C129, for the hydrostatic system. Exact solutions over the reals, not the integrator's samples."
  },
  {
   "property": "C137",
   "status": "proved",
   "theorems": [
    "C137_direction",
    "C137_denominators",
    "C137_sonic"
   ],
   "note": "Every operation is exact and then rounded to nearest (Flocq), in any binary format with four bits or more; the power function x ** 2 may err by a sixteenth of a unit in the last place before it rounds, as that of the C library does. No overflow. The denominator of the second derivative of B_φ (used without E_r) is not covered: in the reals it is positive, but it is a difference that rounding can hurt."
  },
  {
   "property": "C138",
   "status": "proved",
   "theorems": [
    "C138_accuracy",
    "C138_increasing",
    "C138_ends"
   ],
   "note": "Every operation of numpy's linspace and of the conversion to radians is exact and then rounded to nearest (Flocq). The grid is to be no finer than 32 unit roundoffs of its larger end; the smallest number of the format is far below the angles. No overflow."
  },
  {
   "property": "C139",
   "status": "proved",
   "theorems": [
    "C139_shock"
   ],
   "note": "Every operation is exact and then rounded to nearest (Flocq); the power function may err by a sixteenth of a unit in the last place before it rounds. No overflow."
  },
  {
   "property": "C140",
   "status": "proved",
   "theorems": [
    "C140_stays_close",
    "C140_determined",
    "C140_through",
    "C140_continues"
   ],
   "note": "As C136, for mod_hydro without E_r: there the right-hand side asks the root tracker of the external library nothing, whatever the tracker. With E_r the tracker, which remembers the root it answered last, decides v_r, and the right-hand side is not a function of the state."
  },
  {
   "property": "C141",
   "status": "partial",
   "theorems": [
    "C141_refuted",
    "C141_plus_refuted",
    "C141_checkout",
    "C141_identifies_partial",
    "C141_archive",
    "C141_archive_untagged"
   ],
   "note": "REFUTED: archives of all commits without a version tag record 0+unknown, whichever commit; and a tag with a plus sign can be spelt like the version of another checkout. Proved: what is recorded in every checkout and archive; that checkouts with the same version have the same nearest tag and, unless they are the tagged commit, the same abbreviated commit, if no tag has a plus sign; that an archive of a tagged commit records its first tag. What git answers is an argument (Spec_Version.v: its documented form); changed files are recorded only as a mark."
  },
  {
   "property": "C142",
   "status": "proved",
   "theorems": [
    "C142_round_trip",
    "C142_default",
    "C142_power_of_two",
    "C142_order",
    "C142_merges"
   ],
   "note": "Every operation is exact and then rounded to nearest (Flocq). C142_merges: in double precision 1 and its lower neighbour become equal in units of 3/2 radian. No overflow; C24 is the same for exact numbers."
  },
  {
   "property": "C143",
   "status": "partial",
   "theorems": [
    "C143_real_partial",
    "C143_ordered_partial",
    "C143_mach_partial",
    "C143_slow_refuted",
    "C143_real_refuted",
    "C143_alfven_refuted"
   ],
   "note": "REFUTED: C143_real_refuted is a state in double precision whose slow and fast speeds are NaN; C143_slow_refuted: the slow speed comes out as zero whenever the square of the Alfvén speed is above 2^(prec+8) or below its inverse, where it is not zero exactly; C143_alfven_refuted: the slow speed can be above and the fast one below the Alfvén speed, by a rounding. Proved: the speeds are numbers if the Alfvén speed is not within about the square root of the unit roundoff of the speed of sound, or the field is inclined by more than four roundings; when they are numbers none is negative and the slow one is not above the fast one, nor the fast Mach number above the slow one. No overflow; C21 is the same for exact numbers."
  },
  {
   "property": "C144",
   "status": "partial",
   "theorems": [
    "C144_refuted",
    "C144_hydro_exact",
    "C144_mod_exact"
   ],
   "note": "REFUTED: C144_refuted is a midplane state of an Ohmic disc where the derivative of B_φ' is off by 2. C144_hydro_exact and C144_mod_exact say by how much both methods are off at every regular state: the slips of the formula they share (Spec_HydroInduction.v), for hydrostatic.py a missing factor 2 a_0 in Z_7, for mod_hydro.py a Z_6 and a Z_7 that are not those of its velocity derivatives."
  },
  {
   "property": "C145",
   "status": "partial",
   "theorems": [
    "C145_hydro_partial",
    "C145_solutions_partial",
    "C145_mod_sign",
    "C145_mod_solutions",
    "C145_units_refuted",
    "C145_mod_units_refuted"
   ],
   "note": "REFUTED: with a unit of density of its own the hydrostatic method returns another B_φ'' (Z_7 lacks a factor 2 a_0), and the modified method does so in every other unit of the field (its Z_3 adds numbers of different units). Proved: for the hydrostatic method all units and signs of the field, with the unit of density that keeps a_0; for the modified method the sign; in both for right-hand sides and for solutions."
  },
  {
   "property": "C146",
   "status": "proved",
   "theorems": [
    "C146_balance",
    "C146_mod_balance",
    "C146_start",
    "C146_flux",
    "C146_mod_flux",
    "C146_angular_momentum",
    "C146_mod_angular_momentum",
    "C146_frozen",
    "C146_mod_frozen"
   ],
   "note": "The radial velocity that balances the torque of the field is a formula in the state (Spec_HydroBudget.v); its difference from v_r is constant along every solution in the sense of C136 and C140. The flux and torque are those of C125. C146_frozen: with the switch no_v_deriv the velocities are those of the start instead, and the balance is kept only as far as the balance speed stays the same."
  },
  {
   "property": "C147",
   "status": "proved",
   "theorems": [
    "C147_pressure",
    "C147_mod_pressure",
    "C147_confined",
    "C147_mod_confined",
    "C147_atmosphere",
    "C147_mod_atmosphere"
   ],
   "note": "Pressure and weight are in Spec_HydroPressure.v; solutions in the sense of C136 and C140."
  }
 ]
}