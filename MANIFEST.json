{
 "claims": [
  {
   "property": "C01",
   "status": "proved",
   "theorems": [
    "fd_first_derivative_error",
    "fd_derivatives_exact"
   ],
   "note": ""
  },
  {
   "property": "C02",
   "status": "proved",
   "theorems": [
    "fd_second_derivative_error",
    "fd_second_from_first_error",
    "fd_derivatives_exact"
   ],
   "note": ""
  },
  {
   "property": "C03",
   "status": "proved",
   "theorems": [
    "derivatives_current",
    "derivatives_current_unique",
    "constructor_velocity"
   ],
   "note": ""
  },
  {
   "property": "C04",
   "status": "partial",
   "theorems": [
    "rejected_velocity_refuted",
    "rejected_velocity_partial",
    "rejected_callable_velocity"
   ],
   "note": "REFUTED: a rejected call with a callable u_e has already replaced u_e. Proved for non-callable u_e, and the exact effect for callables."
  },
  {
   "property": "C05",
   "status": "partial",
   "theorems": [
    "bad_derivative_refuted",
    "bad_derivative_partial"
   ],
   "note": "REFUTED for d2u_e (the code tests du_e twice). Proved for du_e and for d2u_e given without du_e."
  },
  {
   "property": "C06",
   "status": "proved",
   "theorems": [
    "velocity_from_derivative_points"
   ],
   "note": "For every interpolation routine returning a C1 piecewise polynomial (which PCHIP documents)."
  },
  {
   "property": "C07",
   "status": "proved",
   "theorems": [
    "point_input_validated",
    "point_input_length"
   ],
   "note": "Zero-dimensional x raises IndexError (also proved)."
  },
  {
   "property": "C08",
   "status": "proved",
   "theorems": [
    "constructed_without_velocity",
    "velocity_query_before_set",
    "velocity_query_after_set"
   ],
   "note": ""
  },
  {
   "property": "C09",
   "status": "proved",
   "theorems": [
    "viscosity_never_nonpositive"
   ],
   "note": ""
  },
  {
   "property": "C10",
   "status": "proved",
   "theorems": [
    "solve_reports"
   ],
   "note": ""
  },
  {
   "property": "C100",
   "status": "partial",
   "theorems": [
    "units_refuted",
    "units_linear_partial",
    "units_nonlinear_partial",
    "units_head_partial"
   ],
   "note": "REFUTED: the offset 0.001 of the Thwaites methods has the unit of a velocity; a flat plate in metres and in millimetres gives different thicknesses. Proved: the linear method within the factor (1+0.001/lo)^6; Head's method exactly while U_e stays above its floor 0.001 in both units. The nonlinear method with the default fit within a bound proportional to 0.001 over the velocity. Missing: the nonlinear method with the other fits."
  },
  {
   "property": "C101",
   "status": "partial",
   "theorems": [
    "thwaites_array_refuted",
    "thwaites_array_partial",
    "one_sided_fits"
   ],
   "note": "REFUTED: an array whose pressure gradient parameter leaves the Cebeci-Bradshaw range on both sides is clamped on one side only. Proved for arrays that leave it on one side at most, so always for White, Drela and custom fits."
  },
  {
   "property": "C102",
   "status": "partial",
   "theorems": [
    "kinetic_energy_refuted"
   ],
   "note": "REFUTED: delta_k, shape_k and dissipation return 0 for every boundary layer of positive momentum thickness."
  },
  {
   "property": "C103",
   "status": "proved",
   "theorems": [
    "given_parameters_used"
   ],
   "note": "eta_inf and fw_pp finite, as Python floats are except for inf and nan."
  },
  {
   "property": "C104",
   "status": "proved",
   "theorems": [
    "search_is_secant",
    "affine_response_solved"
   ],
   "note": ""
  },
  {
   "property": "C105",
   "status": "proved",
   "theorems": [
    "failed_integration_clears"
   ],
   "note": ""
  },
  {
   "property": "C106",
   "status": "proved",
   "theorems": [
    "xfoil_columns"
   ],
   "note": "For files whose last upper velocity is not exactly zero; those with zero are C61. The edge velocity queries are C64."
  },
  {
   "property": "C107",
   "status": "proved",
   "theorems": [
    "blasius_defaults",
    "blasius_wall_value"
   ],
   "note": "Assumes the external integrator, quadrature and root search exact where they report success; that the exact problem is solvable is proved (blasius_defaults_case)."
  },
  {
   "property": "C108",
   "status": "proved",
   "theorems": [
    "float_first_derivative",
    "float_second_derivative",
    "float_derivative_of_given"
   ],
   "note": "In IEEE binary64 arithmetic. The value of 1e-4**2 comes from the C library; it is assumed within 2 units of roundoff of the exact square."
  },
  {
   "property": "C109",
   "status": "partial",
   "theorems": [
    "constant_velocity_second_refuted",
    "constant_velocity_first_partial",
    "constant_velocity_second_partial"
   ],
   "note": "REFUTED for the second derivative: the constant 0.3 gives about -1.1e-8. Proved: the first derivative is exactly zero, and the second is below 5e-7 times the constant."
  },
  {
   "property": "C11",
   "status": "proved",
   "theorems": [
    "event_attribution",
    "nonterminal_event_misattributed",
    "result_details"
   ],
   "note": "The second theorem shows the hypothesis 'all terminal' is needed."
  },
  {
   "property": "C110",
   "status": "partial",
   "theorems": [
    "float_shape_round_trip_refuted",
    "float_shape_round_trip_partial"
   ],
   "note": "REFUTED: with momentum thickness 0.003, 1.5 is read back as 1.5000000000000002. Proved: the relative difference is below 2^-52 + 2^-100."
  },
  {
   "property": "C111",
   "status": "proved",
   "theorems": [
    "nonlinear_solution_unique"
   ],
   "note": ""
  },
  {
   "property": "C112",
   "status": "partial",
   "theorems": [
    "white_solution_partial",
    "white_solution_refuted",
    "white_solution_until",
    "white_solution_decelerating"
   ],
   "note": "REFUTED: with velocity 1 + x and initial delta_m^2/nu = 2 no solution reaches x = 1. Proved: there is at most one solution; there is one as far as the gradient parameter stays below any bound chosen beforehand; there is exactly one over the whole interval when the flow does not accelerate."
  },
  {
   "property": "C113",
   "status": "proved",
   "theorems": [
    "nonlinear_accuracy",
    "linear_accuracy"
   ],
   "note": ""
  },
  {
   "property": "C114",
   "status": "partial",
   "theorems": [
    "flat_plate_partial",
    "flat_plate_refuted"
   ],
   "note": "REFUTED: at the speed 1/1000 the offset 0.001 makes the momentum thickness more than 25% too small. Proved: within 1.2% (momentum thickness), 1.9% (displacement thickness), 0.8% (shape factor) and 1.3% (wall shear) for speeds of at least 1."
  },
  {
   "property": "C115",
   "status": "proved",
   "theorems": [
    "accelerating_thwaites_not_separated",
    "accelerating_wall_shear",
    "accelerating_head_not_separated"
   ],
   "note": ""
  },
  {
   "property": "C116",
   "status": "partial",
   "theorems": [
    "head_solution_refuted",
    "head_solution_partial",
    "head_solution_below_partial",
    "head_solution_above_partial",
    "head_solution_unique_partial"
   ],
   "note": "REFUTED: the slope of the entrainment shape factor jumps at 1.6, so from the shape factor 1.6 on a flat plate (viscosity, velocity and momentum thickness 1) no differentiable solution starts. Proved: from a shape factor below 1.6 there is a solution to the end of the interval or until the shape factor is 1.6; from one above, until it comes as close to 1.6 or gets as large as one likes; and there is only one as long as it avoids 1.6."
  },
  {
   "property": "C117",
   "status": "proved",
   "theorems": [
    "linear_nonlinear_agree",
    "linear_nonlinear_agree_fits"
   ],
   "note": ""
  },
  {
   "property": "C118",
   "status": "partial",
   "theorems": [
    "locality_refuted",
    "locality_differenced",
    "locality_given"
   ],
   "note": "REFUTED: a velocity given without derivatives is differenced with points up to 2e-4 outside the interval, so two velocities equal for all x >= 0 give different results over [0, 1]. Proved: agreement on the interval widened by 2e-4 is enough, and on the interval itself when both derivatives are given."
  },
  {
   "property": "C119",
   "status": "proved",
   "theorems": [
    "translation_thwaites",
    "translation_head",
    "pchip_scipy_moves"
   ],
   "note": ""
  },
  {
   "property": "C12",
   "status": "proved",
   "theorems": [
    "message_begins_with_status",
    "result_details"
   ],
   "note": ""
  },
  {
   "property": "C120",
   "status": "proved",
   "theorems": [
    "restart_thwaites",
    "restart_head"
   ],
   "note": "Exact integrations; Head's solutions away from the shape factor 1.6, where the equation has no unique solution (C116); not for the stagnation point condition, which ignores assigned values (C30)."
  },
  {
   "property": "C121",
   "status": "proved",
   "theorems": [
    "thicker_start"
   ],
   "note": ""
  },
  {
   "property": "C122",
   "status": "proved",
   "theorems": [
    "growth_thwaites",
    "growth_head"
   ],
   "note": ""
  },
  {
   "property": "C123",
   "status": "proved",
   "theorems": [
    "head_accuracy"
   ],
   "note": ""
  },
  {
   "property": "C124",
   "status": "proved",
   "theorems": [
    "velocity_error_linear",
    "velocity_error_nonlinear",
    "velocity_error_head"
   ],
   "note": "The nonlinear method: default fit."
  },
  {
   "property": "C125",
   "status": "partial",
   "theorems": [
    "float_arc_lengths_refuted",
    "float_arc_lengths_partial",
    "float_printed_dump_partial",
    "float_zero_velocity_refused",
    "float_one_sided_refused"
   ],
   "note": "REFUTED: when the two rows around the stagnation point print the same arc length (0.97565 twice), the interpolated stagnation point rounds below it and the loader raises ValueError; a row of velocity exactly zero is refused, too. Proved: the claim holds when the exact stagnation point is a few units of roundoff away from both neighbours, which is so for every five-decimal file whose two rows around the stagnation point print different arc lengths."
  },
  {
   "property": "C126",
   "status": "proved",
   "theorems": [
    "sampled_velocity",
    "sampled_gradient",
    "sampled_smooth"
   ],
   "note": "Over exact reals, with scipy's PCHIP algorithm as modelled in PchipModel.v."
  },
  {
   "property": "C127",
   "status": "proved",
   "theorems": [
    "sampled_linear_thwaites",
    "sampled_linear_thwaites_smooth",
    "sampled_nonlinear_thwaites",
    "sampled_head"
   ],
   "note": "Exact solutions of the two initial value problems. The nonlinear method: default fit, squared momentum thickness."
  },
  {
   "property": "C128",
   "status": "proved",
   "theorems": [
    "user_exceptions",
    "query_exceptions"
   ],
   "note": "The integrator is any finite procedure that asks for values one at a time and does not catch exceptions (scipy has no handler there). Scalar positions."
  },
  {
   "property": "C129",
   "status": "partial",
   "theorems": [
    "calls_in_interval_refuted",
    "calls_in_interval_partial",
    "query_calls",
    "set_velocity_calls_nothing"
   ],
   "note": "REFUTED: without a derivative the velocity is called up to 2e-4 outside, so a velocity defined for x >= 0 only makes solve(0, 1) raise. Proved: in the interval when the gradient is given, within 2e-4 of it otherwise; queries at the position, or within 2.2e-4 of it."
  },
  {
   "property": "C13",
   "status": "partial",
   "theorems": [
    "events_leak_refuted"
   ],
   "note": "REFUTED: events passed to solve stay registered; events_in_force (C14) gives the exact set."
  },
  {
   "property": "C130",
   "status": "partial",
   "theorems": [
    "hidden_state_refuted",
    "hidden_state_solve_partial",
    "hidden_state_set_velocity_partial",
    "hidden_state_queries_partial"
   ],
   "note": "REFUTED: Head's method writes 0.001 into an array the velocity function returns, so a cached array is spoilt. Proved whenever such arrays may be written to, and always for Thwaites' methods."
  },
  {
   "property": "C131",
   "status": "proved",
   "theorems": [
    "sampled_gradient_points",
    "sampled_gradient_points_smooth"
   ],
   "note": "Real arithmetic; scipy's PchipInterpolator as modelled in PchipModel.v."
  },
  {
   "property": "C132",
   "status": "proved",
   "theorems": [
    "points_units",
    "gradient_points_units",
    "points_units_accepted"
   ],
   "note": "Real arithmetic; any origin, any positive length unit, any factor for the values (zero and negative too)."
  },
  {
   "property": "C133",
   "status": "proved",
   "theorems": [
    "points_local",
    "gradient_points_local",
    "gradient_points_upstream"
   ],
   "note": "Real arithmetic. At the right end of the interval the second derivative belongs to the next one."
  },
  {
   "property": "C134",
   "status": "partial",
   "theorems": [
    "displacement_refuted",
    "displacement_partial"
   ],
   "note": "REFUTED: White's shape fit has no upper limit for its argument; above about 0.317 it is below 1, and at 0.35 it is negative, so that delta_d is negative. Proved for the other three fits everywhere, and for White's up to 0.315; with the bound H < 4."
  },
  {
   "property": "C135",
   "status": "proved",
   "theorems": [
    "head_shape_low",
    "head_shape_uniform"
   ],
   "note": "Exact solutions, real arithmetic."
  },
  {
   "property": "C136",
   "status": "proved",
   "theorems": [
    "threads_independent",
    "solve_alone",
    "queries_alone",
    "setters_alone"
   ],
   "note": "Steps are attribute reads and writes (atomic under CPython's interpreter lock). The calls covered are solve, delta_m, shape_d, delta_d, nu, initial_delta_m, set_velocity with three functions, set_initial_condition."
  },
  {
   "property": "C137",
   "status": "partial",
   "theorems": [
    "shared_condition_threads_refuted",
    "shared_manual_threads_partial"
   ],
   "note": "REFUTED: solve assigns nu and du_e to the condition before it asks for delta_m, so that two threads sharing a FalknerSkanStagCondition can start from the wrong thickness (four times too large a start value in the witness). Proved when the conditions are ManualConditions."
  },
  {
   "property": "C138",
   "status": "partial",
   "theorems": [
    "query_during_solve_refuted",
    "query_during_solve_partial"
   ],
   "note": "REFUTED: solve sets the solution to None before it sets the new one, and the queries read it twice: the witness gets ValueError, TypeError, and a displacement thickness made of the old momentum thickness and the new shape factor. Proved: nothing else can happen, for any number of querying threads."
  },
  {
   "property": "C139",
   "status": "partial",
   "theorems": [
    "interrupted_call_refuted",
    "interrupted_solve_partial"
   ],
   "note": "REFUTED: an interrupt between the two assignments to the solution loses it; one inside set_velocity leaves the new velocity with the old gradient. Proved for solve without user events: settings kept, solution old, none or new, later calls of solve unaffected."
  },
  {
   "property": "C14",
   "status": "proved",
   "theorems": [
    "events_in_force",
    "events_after_configuration"
   ],
   "note": ""
  },
  {
   "property": "C140",
   "status": "proved",
   "theorems": [
    "float_stagnation_thickness",
    "float_stagnation_start",
    "float_delta_m",
    "float_start_round_trip",
    "float_tau_w"
   ],
   "note": "delta_m**2 is computed by the C library: the function is a parameter, assumed accurate to 2 units."
  },
  {
   "property": "C141",
   "status": "proved",
   "theorems": [
    "float_linear_rhs"
   ],
   "note": ""
  },
  {
   "property": "C142",
   "status": "proved",
   "theorems": [
    "float_white_shape",
    "float_white_shape_p",
    "float_white_shear_base",
    "float_cb_fit",
    "float_cb_f"
   ],
   "note": "White's shear fit (non-integer power), Drela's fit (cube) and the spline fit (evaluated by scipy) are not covered."
  },
  {
   "property": "C143",
   "status": "partial",
   "theorems": [
    "copy_like_original_partial",
    "copy_like_original_refuted",
    "rejected_velocity_on_copy",
    "copying_changes_no_object"
   ],
   "note": "REFUTED: after a rejected set_velocity a copy differentiates the velocity of its original, while the original would differentiate the new one. Proved for all sequences in which no set_velocity is rejected."
  },
  {
   "property": "C144",
   "status": "partial",
   "theorems": [
    "original_independent_of_copies",
    "copy_independent_partial",
    "explicit_velocity_given",
    "explicit_fit_given",
    "given_functions_stay",
    "other_calls_harmless",
    "renewed_copy_independent",
    "copy_independent_refuted",
    "copy_follows_original",
    "copy_fit_independent_refuted"
   ],
   "note": "REFUTED: the difference formulas made by set_velocity and set_data_fits read the object they were made for, also from a copy; setting a velocity on the original changes the derivatives the copy answers. Proved: originals are never influenced; copies are not when derivatives were given, when others only change viscosity, conditions, events or solve, or after velocity and fit of the copy have been set anew."
  },
  {
   "property": "C145",
   "status": "proved",
   "theorems": [
    "blasius_profile_rises",
    "blasius_default_inside_edge",
    "accelerated_profile_rises",
    "decelerated_profile_rises"
   ],
   "note": ""
  },
  {
   "property": "C146",
   "status": "proved",
   "theorems": [
    "thicknesses_ordered"
   ],
   "note": ""
  },
  {
   "property": "C147",
   "status": "partial",
   "theorems": [
    "edge_velocity_partial",
    "blasius_edge_velocity_partial",
    "velocity_above_edge_unbounded",
    "velocity_above_edge_refuted"
   ],
   "note": "REFUTED: above eta_inf the stored interpolant is evaluated outside its range, where scipy continues the polynomial of the last step; the velocity then exceeds every bound as the height grows, unless that polynomial is constant. Proved at the edge itself."
  },
  {
   "property": "C148",
   "status": "partial",
   "theorems": [
    "linear_velocity_closed_form",
    "stagnation_thickness_partial",
    "stagnation_thickness_refuted"
   ],
   "note": "REFUTED: the stagnation-point condition starts with the thickness of the exact solution (0.0855 nu/k), the equation keeps 0.075 nu/k; delta_m falls by more than 6 percent before u_e reaches 1/1000. Proved: the closed form, and delta_m within 0.2 percent of sqrt(0.075 nu/k) from there on."
  },
  {
   "property": "C149",
   "status": "proved",
   "theorems": [
    "retarded_flow_wall_shear",
    "retarded_flow_wall_shear_cb",
    "retarded_flow_separation",
    "retarded_flow_reported"
   ],
   "note": "roots_are_zeros is assumed of the integrator"
  },
  {
   "property": "C15",
   "status": "proved",
   "theorems": [
    "head_tau_before_solve",
    "queries_before_solve",
    "solution_held_iff"
   ],
   "note": ""
  },
  {
   "property": "C150",
   "status": "proved",
   "theorems": [
    "array_one_position",
    "array_two_positions",
    "array_profile"
   ],
   "note": "u and v with at least one point; a Python float for x must be positive (C151)"
  },
  {
   "property": "C151",
   "status": "partial",
   "theorems": [
    "numpy_float_answer",
    "python_float_answer_partial",
    "python_float_zero_refuted",
    "python_float_negative_refuted",
    "python_float_decelerating_refuted"
   ],
   "note": "REFUTED: at x = 0 on a plate delta_m and every query that divides by x raises ZeroDivisionError for a Python float and returns a value for numpy's; for x < 0 in wedge flow u_e is complex for a Python float and nan for numpy's. Proved for numpy floats everywhere and for positive Python floats."
  },
  {
   "property": "C152",
   "status": "partial",
   "theorems": [
    "no_positions_refuted",
    "no_positions_partial"
   ],
   "note": "REFUTED: scipy's dense output raises ValueError for an empty array, so all queries of a method object that use it, and u and v of a similarity solution, do. The other queries of similarity solutions return an empty array."
  },
  {
   "property": "C153",
   "status": "partial",
   "theorems": [
    "completed_not_separated_refuted",
    "completed_head_partial",
    "completed_thwaites_partial"
   ],
   "note": "REFUTED: a layer that starts beyond separation (Head: shape factor above the critical one) is integrated to the end and reported as completed, as the event function does not change its sign. Proved: not separated at the start implies not separated at the end. steps_checked is assumed of the integrator."
  },
  {
   "property": "C154",
   "status": "proved",
   "theorems": [
    "head_separation_location"
   ],
   "note": "roots_are_zeros is assumed of the integrator"
  },
  {
   "property": "C155",
   "status": "proved",
   "theorems": [
    "wedge_flow_thickness",
    "wedge_flow_wall_shear",
    "wedge_flow_wall_shear_cb",
    "wedge_separation_exponent"
   ],
   "note": "wall shear for White, the default fit and Cebeci-Bradshaw; Drela's fit never reaches zero (C23). solves1_at: exact solutions of the equation the object hands to the integrator."
  },
  {
   "property": "C156",
   "status": "proved",
   "theorems": [
    "gradient_samples_linear",
    "gradient_samples_linear_smooth",
    "gradient_samples_nonlinear",
    "gradient_samples_head"
   ],
   "note": "as C127: the nonlinear method with the default fit, Head's method on one side of the shape factor 1.6"
  },
  {
   "property": "C157",
   "status": "proved",
   "theorems": [
    "float_flow_row",
    "float_station_loads",
    "float_station_agrees",
    "float_station_tolerances",
    "float_sample_loads",
    "float_sample_agrees"
   ],
   "note": "the words are read with an error of at most 2^-53 relative; FOOT_PER_METER**2 with at most 2 units (C library)"
  },
  {
   "property": "C158",
   "status": "proved",
   "theorems": [
    "float_skin_friction",
    "float_entrainment",
    "float_head_rates",
    "float_head_exact"
   ],
   "note": "numpy's ** is assumed accurate to 2 units of 2^-53"
  },
  {
   "property": "C159",
   "status": "proved",
   "theorems": [
    "head_takes_over",
    "head_takes_over_condition",
    "thwaites_takes_over"
   ],
   "note": "values that the first object reports must be finite and positive"
  },
  {
   "property": "C16",
   "status": "proved",
   "theorems": [
    "stagnation_start",
    "solve_reports"
   ],
   "note": ""
  },
  {
   "property": "C160",
   "status": "proved",
   "theorems": [
    "shallow_copy_like_original"
   ],
   "note": ""
  },
  {
   "property": "C161",
   "status": "partial",
   "theorems": [
    "shallow_copy_independent_refuted",
    "shallow_copy_stops_refuted",
    "shallow_copy_shares",
    "shallow_copy_initial_value",
    "shallow_copy_separation",
    "original_flow_partial",
    "copy_flow_partial",
    "renewed_copies_partial"
   ],
   "note": "REFUTED: copy and original share the condition object and the list of stopping conditions, so an initial value assigned on the copy, or a stopping condition passed to its solve, is the original's too, and a copy with another velocity judges separation with the original's velocity. True: queries about velocity and solution are not affected, and copies that are at once given a condition, a velocity and a fit or critical shape factor are independent."
  },
  {
   "property": "C162",
   "status": "proved",
   "theorems": [
    "xfoil_case_data",
    "xfoil_case_assignment"
   ],
   "note": "not-a-number passes every check and is stored"
  },
  {
   "property": "C163",
   "status": "proved",
   "theorems": [
    "slower_flow_thicker",
    "decelerating_flow_thicker"
   ],
   "note": "exact solutions; velocities are compared with the 0.001 that the method adds"
  },
  {
   "property": "C164",
   "status": "proved",
   "theorems": [
    "end_state_reported"
   ],
   "note": ""
  },
  {
   "property": "C165",
   "status": "proved",
   "theorems": [
    "xfoil_surface_velocity"
   ],
   "note": ""
  },
  {
   "property": "C166",
   "status": "proved",
   "theorems": [
    "case_arrays",
    "no_case_arrays"
   ],
   "note": ""
  },
  {
   "property": "C167",
   "status": "proved",
   "theorems": [
    "case_sets_up_head",
    "case_gradient_sets_up_head"
   ],
   "note": ""
  },
  {
   "property": "C168",
   "status": "partial",
   "theorems": [
    "stagnation_points_start_refuted",
    "stagnation_points_start_partial",
    "stagnation_two_points_start_partial"
   ],
   "note": "REFUTED: for points (0,0), (1,1), (2,5) the interpolation has gradient 0 at the first point and solve raises ZeroDivisionError. Proved: with three or more points, of which the first three accelerate, the integration starts (with the gradient of the parabola through them) exactly when that parabola rises at the first point, and raises otherwise; with two points it always starts."
  },
  {
   "property": "C169",
   "status": "partial",
   "theorems": [
    "start_values_refuted",
    "start_values_nan_refuted",
    "start_values_partial"
   ],
   "note": "REFUTED: an object that was given no initial values does not refuse to solve but starts from inf (Head: inf and nan), and nan is accepted as an initial value. Proved: after every history of calls with finite values which gives a condition object with positive thicknesses, or assigns the momentum thickness and (Head) thereafter the shape factor, the start values are positive numbers."
  },
  {
   "property": "C17",
   "status": "partial",
   "theorems": [
    "solution_insulated_refuted",
    "solution_insulated_partial"
   ],
   "note": "REFUTED for Thwaites: delta_m follows nu, shape_d follows the data fits. Proved for Head's delta_m, shape_d, delta_d and for Thwaites' delta_m while nu is not assigned."
  },
  {
   "property": "C170",
   "status": "proved",
   "theorems": [
    "gradient_error_linear",
    "gradient_error_nonlinear",
    "gradient_error_head",
    "plain_gradient_error",
    "plain_velocity_linear",
    "plain_velocity_nonlinear"
   ],
   "note": "exact solutions of the equations as coded, real arithmetic; nonlinear Thwaites with the default fit; Head on one side of the shape factor 1.6 with a constant that depends on the velocity and the range"
  },
  {
   "property": "C171",
   "status": "proved",
   "theorems": [
    "head_momentum_balance",
    "head_mass_balance",
    "thwaites_mass_balance",
    "thwaites_momentum_balance"
   ],
   "note": "exact solutions of the equations as coded, real arithmetic; Head's mass balance on one side of the shape factor 1.6; the nonlinear Thwaites momentum balance carries the velocity offset 0.001 of the coded equation explicitly"
  },
  {
   "property": "C172",
   "status": "proved",
   "theorems": [
    "float_felsch_positive",
    "float_felsch",
    "float_felsch_accurate",
    "float_white_friction",
    "float_friction_exact"
   ],
   "note": "the C library's pow, log10 and exp are parameters assumed accurate to two units of 2^-53"
  },
  {
   "property": "C173",
   "status": "proved",
   "theorems": [
    "xfoil_sets_up_methods",
    "xfoil_inviscid_start_refused"
   ],
   "note": ""
  },
  {
   "property": "C174",
   "status": "proved",
   "theorems": [
    "float_white_shear",
    "float_white_separation",
    "float_drela_fit",
    "float_nonlinear_rhs_white",
    "float_nonlinear_rhs_cb",
    "float_nonlinear_rhs_drela"
   ],
   "note": "What the C library computes for a power is a parameter, assumed accurate to two units of 2^-53 and zero for the base zero."
  },
  {
   "property": "C175",
   "status": "proved",
   "theorems": [
    "float_reports_white",
    "float_reports_cb",
    "float_reports_drela"
   ],
   "note": "What the C library computes for a power is a parameter, assumed accurate to two units of 2^-53 and zero for the base zero."
  },
  {
   "property": "C176",
   "status": "proved",
   "theorems": [
    "float_head_delta_d",
    "float_head_tau",
    "float_head_v_e"
   ],
   "note": "What the C library computes for a power is a parameter, assumed accurate to two units of 2^-53. The square of an array element is the product numpy evaluates."
  },
  {
   "property": "C177",
   "status": "proved",
   "theorems": [
    "float_similarity_u_e",
    "float_similarity_thicknesses",
    "float_similarity_shape",
    "float_similarity_fluxes"
   ],
   "note": "What the C library computes for a power is a parameter, assumed accurate to two units of 2^-53. The stored values themselves come from solve_ivp, quad and root_scalar, whose errors are not bounded here."
  },
  {
   "property": "C178",
   "status": "partial",
   "theorems": [
    "float_wedge_round_trip_partial",
    "float_wedge_rejected_partial",
    "float_wedge_infinite_partial",
    "float_wedge_round_trip_refuted"
   ],
   "note": "Refuted for exponents so large that the wedge parameter rounds to 2 or the product overflows; proved from -0.09 to 200 and for an infinite exponent; exponents from -0.9 to -0.0905 are refused. Missing: exponents from -0.0905 to -0.09, where acceptance can depend on rounding, and from 200 to the size at which the exponent is lost."
  },
  {
   "property": "C18",
   "status": "proved",
   "theorems": [
    "fit_derivative_reported",
    "fit_derivative_exists",
    "spline_fit_derivative",
    "fit_derivative_out_of_range_refuted"
   ],
   "note": "The refuted theorem only shows why the property is limited to the range."
  },
  {
   "property": "C19",
   "status": "proved",
   "theorems": [
    "cebeci_bradshaw_jump"
   ],
   "note": ""
  },
  {
   "property": "C20",
   "status": "proved",
   "theorems": [
    "out_of_range_scalar"
   ],
   "note": ""
  },
  {
   "property": "C21",
   "status": "partial",
   "theorems": [
    "array_elementwise_refuted",
    "array_elementwise_partial",
    "array_exact"
   ],
   "note": "REFUTED: once one element is below the range, elements above the range are not clamped. Proved for every array not leaving the range on both sides, and the exact result for all arrays."
  },
  {
   "property": "C22",
   "status": "proved",
   "theorems": [
    "white_shear_zero_iff",
    "cebeci_bradshaw_shear_zero"
   ],
   "note": ""
  },
  {
   "property": "C23",
   "status": "partial",
   "theorems": [
    "separation_detected_partial",
    "drela_separation_refuted",
    "drela_spurious_separation"
   ],
   "note": "REFUTED for the Drela fit: its shear is positive for all parameters up to 0.6. Proved for the other three fits (Spline: given that CubicSpline interpolates its table)."
  },
  {
   "property": "C24",
   "status": "proved",
   "theorems": [
    "linear_quadrature",
    "linear_solution_exists"
   ],
   "note": ""
  },
  {
   "property": "C25",
   "status": "proved",
   "theorems": [
    "linear_solution_unique",
    "linear_solution_positive"
   ],
   "note": ""
  },
  {
   "property": "C26",
   "status": "proved",
   "theorems": [
    "thwaites_transpiration",
    "thwaites_transpiration_builtin"
   ],
   "note": ""
  },
  {
   "property": "C27",
   "status": "proved",
   "theorems": [
    "nonlinear_momentum_integral"
   ],
   "note": ""
  },
  {
   "property": "C28",
   "status": "proved",
   "theorems": [
    "thwaites_reported_consistent"
   ],
   "note": ""
  },
  {
   "property": "C29",
   "status": "proved",
   "theorems": [
    "thwaites_rhs_finite",
    "builtin_fits_finite"
   ],
   "note": ""
  },
  {
   "property": "C30",
   "status": "partial",
   "theorems": [
    "initial_delta_m_refuted",
    "initial_delta_m_partial",
    "initial_delta_m_rejected"
   ],
   "note": "REFUTED with the stagnation condition (value accepted and ignored). Proved for manual conditions, which every constructor installs."
  },
  {
   "property": "C31",
   "status": "proved",
   "theorems": [
    "fit_in_force",
    "custom_fit_derivative",
    "fit_selection"
   ],
   "note": ""
  },
  {
   "property": "C32",
   "status": "proved",
   "theorems": [
    "entrainment_derivative",
    "entrainment_branches"
   ],
   "note": ""
  },
  {
   "property": "C33",
   "status": "proved",
   "theorems": [
    "entrainment_inverse_left",
    "entrainment_inverse_right",
    "entrainment_out_of_range"
   ],
   "note": ""
  },
  {
   "property": "C34",
   "status": "proved",
   "theorems": [
    "entrainment_velocity_positive_decreasing",
    "entrainment_velocity_formula"
   ],
   "note": ""
  },
  {
   "property": "C35",
   "status": "proved",
   "theorems": [
    "head_momentum_and_entrainment"
   ],
   "note": "The entrainment equation is stated where the shape factor is not exactly 1.6, where H1 itself jumps by less than 1e-15 (C32)."
  },
  {
   "property": "C36",
   "status": "proved",
   "theorems": [
    "head_transpiration"
   ],
   "note": ""
  },
  {
   "property": "C37",
   "status": "partial",
   "theorems": [
    "head_calling_form_refuted",
    "head_calling_form_partial"
   ],
   "note": "REFUTED: reversed flow gives different values (float floored, array not), ints raise TypeError. Proved for every velocity above -0.001."
  },
  {
   "property": "C38",
   "status": "partial",
   "theorems": [
    "tau_w_scalar_refuted",
    "tau_w_input_overwritten_refuted",
    "tau_w_array_partial",
    "tau_w_scalar_spline_partial"
   ],
   "note": "REFUTED: TypeError for scalar positions with ordinary callables; the caller's array is overwritten when the callable returns its argument. Proved for callables returning new arrays with U >= 0.001 and at least one position (C152)."
  },
  {
   "property": "C39",
   "status": "proved",
   "theorems": [
    "head_event_current"
   ],
   "note": ""
  },
  {
   "property": "C40",
   "status": "partial",
   "theorems": [
    "head_start_order_refuted",
    "head_start_order_partial",
    "head_start_other_order"
   ],
   "note": "REFUTED when the shape factor is set first. Proved for the other order; exact start values for both."
  },
  {
   "property": "C41",
   "status": "proved",
   "theorems": [
    "skin_friction_positive"
   ],
   "note": ""
  },
  {
   "property": "C42",
   "status": "proved",
   "theorems": [
    "skin_friction_decreases_with_re"
   ],
   "note": ""
  },
  {
   "property": "C43",
   "status": "proved",
   "theorems": [
    "skin_friction_decreases_with_shape"
   ],
   "note": ""
  },
  {
   "property": "C44",
   "status": "proved",
   "theorems": [
    "felsch_total_in_shape",
    "felsch_separation_value"
   ],
   "note": ""
  },
  {
   "property": "C45",
   "status": "proved",
   "theorems": [
    "stagnation_condition",
    "stagnation_zero_gradient",
    "stagnation_negative_gradient"
   ],
   "note": ""
  },
  {
   "property": "C46",
   "status": "proved",
   "theorems": [
    "manual_condition",
    "manual_condition_ratios",
    "condition_viscosity"
   ],
   "note": ""
  },
  {
   "property": "C47",
   "status": "proved",
   "theorems": [
    "similarity_continuity",
    "derivatives_determined",
    "constructed_objects"
   ],
   "note": ""
  },
  {
   "property": "C48",
   "status": "proved",
   "theorems": [
    "similarity_momentum",
    "integrated_equation",
    "derivatives_determined"
   ],
   "note": ""
  },
  {
   "property": "C49",
   "status": "proved",
   "theorems": [
    "similarity_wall"
   ],
   "note": ""
  },
  {
   "property": "C50",
   "status": "proved",
   "theorems": [
    "similarity_transpiration"
   ],
   "note": "beta = 2 is excluded by the property: u_e divides by zero there."
  },
  {
   "property": "C51",
   "status": "proved",
   "theorems": [
    "displacement_integral"
   ],
   "note": ""
  },
  {
   "property": "C52",
   "status": "proved",
   "theorems": [
    "momentum_thickness_integral"
   ],
   "note": ""
  },
  {
   "property": "C53",
   "status": "proved",
   "theorems": [
    "dissipation_integral"
   ],
   "note": "Assumes quad integrates continuous functions exactly."
  },
  {
   "property": "C54",
   "status": "proved",
   "theorems": [
    "shape_factors_constant"
   ],
   "note": ""
  },
  {
   "property": "C55",
   "status": "partial",
   "theorems": [
    "wedge_rejected_refuted",
    "wedge_round_trip",
    "wedge_in_range",
    "wedge_rejected"
   ],
   "note": "REFUTED for m = -inf, which passes the range test and makes beta nan. Everything else is proved, the round trip for every accepted m."
  },
  {
   "property": "C56",
   "status": "partial",
   "theorems": [
    "rejected_reset_refuted",
    "rejected_reset_partial"
   ],
   "note": "REFUTED: beta is replaced before eta_inf and fw_pp are checked. Proved for values of beta out of range."
  },
  {
   "property": "C57",
   "status": "partial",
   "theorems": [
    "search_edge_refuted",
    "search_terminates",
    "search_edge_partial"
   ],
   "note": "REFUTED: a search that runs out of iterations or stalls returns normally. Termination is proved, and the edge conditions whenever both loops end by their test."
  },
  {
   "property": "C58",
   "status": "proved",
   "theorems": [
    "xfoil_partition"
   ],
   "note": "For files whose last upper velocity is not exactly zero; those with zero are C61."
  },
  {
   "property": "C59",
   "status": "proved",
   "theorems": [
    "xfoil_arc_lengths"
   ],
   "note": ""
  },
  {
   "property": "C60",
   "status": "partial",
   "theorems": [
    "stagnation_point_refuted",
    "stagnation_point_partial"
   ],
   "note": "REFUTED for x, which is |(1-t) x_up - t x_lo|. Proved for velocity, arc length, y, thicknesses, c_f and shape factors."
  },
  {
   "property": "C61",
   "status": "partial",
   "theorems": [
    "zero_velocity_loads_refuted",
    "zero_velocity_rejected"
   ],
   "note": "REFUTED: every dump with a zero-velocity row at positive arc length in front of the lower side raises ValueError, because the row object is shared by both lists and shifted twice."
  },
  {
   "property": "C62",
   "status": "partial",
   "theorems": [
    "filename_kept_refuted",
    "filename_never_kept"
   ],
   "note": "REFUTED: filename reads \"\" after any history."
  },
  {
   "property": "C63",
   "status": "proved",
   "theorems": [
    "load_replaces_all",
    "load_resets_attributes"
   ],
   "note": ""
  },
  {
   "property": "C64",
   "status": "proved",
   "theorems": [
    "xfoil_edge_velocity",
    "xfoil_setter_rejects"
   ],
   "note": ""
  },
  {
   "property": "C65",
   "status": "partial",
   "theorems": [
    "row_invariants_refuted",
    "row_invariants_partial",
    "bad_row_rejected"
   ],
   "note": "REFUTED for nan tokens, which every check lets through. Proved over all histories with nan allowed."
  },
  {
   "property": "C66",
   "status": "proved",
   "theorems": [
    "flow_row_loads",
    "station_loads",
    "units_immaterial",
    "units_immaterial_velocity"
   ],
   "note": ""
  },
  {
   "property": "C67",
   "status": "partial",
   "theorems": [
    "derived_quantities_partial",
    "derived_quantities_close",
    "derived_quantities_refuted"
   ],
   "note": "REFUTED: with a station line the values are read, not derived, and only need to be within a tolerance. Proved: exact without a station line; within the stated bounds with one."
  },
  {
   "property": "C68",
   "status": "proved",
   "theorems": [
    "stations_paired"
   ],
   "note": ""
  },
  {
   "property": "C69",
   "status": "proved",
   "theorems": [
    "file_sections"
   ],
   "note": ""
  },
  {
   "property": "C70",
   "status": "proved",
   "theorems": [
    "skin_friction_published_formulas"
   ],
   "note": ""
  },
  {
   "property": "C71",
   "status": "proved",
   "theorems": [
    "data_fits_atomic"
   ],
   "note": ""
  },
  {
   "property": "C72",
   "status": "proved",
   "theorems": [
    "separation_event_uses_fit"
   ],
   "note": ""
  },
  {
   "property": "C73",
   "status": "proved",
   "theorems": [
    "construct_then_set"
   ],
   "note": ""
  },
  {
   "property": "C74",
   "status": "proved",
   "theorems": [
    "failed_solve_keeps_previous"
   ],
   "note": ""
  },
  {
   "property": "C75",
   "status": "proved",
   "theorems": [
    "thwaites_solution_positive",
    "head_solution_positive"
   ],
   "note": ""
  },
  {
   "property": "C76",
   "status": "partial",
   "theorems": [
    "head_transpiration_array_partial",
    "tau_w_input_overwritten_refuted"
   ],
   "note": "REFUTED when the callable returns its argument: the position array is overwritten. Proved when it returns a new array, for at least one position (C152)."
  },
  {
   "property": "C77",
   "status": "proved",
   "theorems": [
    "kinetic_energy_integral"
   ],
   "note": "Assumes quad integrates continuous functions exactly."
  },
  {
   "property": "C78",
   "status": "proved",
   "theorems": [
    "shear_thickness"
   ],
   "note": "Assumes root_scalar returns an exact root in the bracket."
  },
  {
   "property": "C79",
   "status": "proved",
   "theorems": [
    "valid_dump_loads"
   ],
   "note": ""
  },
  {
   "property": "C80",
   "status": "proved",
   "theorems": [
    "no_upper_side_rejected",
    "no_lower_side_rejected"
   ],
   "note": "A one-sided dump ending in velocity exactly zero falls under C61."
  },
  {
   "property": "C81",
   "status": "proved",
   "theorems": [
    "rows_independent_upper",
    "rows_independent_lower"
   ],
   "note": ""
  },
  {
   "property": "C82",
   "status": "proved",
   "theorems": [
    "profile_consistent"
   ],
   "note": ""
  },
  {
   "property": "C83",
   "status": "proved",
   "theorems": [
    "reset_like_new"
   ],
   "note": ""
  },
  {
   "property": "C84",
   "status": "proved",
   "theorems": [
    "case_change_like_new",
    "empty_case_clears",
    "case_change_as_constructor",
    "new_case_empty"
   ],
   "note": ""
  },
  {
   "property": "C85",
   "status": "partial",
   "theorems": [
    "failed_change_drops_data_partial",
    "failed_change_consistent_refuted"
   ],
   "note": "REFUTED: after a failed change the data are gone but the old name stays. Proved: for a missing file the data are dropped and the name kept (for any failure the data equal those of a new object, C84)."
  },
  {
   "property": "C86",
   "status": "proved",
   "theorems": [
    "station_positive"
   ],
   "note": ""
  },
  {
   "property": "C87",
   "status": "partial",
   "theorems": [
    "profile_nonnegative_refuted"
   ],
   "note": "REFUTED: loading writes into the arrays directly, past the setters' check; a sample with y < 0 is kept."
  },
  {
   "property": "C88",
   "status": "proved",
   "theorems": [
    "wrong_columns_rejected",
    "wrong_velocity_columns_rejected",
    "wrong_ident_rejected",
    "failed_change_drops_data_partial"
   ],
   "note": ""
  },
  {
   "property": "C89",
   "status": "proved",
   "theorems": [
    "well_formed_case_loads",
    "station_loads",
    "flow_row_loads"
   ],
   "note": ""
  },
  {
   "property": "C90",
   "status": "proved",
   "theorems": [
    "data_fits_published"
   ],
   "note": "Spline rows assume CubicSpline returns the not-a-knot spline it documents, on the two tables."
  },
  {
   "property": "C91",
   "status": "proved",
   "theorems": [
    "default_fit_well_behaved"
   ],
   "note": "Assumes CubicSpline returns the not-a-knot spline it documents; the spline itself is solved exactly over the rationals."
  },
  {
   "property": "C92",
   "status": "proved",
   "theorems": [
    "velocity_from_points",
    "velocity_from_gradient_points"
   ],
   "note": "scipy's PCHIP slope algorithm is part of the model (PchipModel.v), over exact reals; one-dimensional point lists."
  },
  {
   "property": "C93",
   "status": "proved",
   "theorems": [
    "solve_repeatable"
   ],
   "note": ""
  },
  {
   "property": "C94",
   "status": "proved",
   "theorems": [
    "configuration_order"
   ],
   "note": ""
  },
  {
   "property": "C95",
   "status": "proved",
   "theorems": [
    "reynolds_independence"
   ],
   "note": ""
  },
  {
   "property": "C96",
   "status": "partial",
   "theorems": [
    "shared_condition_refuted",
    "shared_condition_partial",
    "separate_conditions_independent",
    "shared_condition_live"
   ],
   "note": "REFUTED: assigning initial_delta_m on one method writes the shared condition. Proved: while no call exchanges or edits a condition the methods are independent (nu and du_e written by solve are always rewritten before use); methods with condition objects of their own are always independent; and a shared object stays shared, edits by one method being seen by the other, until one of them is given another object."
  },
  {
   "property": "C97",
   "status": "partial",
   "theorems": [
    "separation_location_refuted",
    "separation_location_partial"
   ],
   "note": "REFUTED: the shear of White's and the default fit is clamped to 0 past separation, so any later point is a root of the event function too. Proved: wall shear is zero at the reported point and the gradient parameter is in the fit's separated range; roots_are_zeros is assumed of the integrator."
  },
  {
   "property": "C98",
   "status": "proved",
   "theorems": [
    "linear_offset_effect"
   ],
   "note": "About exact solutions of the ODE handed to the integrator."
  },
  {
   "property": "C99",
   "status": "proved",
   "theorems": [
    "initial_thickness_influence"
   ],
   "note": "About exact solutions of the ODE handed to the integrator."
  }
 ]
}