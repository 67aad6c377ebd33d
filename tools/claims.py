"""Writes ../MANIFEST.json from the table below (run: python3 tools/claims.py)."""
import json, os, re
here = os.path.dirname(os.path.abspath(__file__))
P, Q = "proved", "partial"
claims = [
 ("C01", P, "fd_first_derivative_error fd_derivatives_exact", ""),
 ("C02", P, "fd_second_derivative_error fd_second_from_first_error fd_derivatives_exact", ""),
 ("C03", P, "derivatives_current derivatives_current_unique constructor_velocity", ""),
 ("C04", Q, "rejected_velocity_refuted rejected_velocity_partial rejected_callable_velocity",
  "REFUTED: a rejected call with a callable u_e has already replaced u_e. Proved for non-callable u_e, and the exact effect for callables."),
 ("C05", Q, "bad_derivative_refuted bad_derivative_partial",
  "REFUTED for d2u_e (the code tests du_e twice). Proved for du_e and for d2u_e given without du_e."),
 ("C06", P, "velocity_from_derivative_points", "For every interpolation routine returning a C1 piecewise polynomial (which PCHIP documents)."),
 ("C07", P, "point_input_validated point_input_length", "Zero-dimensional x raises IndexError (also proved)."),
 ("C08", P, "constructed_without_velocity velocity_query_before_set velocity_query_after_set", ""),
 ("C09", P, "viscosity_never_nonpositive", ""),
 ("C10", P, "solve_reports", ""),
 ("C11", P, "event_attribution nonterminal_event_misattributed result_details", "The second theorem shows the hypothesis 'all terminal' is needed."),
 ("C12", P, "message_begins_with_status result_details", ""),
 ("C13", Q, "events_leak_refuted", "REFUTED: events passed to solve stay registered; events_in_force (C14) gives the exact set."),
 ("C14", P, "events_in_force events_after_configuration", ""),
 ("C15", P, "head_tau_before_solve queries_before_solve solution_held_iff", ""),
 ("C16", P, "stagnation_start solve_reports", ""),
 ("C17", Q, "solution_insulated_refuted solution_insulated_partial",
  "REFUTED for Thwaites: delta_m follows nu, shape_d follows the data fits. Proved for Head's delta_m, shape_d, delta_d and for Thwaites' delta_m while nu is not assigned."),
 ("C30", Q, "initial_delta_m_refuted initial_delta_m_partial initial_delta_m_rejected",
  "REFUTED with the stagnation condition (value accepted and ignored). Proved for manual conditions, which every constructor installs."),
 ("C31", P, "fit_in_force custom_fit_derivative fit_selection", ""),
 ("C39", P, "head_event_current", ""),
 ("C40", Q, "head_start_order_refuted head_start_order_partial head_start_other_order",
  "REFUTED when the shape factor is set first. Proved for the other order; exact start values for both."),
 ("C71", P, "data_fits_atomic", ""),
 ("C72", P, "separation_event_uses_fit", ""),
 ("C73", P, "construct_then_set", ""),
 ("C74", P, "failed_solve_keeps_previous", ""),
 ("C18", P, "fit_derivative_reported fit_derivative_exists spline_fit_derivative fit_derivative_out_of_range_refuted",
  "The refuted theorem only shows why the property is limited to the range."),
 ("C19", P, "cebeci_bradshaw_jump", ""),
 ("C20", P, "out_of_range_scalar", ""),
 ("C21", Q, "array_elementwise_refuted array_elementwise_partial array_exact",
  "REFUTED: once one element is below the range, elements above the range are not clamped. Proved for every array not leaving the range on both sides, and the exact result for all arrays."),
 ("C22", P, "white_shear_zero_iff cebeci_bradshaw_shear_zero", ""),
 ("C23", Q, "separation_detected_partial drela_separation_refuted drela_spurious_separation",
  "REFUTED for the Drela fit: its shear is positive for all parameters up to 0.6. Proved for the other three fits (Spline: given that CubicSpline interpolates its table)."),
 ("C41", P, "skin_friction_positive", ""),
 ("C42", P, "skin_friction_decreases_with_re", ""),
 ("C43", P, "skin_friction_decreases_with_shape", ""),
 ("C44", P, "felsch_total_in_shape felsch_separation_value", ""),
 ("C45", P, "stagnation_condition stagnation_zero_gradient stagnation_negative_gradient", ""),
 ("C46", P, "manual_condition manual_condition_ratios condition_viscosity", ""),
 ("C24", P, "linear_quadrature linear_solution_exists", ""),
 ("C25", P, "linear_solution_unique linear_solution_positive", ""),
 ("C26", P, "thwaites_transpiration thwaites_transpiration_builtin", ""),
 ("C27", P, "nonlinear_momentum_integral", ""),
 ("C28", P, "thwaites_reported_consistent", ""),
 ("C29", P, "thwaites_rhs_finite builtin_fits_finite", ""),
 ("C32", P, "entrainment_derivative entrainment_branches", ""),
 ("C33", P, "entrainment_inverse_left entrainment_inverse_right entrainment_out_of_range", ""),
 ("C34", P, "entrainment_velocity_positive_decreasing entrainment_velocity_formula", ""),
 ("C35", P, "head_momentum_and_entrainment", "The entrainment equation is stated where the shape factor is not exactly 1.6, where H1 itself jumps by less than 1e-15 (C32)."),
 ("C36", P, "head_transpiration", ""),
 ("C37", Q, "head_calling_form_refuted head_calling_form_partial",
  "REFUTED: reversed flow gives different values (float floored, array not), ints raise TypeError. Proved for every velocity above -0.001."),
 ("C38", Q, "tau_w_scalar_refuted tau_w_input_overwritten_refuted tau_w_array_partial tau_w_scalar_spline_partial",
  "REFUTED: TypeError for scalar positions with ordinary callables; the caller's array is overwritten when the callable returns its argument. Proved for callables returning new arrays with U >= 0.001 and at least one position (C152)."),
 ("C75", P, "thwaites_solution_positive head_solution_positive", ""),
 ("C76", Q, "head_transpiration_array_partial tau_w_input_overwritten_refuted",
  "REFUTED when the callable returns its argument: the position array is overwritten. Proved when it returns a new array, for at least one position (C152)."),
 ("C47", P, "similarity_continuity derivatives_determined constructed_objects", ""),
 ("C48", P, "similarity_momentum integrated_equation derivatives_determined", ""),
 ("C49", P, "similarity_wall", ""),
 ("C50", P, "similarity_transpiration", "beta = 2 is excluded by the property: u_e divides by zero there."),
 ("C51", P, "displacement_integral", ""),
 ("C52", P, "momentum_thickness_integral", ""),
 ("C53", P, "dissipation_integral", "Assumes quad integrates continuous functions exactly."),
 ("C54", P, "shape_factors_constant", ""),
 ("C55", Q, "wedge_rejected_refuted wedge_round_trip wedge_in_range wedge_rejected",
  "REFUTED for m = -inf, which passes the range test and makes beta nan. Everything else is proved, the round trip for every accepted m."),
 ("C56", Q, "rejected_reset_refuted rejected_reset_partial",
  "REFUTED: beta is replaced before eta_inf and fw_pp are checked. Proved for values of beta out of range."),
 ("C57", Q, "search_edge_refuted search_terminates search_edge_partial",
  "REFUTED: a search that runs out of iterations or stalls returns normally. Termination is proved, and the edge conditions whenever both loops end by their test."),
 ("C77", P, "kinetic_energy_integral", "Assumes quad integrates continuous functions exactly."),
 ("C78", P, "shear_thickness", "Assumes root_scalar returns an exact root in the bracket."),
 ("C58", P, "xfoil_partition", "For files whose last upper velocity is not exactly zero; those with zero are C61."),
 ("C59", P, "xfoil_arc_lengths", ""),
 ("C60", Q, "stagnation_point_refuted stagnation_point_partial",
  "REFUTED for x, which is |(1-t) x_up - t x_lo|. Proved for velocity, arc length, y, thicknesses, c_f and shape factors."),
 ("C61", Q, "zero_velocity_loads_refuted zero_velocity_rejected",
  "REFUTED: every dump with a zero-velocity row at positive arc length in front of the lower side raises ValueError, because the row object is shared by both lists and shifted twice."),
 ("C62", Q, "filename_kept_refuted filename_never_kept",
  "REFUTED: filename reads \"\" after any history."),
 ("C63", P, "load_replaces_all load_resets_attributes", ""),
 ("C64", P, "xfoil_edge_velocity xfoil_setter_rejects", ""),
 ("C65", Q, "row_invariants_refuted row_invariants_partial bad_row_rejected",
  "REFUTED for nan tokens, which every check lets through. Proved over all histories with nan allowed."),
 ("C79", P, "valid_dump_loads", ""),
 ("C80", P, "no_upper_side_rejected no_lower_side_rejected", "A one-sided dump ending in velocity exactly zero falls under C61."),
 ("C81", P, "rows_independent_upper rows_independent_lower", ""),
 ("C66", P, "flow_row_loads station_loads units_immaterial units_immaterial_velocity", ""),
 ("C67", Q, "derived_quantities_partial derived_quantities_close derived_quantities_refuted",
  "REFUTED: with a station line the values are read, not derived, and only need to be within a tolerance. Proved: exact without a station line; within the stated bounds with one."),
 ("C68", P, "stations_paired", ""),
 ("C69", P, "file_sections", ""),
 ("C82", P, "profile_consistent", ""),
 ("C83", P, "reset_like_new", ""),
 ("C84", P, "case_change_like_new empty_case_clears case_change_as_constructor new_case_empty", ""),
 ("C85", Q, "failed_change_drops_data_partial failed_change_consistent_refuted",
  "REFUTED: after a failed change the data are gone but the old name stays. Proved: for a missing file the data are dropped and the name kept (for any failure the data equal those of a new object, C84)."),
 ("C86", P, "station_positive", ""),
 ("C87", Q, "profile_nonnegative_refuted",
  "REFUTED: loading writes into the arrays directly, past the setters' check; a sample with y < 0 is kept."),
 ("C88", P, "wrong_columns_rejected wrong_velocity_columns_rejected wrong_ident_rejected failed_change_drops_data_partial", ""),
 ("C89", P, "well_formed_case_loads station_loads flow_row_loads", ""),
 ("C90", P, "data_fits_published", "Spline rows assume CubicSpline returns the not-a-knot spline it documents, on the two tables."),
 ("C91", P, "default_fit_well_behaved", "Assumes CubicSpline returns the not-a-knot spline it documents; the spline itself is solved exactly over the rationals."),
 ("C92", P, "velocity_from_points velocity_from_gradient_points", "scipy's PCHIP slope algorithm is part of the model (PchipModel.v), over exact reals; one-dimensional point lists."),
 ("C93", P, "solve_repeatable", ""),
 ("C94", P, "configuration_order", ""),
 ("C95", P, "reynolds_independence", ""),
 ("C96", Q, "shared_condition_refuted shared_condition_partial separate_conditions_independent shared_condition_live", "REFUTED: assigning initial_delta_m on one method writes the shared condition. Proved: while no call exchanges or edits a condition the methods are independent (nu and du_e written by solve are always rewritten before use); methods with condition objects of their own are always independent; and a shared object stays shared, edits by one method being seen by the other, until one of them is given another object."),
 ("C97", Q, "separation_location_refuted separation_location_partial", "REFUTED: the shear of White's and the default fit is clamped to 0 past separation, so any later point is a root of the event function too. Proved: wall shear is zero at the reported point and the gradient parameter is in the fit's separated range; roots_are_zeros is assumed of the integrator."),
 ("C98", P, "linear_offset_effect", "About exact solutions of the ODE handed to the integrator."),
 ("C99", P, "initial_thickness_influence", "About exact solutions of the ODE handed to the integrator."),
 ("C100", Q, "units_refuted units_linear_partial units_nonlinear_partial units_head_partial", "REFUTED: the offset 0.001 of the Thwaites methods has the unit of a velocity; a flat plate in metres and in millimetres gives different thicknesses. Proved: the linear method within the factor (1+0.001/lo)^6; Head's method exactly while U_e stays above its floor 0.001 in both units. The nonlinear method with the default fit within a bound proportional to 0.001 over the velocity. Missing: the nonlinear method with the other fits."),
 ("C101", Q, "thwaites_array_refuted thwaites_array_partial one_sided_fits", "REFUTED: an array whose pressure gradient parameter leaves the Cebeci-Bradshaw range on both sides is clamped on one side only. Proved for arrays that leave it on one side at most, so always for White, Drela and custom fits."),
 ("C102", Q, "kinetic_energy_refuted", "REFUTED: delta_k, shape_k and dissipation return 0 for every boundary layer of positive momentum thickness."),
 ("C103", P, "given_parameters_used", "eta_inf and fw_pp finite, as Python floats are except for inf and nan."),
 ("C104", P, "search_is_secant affine_response_solved", ""),
 ("C105", P, "failed_integration_clears", ""),
 ("C106", P, "xfoil_columns", "For files whose last upper velocity is not exactly zero; those with zero are C61. The edge velocity queries are C64."),
 ("C107", P, "blasius_defaults blasius_wall_value", "Assumes the external integrator, quadrature and root search exact where they report success; that the exact problem is solvable is proved (blasius_defaults_case)."),
 ("C108", P, "float_first_derivative float_second_derivative float_derivative_of_given", "In IEEE binary64 arithmetic. The value of 1e-4**2 comes from the C library; it is assumed within 2 units of roundoff of the exact square."),
 ("C109", Q, "constant_velocity_second_refuted constant_velocity_first_partial constant_velocity_second_partial", "REFUTED for the second derivative: the constant 0.3 gives about -1.1e-8. Proved: the first derivative is exactly zero, and the second is below 5e-7 times the constant."),
 ("C110", Q, "float_shape_round_trip_refuted float_shape_round_trip_partial", "REFUTED: with momentum thickness 0.003, 1.5 is read back as 1.5000000000000002. Proved: the relative difference is below 2^-52 + 2^-100."),
 ("C111", P, "nonlinear_solution_unique", ""),
 ("C112", Q, "white_solution_partial white_solution_refuted white_solution_until white_solution_decelerating", "REFUTED: with velocity 1 + x and initial delta_m^2/nu = 2 no solution reaches x = 1. Proved: there is at most one solution; there is one as far as the gradient parameter stays below any bound chosen beforehand; there is exactly one over the whole interval when the flow does not accelerate."),
 ("C113", P, "nonlinear_accuracy linear_accuracy", ""),
 ("C114", Q, "flat_plate_partial flat_plate_refuted", "REFUTED: at the speed 1/1000 the offset 0.001 makes the momentum thickness more than 25% too small. Proved: within 1.2% (momentum thickness), 1.9% (displacement thickness), 0.8% (shape factor) and 1.3% (wall shear) for speeds of at least 1."),
 ("C115", P, "accelerating_thwaites_not_separated accelerating_wall_shear accelerating_head_not_separated", ""),
 ("C116", Q, "head_solution_refuted head_solution_partial head_solution_below_partial head_solution_above_partial head_solution_unique_partial", "REFUTED: the slope of the entrainment shape factor jumps at 1.6, so from the shape factor 1.6 on a flat plate (viscosity, velocity and momentum thickness 1) no differentiable solution starts. Proved: from a shape factor below 1.6 there is a solution to the end of the interval or until the shape factor is 1.6; from one above, until it comes as close to 1.6 or gets as large as one likes; and there is only one as long as it avoids 1.6."),
 ("C117", P, "linear_nonlinear_agree linear_nonlinear_agree_fits", ""),
 ("C118", Q, "locality_refuted locality_differenced locality_given", "REFUTED: a velocity given without derivatives is differenced with points up to 2e-4 outside the interval, so two velocities equal for all x >= 0 give different results over [0, 1]. Proved: agreement on the interval widened by 2e-4 is enough, and on the interval itself when both derivatives are given."),
 ("C119", P, "translation_thwaites translation_head pchip_scipy_moves", ""),
 ("C120", P, "restart_thwaites restart_head", "Exact integrations; Head's solutions away from the shape factor 1.6, where the equation has no unique solution (C116); not for the stagnation point condition, which ignores assigned values (C30)."),
 ("C121", P, "thicker_start", ""),
 ("C122", P, "growth_thwaites growth_head", ""),
 ("C123", P, "head_accuracy", ""),
 ("C124", P, "velocity_error_linear velocity_error_nonlinear velocity_error_head", "The nonlinear method: default fit."),
 ("C125", Q, "float_arc_lengths_refuted float_arc_lengths_partial float_printed_dump_partial float_zero_velocity_refused float_one_sided_refused", "REFUTED: when the two rows around the stagnation point print the same arc length (0.97565 twice), the interpolated stagnation point rounds below it and the loader raises ValueError; a row of velocity exactly zero is refused, too. Proved: the claim holds when the exact stagnation point is a few units of roundoff away from both neighbours, which is so for every five-decimal file whose two rows around the stagnation point print different arc lengths."),
 ("C126", P, "sampled_velocity sampled_gradient sampled_smooth", "Over exact reals, with scipy's PCHIP algorithm as modelled in PchipModel.v."),
 ("C127", P, "sampled_linear_thwaites sampled_linear_thwaites_smooth sampled_nonlinear_thwaites sampled_head", "Exact solutions of the two initial value problems. The nonlinear method: default fit, squared momentum thickness."),
 ("C128", P, "user_exceptions query_exceptions", "The integrator is any finite procedure that asks for values one at a time and does not catch exceptions (scipy has no handler there). Scalar positions."),
 ("C129", Q, "calls_in_interval_refuted calls_in_interval_partial query_calls set_velocity_calls_nothing", "REFUTED: without a derivative the velocity is called up to 2e-4 outside, so a velocity defined for x >= 0 only makes solve(0, 1) raise. Proved: in the interval when the gradient is given, within 2e-4 of it otherwise; queries at the position, or within 2.2e-4 of it."),
 ("C130", Q, "hidden_state_refuted hidden_state_solve_partial hidden_state_set_velocity_partial hidden_state_queries_partial", "REFUTED: Head's method writes 0.001 into an array the velocity function returns, so a cached array is spoilt. Proved whenever such arrays may be written to, and always for Thwaites' methods."),
 ("C131", P, "sampled_gradient_points sampled_gradient_points_smooth", "Real arithmetic; scipy's PchipInterpolator as modelled in PchipModel.v."),
 ("C132", P, "points_units gradient_points_units points_units_accepted", "Real arithmetic; any origin, any positive length unit, any factor for the values (zero and negative too)."),
 ("C133", P, "points_local gradient_points_local gradient_points_upstream", "Real arithmetic. At the right end of the interval the second derivative belongs to the next one."),
 ("C134", Q, "displacement_refuted displacement_partial", "REFUTED: White's shape fit has no upper limit for its argument; above about 0.317 it is below 1, and at 0.35 it is negative, so that delta_d is negative. Proved for the other three fits everywhere, and for White's up to 0.315; with the bound H < 4."),
 ("C135", P, "head_shape_low head_shape_uniform", "Exact solutions, real arithmetic."),
 ("C136", P, "threads_independent solve_alone queries_alone setters_alone", "Steps are attribute reads and writes (atomic under CPython's interpreter lock). The calls covered are solve, delta_m, shape_d, delta_d, nu, initial_delta_m, set_velocity with three functions, set_initial_condition."),
 ("C137", Q, "shared_condition_threads_refuted shared_manual_threads_partial", "REFUTED: solve assigns nu and du_e to the condition before it asks for delta_m, so that two threads sharing a FalknerSkanStagCondition can start from the wrong thickness (four times too large a start value in the witness). Proved when the conditions are ManualConditions."),
 ("C138", Q, "query_during_solve_refuted query_during_solve_partial", "REFUTED: solve sets the solution to None before it sets the new one, and the queries read it twice: the witness gets ValueError, TypeError, and a displacement thickness made of the old momentum thickness and the new shape factor. Proved: nothing else can happen, for any number of querying threads."),
 ("C139", Q, "interrupted_call_refuted interrupted_solve_partial", "REFUTED: an interrupt between the two assignments to the solution loses it; one inside set_velocity leaves the new velocity with the old gradient. Proved for solve without user events: settings kept, solution old, none or new, later calls of solve unaffected."),
 ("C140", P, "float_stagnation_thickness float_stagnation_start float_delta_m float_start_round_trip float_tau_w", "delta_m**2 is computed by the C library: the function is a parameter, assumed accurate to 2 units."),
 ("C141", P, "float_linear_rhs", ""),
 ("C142", P, "float_white_shape float_white_shape_p float_white_shear_base float_cb_fit float_cb_f", "White's shear fit (non-integer power), Drela's fit (cube) and the spline fit (evaluated by scipy) are not covered."),
 ("C143", Q, "copy_like_original_partial copy_like_original_refuted rejected_velocity_on_copy copying_changes_no_object", "REFUTED: after a rejected set_velocity a copy differentiates the velocity of its original, while the original would differentiate the new one. Proved for all sequences in which no set_velocity is rejected."),
 ("C144", Q, "original_independent_of_copies copy_independent_partial explicit_velocity_given explicit_fit_given given_functions_stay other_calls_harmless renewed_copy_independent copy_independent_refuted copy_follows_original copy_fit_independent_refuted", "REFUTED: the difference formulas made by set_velocity and set_data_fits read the object they were made for, also from a copy; setting a velocity on the original changes the derivatives the copy answers. Proved: originals are never influenced; copies are not when derivatives were given, when others only change viscosity, conditions, events or solve, or after velocity and fit of the copy have been set anew."),
 ("C145", P, "blasius_profile_rises blasius_default_inside_edge accelerated_profile_rises decelerated_profile_rises", ""),
 ("C146", P, "thicknesses_ordered", ""),
 ("C147", Q, "edge_velocity_partial blasius_edge_velocity_partial velocity_above_edge_unbounded velocity_above_edge_refuted", "REFUTED: above eta_inf the stored interpolant is evaluated outside its range, where scipy continues the polynomial of the last step; the velocity then exceeds every bound as the height grows, unless that polynomial is constant. Proved at the edge itself."),
 ("C148", Q, "linear_velocity_closed_form stagnation_thickness_partial stagnation_thickness_refuted", "REFUTED: the stagnation-point condition starts with the thickness of the exact solution (0.0855 nu/k), the equation keeps 0.075 nu/k; delta_m falls by more than 6 percent before u_e reaches 1/1000. Proved: the closed form, and delta_m within 0.2 percent of sqrt(0.075 nu/k) from there on."),
 ("C149", P, "retarded_flow_wall_shear retarded_flow_wall_shear_cb retarded_flow_separation retarded_flow_reported", "roots_are_zeros is assumed of the integrator"),
 ("C150", P, "array_one_position array_two_positions array_profile", "u and v with at least one point; a Python float for x must be positive (C151)"),
 ("C151", Q, "numpy_float_answer python_float_answer_partial python_float_zero_refuted python_float_negative_refuted python_float_decelerating_refuted", "REFUTED: at x = 0 on a plate delta_m and every query that divides by x raises ZeroDivisionError for a Python float and returns a value for numpy's; for x < 0 in wedge flow u_e is complex for a Python float and nan for numpy's. Proved for numpy floats everywhere and for positive Python floats."),
 ("C152", Q, "no_positions_refuted no_positions_partial", "REFUTED: scipy's dense output raises ValueError for an empty array, so all queries of a method object that use it, and u and v of a similarity solution, do. The other queries of similarity solutions return an empty array."),
 ("C153", Q, "completed_not_separated_refuted completed_head_partial completed_thwaites_partial", "REFUTED: a layer that starts beyond separation (Head: shape factor above the critical one) is integrated to the end and reported as completed, as the event function does not change its sign. Proved: not separated at the start implies not separated at the end. steps_checked is assumed of the integrator."),
 ("C154", P, "head_separation_location", "roots_are_zeros is assumed of the integrator"),
 ("C155", P, "wedge_flow_thickness wedge_flow_wall_shear wedge_flow_wall_shear_cb wedge_separation_exponent", "wall shear for White, the default fit and Cebeci-Bradshaw; Drela's fit never reaches zero (C23). solves1_at: exact solutions of the equation the object hands to the integrator."),
 ("C156", P, "gradient_samples_linear gradient_samples_linear_smooth gradient_samples_nonlinear gradient_samples_head", "as C127: the nonlinear method with the default fit, Head's method on one side of the shape factor 1.6"),
 ("C157", P, "float_flow_row float_station_loads float_station_agrees float_station_tolerances float_sample_loads float_sample_agrees", "the words are read with an error of at most 2^-53 relative; FOOT_PER_METER**2 with at most 2 units (C library)"),
 ("C158", P, "float_skin_friction float_entrainment float_head_rates float_head_exact", "numpy's ** is assumed accurate to 2 units of 2^-53"),
 ("C159", P, "head_takes_over head_takes_over_condition thwaites_takes_over", "values that the first object reports must be finite and positive"),
 ("C160", P, "shallow_copy_like_original", ""),
 ("C161", Q, "shallow_copy_independent_refuted shallow_copy_stops_refuted shallow_copy_shares shallow_copy_initial_value shallow_copy_separation original_flow_partial copy_flow_partial renewed_copies_partial", "REFUTED: copy and original share the condition object and the list of stopping conditions, so an initial value assigned on the copy, or a stopping condition passed to its solve, is the original's too, and a copy with another velocity judges separation with the original's velocity. True: queries about velocity and solution are not affected, and copies that are at once given a condition, a velocity and a fit or critical shape factor are independent."),
 ("C162", P, "xfoil_case_data xfoil_case_assignment", "not-a-number passes every check and is stored"),
 ("C163", P, "slower_flow_thicker decelerating_flow_thicker", "exact solutions; velocities are compared with the 0.001 that the method adds"),
 ("C164", P, "end_state_reported", ""),
 ("C165", P, "xfoil_surface_velocity", ""),
 ("C166", P, "case_arrays no_case_arrays", ""),
 ("C167", P, "case_sets_up_head case_gradient_sets_up_head", ""),
 ("C168", Q, "stagnation_points_start_refuted stagnation_points_start_partial stagnation_two_points_start_partial", "REFUTED: for points (0,0), (1,1), (2,5) the interpolation has gradient 0 at the first point and solve raises ZeroDivisionError. Proved: with three or more points, of which the first three accelerate, the integration starts (with the gradient of the parabola through them) exactly when that parabola rises at the first point, and raises otherwise; with two points it always starts."),
 ("C169", Q, "start_values_refuted start_values_nan_refuted start_values_partial", "REFUTED: an object that was given no initial values does not refuse to solve but starts from inf (Head: inf and nan), and nan is accepted as an initial value. Proved: after every history of calls with finite values which gives a condition object with positive thicknesses, or assigns the momentum thickness and (Head) thereafter the shape factor, the start values are positive numbers."),
 ("C170", P, "gradient_error_linear gradient_error_nonlinear gradient_error_head plain_gradient_error plain_velocity_linear plain_velocity_nonlinear", "exact solutions of the equations as coded, real arithmetic; nonlinear Thwaites with the default fit; Head on one side of the shape factor 1.6 with a constant that depends on the velocity and the range"),
 ("C171", P, "head_momentum_balance head_mass_balance thwaites_mass_balance thwaites_momentum_balance", "exact solutions of the equations as coded, real arithmetic; Head's mass balance on one side of the shape factor 1.6; the nonlinear Thwaites momentum balance carries the velocity offset 0.001 of the coded equation explicitly"),
 ("C172", P, "float_felsch_positive float_felsch float_felsch_accurate float_white_friction float_friction_exact", "the C library's pow, log10 and exp are parameters assumed accurate to two units of 2^-53"),
 ("C173", P, "xfoil_sets_up_methods xfoil_inviscid_start_refused", ""),
 ("C174", P, "float_white_shear float_white_separation float_drela_fit float_nonlinear_rhs_white float_nonlinear_rhs_cb float_nonlinear_rhs_drela", "What the C library computes for a power is a parameter, assumed accurate to two units of 2^-53 and zero for the base zero."),
 ("C175", P, "float_reports_white float_reports_cb float_reports_drela", "What the C library computes for a power is a parameter, assumed accurate to two units of 2^-53 and zero for the base zero."),
 ("C176", P, "float_head_delta_d float_head_tau float_head_v_e", "What the C library computes for a power is a parameter, assumed accurate to two units of 2^-53. The square of an array element is the product numpy evaluates."),
 ("C177", P, "float_similarity_u_e float_similarity_thicknesses float_similarity_shape float_similarity_fluxes", "What the C library computes for a power is a parameter, assumed accurate to two units of 2^-53. The stored values themselves come from solve_ivp, quad and root_scalar, whose errors are not bounded here."),
 ("C178", Q, "float_wedge_round_trip_partial float_wedge_rejected_partial float_wedge_infinite_partial float_wedge_round_trip_refuted", "Refuted for exponents so large that the wedge parameter rounds to 2 or the product overflows; proved from -0.09 to 200 and for an infinite exponent; exponents from -0.9 to -0.0905 are refused. Missing: exponents from -0.0905 to -0.09, where acceptance can depend on rounding, and from 200 to the size at which the exponent is lost."),
 ("C70", P, "skin_friction_published_formulas", ""),
]
out = {"claims": [{"property": i, "status": s, "theorems": t.split(), "note": n}
                  for i, s, t, n in sorted(claims)]}
json.dump(out, open(os.path.join(here, "..", "MANIFEST.json"), "w"), indent=1)
ids = [json.loads(l)["id"] for l in open(os.path.join(here, "..", "properties.jsonl"))]
src = ""
d = os.path.join(here, "..", "rocq", "theories")
for l in open(os.path.join(here, "..", "rocq", "_CoqProject")):
    if l.startswith("theories/"):
        src += open(os.path.join(here, "..", "rocq", l.strip())).read()
thms = set(re.findall(r"^(?:Theorem|Lemma)\s+(\w+)", src, re.M))
for c in out["claims"]:
    assert c["property"] in ids, c["property"]
    for t in c["theorems"]:
        assert t in thms, t
named = {t for c in out["claims"] for t in c["theorems"]}
for f in sorted(os.listdir(d)):
    if f.endswith("Props.v"):
        for t in re.findall(r"^Theorem\s+(\w+)", open(os.path.join(d, f)).read(), re.M):
            if t not in named: print("not in manifest:", f, t)
print("missing:", [i for i in ids if i not in {c["property"] for c in out["claims"]}])
