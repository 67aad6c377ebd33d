{"id": "C01", "title": "Finite-difference first derivative is fourth-order accurate", "statement": "When only a plain callable u_e is given, du_e(x) is exact for every polynomial velocity of degree at most 4, and for any five-times differentiable u_e with |u_e'''''| <= K near x it differs from the true derivative by at most K*h^4/18 with h = 1e-4 (exact arithmetic).", "quantifier": "all velocity functions, all x, all K", "why_tests_cant": "the claim is about every function and point; a test samples a few functions", "anchors": ["ibl/ibl_method.py:set_velocity", "ibl/ibl_method.py:fd_1f"]}
{"id": "C02", "title": "Finite-difference second derivative is fourth-order accurate", "statement": "When only a plain callable u_e is given, d2u_e(x) is exact for every polynomial velocity of degree at most 5, and for any six-times differentiable u_e with |u^(6)| <= K near x the error is at most K*h^4/54 with h = 1e-4 (exact arithmetic).", "quantifier": "all velocity functions, all x, all K", "why_tests_cant": "same: universal over functions", "anchors": ["ibl/ibl_method.py:set_velocity", "ibl/ibl_method.py:fd_2f"]}
{"id": "C03", "title": "Derivatives always belong to the velocity currently set", "statement": "After any sequence of set_velocity calls that all succeed, du_e and d2u_e returned by the method are the ones belonging to the last velocity supplied (user supplied, its derivative() method, or finite differences of that velocity), never of an earlier one.", "quantifier": "all histories of successful set_velocity calls", "why_tests_cant": "histories are unbounded and the closures bind late", "anchors": ["ibl/ibl_method.py:set_velocity", "ibl/ibl_method.py:u_e", "ibl/ibl_method.py:du_e", "ibl/ibl_method.py:d2u_e"]}
{"id": "C04", "title": "A rejected set_velocity call leaves the previous profile in force", "statement": "If set_velocity raises, u_e, du_e and d2u_e keep answering as before the call.", "quantifier": "all states and all arguments", "why_tests_cant": "needs every failing argument shape in every prior state", "anchors": ["ibl/ibl_method.py:set_velocity"]}
{"id": "C05", "title": "Derivative arguments that are not callable are rejected", "statement": "With a callable u_e, set_velocity raises ValueError whenever du_e or d2u_e is supplied but is not callable.", "quantifier": "all argument triples", "why_tests_cant": "universal over argument kinds", "anchors": ["ibl/ibl_method.py:set_velocity"]}
{"id": "C06", "title": "A scalar start value with derivative points integrates the derivative", "statement": "set_velocity(u0, (x, du)) gives a velocity that equals u0 at the first point, whose derivative is the supplied interpolant at every point of the range, that is continuous, and whose d2u_e is the derivative of du_e.", "quantifier": "all start values, all breakpoint lists, all piecewise polynomial interpolants", "why_tests_cant": "universal over data sets and evaluation points", "anchors": ["ibl/ibl_method.py:set_velocity"]}
{"id": "C07", "title": "Point-wise velocity input is validated", "statement": "set_velocity((x, u)) succeeds only for two one-dimensional arrays of equal length at least two; every other one-or-more dimensional combination raises ValueError and leaves the object unchanged.", "quantifier": "all array shapes and all prior states", "why_tests_cant": "universal over shapes", "anchors": ["ibl/ibl_method.py:set_velocity"]}
{"id": "C08", "title": "Velocity queries before a velocity is set raise", "statement": "u_e, du_e and d2u_e raise ValueError in every state in which no set_velocity call has reached the corresponding assignment.", "quantifier": "all histories", "why_tests_cant": "quantifies over histories", "anchors": ["ibl/ibl_method.py:u_e", "ibl/ibl_method.py:du_e", "ibl/ibl_method.py:d2u_e"]}
{"id": "C09", "title": "Viscosity stays positive", "statement": "After construction and any sequence of API calls, successful or not, nu is never a number less than or equal to zero.", "quantifier": "all constructor arguments and all histories of API calls", "why_tests_cant": "invariant over unbounded histories", "anchors": ["ibl/ibl_method.py:IBLMethod.__init__", "ibl/ibl_method.py:nu", "ibl/initial_condition.py:nu"]}
{"id": "C10", "title": "solve reports what the integrator did", "statement": "The result of solve has success equal to the integrator's, status Completed exactly when the integrator reached the end, x_end the last integration point in that case, f_end the solution at x_end, and UNKNOWN with x_end = x0 and f_end the initial state when the integrator failed.", "quantifier": "all integrator outcomes, all states", "why_tests_cant": "universal over integrator outcomes", "anchors": ["ibl/ibl_method.py:solve", "ibl/ibl_method.py:IntegrationResult", "ibl/ibl_method.py:TermReason"]}
{"id": "C11", "title": "An early stop is attributed to the event that caused it", "statement": "If every registered event is terminal and the integrator stopped on an event, then the reported status and message are those of the triggered event and x_end is the location of that event.", "quantifier": "all event lists, all integrator outcomes satisfying the integrator's contract", "why_tests_cant": "universal over event lists and outcomes", "anchors": ["ibl/ibl_method.py:solve", "ibl/ibl_method.py:TermEvent"]}
{"id": "C12", "title": "Result messages name the status", "statement": "The message returned by solve is never empty and always begins with the printable name of the reported status.", "quantifier": "all outcomes", "why_tests_cant": "universal over outcomes", "anchors": ["ibl/ibl_method.py:solve", "ibl/ibl_method.py:TermReason"]}
{"id": "C13", "title": "Events passed to one solve do not leak into later solves", "statement": "A term_event passed to solve affects that call only.", "quantifier": "all histories of solve calls", "why_tests_cant": "quantifies over histories", "anchors": ["ibl/ibl_method.py:solve", "ibl/ibl_method.py:_set_kill_event"]}
{"id": "C14", "title": "Exact event list in force", "statement": "The events in force at any solve are those installed by the last configuration call followed by every event passed to every solve since, in order.", "quantifier": "all histories", "why_tests_cant": "quantifies over histories", "anchors": ["ibl/ibl_method.py:solve", "ibl/ibl_method.py:_set_kill_event", "ibl/thwaites_method.py:set_data_fits", "ibl/head_method.py:set_shape_d_critical"]}
{"id": "C15", "title": "Queries before a successful solve raise", "statement": "In every state in which no solve succeeded since construction, or the last completed solve failed, delta_m, delta_d, shape_d, tau_w and v_e raise ValueError.", "quantifier": "all histories", "why_tests_cant": "quantifies over histories", "anchors": ["ibl/ibl_method.py:solve", "ibl/thwaites_method.py:delta_m", "ibl/head_method.py:delta_m"]}
{"id": "C16", "title": "The start of integration uses the current viscosity and velocity gradient", "statement": "At each solve with the stagnation condition, the initial momentum thickness is computed from the viscosity and du_e(x0) in force at that call, whatever happened before.", "quantifier": "all histories, all x0", "why_tests_cant": "quantifies over histories", "anchors": ["ibl/ibl_method.py:solve", "ibl/initial_condition.py:FalknerSkanStagCondition"]}
{"id": "C17", "title": "A returned solution is insulated from later reconfiguration", "statement": "Changing nu, the velocity or the data fits after solve does not change the values returned for the solved boundary layer until solve is called again.", "quantifier": "all histories", "why_tests_cant": "quantifies over histories", "anchors": ["ibl/ibl_method.py:solve", "ibl/ibl_method.py:nu", "ibl/thwaites_method.py:delta_m"]}
{"id": "C18", "title": "Thwaites fit derivatives are the derivatives of the fits", "statement": "For the White, Cebeci-Bradshaw and Drela data fits the shape factor derivative function is the derivative of the shape factor function at every parameter where the latter is differentiable and inside its range.", "quantifier": "all parameter values in range", "why_tests_cant": "continuum of parameter values", "anchors": ["ibl/thwaites_method.py:_ThwaitesFunctionsWhite", "ibl/thwaites_method.py:_ThwaitesFunctionsCebeciBradshaw", "ibl/thwaites_method.py:_ThwaitesFunctionsDrela"]}
{"id": "C19", "title": "Cebeci-Bradshaw fit has a jump at zero", "statement": "The Cebeci-Bradshaw shear function is continuous on its range, while its shape factor jumps at zero by a known amount smaller than 2e-4.", "quantifier": "all parameter values in range", "why_tests_cant": "limits cannot be sampled", "anchors": ["ibl/thwaites_method.py:_ThwaitesFunctionsCebeciBradshaw"]}
{"id": "C20", "title": "Out-of-range parameters give end values (scalars)", "statement": "For a scalar parameter below (above) the range of a data fit, shear and shape factor equal their values at the lower (upper) end.", "quantifier": "all scalar parameters, all fits", "why_tests_cant": "continuum of values", "anchors": ["ibl/thwaites_method.py:_ThwaitesFunctions", "ibl/thwaites_method.py:_check_range"]}
{"id": "C21", "title": "Array evaluation agrees with scalar evaluation element by element", "statement": "Evaluating a data fit on an array gives at each index the same value as evaluating it on that element alone.", "quantifier": "all arrays of any length", "why_tests_cant": "universal over arrays; only mixed arrays fail", "anchors": ["ibl/thwaites_method.py:_check_range"]}
{"id": "C22", "title": "Shear vanishes exactly at the separation parameter", "statement": "For the White fit, shear is nonnegative for all parameters, strictly increasing on its range, and zero exactly when the parameter is at most -0.09; for Cebeci-Bradshaw there is exactly one parameter in [-0.1, 0] where it vanishes, inside (-0.0900, -0.0898).", "quantifier": "all real parameters", "why_tests_cant": "continuum; uniqueness", "anchors": ["ibl/thwaites_method.py:_ThwaitesFunctionsWhite", "ibl/thwaites_method.py:_ThwaitesFunctionsCebeciBradshaw", "ibl/thwaites_method.py:_ThwaitesSeparationEvent"]}
{"id": "C23", "title": "Separation is detected with every built-in fit", "statement": "For each built-in data fit there is a parameter value at which the separation event value is zero or negative, so adverse gradients strong enough end the integration.", "quantifier": "all built-in fits, all parameters", "why_tests_cant": "absence of a root over a continuum", "anchors": ["ibl/thwaites_method.py:_ThwaitesFunctionsDrela", "ibl/thwaites_method.py:_ThwaitesSeparationEvent"]}
{"id": "C24", "title": "Linear Thwaites solutions satisfy the closed quadrature", "statement": "Every exact solution of the linear method's ODE satisfies, with w = U_e + 1e-3, s(x) w(x)^6 = s(x0) w(x0)^6 + 0.45 * integral of w^5, wherever w > 0.", "quantifier": "all C1 velocity profiles, all initial values, all x", "why_tests_cant": "universal over functions", "anchors": ["ibl/thwaites_method.py:ThwaitesMethodLinear", "ibl/thwaites_method.py:_ode_impl"]}
{"id": "C25", "title": "Linear Thwaites solutions are unique and positive", "statement": "For w > 0 two exact solutions of the linear ODE with the same initial value coincide, and a solution starting positive stays positive, so delta_m is a positive real at every queried point.", "quantifier": "all velocity profiles and initial values", "why_tests_cant": "universal over functions", "anchors": ["ibl/thwaites_method.py:ThwaitesMethodLinear", "ibl/thwaites_method.py:delta_m"]}
{"id": "C26", "title": "Thwaites transpiration velocity is the growth rate of mass defect", "statement": "For any exact solution of the Thwaites ODE (linear or nonlinear), at points where the parameter is inside the fit's range, v_e(x) = d(U_e*delta_d)/dx.", "quantifier": "all velocity profiles, all solutions, all fits with a correct derivative, all such x", "why_tests_cant": "universal over functions", "anchors": ["ibl/thwaites_method.py:v_e", "ibl/thwaites_method.py:delta_d"]}
{"id": "C27", "title": "Nonlinear Thwaites solutions satisfy the momentum integral equation", "statement": "For any exact solution of the nonlinear Thwaites ODE with parameter inside the fit range, d(delta_m)/dx + (2 + shape_d)*(delta_m/W)*dU_e/dx = tau_w/(rho*U_e*W) with W = U_e + 1e-3; it is the von Karman equation with the regularised velocity.", "quantifier": "all velocity profiles, solutions, x", "why_tests_cant": "universal over functions", "anchors": ["ibl/thwaites_method.py:ThwaitesMethodNonlinear", "ibl/thwaites_method.py:tau_w", "ibl/thwaites_method.py:_ode_impl"]}
{"id": "C28", "title": "Thwaites reported quantities are mutually consistent", "statement": "At each point shape_d = delta_d/delta_m, tau_w*delta_m = rho*nu*U_e*shear, delta_k = 0, shape_k = 0 and dissipation = 0.", "quantifier": "all states and points with positive delta_m", "why_tests_cant": "universal over states", "anchors": ["ibl/thwaites_method.py:shape_d", "ibl/thwaites_method.py:tau_w", "ibl/thwaites_method.py:shape_k"]}
{"id": "C29", "title": "Thwaites right-hand side is finite at a stagnation point", "statement": "The ODE right-hand side is defined and finite for every nonnegative edge velocity including zero.", "quantifier": "all states with U_e >= 0", "why_tests_cant": "continuum", "anchors": ["ibl/thwaites_method.py:_ode_impl"]}
{"id": "C30", "title": "initial_delta_m sets where integration starts", "statement": "After initial_delta_m is set to a positive value d, the next solve starts with momentum thickness d; nonpositive values raise ValueError and change nothing.", "quantifier": "all states (all initial conditions), all d", "why_tests_cant": "universal over states", "anchors": ["ibl/thwaites_method.py:initial_delta_m", "ibl/thwaites_method.py:_ode_setup"]}
{"id": "C31", "title": "A custom two-function fit gets an accurate derivative", "statement": "With a 2-tuple of callables as data fit, the derivative of the shape factor used is exact for polynomial shape functions of degree up to 4, and always refers to the fit currently installed.", "quantifier": "all callables, all histories of set_data_fits", "why_tests_cant": "universal over functions and histories", "anchors": ["ibl/thwaites_method.py:set_data_fits"]}
{"id": "C32", "title": "Head entrainment derivative is the derivative", "statement": "_shape_entrainment's derivative function is its derivative at every shape factor above 1.1 other than 1.6, and the two branches differ by less than 1e-15 at 1.6.", "quantifier": "all shape factors", "why_tests_cant": "continuum", "anchors": ["ibl/head_method.py:_shape_entrainment", "ibl/head_method.py:_shape_entrainment_p"]}
{"id": "C33", "title": "Entrainment shape factor and its inverse", "statement": "Computing the entrainment shape factor and inverting gives back the displacement shape factor for every value above 1.1 outside a 1e-14 neighbourhood of 1.6; conversely inversion followed by evaluation is the identity for every entrainment shape factor above its limit value.", "quantifier": "all shape factors", "why_tests_cant": "continuum; the branch choice at the break", "anchors": ["ibl/head_method.py:_shape_entrainment", "ibl/head_method.py:_shape_d"]}
{"id": "C34", "title": "Entrainment velocity is positive and decreasing", "statement": "The entrainment function is positive for all inputs and decreasing on its range.", "quantifier": "all inputs", "why_tests_cant": "continuum", "anchors": ["ibl/head_method.py:_entrainment_velocity"]}
{"id": "C35", "title": "Head's right-hand side satisfies the momentum and entrainment equations", "statement": "For U_e >= 0.001, shape factor above 1.11 and positive momentum thickness, the right-hand side satisfies von Karman's momentum equation and d(U_e delta_m H1)/dx = U_e E along every exact solution.", "quantifier": "all states, all velocity profiles, all solutions", "why_tests_cant": "continuum", "anchors": ["ibl/head_method.py:_ode_impl"]}
{"id": "C36", "title": "Head's transpiration velocity is the growth rate of mass defect", "statement": "For any exact solution of Head's ODE with shape factor above 1.11 and U_e above 0.001, v_e(x) = d(U_e*delta_d)/dx.", "quantifier": "all solutions", "why_tests_cant": "universal over functions", "anchors": ["ibl/head_method.py:v_e"]}
{"id": "C37", "title": "Head right-hand side does not depend on scalar/array calling form", "statement": "The right-hand side gives the same values whether the edge velocity comes back as a scalar or as an array.", "quantifier": "all states", "why_tests_cant": "universal over states; fails for negative U_e", "anchors": ["ibl/head_method.py:_ode_impl"]}
{"id": "C38", "title": "tau_w accepts scalar positions and leaves its input untouched", "statement": "HeadMethod.tau_w(x, rho) works for scalar x, does not modify x, and equals 0.5*rho*U_e^2*c_f.", "quantifier": "all velocity callables and positions", "why_tests_cant": "aliasing depends on the callable", "anchors": ["ibl/head_method.py:tau_w"]}
{"id": "C39", "title": "Head separation event is exactly the critical shape factor", "statement": "The event value is positive, zero or negative exactly when the shape factor is below, at or above the critical value last set.", "quantifier": "all states, all histories of set_shape_d_critical", "why_tests_cant": "histories", "anchors": ["ibl/head_method.py:set_shape_d_critical", "ibl/head_method.py:_HeadSeparationEvent"]}
{"id": "C40", "title": "initial_shape_d and initial_delta_m can be set in any order", "statement": "After setting both, in either order, the integration starts from exactly these values.", "quantifier": "all states, both orders", "why_tests_cant": "universal over values", "anchors": ["ibl/head_method.py:initial_shape_d", "ibl/head_method.py:initial_delta_m"]}
{"id": "C41", "title": "Skin friction is positive", "statement": "For Re > 1 and every shape factor each of the three correlations gives a finite positive coefficient (Ludwieg-Tillman and Felsch for every Re > 0).", "quantifier": "all Re, all shape factors", "why_tests_cant": "continuum", "anchors": ["ibl/skin_friction.py:ludwieg_tillman", "ibl/skin_friction.py:felsch", "ibl/skin_friction.py:white"]}
{"id": "C42", "title": "Skin friction decreases with Reynolds number", "statement": "Each correlation is strictly decreasing in Re on its domain for every fixed shape factor (White: shape factor > -174/31).", "quantifier": "all pairs of Re, all shape factors", "why_tests_cant": "continuum", "anchors": ["ibl/skin_friction.py:ludwieg_tillman", "ibl/skin_friction.py:felsch", "ibl/skin_friction.py:white"]}
{"id": "C43", "title": "Skin friction decreases with shape factor", "statement": "Ludwieg-Tillman is strictly decreasing in shape factor; Felsch is nonincreasing everywhere, strictly on [1, 2.9986313485]; White is strictly decreasing for Re >= 10.", "quantifier": "all pairs of shape factors, all Re", "why_tests_cant": "continuum", "anchors": ["ibl/skin_friction.py:ludwieg_tillman", "ibl/skin_friction.py:felsch", "ibl/skin_friction.py:white"]}
{"id": "C44", "title": "Felsch correlation is total in the shape factor", "statement": "The base of the fractional power in Felsch's correlation is positive for every shape factor, so the result is never NaN, and outside [1, 2.9986313485] it equals the end value.", "quantifier": "all shape factors", "why_tests_cant": "continuum", "anchors": ["ibl/skin_friction.py:felsch"]}
{"id": "C45", "title": "Stagnation condition is the similarity one", "statement": "For nu > 0 and du_e > 0 the stagnation condition gives positive delta_m with delta_m^2*du_e/nu independent of nu and du_e, delta_d = 2.2162 delta_m, delta_k = 1.6257 delta_m; for du_e = 0 it raises ZeroDivisionError; for du_e < 0 it yields NaN.", "quantifier": "all nu, du_e", "why_tests_cant": "continuum", "anchors": ["ibl/initial_condition.py:FalknerSkanStagCondition"]}
{"id": "C46", "title": "Manual conditions report back what was set", "statement": "ManualCondition returns the given thicknesses, shape factors are their ratios to delta_m, and the viscosity and gradient set by solve do not change them.", "quantifier": "all values", "why_tests_cant": "universal", "anchors": ["ibl/initial_condition.py:ManualCondition"]}
{"id": "C47", "title": "Similarity velocities satisfy continuity", "statement": "For any profile function f, du/dx + dv/dy = 0 for the velocities returned by u and v at every x > 0 and y.", "quantifier": "all f, all admissible parameters, all x > 0, all y", "why_tests_cant": "universal over functions and points", "anchors": ["ibl/analytic/_analytic_2d_base.py:u", "ibl/analytic/_analytic_2d_base.py:v", "ibl/analytic/_blasius.py:_g", "ibl/analytic/_falkner_skan.py:_g"]}
{"id": "C48", "title": "Similarity velocities satisfy the boundary layer momentum equation", "statement": "When f satisfies the similarity ODE, u u_x + v u_y = u_e u_e' + nu u_yy at every x > 0 and y >= 0.", "quantifier": "all solutions f, all admissible parameters, all x > 0, all y", "why_tests_cant": "universal over functions and points", "anchors": ["ibl/analytic/_analytic_2d_base.py:u", "ibl/analytic/_analytic_2d_base.py:v", "ibl/analytic/_analytic_2d_base.py:_calculate_solution"]}
{"id": "C49", "title": "Wall conditions and wall shear", "statement": "u and v vanish at the wall and tau_w equals rho*nu*du/dy at the wall when f(0) = f'(0) = 0.", "quantifier": "all x > 0, all parameters", "why_tests_cant": "continuum", "anchors": ["ibl/analytic/_analytic_2d_base.py:u", "ibl/analytic/_analytic_2d_base.py:v", "ibl/analytic/_analytic_2d_base.py:tau_w"]}
{"id": "C50", "title": "Analytic transpiration velocity is the growth rate of mass defect", "statement": "v_e(x) = d(u_e*delta_d)/dx for Blasius and every Falkner-Skan beta in [-0.19884, 2).", "quantifier": "all x > 0, all beta", "why_tests_cant": "continuum", "anchors": ["ibl/analytic/_analytic_2d_base.py:v_e", "ibl/analytic/_analytic_2d_base.py:delta_d"]}
{"id": "C51", "title": "Displacement thickness is its defining integral", "statement": "eta_d equals the integral of 1 - f' over [0, eta_inf] and delta_d(x) equals the integral of 1 - u/u_e over the corresponding y range.", "quantifier": "all profiles with f(0) = 0, all x > 0", "why_tests_cant": "universal over profiles", "anchors": ["ibl/analytic/_analytic_2d_base.py:set_solution_parameters", "ibl/analytic/_analytic_2d_base.py:delta_d"]}
{"id": "C52", "title": "Momentum thickness is its defining integral up to the edge residual", "statement": "eta_m differs from the integral of f'(1 - f') over [0, eta_inf] exactly by an explicit expression in the edge values of f' and f'', which vanishes when f' = 1 and f'' = 0 there.", "quantifier": "all solutions of the similarity ODE with gamma = 1", "why_tests_cant": "universal over profiles", "anchors": ["ibl/analytic/_analytic_2d_base.py:set_solution_parameters"]}
{"id": "C53", "title": "Dissipation is its defining integral up to the edge residual", "statement": "The dissipation reported equals rho*nu times the integral of (du/dy)^2 up to an explicit edge residual vanishing for exact edge conditions.", "quantifier": "all solutions, all parameters", "why_tests_cant": "universal over profiles", "anchors": ["ibl/analytic/_analytic_2d_base.py:dissipation", "ibl/analytic/_analytic_2d_base.py:set_solution_parameters"]}
{"id": "C54", "title": "Shape factors of similarity solutions do not depend on x", "statement": "shape_d(x) and shape_k(x) are the constants eta_d/eta_m and eta_k/eta_m for every x where the transformation is nonzero.", "quantifier": "all x > 0", "why_tests_cant": "continuum", "anchors": ["ibl/analytic/_analytic_2d_base.py:shape_d", "ibl/analytic/_analytic_2d_base.py:shape_k"]}
{"id": "C55", "title": "Falkner-Skan parameters", "statement": "reset_m(m) followed by reading m gives back m for every m >= 0, and infinity for infinity; beta is always within [-0.19884, 2] after any history of successful calls, and m outside the admissible set raises.", "quantifier": "all m, all histories", "why_tests_cant": "continuum and histories", "anchors": ["ibl/analytic/_falkner_skan.py:reset_beta", "ibl/analytic/_falkner_skan.py:reset_m", "ibl/analytic/_falkner_skan.py:m", "ibl/analytic/_falkner_skan.py:beta"]}
{"id": "C56", "title": "A rejected reset leaves the solution unchanged", "statement": "If reset_beta or reset_m raises, the object keeps its earlier parameter and solution.", "quantifier": "all states and arguments", "why_tests_cant": "universal over states", "anchors": ["ibl/analytic/_falkner_skan.py:reset_beta", "ibl/analytic/_analytic_2d_base.py:set_solution_parameters"]}
{"id": "C57", "title": "The shooting iteration terminates and its result satisfies the edge conditions", "statement": "The automatic search for f''(0) and eta_inf always stops, after at most 100*100 integrations per stage, and when it returns, the edge conditions hold within tolerance.", "quantifier": "all initial guesses, all parameters, all integrator behaviours", "why_tests_cant": "universal over solver behaviour", "anchors": ["ibl/analytic/_analytic_2d_base.py:_calculate_solution"]}
{"id": "C58", "title": "XFoil rows are partitioned without loss", "statement": "After loading a dump with at least one nonnegative-velocity row followed by at least one negative-velocity row, the upper surface lists the leading rows in reverse order and the lower surface the remaining rows in order, each preceded by exactly one stagnation point; wake rows are kept in order.", "quantifier": "all dump contents", "why_tests_cant": "universal over files of any length", "anchors": ["ibl/reference/_xfoil_reader.py:filename"]}
{"id": "C59", "title": "XFoil arc lengths start at zero and increase", "statement": "After a successful load of a dump whose arc-length column is nondecreasing, s_upper and s_lower start at 0 and are nondecreasing and nonnegative, and the wake's s starts at 0.", "quantifier": "all dump contents", "why_tests_cant": "universal over files", "anchors": ["ibl/reference/_xfoil_reader.py:filename", "ibl/reference/_xfoil_data.py:XFoilAirfoilData"]}
{"id": "C60", "title": "The stagnation point is the linear interpolation to zero velocity", "statement": "The inserted stagnation point has zero edge velocity and its arc length, coordinates and thicknesses are the linear interpolation between the two neighbouring rows.", "quantifier": "all dump contents", "why_tests_cant": "universal over files; the x coordinate has a sign error", "anchors": ["ibl/reference/_xfoil_reader.py:_interpolate_aifoil_data", "ibl/reference/_xfoil_reader.py:filename"]}
{"id": "C61", "title": "Dumps with an exact zero-velocity row load", "statement": "A dump in which one row has edge velocity exactly zero loads like any other.", "quantifier": "all dump contents", "why_tests_cant": "rare boundary value", "anchors": ["ibl/reference/_xfoil_reader.py:filename"]}
{"id": "C62", "title": "The loaded file name can be read back", "statement": "After filename is set to f, filename returns f.", "quantifier": "all histories", "why_tests_cant": "histories", "anchors": ["ibl/reference/_xfoil_reader.py:filename"]}
{"id": "C63", "title": "Loading replaces everything from the previous file", "statement": "After loading a file, no airfoil or wake accessor returns data of a previously loaded file.", "quantifier": "all histories of loads", "why_tests_cant": "histories", "anchors": ["ibl/reference/_xfoil_reader.py:filename"]}
{"id": "C64", "title": "XFoil edge velocities scale with the reference velocity", "statement": "u_e for upper, lower and wake equals the relative velocity times u_ref, for every point; changing u_ref rescales all and affects nothing else; the u_ref, c and n_trans setters reject exactly the nonpositive values and the reynolds setter exactly the negative ones.", "quantifier": "all files, all u_ref", "why_tests_cant": "universal", "anchors": ["ibl/reference/_xfoil_reader.py:u_e_upper", "ibl/reference/_xfoil_reader.py:u_ref"]}
{"id": "C65", "title": "XFoil row invariants", "statement": "Every stored row has nonnegative s, delta_d, delta_m, c_f and positive shape factors, whatever loads, assignments and row edits were made; airfoil rows of a file violating this raise ValueError.", "quantifier": "all dump contents, all histories of loads, setters and row edits", "why_tests_cant": "universal", "anchors": ["ibl/reference/_xfoil_data.py:XFoilAirfoilData", "ibl/reference/_xfoil_data.py:XFoilWakeData"]}
{"id": "C66", "title": "Stanford unit conversion", "statement": "A US-unit row is converted from ft, in and ft^2/s, an SI row from m, cm and cm^2/s, consistently: a station built from either shows the described values in metres and seconds, dimensionless columns are unchanged, and a US row and its rewriting in SI units give the same station or the same exception.", "quantifier": "all rows, all numbers including inf and nan, any number of profile rows", "why_tests_cant": "universal over data", "anchors": ["ibl/reference/_stanford_1968_station.py:_reset_summary_data", "ibl/reference/_stanford_1968_station.py:_reset_station_data"]}
{"id": "C67", "title": "Stanford derived quantities", "statement": "delta_d = shape_d*delta_m, delta_k = shape_k*delta_m and u_star = u_e*sqrt(c_f/2) for every loaded station.", "quantifier": "all rows, with and without a station line", "why_tests_cant": "universal over data", "anchors": ["ibl/reference/_stanford_1968_station.py:_reset_summary_data"]}
{"id": "C68", "title": "Stanford stations keep file order and are paired correctly", "statement": "After a load the i-th station combines the i-th summary row, the i-th station summary and the i-th profile block, and there are as many stations as the shortest of these.", "quantifier": "all files", "why_tests_cant": "universal over files", "anchors": ["ibl/reference/_stanford_1968.py:case"]}
{"id": "C69", "title": "Stanford file chunking", "statement": "For every file made of a one-line header section followed by two-line header sections, the reader returns each section's data rows in order and nothing else.", "quantifier": "all files", "why_tests_cant": "universal over files of any length", "anchors": ["ibl/reference/_stanford_1968.py:_get_case_data"]}
{"id": "C70", "title": "Skin friction correlations are the published formulas", "statement": "On their domains the three correlations compute c_f = 0.246*10^(-0.678 H)*Re^(-0.268) (Ludwieg-Tillman), 0.058*Re^(-0.268)*(0.93 - 1.95 log10 H)^1.705 (Felsch, 1 <= H <= 2.9986313485) and 0.3*exp(-1.33 H)*(log10 Re)^(-(1.74 + 0.31 H)) (White).", "quantifier": "all Re and shape factors in the domains", "why_tests_cant": "A test compares finitely many rounded values; the identity of two formulas is a statement about all inputs.", "anchors": ["ibl/skin_friction.py: ludwieg_tillman, felsch, white"]}
{"id": "C71", "title": "Rejected data fits leave the method unchanged", "statement": "If set_data_fits raises, it raises ValueError and the fit in force, the events and everything else keep their values.", "quantifier": "all states and all arguments", "why_tests_cant": "Needs every kind of argument and every prior state.", "anchors": ["ibl/thwaites_method.py: ThwaitesMethod.set_data_fits"]}
{"id": "C72", "title": "Separation is judged with the fit in force", "statement": "In every state the first event of a Thwaites method evaluates the wall shear of the data fit that is currently installed, never of an earlier one.", "quantifier": "all histories of API calls", "why_tests_cant": "A stale event would only show up for particular sequences of set_data_fits and solve.", "anchors": ["ibl/thwaites_method.py: ThwaitesMethod.set_data_fits, _ThwaitesSeparationEvent"]}
{"id": "C73", "title": "Velocity in the constructor is set_velocity", "statement": "Constructing a method with a velocity gives exactly the object obtained by constructing it without one and calling set_velocity, and fails exactly when one of these two steps fails.", "quantifier": "all constructor arguments", "why_tests_cant": "Equality of all observable state for all arguments.", "anchors": ["ibl/ibl_method.py: IBLMethod.__init__, set_velocity"]}
{"id": "C74", "title": "A solve that raises keeps the previous solution", "statement": "If solve raises, the solution of the previous successful solve (if any) is still the one reported.", "quantifier": "all states, all exceptions", "why_tests_cant": "Depends on where in solve the exception is raised.", "anchors": ["ibl/ibl_method.py: IBLMethod.solve"]}
{"id": "C75", "title": "Solutions that start positive stay positive", "statement": "An exact solution of any method's ODE whose momentum thickness is positive at the start has positive momentum thickness at every later point, so delta_m never becomes zero or nan along the solution.", "quantifier": "all velocity profiles with U_e > -0.001 (Thwaites), all fits with positive shear at zero parameter, all exact solutions", "why_tests_cant": "a statement about every solution of an ODE family on every interval", "anchors": ["ibl/thwaites_method.py:_ode_impl", "ibl/head_method.py:_ode_impl"]}
{"id": "C76", "title": "Head's v_e acts element by element and leaves its input untouched", "statement": "HeadMethod.v_e on an array of positions gives element by element what it gives for each position alone, and does not modify the array.", "quantifier": "all velocity callables, all position arrays", "why_tests_cant": "depends on aliasing between the caller's array and what an arbitrary callable returns", "anchors": ["ibl/head_method.py:HeadMethod.v_e", "ibl/head_method.py:HeadMethod._ode_impl"]}
{"id": "C77", "title": "Kinetic energy thickness is its defining integral up to the edge residual", "statement": "eta_k equals the integral of f'(1 - f'^2) over [0, eta_inf] minus f(eta_inf)(1 - f'(eta_inf)^2), so it is the defining integral exactly when f' = 1 at the edge.", "quantifier": "all solutions of the similarity ODE", "why_tests_cant": "universal over profiles", "anchors": ["ibl/analytic/_analytic_2d_base.py:set_solution_parameters", "ibl/analytic/_analytic_2d_base.py:eta_k"]}
{"id": "C78", "title": "Shear thickness is where the velocity reaches 99 percent", "statement": "u(x, delta_s(x)) = 0.99 u_e(x) for every x > 0, and delta_s(x) lies between the wall and the edge.", "quantifier": "all profiles, all x > 0", "why_tests_cant": "continuum and universal over profiles", "anchors": ["ibl/analytic/_analytic_2d_base.py:set_solution_parameters", "ibl/analytic/_analytic_2d_base.py:delta_s", "ibl/analytic/_analytic_2d_base.py:u"]}
{"id": "C79", "title": "Well-formed XFoil dumps load", "statement": "A dump whose rows are finite, with nonnegative thicknesses, positive shape factors, nondecreasing arc length and an upper side (velocity >= 0, last one > 0) followed by a lower side (first velocity < 0), and whose wake rows are of the same kind, loads without an exception.", "quantifier": "all such files of any length", "why_tests_cant": "universal over files", "anchors": ["ibl/reference/_xfoil_reader.py:filename", "ibl/reference/_xfoil_data.py:XFoilAirfoilData", "ibl/reference/_xfoil_data.py:XFoilWakeData"]}
{"id": "C80", "title": "One-sided XFoil dumps are rejected", "statement": "A dump without a nonnegative-velocity first row, or without any negative-velocity row, raises an exception instead of giving a half-filled airfoil.", "quantifier": "all such files of any length", "why_tests_cant": "universal over files", "anchors": ["ibl/reference/_xfoil_reader.py:filename"]}
{"id": "C81", "title": "Editing one XFoil row leaves the others alone", "statement": "After a load, assigning an attribute of the row returned by upper(i) (or lower(i)) changes that row of that side only; in particular the stagnation points of the two sides are separate objects.", "quantifier": "all dump contents, all rows, all attributes", "why_tests_cant": "aliasing over all files", "anchors": ["ibl/reference/_xfoil_reader.py:upper", "ibl/reference/_xfoil_reader.py:lower", "ibl/reference/_xfoil_reader.py:filename"]}
{"id": "C82", "title": "Profile samples agree with their station", "statement": "In a loaded station every profile sample satisfies |y+ - y u*/nu| <= 1, |y/Delta column - y/delta_c| <= 1/2, |u+ - u/u*| <= 1/2 and |defect - (u_e-u)/u*| <= 1/2, and there is one sample per profile row.", "quantifier": "all loaded stations with finite data, profiles of any length", "why_tests_cant": "universal over data", "anchors": ["ibl/reference/_stanford_1968_station.py:_reset_station_data"]}
{"id": "C83", "title": "Resetting a station is like making a new one", "statement": "reset() on a station that has been used before (even by a failed reset) succeeds or raises exactly as the constructor does on the same rows, and on success leaves every attribute as in a new station.", "quantifier": "all histories, all rows", "why_tests_cant": "history dependent", "anchors": ["ibl/reference/_stanford_1968_station.py:reset"]}
{"id": "C84", "title": "Changing the case is like making a new object", "statement": "Assigning case on an object with any history gives the same outcome, the same nu_ref, smoothed velocities and stations as on a new object; no data of the previous case survives; assigning '' empties the object.", "quantifier": "all histories, all file contents", "why_tests_cant": "history dependent", "anchors": ["ibl/reference/_stanford_1968.py:case"]}
{"id": "C85", "title": "A failed case change leaves a consistent object", "statement": "If assigning case raises, the object either still is the previous case (name and data) or is empty with an empty name.", "quantifier": "all histories, all file contents", "why_tests_cant": "crash points over all files", "anchors": ["ibl/reference/_stanford_1968.py:case"]}
{"id": "C86", "title": "Station quantities stay positive", "statement": "u_e, delta_m, delta_d, delta_k, delta_c, shape_d, shape_k, shape_eq, u_star, nu, re_delta_m and re_delta_d of a station are positive, +inf or nan after any sequence of assignments and resets, including failed ones.", "quantifier": "all operation histories", "why_tests_cant": "history dependent", "anchors": ["ibl/reference/_stanford_1968_station.py:StanfordOlympics1968StationData"]}
{"id": "C87", "title": "Profile samples are not negative", "statement": "No array y, y_plus, y_c, u, u_plus, u_defect of a loaded station holds a negative entry (as their setters enforce).", "quantifier": "all loaded stations", "why_tests_cant": "universal over data", "anchors": ["ibl/reference/_stanford_1968_station.py:_reset_station_data"]}
{"id": "C88", "title": "Malformed Stanford data are rejected", "statement": "A row without exactly 11 / 13 / 6 / 3 numbers (summary, station, profile, smoothed velocity), a missing case file, and a file whose identifier line has another key or names another case raise an exception.", "quantifier": "all texts", "why_tests_cant": "universal over files", "anchors": ["ibl/reference/_stanford_1968_station.py:_reset_summary_data", "ibl/reference/_stanford_1968_station.py:_reset_station_summary", "ibl/reference/_stanford_1968_station.py:_reset_station_data", "ibl/reference/_stanford_1968_station.py:StanfordOlympics1968SmoothVel", "ibl/reference/_stanford_1968.py:case"]}
{"id": "C89", "title": "Well-formed cases load", "statement": "A file in the documented layout whose identifier matches and whose rows each make a valid station loads, giving that case name, viscosity in m^2/s, smoothed velocities and stations; a station's rows are valid exactly when the quantities are positive and the two tables and the profile agree within the stated tolerances.", "quantifier": "all such files of any length", "why_tests_cant": "universal over files", "anchors": ["ibl/reference/_stanford_1968.py:case", "ibl/reference/_stanford_1968_station.py:reset"]}
{"id": "C90", "title": "The built-in data fits are the published ones", "statement": "Within its range each built-in Thwaites data fit returns the published function: White's power law and quintic, Cebeci and Bradshaw's two-branch formulas, Drela's formulas, and for the default fit Thwaites' 27 tabulated triples exactly.", "quantifier": "all gradient parameters in range, all table rows", "why_tests_cant": "universal over real parameters; sampled comparisons cannot exclude a wrong coefficient that matters elsewhere", "anchors": ["ibl/thwaites_method.py:_ThwaitesFunctionsWhite", "ibl/thwaites_method.py:_ThwaitesFunctionsCebeciBradshaw", "ibl/thwaites_method.py:_ThwaitesFunctionsDrela", "ibl/thwaites_method.py:_ThwaitesFunctionsSpline"]}
{"id": "C91", "title": "The default data fit is monotone and sign-definite", "statement": "With the default (Spline) data fit the shear function is finite, between 0 and 0.5, zero exactly for parameters at or below -0.09 and strictly increasing up to 0.25; the shape factor is finite, between 2.00 and 3.55 and strictly decreasing on the table's range; its reported derivative is negative and is the derivative of the shape factor.", "quantifier": "all real gradient parameters", "why_tests_cant": "a cubic spline may oscillate between table points; only a proof over all parameters excludes it", "anchors": ["ibl/thwaites_method.py:_ThwaitesFunctionsSpline", "ibl/thwaites_method.py:_ThwaitesFunctions"]}
{"id": "C92", "title": "A velocity given by points is the PCHIP curve through them", "statement": "set_velocity((x_pts, u_pts)) either refuses with ValueError and leaves the object unchanged (fewer than two points, different lengths, abscissas not strictly increasing) or makes u_e a function that takes the given values at the given points, is monotone between neighbouring points and so stays within the range of the data; du_e is its derivative everywhere and d2u_e the derivative of du_e away from the points. The same holds for du_e when the gradient is given by points, and u_e is then its antiderivative with the given value at the first point.", "quantifier": "all point lists and all locations", "why_tests_cant": "a cubic interpolant can overshoot between points for some data; finitely many data sets cannot exclude it", "anchors": ["ibl/ibl_method.py:IBLMethod.set_velocity"]}
{"id": "C93", "title": "Solving is repeatable", "statement": "Calling solve after any number of earlier solves (without extra events) gives the same outcome as calling it first, and when it returns a result it leaves the object in the same state.", "quantifier": "all reachable configurations, all sequences of earlier solves, all integrators", "why_tests_cant": "universal over call histories", "anchors": ["ibl/ibl_method.py:IBLMethod.solve"]}
{"id": "C94", "title": "The order of configuration calls does not matter", "statement": "Two sequences of configuration calls that make the same calls about the viscosity, about the velocity, about the initial condition and about the separation model, each in the same order, leave the object in the same state, and each call has the same outcome in both.", "quantifier": "all pairs of interleavings of any length", "why_tests_cant": "there are factorially many interleavings", "anchors": ["ibl/ibl_method.py:IBLMethod", "ibl/thwaites_method.py:ThwaitesMethod", "ibl/head_method.py:HeadMethod"]}
{"id": "C95", "title": "Thwaites' solution scales with the square root of viscosity", "statement": "Changing nu from nu1 to nu2 in a Thwaites method (with the stagnation condition, or with the initial momentum thickness multiplied by k = sqrt(nu2/nu1)) leaves the outcome of solve and the shape factor unchanged and multiplies delta_m, delta_d, tau_w and v_e by k at every location.", "quantifier": "all positive viscosities, velocities, data fits, integrators and locations", "why_tests_cant": "universal over real parameters and over integrators", "anchors": ["ibl/thwaites_method.py:ThwaitesMethod", "ibl/ibl_method.py:IBLMethod.solve", "ibl/initial_condition.py:FalknerSkanStagCondition"]}
{"id": "C96", "title": "Methods given the same initial condition object are independent", "statement": "When one initial condition object is passed to several methods, each method returns, raises and stores what it would if it were the only one.", "quantifier": "all programs that interleave calls on several methods", "why_tests_cant": "universal over interleavings of calls on aliased objects", "anchors": ["ibl/ibl_method.py:IBLMethod.set_initial_condition", "ibl/ibl_method.py:IBLMethod.solve"]}
{"id": "C97", "title": "The reported separation location is the first point of zero wall shear", "statement": "When a Thwaites solve reports SEPARATED at x_end, the wall shear stress is zero at x_end and positive before it.", "quantifier": "all velocities, data fits and integrators that report roots of the event function", "why_tests_cant": "universal over velocities; where a solution separates is not known in advance", "anchors": ["ibl/thwaites_method.py:_ThwaitesSeparationEvent", "ibl/ibl_method.py:IBLMethod.solve"]}
{"id": "C98", "title": "The velocity offset of the linear Thwaites method has a bounded effect", "statement": "ThwaitesMethodLinear adds 0.001 to U_e before dividing by it. When U_e >= lo > 0 on the solved interval, the momentum thickness reported at its end differs from Thwaites' quadrature (without offset) by at most the factor (1 + 0.001/lo)^3.", "quantifier": "all differentiable edge velocities bounded below, all intervals, viscosities and initial thicknesses", "why_tests_cant": "universal over velocity functions and intervals; tests only see chosen flows at chosen tolerances", "anchors": ["ibl/thwaites_method.py:ThwaitesMethodLinear", "ibl/thwaites_method.py:ThwaitesMethod._ode_impl"]}
{"id": "C99", "title": "An error in the initial momentum thickness decays with the sixth power of the velocity ratio", "statement": "Two solutions of the linear Thwaites method for the same flow that start with different delta_m^2/nu at a differ at b by the initial difference times ((U_e(a)+0.001)/(U_e(b)+0.001))^6.", "quantifier": "all differentiable edge velocities with U_e + 0.001 > 0 and all pairs of initial thicknesses, upstream and downstream", "why_tests_cant": "universal over velocity functions and initial data", "anchors": ["ibl/thwaites_method.py:ThwaitesMethodLinear", "ibl/ibl_method.py:IBLMethod.solve"]}
{"id": "C100", "title": "Results do not depend on the units", "statement": "Converting lengths and times (say metres to millimetres) of velocity, viscosity, initial condition and positions converts every result: delta_m and delta_d scale like lengths, shape_d is unchanged, v_e scales like a velocity.", "quantifier": "all flows, all positive conversion factors, all methods", "why_tests_cant": "universal over flows and conversion factors", "anchors": ["ibl/thwaites_method.py:ThwaitesMethod._ode_impl", "ibl/head_method.py:HeadMethod._ode_impl"]}
{"id": "C101", "title": "Asking a Thwaites method for many positions gives the values of asking one by one", "statement": "delta_m, delta_d, shape_d, tau_w and v_e called with an array of positions return the array of the values returned for each position alone.", "quantifier": "all solved Thwaites objects, data fits and non-empty arrays of positions", "why_tests_cant": "universal over solved objects and array contents; depends on how elements of one array interact", "anchors": ["ibl/thwaites_method.py:ThwaitesMethod", "ibl/thwaites_method.py:_ThwaitesFunctions._check_range"]}
{"id": "C102", "title": "The kinetic energy thickness and dissipation describe the boundary layer", "statement": "Wherever the momentum thickness is positive, delta_k, shape_k and dissipation are positive, as their defining integrals are.", "quantifier": "all solved objects of all methods and all positions", "why_tests_cant": "universal over solved objects", "anchors": ["ibl/thwaites_method.py:ThwaitesMethod.delta_k", "ibl/head_method.py:HeadMethod.delta_k"]}
{"id": "C103", "title": "Given similarity parameters are used as given", "statement": "When eta_inf or fw_pp is passed to Blasius, FalknerSkan or set_solution_parameters and the call succeeds, the profile is the integrator's solution of the Falkner-Skan equation started at (0, 0, fw_pp) and run to eta_inf with exactly those values; Blasius() without parameters uses the tabulated pair.", "quantifier": "all parameters, all integrators, quadratures and root finders", "why_tests_cant": "universal over parameters and integrator behaviour", "anchors": ["ibl/analytic/_analytic_2d_base.py:set_solution_parameters", "ibl/analytic/_analytic_2d_base.py:_calculate_solution", "ibl/analytic/_blasius.py:Blasius"]}
{"id": "C104", "title": "The parameter search is the secant method", "statement": "Every trial of the search is a completed integration from the wall; with one parameter given, each trial after the second is the secant step for the edge condition (f' = 1 for fw_pp, f'' = 0 for eta_inf), so an edge value depending affinely on the unknown is solved in at most three integrations.", "quantifier": "all integrators, all wedge parameters, all given values", "why_tests_cant": "universal over integrator behaviour and every step of the search", "anchors": ["ibl/analytic/_analytic_2d_base.py:_calculate_solution"]}
{"id": "C105", "title": "A failed final integration leaves no profile", "statement": "When the final integration of set_solution_parameters is reported unsuccessful, ValueError is raised and f, f_p and f_pp raise ValueError from then on, whatever profile the object held before.", "quantifier": "all objects, parameters and integrators", "why_tests_cant": "failure point inside a call, for any object state", "anchors": ["ibl/analytic/_analytic_2d_base.py:_calculate_solution", "ibl/analytic/_analytic_2d_base.py:f"]}
{"id": "C106", "title": "XFoil column queries return their own column", "statement": "After loading a dump, each per-side query (s, x, y, delta_d, delta_m, delta_k, shape_d, shape_k, c_f, mass, momentum and kinetic energy defect) returns the stagnation value followed by that column of the rows of that side (mass and kinetic energy defect with the sign changed on the lower side, delta_k as shape_k * delta_m), and each wake query the column of the wake rows.", "quantifier": "all dump contents", "why_tests_cant": "universal over files of any length and over all queries", "anchors": ["ibl/reference/_xfoil_reader.py:XFoilReader"]}
{"id": "C107", "title": "The default Blasius parameters give the Blasius boundary layer", "statement": "A Blasius object built without solution parameters, with an exact integration, quadrature and root search, has f' within 1e-8 of 1 and f'' below 1e-8 at the edge, and for every x its thicknesses, shape factors, transpiration velocity, wall shear stress and dissipation are the textbook coefficients (1.72079, 0.66411, 1.04438, 4.91, 2.59110, 1.57258, 0.86039, 0.33206, 0.26109) times the powers of the Reynolds number. There is exactly one wall value f''(0) for which f' tends to 1 at infinity, and the default is within 1e-9 of it.", "quantifier": "all reference velocities, viscosities, densities and positions x > 0; all wall values", "why_tests_cant": "a test compares with the same numerical solution; the claim is about the exact solution of the differential equation, for every x", "anchors": ["ibl/analytic/_blasius.py:Blasius.__init__", "ibl/analytic/_analytic_2d_base.py:set_solution_parameters"]}
{"id": "C108", "title": "Finite-difference derivatives are accurate in floating point", "statement": "When the edge velocity is a callable without derivatives, the first and second derivatives the method reports, computed in double precision, are finite numbers within a stated distance of the true derivatives: a truncation term K*1e-16/17 (or /53) plus a rounding term proportional to the error of the callable, the slope times the spacing of floats at x and, for the second derivative, the size of the velocity times 1e8. The same holds, with step 1e-5, for the derivative of a given first derivative and of a given shape function.", "quantifier": "all velocity callables that compute a smooth function up to an error, all double-precision positions up to 2^900", "why_tests_cant": "the bound must cover every function, position and rounding pattern", "anchors": ["ibl/ibl_method.py:IBLMethod.set_velocity", "ibl/thwaites_method.py:ThwaitesMethod.set_data_fits"]}
{"id": "C109", "title": "The derivatives of a constant velocity are zero", "statement": "When the edge velocity callable returns the same finite number everywhere, the first and second derivative reported by the method are exactly zero in double precision.", "quantifier": "all finite constants, all positions", "why_tests_cant": "tests with constants such as 1 or 10 happen to be exact; the claim is for all constants", "anchors": ["ibl/ibl_method.py:IBLMethod.set_velocity"]}
{"id": "C110", "title": "A shape factor that was set is read back in floating point", "statement": "After setting the initial displacement shape factor of Head's method, reading it returns the number that was set.", "quantifier": "all positive double-precision shape factors and momentum thicknesses", "why_tests_cant": "whether the product and quotient round back depends on both numbers", "anchors": ["ibl/head_method.py:HeadMethod.initial_shape_d", "ibl/initial_condition.py:ManualCondition.shape_d"]}
{"id": "C111", "title": "The nonlinear Thwaites problem has exactly one solution", "statement": "For the nonlinear Thwaites method with the default spline, the Cebeci-Bradshaw or the Drela fit, a differentiable edge velocity with a continuous derivative, larger than -0.001, and a positive initial momentum thickness, the initial value problem handed to the integrator has exactly one solution on the whole interval, and it stays positive.", "quantifier": "all such velocities, intervals and initial values", "why_tests_cant": "existence and uniqueness are statements about all functions, not about computed samples; the fits are only piecewise smooth", "anchors": ["ibl/thwaites_method.py:ThwaitesMethodNonlinear._calc_f", "ibl/thwaites_method.py:ThwaitesMethod._ode_impl"]}
{"id": "C112", "title": "The nonlinear Thwaites problem with White's fit has exactly one solution", "statement": "With White's fit the initial value problem has exactly one solution on the whole interval for every positive initial momentum thickness and every smooth positive edge velocity.", "quantifier": "all smooth positive velocities, intervals and initial values", "why_tests_cant": "a solution that grows without bound before the end of the interval appears to a test as an integrator failure for particular data", "anchors": ["ibl/thwaites_method.py:_ThwaitesFunctionsWhite", "ibl/thwaites_method.py:ThwaitesMethodNonlinear._calc_f"]}
{"id": "C113", "title": "The error of the momentum thickness is bounded by the residual of the stored solution", "statement": "If the stored solution satisfies the Thwaites equation up to a residual rho at every point, then the square of the reported momentum thickness differs from the exact one by at most an explicit multiple of the initial error and rho times the length.", "quantifier": "all stored solutions, residuals, velocities and intervals, linear and nonlinear method with the default fit", "why_tests_cant": "the exact solution is not available to a test in general", "anchors": ["ibl/thwaites_method.py:ThwaitesMethod._ode_impl", "ibl/thwaites_method.py:ThwaitesMethod.delta_m"]}
{"id": "C114", "title": "On a flat plate Thwaites' method agrees with the Blasius solution", "statement": "With constant edge velocity and a boundary layer starting at the leading edge, the momentum and displacement thickness, the shape factor and the wall shear stress reported by Thwaites' method agree with those of the Blasius solution object within two percent, for every built-in fit.", "quantifier": "all constant velocities, viscosities, positions, built-in fits, linear and nonlinear", "why_tests_cant": "the comparison must hold for all speeds, and the offset 0.001 in the denominator matters at small ones", "anchors": ["ibl/thwaites_method.py:ThwaitesMethod", "ibl/analytic/_blasius.py:Blasius"]}
{"id": "C115", "title": "Accelerating flow is not reported as separated", "statement": "If the edge velocity does not decrease, solve does not report separation: for Thwaites' method with the White, Cebeci-Bradshaw and default fits (and Drela's while the gradient parameter stays below 0.6), where the wall shear stress stays positive, and for Head's method when the critical shape factor is at least 2 and the momentum thickness Reynolds number at least 1.", "quantifier": "all non-decreasing velocities, intervals, initial conditions, integrators that keep their contract", "why_tests_cant": "the claim is about all velocity functions and all positions of an exact solution", "anchors": ["ibl/thwaites_method.py:_ThwaitesSeparationEvent", "ibl/head_method.py:_HeadSeparationEvent", "ibl/ibl_method.py:IBLMethod.solve"]}
{"id": "C116", "title": "Head's initial value problem has exactly one solution", "statement": "For a smooth edge velocity of at least 0.001 and every positive initial momentum thickness and shape factor, Head's equations have exactly one solution starting there.", "quantifier": "all smooth velocities and initial values", "why_tests_cant": "existence and uniqueness are statements about all functions; a kink of the right-hand side at one shape factor is invisible in computed samples", "anchors": ["ibl/head_method.py:HeadMethod._ode_impl", "ibl/head_method.py:_shape_entrainment_p"]}
{"id": "C117", "title": "The linear and nonlinear Thwaites methods agree", "statement": "Run with the same velocity, viscosity and initial momentum thickness, the nonlinear method's momentum thickness lies between 1.4% below and 5.7% above the linear method's at every position up to which the gradient parameter stays in the default fit's table, and between 1.4% below and 4% above for each other built-in fit while the parameter stays between -0.09 and 0.1.", "quantifier": "all velocities, viscosities, intervals, initial values and the four built-in fits", "why_tests_cant": "the claim is about exact solutions of two differential equations for every velocity function", "anchors": ["ibl/thwaites_method.py:ThwaitesMethodLinear", "ibl/thwaites_method.py:ThwaitesMethodNonlinear"]}
{"id": "C118", "title": "Only the flow in the interval matters", "statement": "The result of solve over [a, b], and every quantity reported at a position in [a, b] afterwards, depend on the edge velocity in [a, b] only: two velocities that agree there give the same result and the same reports.", "quantifier": "all velocity functions that agree on the interval, all intervals, stopping conditions and prior states of the method object", "why_tests_cant": "the claim compares every pair of functions that agree on an interval", "anchors": ["ibl/ibl_method.py:IBLMethod.solve", "ibl/ibl_method.py:IBLMethod.set_velocity"]}
{"id": "C119", "title": "The origin of the coordinate is immaterial", "statement": "A program that constructs a method, makes any sequence of calls and reads results has the same outcomes and reads the same values when its velocity (callable or point data), stopping conditions and interval are all moved along the axis by the same distance; end points of results move with it.", "quantifier": "all shifts, constructor arguments and sequences of calls, for both Thwaites methods and Head's method", "why_tests_cant": "every call history and every shift", "anchors": ["ibl/ibl_method.py:IBLMethod.solve", "ibl/ibl_method.py:IBLMethod.set_velocity", "ibl/head_method.py:HeadMethod", "ibl/thwaites_method.py:ThwaitesMethodLinear", "ibl/thwaites_method.py:ThwaitesMethodNonlinear"]}
{"id": "C120", "title": "A calculation can be continued", "statement": "With a manual initial condition (the one every constructor installs), reading momentum thickness (and for Head's method the shape factor) at an interior position, assigning them as initial values and solving again from there to the same end gives the values the original calculation gave, when both integrations are exact (and, for Head's method, stay away from the shape factor 1.6, where solutions are not unique).", "quantifier": "all velocities, viscosities, intervals, interior positions and built-in fits", "why_tests_cant": "exact solutions of differential equations for every velocity function", "anchors": ["ibl/ibl_method.py:IBLMethod.solve", "ibl/ibl_method.py:IBLMethod.set_velocity", "ibl/thwaites_method.py:ThwaitesMethodLinear", "ibl/thwaites_method.py:ThwaitesMethodNonlinear", "ibl/head_method.py:HeadMethod"]}
{"id": "C121", "title": "A thicker start stays thicker", "statement": "Of two calculations with the same Thwaites method and flow, the one that starts with the larger momentum thickness reports the larger one at every position downstream.", "quantifier": "all velocities, viscosities, intervals, pairs of initial values and built-in fits", "why_tests_cant": "exact solutions of differential equations for every velocity function", "anchors": ["ibl/thwaites_method.py:ThwaitesMethodLinear", "ibl/thwaites_method.py:ThwaitesMethodNonlinear"]}
{"id": "C122", "title": "Growth of the momentum thickness", "statement": "The momentum thickness grows downstream wherever the flow is uniform or decelerates (Thwaites' methods: while the gradient parameter is at least -0.09, and up to 0.07 in accelerating flow; Head's method: with shape factors of at least 1.11); with Thwaites' methods it shrinks where the gradient parameter is between 0.084 and 0.1.", "quantifier": "all velocities, viscosities, intervals, initial values and built-in fits", "why_tests_cant": "exact solutions of differential equations for every velocity function", "anchors": ["ibl/thwaites_method.py:ThwaitesMethodLinear", "ibl/thwaites_method.py:ThwaitesMethodNonlinear", "ibl/head_method.py:HeadMethod"]}
{"id": "C123", "title": "The error of Head's results is bounded by the residual of the stored solution", "statement": "For a velocity, an interval and a range of momentum thicknesses and shape factors on one side of 1.6 there is a constant such that the momentum thickness and shape factor reported by Head's method differ from the exact solution by at most that constant times the sum of the initial error and the residual of the stored solution.", "quantifier": "all velocities with continuous gradient and at least 1e-3, intervals, ranges, method objects, exact and approximate solutions in the range, residuals and positions", "why_tests_cant": "exact solutions of differential equations for every velocity function", "anchors": ["ibl/ibl_method.py:IBLMethod.solve", "ibl/head_method.py:HeadMethod"]}
{"id": "C124", "title": "An error of the velocity has a bounded effect", "statement": "If one edge velocity is everywhere between lo and hi times another (lo at most 1, hi at least 1), the momentum thicknesses that the linear Thwaites method reports for the two, from the same start, differ at most by the factor (hi/lo)^3. For the nonlinear method the difference is bounded by a stated multiple of the errors of the velocity and of its gradient, and for Head's method (momentum thickness and shape factor, on one side of the shape factor 1.6) by a multiple that depends on the flow and the range of solutions only.", "quantifier": "all pairs of velocities, factors, intervals, viscosities and initial values", "why_tests_cant": "exact solutions of differential equations for every pair of velocity functions", "anchors": ["ibl/ibl_method.py:IBLMethod.solve", "ibl/thwaites_method.py:ThwaitesMethodLinear", "ibl/thwaites_method.py:ThwaitesMethodNonlinear"]}
{"id": "C125", "title": "Rounding does not spoil the arc lengths of a loaded dump", "statement": "An XFoil dump whose arc lengths never decrease and whose velocity changes sign once, read with the rounding of floating point, loads; the arc lengths of each surface and of the wake start at exactly zero, never decrease and differ from the exact ones by rounding only.", "quantifier": "all files with non-decreasing arc lengths, any number of rows, all doubles of moderate size", "why_tests_cant": "the rounding errors of every combination of doubles", "anchors": ["ibl/reference/_xfoil_reader.py:XFoilReader", "ibl/reference/_xfoil_reader.py:_interpolate_aifoil_data", "ibl/reference/_xfoil_data.py:XFoilAirfoilData"]}
{"id": "C126", "title": "A velocity given by samples is close to the sampled velocity", "statement": "When set_velocity is given points that are samples of a velocity U, neighbours at most h apart, then between the first and the last point u_e is within L h of U if U changes at rate L at most; if the gradient of U changes at rate M at most, u_e is within 5 M h^2 of U and du_e within 5 M h of the gradient of U. The reported gradient is continuous and is the derivative of the reported velocity.", "quantifier": "all velocities, all numbers and spacings of the points, all positions between the first and the last", "why_tests_cant": "every function and every set of sample points", "anchors": ["ibl/ibl_method.py:IBLMethod.set_velocity", "ibl/ibl_method.py:IBLMethod.u_e", "ibl/ibl_method.py:IBLMethod.du_e"]}
{"id": "C127", "title": "Results from a sampled velocity converge to those of the velocity", "statement": "If an object is given samples of a velocity U and another one U itself, with the same viscosity and start, then the linear Thwaites momentum thicknesses differ at most by the factor ((1+r)/(1-r))^3, where r is the error bound of the sampling (C126) over the least velocity; for the nonlinear method with the default fit and for Head's method (on one side of the shape factor 1.6) the differences are at most a constant times the distance h of the samples, the same constant for all samplings.", "quantifier": "all velocities, samplings, intervals, viscosities and initial values", "why_tests_cant": "exact solutions of differential equations for every velocity and every set of sample points", "anchors": ["ibl/ibl_method.py:IBLMethod.set_velocity", "ibl/ibl_method.py:IBLMethod.solve", "ibl/thwaites_method.py:ThwaitesMethodLinear._ode_impl", "ibl/thwaites_method.py:ThwaitesMethodNonlinear._ode_impl", "ibl/head_method.py:HeadMethod._ode_impl"]}
{"id": "C128", "title": "An exception raised by a user's function is passed on", "statement": "When a velocity function, a derivative function or an event of the user raises an exception while solve or a query runs, no further user code is run, the call raises that exception, the settings of the object are unchanged, and after solve the previous solution is still there.", "quantifier": "all user functions (raising, returning nan, changing state), all integrators, all method objects, intervals and positions", "why_tests_cant": "arbitrary user code and arbitrary orders of evaluation", "anchors": ["ibl/ibl_method.py:IBLMethod.set_velocity", "ibl/ibl_method.py:IBLMethod.solve", "ibl/ibl_method.py:IBLMethod.u_e", "ibl/ibl_method.py:IBLMethod.du_e", "ibl/ibl_method.py:IBLMethod.d2u_e", "ibl/thwaites_method.py:ThwaitesMethod._ode_impl", "ibl/head_method.py:HeadMethod._ode_impl"]}
{"id": "C129", "title": "The user's functions are called only where the flow is asked for", "statement": "solve(x0, x_end) calls the functions the user gave only at positions in [x0, x_end], a query only at the position asked for, and set_velocity calls none of them.", "quantifier": "all user functions, all integrators that look at the interval only, all objects, intervals and positions", "why_tests_cant": "every sequence of calls an adaptive integrator can make", "anchors": ["ibl/ibl_method.py:IBLMethod.set_velocity", "ibl/ibl_method.py:IBLMethod.solve", "ibl/ibl_method.py:IBLMethod.u_e", "ibl/ibl_method.py:IBLMethod.du_e", "ibl/ibl_method.py:IBLMethod.d2u_e", "ibl/thwaites_method.py:ThwaitesMethod._ode_impl", "ibl/head_method.py:HeadMethod._ode_impl"]}
{"id": "C130", "title": "Hidden state of a velocity function does not matter", "statement": "A velocity function with internal state (a cache, a counter) that returns the same values as a function without state gives the same results in set_velocity, solve and all queries, and still returns those values afterwards.", "quantifier": "all user functions and states, all integrators, all objects and positions", "why_tests_cant": "arbitrary user code and histories", "anchors": ["ibl/ibl_method.py:IBLMethod.set_velocity", "ibl/ibl_method.py:IBLMethod.solve", "ibl/ibl_method.py:IBLMethod.u_e", "ibl/ibl_method.py:IBLMethod.du_e", "ibl/ibl_method.py:IBLMethod.d2u_e", "ibl/thwaites_method.py:ThwaitesMethod._ode_impl", "ibl/head_method.py:HeadMethod._ode_impl", "ibl/head_method.py:HeadMethod.v_e", "ibl/thwaites_method.py:ThwaitesMethod.v_e"]}
{"id": "C131", "title": "A start value and gradient samples give the velocity", "statement": "When set_velocity is called with the velocity at the first point and samples, at most h apart, of its gradient, the reported gradient differs from the true one by at most L h if the gradient changes at rate L at most, and by at most 5 M h^2 if the second derivative changes at rate M at most; the reported velocity differs by at most that times the distance from the first point, and the reported second derivative by at most 5 M h.", "quantifier": "all velocities with these bounds, all positions of the samples, all objects, all positions between the first and last sample", "why_tests_cant": "uncountably many velocities and sample positions", "anchors": ["ibl/ibl_method.py:IBLMethod.set_velocity", "ibl/ibl_method.py:IBLMethod.u_e", "ibl/ibl_method.py:IBLMethod.du_e", "ibl/ibl_method.py:IBLMethod.d2u_e"]}
{"id": "C132", "title": "Points in other units give the same velocity in those units", "statement": "Converting the positions of velocity points (or gradient points) to other units of length or another origin, and the values to other units, gives the same velocity, gradient and second derivative, converted; points are refused in one system of units exactly when they are refused in the other.", "quantifier": "all points, all conversions, all positions (also outside the points)", "why_tests_cant": "all numbers of points and all conversions", "anchors": ["ibl/ibl_method.py:IBLMethod.set_velocity", "ibl/ibl_method.py:IBLMethod.u_e", "ibl/ibl_method.py:IBLMethod.du_e", "ibl/ibl_method.py:IBLMethod.d2u_e"]}
{"id": "C133", "title": "A velocity point has effect in its neighbourhood only", "statement": "Between two neighbouring points the reported velocity, gradient and second derivative depend only on these two points, the one before and the one after; changing, adding or removing points elsewhere changes nothing. For gradient points this holds for gradient and second derivative, and the velocity does not depend on points further downstream.", "quantifier": "all pairs of point sets that agree around an interval, all positions", "why_tests_cant": "all numbers of points and all changes of them", "anchors": ["ibl/ibl_method.py:IBLMethod.set_velocity", "ibl/ibl_method.py:IBLMethod.u_e", "ibl/ibl_method.py:IBLMethod.du_e", "ibl/ibl_method.py:IBLMethod.d2u_e"]}
{"id": "C134", "title": "The displacement thickness is larger than the momentum thickness", "statement": "Wherever a Thwaites object (linear or nonlinear, any of the four built-in data fits) reports a positive momentum thickness, the reported shape factor is above 1 and the reported displacement thickness is larger than the momentum thickness.", "quantifier": "all objects with a built-in fit, all viscosities, velocities, momentum thicknesses and positions", "why_tests_cant": "every value of the fit's argument must be covered; a test tries a few", "anchors": ["ibl/thwaites_method.py:ThwaitesMethod.shape_d", "ibl/thwaites_method.py:ThwaitesMethod.delta_d", "ibl/thwaites_method.py:_ThwaitesFunctionsWhite", "ibl/thwaites_method.py:_ThwaitesFunctionsDrela"]}
{"id": "C135", "title": "Head's shape factor stays physical when the flow does not accelerate", "statement": "A Head solution that starts with a shape factor above 1.11 in uniform or decelerating flow keeps it above 1.11, its displacement thickness stays larger than 1.11 times its momentum thickness, and the momentum thickness grows. In uniform flow a shape factor between 1.11 and 2 stays between them.", "quantifier": "all exact solutions of Head's equations with velocity at least 0.001 and momentum thickness Reynolds number at most 10^12, all intervals", "why_tests_cant": "a statement about all solutions of a differential equation", "anchors": ["ibl/head_method.py:HeadMethod._ode_impl", "ibl/head_method.py:HeadMethod.shape_d", "ibl/head_method.py:HeadMethod.delta_d"]}
{"id": "C136", "title": "Threads with objects of their own do not disturb each other", "statement": "When several threads each set up, solve and query method objects of their own, with initial-condition objects of their own, then under every interleaving each thread gets exactly the results and exceptions it gets when it runs alone, and its objects end up the same.", "quantifier": "all numbers of threads, all sequences of calls, all interleavings of their attribute reads and writes, all integrators, all initial states", "why_tests_cant": "the number of interleavings is unbounded and a test cannot choose them", "anchors": ["ibl/ibl_method.py:IBLMethod.solve", "ibl/ibl_method.py:IBLMethod.set_velocity", "ibl/ibl_method.py:IBLMethod.nu", "ibl/thwaites_method.py:ThwaitesMethod.delta_m", "ibl/head_method.py:HeadMethod.delta_m"]}
{"id": "C137", "title": "Threads may share an initial-condition object", "statement": "Threads that solve method objects of their own get the results they get alone even if the method objects refer to the same initial-condition object.", "quantifier": "all sequences of calls, all interleavings, all kinds of condition", "why_tests_cant": "the wrong result needs one particular interleaving", "anchors": ["ibl/ibl_method.py:IBLMethod.solve", "ibl/initial_condition.py:FalknerSkanStagCondition.delta_m", "ibl/initial_condition.py:ManualCondition"]}
{"id": "C138", "title": "A query of an object that is being solved again gives the old or the new answer", "statement": "While one thread solves a method object again, a query of that object from another thread returns what it returned before the call or what it returns after it, and does not disturb the call.", "quantifier": "all interleavings, all numbers of querying threads, all integrators, all objects", "why_tests_cant": "the window between two assignments is hit by chance only", "anchors": ["ibl/ibl_method.py:IBLMethod.solve", "ibl/thwaites_method.py:ThwaitesMethod.delta_m", "ibl/thwaites_method.py:ThwaitesMethod.shape_d", "ibl/head_method.py:HeadMethod.delta_d"]}
{"id": "C139", "title": "An interrupted call leaves the object as before or as after the call", "statement": "When solve or set_velocity is ended by an asynchronous exception (KeyboardInterrupt) at any point, the object is as it was before the call or as the finished call leaves it, and can be solved again as if the call had not been made.", "quantifier": "all points of interruption, all objects, integrators and intervals, all later calls", "why_tests_cant": "a crash point can be anywhere in the call", "anchors": ["ibl/ibl_method.py:IBLMethod.solve", "ibl/ibl_method.py:IBLMethod.set_velocity"]}
{"id": "C140", "title": "Rounding in the start and in the reported thickness of Thwaites' method", "statement": "In the arithmetic of binary64 numbers, the stagnation-point thickness, the start value made from it, the momentum thickness reported for a value of the solution and the wall shear stress differ from their exact formulas by a few units of 2^-53 relative; a thickness set by the user and reported back at the start differs from it by at most four such units.", "quantifier": "all binary64 viscosities, gradients, thicknesses, densities and velocities between 2^-200 and 2^200", "why_tests_cant": "no set of test inputs shows that every rounding stays harmless", "anchors": ["ibl/initial_condition.py:FalknerSkanStagCondition.delta_m", "ibl/thwaites_method.py:ThwaitesMethod.delta_m", "ibl/thwaites_method.py:ThwaitesMethod.tau_w", "ibl/thwaites_method.py:ThwaitesMethod._ode_setup"]}
{"id": "C141", "title": "Rounding in the right-hand side of the linear method", "statement": "In binary64 arithmetic the right-hand side handed to the integrator is a number and differs from the exact one by at most 7 units of 2^-53 of (0.45 + 6 |s u'|)/(0.001 + u), also when 0.45 and 6 s u' cancel and when u is zero.", "quantifier": "all binary64 states, velocities and gradients up to 2^200", "why_tests_cant": "cancellation happens at particular inputs only", "anchors": ["ibl/thwaites_method.py:ThwaitesMethod._ode_impl", "ibl/thwaites_method.py:ThwaitesMethodLinear._calc_f", "ibl/thwaites_method.py:ThwaitesMethod._calc_lambda"]}
{"id": "C142", "title": "Rounding in the data fits", "statement": "In binary64 arithmetic White's shape factor and its derivative and Cebeci and Bradshaw's fits, range check included, are numbers within 1e-12 of their exact values (1e-14 for Cebeci and Bradshaw's); the number White's shear fit raises to a power is never negative.", "quantifier": "all binary64 arguments (up to 0.25 for White's shape factor, 1 for its shear base)", "why_tests_cant": "the branch points of the fits and the ends of the ranges are not binary64 numbers, so the argument that fails can be a single one", "anchors": ["ibl/thwaites_method.py:_ThwaitesFunctions._check_range", "ibl/thwaites_method.py:_ThwaitesFunctionsWhite", "ibl/thwaites_method.py:_ThwaitesFunctionsCebeciBradshaw", "ibl/thwaites_method.py:_ThwaitesFunctions.f"]}
{"id": "C143", "title": "A deep copy acts like its original", "statement": "A copy made with copy.deepcopy answers every query as the object it was made from, making it changes no object, and every sequence of calls on the copy has the outcomes, and leads to the answers, that the same calls on the original would have.", "quantifier": "all objects, programs before the copying (copies of copies included) and sequences of calls after it", "why_tests_cant": "a copy goes wrong only for some ways to give the velocity and some later calls", "anchors": ["ibl/ibl_method.py:IBLMethod.set_velocity", "ibl/thwaites_method.py:ThwaitesMethod.set_data_fits"]}
{"id": "C144", "title": "A deep copy and its original do not influence each other", "statement": "In a program that works with method objects and deep copies of them, the calls on one object have the outcomes, and the object gives the answers, that they would if only the calls on that object were made.", "quantifier": "all programs: every interleaving of calls on originals and copies, and of further copying", "why_tests_cant": "the influence shows only when velocity or fit of one object are replaced between copying the other and using it", "anchors": ["ibl/ibl_method.py:IBLMethod.set_velocity", "ibl/thwaites_method.py:ThwaitesMethod.set_data_fits", "ibl/ibl_method.py:IBLMethod.solve"]}
{"id": "C145", "title": "Similarity velocity profiles rise from the wall to the edge", "statement": "The velocity u(x, y) of a similarity solution is zero at the wall, strictly larger the farther from the wall and below the edge velocity, up to the edge of the layer; in flows that do not decelerate the shear stress falls with the distance from the wall, tau_w being the largest one. This holds for every Blasius object (velocity below the edge velocity: with the default parameters; there v rises as well), for Falkner-Skan objects with beta >= 0 whose f' at the edge is at most 1 and still growing and which do not flow backwards faster than the edge velocity, and for those with beta <= 0, positive wall shear and f' nowhere above 1.", "quantifier": "all reference values, wedge parameters, wall values, positions and pairs of heights; exact integrations", "why_tests_cant": "an order relation between every two heights; a profile that overshoots does so between the sampled points", "anchors": ["ibl/analytic/_analytic_2d_base.py:Analytic2dSimilarityIncompressible.u", "ibl/analytic/_analytic_2d_base.py:Analytic2dSimilarityIncompressible.v", "ibl/analytic/_analytic_2d_base.py:Analytic2dSimilarityIncompressible.tau_w", "ibl/analytic/_analytic_2d_base.py:Analytic2dSimilarityIncompressible.f_p"]}
{"id": "C146", "title": "Displacement, momentum and kinetic energy thicknesses are ordered", "statement": "For a similarity solution whose velocity is between zero and the edge velocity, delta_d >= 0, delta_m <= delta_d, delta_m <= delta_k <= 2 delta_m, so shape_d is at least 1 and shape_k between 1 and 2, up to a slack proportional to how far f' and f'' are from 1 and 0 at the edge.", "quantifier": "all objects, histories, wedge parameters and positions; exact integrations", "why_tests_cant": "an inequality over all solutions of the equation, with the truncation at eta_inf accounted for", "anchors": ["ibl/analytic/_analytic_2d_base.py:Analytic2dSimilarityIncompressible.delta_d", "ibl/analytic/_analytic_2d_base.py:Analytic2dSimilarityIncompressible.delta_m", "ibl/analytic/_analytic_2d_base.py:Analytic2dSimilarityIncompressible.delta_k", "ibl/analytic/_analytic_2d_base.py:Analytic2dSimilarityIncompressible.shape_d", "ibl/analytic/_analytic_2d_base.py:Analytic2dSimilarityIncompressible.shape_k"]}
{"id": "C147", "title": "Outside the layer the velocity is the edge velocity", "statement": "At every height at or above the edge of the layer u(x, y) is the edge velocity u_e(x), up to the residual of the profile.", "quantifier": "all objects, positions and heights above the edge", "why_tests_cant": "heights above the stored profile are unbounded, and a test just above the edge still sees the edge velocity", "anchors": ["ibl/analytic/_analytic_2d_base.py:Analytic2dSimilarityIncompressible.u", "ibl/analytic/_analytic_2d_base.py:Analytic2dSimilarityIncompressible.f_p", "ibl/analytic/_analytic_2d_base.py:Analytic2dSimilarityIncompressible._calculate_solution"]}
{"id": "C148", "title": "Stagnation-point flow has a constant momentum thickness", "statement": "In stagnation-point flow, u_e = k x, solved from x = 0 with the stagnation-point condition by the linear form of Thwaites' method, delta_m(x) is the same at every x. More generally, for every edge velocity linear in x the momentum thickness has a closed form.", "quantifier": "all velocities linear in x, viscosities, intervals and positions; exact integration", "why_tests_cant": "a relation between every two points of the layer; the jump is confined to u_e below 1/1000", "anchors": ["ibl/thwaites_method.py:ThwaitesMethodLinear", "ibl/thwaites_method.py:_calc_f", "ibl/initial_condition.py:FalknerSkanStagCondition.delta_m"]}
{"id": "C149", "title": "The linearly retarded flow separates at 0.123 L", "statement": "In the flow u_e = u (1 - x/L) started with thickness zero, the linear form of Thwaites' method with White's or the default fit has positive wall shear before, and none from, L (1 + 1/(1000 u)) (1 - (5/11)^(1/6)), that is 0.1231 to 0.1232 of L (1 + 1/(1000 u)); with the Cebeci-Bradshaw fit wall shear changes sign between 0.1229 and 0.1232 of that length. No separation is reported before (Cebeci-Bradshaw: outside) that place, and none with the Drela fit.", "quantifier": "all u >= 1/1000, lengths L, viscosities, densities, positions and earlier calls on the object; exact integration", "why_tests_cant": "a location for every velocity and length, compared with a published value", "anchors": ["ibl/thwaites_method.py:ThwaitesMethodLinear.solve", "ibl/thwaites_method.py:tau_w", "ibl/thwaites_method.py:_ThwaitesSeparationEvent"]}
{"id": "C150", "title": "Similarity queries act element by element on arrays", "statement": "A query of a Blasius or Falkner-Skan object with an array of positions returns the array of the answers for each position, and the profile functions f, f_p and f_pp the array of the answers for each similarity coordinate; eta, u and v with arrays for x, y or both answer for each point numpy's broadcasting makes of them, and raise ValueError for lengths that do not fit.", "quantifier": "all objects with finite positive reference values, all arrays of positions of every length, all pairs of arguments", "why_tests_cant": "arrays of any length and any combination of shapes", "anchors": ["ibl/analytic/_analytic_2d_base.py:f", "ibl/analytic/_analytic_2d_base.py:f_p", "ibl/analytic/_analytic_2d_base.py:f_pp", "ibl/analytic/_analytic_2d_base.py:u", "ibl/analytic/_analytic_2d_base.py:v", "ibl/analytic/_analytic_2d_base.py:eta", "ibl/analytic/_analytic_2d_base.py:delta_d", "ibl/analytic/_analytic_2d_base.py:tau_w", "ibl/analytic/_analytic_2d_base.py:dissipation", "ibl/analytic/_blasius.py:_g", "ibl/analytic/_falkner_skan.py:_g"]}
{"id": "C151", "title": "Python floats and numpy floats give the same answers", "statement": "A query of a similarity solution gives the same number for a position whether it is passed as a Python float, as a numpy float or in an array.", "quantifier": "all objects with finite positive reference values and all positions", "why_tests_cant": "a statement about every position, including the leading edge", "anchors": ["ibl/analytic/_analytic_2d_base.py:u_e", "ibl/analytic/_analytic_2d_base.py:delta_m", "ibl/analytic/_analytic_2d_base.py:u", "ibl/analytic/_blasius.py:_g", "ibl/analytic/_falkner_skan.py:_g"]}
{"id": "C152", "title": "A request for no positions answers with no values", "statement": "A query with an empty array of positions returns an empty array, for method objects and similarity solutions.", "quantifier": "all objects and queries", "why_tests_cant": "every query of every reachable object", "anchors": ["ibl/analytic/_analytic_2d_base.py:u", "ibl/analytic/_analytic_2d_base.py:v", "ibl/thwaites_method.py:delta_m", "ibl/thwaites_method.py:v_e", "ibl/head_method.py:tau_w", "ibl/head_method.py:v_e"]}
{"id": "C153", "title": "A completed solve has not separated", "statement": "When solve reports that it reached the end, the boundary layer is not separated: with Head's method the shape factor is below the critical value, with Thwaites' methods the wall shear is positive.", "quantifier": "all objects, histories of calls, intervals, integrators that check their events after each step as documented", "why_tests_cant": "a statement about every run that ends with a certain status", "anchors": ["ibl/ibl_method.py:solve", "ibl/head_method.py:_HeadSeparationEvent", "ibl/thwaites_method.py:_ThwaitesSeparationEvent"]}
{"id": "C154", "title": "Head's method reports separation where the shape factor is critical", "statement": "When solve of a Head object reports SEPARATED at x_end, shape_d(x_end) is the critical shape factor last set.", "quantifier": "all objects, histories of calls including changes of the critical value, intervals and integrators that report roots of the event function", "why_tests_cant": "every history of calls and every outcome of the integrator", "anchors": ["ibl/ibl_method.py:solve", "ibl/head_method.py:_HeadSeparationEvent", "ibl/head_method.py:set_shape_d_critical"]}
{"id": "C155", "title": "Wedge flows have self-similar layers", "statement": "When the edge velocity is c x^n with n > -1/5 the linear form of Thwaites' method gives a layer whose momentum thickness approaches sqrt(0.45 nu x / ((1 + 5n) u_e)) from any initial thickness, the initial excess decaying as (a/x)^(1+5n); a layer that starts like that is attached for n > -0.1 and separated for n <= -0.1. All this up to the factor (1 + 1/(1000 u_min)) with which the program perturbs the velocity.", "quantifier": "all objects, c, n, intervals of positive x, initial thicknesses and exact solutions", "why_tests_cant": "a statement about the solutions of a differential equation for every exponent and initial value", "anchors": ["ibl/thwaites_method.py:ThwaitesMethodLinear._calc_f", "ibl/thwaites_method.py:ThwaitesMethod._ode_impl", "ibl/thwaites_method.py:ThwaitesMethod.delta_m", "ibl/thwaites_method.py:ThwaitesMethod.tau_w"]}
{"id": "C156", "title": "Results from samples of the gradient converge to those of the velocity", "statement": "When the velocity is given by a start value and samples of its gradient that lie h apart, the momentum thickness (Thwaites' methods) and the momentum thickness and shape factor (Head's method) differ from those computed with the velocity itself by an amount of first order in h at most, second order for the linear method and smooth gradients.", "quantifier": "all velocities with a gradient of bounded slope, samplings, intervals and exact solutions", "why_tests_cant": "a statement about every velocity and every set of points, and about limits", "anchors": ["ibl/ibl_method.py:set_velocity", "ibl/thwaites_method.py:ThwaitesMethod._ode_impl", "ibl/thwaites_method.py:ThwaitesMethod.delta_m", "ibl/head_method.py:_ode_impl"]}
{"id": "C157", "title": "Rounding in the Stanford tables", "statement": "With binary64 arithmetic, the station quantities loaded from the 1968 Stanford tables (unit conversions, derived thicknesses and friction velocity, profile samples) are within a few units of 2^-53 of the exact values of the printed numbers, and the consistency checks decide as with exact numbers unless a difference is within one part in 10^5 of its tolerance.", "quantifier": "all summary rows, station lines and profile rows in SI or English units with numbers of reasonable size", "why_tests_cant": "a statement about every float; rounding depends on every operand and the checks have thresholds", "anchors": ["ibl/reference/_stanford_1968_station.py:_reset_summary_data", "ibl/reference/_stanford_1968_station.py:_reset_station_summary", "ibl/reference/_stanford_1968_station.py:_reset_station_data", "ibl/reference/_stanford_1968_station.py:INCH_PER_METER"]}
{"id": "C158", "title": "Rounding in Head's method", "statement": "With binary64 arithmetic, the skin friction, the entrainment relations and both rates of change that Head's method hands to the integrator are within a stated number of units of 2^-53 of the exact ones: 60 for the skin friction, 64 for the momentum thickness's rate and 1100 for the shape factor's, the last two relative to the magnitudes of the terms they are sums of. The lower limits on shape factor and edge velocity cost no more. The one float excluded is the literal 1.6, where the exact slope jumps.", "quantifier": "all floats: Reynolds number from 2^-40 to 2^40, shape factor at most 4, viscosity, momentum thickness, edge velocity and its slope of reasonable size", "why_tests_cant": "a statement about every float; the subtractions cancel and the powers amplify rounding, so a few samples say nothing", "anchors": ["ibl/head_method.py:_ode_impl", "ibl/head_method.py:_shape_entrainment", "ibl/head_method.py:_shape_entrainment_p", "ibl/head_method.py:_entrainment_velocity", "ibl/skin_friction.py:ludwieg_tillman"]}
{"id": "C159", "title": "One calculation takes over from another", "statement": "Where a solved (say laminar) calculation reports a positive momentum thickness and shape factor, assigning these two to an object of Head's method is accepted, and a successful calculation from that station reports there the same momentum thickness, shape factor and displacement thickness. The same holds for a condition object built from the reported thicknesses, whatever condition the turbulent object had. Thwaites' methods, even with another fit or viscosity, take over the momentum thickness.", "quantifier": "all solved objects of any method, stations, viscosities, velocity fields, integrators whose dense output starts in the initial state, stopping conditions", "why_tests_cant": "the values pass through a product, a quotient and a square root whose operands are arbitrary, and the agreement must hold for every pair of objects", "anchors": ["ibl/head_method.py:HeadMethod.initial_delta_m", "ibl/head_method.py:HeadMethod.initial_shape_d", "ibl/thwaites_method.py:initial_delta_m", "ibl/ibl_method.py:set_initial_condition", "ibl/ibl_method.py:solve", "ibl/head_method.py:_ode_setup", "ibl/thwaites_method.py:_ode_setup"]}
{"id": "C160", "title": "A shallow copy starts as the original", "statement": "A shallow copy (copy.copy) of a method object answers every query as the original does, and the first call made on it, a solve included, has the outcome the same call on the original would have. Making the copy changes no other object.", "quantifier": "all objects, all programs of calls and shallow copies before, all first calls, all integrators", "why_tests_cant": "the objects may themselves be copies that share state after any history of calls", "anchors": ["ibl/ibl_method.py:set_initial_condition", "ibl/ibl_method.py:_set_kill_event", "ibl/ibl_method.py:solve", "ibl/thwaites_method.py:initial_delta_m", "ibl/thwaites_method.py:set_data_fits", "ibl/head_method.py:initial_shape_d"]}
{"id": "C161", "title": "Shallow copies are independent", "statement": "What is done to a shallow copy (copy.copy) of a method object leaves the original as it is, and what is done to the original leaves the copy as it is.", "quantifier": "all objects, all programs of calls and shallow copies, all integrators", "why_tests_cant": "sharing shows only in some later call on another object, after any interleaving of calls", "anchors": ["ibl/ibl_method.py:set_initial_condition", "ibl/ibl_method.py:_set_kill_event", "ibl/ibl_method.py:solve", "ibl/thwaites_method.py:initial_delta_m", "ibl/thwaites_method.py:set_data_fits", "ibl/head_method.py:initial_shape_d"]}
{"id": "C162", "title": "XFoil case data are the last valid values assigned", "statement": "After any history of loads, assignments and row edits, the name, angle of attack, reference velocity, chord, Reynolds number, transition locations and amplification factor of an XFoil reader read as the last valid value assigned since the last load, or as their defaults. An assignment is refused with ValueError exactly when its value is invalid, and it changes no row and not the file name.", "quantifier": "all readers, all histories of loads (successful or not), assignments and row edits, all files and values", "why_tests_cant": "a setter may write to the wrong place or a load forget a value only after some particular history", "anchors": ["ibl/reference/_xfoil_reader.py:XFoilReader"]}
{"id": "C163", "title": "The slower flow has the thicker layer", "statement": "Of two calculations with the linear form of Thwaites' method, the one whose flow starts no faster and falls behind the other (the ratio of the velocities does not increase) reports the larger momentum thickness, from any data fit. With the default fit a flow that does not accelerate has, against one that does not decelerate (a flat plate, say), also the smaller wall shear and, while attached, the larger displacement thickness.", "quantifier": "all pairs of velocities, intervals, viscosities, initial thicknesses and densities; exact integration", "why_tests_cant": "the comparison involves two solutions of a differential equation with arbitrary coefficients", "anchors": ["ibl/thwaites_method.py:ThwaitesMethodLinear", "ibl/thwaites_method.py:delta_m", "ibl/thwaites_method.py:tau_w", "ibl/thwaites_method.py:delta_d"]}
{"id": "C164", "title": "The returned end state is what the object reports there", "statement": "After a successful solve, also one stopped early, the object reports at the returned x_end what the returned f_end says: momentum thickness and shape factor with Head's method, the square of the momentum thickness over the viscosity with Thwaites'. This lasts until the next solve or assignment of the viscosity, whatever else is reconfigured. After an unsuccessful solve x_end is the start and queries raise.", "quantifier": "all objects, intervals, stopping conditions, integrators whose dense output starts in the initial state, and all later configuration calls", "why_tests_cant": "the end may come from the integrator's last step, from any stopping condition or from neither, and any calls may follow", "anchors": ["ibl/ibl_method.py:solve", "ibl/ibl_method.py:IntegrationResult", "ibl/thwaites_method.py:delta_m", "ibl/head_method.py:delta_m", "ibl/head_method.py:shape_d"]}
{"id": "C165", "title": "The velocity of a loaded XFoil surface is accepted by every method", "statement": "For a loaded dump with strictly increasing arc lengths, the arrays s_upper() and u_e_upper(), and the lower ones, are accepted by set_velocity as points on any object. The edge velocity is then zero at the stagnation point, equals u_ref times the tabulated relative velocity (with the sign changed on the lower surface) at each row's distance from it, and between the stagnation point and the trailing edge respects every bound the tabulated velocities respect.", "quantifier": "all dumps with strictly increasing arc lengths and a moving row on each side of the nose, all reference velocities, all method objects", "why_tests_cant": "crosses two modules: the sorting, splitting, shifting and scaling of the reader must produce exactly what the interpolation accepts, for every file", "anchors": ["ibl/reference/_xfoil_reader.py:s_upper", "ibl/reference/_xfoil_reader.py:u_e_upper", "ibl/reference/_xfoil_reader.py:s_lower", "ibl/reference/_xfoil_reader.py:u_e_lower", "ibl/ibl_method.py:set_velocity"]}
{"id": "C166", "title": "The arrays of a Stanford case are the columns of its file", "statement": "After a successful load every per-station array has one number per station, in the order of the file: the station line's number where there is a line, the flow table's or the derived one otherwise, and inf for what only a station line could give. The profile queries return the samples of the station that the index denotes, from the start or, if negative, from the end, and raise IndexError for any other index. The smoothed arrays are the columns of the smoothed table. With no case loaded all are empty.", "quantifier": "all case files, with or without station lines and profiles, and all indices", "why_tests_cant": "universal over files and indices; 27 queries must pick the same station", "anchors": ["ibl/reference/_stanford_1968.py:x", "ibl/reference/_stanford_1968.py:delta_d", "ibl/reference/_stanford_1968.py:y", "ibl/reference/_stanford_1968.py:station", "ibl/reference/_stanford_1968.py:x_smooth"]}
{"id": "C167", "title": "A loaded Stanford case sets up Head's method", "statement": "For a loaded case of at least two stations, Head's method can be constructed from nu_ref and the arrays x() and u_e(), or from the first u_e and the arrays x() and du_e(), exactly when nu_ref is positive and x() strictly increases (ValueError otherwise), and it accepts the first delta_m and shape_d as initial values. The object then has that viscosity and those initial values, its velocity (or gradient) is the tabulated one at every station, and in the first form the velocity is positive and within the tabulated bounds in between.", "quantifier": "all case files, all previous contents of the case object, all critical shape factors", "why_tests_cant": "crosses the reader, the constructor, the interpolation and the initial condition", "anchors": ["ibl/reference/_stanford_1968.py:StanfordOlympics1968", "ibl/head_method.py:__init__", "ibl/head_method.py:initial_delta_m", "ibl/head_method.py:initial_shape_d", "ibl/ibl_method.py:set_velocity"]}
{"id": "C168", "title": "An accelerating flow given by points can be started at its stagnation point", "statement": "With the Falkner-Skan stagnation condition in force, a velocity given by points that accelerates from rest can be solved for from the first point: the integration starts with the positive, finite momentum thickness of the similarity solution at the flow's gradient there.", "quantifier": "all point sets, viscosities, methods, integrators, ends and events", "why_tests_cant": "universal over point sets; the interpolation's end slope depends on the first three points", "anchors": ["ibl/ibl_method.py:set_velocity", "ibl/ibl_method.py:solve", "ibl/initial_condition.py:FalknerSkanStagCondition.delta_m"]}
{"id": "C169", "title": "The integration starts from finite positive values", "statement": "Whenever solve starts an integration, after whatever calls, the start values it hands to the integrator are positive finite numbers.", "quantifier": "all histories of public calls on objects of all three classes", "why_tests_cant": "quantifies over histories, with rejected calls in between", "anchors": ["ibl/thwaites_method.py:__init__", "ibl/thwaites_method.py:initial_delta_m", "ibl/thwaites_method.py:_ode_setup", "ibl/head_method.py:__init__", "ibl/head_method.py:initial_shape_d", "ibl/head_method.py:_ode_setup", "ibl/initial_condition.py:ManualCondition"]}
{"id": "C170", "title": "Leaving out the gradient, or giving it slightly wrong, changes the results only slightly", "statement": "With the same velocity and start values, a reported gradient that is off by e at most changes the momentum thickness (and for Head's method the shape factor) by a bounded multiple of e. A velocity given as a plain function with a fifth derivative bounded by K has a gradient error of K/1.8e17 at most, so leaving out the derivative changes the momentum thickness of the linear Thwaites method by the factor exp(K (b-a) / (6e16 U_min)) at most.", "quantifier": "all velocities with the stated smoothness, intervals, viscosities, start values and error sizes", "why_tests_cant": "an estimate over all velocity functions and all solutions of the equations", "anchors": ["ibl/ibl_method.py:set_velocity", "ibl/ibl_method.py:du_e", "ibl/ibl_method.py:fd_1f", "ibl/thwaites_method.py:_ode_impl", "ibl/head_method.py:_ode_impl"]}
{"id": "C171", "title": "Mass and momentum balances over a stretch of wall", "statement": "Along a computed solution, the reported transpiration velocity integrated over any stretch of wall is the change of the edge velocity times the reported displacement thickness. For Head's method the reported wall shear stress integrated over the stretch, less the pressure force rho U U' delta_d, is the change of rho U^2 delta_m. For the nonlinear Thwaites method the same holds with U + 0.001 in place of one U, which leaves a term of a thousandth of rho U' delta_m.", "quantifier": "all velocities, solutions, fits, densities, viscosities and stretches of wall", "why_tests_cant": "an identity between integrals over arbitrary stretches of arbitrary solutions", "anchors": ["ibl/ibl_method.py:v_e", "ibl/thwaites_method.py:v_e", "ibl/thwaites_method.py:tau_w", "ibl/thwaites_method.py:delta_d", "ibl/head_method.py:v_e", "ibl/head_method.py:tau_w", "ibl/head_method.py:delta_d"]}
{"id": "C172", "title": "Rounding in Felsch's and White's skin friction", "statement": "In binary64 arithmetic Felsch's correlation returns a positive number for every shape factor, however large or small, although it raises to a power a difference that comes as close to zero as 2e-11. The value is the exact one for a difference that is off by 10 units of 2^-53 at most, so up to the shape factor 2.9 it is accurate to 750 units. White's correlation is accurate to 110 units.", "quantifier": "all binary64 shape factors (Felsch) or those between 1 and 4 (White), Reynolds numbers up to 2^40, and all power, logarithm and exponential functions accurate to two units", "why_tests_cant": "a bound on the rounding error over all pairs of floating-point arguments", "anchors": ["ibl/skin_friction.py:felsch", "ibl/skin_friction.py:white"]}
{"id": "C173", "title": "A loaded XFoil dump sets up the methods", "statement": "The first values of the momentum thickness and shape factor a reader returns for either surface are those at the stagnation point and lie between the values of the two rows around it. If those rows have positive values, every method built from the reader's arc lengths and edge velocities of that surface and a positive viscosity takes them as initial values and starts from exactly them: Head's from the pair, Thwaites' from the thickness squared over the viscosity. The velocity at the start is zero. From an inviscid dump, whose rows have no thickness, the initial thickness is refused with ValueError.", "quantifier": "all dumps with increasing arc lengths and one sign change of the velocity, both surfaces, all reference velocities and viscosities, all three methods, all data fits and critical shape factors", "why_tests_cant": "all files and all readers, through loading, interpolation, construction and setters", "anchors": ["ibl/reference/_xfoil_reader.py:XFoilReader", "ibl/ibl_method.py:set_velocity", "ibl/head_method.py:HeadMethod.initial_delta_m", "ibl/head_method.py:HeadMethod.initial_shape_d", "ibl/thwaites_method.py:ThwaitesMethod.initial_delta_m", "examples/xfoil/xfoil_turbulent_comparison.py", "examples/xfoil/xfoil_laminar_comparison.py"]}
{"id": "C174", "title": "Rounding in White's shear fit, Drela's fit and the nonlinear right-hand side", "statement": "In double precision, White's shear function is within 2e-10 of its exact value for every parameter up to 0.25, within 1e-14 from -0.08 on, and exactly zero at and below the end of its range. Drela's shape and shear functions are within 1e-13 and the derivative of the shape function within 1e-11. The right-hand side of the nonlinear method with White's, Cebeci and Bradshaw's or Drela's fit is the exact one for a state that differs by two units of 2^-53, up to 1e-9 (White) or 1e-12 over the velocity plus 0.001.", "quantifier": "all numbers up to 0.25 as parameter, all states, gradients and non-negative velocities whose parameter is between -1 and 0.24 and does not underflow, all library powers accurate to two units of 2^-53", "why_tests_cant": "all double-precision inputs, including those where the power's slope is infinite", "anchors": ["ibl/thwaites_method.py:_ThwaitesFunctionsWhite", "ibl/thwaites_method.py:_ThwaitesFunctionsDrela", "ibl/thwaites_method.py:_ThwaitesFunctionsCebeciBradshaw", "ibl/thwaites_method.py:ThwaitesMethodNonlinear._calc_f", "ibl/thwaites_method.py:ThwaitesMethod._ode_impl"]}
{"id": "C175", "title": "Rounding in what Thwaites' method reports", "statement": "In double precision, the shape factor, momentum thickness, displacement thickness and wall shear stress computed from a stored value of the solution are those the object reports exactly for a value that differs by at most two units of 2^-53: the shape factor up to 1e-14 (Cebeci and Bradshaw) or 1e-13 (White, Drela), the momentum thickness up to four units of 2^-53, the displacement thickness up to 5e-14 or 5e-13 of the momentum thickness, and the wall shear stress up to 2e-14 (Cebeci and Bradshaw), 2e-13 (Drela) or 3e-10 (White) of density times viscosity times velocity over the momentum thickness.", "quantifier": "all positive values of the solution, viscosities, densities and velocities of reasonable size, all gradients whose parameter is between -1 and 0.24 and does not underflow, both Thwaites methods, all library powers accurate to two units of 2^-53", "why_tests_cant": "all double-precision inputs", "anchors": ["ibl/thwaites_method.py:ThwaitesMethod.delta_d", "ibl/thwaites_method.py:ThwaitesMethod.delta_m", "ibl/thwaites_method.py:ThwaitesMethod.shape_d", "ibl/thwaites_method.py:ThwaitesMethod.tau_w", "ibl/thwaites_method.py:ThwaitesMethod._calc_lambda"]}
{"id": "C176", "title": "Rounding in what Head's method reports", "statement": "In double precision, the displacement thickness Head's method computes from a stored state is the one it reports exactly up to two units of 2^-53, the wall shear stress is accurate to seventy units, and the transpiration velocity to 1120 units of 2^-53 of the sum of the magnitudes of its terms, including where the lower bounds on the edge velocity and the shape factor are in force.", "quantifier": "all viscosities, densities, thicknesses, positive edge velocities and gradients of reasonable size, all shape factors between 1 and 4 (other than the literal 1.6 for the transpiration velocity), all library powers accurate to two units of 2^-53", "why_tests_cant": "all double-precision inputs", "anchors": ["ibl/head_method.py:HeadMethod.delta_d", "ibl/head_method.py:HeadMethod.tau_w", "ibl/head_method.py:HeadMethod.v_e"]}
{"id": "C177", "title": "Rounding in what the similarity solutions report", "statement": "In double precision, for a Blasius or Falkner-Skan solution holding given values, the edge velocity is the one reported exactly up to 45 units of 2^-53, every thickness up to 28, the shape factors up to 3, the transpiration velocity up to 29, the wall shear stress up to 76 and the dissipation integral up to 126 units of 2^-53.", "quantifier": "all positions between 2^-20 and 2^20, all wedge parameters between -0.2 and 1, all reference velocities, viscosities, densities and stored values of reasonable size, all library powers accurate to two units of 2^-53", "why_tests_cant": "all double-precision inputs", "anchors": ["ibl/analytic/_analytic_2d_base.py:Analytic2dSimilarityIncompressible", "ibl/analytic/_falkner_skan.py:FalknerSkan._g", "ibl/analytic/_blasius.py:Blasius._g"]}
{"id": "C178", "title": "The exponent of a wedge flow read back in double precision", "statement": "In double precision, any exponent m a Falkner-Skan solution accepts exactly is accepted, and the exponent read back after setting it is the one set, up to 6 + 4|m| units of 2^-53. (False for large exponents: from about 2^54 on the exponent is read back as infinity, and above half the largest double it is refused.)", "quantifier": "all double-precision exponents", "why_tests_cant": "all double-precision inputs", "anchors": ["ibl/analytic/_falkner_skan.py:FalknerSkan.reset_m", "ibl/analytic/_falkner_skan.py:FalknerSkan.reset_beta", "ibl/analytic/_falkner_skan.py:FalknerSkan.m"]}
