# Formal model of ddmarshall/IBL in Rocq (Coq 8.16.1)

## 1. What is here

* `properties.jsonl` - the properties (C01, C02, ...), in terms of the public API.
* `rocq/theories/*Model.v` - the model: one Gallina definition per Python function,
  each with a comment citing the file and lines in `/repo` and every simplification.
* `rocq/theories/*Spec.v` (or a `Spec` section at the head of a Props file) - the small
  vocabulary in which the theorems are stated.
* `rocq/theories/*Proofs.v` - lemmas and proofs.
* `rocq/theories/*Props.v` - only the property theorems (`exact lemma`), their
  `Print Assumptions`, and beside each an `Example` showing that its hypotheses are met
  by a concrete non-trivial case.
* `MANIFEST.json` - property -> theorem names and status.
* `seeded/LOG.jsonl` - mutation log: edits of the model that imitate bugs, and what failed.

A theorem called `..._refuted` proves that the *unchanged* code violates the property as
worded, by exhibiting a witness; the property is then listed as `partial` in the manifest,
with the strongest true variant proved next to it.

## 2. How the code is modelled

* **Numbers.**  Floats are modelled as extended reals `xr = Fin r | PInf | NInf | NaN`
  (PyBase.v): the finite part is exact real arithmetic without rounding, decimal literals are
  the rationals they spell, `inf` and `nan` follow numpy's rules (every comparison with `nan`
  is false, numpy division by zero gives `inf` or `nan`), and Python's own `/` on floats raises
  `ZeroDivisionError`.  Positions and user velocities are finite reals.  Only FloatModel.v and FloatXFoilModel.v round:
  they use Flocq's binary64 numbers (definitions and lemmas of the library, no axioms of it).
* **Exceptions.**  A Python function that may raise returns a value of an outcome type
  `Ok a | Err exn`; a method that mutates its object returns the new state *also when it
  raises*, so partial updates remain visible.
* **Callables** are Coq functions; an optional `derivative` method is an optional field.
* **Objects and aliasing.**  Where the code shares a mutable object (rows of the XFoil
  reader, numpy arrays in `HeadMethod.tau_w`, the event list of `solve`) the model has a
  heap or returns the mutated argument.
* **External calls** (`scipy.integrate.solve_ivp`, `CubicSpline`, `root_scalar`, `quad`, the
  file system, and `PchipInterpolator` where its algorithm does not matter) are parameters of the model (Section variables that become
  ordinary universally quantified arguments), with any assumed behaviour appearing as an
  explicit hypothesis of the theorem that needs it.  No axiom describes them.
* **ODE solutions.**  Theorems on solutions are about *exact* solutions of the ODE whose
  right-hand side is the modelled `_ode_impl`; the discretisation error of RK45 is not
  modelled.

## 3. Plan per property

| Properties | Modelled | Proof method |
|---|---|---|
| C01-C02 | `fd_1f`, `fd_2f` closures of `set_velocity` over R | ring for polynomials; Taylor-Lagrange (Coquelicot) for error bounds |
| C03-C09, C13-C17 | `IBLMethod` and subclasses as a state machine: constructor, `nu`, `set_velocity`, `set_initial_condition`, `solve`, event list | invariants by induction over operation histories; witnesses for refuted ones |
| C06 | piecewise polynomials, `antiderivative`, shift of the last coefficient row | induction over breakpoints, polynomial derivative |
| C10-C12 | tail of `solve` over an arbitrary integrator outcome | case analysis; integrator contract as hypothesis |
| C18-C23 | the four data fits, `_check_range` on scalars and on arrays | `auto_derive`, sign/monotonicity arguments, `interval` |
| C24-C31 | Thwaites `_ode_impl`, `_calc_f`, accessors | integrating factor, FTC, product rule |
| C32-C40 | Head closures, right-hand side, event, `tau_w` with a heap of arrays | derivatives of `Rpower`, inverse functions, field |
| C41-C44 | skin friction correlations | monotonicity of `exp`/`ln`, `interval` for constants |
| C45-C46 | initial conditions over `xr` | algebra |
| C47-C57 | similarity solution accessors, Falkner-Skan parameters, shooting loop over an arbitrary integrator | Coquelicot derivatives and integrals; loop invariants |
| C58-C65, C79-C81 | XFoil reader with a heap of row objects: file text, tokens, row classes, side splitting, stagnation point | induction over lines and over call histories; witnesses for refuted ones |
| C66-C69, C82-C89 | 1968 Stanford reader: summary and station files as text, unit conversion, station and profile objects, case changes | induction over lines, algebra, induction over call histories |
| C70 | skin friction functions | unfolding to the published formulas over R |
| C71-C74 | the state machine of C03-C17 | case analysis and induction over histories |
| C75 | `_ode_impl` of all three classes | integrating factor and barrier arguments for exact solutions |
| C76 | Head's `v_e` on arrays, with a heap | induction over the array |
| C77, C78 | similarity accessors, `quad` and `root_scalar` as parameters | Coquelicot integrals |
| C90, C91 | the four data fits; `CubicSpline` specified by its documented not-a-knot conditions | the 27-point spline is solved over Q and shown to be the only one; sign and monotonicity per piece |
| C92 | `set_velocity` with points, and scipy's PCHIP slopes | induction over the points, monotone cubic criterion |
| C93, C94 | the state machine | simulation relation; commutation of parts of the state |
| C95 | Thwaites' `solve` and accessors | `solve` at two viscosities calls the integrator with the same arguments |
| C96 | several methods over a store of condition objects | simulation relation; witness for the refuted wording |
| C97 | Thwaites' separation event | root of the event function through the fits' zero sets; exact solution as witness |
| C98 | linear Thwaites ODE against the classical quadrature | bound the integrating factor with and without the offset 0.001 |
| C99 | linear Thwaites ODE | difference of two quadratures with the same integrating factor |
| C100 | right-hand sides of two objects describing the same flow | change of variables; flat plate witness for the refuted wording |
| C101 | Thwaites queries on arrays (ThwaitesArrayModel.v) | pointwise unfolding; a velocity with a minimum as witness for the refuted wording |
| C102 | delta_k, shape_k, dissipation | refuted for every object |
| C103 | set_solution_parameters, Blasius, FalknerSkan | unfolding of the search; the stall test stops it where the parameter is given |
| C104 | the nested search loops, with a log of integrations | induction on the loop counters |
| C105 | calculate_solution | case analysis on the integrator's answer |
| C106 | XFoil column queries | from the partition (C58), column by column |
| C107 | default Blasius parameters | piecewise Taylor polynomials with integer coefficients checked by computation (`BlasiusPoly.v`), a Gronwall bound on the distance to the exact solution, existence by Picard iteration, the limit at infinity by monotonicity, uniqueness by the scaling of the equation |
| C108 | finite differences in binary64 | Flocq's IEEE 754 numbers (`FloatModel.v`); each operation within half a unit of roundoff, the evaluation points by the mean value theorem, the exact formula by C01 |
| C109 | derivatives of a constant in binary64 | first: exact cancellation; second: counterexample computed, bound from the operation errors |
| C110 | round trip of the shape factor in binary64 | counterexample computed; bound from the errors of one product and one quotient |
| C111 | nonlinear right-hand side with the spline, Cebeci-Bradshaw and Drela fits | fits are Lipschitz piece by piece (slopes of the spline bounded over Q); Picard iteration on a clipped problem, barriers, one-sided Lipschitz uniqueness |
| C112 | the same with White's fit | uniqueness by a one-sided Lipschitz bound; existence as the limit of regularised problems (the power moved off its singular point); comparison with a solution that blows up for the refuted part |
| C113 | both right-hand sides, `delta_m` | growth inequality for the difference; for the linear method the integrating factor |
| C114 | Thwaites accessors against the Blasius accessors of C107 | exact linear solution on the plate, constants of the four fits at zero, the certified Blasius constants |
| C115 | `solve`, separation events, both right-hand sides | positivity of the fits' shear functions for nonnegative gradient; for Head a barrier at the critical shape factor: there entrainment outweighs friction |
| C116 | Head's right-hand side | Lipschitz bounds on boxes built up function by function, Picard iteration in the plane with the arguments cut off at the box, first exit time and bounds on the thickness, growth inequality; at 1.6 the mean value theorem against the two one-sided slopes |
| C117 | both Thwaites right-hand sides, the four fits, `delta_m` | 2(S - l(H + 2)) + 6l is bounded below and above by rational certificates (Bernstein coefficients of the spline pieces; a verified positivity check for polynomials; tangents of the power for White); the difference of the two solutions times a power of the velocity is monotone |
| C118 | `solve` over an integrator that evaluates inside the interval only, `set_velocity` closures, all reports | two objects that agree on the interval go through `solve` in step; counterexample with a jump just outside |
| C119 | constructors, call histories, PCHIP, all reports | induction over the history; PCHIP in its documented form is proved to commute with shifts |
| C120 | `solve`, `initial_delta_m`, `initial_shape_d`, exact solutions of `_ode_impl` | uniqueness of solutions (C111, C112, C116) |
| C121 | both Thwaites right-hand sides, `delta_m` | two ordered solutions cannot cross by uniqueness; integrating factor for the linear method |
| C122 | both Thwaites right-hand sides, Head right-hand side, `delta_m` | sign of the right-hand side from bounds on the fits; mean value theorem |
| C123 | Head's right-hand side, `delta_m`, `shape_d` | Lipschitz bounds on boxes (C116) and the growth inequality for the squared distance |
| C124 | linear Thwaites right-hand side, `delta_m` | closed quadrature (C24) and monotonicity of the integral; nonlinear method: Gronwall with the Lipschitz constant of the default fit; Head: the two right-hand sides differ by a multiple of the error, then C123's comparison |
| C125 | the arc-length part of the loader (`FloatXFoilModel.v`) in binary64 | error bound of the interpolation, exact rounding is monotone, induction over the rows; a three-row counterexample by computation |
| C126 | PCHIP slopes and pieces (`PchipModel.v`) as set by `set_velocity` | interior slopes lie between the two secants, end slopes within their difference; a piece's slope is the secant plus a combination of the two end deviations with weights summing to at most 1; mean value theorem |
| C127 | the right-hand sides with the sampled velocity | C126 and C124 |
| C128 | `set_velocity`, `solve`, the right-hand sides, events and queries as computations over an arbitrary user state; the integrator as a tree of questions (`EffectModel.v`) | a logging version of every user function; one invariant per operation: same outcome, and the log ends at the first exception |
| C129 | the same | the same, with the set of permitted positions as a parameter |
| C130 | the same | simulation by the model with total functions (`CoreModel.v`), for any invariant of the user's state |
| C131 | `set_velocity` with a start value and gradient points (`CoreModel.v`), `PchipModel.v`, `PPolyModel.v` | the bounds of C126 for the gradient, then the mean value theorem for the difference of the velocities |
| C132 | the same, and velocity points | every slope of the interpolation is scaled by the same factor (case analysis on the signs); the antiderivatives agree as they have equal derivatives and one common value |
| C133 | the same | closed form of the slope at a place from its neighbours; one column is used for one interval |
| C134 | Thwaites `shape_d`, `delta_d` (`CoreModel.v`), the four fits (`ThwaitesFitsModel.v`) | REFUTED for White's fit (witness); bounds of the fits: polynomial certificate for White, `nra` for Drela, cases for Cebeci and Bradshaw, spline bounds for the default |
| C135 | `HeadModel.v`, `ode_impl` (`CoreModel.v`) | at the shape factor 1.11 its derivative is positive (constants by interval arithmetic), so that it cannot get there; growth from the lemma of C122 |
| C136 | `ThreadModel.v`: calls as trees of attribute reads and writes, `schedule` | a thread's program reads and writes only what the division gives it (closure under sequencing); induction on the schedule; the steps of a call taken together are the call of `CoreModel.v` |
| C137 | as C136 | REFUTED (schedule of two threads with one FalknerSkanStagCondition); instance of C136 with shared ManualConditions |
| C138 | as C136 | REFUTED (three schedules); the states solve passes through have the old solution, none, then the new; queries only read |
| C139 | as C136, `psteps` | REFUTED (two witnesses); same description of the states of solve; a later solve overwrites what was left in the condition |
| C140 | `FloatThwaitesModel.v`: the formulas in binary64, operation by operation | relative error of each operation (Flocq), orders of magnitude to exclude overflow and underflow |
| C141 | as C140 | absolute error of each operation; quotient with both errors |
| C142 | as C140, `clamp64` | range check against the exact one (the ends differ by their rounding, the sign agrees); absolute errors along Horner's scheme and the quotients |
| C143 | `CopyModel.v`: a store of objects; beside each attribute that can hold a difference formula, the object it reads; `deep_copy` | simulation between the calls on copy and original; witness with a rejected velocity |
| C144 | as C143 | invariant: the formulas of an object read the object itself; then each step is CoreModel's; frame lemmas for what other objects see; witnesses |
| C145 | SimilarityModel as for C47; ProfileSpec.v: `rising`, `inside_edge`, `shear_falls` | f'' times an integrating factor is monotone; a maximum of f' above 1 contradicts the equation; existence of example profiles by Picard iteration |
| C146 | as C145 | the integrals of C51, C52, C77 compared under the integral sign, residuals bounded |
| C147 | as C145; `continues_as`: the profile above the edge is a polynomial | a polynomial that is not constant leaves every bounded interval; witness: the exact default Blasius profile continued along its tangent |
| C148 | CoreModel as for C24; LinearFlowSpec.v: `linear_flow` | the quadrature of C24 integrated in closed form; witness: u_e = x solved from the stagnation-point condition |
| C149 | as C148; `retarded_flow`, `retarded_separation` | Thwaites' parameter in closed form, monotone in x, compared with the zero of each fit's shear (C22, C60, C97) |
| C150 | SimilarityArrayModel.v: the queries on Python floats, numpy floats and one-dimensional arrays, numpy's broadcasting; SimilarityArraySpec.v: `elementwise`, `points` | each intermediate value represents a function of the point; arithmetic keeps that |
| C151 | as C150 | each kind of float computed; at zero and below it Python's own exceptions and complex numbers |
| C152 | as C150; ThwaitesArrayModel.v, HeadArrayModel.v | the dense output's exception for an empty array goes through every query |
| C153 | CoreModel; CompletedSpec.v: `steps_checked` | the sign of the event function is carried from point to point of the integration; witness: exact Head solution (C116) from the shape factor 3 |
| C154 | as C97 | the first event is the separation event with the current critical value (C39) |
| C155 | CoreModel; WedgeSpec.v | the quadrature of C98 integrated in closed form for a power of x; the parameter is then constant; examples from an existence lemma on positive x |
| C156 | as C127, C131; PchipModel | the errors of C131 put into the stability estimates of C124 |
| C157 | the station reader on binary64 rows (FloatStanfordModel) | relative error bounds per operation; the checks compared with the exact reader's tolerances |
| C158 | the right-hand side of Head's method on binary64 numbers (FloatHeadModel), with a power oracle | relative error bounds per operation, errors of powers through the logarithm, sums relative to the magnitudes of their terms |
| C159 | the setters, solve and queries of two objects (CoreModel) | follows the initial values through the setup into the stored solution at the start |
| C160 | copy.copy of method objects, with conditions and event lists in a store (ShallowModel) | the copy refers to what the original refers to; the first call follows the same references |
| C161 | as C160 | witnesses with an assigned initial value and with a passed stopping condition; for renewed copies an invariant that no two objects refer to one condition or list |
| C162 | the setters of the reader and loading (XFoilModel) | induction over the history; each setter changes its own value only |
| C163 | the linear form's right-hand side and queries (CoreModel) | both closed quadratures, compared after dividing by the ratio of the final velocities; monotonicity of the default fit |
| C164 | solve and the queries (CoreModel) | cases of the result, and insulation of the stored solution from later calls (C17) |
| C165 | the reader (XFoilModel) and set_velocity (CoreModel) with scipy's PCHIP (PchipModel) | composition of C58, C60, C64 and C92; sortedness of the shifted columns |
| C166 | the queries of a case (CaseQueryModel) over the loaded stations (StanfordModel) | stations paired with file entries (C68), then column by column; Python indexing by cases |
| C167 | the case, the constructor of Head's method and set_velocity | composition of C66, C68, C86 and C92 |
| C168 | set_velocity with points (PchipModel), the stagnation condition and solve | the end slope formula of the interpolation, by its branches; REFUTED |
| C169 | histories of calls (CoreSpec) and the initial condition | invariants of the condition in force, by induction on the history; REFUTED in general |
| C170 | the methods with a velocity without derivative | comparison of the two solutions (integrating factor; one-sided Lipschitz bound; Head: system_close) and the bound of C01 |
| C171 | the reported v_e, tau_w, delta_m, delta_d along a solution | each query is the derivative of a reported quantity; integrated with the fundamental theorem |
| C172 | `felsch`, `white` in binary64 (FloatFrictionModel) | error analysis with Flocq; the clip keeps the difference above 2e-11, checked with `interval` |
| C173 | XFoil reader and the three constructors together | stagnation interpolation is a convex combination; surface velocity from C165; start state from the setters |
| C174 | White's shear, Drela's fit and the nonlinear right-hand side in binary64 (FloatPowFitsModel) | absolute error analysis with Flocq; near separation the power is subadditive, and the gap between doubles; backward error in the state |
| C175 | `shape_d`, `delta_m`, `delta_d`, `tau_w` of Thwaites' method in binary64 (FloatReportsModel) | backward error in the stored value, forward errors of C142 and C174, absolute and relative error analysis with Flocq |
| C176 | `delta_d`, `tau_w`, `v_e` of Head's method in binary64 (FloatHeadReportsModel) | error analysis with Flocq on top of C158, relative to the magnitudes of the terms for `v_e` |
| C177 | `u_e`, `delta_d/m/k/s`, `shape_d/k`, `v_e`, `tau_w`, `dissipation` of the similarity solutions in binary64 (FloatSimilarityModel) | relative error analysis with Flocq; a power with an exponent of either sign |
| C178 | `reset_m`, `reset_beta`, `m` of the Falkner-Skan solution in binary64 (FloatWedgeModel) | relative error analysis with Flocq; counterexamples computed in binary64 |

No property is considered inexpressible.  Parts that stay outside every model are listed
under "Not modelled".

Assumptions that appear as hypotheses of theorems, with the theorems that use them:

* `ivp_contract` (CoreSpec.v): what `solve_ivp` promises about status, points and roots - C10,
  C11 and the witnesses of the refuted properties.
* `roots_are_zeros` (WorkflowSpec.v): a recorded root is a zero of the event function - C97, C115, C149, C154.
* `steps_checked` (CompletedSpec.v): `solve_ivp` compares the signs of the event functions at the ends of each step - C153.
* `cubic_spline_ok` (SplineSpec.v): `CubicSpline` returns the spline it documents - C90, C91,
  C97, C111, C113, C114, C115, C117, C120-C122 for the default fit.  SplineProofs.v shows that such a spline exists.
* `quad` integrates continuous functions exactly - C53, C77.  `root_scalar` returns a root
  in its bracket - C78.
* `exact_ivp`, `exact_quad`, `exact_bisect` (BlasiusSpec.v): the integrator, the quadrature and the root
  finder the Blasius solution uses are exact - C107, C114.
* `local_ivp` (TranslationSpec.v): `solve_ivp` evaluates the right-hand side and the events inside the interval
  only - C118.
* `ivp_moves`, `pchip_moves` (TranslationSpec.v): `solve_ivp` and `PchipInterpolator` commute with a shift of the
  axis, as they do in exact arithmetic - C119 (proved for the documented PCHIP algorithm).
* C120-C122 are about exact solutions; the dense output of `solve_ivp` is a hypothesis there.

## 4. Trusted base

* Coq 8.16.1's kernel (including `vm_compute` and the primitive 63-bit integers used by
  the `interval` tactic).
* Axioms reported by `Print Assumptions`: only the standard library's; the exact list per
  theorem is kept in section 6.
* The faithfulness of the model to `/repo`, argued by the citations in the model files.

## 5. Modelled and not modelled

Modelled (file in `/repo/ibl` -> model): `ibl_method.py` -> FiniteDiffModel, FloatModel, PPolyModel,
PchipModel, CoreModel, WorkflowModel, EffectModel, ThreadModel, CopyModel, ShallowModel; `thwaites_method.py` ->
ThwaitesFitsModel, CoreModel, ThwaitesArrayModel, CopyModel, ShallowModel, FloatThwaitesModel, FloatPowFitsModel, FloatReportsModel;
`head_method.py` -> HeadModel, HeadArrayModel, CoreModel, ShallowModel, FloatHeadModel, FloatHeadReportsModel; `skin_friction.py` ->
SkinFrictionModel, FloatHeadModel, FloatFrictionModel; `initial_condition.py` -> InitialConditionModel, FloatThwaitesModel; `analytic/*.py` ->
SimilarityModel, SimilarityArrayModel, FloatSimilarityModel, FloatWedgeModel; `reference/_xfoil_*.py` -> XFoilModel, FloatXFoilModel (text handling in PyText);
`reference/_stanford_1968*.py` -> StanfordModel, CaseQueryModel, FloatStanfordModel.

Not modelled: floating-point rounding outside the finite differences, the shape-factor setter
(FloatModel.v), the arc lengths of the XFoil loader (FloatXFoilModel.v; there Python's `float` is
assumed to round a printed decimal correctly), the Stanford tables (FloatStanfordModel.v), the formulas
of Thwaites' method (FloatThwaitesModel.v, FloatPowFitsModel.v, FloatReportsModel.v) and the right-hand side and reports of Head's
method and the skin friction correlations (FloatHeadModel.v, FloatHeadReportsModel.v, FloatFrictionModel.v)
and the reports of the similarity solutions (FloatSimilarityModel.v, FloatWedgeModel.v), where the C library's
`pow`, `log10` and `exp` are parameters assumed accurate to two units of 2^-53; the step control and discretisation error of
`solve_ivp` (theorems on solutions are about exact solutions); solver tolerances; user
callables that raise, change state or return non-finite values, except in EffectModel.v (C128-C130),
and user code that calls the method object it is used by; threads and interruption other than
between the attribute reads and writes of ThreadModel.v (C136-C139); pickling
(deep copies: CopyModel.v, C143-C144; shallow copies: ShallowModel.v, C160-C161); the contents of the data files
shipped with the package; numpy broadcasting beyond what the model files describe (no arrays of two or more dimensions);
docstrings, type annotations, `typing.py`; `_pybl.py` (entirely commented out); the
`examples`, `tests` and `docs` directories.

## 6. Axioms per theorem

What `Print Assumptions` lists (generated by `tools/axioms.py`). All are the standard
library's: `sig_forall_dec`, `sig_not_dec` and `functional_extensionality_dep` come with its
real numbers, `classic` with its classical logic, and the primitive integers and floats with
the `interval` tactic, which computes with them.

**Group 1: none (closed under the global context)**

* EffectProps: set_velocity_calls_nothing
* SimilarityArrayProps: array_profile
* StanfordProps: file_sections

**Group 2: `ClassicalDedekindReals.sig_forall_dec`, `FunctionalExtensionality.functional_extensionality_dep`**

* CoreProps: derivatives_current_unique, rejected_velocity_partial, rejected_callable_velocity, bad_derivative_partial, point_input_validated, point_input_length
* EffectProps: hidden_state_set_velocity_partial
* InitialConditionProps: manual_condition_ratios, condition_viscosity
* InvarianceProps: pchip_scipy_moves
* PointsProps: points_units, points_local, gradient_points_local
* SearchProps: given_parameters_used, search_is_secant, affine_response_solved, failed_integration_clears
* SimilarityProps: constructed_objects, integrated_equation, wedge_round_trip, wedge_in_range, wedge_rejected, wedge_rejected_refuted, rejected_reset_partial, rejected_reset_refuted, search_terminates, search_edge_partial, search_edge_refuted
* StanfordProps: units_immaterial_velocity, wrong_velocity_columns_rejected
* ThreadProps: setters_alone
* ThwaitesFitsProps: spline_fit_derivative, out_of_range_scalar, array_elementwise_refuted, array_elementwise_partial, array_exact, drela_spurious_separation
* WedgeProps: wedge_separation_exponent
* XFoilCaseProps: xfoil_case_data, xfoil_case_assignment
* XFoilProps: valid_dump_loads, xfoil_partition, xfoil_arc_lengths, stagnation_point_partial, stagnation_point_refuted, zero_velocity_rejected, zero_velocity_loads_refuted, filename_never_kept, filename_kept_refuted, load_replaces_all, load_resets_attributes, xfoil_edge_velocity, xfoil_setter_rejects, row_invariants_partial, bad_row_rejected, row_invariants_refuted, no_upper_side_rejected, no_lower_side_rejected, rows_independent_upper, rows_independent_lower, xfoil_columns
* XFoilStartProps: xfoil_inviscid_start_refused

**Group 3: `ClassicalDedekindReals.sig_forall_dec`, `ClassicalDedekindReals.sig_not_dec`, `FunctionalExtensionality.functional_extensionality_dep`**

* CaseNewProps: case_change_as_constructor, new_case_empty
* CaseQueryProps: no_case_arrays
* CoreProps: stagnation_start
* FloatStanfordProps: float_station_tolerances
* InitialConditionProps: stagnation_condition, stagnation_zero_gradient, stagnation_negative_gradient, manual_condition
* SimilarityProps: derivatives_determined, kinetic_energy_integral
* StanfordProps: units_immaterial, derived_quantities_partial, stations_paired, well_formed_case_loads, reset_like_new, case_change_like_new, failed_change_drops_data_partial, wrong_ident_rejected, empty_case_clears, station_positive, wrong_columns_rejected
* StartPointsProps: stagnation_two_points_start_partial
* ThreadProps: queries_alone
* ThwaitesOdeProps: thwaites_reported_consistent
* UnitsProps: kinetic_energy_refuted

**Group 4: `ClassicalDedekindReals.sig_forall_dec`, `ClassicalDedekindReals.sig_not_dec`, `Classical_Prop.classic`, `FunctionalExtensionality.functional_extensionality_dep`**

* AgreementProps: linear_nonlinear_agree, linear_nonlinear_agree_fits
* BalanceProps: thwaites_mass_balance, thwaites_momentum_balance
* BlasiusProps: blasius_defaults, blasius_wall_value
* CaseFlowProps: case_sets_up_head, case_gradient_sets_up_head
* CaseQueryProps: case_arrays
* CompletedProps: completed_head_partial, completed_thwaites_partial, head_separation_location
* CopyProps: copy_like_original_partial, copy_like_original_refuted, rejected_velocity_on_copy, copying_changes_no_object, original_independent_of_copies, copy_independent_partial, explicit_velocity_given, explicit_fit_given, given_functions_stay, copy_independent_refuted, copy_follows_original, copy_fit_independent_refuted, other_calls_harmless, renewed_copy_independent
* CoreProps: fd_first_derivative_error, fd_derivatives_exact, fd_second_derivative_error, fd_second_from_first_error, derivatives_current, constructor_velocity, rejected_velocity_refuted, bad_derivative_refuted, velocity_from_derivative_points, constructed_without_velocity, velocity_query_before_set, velocity_query_after_set, viscosity_never_nonpositive, solve_reports, event_attribution, nonterminal_event_misattributed, message_begins_with_status, result_details, events_leak_refuted, events_in_force, events_after_configuration, queries_before_solve, solution_held_iff, solution_insulated_refuted, solution_insulated_partial, initial_delta_m_refuted, initial_delta_m_partial, initial_delta_m_rejected, fit_in_force, custom_fit_derivative, fit_selection, head_event_current, head_start_order_refuted, head_start_order_partial, head_start_other_order, data_fits_atomic, separation_event_uses_fit, construct_then_set, failed_solve_keeps_previous
* DecelerationProps: slower_flow_thicker, decelerating_flow_thicker
* EffectProps: user_exceptions, query_exceptions, calls_in_interval_refuted, calls_in_interval_partial, query_calls, hidden_state_refuted, hidden_state_solve_partial, hidden_state_queries_partial
* EndStateProps: end_state_reported
* FloatHeadProps: float_skin_friction
* FloatHeadReportsProps: float_head_delta_d, float_head_tau
* FloatPowFitsProps: float_white_separation, float_drela_fit, float_nonlinear_rhs_cb, float_nonlinear_rhs_drela
* FloatProps: float_first_derivative, float_second_derivative, float_derivative_of_given, constant_velocity_first_partial, constant_velocity_second_refuted, constant_velocity_second_partial, float_shape_round_trip_refuted, float_shape_round_trip_partial
* FloatReportsProps: float_reports_cb, float_reports_drela
* FloatSimilarityProps: float_similarity_u_e, float_similarity_thicknesses, float_similarity_shape, float_similarity_fluxes
* FloatStanfordProps: float_flow_row, float_station_loads, float_station_agrees, float_sample_loads, float_sample_agrees
* FloatThwaitesProps: float_stagnation_thickness, float_stagnation_start, float_delta_m, float_start_round_trip, float_tau_w, float_linear_rhs, float_white_shape, float_white_shape_p, float_white_shear_base, float_cb_fit, float_cb_f
* FloatWedgeProps: float_wedge_round_trip_partial, float_wedge_rejected_partial, float_wedge_infinite_partial, float_wedge_round_trip_refuted
* FloatXFoilProps: float_arc_lengths_refuted, float_arc_lengths_partial, float_printed_dump_partial, float_zero_velocity_refused, float_one_sided_refused
* GradientErrorProps: gradient_error_linear, gradient_error_nonlinear, plain_gradient_error, plain_velocity_linear, plain_velocity_nonlinear
* GradientSamplesProps: gradient_samples_linear, gradient_samples_linear_smooth, gradient_samples_nonlinear
* HandoffProps: head_takes_over, head_takes_over_condition, thwaites_takes_over
* HeadProps: entrainment_derivative, entrainment_velocity_formula, head_transpiration, head_calling_form_partial, tau_w_scalar_refuted, tau_w_input_overwritten_refuted, head_tau_before_solve, head_transpiration_array_partial
* InvarianceProps: locality_refuted, locality_differenced, locality_given, translation_thwaites, translation_head
* LinearFlowProps: linear_velocity_closed_form, stagnation_thickness_refuted, stagnation_thickness_partial, retarded_flow_wall_shear, retarded_flow_wall_shear_cb, retarded_flow_separation
* OrderProps: restart_thwaites, thicker_start, growth_thwaites
* PointsProps: sampled_gradient_points, sampled_gradient_points_smooth, gradient_points_units, points_units_accepted, gradient_points_upstream
* ProfileProps: blasius_profile_rises, blasius_default_inside_edge, accelerated_profile_rises, decelerated_profile_rises, thicknesses_ordered, edge_velocity_partial, blasius_edge_velocity_partial, velocity_above_edge_unbounded, velocity_above_edge_refuted
* SamplingProps: sampled_velocity, sampled_gradient, sampled_smooth, sampled_linear_thwaites, sampled_linear_thwaites_smooth, sampled_nonlinear_thwaites
* ShallowProps: shallow_copy_like_original, shallow_copy_independent_refuted, shallow_copy_stops_refuted, shallow_copy_shares, shallow_copy_initial_value, shallow_copy_separation, original_flow_partial, copy_flow_partial, renewed_copies_partial
* ShapeProps: displacement_refuted, displacement_partial
* SimilarityArrayProps: array_one_position, array_two_positions, numpy_float_answer, python_float_answer_partial, python_float_zero_refuted, python_float_negative_refuted, python_float_decelerating_refuted, no_positions_refuted, no_positions_partial
* SimilarityProps: similarity_continuity, similarity_momentum, similarity_wall, similarity_transpiration, displacement_integral, momentum_thickness_integral, dissipation_integral, shear_thickness, shape_factors_constant
* SplineProps: data_fits_published, default_fit_well_behaved
* StabilityProps: velocity_error_linear, velocity_error_nonlinear, units_nonlinear_partial
* StanfordProps: flow_row_loads, station_loads, derived_quantities_close, derived_quantities_refuted, profile_consistent, failed_change_consistent_refuted, profile_nonnegative_refuted
* StartPointsProps: stagnation_points_start_refuted, stagnation_points_start_partial
* StartValuesProps: start_values_refuted, start_values_nan_refuted, start_values_partial
* ThreadProps: threads_independent, solve_alone, shared_condition_threads_refuted, shared_manual_threads_partial, query_during_solve_refuted, query_during_solve_partial, interrupted_call_refuted, interrupted_solve_partial
* ThwaitesFitsProps: fit_derivative_reported, fit_derivative_exists, fit_derivative_out_of_range_refuted, cebeci_bradshaw_jump, white_shear_zero_iff, cebeci_bradshaw_shear_zero, separation_detected_partial
* ThwaitesOdeProps: linear_quadrature, linear_solution_exists, linear_solution_unique, linear_solution_positive, thwaites_transpiration, thwaites_transpiration_builtin, nonlinear_momentum_integral, thwaites_rhs_finite, builtin_fits_finite, thwaites_solution_positive, head_solution_positive
* UnitsProps: linear_offset_effect, initial_thickness_influence, units_refuted, units_linear_partial, thwaites_array_refuted, thwaites_array_partial, one_sided_fits
* WedgeProps: wedge_flow_thickness, wedge_flow_wall_shear, wedge_flow_wall_shear_cb
* WellPosedProps: nonlinear_solution_unique, white_solution_partial, white_solution_refuted, white_solution_until, white_solution_decelerating, nonlinear_accuracy, linear_accuracy, flat_plate_partial, flat_plate_refuted
* WorkflowProps: velocity_from_points, velocity_from_gradient_points, solve_repeatable, configuration_order, reynolds_independence, shared_condition_refuted, shared_condition_partial, separate_conditions_independent, shared_condition_live, separation_location_refuted
* XFoilFlowProps: xfoil_surface_velocity
* XFoilStartProps: xfoil_sets_up_methods

**Group 5: `ClassicalDedekindReals.sig_forall_dec`, `ClassicalDedekindReals.sig_not_dec`, `Classical_Prop.classic`, `FunctionalExtensionality.functional_extensionality_dep` and the primitives `PrimInt63.add`, `PrimInt63.addc`, `PrimInt63.addcarryc`, `PrimInt63.addmuldiv`, `PrimInt63.compare`, `PrimInt63.div`, `PrimInt63.diveucl`, `PrimInt63.diveucl_21`, `PrimInt63.eqb`, `PrimInt63.head0`, `PrimInt63.int`, `PrimInt63.land`, `PrimInt63.leb`, `PrimInt63.lor`, `PrimInt63.lsl`, `PrimInt63.lsr`, `PrimInt63.ltb`, `PrimInt63.lxor`, `PrimInt63.mod`, `PrimInt63.mul`, `PrimInt63.mulc`, `PrimInt63.sub`, `PrimInt63.subc`, `PrimInt63.subcarryc`, `PrimInt63.tail0`, `Uint63.add_spec`, `Uint63.addc_def_spec`, `Uint63.addcarryc_def_spec`, `Uint63.addmuldiv_def_spec`, `Uint63.compare_def_spec`, `Uint63.div_spec`, `Uint63.diveucl_21_spec`, `Uint63.diveucl_def_spec`, `Uint63.eqb_correct`, `Uint63.eqb_refl`, `Uint63.head0_spec`, `Uint63.land_spec`, `Uint63.leb_spec`, `Uint63.lor_spec`, `Uint63.lsl_spec`, `Uint63.lsr_spec`, `Uint63.ltb_spec`, `Uint63.lxor_spec`, `Uint63.mod_spec`, `Uint63.mul_spec`, `Uint63.mulc_spec`, `Uint63.of_to_Z`, `Uint63.sub_spec`, `Uint63.subc_def_spec`, `Uint63.subcarryc_def_spec`, `Uint63.tail0_spec`**

* AccelerationProps: accelerating_thwaites_not_separated, accelerating_wall_shear
* FloatFrictionProps: float_friction_exact
* HeadProps: entrainment_branches, tau_w_array_partial, tau_w_scalar_spline_partial
* LinearFlowProps: retarded_flow_reported
* SkinFrictionProps: skin_friction_positive, skin_friction_decreases_with_re, skin_friction_decreases_with_shape, felsch_total_in_shape, skin_friction_published_formulas, felsch_separation_value
* ThwaitesFitsProps: drela_separation_refuted
* WorkflowProps: separation_location_partial

**Group 6: `ClassicalDedekindReals.sig_forall_dec`, `ClassicalDedekindReals.sig_not_dec`, `Classical_Prop.classic`, `FunctionalExtensionality.functional_extensionality_dep` and the primitives `FloatAxioms.Prim2SF_SF2Prim`, `FloatAxioms.Prim2SF_valid`, `FloatAxioms.SF2Prim_Prim2SF`, `FloatAxioms.abs_spec`, `FloatAxioms.add_spec`, `FloatAxioms.classify_spec`, `FloatAxioms.compare_spec`, `FloatAxioms.div_spec`, `FloatAxioms.eqb_spec`, `FloatAxioms.frshiftexp_spec`, `FloatAxioms.ldshiftexp_spec`, `FloatAxioms.ltb_spec`, `FloatAxioms.mul_spec`, `FloatAxioms.next_down_spec`, `FloatAxioms.next_up_spec`, `FloatAxioms.normfr_mantissa_spec`, `FloatAxioms.of_uint63_spec`, `FloatAxioms.opp_spec`, `FloatAxioms.sqrt_spec`, `FloatAxioms.sub_spec`, `PrimFloat.abs`, `PrimFloat.add`, `PrimFloat.classify`, `PrimFloat.compare`, `PrimFloat.div`, `PrimFloat.eqb`, `PrimFloat.float`, `PrimFloat.frshiftexp`, `PrimFloat.ldshiftexp`, `PrimFloat.ltb`, `PrimFloat.mul`, `PrimFloat.next_down`, `PrimFloat.next_up`, `PrimFloat.normfr_mantissa`, `PrimFloat.of_uint63`, `PrimFloat.opp`, `PrimFloat.sqrt`, `PrimFloat.sub`, `PrimInt63.add`, `PrimInt63.eqb`, `PrimInt63.int`, `PrimInt63.land`, `PrimInt63.leb`, `PrimInt63.lor`, `PrimInt63.lsl`, `PrimInt63.lsr`, `PrimInt63.ltb`, `PrimInt63.sub`, `Uint63.add_spec`, `Uint63.eqb_correct`, `Uint63.eqb_refl`, `Uint63.land_spec`, `Uint63.leb_spec`, `Uint63.lor_spec`, `Uint63.lsl_spec`, `Uint63.lsr_spec`, `Uint63.ltb_spec`, `Uint63.of_to_Z`, `Uint63.sub_spec`**

* AccelerationProps: accelerating_head_not_separated, head_solution_partial, head_solution_below_partial, head_solution_above_partial, head_solution_unique_partial, head_solution_refuted
* BalanceProps: head_mass_balance
* CompletedProps: completed_not_separated_refuted
* FloatFrictionProps: float_white_friction
* FloatHeadProps: float_head_rates, float_head_exact, float_entrainment
* FloatHeadReportsProps: float_head_v_e
* FloatPowFitsProps: float_white_shear, float_nonlinear_rhs_white
* FloatReportsProps: float_reports_white
* GradientErrorProps: gradient_error_head
* GradientSamplesProps: gradient_samples_head
* HeadProps: entrainment_velocity_positive_decreasing, head_momentum_and_entrainment, head_calling_form_refuted
* OrderProps: restart_head, growth_head
* SamplingProps: sampled_head
* ShapeProps: head_shape_low, head_shape_uniform
* StabilityProps: head_accuracy, velocity_error_head
* UnitsProps: units_head_partial

**Group 7: `ClassicalDedekindReals.sig_forall_dec`, `ClassicalDedekindReals.sig_not_dec`, `Classical_Prop.classic`, `FunctionalExtensionality.functional_extensionality_dep` and the primitives `FloatAxioms.Prim2SF_SF2Prim`, `FloatAxioms.Prim2SF_valid`, `FloatAxioms.SF2Prim_Prim2SF`, `FloatAxioms.abs_spec`, `FloatAxioms.add_spec`, `FloatAxioms.classify_spec`, `FloatAxioms.compare_spec`, `FloatAxioms.div_spec`, `FloatAxioms.eqb_spec`, `FloatAxioms.frshiftexp_spec`, `FloatAxioms.ldshiftexp_spec`, `FloatAxioms.ltb_spec`, `FloatAxioms.mul_spec`, `FloatAxioms.next_down_spec`, `FloatAxioms.next_up_spec`, `FloatAxioms.normfr_mantissa_spec`, `FloatAxioms.of_uint63_spec`, `FloatAxioms.opp_spec`, `FloatAxioms.sqrt_spec`, `FloatAxioms.sub_spec`, `PrimFloat.abs`, `PrimFloat.add`, `PrimFloat.classify`, `PrimFloat.compare`, `PrimFloat.div`, `PrimFloat.eqb`, `PrimFloat.float`, `PrimFloat.frshiftexp`, `PrimFloat.ldshiftexp`, `PrimFloat.ltb`, `PrimFloat.mul`, `PrimFloat.next_down`, `PrimFloat.next_up`, `PrimFloat.normfr_mantissa`, `PrimFloat.of_uint63`, `PrimFloat.opp`, `PrimFloat.sqrt`, `PrimFloat.sub`, `PrimInt63.add`, `PrimInt63.addc`, `PrimInt63.addcarryc`, `PrimInt63.addmuldiv`, `PrimInt63.compare`, `PrimInt63.div`, `PrimInt63.diveucl`, `PrimInt63.diveucl_21`, `PrimInt63.eqb`, `PrimInt63.head0`, `PrimInt63.int`, `PrimInt63.land`, `PrimInt63.leb`, `PrimInt63.lor`, `PrimInt63.lsl`, `PrimInt63.lsr`, `PrimInt63.ltb`, `PrimInt63.lxor`, `PrimInt63.mod`, `PrimInt63.mul`, `PrimInt63.mulc`, `PrimInt63.sub`, `PrimInt63.subc`, `PrimInt63.subcarryc`, `PrimInt63.tail0`, `Uint63.add_spec`, `Uint63.addc_def_spec`, `Uint63.addcarryc_def_spec`, `Uint63.addmuldiv_def_spec`, `Uint63.compare_def_spec`, `Uint63.div_spec`, `Uint63.diveucl_21_spec`, `Uint63.diveucl_def_spec`, `Uint63.eqb_correct`, `Uint63.eqb_refl`, `Uint63.head0_spec`, `Uint63.land_spec`, `Uint63.leb_spec`, `Uint63.lor_spec`, `Uint63.lsl_spec`, `Uint63.lsr_spec`, `Uint63.ltb_spec`, `Uint63.lxor_spec`, `Uint63.mod_spec`, `Uint63.mul_spec`, `Uint63.mulc_spec`, `Uint63.of_to_Z`, `Uint63.sub_spec`, `Uint63.subc_def_spec`, `Uint63.subcarryc_def_spec`, `Uint63.tail0_spec`**

* BalanceProps: head_momentum_balance
* FloatFrictionProps: float_felsch_positive, float_felsch, float_felsch_accurate
* HeadProps: entrainment_inverse_left, entrainment_inverse_right, entrainment_out_of_range
