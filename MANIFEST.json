{
 "claims": [
  {
   "property": "C01",
   "status": "proved",
   "theorems": [
    "C01_find_sector",
    "C01_find_sector_double"
   ],
   "note": "any scalar with a total preorder on non-NaN values; instantiated for doubles"
  },
  {
   "property": "C02",
   "status": "proved",
   "theorems": [
    "C02_uniform",
    "C02_uniform_double",
    "C02_uniform_width",
    "C02_nonpositive"
   ],
   "note": "law-free except 1*h=h, proved for doubles"
  },
  {
   "property": "C03",
   "status": "proved",
   "theorems": [
    "C03_automatic",
    "C03_automatic_real",
    "C03_automatic_tiles"
   ],
   "note": "law-free (any scalar, any oracle); at the matching point equality is operator=="
  },
  {
   "property": "C04",
   "status": "proved",
   "theorems": [
    "C04_jumps_are_boundaries"
   ],
   "note": "over the reals"
  },
  {
   "property": "C05",
   "status": "proved",
   "theorems": [
    "C05_construction_terminates",
    "C05_matslise",
    "C05_code_factor"
   ],
   "note": "over the reals, every error estimate and comparison"
  },
  {
   "property": "C06",
   "status": "partial",
   "theorems": [
    "C06_repeated_jump_hangs_refuted",
    "C06_filter_partial",
    "C06_distinct_jumps_partial"
   ],
   "note": "the property as stated is FALSE of the code: repeated jumps make construction hang (counterexample on doubles, proved for all fuel); proved for distinct jumps"
  },
  {
   "property": "C07",
   "status": "proved",
   "theorems": [
    "C07_samples_inside",
    "C07_automatic",
    "C07_uniform"
   ],
   "note": "stated as non-interference: the built problem does not depend on V at xmin, xmax, jumps or outside"
  },
  {
   "property": "C08",
   "status": "proved",
   "theorems": [
    "C08_eta_accurate",
    "C08_eta_small_every_count",
    "C08_eta_one_component_large",
    "C08_eta_columns",
    "C08_eta_closed_forms",
    "C08_eta_recurrence",
    "C08_eta_derivative"
   ],
   "note": "bound 1e-20/61^i for |Z|<100, exact for |Z|>=100, every n>=2 (all call sites); with n=1 and |Z|>=100 the code writes outside its array (no call site does this)"
  },
  {
   "property": "C09",
   "status": "proved",
   "theorems": [
    "C09_eval",
    "C09_ring",
    "C09_reversed_sub",
    "C09_widen",
    "C09_construct",
    "C09_degrees"
   ],
   "note": "exact arithmetic"
  },
  {
   "property": "C10",
   "status": "proved",
   "theorems": [
    "C10_derivative",
    "C10_derivative_at",
    "C10_integral",
    "C10_degrees"
   ],
   "note": "exact arithmetic, Coquelicot is_derive_n / is_RInt"
  },
  {
   "property": "C11",
   "status": "proved",
   "theorems": [
    "C11_table",
    "C11_orthogonal",
    "C11_coefficients",
    "C11_series",
    "C11_reproduce",
    "C11_near_best"
   ],
   "note": "exact arithmetic on the literal tables; 'up to the decimal rounding' is an explicit bound on the difference with the exact projection"
  },
  {
   "property": "C12",
   "status": "proved",
   "theorems": [
    "C12_product_rule",
    "C12_propagate"
   ],
   "note": "Matrix-level product rule and whole propagate, for every step-matrix function whose dT is its energy derivative."
  },
  {
   "property": "C13",
   "status": "proved",
   "theorems": [
    "C13_det",
    "C13_ddet_is_derivative",
    "C13_composition",
    "C13_round_trip"
   ],
   "note": "det=1/ddet=0 hypotheses are the Wronskian condition; without it the factor det is given exactly."
  },
  {
   "property": "C14",
   "status": "proved",
   "theorems": [
    "C14_residual",
    "C14_derivative_row",
    "C14_identity_at_zero",
    "C14_constant_potential",
    "C14_branches",
    "C14_eta_error"
   ],
   "note": "all 9x17x4 tabulated entries, potential of degree 13; the residual is a fixed list of monomials of order >= 15, checked by reflection over the source tables; exact arithmetic"
  },
  {
   "property": "C15",
   "status": "proved",
   "theorems": [
    "C15_full_step"
   ],
   "note": "all 10x4 entries; the terms linear in v14 of entry (1,0) are of order 15 in the difference, all others of order >= 17"
  },
  {
   "property": "C16",
   "status": "proved",
   "theorems": [
    "C16_partial_step",
    "C16_full_step",
    "C16_constant_potential"
   ],
   "note": "the dropped term is given exactly"
  },
  {
   "property": "C17",
   "status": "proved",
   "theorems": [
    "C17_initial_angle",
    "C17_scaling",
    "C17_start_range"
   ],
   "note": ""
  },
  {
   "property": "C18",
   "status": "proved",
   "theorems": [
    "C18_angle_of_solution"
   ],
   "note": "No nondegeneracy hypothesis needed."
  },
  {
   "property": "C19",
   "status": "proved",
   "theorems": [
    "C19_increment_nonneg",
    "C19_sector",
    "C19_problem"
   ],
   "note": ""
  },
  {
   "property": "C20",
   "status": "proved",
   "theorems": [
    "C20_zero_iff_angle",
    "C20_derivative"
   ],
   "note": ""
  },
  {
   "property": "C21",
   "status": "proved",
   "theorems": [
    "C21_domain",
    "C21_path",
    "C21_guard_double"
   ],
   "note": "NaN only at the level of the guard: the rest of propagate is modelled over the reals."
  },
  {
   "property": "C22",
   "status": "proved",
   "theorems": [
    "C22_linear",
    "C22_columns"
   ],
   "note": ""
  },
  {
   "property": "C23",
   "status": "proved",
   "theorems": [
    "C23_propagate",
    "C23_matching",
    "C23_search_compute",
    "C23_search_by_index",
    "C23_search_error",
    "C23_eigenvalues"
   ],
   "note": ""
  },
  {
   "property": "C24",
   "status": "proved",
   "theorems": [
    "C24_mirror",
    "C24_stored_coefficients",
    "C24_switch_twice",
    "C24_set_direction"
   ],
   "note": "Solution part; angles are not claimed to mirror."
  },
  {
   "property": "C25",
   "status": "proved",
   "theorems": [
    "C25_terminates",
    "C25_evaluations"
   ],
   "note": "any scalar type, any matching-error function (no law used)"
  },
  {
   "property": "C26",
   "status": "proved",
   "theorems": [
    "C26_sorted",
    "C26_lexicographic"
   ],
   "note": "any scalar type for the index order; lexicographic over the reals"
  },
  {
   "property": "C27",
   "status": "proved",
   "theorems": [
    "C27_brackets",
    "C27_complete",
    "C27_approximate",
    "C27_secant"
   ],
   "note": "exact arithmetic; 'probe' means an energy at which an interval is cut; C27_complete adds convergence of Newton on each leaf as an explicit hypothesis and concludes that the returned list is exactly the set of eigenvalues"
  },
  {
   "property": "C28",
   "status": "partial",
   "theorems": [
    "C28_right_end_refuted",
    "C28_left_end_refuted",
    "C27_complete"
   ],
   "note": "FALSE of the code: an eigenvalue equal to Emax is never found, one equal to Emin is lost unless the midpoint angle is within 1e-8; the open-interval version is C27"
  },
  {
   "property": "C29",
   "status": "partial",
   "theorems": [
    "C29_rejected",
    "C29_no_result_partial",
    "C29_negative_hangs_refuted"
   ],
   "note": "FALSE of the code for Imin<0: the lower bracket loop does not end; proved: no result is ever returned for an invalid range, and the helper throws"
  },
  {
   "property": "C30",
   "status": "proved",
   "theorems": [
    "C30_bracket_limits",
    "C30_bracket",
    "C30_by_index"
   ],
   "note": "exact arithmetic"
  },
  {
   "property": "C31",
   "status": "proved",
   "theorems": [
    "C31_evaluations",
    "C31_exact_root",
    "C31_error_nonneg",
    "C31_error_zero"
   ],
   "note": ""
  },
  {
   "property": "C32",
   "status": "proved",
   "theorems": [
    "C32_scalar",
    "C32_array",
    "C32_eigenfunction"
   ],
   "note": "any number type (doubles and NaN included) for evaluation; the step construction over the reals"
  },
  {
   "property": "C33",
   "status": "proved",
   "theorems": [
    "C33_left",
    "C33_right",
    "C33_eigenfunction",
    "C33_dirichlet_neumann"
   ],
   "note": "exact arithmetic; when the last sector is a forward one the right condition holds exactly when E is an eigenvalue (matching error 0)"
  },
  {
   "property": "C34",
   "status": "proved",
   "theorems": [
    "C34_any_sector",
    "C34_boundary",
    "C34_continuous"
   ],
   "note": "exact arithmetic"
  },
  {
   "property": "C35",
   "status": "proved",
   "theorems": [
    "C35_unit_norm",
    "C35_unit_norm_T"
   ],
   "note": "exact arithmetic and exact step matrices"
  },
  {
   "property": "C36",
   "status": "proved",
   "theorems": [
    "C36_array",
    "C36_contains",
    "C36_eigenvalue"
   ],
   "note": "C36_contains also for binary64"
  },
  {
   "property": "C37",
   "status": "proved",
   "theorems": [
    "C37_content",
    "C37_even_index",
    "C37_odd_index",
    "C37_sorted_strict",
    "C37_sorted"
   ],
   "note": ""
  },
  {
   "property": "C38",
   "status": "proved",
   "theorems": [
    "C38_indices"
   ],
   "note": "the half problem's own query is a parameter specified by its answers (C28-C29 prove them)"
  },
  {
   "property": "C39",
   "status": "proved",
   "theorems": [
    "C39_throws",
    "C39_array",
    "C39_symmetry",
    "C39_unit_norm"
   ],
   "note": "C39_throws/C39_array for every number type, NaN excluded (C39_nan shows what a NaN does); symmetry and norm over the reals"
  },
  {
   "property": "C40",
   "status": "partial",
   "theorems": [
    "C40_value_partial",
    "C40_derivative_refuted"
   ],
   "note": "FALSE of the code: for x < 0 the pointwise derivative has the wrong sign (halfrange.cpp:47-53); proved: values always agree, derivatives agree for x >= 0"
  },
  {
   "property": "C41",
   "status": "proved",
   "theorems": [
    "C41_symmetric",
    "C41_general",
    "C41_no_recursion",
    "C41_eigenpairs",
    "C41_parity"
   ],
   "note": ""
  },
  {
   "property": "C42",
   "status": "proved",
   "theorems": [
    "C42_terminates",
    "C42_bracket",
    "C42_inside",
    "C42_zero",
    "C42_double",
    "C42_infinite_end"
   ],
   "note": "exact arithmetic: termination for every function and every eps > 0; C42_double: on doubles too, with one bound on the number of turns for all functions and all intervals up to 2^1000 in size; C42_infinite_end: an infinite upper end can make it loop for ever"
  },
  {
   "property": "C43",
   "status": "proved",
   "theorems": [
    "C43_results",
    "C43_byIndex",
    "C43_range",
    "C43_total",
    "C43_pair",
    "C43_windows",
    "C43_ground",
    "C43_range_windows",
    "C43_negative_diverges"
   ],
   "note": "C43_results for every number type (NaN energies pass both comparisons: the statement says so); C43_negative_diverges: asking for indices from -2 never returns"
  },
  {
   "property": "C44",
   "status": "proved",
   "theorems": [
    "C44_zero",
    "C44_derivative"
   ],
   "note": "exact arithmetic, any step matrices"
  },
  {
   "property": "C45",
   "status": "partial",
   "theorems": [
    "C45_eigenpairs_partial",
    "C45_eigenfunction_refuted"
   ],
   "note": "FALSE of the code for eigenfunction(E): it uses the kernel vector itself as boundary value on both sides (periodic.cpp:250-262); proved for the functions returned by eigenpairs/eigenpairsByIndex when the mismatch matrix is exactly singular"
  },
  {
   "property": "C46",
   "status": "proved",
   "theorems": [
    "C46_pieces",
    "C46_terminates",
    "C46_constant"
   ],
   "note": "partition for any p and w whenever the construction returns; it returns for continuous positive p and w (exact arithmetic)"
  },
  {
   "property": "C47",
   "status": "proved",
   "theorems": [
    "C47_lookup",
    "C47_constructed",
    "C47_r2x",
    "C47_contained",
    "C47_outside"
   ],
   "note": "exact arithmetic; x->r needs the last piece not to be reversed, r->x->r needs each piece's map to be nondecreasing (proved for constant coefficients: C46_constant)"
  },
  {
   "property": "C48",
   "status": "proved",
   "theorems": [
    "C48_halvings",
    "C48_accuracy",
    "C48_x2r"
   ],
   "note": "exact arithmetic"
  },
  {
   "property": "C49",
   "status": "proved",
   "theorems": [
    "C49_sigma",
    "C49_z2y",
    "C49_potential",
    "C49_boundary",
    "C49_product",
    "C49_constant_product",
    "C49_ends"
   ],
   "note": "stated for the coefficient functions represented by a piece; the difference of these polynomials with the user's p and w is C11 (projection error), and the bisection error in q/w is exhibited in the statement"
  },
  {
   "property": "C50",
   "status": "partial",
   "theorems": [
    "C50_value_partial",
    "C50_eigenfunction_value",
    "C50_array",
    "C50_derivative_refuted"
   ],
   "note": "FALSE of the code: y2z exchanges the factors of value and derivative (liouville.cpp:229-232), so derivatives of Sturm-Liouville eigenfunctions are wrong; proved: values round trip, the exact derivative error, batch = pointwise"
  },
  {
   "property": "C51",
   "status": "partial",
   "theorems": [
    "C51_columns_reject",
    "C51_columns_inside",
    "C51_same_solution",
    "C51_inside_partial",
    "C51_refuted",
    "C51_target_refuted"
   ],
   "note": "FALSE of the code: Matscs::propagatePsi has no domain test (matscs.cpp:56-73): a start outside indexes the sectors with -1 (undefined behaviour), a target outside silently returns; proved: propagateColumn/propagate reject, and all three pass through the sectors in order inside the domain"
  },
  {
   "property": "C52",
   "status": "partial",
   "theorems": [
    "C52_columns",
    "C52_quotient_partial",
    "C52_step_ignores_direction",
    "C52_refuted"
   ],
   "note": "FALSE of the code: the sector step for psi ignores the sign of delta (sector.cpp:253-284), so there-and-back gives psi+2 on V=E; proved: column propagation there-and-back is the identity for invertible steps, and from a sector boundary in the sectors' own direction psi is the quotient of the columns"
  },
  {
   "property": "C53",
   "status": "partial",
   "theorems": [
    "C53_values",
    "C53_points",
    "C53_first_sector_partial",
    "C53_refuted"
   ],
   "note": "FALSE of the code: the sector reference is never advanced and y starts at zero (matscs.cpp:75-103), so only the points in the first sector get a value and every value is zero"
  },
  {
   "property": "C54",
   "status": "proved",
   "theorems": [
    "C54_safe",
    "C54_exact",
    "C54_all_destroyed"
   ],
   "note": "transition system over all histories; one address per problem (its members die with it)"
  },
  {
   "property": "C55",
   "status": "partial",
   "theorems": [
    "C55_refuted",
    "C55_disciplined_partial",
    "C55_delete_all_partial"
   ],
   "note": "FALSE of the code: the JavaScript function returned for an eigenfunction does not keep the problem alive, so delete() of the problem followed by a call is a use after free, in every history; proved: histories without such a call are safe, and deleting all handles destroys everything"
  },
  {
   "property": "C56",
   "status": "partial",
   "theorems": [
    "C56_rejects",
    "C56_steps_partial",
    "C56_tolerance_partial",
    "C56_returned_partial",
    "C56_zero_steps_refuted",
    "C56_negative_steps_refuted",
    "C56_negative_tolerance_refuted"
   ],
   "note": "FALSE of the code in its second half: steps=0 is accepted and is undefined behaviour, negative steps and negative or NaN tolerances pass the checks and fail later with length_error; the rejections themselves and the valid options are proved"
  },
  {
   "property": "C57",
   "status": "proved",
   "theorems": [
    "C57_potential_minimum"
   ],
   "note": "any scalar with order laws"
  },
  {
   "property": "C58",
   "status": "partial",
   "theorems": [
    "C58_refuted",
    "C58_while_held_partial"
   ],
   "note": "FALSE of the code: __sector returns an unowned pointer (return_value_policy::reference); proved: valid exactly while the problem or one of its eigenfunctions is held"
  },
  {
   "property": "C59",
   "status": "proved",
   "theorems": [
    "C59_calculateT",
    "C59_partial_step",
    "C59_partial_step_degree_13",
    "C59_full_step",
    "C59_solutions_exist"
   ],
   "note": "exact arithmetic apart from the truncated eta series; K is existential; the full step is compared with a series witness of order 19 checked by the kernel"
  },
  {
   "property": "C60",
   "status": "proved",
   "theorems": [
    "C60_determinant",
    "C60_round_trip"
   ],
   "note": "exact arithmetic apart from the truncated eta series; K is existential and depends on the bounds B, W, L only"
  },
  {
   "property": "C61",
   "status": "proved",
   "theorems": [
    "C61_propagation",
    "C61_representation"
   ],
   "note": "K existential; the coefficient bound B, the bound W on |mean - E| and the minimal sector length 1e-12 are hypotheses; V may jump at sector boundaries"
  },
  {
   "property": "C62",
   "status": "proved",
   "theorems": [
    "C62_matching_error",
    "C62_small_at_eigenvalues",
    "C62_bracket",
    "C62_bracket_code"
   ],
   "note": "K existential; the bracket theorem holds for every step matrix function, given the deviation from the exact matching function"
  },
  {
   "property": "C63",
   "status": "proved",
   "theorems": [
    "C63_residual",
    "C63_derivative_row",
    "C63_identity_at_zero",
    "C63_constant_potential",
    "C63_full_step",
    "C63_energy_derivative",
    "C63_direction",
    "C63_set_direction",
    "C63_branches"
   ],
   "note": "exact arithmetic, exact eta functions; the eigenvectors Q are an argument; the tables were transcribed by tools/gen_coupled.py"
  },
  {
   "property": "C64",
   "status": "proved",
   "theorems": [
    "C64_angle",
    "C64_zeros_right",
    "C64_zeros_left",
    "C64_matching",
    "C64_piecewise_constant",
    "C64_single_sector_refuted"
   ],
   "note": "exact arithmetic; exactness of the steps, resolved sectors and (for targets inside a sector) a mean condition are hypotheses, discharged for piecewise constant potentials; for steps = 1 the claim about matching is FALSE of the code (C64_single_sector_refuted)"
  },
  {
   "property": "C65",
   "status": "proved",
   "theorems": [
    "C65_rises",
    "C65_continuous",
    "C65_index",
    "C65_oscillation",
    "C65_piecewise_constant"
   ],
   "note": "exact arithmetic; exact steps and existence of solutions are hypotheses (exact_at), discharged for piecewise constant potentials with the code's step matrices over exact eta functions"
  },
  {
   "property": "C66",
   "status": "proved",
   "theorems": [
    "C66_eigenvalues",
    "C66_piecewise_constant"
   ],
   "note": "exact arithmetic; convergence of Newton's iteration inside an isolated bracket is a hypothesis; C66_case exhibits a problem meeting all hypotheses"
  },
  {
   "property": "C67",
   "status": "proved",
   "theorems": [
    "C67_zero",
    "C67_parity",
    "C67_window",
    "C67_sign",
    "C67_monotone",
    "C67_order",
    "C67_continuous"
   ],
   "note": "exact arithmetic; exact steps and existence of solutions are hypotheses (hill_exact), discharged for piecewise constant potentials (fp_exact for the free particle, C67_case)"
  },
  {
   "property": "C68",
   "status": "proved",
   "theorems": [
    "C68_order",
    "C68_index",
    "C68_pairs",
    "C68_below",
    "C68_ground"
   ],
   "note": "same hypotheses as C67"
  },
  {
   "property": "C69",
   "status": "proved",
   "theorems": [
    "C69_range",
    "C69_index",
    "C69_ground"
   ],
   "note": "same hypotheses as C67, at every energy; C69_case: the free particle meets them and the search terminates"
  },
  {
   "property": "C70",
   "status": "partial",
   "theorems": [
    "C70_phantom_refuted",
    "C43_pair"
   ],
   "note": "FALSE of the code: for the free particle on [0,1] with periodic conditions, eigenvalues(5, 30) lists index 0 at pi^2, although no eigenvalue lies in [5, 30]; C43_pair says when the listed energies are near zeros of the determinant"
  },
  {
   "property": "C71",
   "status": "proved",
   "theorems": [
    "C71_low",
    "C71_high",
    "C71_byIndex",
    "C71_range",
    "C71_exists",
    "C71_piecewise_constant"
   ],
   "note": "for hill_exact problems (every step exact, the equation solvable); instance without hypotheses on steps: piecewise constant potentials with the code's step formulas over exact eta functions"
  },
  {
   "property": "C72",
   "status": "proved",
   "theorems": [
    "C72_low",
    "C72_high",
    "C72_exists_unique",
    "C72_bracket",
    "C72_by_index",
    "C72_piecewise_constant"
   ],
   "note": "for problems with exact steps; C72_by_index still assumes that the probed energies are not eigenvalues themselves and that Newton's iteration converges in every isolated bracket; C72_piecewise_constant has no hypothesis on steps"
  },
  {
   "property": "C73",
   "status": "partial",
   "theorems": [
    "C73_zero",
    "C73_window_partial",
    "C73_refuted"
   ],
   "note": "FALSE of the code in its last two parts: for the free particle on [0,1] with K = (0,-1;1,0) the query for index 0 lists an energy more than 1/2 away from every eigenvalue and misses the lowest one (C73_refuted). Proved: the determinant is right for every K (C73_zero); the windows are right if m01 <= 0 < m00 + m01 or m00 + m01 < 0 <= m01 (C73_window_partial)"
  },
  {
   "property": "C74",
   "status": "partial",
   "theorems": [
    "C74_even",
    "C74_odd",
    "C74_by_index",
    "C74_eigenvalues",
    "C74_eigenfunction",
    "C74_parity",
    "C74_exists_unique",
    "C74_sides",
    "C74_robin_refuted"
   ],
   "note": "everything proved except the last sentence, which is FALSE for conditions that are neither Dirichlet nor Neumann: with left = right = (1, 1) the general problem has the eigenvalue -1, which the symmetric solver never returns (C74_robin_refuted); for Dirichlet and Neumann sides it holds (C74_sides)"
  },
  {
   "property": "C75",
   "status": "proved",
   "theorems": [
    "C75_monotone",
    "C75_perturbation",
    "C75_bounds",
    "C75_dirichlet",
    "C75_neumann",
    "C75_bracket",
    "C75_by_index",
    "C75_piecewise_constant"
   ],
   "note": "C75_monotone..C75_neumann: about the exact problem, no hypothesis on the code; C75_bracket and C75_by_index: for problems whose steps are exact for a potential V (C75_by_index: within delta of the user's W); C75_by_index assumes, like C72, that probed energies are not eigenvalues and that Newton converges in isolated brackets"
  },
  {
   "property": "C76",
   "status": "proved",
   "theorems": [
    "C76_eigenfunction",
    "C76_unique",
    "C76_orthogonal",
    "C76_piecewise_constant"
   ],
   "note": "C76_eigenfunction: values at points to which the steps are exact (exact_point), full steps exact and solvable at energies near E, dT the energy derivative of T for full steps; C76_piecewise_constant discharges all this for piecewise constant potentials with the code's formulas over exact eta functions, at every point that is an end of its sector or at least 10^-12 away from it; eta_code differs from eta_exact by the bound of C08/C14_eta_error"
  },
  {
   "property": "C77",
   "status": "partial",
   "theorems": [
    "C77_step",
    "C77_phase",
    "C77_phase_constant",
    "C77_uncoupled",
    "C77_refuted"
   ],
   "note": "first part proved for any step matrices that preserve Wronskians (C77_phase) and for the code's own ones with piecewise constant, coupled or uncoupled potential matrices (C77_phase_constant). The last sentence is FALSE as stated: for V = diag(1, 0) the eigenvalue order of Eigen differs from the order of the channels and the angle is 2 pi too large (C77_refuted). Proved when the eigenvectors of every sector are in the original order, which includes n = 1 (C77_uncoupled)"
  },
  {
   "property": "C78",
   "status": "partial",
   "theorems": [
    "C78_dominates",
    "C78_constant",
    "C78_order",
    "C78_control",
    "C78_tolerance",
    "C78_pieces",
    "C78_tolerance_refuted"
   ],
   "note": "everything proved except the last sentence, which is FALSE: for every tolerance there is a polynomial potential on [0, 1/500] with a sector whose estimate exceeds it (C78_tolerance_refuted; sectors of at most 1e-3 are never refined); C78_tolerance says when the tolerance is met. C78_control holds for IEEE doubles as well"
  },
  {
   "property": "C79",
   "status": "proved",
   "theorems": [
    "C79_pairs",
    "C79_accepts",
    "C79_quadrature"
   ],
   "note": "exact arithmetic"
  },
  {
   "property": "C80",
   "status": "proved",
   "theorems": [
    "C80_derivatives",
    "C80_values",
    "C80_propagation",
    "C80_equality",
    "C80_blocks",
    "C80_columns",
    "C80_commutes",
    "C80_change_of_unknowns",
    "C80_equality_all",
    "C80_start"
   ],
   "note": "exact arithmetic; one equation over the reals with real derivatives, n equations over any field. QR solves are exact inverses."
  },
  {
   "property": "C81",
   "status": "proved",
   "theorems": [
    "C81_newton",
    "C81_quadratic",
    "C81_error",
    "C81_local",
    "C81_piecewise_constant",
    "C81_search"
   ],
   "note": "exact arithmetic. The radius exists for every eigenvalue but is not computed; convergence is to the eigenvalue of the perturbed (piecewise) problem."
  },
  {
   "property": "C82",
   "status": "partial",
   "theorems": [
    "C82_largest_entry",
    "C82_common_energy",
    "C82_constant",
    "C82_order",
    "C82_tolerance",
    "C82_pieces",
    "C82_guarded",
    "C82_unguarded_refuted"
   ],
   "note": "all proved for coupled problems, the NaN part (C82_guarded) on IEEE doubles. FALSE for scalar problems: their estimate has no NaN guard, an estimate that is NaN is accepted at once whatever the tolerance (C82_unguarded_refuted)"
  },
  {
   "property": "C83",
   "status": "proved",
   "theorems": [
    "C83_by_index",
    "C83_symmetric"
   ],
   "note": "exact arithmetic, piecewise constant potentials. The energies of the search must not be eigenvalues themselves and the middles of the isolated brackets must lie close enough to the eigenvalues (good_run); a complete instance of both theorems is worked out."
  },
  {
   "property": "C84",
   "status": "partial",
   "theorems": [
    "C84_error_bound_refuted",
    "C81_error",
    "C81_piecewise_constant"
   ],
   "note": "FALSE as documented: for -y'' = E y on [0, 1] with Dirichlet conditions, for every tolerance and every energy between 0 and pi^2, in exact arithmetic, the returned number is strictly smaller than the distance to pi^2 (Newton's iteration approaches the eigenvalue from the same side). What holds is the two-sided estimate of C81."
  },
  {
   "property": "C85",
   "status": "proved",
   "theorems": [
    "C85_table",
    "C85_report",
    "C85_parent_first"
   ],
   "note": "Durations and counters are unbounded integers; one thread. A text stands for all paths that are printed the same way: paths with colliding names share a line, as in the code."
  },
  {
   "property": "C86",
   "status": "partial",
   "theorems": [
    "C86_exact",
    "C86_nan_refuted",
    "C86_nan_answers"
   ],
   "note": "true in exact arithmetic (C86_exact). FALSE on doubles: every K with a NaN entry is accepted (C86_nan_refuted), and whenever determinant and angles are NaN at all energies the query by index still returns numbers near -1 as eigenvalues and the query by energies converts NaN to int, which is undefined (C86_nan_answers)."
  },
  {
   "property": "C87",
   "status": "proved",
   "theorems": [
    "C87_sector_points",
    "C87_conversions"
   ],
   "note": "the second theorem takes agreement of array and scalar evaluation as hypothesis; C36_eigenvalue proves it for full problems (example C87_eval), C40 shows where half-range problems violate it."
  },
  {
   "property": "C88",
   "status": "proved",
   "theorems": [
    "C88_propagate",
    "C88_matching",
    "C88_estimates",
    "C88_mesh",
    "C88_translated_potential",
    "C88_raised_samples"
   ],
   "note": "exact arithmetic; absolute thresholds of the code (1e-12 in calculateT, 1e-3 in the builder) concern widths only and are covered"
  },
  {
   "property": "C89",
   "status": "proved",
   "theorems": [
    "C89_step",
    "C89_propagate",
    "C89_matching",
    "C89_estimate_terms"
   ],
   "note": "exact arithmetic; values and derivatives, not the stored angle (which is scaled with an absolute energy 1); steps whose width lies between the two readings of 1e-12 are excluded"
  },
  {
   "property": "C90",
   "status": "partial",
   "theorems": [
    "C90_defined_partial",
    "C90_exact_partial",
    "C90_large_refuted",
    "C90_nan_refuted"
   ],
   "note": "the unconditional statement is refuted (C90_large_refuted: exact arithmetic, every piecewise constant problem; C90_nan_refuted: doubles); C90_defined_partial and C90_exact_partial prove it under the hypothesis that the angles fit"
  },
  {
   "property": "C91",
   "status": "proved",
   "theorems": [
    "C91_basis",
    "C91_eigenvectors",
    "C91_renumbered"
   ],
   "note": "exact arithmetic; the eigenvectors are any orthogonal matrix that makes the mean potential diagonal"
  }
 ]
}