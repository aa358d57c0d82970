# Formal model of twist-numerical/matslise in Rocq (Coq 8.16.1)

## 1. Method

* `/repo` is read as text; every definition in `rocq/theories/M_*.v` cites the file and
  lines it models.  Specifications live in `S_*.v` (they never mention the algorithms),
  proofs in `P_*.v`, and the property theorems `C01_...` in `T_*.v`; those files contain
  only statements, one-line proofs, examples showing that hypotheses are satisfiable, and
  `Print Assumptions`.
* Names: `Cnn_xxx` is a theorem for property Cnn. `_partial` = weaker than the English
  statement (the comment says what is missing). `_refuted` = the property as stated is
  false of the code; the theorem is a proved counterexample in the model.

### Scalars
The C++ is templated over `Scalar`.  Control code (lookup, builders, searches, merging,
piecewise bookkeeping) is modelled over a class of *operations without laws*
(`Base.Scalar`), with instances for the reals `R`, rationals `Q` (executable) and IEEE-754
doubles (Coq primitive floats, executable).  Theorems that need no arithmetic law are proved
for any scalar type, so they hold for doubles with rounding, NaN and infinities; theorems
needing only an order use the class `OrderLaws` (total preorder on non-NaN values).
Numerical code (eta, propagators, Pruefer angles, Liouville) is modelled over `R`:
**exact arithmetic is the main simplification** there, and rounding errors are not modelled.

### Outcomes
`res A = Ret a | Throw msg | UB why | Fuel`.  Out-of-range vector access, dereferencing
null/empty, increments past the end are `UB`.  Loops take fuel; a termination theorem says
that some fuel suffices, a non-termination theorem that none does.

### Oracles
What a piece of control code reads from numerics (error estimate of a sector, comparison of
mean potentials, pow(), matching error, angle function) is an arbitrary function argument.
Theorems quantify over it, so they hold for every potential.

## 2. Plan per property

| id | modelled | how proved |
|----|----------|------------|
| C01 | find_sector over any scalar | loop invariant; order laws only |
| C02 | UniformSectorBuilder | closed form of the vector during the loop |
| C03 | automaticNextSector, AutomaticSectorBuilder, error/pow/compare oracles | invariant on both fronts, law-free |
| C04 | same, over R | invariant: passed jumps are boundaries, pending jumps lie in the gap |
| C05 | same, over R | lexicographic measure (jumps in the gap, gap / least step) |
| C06 | Python constructor's jump filter + builder, on doubles | refuted: concrete infinite run |
| C07 | log of all sectors constructed + Gauss nodes | refinement of C04's invariant; node table inside (-1,1) |
| C08 | calculateEta | power series (Coquelicot), tail bound, backward recurrence error propagation |
| C09, C10 | Polynomial | induction on coefficient lists; Coquelicot derivatives/integrals |
| C11 | Legendre tables | exact rational computation by kernel + linearity for all polynomials |
| C12, C13 | Y, T | algebra; is_derive |
| C14-C16 | generated propagator tables (parsed into Coq terms), calculateT | verified sparse-polynomial normaliser + computation; eta identities |
| C17-C20, C23 | atan_safe, theta0, rescale, pruferHelper, propagate, matchingError | real trigonometry, induction over the sectors crossed |
| C21, C22, C24 | propagate loops, Sector::propagate, setDirection | induction over sectors |
| C25-C31 | computeEigenvaluesHelper, newtonIteration, eigenvaluesByIndex | depth measure; interval invariants; counterexamples |
| C32-C36 | propagationSteps, MEigenfunction | list invariants; Wronskian/Lagrange identity integrated |
| C37-C41 | MatsliseHalf | list induction, parity arithmetic; counterexample |
| C42-C45 | PeriodicMatslise | bisection invariants, filter ordering, 2x2 algebra |
| C46-C50 | LiouvilleTransformation | stack invariant, lower_bound spec, bisection, derivatives |
| C51-C53 | Matscs lookup, propagatePsi, eigenfunction | counterexamples / list induction |
| C54, C55 | ownership graph of Python / JS bindings as a transition system | invariant over all histories / counterexample trace |
| C56 | Pyscs constructor | case analysis |
| C57 | estimatePotentialMinimum | fold induction |
| C58 | Python sector objects (reference_internal) as a transition system | invariant over all histories |
| C59 | one step of a sector against the exact solution, eta_code (truncated series) included | residual of the tables (verified normaliser) + Gronwall; constants depend only on bounds of the coefficients, E |
| C60 | determinant of a step, step forth and back | C59 with Liouville's formula; algebra |
| C61 | Matslise::propagate through all sectors, potential not polynomial | induction over the sectors, perturbation of the potential + C59 |
| C62 | matchingError | C61 twice; sign change of the exact error brackets an eigenvalue |
| C63 | Matscs sector: tables, calculateT, change of basis, setDirection | normaliser for words of non-commuting matrices + computation; eta identities |
| C64 | angle of Matslise::propagate and of matchingError with exact steps | continuous lift of the angle (P_Lift), each step adds the change of the lift, zeros counted by multiples of pi |
| C65, C66 | matchingError as a function of E, eigenvalues() | Sturm comparison by a Wronskian/Riccati argument; C28-C31 with all hypotheses discharged |
| C67, C68 | PeriodicMatslise::matchingError, calculateMatchingError | rotation number of all initial vectors; trace of the monodromy matrix |
| C69, C71 | eigenpairsHelper, eigenvalues, eigenvaluesByIndex (periodic) | windows of C43 with C67/C68; Sturm comparison with constants for termination |
| C70 | eigenvaluesByIndex (periodic), free particle | refuted: a value that is no eigenvalue is listed (executed symbolically) |
| C72 | matchingError, bracket, eigenvaluesByIndex | comparison with sinh and sine; intermediate value theorem |
| C73 | periodic matching and search with a general K | angles of the columns of K; area preservation; refuted for a quarter turn |
| C74 | half-range solver against the problem on [-L, L] | reflection of solutions, parity of eigenfunctions by uniqueness, gluing at 0, zero lists; refuted for Robin sides |
| C75 | spectra of two potentials; doubling search | eigenvalue of index k = turn of the angle by be + k pi; Sturm comparison of the angles |
| C76 | eigenfunction_at / eigenfunction_on end to end | stored steps = multiples of one solution (induction over sectors); norm by the Lagrange identity, the carried energy derivatives being those of the solutions |
| C77 | angle of Matscs::propagate (theta, angle, propagateDelta), with the step matrices of the code | product of eigenvalues = determinant, so exp(i angle) is the quotient of phases; symplectic steps keep a basis conjoined; without coupling theta is diagonal, each reference turn follows its channel within one turn (zeros counted); refuted when the eigenvectors are in another order |
| C78 | Sector::error, automaticNextSector | estimate: C59 at E = vs[0] for both formulas, calculateEta is exact at 0; control: induction over the shrink, grow and main loops, for any scalar type; pieces with estimate 0 are taken whole; refuted by a concrete potential 10^6 (1+tol) (x/b)^6 |
| C79 | constructPiecewise (relError, pieceError, Legendre::integrate) | induction over the stack of pieces with the relation 'constructed for [a, b], moved along x'; quadrature from C11_coefficients |
| C80 | Y and T operators (util/y.h) for one equation (M_Core, M_Periodic.ycomb, M_Half.Yneq) and for n equations and r columns (M_Y) | real derivatives by rules; block matrix algebra |
| C81 | newtonIteration and eigenvalueError (M_Search) on the matching error of M_Core with the tables of M_Formulas | contraction by the mean value theorem; the derivative part is continuous in E for every potential and, by Lagrange's identity, nonzero at eigenvalues; both variants of the step matrices give the same matching error for piecewise constant potentials |
| C82 | Matscs Sector::error (M_CoupledError) and the builder of M_Sectors | word normaliser of C63 gives a finite list of matrix monomials of order 9; bounds by induction on words; control of C78; NaN comparisons by FloatAxioms |
| C83 | bracket, bisect, newton (M_Search) and half_byIndex (M_Half) on the matching error of M_Core with the tables of M_Formulas | composition of C72 (bracket), C81 (Newton), C66 (bisection), C37/C74 (merging, parity); instance with all hypotheses, hand-run search |
| C84 | eigenvalueError, newton (M_Search) on the matching error of M_Core | closed form of the matching error of the free particle; it is convex, so Newton never crosses the eigenvalue: refuted for all energies and tolerances |
| C85 | profiler as table and stack, a call is a tree (M_Profiler) | the table after a run is the summary of the list of calls in the order they end, by induction over call trees; starts are distinct, so the report is the only sorted permutation of the table; an enclosing call starts earlier |
| C86 | the check in any scalar type, M_Periodic run on doubles (M_Bindings) | NaN propagates through the determinant by the IEEE specification of the primitive floats and fails the comparison; the query on NaN functions is computed by the kernel, for all such functions by extensionality |
| C87 | sectorPoints loop, eval, __call__, computeEigenfunction (M_Bindings) | induction over the loop and the list of sectors / points |
| C88 | whole construction and propagation | equivariance of every loop; the tables never read vs[0] (kernel computation over the tables) |
| C89 | calculateT, propagate, matchingError | kernel computation of the dimension of every term of both tables, then induction over terms, eta sums and sectors |
| C90 | newtonIteration, computeEigenvalues, eigenvaluesByIndex, eigenvalueError; int conversions on reals and doubles | invariant: every waiting interval carries angles measured at energies; refutations from C72_high and the semantics of doubles |
| C91 | coupled sector constructor, tables, calculateT | every operation of the tables commutes with a change of basis; functions of two similar diagonal matrices are similar by the same matrix |

New properties are appended to this table as the model grows; `MANIFEST.json` has the status of each.

### Files
* `Base` scalars and outcomes. `M_Sectors` (find_sector, sectorbuilder), `M_Poly` (polynomial.h), `M_Legendre`,
  `M_LegendreData` (legendre.h, legendre_data.h), `M_Eta` (calculateEta.h), `M_TableData`, `M_Formulas`
  (matslise_formulas.cpp, horner.h, matslise/sector.cpp calculateT), `M_Core` (y.h, theta.h, sector.cpp, matslise.cpp
  propagation), `M_Search` (eigenvalue searches of matslise.cpp), `M_Eigen` (eigenfunctions), `M_Half`, `M_Periodic`,
  `M_Liouville` (both files of liouville/), `M_Matscs`, `M_Coupled`, `M_CoupledData`, `M_Angle`, `M_CoupledRun` (matscs; `RCField` makes the reals and the complex
  numbers mathcomp fields), `M_CoupledError` (error estimates), `M_Y` (y.h), `M_Profiler` (scoped_timer.h), `M_Lifetime`, `M_Python`, `M_Bindings`
  (bindings).
* `S_*`: specifications (solutions of the differential equation, zeros, continuous angles, eigenvalues of the Dirichlet,
  periodic and general problems, partitions, orders of accuracy); they mention the model only in the last definition
  that says what "exact steps" means.
* `P_*`: proofs. `T_*`: property theorems with examples.
* `tools/gen_tables.py`, `gen_legendre.py`, `gen_coupled.py` transcribe the tables of `/repo` to `M_TableData`,
  `M_LegendreData`, `M_CoupledData`; this transcription is trusted (the theorems about the tables would not hold of most
  wrong transcriptions). `tools/gen_witness.py` is untrusted: its output is only checked by the kernel.

## 3. Not modelled
Eigen's dense algebra internals (HouseholderQR, SelfAdjointEigenSolver, EigenSolver: their results are arguments;
`eigenvalues()` is any function that returns the roots of the characteristic polynomial with multiplicities, which exists by
the theorem of P_FTA; `partialPivLu().solve` is multiplication by the inverse),
floating-point rounding in the numerical core (theorems on doubles: the sector lookup, uniform sectors, argument checks, the bisection
of periodic problems, conversions to int, the check on K), CMake, stream output,
pybind11/emscripten glue other than ownership, argument checks and the conversions of C87.

## 4. Trusted base
Coq 8.16.1 kernel (`vm_compute` and primitive floats/integers where used; `coqchk` re-checks every file without the
virtual machine), the axioms printed by `Print Assumptions` (section 5), and the reading of `/repo` written down in the
`M_*` files, including the three table generators.  No axiom is declared here, no kernel check is switched off.

## 5. Axioms per theorem

Printed by `Print Assumptions`, all from the standard library:

* R1 = `ClassicalDedekindReals.sig_forall_dec`, R2 = `ClassicalDedekindReals.sig_not_dec`, F = `FunctionalExtensionality.functional_extensionality_dep` (the three axioms under the standard reals), C = `Classical_Prop.classic` (excluded middle, used by Coquelicot and Flocq/Interval), D = `ClassicalEpsilon.constructive_indefinite_description` (choice, for the mathcomp field structure of the reals);
* P = primitive floats and 63-bit integers: the types and operations `PrimFloat.*`, `PrimInt63.*` are listed by `Print Assumptions` although they are implemented by the kernel; S = the specification axioms of `FloatAxioms` (named per line).

The table is generated by `tools/design5.py`.

* **closed under the global context, no axiom** (46): C01_find_sector, C02_nonpositive, C02_uniform, C03_automatic, C06_filter_partial, C21_path, C25_evaluations, C25_terminates, C26_sorted, C29_no_result_partial, C29_rejected, C31_evaluations, C32_array, C32_scalar, C36_contains, C37_content, C37_even_index, C37_odd_index, C37_sorted, C37_sorted_strict, C38_indices, C39_array, C39_throws, C41_no_recursion, C43_results, C54_all_destroyed, C54_exact, C54_safe, C55_delete_all_partial, C55_disciplined_partial, C55_refuted, C57_potential_minimum, C58_refuted, C58_while_held_partial, C78_control, C80_blocks, C80_change_of_unknowns, C80_columns, C80_commutes, C80_equality_all, C80_start, C85_parent_first, C85_report, C85_table, C87_conversions, C90_defined_partial
* **P** (1): C56_zero_steps_refuted
* **R1, F** (57): C02_uniform_width, C03_automatic_real, C03_automatic_tiles, C04_jumps_are_boundaries, C05_construction_terminates, C07_automatic, C07_samples_inside, C07_uniform, C09_construct, C09_degrees, C09_eval, C09_reversed_sub, C09_ring, C09_widen, C10_degrees, C11_series, C11_table, C13_det, C14_branches, C24_set_direction, C24_stored_coefficients, C24_switch_twice, C41_eigenpairs, C41_general, C41_parity, C41_symmetric, C47_contained, C47_lookup, C48_halvings, C51_columns_inside, C51_columns_reject, C51_inside_partial, C51_refuted, C51_same_solution, C51_target_refuted, C52_columns, C52_quotient_partial, C52_refuted, C52_step_ignores_direction, C53_first_sector_partial, C53_points, C53_refuted, C53_values, C63_branches, C63_direction, C63_set_direction, C74_sides, C78_pieces, C80_equality, C80_propagation, C80_values, C87_sector_points, C88_raised_samples, C89_estimate_terms, C91_basis, C91_eigenvectors, C91_renumbered
* **R1, R2, F** (81): C08_eta_accurate, C08_eta_closed_forms, C08_eta_columns, C08_eta_one_component_large, C08_eta_recurrence, C08_eta_small_every_count, C10_derivative, C10_derivative_at, C10_integral, C12_product_rule, C13_ddet_is_derivative, C14_constant_potential, C14_eta_error, C14_identity_at_zero, C15_full_step, C17_scaling, C23_search_by_index, C23_search_compute, C23_search_error, C26_lexicographic, C27_approximate, C27_brackets, C27_complete, C27_secant, C28_left_end_refuted, C28_right_end_refuted, C29_negative_hangs_refuted, C30_bracket, C30_bracket_limits, C30_by_index, C31_error_nonneg, C31_error_zero, C31_exact_root, C39_symmetry, C39_unit_norm, C40_derivative_refuted, C40_value_partial, C42_bracket, C42_inside, C42_terminates, C42_zero, C43_byIndex, C43_ground, C43_negative_diverges, C43_pair, C43_range, C43_range_windows, C43_total, C43_windows, C46_pieces, C47_constructed, C47_outside, C47_r2x, C48_accuracy, C48_x2r, C49_boundary, C49_ends, C50_array, C50_derivative_refuted, C50_eigenfunction_value, C50_value_partial, C63_constant_potential, C63_full_step, C63_identity_at_zero, C78_constant, C78_dominates, C79_accepts, C79_pairs, C80_derivatives, C82_common_energy, C82_constant, C82_largest_entry, C82_order, C82_pieces, C82_tolerance, C86_exact, C88_estimates, C88_mesh, C88_translated_potential, C89_step, C90_exact_partial
* **R1, R2, F, C** (153): C05_code_factor, C05_matslise, C06_distinct_jumps_partial, C08_eta_derivative, C11_coefficients, C11_near_best, C11_orthogonal, C11_reproduce, C12_propagate, C13_composition, C13_round_trip, C14_derivative_row, C14_residual, C16_constant_potential, C16_full_step, C16_partial_step, C17_initial_angle, C17_start_range, C18_angle_of_solution, C19_increment_nonneg, C19_problem, C19_sector, C20_derivative, C20_zero_iff_angle, C21_domain, C22_columns, C22_linear, C23_eigenvalues, C23_matching, C23_propagate, C24_mirror, C32_eigenfunction, C33_dirichlet_neumann, C33_eigenfunction, C33_left, C33_right, C34_any_sector, C34_boundary, C34_continuous, C35_unit_norm, C35_unit_norm_T, C36_array, C36_eigenvalue, C44_derivative, C44_zero, C45_eigenfunction_refuted, C45_eigenpairs_partial, C46_constant, C46_terminates, C49_constant_product, C49_potential, C49_product, C49_sigma, C49_z2y, C56_tolerance_partial, C59_calculateT, C59_full_step, C59_partial_step, C59_partial_step_degree_13, C59_solutions_exist, C60_determinant, C60_round_trip, C61_propagation, C61_representation, C62_bracket, C62_bracket_code, C62_matching_error, C62_small_at_eigenvalues, C63_derivative_row, C63_energy_derivative, C63_residual, C64_angle, C64_matching, C64_piecewise_constant, C64_single_sector_refuted, C64_zeros_left, C64_zeros_right, C65_continuous, C65_index, C65_oscillation, C65_piecewise_constant, C65_rises, C66_eigenvalues, C66_piecewise_constant, C67_continuous, C67_monotone, C67_order, C67_parity, C67_sign, C67_window, C67_zero, C68_below, C68_ground, C68_index, C68_order, C68_pairs, C69_ground, C69_index, C69_range, C70_phantom_refuted, C71_byIndex, C71_exists, C71_high, C71_low, C71_piecewise_constant, C71_range, C72_bracket, C72_by_index, C72_exists_unique, C72_high, C72_low, C72_piecewise_constant, C73_refuted, C73_window_partial, C73_zero, C74_by_index, C74_eigenfunction, C74_eigenvalues, C74_even, C74_exists_unique, C74_odd, C74_parity, C74_robin_refuted, C75_bounds, C75_bracket, C75_by_index, C75_dirichlet, C75_monotone, C75_neumann, C75_perturbation, C75_piecewise_constant, C76_eigenfunction, C76_orthogonal, C76_piecewise_constant, C76_unique, C78_order, C78_tolerance, C78_tolerance_refuted, C79_quadrature, C81_error, C81_local, C81_newton, C81_piecewise_constant, C81_quadratic, C81_search, C83_by_index, C83_symmetric, C84_error_bound_refuted, C88_matching, C88_propagate, C89_matching, C89_propagate, C90_large_refuted
* **R1, R2, F, C, D** (5): C77_phase, C77_phase_constant, C77_refuted, C77_step, C77_uncoupled
* **P** (6): C06_repeated_jump_hangs_refuted, C56_negative_steps_refuted, C56_negative_tolerance_refuted, C56_rejects, C56_returned_partial, C82_guarded
* **P** (1): C42_infinite_end
* **P, S (ltb_spec)** (1): C82_unguarded_refuted
* **P, S (eqb_spec, leb_spec)** (1): C21_guard_double
* **F, P, S (Prim2SF_valid, SF2Prim_Prim2SF, eqb_spec)** (1): C86_nan_answers
* **P, S (Prim2SF_valid, div_spec, eqb_spec, opp_spec)** (1): C90_nan_refuted
* **P, S (Prim2SF_valid, abs_spec, eqb_spec, ltb_spec, mul_spec, sub_spec)** (1): C86_nan_refuted
* **R1, R2, F, C, P, S (Prim2SF_SF2Prim, Prim2SF_valid, SF2Prim_Prim2SF, mul_spec)** (2): C02_uniform_double, C56_steps_partial
* **R1, R2, F, C, P, S (Prim2SF_SF2Prim, Prim2SF_valid, SF2Prim_Prim2SF, eqb_spec, leb_spec, ltb_spec)** (1): C01_find_sector_double
* **R1, R2, F, C, P, S (Prim2SF_SF2Prim, Prim2SF_valid, SF2Prim_Prim2SF, abs_spec, add_spec, div_spec, eqb_spec, leb_spec, ltb_spec, mul_spec, sub_spec)** (1): C42_double
