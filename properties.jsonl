{"id": "C01", "title": "Sector lookup is total, in bounds and exact", "statement": "For a problem whose sectors partition [xmin,xmax], looking up the sector of a point terminates, never reads outside the sector list, returns an index whose closed interval contains the point whenever the point is in the domain, and returns -1 exactly when it is not (NaN included).", "quantifier": "every non-empty contiguous sector list of any length, every point", "why_tests_cant": "unbounded list lengths and all real points, including points exactly on sector boundaries", "anchors": ["matslise/util/find_sector.h:find_sector", "matslise/matslise.h:Matslise::Sector::contains"]}
{"id": "C02", "title": "Uniform sector builder yields an exact partition", "statement": "With a fixed number n>=1 of steps, the problem gets exactly n sectors; the first starts at xmin, the last ends at xmax, each sector starts exactly where the previous one ends, sectors up to matchIndex are forward and those after it backward, 0 <= matchIndex < n.", "quantifier": "every n>=1, every domain, every potential (through the comparisons made)", "why_tests_cant": "n and the potential are unbounded; the order in which sectors are filled depends on the potential", "anchors": ["matslise/util/sectorbuilder.cpp:UniformSectorBuilder::operator()"]}
{"id": "C03", "title": "Automatic sector builder yields an exact partition", "statement": "Whenever construction with the automatic builder returns, the sectors form an exact partition of [xmin,xmax] (bitwise equal interior end points), sectors up to matchIndex are forward, those after it backward, and matchIndex is a valid index.", "quantifier": "every potential (every outcome of the local error estimates, step factors and comparisons), every tolerance, every domain, every jump list", "why_tests_cant": "the step-size controller is driven by data-dependent floating-point error estimates; no finite test set covers all histories", "anchors": ["matslise/util/sectorbuilder.cpp:AutomaticSectorBuilder::operator()", "matslise/util/sectorbuilder.cpp:automaticNextSector"]}
{"id": "C04", "title": "Every jump is a sector boundary", "statement": "When the jumps passed to the automatic builder are strictly sorted and strictly inside the domain, every jump is an end point of some sector, so no sector straddles a discontinuity of the potential.", "quantifier": "every sorted jump list, every potential, tolerance and domain, whenever construction returns", "why_tests_cant": "interaction of two moving fronts and arbitrarily many jumps", "anchors": ["matslise/util/sectorbuilder.cpp:AutomaticSectorBuilder::operator()"]}
{"id": "C05", "title": "Automatic construction terminates", "statement": "Constructing a problem with the automatic builder terminates with a bounded number of sectors when xmin<xmax and jumps are strictly sorted and interior, in exact arithmetic, for every potential.", "quantifier": "every error-estimate oracle, tolerance, domain and strictly sorted jump list", "why_tests_cant": "termination over all potentials cannot be tested", "anchors": ["matslise/util/sectorbuilder.cpp:automaticNextSector", "matslise/util/sectorbuilder.cpp:AutomaticSectorBuilder::operator()"]}
{"id": "C06", "title": "Any user jump list is accepted", "statement": "Passing a list of jumps with repeated positions (or positions outside the domain) to the Python constructor still yields a problem whose sectors all have positive width.", "quantifier": "every list of jumps", "why_tests_cant": "needs an adversarial history; the code filters and sorts the list but does not remove duplicates", "anchors": ["matslise/pyslise/pyslise.cpp:Pyslise __init__", "matslise/util/sectorbuilder.cpp:AutomaticSectorBuilder::operator()"]}
{"id": "C07", "title": "The potential is only evaluated strictly inside sectors, during construction", "statement": "The potential is evaluated only while the problem is constructed, only at points strictly inside the sector under construction; so never at xmin, xmax or a jump, and for the half-range problem only on (0,xmax).", "quantifier": "every potential, every builder history, every call after construction", "why_tests_cant": "requires observing every evaluation for every potential", "anchors": ["matslise/util/legendre.h:Legendre::Legendre", "matslise/matslise/sector.cpp:Sector::Sector", "matslise/matslise/halfrange.cpp:MatsliseHalf::MatsliseHalf"]}
{"id": "C08", "title": "eta functions are accurate on the whole line", "statement": "calculateEta(Z)[i] equals the mathematical eta_i(Z) = sum_q Z^q/((2q)!!(2q+2i-1)!!) exactly for |Z|>=100 and within 1e-20 for |Z|<100 (exact arithmetic), for all components.", "quantifier": "every real Z, every component count n with 1<=n<=10 (and every n for the large branch)", "why_tests_cant": "continuum of Z; cancellation-prone recurrences", "anchors": ["matslise/util/calculateEta.h:calculateEta"]}
{"id": "C09", "title": "Polynomial arithmetic is a ring homomorphism", "statement": "Evaluating p+q, p-q, p*q, -p, c*p, p/c, p+c, p-c, c-p at x gives the corresponding combination of p(x), q(x); Horner evaluation is the mathematical value; widening the degree does not change values.", "quantifier": "all degrees, all coefficients, all x", "why_tests_cant": "all degrees and coefficients", "anchors": ["matslise/util/polynomial.h:Polynomial"]}
{"id": "C10", "title": "Polynomial derivative and integral are exact", "statement": "derivative<d>() and derivative<d>(x) are the d-th mathematical derivative, integral() is an antiderivative vanishing at 0 and integral(x) equals integral()(x), i.e. the integral from 0 to x.", "quantifier": "all degrees, all d, all coefficients, all x", "why_tests_cant": "all degrees and orders", "anchors": ["matslise/util/polynomial.h:derivative", "matslise/util/polynomial.h:integral"]}
{"id": "C11", "title": "Legendre projection tables are correct", "statement": "The 16x16 table holds the shifted Legendre polynomials (orthogonal on [0,1] with squared norm 1/(2i+1), value 1 at 1), and the n-point node/weight tables reproduce the exact projection of every polynomial of degree < n up to the decimal rounding of the tables.", "quantifier": "every table n=2,4,...,18, every polynomial of degree below n (for the tabled double data)", "why_tests_cant": "the property is about all polynomials", "anchors": ["matslise/util/legendre.h:polynomials", "matslise/util/legendre_data.h", "matslise/util/legendre.h:getCoefficients"]}
{"id": "C12", "title": "Energy derivatives follow the product rule", "statement": "If (t,dt) is a propagation matrix with its energy derivative and (y,ydE) a solution with its energy derivative, the propagated ydE is the energy derivative of the propagated y.", "quantifier": "all matrices and vectors differentiable in E", "why_tests_cant": "all E, all smooth families", "anchors": ["matslise/util/y.h:T::operator*", "matslise/util/y.h:T::operator/"]}
{"id": "C13", "title": "Propagating forth and back returns the start", "statement": "Propagating over a step and back over the same step returns the initial value multiplied by the determinant of the propagation matrix; with determinant 1 (Wronskian preserved) propagation is exactly invertible in both directions, including energy derivatives when the determinant is constantly 1.", "quantifier": "every step matrix, every initial value, both sector orientations", "why_tests_cant": "all real values", "anchors": ["matslise/util/y.h:T::operator/", "matslise/matslise/sector.cpp:propagateDelta"]}
{"id": "C14", "title": "Tabulated propagators solve the Schroedinger equation to high order", "statement": "The tabulated propagation formula satisfies y''=(V-E)y with V the sector's Legendre polynomial model, with a residual that contains only monomials of total order >= 15 in the step, for all potentials coefficients, all energies and all positions in the sector; the derivative rows are the exact derivatives of the value rows, up to that order.", "quantifier": "all values of the potential coefficients v1..v13, energy, position delta and width h", "why_tests_cant": "polynomial identity in 17 variables with thousands of terms", "anchors": ["matslise/matslise/matslise_formulas.cpp:calculate_tcoeff_matrix", "matslise/matslise/sector.cpp:Sector::calculateT"]}
{"id": "C15", "title": "Full-step and partial-step formulas agree", "statement": "The special formula used when a whole sector is crossed agrees with the partial-step formula at delta = h up to terms of order beyond the truncation order.", "quantifier": "all potential coefficients, energies and widths", "why_tests_cant": "polynomial identity", "anchors": ["matslise/matslise/matslise_formulas.cpp:calculate_tcoeff_matrix", "matslise/matslise/sector.cpp:Sector::calculateT"]}
{"id": "C16", "title": "Reported energy derivative of the propagator is the derivative", "statement": "dT returned with T is dT/dE of the computed T, except for the derivative of the last eta term which is dropped; the difference is given exactly.", "quantifier": "all energies, potential coefficients, positions", "why_tests_cant": "derivative statement over a continuum", "anchors": ["matslise/matslise/sector.cpp:Sector::calculateT"]}
{"id": "C17", "title": "Initial Pruefer angle: range and sector independence", "statement": "The initial angle of (y,y')<>0 lies in (-pi/2,pi/2], satisfies tan(angle)=s*y/y' with s the problem-wide scaling (angle pi/2 when y'=0), is unchanged when (y,y') is multiplied by any nonzero factor and does not depend on the mean potential of the sector in which it is computed.", "quantifier": "all (y,y')<>0, E, sector mean potentials", "why_tests_cant": "branch cuts of atan2 over a continuum", "anchors": ["matslise/util/theta.h:atan_safe", "matslise/matslise/sector.cpp:Sector::theta0", "matslise/matslise/sector.cpp:rescale"]}
{"id": "C18", "title": "Propagated angle is an angle of the propagated solution", "statement": "After propagate(E,y,a,b) the returned theta satisfies s*y(b)*cos(theta)=y'(b)*sin(theta), whatever sectors and directions were used: theta and the returned (y,y') always describe the same direction modulo pi.", "quantifier": "every sector list, orientation, energy, y<>0 and a,b (nondegenerate steps)", "why_tests_cant": "branch corrections in the angle update accumulate over arbitrarily many sectors", "anchors": ["matslise/matslise/matslise.cpp:propagate", "matslise/matslise/sector.cpp:pruferHelper", "matslise/matslise/sector.cpp:propagateDelta"]}
{"id": "C19", "title": "Angle does not decrease over an oscillatory sector", "statement": "In a sector where E exceeds the mean potential, the angle increment reported for a left-to-right step is >= 0, and the opposite for right-to-left steps.", "quantifier": "all E, y0, y1, delta", "why_tests_cant": "branch arithmetic over a continuum", "anchors": ["matslise/matslise/sector.cpp:pruferHelper", "matslise/matslise/sector.cpp:rescale"]}
{"id": "C20", "title": "Matching error vanishes exactly when the angle difference is a multiple of pi", "statement": "For matchingError(E,left,right) the first component is 0 iff the third is an integer multiple of pi; the second is the energy derivative of the first.", "quantifier": "every problem, energy, nonzero boundary conditions", "why_tests_cant": "equivalence over a continuum", "anchors": ["matslise/matslise/matslise.cpp:matchingError"]}
{"id": "C21", "title": "propagate rejects exactly the points outside the domain and never reads an invalid sector", "statement": "propagate throws iff a or b is outside [xmin,xmax] (NaN included), otherwise it visits only existing sectors, starts in one containing a, stops in one containing b and terminates.", "quantifier": "every partition, every a,b", "why_tests_cant": "all histories of sector crossings", "anchors": ["matslise/matslise/matslise.cpp:propagate", "matslise/matscs/matscs.cpp:propagate"]}
{"id": "C22", "title": "propagate is linear in the initial condition", "statement": "The propagated (y,y',yE,y'E) depends linearly on the initial one; with two columns each column is propagated independently of the other and equals the one-column result.", "quantifier": "all energies, sectors, a,b, initial values", "why_tests_cant": "all linear combinations", "anchors": ["matslise/matslise/matslise.cpp:propagate", "matslise/matslise/sector.cpp:Sector::propagate"]}
{"id": "C23", "title": "Results do not depend on the scaling of boundary conditions", "statement": "Multiplying the left (or right) boundary condition by any nonzero factor leaves propagated angles, index function and hence every eigenvalue search result unchanged.", "quantifier": "all nonzero factors, problems, energies", "why_tests_cant": "continuum of factors", "anchors": ["matslise/matslise/matslise.cpp:propagate", "matslise/matslise/matslise.cpp:matchingError", "matslise/matslise/matslise.cpp:computeEigenvaluesHelper"]}
{"id": "C24", "title": "Backward sectors are mirror images of forward sectors", "statement": "Propagating in a backward sector equals propagating in the forward sector of the mirrored potential with the solution mirrored (y'(x) -> -y'(-x)); switching a sector's direction twice restores it.", "quantifier": "all sectors, energies, positions", "why_tests_cant": "all inputs", "anchors": ["matslise/matslise/sector.cpp:Sector::Sector", "matslise/matslise/sector.cpp:Sector::setDirection", "matslise/matslise/sector.cpp:propagateDelta"]}
{"id": "C25", "title": "Eigenvalue search terminates for every problem", "statement": "eigenvalues(Emin,Emax,...) performs a bounded number of matching-error evaluations, whatever the behaviour of the matching error (non-monotone, NaN, discontinuous).", "quantifier": "every angle function (oracle), every Emin,Emax", "why_tests_cant": "adversarial angle functions", "anchors": ["matslise/matslise/matslise.cpp:computeEigenvaluesHelper", "matslise/matslise/matslise.cpp:newtonIteration"]}
{"id": "C26", "title": "Eigenvalue lists are sorted by index", "statement": "The returned list of (index, eigenvalue) is sorted, every index is >= 0, and the list is a permutation of the roots found.", "quantifier": "every problem and query", "why_tests_cant": "all inputs", "anchors": ["matslise/matslise/matslise.cpp:computeEigenvaluesHelper"]}
{"id": "C27", "title": "Every eigenvalue strictly inside a probed interval is found", "statement": "If the angle function is continuous on [Emin,Emax] and rises through every integer multiple of pi (once at or above k pi it stays above for larger energies; weaker than increasing, and what Sturm theory gives, C65) and no probe hits an integer multiple of pi exactly, then for each integer k whose crossing lies inside and which is in the requested index range exactly one search leaf brackets that crossing, and no other leaf is produced (no missing, no duplicate eigenvalues).", "quantifier": "every such angle function, interval and index range, with eigenvalue gaps above the resolution (Emax-Emin)/2^31", "why_tests_cant": "all spectra and intervals", "anchors": ["matslise/matslise/matslise.cpp:computeEigenvaluesHelper"]}
{"id": "C28", "title": "Documented closed interval [Emin;Emax] of eigenvalues()", "statement": "eigenvalues(Emin,Emax) returns every eigenvalue in the closed interval, as documented, including one equal to an end point or hit exactly by a bisection midpoint.", "quantifier": "every problem and interval", "why_tests_cant": "exact coincidences are missed by random testing", "anchors": ["matslise/matslise/matslise.cpp:computeEigenvaluesHelper", "matslise/pyslise/pyslise.cpp:eigenvalues docstring"]}
{"id": "C29", "title": "Invalid index ranges are rejected", "statement": "eigenvaluesByIndex(Imin,Imax) with Imin<0 or Imin>Imax raises an error (and does not hang).", "quantifier": "all integers Imin, Imax, all problems", "why_tests_cant": "the validation is placed after an unbounded search", "anchors": ["matslise/matslise/matslise.cpp:eigenvaluesByIndex", "matslise/matslise/matslise.cpp:computeEigenvaluesHelper"]}
{"id": "C30", "title": "eigenvaluesByIndex searches an interval containing all requested eigenvalues", "statement": "For 0<=Imin<=Imax and an angle function that is nondecreasing, unbounded above and tends to at most 0 below, the energy bracket search terminates, and the bracket satisfies angle(Emin)/pi <= Imin and angle(Emax)/pi >= Imax.", "quantifier": "every nondecreasing angle function, every index range", "why_tests_cant": "all spectra", "anchors": ["matslise/matslise/matslise.cpp:eigenvaluesByIndex"]}
{"id": "C31", "title": "Root polishing is bounded and error estimates are non-negative", "statement": "Newton polishing uses at most 20 evaluations, leaves an exact root unchanged, and eigenvalueError is >= 0 and 0 at an exact root of the low-order problem.", "quantifier": "every problem and energy", "why_tests_cant": "all inputs", "anchors": ["matslise/matslise/matslise.cpp:newtonIteration", "matslise/matslise/matslise.cpp:eigenvalueError"]}
{"id": "C32", "title": "Eigenfunctions are zero outside the domain and never read out of bounds", "statement": "Evaluating an eigenfunction at any point (scalar or array, any order, NaN) terminates, never reads outside the sector or step lists and returns (0,0) outside [xmin,xmax].", "quantifier": "every problem, every evaluation point or array", "why_tests_cant": "all arrays and orders", "anchors": ["matslise/matslise/matslise.cpp:MEigenfunction", "matslise/matslise/matslise.cpp:findSector"]}
{"id": "C33", "title": "Eigenfunctions satisfy the boundary conditions", "statement": "The eigenfunction's (value, derivative) at xmin is a scaling of the left boundary condition and at xmax a scaling of the right one.", "quantifier": "every problem, energy, boundary conditions", "why_tests_cant": "all inputs", "anchors": ["matslise/matslise/matslise.cpp:propagationSteps", "matslise/matslise/matslise.cpp:MEigenfunction"]}
{"id": "C34", "title": "Eigenfunctions are continuous at the matching point for true eigenvalues", "statement": "When the matching error is exactly 0 (and both sides are non-zero), the scaled left and right solutions agree in value and derivative at the matching point.", "quantifier": "every problem, energy with zero matching error", "why_tests_cant": "all inputs", "anchors": ["matslise/matslise/matslise.cpp:propagationSteps"]}
{"id": "C35", "title": "Eigenfunctions have unit L2 norm", "statement": "If the sector propagators are exact, the stored scaling makes the integral of the squared eigenfunction equal to 1.", "quantifier": "every continuous potential and eigenpair, exact propagation", "why_tests_cant": "an integral identity for all potentials", "anchors": ["matslise/matslise/matslise.cpp:propagationSteps"]}
{"id": "C36", "title": "Array evaluation agrees with pointwise evaluation", "statement": "Evaluating an eigenfunction on an array gives at every point either the same result as the pointwise call, or, only at an interior sector boundary, the value obtained from the neighbouring sector.", "quantifier": "every array in any order", "why_tests_cant": "all arrays, stateful cursor", "anchors": ["matslise/matslise/matslise.cpp:MEigenfunction::operator()"]}
{"id": "C37", "title": "Half-range eigenvalues carry the right indices", "statement": "Merging even and odd results gives each even-problem eigenvalue k the index 2k and each odd one 2k+1, loses and invents nothing and is sorted by index when the inputs are.", "quantifier": "all input lists", "why_tests_cant": "all lists", "anchors": ["matslise/matslise/halfrange.cpp:mergeEigenvalues"]}
{"id": "C38", "title": "Half-range index queries ask exactly for the requested indices", "statement": "For 0<=Imin<=Imax, the indices requested from the even and odd sub-problems, mapped back, are exactly Imin..Imax-1, each once.", "quantifier": "all Imin<=Imax", "why_tests_cant": "all integers", "anchors": ["matslise/matslise/halfrange.cpp:eigenvaluesByIndex"]}
{"id": "C39", "title": "Half-range eigenfunctions have the right symmetry", "statement": "Array evaluation of a half-range eigenfunction gives f(-x)=+-f(x) and f'(-x)=-+f'(x) according to parity, restores the caller's order, and throws iff the array is not sorted.", "quantifier": "all sorted arrays, all eigenfunctions", "why_tests_cant": "all arrays", "anchors": ["matslise/matslise/halfrange.cpp:EigenfunctionHalf::operator()"]}
{"id": "C40", "title": "Half-range scalar and array evaluation agree", "statement": "Evaluating a half-range eigenfunction at one point gives the same (value, derivative) as evaluating it on an array containing that point.", "quantifier": "every point, including negative ones", "why_tests_cant": "all points", "anchors": ["matslise/matslise/halfrange.cpp:EigenfunctionHalf::operator()"]}
{"id": "C41", "title": "Symmetric problems reject different boundary conditions", "statement": "Two-sided calls on a half-range problem throw exactly when left and right differ, and otherwise behave as the one-sided call; no call recurses forever.", "quantifier": "all boundary conditions, all methods", "why_tests_cant": "mutual default dispatch of virtual methods", "anchors": ["matslise/matslise.h:AbstractMatslise", "matslise/matslise.h:checkSymmetry"]}
{"id": "C42", "title": "Periodic bisection terminates and keeps its bracket", "statement": "The bisection used by the periodic solver terminates for every eps>0, returns a point within the initial interval, and if f changes sign over the interval, within the stopping width of a sign change.", "quantifier": "all functions f, intervals, eps>0", "why_tests_cant": "all functions", "anchors": ["matslise/matslise/periodic.cpp:binarySearch"]}
{"id": "C43", "title": "Periodic results are ordered and within the requested range", "statement": "The list returned by the periodic solver has strictly increasing indices, all below iMax and at least iMin (iMin-1 only for a double eigenvalue), energies within [eMin,eMax), multiplicity 1 or 2, with index spacing at least the multiplicity.", "quantifier": "all queries, all matching functions (oracle)", "why_tests_cant": "all spectra", "anchors": ["matslise/matslise/periodic.cpp:eigenpairsHelper"]}
{"id": "C44", "title": "Periodic matching determinant and derivative", "statement": "The scalar matching error is the determinant of the 2x2 mismatch and its reported derivative is the energy derivative; it vanishes iff some nonzero combination of the two fundamental solutions satisfies the periodic condition.", "quantifier": "all 2x2 mismatches", "why_tests_cant": "continuum", "anchors": ["matslise/matslise/periodic.cpp:calculateMatchingError", "matslise/matslise/periodic.cpp:matchingError"]}
{"id": "C45", "title": "Periodic eigenfunctions satisfy y(xmax)=K y(xmin)", "statement": "The eigenfunctions returned for an energy use a left boundary value and a right boundary value related by K, and matching at the match point.", "quantifier": "all problems, K and energies", "why_tests_cant": "all inputs", "anchors": ["matslise/matslise/periodic.cpp:eigenfunction", "matslise/matslise/periodic.cpp:eigenpairsHelper"]}
{"id": "C46", "title": "Liouville pieces form an exact partition in both variables", "statement": "The pieces computed for a Sturm-Liouville problem tile [rmin,rmax] and [0,xmax] contiguously, in order, with equal end points, whenever the construction returns.", "quantifier": "all p,q,w (oracles), domains", "why_tests_cant": "adaptive subdivision with arbitrary depth", "anchors": ["matslise/liouville/liouville.cpp:constructPiecewise", "matslise/liouville/liouville.cpp:setXMin"]}
{"id": "C47", "title": "Piece lookup returns a piece containing the value", "statement": "Converting r->x or x->r uses a piece that contains the value, for every value in the domain, end points included.", "quantifier": "all piece lists, all values", "why_tests_cant": "all lists and values", "anchors": ["matslise/liouville/liouville.cpp:findPiece"]}
{"id": "C48", "title": "x->r inversion is accurate", "statement": "The coordinate inversion performs exactly 50 bisection steps and returns a point within 2^-51 of a pre-image whenever the piece's map is continuous and brackets the value.", "quantifier": "all increasing maps and values", "why_tests_cant": "continuum", "anchors": ["matslise/liouville/liouville.cpp:x2r_impl"]}
{"id": "C49", "title": "Liouville transformation is mathematically correct", "statement": "The transformed potential V and boundary values z2y correspond to the change of variables y=z/sigma, x'=sqrt(w/p): a function solving the Sturm-Liouville equation is mapped to one solving -y''+Vy=Ey.", "quantifier": "all smooth positive p,w and solutions", "why_tests_cant": "differential identity for all functions", "anchors": ["matslise/liouville/liouville.cpp:V", "matslise/liouville/liouville.cpp:z2y"]}
{"id": "C50", "title": "Back transformation inverts the forward transformation", "statement": "Transforming boundary data to Schroedinger form and back gives the original value and derivative, so Sturm-Liouville eigenfunctions carry the right derivative.", "quantifier": "all data", "why_tests_cant": "continuum", "anchors": ["matslise/liouville/liouville.cpp:y2z", "matslise/liouville/sturm_liouville.cpp:SLEigenfunction"]}
{"id": "C51", "title": "Coupled problems: Riccati propagation checks the domain", "statement": "Matscs::propagatePsi rejects points outside [xmin,xmax] like propagate does, instead of reading an invalid sector.", "quantifier": "all a,b", "why_tests_cant": "out-of-range access is undefined behaviour, a passing test proves nothing", "anchors": ["matslise/matscs/matscs.cpp:propagatePsi"]}
{"id": "C52", "title": "Coupled problems: Riccati propagation backward inverts forward", "statement": "Propagating psi from a to b and back returns psi.", "quantifier": "all sectors and psi for which the solves are regular", "why_tests_cant": "continuum", "anchors": ["matslise/matscs/sector.cpp:propagatePsi_delta"]}
{"id": "C53", "title": "Coupled problems: eigenfunction evaluates all requested points", "statement": "Matscs::eigenfunction returns one value for every requested point in the domain.", "quantifier": "all point lists, all sector lists", "why_tests_cant": "all lists", "anchors": ["matslise/matscs/matscs.cpp:eigenfunction"]}
{"id": "C54", "title": "Eigenfunctions returned to Python never outlive their problem", "statement": "For every sequence of creating, dropping and calling problems and eigenfunctions from Python, no eigenfunction call touches a destroyed problem, and when all handles are dropped everything is destroyed.", "quantifier": "every history", "why_tests_cant": "memory safety over histories", "anchors": ["matslise/pyslise/module.h:EigenfunctionWrapper", "matslise/pyslise/pyslise.cpp:eigenfunction"]}
{"id": "C55", "title": "Eigenfunctions returned to JavaScript never outlive their problem", "statement": "The same for the JavaScript binding.", "quantifier": "every history", "why_tests_cant": "memory safety over histories", "anchors": ["matslise/js/matslise.cpp:eigenfunction"]}
{"id": "C56", "title": "Coupled constructor validates its options", "statement": "The Python constructor for coupled problems raises unless exactly one of steps and tolerance is set and jumps are only used with tolerance, and accepted options always give a valid sector list.", "quantifier": "all option combinations", "why_tests_cant": "all combinations including negative and zero step counts", "anchors": ["matslise/pyslise/pyscs.cpp:Pyscs __init__"]}
{"id": "C57", "title": "Potential minimum estimate", "statement": "estimatePotentialMinimum returns the smallest sector mean: attained by some sector and not larger than any.", "quantifier": "every non-empty sector list", "why_tests_cant": "all lists", "anchors": ["matslise/matslise/matslise.cpp:estimatePotentialMinimum"]}
{"id": "C58", "title": "Python sector objects stay usable", "statement": "A sector object obtained from a problem through __sector can be read for as long as Python holds it, also after the problem itself was dropped.", "quantifier": "every history", "why_tests_cant": "memory safety over histories", "anchors": ["matslise/pyslise/pyslise.cpp:__sector", "matslise/pyslise/pyscs.cpp:__sector"]}
{"id": "C59", "title": "One step of a sector is accurate to high order", "statement": "For every sector of length at most 1 whose potential coefficients are bounded by B and every energy within W of its mean, the matrix returned for a distance delta inside the sector maps (y, y') of any exact solution of y''=(V-E)y at the start to its values at delta with error at most K h^16 in y and K h^15 in y' (K depends on B and W only, plus the 1e-12 thresholds); the full-sector matrix has error at most K h^19 in both.", "quantifier": "all bounded sectors, energies, distances and solutions", "why_tests_cant": "an order statement with a uniform constant over a continuum of problems; tests can only sample convergence", "anchors": ["matslise/matslise/sector.cpp:calculateT", "matslise/matslise/matslise_formulas.cpp:calculate_tcoeff_matrix"]}
{"id": "C60", "title": "Round trips return the start", "statement": "Propagating a solution from a to b and back from b to a with the same settings returns the original (y, y') multiplied by one number k, the product of the step determinants, and |k - 1| is of the order of the method: at most K (H^18 + n 1e-20) between sector boundaries with full steps, where H is the largest sector and n their number.", "quantifier": "all sector lists with bounded coefficients, energies, a, b, initial values", "why_tests_cant": "a uniform bound over a continuum of problems and unboundedly many sectors", "anchors": ["matslise/matslise/matslise.cpp:propagate", "matslise/matslise/sector.cpp:propagateDelta", "matslise/util/y.h:operator/"]}
{"id": "C61", "title": "Whole propagations converge", "statement": "For any number of sectors, any a and b and both directions, the propagated (y, y') differs from the exact solution of y''=(V-E)y at b by at most K times (the error at a, plus the size of the solution times H^18 + tau + n 1e-20), where tau is how well the sectors represent V; H^14 without the full-step formulas, and H^15 + 1e-12 more when a or b is inside a sector. Sectors built from a polynomial potential of degree at most 15 have tau at the accuracy of the tables.", "quantifier": "all potentials, sector lists, energies, a, b, solutions", "why_tests_cant": "convergence order with a uniform constant; accumulation over unboundedly many sectors", "anchors": ["matslise/matslise/matslise.cpp:propagate", "matslise/matslise/sector.cpp:propagate", "matslise/matslise/sector.cpp:calculateT", "matslise/util/legendre.h:getCoefficients"]}
{"id": "C62", "title": "The matching error approximates the exact one", "statement": "The matching error at E differs from the Wronskian of the two exact solutions at the matching point by at most K (H^18 + tau + n 1e-20) times the sizes of the boundary values; it is that small at exact eigenvalues, and two matching errors of opposite sign that exceed this bound enclose an exact eigenvalue.", "quantifier": "all potentials, sector lists, energies, boundary values", "why_tests_cant": "relates the code to the exact spectrum of a continuum of problems", "anchors": ["matslise/matslise/matslise.cpp:matchingError"]}
{"id": "C63", "title": "Coupled problems: the step matrices solve the coupled equation", "statement": "For any number of channels, the step matrix of a coupled sector solves Y''=(V(x)-E)Y with V the Legendre expansion of degree 8 stored for the sector, up to residual terms of order 7 in the step (and rounding of the printed coefficients, at most 1e-10); its second block row is the derivative of the first, it is the identity for a zero step, exact for a constant potential matrix, agrees with the full-sector matrix to order 9, its dt part is the derivative with respect to E up to a term of order 7, and changing the direction of a sector gives the sector built with that direction.", "quantifier": "all numbers of channels, all symmetric coefficient matrices, all step sizes, energies and distances", "why_tests_cant": "the tables contain thousands of noncommutative monomials; tests see a few problems and sizes", "anchors": ["matslise/matscs/matscs_formulas.cpp:calculate_tcoeff_matrix", "matslise/matscs/sector.cpp:calculateT", "matslise/matscs/sector.cpp:setDirection"]}
{"id": "C64", "title": "The angle counts the zeros of the solution", "statement": "When the step matrices are exact on the sectors crossed, the potential's mean on each sector is the stored one and varies by less than (pi/2h)^2 around it, propagating a solution from a to b returns its value and slope at b and a continuous Pruefer angle: going right the angle lies in [n pi,(n+1) pi) where n is the number of zeros in (a,b], going left in [-n pi,(1-n) pi) with n the zeros in (b,a). At an eigenvalue the matching error is 0 and the angle difference is exactly pi times the number of zeros of the eigenfunction strictly inside the interval. This holds unconditionally for piecewise constant potentials, provided the matching point lies before the right end (with a single uniform sector it does not, and the index is wrong).", "quantifier": "all potentials, sector lists, energies, boundary values, directions", "why_tests_cant": "the count depends on the path of a continuous angle over unboundedly many sectors; tests compare a few eigenvalue indices", "anchors": ["matslise/matslise/sector.cpp:pruferHelper", "matslise/matslise/sector.cpp:theta0", "matslise/matslise/matslise.cpp:propagate", "matslise/matslise/matslise.cpp:matchingError"]}
{"id": "C65", "title": "The index of an eigenvalue is the number of zeros of its eigenfunction", "statement": "With exact steps and a matching point before the right end, the angle difference computed for energy E, divided by pi, is a continuous function F of E that rises through every integer (once F has reached k it stays above k); F(E)=k holds exactly when E is an eigenvalue of the problem whose eigenfunction has k zeros inside the interval. Hence eigenvalues are ordered by their number of zeros and no index is skipped.", "quantifier": "all potentials, sector lists, boundary conditions, energies and indices", "why_tests_cant": "a monotonicity and continuity statement over a continuum of energies; tests see finitely many energies", "anchors": ["matslise/matslise/matslise.cpp:matchingError", "matslise/matslise/sector.cpp:pruferHelper", "matslise/matslise/matslise.cpp:computeEigenvaluesHelper"]}
{"id": "C66", "title": "The search returns exactly the eigenvalues of the problem", "statement": "With exact steps, if the probed energies are not themselves eigenvalues, eigenvalues are not closer than 2^-31 of the search interval and Newton's iteration ends within eps of the eigenvalue of its bracket, then computeEigenvalues(Emin, Emax, Imin, Imax) returns exactly one entry for each eigenvalue in (Emin, Emax) whose eigenfunction has k zeros with Imin <= k < Imax: the pair of k and an energy within eps, in increasing order, and nothing else.", "quantifier": "all potentials, sector lists, boundary conditions, energy ranges and index ranges", "why_tests_cant": "completeness of the returned list (nothing missed, nothing spurious) for every problem", "anchors": ["matslise/matslise/matslise.cpp:computeEigenvaluesHelper", "matslise/matslise/matslise.cpp:newtonIteration", "matslise/matslise/matslise.cpp:matchingError"]}
{"id": "C67", "title": "Periodic matching: zeros of the determinant and angle windows", "statement": "For a periodic or antiperiodic problem (K = I or K = -I) with exact steps, the matching determinant at E vanishes exactly when E is an eigenvalue; both angle differences are continuous functions of E, greater than -1, that rise through every integer; at an eigenvalue whose eigenfunction has n zeros per period both lie strictly between n-1 and n+1 and n has the parity of the problem; where one of them equals an integer of the other parity the determinant is at most -8.", "quantifier": "all potentials, sector lists with a matching point before the right end, energies", "why_tests_cant": "statement about a continuum of energies and all potentials; tests see a few eigenvalues of a few potentials", "anchors": ["matslise/matslise/periodic.cpp:matchingError", "matslise/matslise/periodic.cpp:calculateMatchingError"]}
{"id": "C68", "title": "Periodic eigenvalues are ordered by index, in pairs", "statement": "Eigenvalues of a periodic or antiperiodic problem have a well-defined index (number of zeros per period of any eigenfunction), larger eigenvalues have no smaller index, at most two different eigenvalues share an index, and only one has index 0; no eigenvalue lies below an energy at which an angle difference is not positive.", "quantifier": "all potentials, energies, indices", "why_tests_cant": "oscillation theory over all potentials", "anchors": ["matslise/matslise/periodic.cpp:eigenpairsHelper", "matslise/matslise/periodic.cpp:eigenvaluePair"]}
{"id": "C69", "title": "Periodic search: every eigenvalue lies in a searched window, the lowest is found", "statement": "With exact steps, every periodic eigenvalue of index n>=1 inside the energy range (query by energies) or with n in the requested index range (query by index) lies, up to the stopping width, in an energy interval that the search examines, and what is found there is listed; the query by index starting at 0 lists, within 3e-8 relative, the lowest eigenvalue of the problem, provided the next eigenvalues are not within the stopping width of the energy where the larger angle difference is 1.", "quantifier": "all potentials, energy ranges, index ranges", "why_tests_cant": "completeness over all potentials", "anchors": ["matslise/matslise/periodic.cpp:eigenpairsHelper", "matslise/matslise/periodic.cpp:eigenvalues", "matslise/matslise/periodic.cpp:eigenvaluesByIndex"]}
{"id": "C70", "title": "Periodic search lists only eigenvalues", "statement": "Every energy listed by the periodic query by energies is (within the stopping width) an eigenvalue of the problem.", "quantifier": "all potentials and energy ranges", "why_tests_cant": "must hold for every range, in particular ranges that start just above the lowest eigenvalue", "anchors": ["matslise/matslise/periodic.cpp:eigenpairsHelper", "matslise/matslise/periodic.cpp:eigenvalues"]}
{"id": "C71", "title": "Periodic searches terminate and every index has an eigenvalue", "statement": "With exact steps, a periodic or antiperiodic problem has an eigenvalue for every index of the right parity; both angle differences fall below the first thresholds towards low energies and pass every bound towards high energies; hence the query by index from index 0 on terminates for every index range, and the query by energies terminates for every range whose angle differences fit in an int.", "quantifier": "all potentials, index ranges, energy ranges", "why_tests_cant": "termination over all potentials and ranges, limits at infinite energies", "anchors": ["matslise/matslise/periodic.cpp:eigenpairsHelper", "matslise/matslise/periodic.cpp:eigenvalues", "matslise/matslise/periodic.cpp:eigenvaluesByIndex"]}
{"id": "C72", "title": "Every index has exactly one eigenvalue, and the query by index brackets it", "statement": "With exact steps and separated boundary conditions, the angle difference tends to a value between -1 and 0 (in units of pi) at low energies and to infinity at high energies, every index k >= 0 belongs to exactly one eigenvalue, and the doubling searches of eigenvaluesByIndex end with energies that bracket the eigenvalues of all requested indices; the query then returns one entry for each requested index, within the Newton tolerance of the eigenvalue with that index.", "quantifier": "all potentials, boundary conditions, index ranges", "why_tests_cant": "termination and completeness over all potentials, limits at infinite energies", "anchors": ["matslise/matslise/matslise.cpp:eigenvaluesByIndex", "matslise/matslise/matslise.cpp:computeEigenvaluesHelper"]}
{"id": "C73", "title": "Periodic problems with a general matrix K of determinant 1", "statement": "For a problem with (y(hi), y'(hi)) = K (y(lo), y'(lo)), K a matrix of determinant 1 (the constructor accepts every such K), the determinant the search uses vanishes exactly at the eigenvalues, every eigenvalue lies in one of the windows of the parity at which the search starts, and the query by index starting at 0 lists the lowest eigenvalue.", "quantifier": "all matrices K of determinant 1, all potentials", "why_tests_cant": "must hold for every matrix K, not only for K = I and K = -I", "anchors": ["matslise/matslise/periodic.cpp:eigenpairsHelper", "matslise/matslise/periodic.cpp:eigenvaluesByIndex", "matslise/matslise/periodic.cpp:matchingError", "matslise/matslise.h:PeriodicMatslise"]}
{"id": "C74", "title": "Half-range problems solve the full symmetric problem", "statement": "For an even potential and a boundary condition that is mirrored at both ends, the eigenvalues of index 2k on [-L, L] are those of index k of the problem on [0, L] with a Neumann condition at 0, those of index 2k+1 are those of index k with a Dirichlet condition at 0. Hence the symmetric solver's queries by index and by energy list exactly the requested eigenvalues of the full problem, provided the half problem's queries do; when no index is given the parity of the eigenfunction is chosen correctly; evaluation on an array gives values of one eigenfunction on [-L, L]. As left and right sides have to be identical, the problem solved is the one the general solver solves with these sides.", "quantifier": "all even potentials, boundary conditions, index ranges, energy windows, evaluation points", "why_tests_cant": "an equivalence of two spectra, for every potential and every index", "anchors": ["matslise/matslise/halfrange.cpp:eigenvaluesByIndex", "matslise/matslise/halfrange.cpp:eigenvalues", "matslise/matslise/halfrange.cpp:isEven", "matslise/matslise/halfrange.cpp:EigenfunctionHalf", "matslise/matslise.h:checkSymmetry"]}
{"id": "C75", "title": "Eigenvalues depend monotonically and Lipschitz-continuously on the potential; where the k-th one lies", "statement": "If one potential is nowhere above another, each of its eigenvalues is at most the other's eigenvalue with the same index; potentials that differ by at most delta have eigenvalues that differ by at most delta. Hence the answers of a query by index for a potential that the sectors represent up to delta are within delta (plus the Newton error) of the true eigenvalues with these indices. The k-th eigenvalue lies between explicit bounds in terms of the range of the potential, the length of the interval and k; hence the doubling searches of the query by index end, for every potential, boundary conditions and index range that does not overflow int.", "quantifier": "all potentials, boundary conditions, indices", "why_tests_cant": "a perturbation theorem for a spectrum and a termination claim, over all potentials", "anchors": ["matslise/matslise/matslise.cpp:eigenvaluesByIndex", "matslise/matslise/matslise.cpp:computeEigenvaluesHelper", "matslise/matslise/sector.cpp:MatsliseSector"]}
{"id": "C76", "title": "The eigenfunction returned for an eigenvalue is the normalised eigenfunction of the problem", "statement": "For an eigenvalue with index k the function returned by eigenfunction(E) is, at every point of the interval and for single points as well as arrays of points, the value and slope of one solution of -y'' + V y = E y that is a positive multiple of the left boundary values at the left end, satisfies the right boundary condition, has exactly k zeros inside, and whose square integrates to 1; these conditions determine it. Outside the interval the result is 0. Eigenfunctions of different eigenvalues are orthogonal.", "quantifier": "all potentials whose sector steps are exact (in particular piecewise constant ones), eigenvalues, boundary conditions, evaluation points and arrays of points", "why_tests_cant": "equality with the solution of a differential equation at every point, and an integral", "anchors": ["matslise/matslise/matslise.cpp:eigenfunction", "matslise/matslise/matslise.cpp:propagationSteps", "matslise/matslise/sector.cpp:propagate", "matslise/matslise/sector.cpp:calculateT"]}
{"id": "C77", "title": "Coupled problems: the angle returned by propagate", "statement": "propagate for a coupled problem returns, beside the matrix of solutions (Y, Y') at b, an angle. exp(i angle) times the phase det(Y' + iY)/det(Y' - iY) at a is the phase at b, for every conjoined start matrix, sector grid, energy and direction. For a problem without coupling (diagonal potential matrix, piecewise constant) the angle is exactly twice the sum over the channels of the change of their continuous Pruefer angles, every full turn counted.", "quantifier": "all numbers of equations, sector grids, energies, directions, points a and b, start matrices", "why_tests_cant": "an angle that must be right including its full turns, for every problem and every number of turns", "anchors": ["matslise/matscs/sector.cpp:theta", "matslise/matscs/sector.cpp:angle", "matslise/matscs/sector.cpp:propagateDelta", "matslise/matscs/sector.cpp:propagate", "matslise/matscs/matscs.cpp:propagate"]}
{"id": "C78", "title": "The automatic sector builder's error estimate and step control", "statement": "The error estimate of a sector bounds the difference of the two one-step formulas at the reference energy, is never negative, is 0 for a constant potential and of order h^12 for bounded coefficients. Every sector of an automatically built problem has an estimate that does not exceed the requested tolerance, unless it is at most 1e-3 wide or the result of ten successive refinements of sectors that were all too coarse; where the potential is constant between the given jumps no boundary is added except one meeting point. A user would expect the estimate of every sector to meet the tolerance.", "quantifier": "all potentials, tolerances, jump lists, intervals, error estimates and scalar types (control part: also IEEE doubles)", "why_tests_cant": "a guarantee about every sector of every problem, and an asymptotic order", "anchors": ["matslise/matslise/sector.cpp:error", "matslise/matslise/sector.cpp:calculateT", "matslise/util/sectorbuilder.cpp:automaticNextSector", "matslise/util/sectorbuilder.cpp:AutomaticSectorBuilder"]}
{"id": "C79", "title": "Liouville transformation: every accepted pair of pieces agrees with the piece it replaces", "statement": "The pieces of the transformation come in pairs of halves; for each pair the single piece for the whole range has an x-length below 1e-8, or the pair agrees with it: right end of the x-range, area under r2x, Gauss sum of x2r, area under p*w up to 1e-14 and the change of p*w up to 1e-12, relative to max(1, |value|). A piece whose halves agree this well is not divided further. The quadrature used gives half of the integral of a polynomial of degree below the number of points, up to the rounding of its table.", "quantifier": "all coefficient functions p and w, ranges, pairs of pieces", "why_tests_cant": "must hold for every pair of pieces of every construction", "anchors": ["matslise/liouville/liouville.cpp:constructPiecewise", "matslise/liouville/liouville.cpp:relError", "matslise/liouville/liouville.cpp:pieceError", "matslise/util/legendre.h:integrate"]}
{"id": "C80", "title": "Arithmetic with values and energy derivatives", "statement": "Negating, scaling, reversing, combining columns, selecting a column, multiplying with a matrix from the right (new columns) or from the left (new unknowns) acts on values, slopes and on their energy derivatives in the same way, entry by entry, so stored energy derivatives stay the derivatives of the stored values. All of these commute with propagation over a step (changing the unknowns transforms the step matrix), two values compare equal exactly when all entries agree, and every propagated start value is the combination of the propagated Neumann and Dirichlet columns.", "quantifier": "all numbers of equations and columns, matrices, values, steps", "why_tests_cant": "algebraic identities for every dimension, and derivatives", "anchors": ["matslise/util/y.h:Y", "matslise/util/y.h:operator*", "matslise/util/y.h:col", "matslise/util/y.h:T"]}
{"id": "C81", "title": "Newton's refinement of an eigenvalue converges", "statement": "Around every eigenvalue there is a distance such that from any energy within it the refinement step of the eigenvalue search ends with the right index and an energy at most half as far away, and within max(tolerance, distance/2^20); one step squares the distance up to a constant; eigenvalueError, asked within that distance, returns a number between half and three halves of the true distance to the eigenvalue. The search therefore returns every eigenvalue asked for whenever each isolated bracket starts close enough, with nothing assumed about the refinement.", "quantifier": "all problems with exact steps (piecewise constant potentials without further assumption), all separated boundary conditions, all eigenvalues, all starting energies near them, all tolerances", "why_tests_cant": "tests refine a few eigenvalues of a few potentials and compare decimals; convergence from every nearby energy, for every potential, rests on the derivative the code computes being the exact nonzero derivative at each eigenvalue", "anchors": ["matslise/matslise/matslise.cpp:60-88 newtonIteration", "matslise/matslise/matslise.cpp:185-190 eigenvalueError", "matslise/matslise/matslise.cpp:28-58 matchingError"]}
{"id": "C82", "title": "Coupled problems: the error estimate of a sector and its use", "statement": "The error estimate of a sector of a coupled problem is the largest entry of the difference of the two one-step formulas, every channel taken at its own mean potential; if all channels share one mean potential it bounds the difference of the two step matrices at that energy. It is never negative, 0 for a constant potential matrix, and of order h^9 for bounded potentials (up to the rounding of the printed tables, 1e-10 h^6). Unless the tolerance is extremely small every sector of an automatically built problem meets the tolerance or is the result of ten refinements of sectors that did not; potential matrices that are constant between the jumps get no other sector boundaries than the jumps and the first meeting point. A sector whose estimate is not a number is not accepted, for coupled as for scalar problems, unless it is at most 1e-3 wide or the result of ten refinements.", "quantifier": "all numbers of equations, potential matrices, eigenvector matrices, tolerances, jump lists, intervals (NaN part: all runs on IEEE doubles)", "why_tests_cant": "an asymptotic order and a guarantee about every sector of every problem", "anchors": ["matslise/matscs/sector.cpp:error", "matslise/matscs/sector.cpp:calculateTFromVEd", "matslise/matslise/sector.cpp:error", "matslise/util/sectorbuilder.cpp:automaticNextSector"]}
{"id": "C83", "title": "Query by index, from end to end", "statement": "For a problem whose potential is constant on each sector, eigenvaluesByIndex(Imin, Imax) returns exactly one entry per requested index, in order, each within max(tolerance, rho/2^20) of the eigenvalue whose eigenfunction has that many zeros, where rho is the distance between the middle of the isolated brackets and the eigenvalue in them, as long as rho is below a distance that depends on the problem only. The same holds for a symmetric problem given by its right half, with the eigenvalues of the problem on the whole interval.", "quantifier": "all piecewise constant problems, separated boundary conditions, index ranges, tolerances; all even potentials for the symmetric form", "why_tests_cant": "composition of bracketing, bisection, Newton's iteration and merging for every problem; tests check known spectra only", "anchors": ["matslise/matslise/matslise.cpp:eigenvaluesByIndex", "matslise/matslise/matslise.cpp:computeEigenvaluesHelper", "matslise/matslise/matslise.cpp:newtonIteration", "matslise/matslise/halfrange.cpp:eigenvaluesByIndex"]}
{"id": "C84", "title": "The estimate of the eigenvalue error is an upper bound", "statement": "eigenvalueError(E) is documented to be larger than the true error of E. Near an eigenvalue it lies between one half and three halves of the true error; that it bounds the true error is false.", "quantifier": "all tolerances and all energies between 0 and the first eigenvalue of a fixed problem (refutation); all eigenvalues of all piecewise constant problems (two-sided estimate)", "why_tests_cant": "tests compare with known eigenvalues at a few energies and use a factor", "anchors": ["matslise/matslise/matslise.cpp:eigenvalueError", "matslise/matslise/matslise.cpp:newtonIteration", "matslise/pyslise/pyslise.cpp:eigenvalueError"]}
{"id": "C85", "title": "Profiler report is exact for every nesting of timed calls", "statement": "In a profiling build, whatever timed calls are made and however they are nested, and whether they return or throw, the profiler never pops or reads an empty stack; when all calls have ended its stack is empty; the report lists every call path that occurred exactly once, with the number of calls with that path and the sum of their durations; the lines are in the order in which the first call of each path started, so they do not depend on the hash map's iteration order, and a nested path comes after the path around it.", "quantifier": "every forest of timed calls, all names (also names that contain the separator), all durations, every iteration order of the hash map", "why_tests_cant": "A test can only run a few call trees; distinct trees whose concatenated names collide, and the dependence on the order of the hash map, need an argument over all trees.", "anchors": ["matslise/util/scoped_timer.h:Profiler", "matslise/util/scoped_timer.h:ScopedTimer"]}
{"id": "C86", "title": "The matrix K of a periodic problem is checked", "statement": "PyslisePeriodic accepts a matrix K exactly when its determinant differs from 1 by at most 1e-6, and otherwise raises an error with the documented message; so no object exists for a matrix that is not (nearly) of determinant 1.", "quantifier": "every 2x2 matrix of doubles, also with infinities and NaN", "why_tests_cant": "A test tries a few matrices; the claim is about all of them, and about what the object of a wrongly accepted one answers whatever the potential is.", "anchors": ["matslise/pyslise/pyslise.cpp:PyslisePeriodic", "matslise/matslise/periodic.cpp:eigenvaluesByIndex", "matslise/matslise/periodic.cpp:eigenvalues"]}
{"id": "C87", "title": "Conversions at the language borders keep values and order", "statement": "The interior points reported to JavaScript are the interior sector boundaries, strictly increasing, strictly inside the domain, one less than there are sectors; evaluating an eigenfunction on an array gives to JavaScript one row per point and to Python a row of values and a row of derivatives, each equal to the evaluation at the single point; computeEigenfunction gives the values.", "quantifier": "every partition into sectors of positive length, every list of points, every eigenfunction whose array and scalar evaluations agree (C36 for eigenvalues)", "why_tests_cant": "A test sees a few sector lists and arrays; off-by-one errors at the ends or swapped rows and columns must be excluded for all lengths.", "anchors": ["matslise/js/matslise.cpp:sectorPoints", "matslise/js/matslise.cpp:Eigenfunction", "matslise/js/module.h:ArrayX2d2val", "matslise/pyslise/pyslise.cpp:Eigenfunction"]}
{"id": "C88", "title": "Moving the problem moves the answer", "statement": "Translating the domain and the potential by a and raising the potential by c changes nothing but the positions and the energies: the automatic builder makes the translated mesh with the same matching index, every propagation (angles and energy derivatives included) at E + c equals the original one at E, and so does the matching function with its derivative. For a translated potential this holds of the whole construction exactly; for a raised one the mean of each sector rises by c and the other coefficients change by no more than the 17-digit rounding of the quadrature weights.", "quantifier": "all potentials, domains, jump lists, tolerances, sector lists, energies, starting values, positions in both directions, shifts a and c", "why_tests_cant": "a test compares a few shifted problems within a tolerance; that no absolute position or energy enters any decision of the builder or any formula is a statement about all of them", "anchors": ["matslise/matslise/sector.cpp: calculateT, propagate, theta0, error", "matslise/matslise/matslise.cpp: propagate, matchingError", "matslise/util/sectorbuilder.cpp: AutomaticSectorBuilder", "matslise/util/legendre.h: getCoefficients"]}
{"id": "C89", "title": "Changing the unit of length", "statement": "Multiplying all positions by u and dividing potential and energy by u^2 multiplies and divides the entries of every propagation matrix by the powers of u their dimensions prescribe: solutions keep their values, their derivatives are divided by u, the matching function is divided by u and its energy derivative multiplied by u, so E is a root of one problem exactly if E / u^2 is one of the other. Only two things are not unit free: the absolute threshold 1e-12 on step widths, and the a priori terms of the error estimate.", "quantifier": "all u > 0, sectors, coefficients, energies, starting values, positions in both directions, both formulas", "why_tests_cant": "the formulas have several hundred terms; a term with a wrong power of h is not visible at h = 1 and hides in the error for small h", "anchors": ["matslise/matslise/matslise_formulas.cpp: calculate_tcoeff_matrix", "matslise/matslise/sector.cpp: calculateT, propagate, error", "matslise/matslise/matslise.cpp: propagate, matchingError"]}
{"id": "C90", "title": "Conversions to int", "statement": "Asking for eigenvalues never runs into undefined behaviour. True when every angle that comes up, in units of pi, fits in int: then no query (by range, by index, error estimate) converts an unrepresentable value. Without that it is false: for every piecewise constant problem the query by range is undefined behaviour as soon as the upper end of the range is large enough, and in double precision so it is when the angle at one end is NaN.", "quantifier": "all matching functions, tolerances, ranges, index windows, numbers of turns of the loops; all piecewise constant problems; all doubles", "why_tests_cant": "undefined behaviour shows up as an arbitrary int on each platform; the tests only use ranges with a few hundred eigenvalues", "anchors": ["matslise/matslise/matslise.cpp: computeEigenvalues, eigenvaluesByIndex, newtonIteration"]}
{"id": "C91", "title": "Coupled problems: free choice of eigenvectors and of the basis of the channels", "statement": "Inside each sector the potential matrix is diagonalised numerically. Whichever eigenvectors the solver returns (signs, order, any orthonormal basis for a repeated eigenvalue), the step matrices and their energy derivatives are the same. Writing the problem in another orthonormal basis of the channels gives the same step matrices written in that basis; in particular, renumbering the channels renumbers their rows and columns.", "quantifier": "all numbers of channels, potential matrices, orthonormal bases, eigenvector matrices, directions, step lengths, energies, both formulas, every implementation of the eta functions", "why_tests_cant": "the solver's choice changes with library version, platform and rounding; a formula that mixes the two bases can pass on diagonal or symmetric examples", "anchors": ["matslise/matscs/sector.cpp: Sector(), calculateTCoeffs, calculateTFromVEd, calculateT", "matslise/matscs/matscs_formulas.cpp: calculate_tcoeff_matrix"]}
