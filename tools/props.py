import json
P=[]
def p(title,statement,quantifier,why,anchors):
    P.append(dict(id="C%02d"%(len(P)+1),title=title,statement=statement,quantifier=quantifier,why_tests_cant=why,anchors=anchors))

p("Sector lookup is total, in bounds and exact",
"For a problem whose sectors partition [xmin,xmax], looking up the sector of a point terminates, never reads outside the sector list, returns an index whose closed interval contains the point whenever the point is in the domain, and returns -1 exactly when it is not (NaN included).",
"every non-empty contiguous sector list of any length, every point",
"unbounded list lengths and all real points, including points exactly on sector boundaries",
["matslise/util/find_sector.h:find_sector","matslise/matslise.h:Matslise::Sector::contains"])
p("Uniform sector builder yields an exact partition",
"With a fixed number n>=1 of steps, the problem gets exactly n sectors; the first starts at xmin, the last ends at xmax, each sector starts exactly where the previous one ends, sectors up to matchIndex are forward and those after it backward, 0 <= matchIndex < n.",
"every n>=1, every domain, every potential (through the comparisons made)",
"n and the potential are unbounded; the order in which sectors are filled depends on the potential",
["matslise/util/sectorbuilder.cpp:UniformSectorBuilder::operator()"])
p("Automatic sector builder yields an exact partition",
"Whenever construction with the automatic builder returns, the sectors form an exact partition of [xmin,xmax] (bitwise equal interior end points), sectors up to matchIndex are forward, those after it backward, and matchIndex is a valid index.",
"every potential (every outcome of the local error estimates, step factors and comparisons), every tolerance, every domain, every jump list",
"the step-size controller is driven by data-dependent floating-point error estimates; no finite test set covers all histories",
["matslise/util/sectorbuilder.cpp:AutomaticSectorBuilder::operator()","matslise/util/sectorbuilder.cpp:automaticNextSector"])
p("Every jump is a sector boundary",
"When the jumps passed to the automatic builder are strictly sorted and strictly inside the domain, every jump is an end point of some sector, so no sector straddles a discontinuity of the potential.",
"every sorted jump list, every potential, tolerance and domain, whenever construction returns",
"interaction of two moving fronts and arbitrarily many jumps",
["matslise/util/sectorbuilder.cpp:AutomaticSectorBuilder::operator()"])
p("Automatic construction terminates",
"Constructing a problem with the automatic builder terminates with a bounded number of sectors when xmin<xmax and jumps are strictly sorted and interior, in exact arithmetic, for every potential.",
"every error-estimate oracle, tolerance, domain and strictly sorted jump list",
"termination over all potentials cannot be tested",
["matslise/util/sectorbuilder.cpp:automaticNextSector","matslise/util/sectorbuilder.cpp:AutomaticSectorBuilder::operator()"])
p("Any user jump list is accepted",
"Passing a list of jumps with repeated positions (or positions outside the domain) to the Python constructor still yields a problem whose sectors all have positive width.",
"every list of jumps",
"needs an adversarial history; the code filters and sorts the list but does not remove duplicates",
["matslise/pyslise/pyslise.cpp:Pyslise __init__","matslise/util/sectorbuilder.cpp:AutomaticSectorBuilder::operator()"])
p("The potential is only evaluated strictly inside sectors, during construction",
"The potential is evaluated only while the problem is constructed, only at points strictly inside the sector under construction; so never at xmin, xmax or a jump, and for the half-range problem only on (0,xmax).",
"every potential, every builder history, every call after construction",
"requires observing every evaluation for every potential",
["matslise/util/legendre.h:Legendre::Legendre","matslise/matslise/sector.cpp:Sector::Sector","matslise/matslise/halfrange.cpp:MatsliseHalf::MatsliseHalf"])
p("eta functions are accurate on the whole line",
"calculateEta(Z)[i] equals the mathematical eta_i(Z) = sum_q Z^q/((2q)!!(2q+2i-1)!!) exactly for |Z|>=100 and within 1e-20 for |Z|<100 (exact arithmetic), for all components.",
"every real Z, every component count n with 1<=n<=10 (and every n for the large branch)",
"continuum of Z; cancellation-prone recurrences",
["matslise/util/calculateEta.h:calculateEta"])
p("Polynomial arithmetic is a ring homomorphism",
"Evaluating p+q, p-q, p*q, -p, c*p, p/c, p+c, p-c, c-p at x gives the corresponding combination of p(x), q(x); Horner evaluation is the mathematical value; widening the degree does not change values.",
"all degrees, all coefficients, all x",
"all degrees and coefficients",
["matslise/util/polynomial.h:Polynomial"])
p("Polynomial derivative and integral are exact",
"derivative<d>() and derivative<d>(x) are the d-th mathematical derivative, integral() is an antiderivative vanishing at 0 and integral(x) equals integral()(x), i.e. the integral from 0 to x.",
"all degrees, all d, all coefficients, all x",
"all degrees and orders",
["matslise/util/polynomial.h:derivative","matslise/util/polynomial.h:integral"])
p("Legendre projection tables are correct",
"The 16x16 table holds the shifted Legendre polynomials (orthogonal on [0,1] with squared norm 1/(2i+1), value 1 at 1), and the n-point node/weight tables reproduce the exact projection of every polynomial of degree < n up to the decimal rounding of the tables.",
"every table n=2,4,...,18, every polynomial of degree below n (for the tabled double data)",
"the property is about all polynomials",
["matslise/util/legendre.h:polynomials","matslise/util/legendre_data.h","matslise/util/legendre.h:getCoefficients"])
p("Energy derivatives follow the product rule",
"If (t,dt) is a propagation matrix with its energy derivative and (y,ydE) a solution with its energy derivative, the propagated ydE is the energy derivative of the propagated y.",
"all matrices and vectors differentiable in E",
"all E, all smooth families",
["matslise/util/y.h:T::operator*","matslise/util/y.h:T::operator/"])
p("Propagating forth and back returns the start",
"Propagating over a step and back over the same step returns the initial value multiplied by the determinant of the propagation matrix; with determinant 1 (Wronskian preserved) propagation is exactly invertible in both directions, including energy derivatives when the determinant is constantly 1.",
"every step matrix, every initial value, both sector orientations",
"all real values",
["matslise/util/y.h:T::operator/","matslise/matslise/sector.cpp:propagateDelta"])
p("Tabulated propagators solve the Schroedinger equation to high order",
"The tabulated propagation formula satisfies y''=(V-E)y with V the sector's Legendre polynomial model, with a residual that contains only monomials of total order >= 15 in the step, for all potentials coefficients, all energies and all positions in the sector; the derivative rows are the exact derivatives of the value rows, up to that order.",
"all values of the potential coefficients v1..v13, energy, position delta and width h",
"polynomial identity in 17 variables with thousands of terms",
["matslise/matslise/matslise_formulas.cpp:calculate_tcoeff_matrix","matslise/matslise/sector.cpp:Sector::calculateT"])
p("Full-step and partial-step formulas agree",
"The special formula used when a whole sector is crossed agrees with the partial-step formula at delta = h up to terms of order beyond the truncation order.",
"all potential coefficients, energies and widths",
"polynomial identity",
["matslise/matslise/matslise_formulas.cpp:calculate_tcoeff_matrix","matslise/matslise/sector.cpp:Sector::calculateT"])
p("Reported energy derivative of the propagator is the derivative",
"dT returned with T is dT/dE of the computed T, except for the derivative of the last eta term which is dropped; the difference is given exactly.",
"all energies, potential coefficients, positions",
"derivative statement over a continuum",
["matslise/matslise/sector.cpp:Sector::calculateT"])
p("Initial Pruefer angle: range and sector independence",
"The initial angle of (y,y')<>0 lies in (-pi/2,pi/2], satisfies tan(angle)=s*y/y' with s the problem-wide scaling (angle pi/2 when y'=0), is unchanged when (y,y') is multiplied by any nonzero factor and does not depend on the mean potential of the sector in which it is computed.",
"all (y,y')<>0, E, sector mean potentials",
"branch cuts of atan2 over a continuum",
["matslise/util/theta.h:atan_safe","matslise/matslise/sector.cpp:Sector::theta0","matslise/matslise/sector.cpp:rescale"])
p("Propagated angle is an angle of the propagated solution",
"After propagate(E,y,a,b) the returned theta satisfies s*y(b)*cos(theta)=y'(b)*sin(theta), whatever sectors and directions were used: theta and the returned (y,y') always describe the same direction modulo pi.",
"every sector list, orientation, energy, y<>0 and a,b (nondegenerate steps)",
"branch corrections in the angle update accumulate over arbitrarily many sectors",
["matslise/matslise/matslise.cpp:propagate","matslise/matslise/sector.cpp:pruferHelper","matslise/matslise/sector.cpp:propagateDelta"])
p("Angle does not decrease over an oscillatory sector",
"In a sector where E exceeds the mean potential, the angle increment reported for a left-to-right step is >= 0, and the opposite for right-to-left steps.",
"all E, y0, y1, delta",
"branch arithmetic over a continuum",
["matslise/matslise/sector.cpp:pruferHelper","matslise/matslise/sector.cpp:rescale"])
p("Matching error vanishes exactly when the angle difference is a multiple of pi",
"For matchingError(E,left,right) the first component is 0 iff the third is an integer multiple of pi; the second is the energy derivative of the first.",
"every problem, energy, nonzero boundary conditions",
"equivalence over a continuum",
["matslise/matslise/matslise.cpp:matchingError"])
p("propagate rejects exactly the points outside the domain and never reads an invalid sector",
"propagate throws iff a or b is outside [xmin,xmax] (NaN included), otherwise it visits only existing sectors, starts in one containing a, stops in one containing b and terminates.",
"every partition, every a,b",
"all histories of sector crossings",
["matslise/matslise/matslise.cpp:propagate","matslise/matscs/matscs.cpp:propagate"])
p("propagate is linear in the initial condition",
"The propagated (y,y',yE,y'E) depends linearly on the initial one; with two columns each column is propagated independently of the other and equals the one-column result.",
"all energies, sectors, a,b, initial values",
"all linear combinations",
["matslise/matslise/matslise.cpp:propagate","matslise/matslise/sector.cpp:Sector::propagate"])
p("Results do not depend on the scaling of boundary conditions",
"Multiplying the left (or right) boundary condition by any nonzero factor leaves propagated angles, index function and hence every eigenvalue search result unchanged.",
"all nonzero factors, problems, energies",
"continuum of factors",
["matslise/matslise/matslise.cpp:propagate","matslise/matslise/matslise.cpp:matchingError","matslise/matslise/matslise.cpp:computeEigenvaluesHelper"])
p("Backward sectors are mirror images of forward sectors",
"Propagating in a backward sector equals propagating in the forward sector of the mirrored potential with the solution mirrored (y'(x) -> -y'(-x)); switching a sector's direction twice restores it.",
"all sectors, energies, positions",
"all inputs",
["matslise/matslise/sector.cpp:Sector::Sector","matslise/matslise/sector.cpp:Sector::setDirection","matslise/matslise/sector.cpp:propagateDelta"])
p("Eigenvalue search terminates for every problem",
"eigenvalues(Emin,Emax,...) performs a bounded number of matching-error evaluations, whatever the behaviour of the matching error (non-monotone, NaN, discontinuous).",
"every angle function (oracle), every Emin,Emax",
"adversarial angle functions",
["matslise/matslise/matslise.cpp:computeEigenvaluesHelper","matslise/matslise/matslise.cpp:newtonIteration"])
p("Eigenvalue lists are sorted by index",
"The returned list of (index, eigenvalue) is sorted, every index is >= 0, and the list is a permutation of the roots found.",
"every problem and query",
"all inputs",
["matslise/matslise/matslise.cpp:computeEigenvaluesHelper"])
p("Every eigenvalue strictly inside a probed interval is found",
"If the angle function is continuous on [Emin,Emax] and rises through every integer multiple of pi (once at or above k pi it stays above for larger energies; weaker than increasing, and what Sturm theory gives, C65) and no probe hits an integer multiple of pi exactly, then for each integer k whose crossing lies inside and which is in the requested index range exactly one search leaf brackets that crossing, and no other leaf is produced (no missing, no duplicate eigenvalues).",
"every such angle function, interval and index range, with eigenvalue gaps above the resolution (Emax-Emin)/2^31",
"all spectra and intervals",
["matslise/matslise/matslise.cpp:computeEigenvaluesHelper"])
p("Documented closed interval [Emin;Emax] of eigenvalues()",
"eigenvalues(Emin,Emax) returns every eigenvalue in the closed interval, as documented, including one equal to an end point or hit exactly by a bisection midpoint.",
"every problem and interval",
"exact coincidences are missed by random testing",
["matslise/matslise/matslise.cpp:computeEigenvaluesHelper","matslise/pyslise/pyslise.cpp:eigenvalues docstring"])
p("Invalid index ranges are rejected",
"eigenvaluesByIndex(Imin,Imax) with Imin<0 or Imin>Imax raises an error (and does not hang).",
"all integers Imin, Imax, all problems",
"the validation is placed after an unbounded search",
["matslise/matslise/matslise.cpp:eigenvaluesByIndex","matslise/matslise/matslise.cpp:computeEigenvaluesHelper"])
p("eigenvaluesByIndex searches an interval containing all requested eigenvalues",
"For 0<=Imin<=Imax and an angle function that is nondecreasing, unbounded above and tends to at most 0 below, the energy bracket search terminates, and the bracket satisfies angle(Emin)/pi <= Imin and angle(Emax)/pi >= Imax.",
"every nondecreasing angle function, every index range",
"all spectra",
["matslise/matslise/matslise.cpp:eigenvaluesByIndex"])
p("Root polishing is bounded and error estimates are non-negative",
"Newton polishing uses at most 20 evaluations, leaves an exact root unchanged, and eigenvalueError is >= 0 and 0 at an exact root of the low-order problem.",
"every problem and energy",
"all inputs",
["matslise/matslise/matslise.cpp:newtonIteration","matslise/matslise/matslise.cpp:eigenvalueError"])
p("Eigenfunctions are zero outside the domain and never read out of bounds",
"Evaluating an eigenfunction at any point (scalar or array, any order, NaN) terminates, never reads outside the sector or step lists and returns (0,0) outside [xmin,xmax].",
"every problem, every evaluation point or array",
"all arrays and orders",
["matslise/matslise/matslise.cpp:MEigenfunction","matslise/matslise/matslise.cpp:findSector"])
p("Eigenfunctions satisfy the boundary conditions",
"The eigenfunction's (value, derivative) at xmin is a scaling of the left boundary condition and at xmax a scaling of the right one.",
"every problem, energy, boundary conditions",
"all inputs",
["matslise/matslise/matslise.cpp:propagationSteps","matslise/matslise/matslise.cpp:MEigenfunction"])
p("Eigenfunctions are continuous at the matching point for true eigenvalues",
"When the matching error is exactly 0 (and both sides are non-zero), the scaled left and right solutions agree in value and derivative at the matching point.",
"every problem, energy with zero matching error",
"all inputs",
["matslise/matslise/matslise.cpp:propagationSteps"])
p("Eigenfunctions have unit L2 norm",
"If the sector propagators are exact, the stored scaling makes the integral of the squared eigenfunction equal to 1.",
"every continuous potential and eigenpair, exact propagation",
"an integral identity for all potentials",
["matslise/matslise/matslise.cpp:propagationSteps"])
p("Array evaluation agrees with pointwise evaluation",
"Evaluating an eigenfunction on an array gives at every point either the same result as the pointwise call, or, only at an interior sector boundary, the value obtained from the neighbouring sector.",
"every array in any order",
"all arrays, stateful cursor",
["matslise/matslise/matslise.cpp:MEigenfunction::operator()"])
p("Half-range eigenvalues carry the right indices",
"Merging even and odd results gives each even-problem eigenvalue k the index 2k and each odd one 2k+1, loses and invents nothing and is sorted by index when the inputs are.",
"all input lists",
"all lists",
["matslise/matslise/halfrange.cpp:mergeEigenvalues"])
p("Half-range index queries ask exactly for the requested indices",
"For 0<=Imin<=Imax, the indices requested from the even and odd sub-problems, mapped back, are exactly Imin..Imax-1, each once.",
"all Imin<=Imax",
"all integers",
["matslise/matslise/halfrange.cpp:eigenvaluesByIndex"])
p("Half-range eigenfunctions have the right symmetry",
"Array evaluation of a half-range eigenfunction gives f(-x)=+-f(x) and f'(-x)=-+f'(x) according to parity, restores the caller's order, and throws iff the array is not sorted.",
"all sorted arrays, all eigenfunctions",
"all arrays",
["matslise/matslise/halfrange.cpp:EigenfunctionHalf::operator()"])
p("Half-range scalar and array evaluation agree",
"Evaluating a half-range eigenfunction at one point gives the same (value, derivative) as evaluating it on an array containing that point.",
"every point, including negative ones",
"all points",
["matslise/matslise/halfrange.cpp:EigenfunctionHalf::operator()"])
p("Symmetric problems reject different boundary conditions",
"Two-sided calls on a half-range problem throw exactly when left and right differ, and otherwise behave as the one-sided call; no call recurses forever.",
"all boundary conditions, all methods",
"mutual default dispatch of virtual methods",
["matslise/matslise.h:AbstractMatslise","matslise/matslise.h:checkSymmetry"])
p("Periodic bisection terminates and keeps its bracket",
"The bisection used by the periodic solver terminates for every eps>0, returns a point within the initial interval, and if f changes sign over the interval, within the stopping width of a sign change.",
"all functions f, intervals, eps>0",
"all functions",
["matslise/matslise/periodic.cpp:binarySearch"])
p("Periodic results are ordered and within the requested range",
"The list returned by the periodic solver has strictly increasing indices, all below iMax and at least iMin (iMin-1 only for a double eigenvalue), energies within [eMin,eMax), multiplicity 1 or 2, with index spacing at least the multiplicity.",
"all queries, all matching functions (oracle)",
"all spectra",
["matslise/matslise/periodic.cpp:eigenpairsHelper"])
p("Periodic matching determinant and derivative",
"The scalar matching error is the determinant of the 2x2 mismatch and its reported derivative is the energy derivative; it vanishes iff some nonzero combination of the two fundamental solutions satisfies the periodic condition.",
"all 2x2 mismatches",
"continuum",
["matslise/matslise/periodic.cpp:calculateMatchingError","matslise/matslise/periodic.cpp:matchingError"])
p("Periodic eigenfunctions satisfy y(xmax)=K y(xmin)",
"The eigenfunctions returned for an energy use a left boundary value and a right boundary value related by K, and matching at the match point.",
"all problems, K and energies",
"all inputs",
["matslise/matslise/periodic.cpp:eigenfunction","matslise/matslise/periodic.cpp:eigenpairsHelper"])
p("Liouville pieces form an exact partition in both variables",
"The pieces computed for a Sturm-Liouville problem tile [rmin,rmax] and [0,xmax] contiguously, in order, with equal end points, whenever the construction returns.",
"all p,q,w (oracles), domains",
"adaptive subdivision with arbitrary depth",
["matslise/liouville/liouville.cpp:constructPiecewise","matslise/liouville/liouville.cpp:setXMin"])
p("Piece lookup returns a piece containing the value",
"Converting r->x or x->r uses a piece that contains the value, for every value in the domain, end points included.",
"all piece lists, all values",
"all lists and values",
["matslise/liouville/liouville.cpp:findPiece"])
p("x->r inversion is accurate",
"The coordinate inversion performs exactly 50 bisection steps and returns a point within 2^-51 of a pre-image whenever the piece's map is continuous and brackets the value.",
"all increasing maps and values",
"continuum",
["matslise/liouville/liouville.cpp:x2r_impl"])
p("Liouville transformation is mathematically correct",
"The transformed potential V and boundary values z2y correspond to the change of variables y=z/sigma, x'=sqrt(w/p): a function solving the Sturm-Liouville equation is mapped to one solving -y''+Vy=Ey.",
"all smooth positive p,w and solutions",
"differential identity for all functions",
["matslise/liouville/liouville.cpp:V","matslise/liouville/liouville.cpp:z2y"])
p("Back transformation inverts the forward transformation",
"Transforming boundary data to Schroedinger form and back gives the original value and derivative, so Sturm-Liouville eigenfunctions carry the right derivative.",
"all data",
"continuum",
["matslise/liouville/liouville.cpp:y2z","matslise/liouville/sturm_liouville.cpp:SLEigenfunction"])
p("Coupled problems: Riccati propagation checks the domain",
"Matscs::propagatePsi rejects points outside [xmin,xmax] like propagate does, instead of reading an invalid sector.",
"all a,b",
"out-of-range access is undefined behaviour, a passing test proves nothing",
["matslise/matscs/matscs.cpp:propagatePsi"])
p("Coupled problems: Riccati propagation backward inverts forward",
"Propagating psi from a to b and back returns psi.",
"all sectors and psi for which the solves are regular",
"continuum",
["matslise/matscs/sector.cpp:propagatePsi_delta"])
p("Coupled problems: eigenfunction evaluates all requested points",
"Matscs::eigenfunction returns one value for every requested point in the domain.",
"all point lists, all sector lists",
"all lists",
["matslise/matscs/matscs.cpp:eigenfunction"])
p("Eigenfunctions returned to Python never outlive their problem",
"For every sequence of creating, dropping and calling problems and eigenfunctions from Python, no eigenfunction call touches a destroyed problem, and when all handles are dropped everything is destroyed.",
"every history",
"memory safety over histories",
["matslise/pyslise/module.h:EigenfunctionWrapper","matslise/pyslise/pyslise.cpp:eigenfunction"])
p("Eigenfunctions returned to JavaScript never outlive their problem",
"The same for the JavaScript binding.",
"every history",
"memory safety over histories",
["matslise/js/matslise.cpp:eigenfunction"])
p("Coupled constructor validates its options",
"The Python constructor for coupled problems raises unless exactly one of steps and tolerance is set and jumps are only used with tolerance, and accepted options always give a valid sector list.",
"all option combinations",
"all combinations including negative and zero step counts",
["matslise/pyslise/pyscs.cpp:Pyscs __init__"])
p("Potential minimum estimate",
"estimatePotentialMinimum returns the smallest sector mean: attained by some sector and not larger than any.",
"every non-empty sector list",
"all lists",
["matslise/matslise/matslise.cpp:estimatePotentialMinimum"])
p("Python sector objects stay usable",
"A sector object obtained from a problem through __sector can be read for as long as Python holds it, also after the problem itself was dropped.",
"every history",
"memory safety over histories",
["matslise/pyslise/pyslise.cpp:__sector","matslise/pyslise/pyscs.cpp:__sector"])
p("One step of a sector is accurate to high order",
"For every sector of length at most 1 whose potential coefficients are bounded by B and every energy within W of its mean, the matrix returned for a distance delta inside the sector maps (y, y') of any exact solution of y''=(V-E)y at the start to its values at delta with error at most K h^16 in y and K h^15 in y' (K depends on B and W only, plus the 1e-12 thresholds); the full-sector matrix has error at most K h^19 in both.",
"all bounded sectors, energies, distances and solutions",
"an order statement with a uniform constant over a continuum of problems; tests can only sample convergence",
["matslise/matslise/sector.cpp:calculateT","matslise/matslise/matslise_formulas.cpp:calculate_tcoeff_matrix"])
p("Round trips return the start",
"Propagating a solution from a to b and back from b to a with the same settings returns the original (y, y') multiplied by one number k, the product of the step determinants, and |k - 1| is of the order of the method: at most K (H^18 + n 1e-20) between sector boundaries with full steps, where H is the largest sector and n their number.",
"all sector lists with bounded coefficients, energies, a, b, initial values",
"a uniform bound over a continuum of problems and unboundedly many sectors",
["matslise/matslise/matslise.cpp:propagate","matslise/matslise/sector.cpp:propagateDelta","matslise/util/y.h:operator/"])
p("Whole propagations converge",
"For any number of sectors, any a and b and both directions, the propagated (y, y') differs from the exact solution of y''=(V-E)y at b by at most K times (the error at a, plus the size of the solution times H^18 + tau + n 1e-20), where tau is how well the sectors represent V; H^14 without the full-step formulas, and H^15 + 1e-12 more when a or b is inside a sector. Sectors built from a polynomial potential of degree at most 15 have tau at the accuracy of the tables.",
"all potentials, sector lists, energies, a, b, solutions",
"convergence order with a uniform constant; accumulation over unboundedly many sectors",
["matslise/matslise/matslise.cpp:propagate","matslise/matslise/sector.cpp:propagate","matslise/matslise/sector.cpp:calculateT","matslise/util/legendre.h:getCoefficients"])
p("The matching error approximates the exact one",
"The matching error at E differs from the Wronskian of the two exact solutions at the matching point by at most K (H^18 + tau + n 1e-20) times the sizes of the boundary values; it is that small at exact eigenvalues, and two matching errors of opposite sign that exceed this bound enclose an exact eigenvalue.",
"all potentials, sector lists, energies, boundary values",
"relates the code to the exact spectrum of a continuum of problems",
["matslise/matslise/matslise.cpp:matchingError"])
p("Coupled problems: the step matrices solve the coupled equation",
"For any number of channels, the step matrix of a coupled sector solves Y''=(V(x)-E)Y with V the Legendre expansion of degree 8 stored for the sector, up to residual terms of order 7 in the step (and rounding of the printed coefficients, at most 1e-10); its second block row is the derivative of the first, it is the identity for a zero step, exact for a constant potential matrix, agrees with the full-sector matrix to order 9, its dt part is the derivative with respect to E up to a term of order 7, and changing the direction of a sector gives the sector built with that direction.",
"all numbers of channels, all symmetric coefficient matrices, all step sizes, energies and distances",
"the tables contain thousands of noncommutative monomials; tests see a few problems and sizes",
["matslise/matscs/matscs_formulas.cpp:calculate_tcoeff_matrix","matslise/matscs/sector.cpp:calculateT","matslise/matscs/sector.cpp:setDirection"])
p("The angle counts the zeros of the solution",
"When the step matrices are exact on the sectors crossed, the potential's mean on each sector is the stored one and varies by less than (pi/2h)^2 around it, propagating a solution from a to b returns its value and slope at b and a continuous Pruefer angle: going right the angle lies in [n pi,(n+1) pi) where n is the number of zeros in (a,b], going left in [-n pi,(1-n) pi) with n the zeros in (b,a). At an eigenvalue the matching error is 0 and the angle difference is exactly pi times the number of zeros of the eigenfunction strictly inside the interval. This holds unconditionally for piecewise constant potentials, provided the matching point lies before the right end (with a single uniform sector it does not, and the index is wrong).",
"all potentials, sector lists, energies, boundary values, directions",
"the count depends on the path of a continuous angle over unboundedly many sectors; tests compare a few eigenvalue indices",
["matslise/matslise/sector.cpp:pruferHelper","matslise/matslise/sector.cpp:theta0","matslise/matslise/matslise.cpp:propagate","matslise/matslise/matslise.cpp:matchingError"])
p("The index of an eigenvalue is the number of zeros of its eigenfunction",
"With exact steps and a matching point before the right end, the angle difference computed for energy E, divided by pi, is a continuous function F of E that rises through every integer (once F has reached k it stays above k); F(E)=k holds exactly when E is an eigenvalue of the problem whose eigenfunction has k zeros inside the interval. Hence eigenvalues are ordered by their number of zeros and no index is skipped.",
"all potentials, sector lists, boundary conditions, energies and indices",
"a monotonicity and continuity statement over a continuum of energies; tests see finitely many energies",
["matslise/matslise/matslise.cpp:matchingError","matslise/matslise/sector.cpp:pruferHelper","matslise/matslise/matslise.cpp:computeEigenvaluesHelper"])
p("The search returns exactly the eigenvalues of the problem",
"With exact steps, if the probed energies are not themselves eigenvalues, eigenvalues are not closer than 2^-31 of the search interval and Newton's iteration ends within eps of the eigenvalue of its bracket, then computeEigenvalues(Emin, Emax, Imin, Imax) returns exactly one entry for each eigenvalue in (Emin, Emax) whose eigenfunction has k zeros with Imin <= k < Imax: the pair of k and an energy within eps, in increasing order, and nothing else.",
"all potentials, sector lists, boundary conditions, energy ranges and index ranges",
"completeness of the returned list (nothing missed, nothing spurious) for every problem",
["matslise/matslise/matslise.cpp:computeEigenvaluesHelper","matslise/matslise/matslise.cpp:newtonIteration","matslise/matslise/matslise.cpp:matchingError"])
p("Periodic matching: zeros of the determinant and angle windows",
"For a periodic or antiperiodic problem (K = I or K = -I) with exact steps, the matching determinant at E vanishes exactly when E is an eigenvalue; both angle differences are continuous functions of E, greater than -1, that rise through every integer; at an eigenvalue whose eigenfunction has n zeros per period both lie strictly between n-1 and n+1 and n has the parity of the problem; where one of them equals an integer of the other parity the determinant is at most -8.",
"all potentials, sector lists with a matching point before the right end, energies",
"statement about a continuum of energies and all potentials; tests see a few eigenvalues of a few potentials",
["matslise/matslise/periodic.cpp:matchingError","matslise/matslise/periodic.cpp:calculateMatchingError"])
p("Periodic eigenvalues are ordered by index, in pairs",
"Eigenvalues of a periodic or antiperiodic problem have a well-defined index (number of zeros per period of any eigenfunction), larger eigenvalues have no smaller index, at most two different eigenvalues share an index, and only one has index 0; no eigenvalue lies below an energy at which an angle difference is not positive.",
"all potentials, energies, indices",
"oscillation theory over all potentials",
["matslise/matslise/periodic.cpp:eigenpairsHelper","matslise/matslise/periodic.cpp:eigenvaluePair"])
p("Periodic search: every eigenvalue lies in a searched window, the lowest is found",
"With exact steps, every periodic eigenvalue of index n>=1 inside the energy range (query by energies) or with n in the requested index range (query by index) lies, up to the stopping width, in an energy interval that the search examines, and what is found there is listed; the query by index starting at 0 lists, within 3e-8 relative, the lowest eigenvalue of the problem, provided the next eigenvalues are not within the stopping width of the energy where the larger angle difference is 1.",
"all potentials, energy ranges, index ranges",
"completeness over all potentials",
["matslise/matslise/periodic.cpp:eigenpairsHelper","matslise/matslise/periodic.cpp:eigenvalues","matslise/matslise/periodic.cpp:eigenvaluesByIndex"])
p("Periodic search lists only eigenvalues",
"Every energy listed by the periodic query by energies is (within the stopping width) an eigenvalue of the problem.",
"all potentials and energy ranges",
"must hold for every range, in particular ranges that start just above the lowest eigenvalue",
["matslise/matslise/periodic.cpp:eigenpairsHelper","matslise/matslise/periodic.cpp:eigenvalues"])
p("Periodic searches terminate and every index has an eigenvalue",
"With exact steps, a periodic or antiperiodic problem has an eigenvalue for every index of the right parity; both angle differences fall below the first thresholds towards low energies and pass every bound towards high energies; hence the query by index from index 0 on terminates for every index range, and the query by energies terminates for every range whose angle differences fit in an int.",
"all potentials, index ranges, energy ranges",
"termination over all potentials and ranges, limits at infinite energies",
["matslise/matslise/periodic.cpp:eigenpairsHelper","matslise/matslise/periodic.cpp:eigenvalues","matslise/matslise/periodic.cpp:eigenvaluesByIndex"])
p("Every index has exactly one eigenvalue, and the query by index brackets it",
"With exact steps and separated boundary conditions, the angle difference tends to a value between -1 and 0 (in units of pi) at low energies and to infinity at high energies, every index k >= 0 belongs to exactly one eigenvalue, and the doubling searches of eigenvaluesByIndex end with energies that bracket the eigenvalues of all requested indices; the query then returns one entry for each requested index, within the Newton tolerance of the eigenvalue with that index.",
"all potentials, boundary conditions, index ranges",
"termination and completeness over all potentials, limits at infinite energies",
["matslise/matslise/matslise.cpp:eigenvaluesByIndex","matslise/matslise/matslise.cpp:computeEigenvaluesHelper"])
p("Periodic problems with a general matrix K of determinant 1",
"For a problem with (y(hi), y'(hi)) = K (y(lo), y'(lo)), K a matrix of determinant 1 (the constructor accepts every such K), the determinant the search uses vanishes exactly at the eigenvalues, every eigenvalue lies in one of the windows of the parity at which the search starts, and the query by index starting at 0 lists the lowest eigenvalue.",
"all matrices K of determinant 1, all potentials",
"must hold for every matrix K, not only for K = I and K = -I",
["matslise/matslise/periodic.cpp:eigenpairsHelper","matslise/matslise/periodic.cpp:eigenvaluesByIndex","matslise/matslise/periodic.cpp:matchingError","matslise/matslise.h:PeriodicMatslise"])
p("Half-range problems solve the full symmetric problem",
"For an even potential and a boundary condition that is mirrored at both ends, the eigenvalues of index 2k on [-L, L] are those of index k of the problem on [0, L] with a Neumann condition at 0, those of index 2k+1 are those of index k with a Dirichlet condition at 0. Hence the symmetric solver's queries by index and by energy list exactly the requested eigenvalues of the full problem, provided the half problem's queries do; when no index is given the parity of the eigenfunction is chosen correctly; evaluation on an array gives values of one eigenfunction on [-L, L]. As left and right sides have to be identical, the problem solved is the one the general solver solves with these sides.",
"all even potentials, boundary conditions, index ranges, energy windows, evaluation points",
"an equivalence of two spectra, for every potential and every index",
["matslise/matslise/halfrange.cpp:eigenvaluesByIndex","matslise/matslise/halfrange.cpp:eigenvalues","matslise/matslise/halfrange.cpp:isEven","matslise/matslise/halfrange.cpp:EigenfunctionHalf","matslise/matslise.h:checkSymmetry"])
p("Eigenvalues depend monotonically and Lipschitz-continuously on the potential; where the k-th one lies",
"If one potential is nowhere above another, each of its eigenvalues is at most the other's eigenvalue with the same index; potentials that differ by at most delta have eigenvalues that differ by at most delta. Hence the answers of a query by index for a potential that the sectors represent up to delta are within delta (plus the Newton error) of the true eigenvalues with these indices. The k-th eigenvalue lies between explicit bounds in terms of the range of the potential, the length of the interval and k; hence the doubling searches of the query by index end, for every potential, boundary conditions and index range that does not overflow int.",
"all potentials, boundary conditions, indices",
"a perturbation theorem for a spectrum and a termination claim, over all potentials",
["matslise/matslise/matslise.cpp:eigenvaluesByIndex","matslise/matslise/matslise.cpp:computeEigenvaluesHelper","matslise/matslise/sector.cpp:MatsliseSector"])
p("The eigenfunction returned for an eigenvalue is the normalised eigenfunction of the problem",
"For an eigenvalue with index k the function returned by eigenfunction(E) is, at every point of the interval and for single points as well as arrays of points, the value and slope of one solution of -y'' + V y = E y that is a positive multiple of the left boundary values at the left end, satisfies the right boundary condition, has exactly k zeros inside, and whose square integrates to 1; these conditions determine it. Outside the interval the result is 0. Eigenfunctions of different eigenvalues are orthogonal.",
"all potentials whose sector steps are exact (in particular piecewise constant ones), eigenvalues, boundary conditions, evaluation points and arrays of points",
"equality with the solution of a differential equation at every point, and an integral",
["matslise/matslise/matslise.cpp:eigenfunction","matslise/matslise/matslise.cpp:propagationSteps","matslise/matslise/sector.cpp:propagate","matslise/matslise/sector.cpp:calculateT"])
p("Coupled problems: the angle returned by propagate",
"propagate for a coupled problem returns, beside the matrix of solutions (Y, Y') at b, an angle. exp(i angle) times the phase det(Y' + iY)/det(Y' - iY) at a is the phase at b, for every conjoined start matrix, sector grid, energy and direction. For a problem without coupling (diagonal potential matrix, piecewise constant) the angle is exactly twice the sum over the channels of the change of their continuous Pruefer angles, every full turn counted.",
"all numbers of equations, sector grids, energies, directions, points a and b, start matrices",
"an angle that must be right including its full turns, for every problem and every number of turns",
["matslise/matscs/sector.cpp:theta","matslise/matscs/sector.cpp:angle","matslise/matscs/sector.cpp:propagateDelta","matslise/matscs/sector.cpp:propagate","matslise/matscs/matscs.cpp:propagate"])
p("The automatic sector builder's error estimate and step control",
"The error estimate of a sector bounds the difference of the two one-step formulas at the reference energy, is never negative, is 0 for a constant potential and of order h^12 for bounded coefficients. Every sector of an automatically built problem has an estimate that does not exceed the requested tolerance, unless it is at most 1e-3 wide or the result of ten successive refinements of sectors that were all too coarse; where the potential is constant between the given jumps no boundary is added except one meeting point. A user would expect the estimate of every sector to meet the tolerance.",
"all potentials, tolerances, jump lists, intervals, error estimates and scalar types (control part: also IEEE doubles)",
"a guarantee about every sector of every problem, and an asymptotic order",
["matslise/matslise/sector.cpp:error","matslise/matslise/sector.cpp:calculateT","matslise/util/sectorbuilder.cpp:automaticNextSector","matslise/util/sectorbuilder.cpp:AutomaticSectorBuilder"])
p("Liouville transformation: every accepted pair of pieces agrees with the piece it replaces",
"The pieces of the transformation come in pairs of halves; for each pair the single piece for the whole range has an x-length below 1e-8, or the pair agrees with it: right end of the x-range, area under r2x, Gauss sum of x2r, area under p*w up to 1e-14 and the change of p*w up to 1e-12, relative to max(1, |value|). A piece whose halves agree this well is not divided further. The quadrature used gives half of the integral of a polynomial of degree below the number of points, up to the rounding of its table.",
"all coefficient functions p and w, ranges, pairs of pieces",
"must hold for every pair of pieces of every construction",
["matslise/liouville/liouville.cpp:constructPiecewise","matslise/liouville/liouville.cpp:relError","matslise/liouville/liouville.cpp:pieceError","matslise/util/legendre.h:integrate"])
p("Arithmetic with values and energy derivatives",
"Negating, scaling, reversing, combining columns, selecting a column, multiplying with a matrix from the right (new columns) or from the left (new unknowns) acts on values, slopes and on their energy derivatives in the same way, entry by entry, so stored energy derivatives stay the derivatives of the stored values. All of these commute with propagation over a step (changing the unknowns transforms the step matrix), two values compare equal exactly when all entries agree, and every propagated start value is the combination of the propagated Neumann and Dirichlet columns.",
"all numbers of equations and columns, matrices, values, steps",
"algebraic identities for every dimension, and derivatives",
["matslise/util/y.h:Y","matslise/util/y.h:operator*","matslise/util/y.h:col","matslise/util/y.h:T"])
p("Newton's refinement of an eigenvalue converges", "Around every eigenvalue there is a distance such that from any energy within it the refinement step of the eigenvalue search ends with the right index and an energy at most half as far away, and within max(tolerance, distance/2^20); one step squares the distance up to a constant; eigenvalueError, asked within that distance, returns a number between half and three halves of the true distance to the eigenvalue. The search therefore returns every eigenvalue asked for whenever each isolated bracket starts close enough, with nothing assumed about the refinement.", "all problems with exact steps (piecewise constant potentials without further assumption), all separated boundary conditions, all eigenvalues, all starting energies near them, all tolerances", "tests refine a few eigenvalues of a few potentials and compare decimals; convergence from every nearby energy, for every potential, rests on the derivative the code computes being the exact nonzero derivative at each eigenvalue", ["matslise/matslise/matslise.cpp:60-88 newtonIteration","matslise/matslise/matslise.cpp:185-190 eigenvalueError","matslise/matslise/matslise.cpp:28-58 matchingError"])
p("Coupled problems: the error estimate of a sector and its use",
"The error estimate of a sector of a coupled problem is the largest entry of the difference of the two one-step formulas, every channel taken at its own mean potential; if all channels share one mean potential it bounds the difference of the two step matrices at that energy. It is never negative, 0 for a constant potential matrix, and of order h^9 for bounded potentials (up to the rounding of the printed tables, 1e-10 h^6). Unless the tolerance is extremely small every sector of an automatically built problem meets the tolerance or is the result of ten refinements of sectors that did not; potential matrices that are constant between the jumps get no other sector boundaries than the jumps and the first meeting point. A sector whose estimate is not a number is not accepted, for coupled as for scalar problems, unless it is at most 1e-3 wide or the result of ten refinements.",
"all numbers of equations, potential matrices, eigenvector matrices, tolerances, jump lists, intervals (NaN part: all runs on IEEE doubles)",
"an asymptotic order and a guarantee about every sector of every problem",
["matslise/matscs/sector.cpp:error","matslise/matscs/sector.cpp:calculateTFromVEd","matslise/matslise/sector.cpp:error","matslise/util/sectorbuilder.cpp:automaticNextSector"])
p("Query by index, from end to end",
"For a problem whose potential is constant on each sector, eigenvaluesByIndex(Imin, Imax) returns exactly one entry per requested index, in order, each within max(tolerance, rho/2^20) of the eigenvalue whose eigenfunction has that many zeros, where rho is the distance between the middle of the isolated brackets and the eigenvalue in them, as long as rho is below a distance that depends on the problem only. The same holds for a symmetric problem given by its right half, with the eigenvalues of the problem on the whole interval.",
"all piecewise constant problems, separated boundary conditions, index ranges, tolerances; all even potentials for the symmetric form",
"composition of bracketing, bisection, Newton's iteration and merging for every problem; tests check known spectra only",
["matslise/matslise/matslise.cpp:eigenvaluesByIndex","matslise/matslise/matslise.cpp:computeEigenvaluesHelper","matslise/matslise/matslise.cpp:newtonIteration","matslise/matslise/halfrange.cpp:eigenvaluesByIndex"])
p("The estimate of the eigenvalue error is an upper bound",
"eigenvalueError(E) is documented to be larger than the true error of E. Near an eigenvalue it lies between one half and three halves of the true error; that it bounds the true error is false.",
"all tolerances and all energies between 0 and the first eigenvalue of a fixed problem (refutation); all eigenvalues of all piecewise constant problems (two-sided estimate)",
"tests compare with known eigenvalues at a few energies and use a factor",
["matslise/matslise/matslise.cpp:eigenvalueError","matslise/matslise/matslise.cpp:newtonIteration","matslise/pyslise/pyslise.cpp:eigenvalueError"])
p("Profiler report is exact for every nesting of timed calls",
  "In a profiling build, whatever timed calls are made and however they are nested, and whether they return or throw, the profiler never pops or reads an empty stack; when all calls have ended its stack is empty; the report lists every call path that occurred exactly once, with the number of calls with that path and the sum of their durations; the lines are in the order in which the first call of each path started, so they do not depend on the hash map's iteration order, and a nested path comes after the path around it.",
  "every forest of timed calls, all names (also names that contain the separator), all durations, every iteration order of the hash map",
  "A test can only run a few call trees; distinct trees whose concatenated names collide, and the dependence on the order of the hash map, need an argument over all trees.",
  ["matslise/util/scoped_timer.h:Profiler", "matslise/util/scoped_timer.h:ScopedTimer"])
p("The matrix K of a periodic problem is checked",
  "PyslisePeriodic accepts a matrix K exactly when its determinant differs from 1 by at most 1e-6, and otherwise raises an error with the documented message; so no object exists for a matrix that is not (nearly) of determinant 1.",
  "every 2x2 matrix of doubles, also with infinities and NaN",
  "A test tries a few matrices; the claim is about all of them, and about what the object of a wrongly accepted one answers whatever the potential is.",
  ["matslise/pyslise/pyslise.cpp:PyslisePeriodic", "matslise/matslise/periodic.cpp:eigenvaluesByIndex", "matslise/matslise/periodic.cpp:eigenvalues"])
p("Conversions at the language borders keep values and order",
  "The interior points reported to JavaScript are the interior sector boundaries, strictly increasing, strictly inside the domain, one less than there are sectors; evaluating an eigenfunction on an array gives to JavaScript one row per point and to Python a row of values and a row of derivatives, each equal to the evaluation at the single point; computeEigenfunction gives the values.",
  "every partition into sectors of positive length, every list of points, every eigenfunction whose array and scalar evaluations agree (C36 for eigenvalues)",
  "A test sees a few sector lists and arrays; off-by-one errors at the ends or swapped rows and columns must be excluded for all lengths.",
  ["matslise/js/matslise.cpp:sectorPoints", "matslise/js/matslise.cpp:Eigenfunction", "matslise/js/module.h:ArrayX2d2val", "matslise/pyslise/pyslise.cpp:Eigenfunction"])
p("Moving the problem moves the answer",
  "Translating the domain and the potential by a and raising the potential by c changes nothing but the positions and the energies: the automatic builder makes the translated mesh with the same matching index, every propagation (angles and energy derivatives included) at E + c equals the original one at E, and so does the matching function with its derivative. For a translated potential this holds of the whole construction exactly; for a raised one the mean of each sector rises by c and the other coefficients change by no more than the 17-digit rounding of the quadrature weights.",
  "all potentials, domains, jump lists, tolerances, sector lists, energies, starting values, positions in both directions, shifts a and c",
  "a test compares a few shifted problems within a tolerance; that no absolute position or energy enters any decision of the builder or any formula is a statement about all of them",
  ["matslise/matslise/sector.cpp: calculateT, propagate, theta0, error", "matslise/matslise/matslise.cpp: propagate, matchingError", "matslise/util/sectorbuilder.cpp: AutomaticSectorBuilder", "matslise/util/legendre.h: getCoefficients"])
p("Changing the unit of length",
  "Multiplying all positions by u and dividing potential and energy by u^2 multiplies and divides the entries of every propagation matrix by the powers of u their dimensions prescribe: solutions keep their values, their derivatives are divided by u, the matching function is divided by u and its energy derivative multiplied by u, so E is a root of one problem exactly if E / u^2 is one of the other. Only two things are not unit free: the absolute threshold 1e-12 on step widths, and the a priori terms of the error estimate.",
  "all u > 0, sectors, coefficients, energies, starting values, positions in both directions, both formulas",
  "the formulas have several hundred terms; a term with a wrong power of h is not visible at h = 1 and hides in the error for small h", 
  ["matslise/matslise/matslise_formulas.cpp: calculate_tcoeff_matrix", "matslise/matslise/sector.cpp: calculateT, propagate, error", "matslise/matslise/matslise.cpp: propagate, matchingError"])
p("Conversions to int",
  "Asking for eigenvalues never runs into undefined behaviour. True when every angle that comes up, in units of pi, fits in int: then no query (by range, by index, error estimate) converts an unrepresentable value. Without that it is false: for every piecewise constant problem the query by range is undefined behaviour as soon as the upper end of the range is large enough, and in double precision so it is when the angle at one end is NaN.",
  "all matching functions, tolerances, ranges, index windows, numbers of turns of the loops; all piecewise constant problems; all doubles",
  "undefined behaviour shows up as an arbitrary int on each platform; the tests only use ranges with a few hundred eigenvalues",
  ["matslise/matslise/matslise.cpp: computeEigenvalues, eigenvaluesByIndex, newtonIteration"])
p("Coupled problems: free choice of eigenvectors and of the basis of the channels",
  "Inside each sector the potential matrix is diagonalised numerically. Whichever eigenvectors the solver returns (signs, order, any orthonormal basis for a repeated eigenvalue), the step matrices and their energy derivatives are the same. Writing the problem in another orthonormal basis of the channels gives the same step matrices written in that basis; in particular, renumbering the channels renumbers their rows and columns.",
  "all numbers of channels, potential matrices, orthonormal bases, eigenvector matrices, directions, step lengths, energies, both formulas, every implementation of the eta functions",
  "the solver's choice changes with library version, platform and rounding; a formula that mixes the two bases can pass on diagonal or symmetric examples",
  ["matslise/matscs/sector.cpp: Sector(), calculateTCoeffs, calculateTFromVEd, calculateT", "matslise/matscs/matscs_formulas.cpp: calculate_tcoeff_matrix"])
with open('/verif/properties.jsonl','w') as f:
    for x in P: f.write(json.dumps(x)+"\n")
print(len(P))
