{"id": "C01", "title": "Tolerant comparisons form a consistent order", "statement": "For finite numbers a and b and a non-negative tolerance, exactly one of IsLessThan(a,b), IsAlmostEqualTo(a,b), IsGreaterThan(a,b) is true; IsLessThanOrEqual is the negation of IsGreaterThan, IsGreaterThanOrEqual is the negation of IsLessThan, IsAlmostEqualTo is symmetric and reflexive, and every comparison involving a NaN is false. With infinite arguments the trichotomy fails: IsGreaterThan(inf,0) is false.", "quantifier": "all pairs of numbers and all tolerances >= 0", "why_tests_cant": "the claim ranges over all pairs of doubles and all tolerances; tests sample a handful of pairs", "anchors": ["src/LNLib/Mathematics/Utils/MathUtils.cpp:IsAlmostEqualTo", "src/LNLib/Mathematics/Utils/MathUtils.cpp:IsGreaterThan", "src/LNLib/Mathematics/Utils/MathUtils.cpp:IsGreaterThanOrEqual", "src/LNLib/Mathematics/Utils/MathUtils.cpp:IsLessThan", "src/LNLib/Mathematics/Utils/MathUtils.cpp:IsLessThanOrEqual"]}
{"id": "C02", "title": "Binomial coefficients and factorials are the mathematical ones", "statement": "Binomial(n,k) equals the number of k-subsets of an n-set for every 0<=k<=n (table branch for n<=20 and product branch above) and 0 outside that range; Factorial(n) equals n! for 0<=n<=20, is -1 for negative n and throws above 20, so it never overflows a 64-bit integer.", "quantifier": "all integers n and k", "why_tests_cant": "two code paths over an unbounded range of n,k", "anchors": ["src/LNLib/Mathematics/Utils/MathUtils.cpp:Binomial", "src/LNLib/Mathematics/Utils/MathUtils.cpp:Factorial", "src/LNLib/Mathematics/Utils/MathUtils.cpp:pascal"]}
{"id": "C03", "title": "Horner evaluates the polynomial", "statement": "Horner(degree, coefficients, t) equals sum of coefficients[i]*t^i, and the two-variable Horner equals sum a[i][j] u^i v^j, for every degree and coefficient vector accepted by the validation; any other sizes are rejected with an exception, never undefined behaviour for the one-variable form.", "quantifier": "all degrees, coefficient vectors and parameters", "why_tests_cant": "unbounded degree and real-valued coefficients", "anchors": ["src/LNLib/Algorithm/Polynomials.cpp:Horner"]}
{"id": "C04", "title": "Bernstein polynomials are exact", "statement": "For every degree p>=0 and t in [0,1], AllBernstein(p,t)[i] equals C(p,i) t^i (1-t)^(p-i) for every 0<=i<=p; these values are non-negative and sum to one. Bernstein(i,p,t) is rejected outside 0<=i<=p and equals the same value for i=0, i=1 and i=p; for 2<=i<p it does not: it returns the Bernstein polynomial of index i and degree p-i+1, so the two functions disagree there.", "quantifier": "all degrees, indices and parameters", "why_tests_cant": "in-place triangular recurrences over unbounded degree", "anchors": ["src/LNLib/Algorithm/Polynomials.cpp:Bernstein", "src/LNLib/Algorithm/Polynomials.cpp:AllBernstein"]}
{"id": "C05", "title": "Bezier to power basis conversion", "statement": "The matrix returned by BezierToPowerMatrix(p) converts Bernstein to power coefficients for every degree: column k holds the power-basis coefficients of the k-th Bernstein polynomial of degree p, so power-form evaluation of the converted coefficients equals Bernstein-form evaluation; PowerToBezierMatrix applied to it returns the exact inverse matrix.", "quantifier": "all degrees p>=1", "why_tests_cant": "mirror-symmetric fill loops over unbounded degree", "anchors": ["src/LNLib/Algorithm/Polynomials.cpp:BezierToPowerMatrix", "src/LNLib/Algorithm/Polynomials.cpp:PowerToBezierMatrix"]}
{"id": "C06", "title": "Knot span search terminates and returns the span of the parameter", "statement": "For every degree p and every non-decreasing knot vector with at least 2p+2 knots, and every parameter between its first and last knot, GetKnotSpanIndex terminates, performs no out-of-bounds access, and returns an index i with p<=i<=n; when the parameter is not within tolerance of the domain ends, U[i] <= t < U[i+1]. When the first and last domain spans are wider than the tolerance the returned span contains t for every t of the domain. With a last span narrower than the tolerance the returned span may not contain t, and with too few knots for the degree the function reads out of bounds.", "quantifier": "all degrees, non-decreasing knot vectors, parameters", "why_tests_cant": "binary search over arbitrary knot multiplicities; termination and index safety are for-all statements", "anchors": ["src/LNLib/Algorithm/Polynomials.cpp:GetKnotSpanIndex", "src/LNLib/Algorithm/ValidationUtils.cpp:IsValidKnotVector"]}
{"id": "C07", "title": "Knot multiplicity counts the knots within tolerance", "statement": "GetKnotMultiplicity(U,u) returns exactly the number of indices whose knot is within the relative tolerance of u; if no two distinct knots are within tolerance it is the exact multiplicity.", "quantifier": "all valid knot vectors and parameters", "why_tests_cant": "counts over unbounded vectors", "anchors": ["src/LNLib/Algorithm/Polynomials.cpp:GetKnotMultiplicity"]}
{"id": "C08", "title": "BasisFunctions computes the Cox-de Boor basis", "statement": "For every non-empty span i of a non-decreasing knot vector, every degree up to the maximum and every t in the closed span, BasisFunctions writes N[r] = N_{i-p+r,p}(t) (Cox-de Boor recursion with 0/0=0) for r=0..p, never divides by zero and never reads or writes out of bounds or uninitialised memory.", "quantifier": "all degrees 0..7, knot vectors, spans, parameters in the span", "why_tests_cant": "real-valued inputs, all multiplicity patterns", "anchors": ["src/LNLib/Algorithm/Polynomials.cpp:BasisFunctions"]}
{"id": "C09", "title": "Basis functions are non-negative and sum to one", "statement": "The p+1 values written by BasisFunctions at any t of a non-empty span are all >= 0 and add up to exactly 1 (exact arithmetic), and every basis function outside the p+1 returned ones vanishes on the span.", "quantifier": "all degrees, knot vectors, spans, parameters", "why_tests_cant": "infinitely many parameters and knot vectors", "anchors": ["src/LNLib/Algorithm/Polynomials.cpp:BasisFunctions"]}
{"id": "C10", "title": "OneBasisFunction agrees with the Cox-de Boor basis", "statement": "OneBasisFunction(i,p,U,t) returns N_{i,p}(t) for every parameter that is no closer than the tolerance to a knot different from it, when no lower-degree basis value is within tolerance of zero without being zero (and the knots are clamped if the first function is asked for at the first knot); it returns 0 outside the support and 1 for the last function at the last knot. Without clamping it returns 1 at the first knot although N_{0,p} is 0 there.", "quantifier": "all indices, degrees, knot vectors, parameters", "why_tests_cant": "tolerance shortcuts interact with arbitrary knot spacing", "anchors": ["src/LNLib/Algorithm/Polynomials.cpp:OneBasisFunction"]}
{"id": "C11", "title": "AllBasisFunctions contains every lower-degree basis", "statement": "For a non-empty span i and t in it, AllBasisFunctions(i,p,U,t)[r][q] (r<=q<=p) equals N_{i-q+r,q}(t) and the strictly lower triangle entry [j][r] holds the knot difference U[i+r+1]-U[i+1-j+r].", "quantifier": "all degrees, knot vectors, spans, parameters", "why_tests_cant": "triangular table over unbounded inputs", "anchors": ["src/LNLib/Algorithm/Polynomials.cpp:AllBasisFunctions"]}
{"id": "C12", "title": "Basis function derivatives are the true derivatives", "statement": "BasisFunctionsDerivatives(i,p,d,U,t)[k][r] equals the k-th derivative with respect to t of N_{i-p+r,p} on the span, for all k<=d<=p; row 0 equals BasisFunctions; d>p is rejected with an exception.", "quantifier": "all degrees, derivative orders, knot vectors, spans, parameters", "why_tests_cant": "derivatives are limits over the reals; index arithmetic over all (r,k)", "anchors": ["src/LNLib/Algorithm/Polynomials.cpp:BasisFunctionsDerivatives"]}
{"id": "C13", "title": "First-order derivative shortcut equals the general algorithm", "statement": "BasisFunctionsFirstOrderDerivative returns the basis values and their true first derivatives, i.e. the same numbers as rows 0 and 1 of BasisFunctionsDerivatives, for every degree 1..7.", "quantifier": "all degrees 1..7, knot vectors, spans, parameters", "why_tests_cant": "equivalence of two algorithms for all inputs", "anchors": ["src/LNLib/Algorithm/Polynomials.cpp:BasisFunctionsFirstOrderDerivative", "src/LNLib/Algorithm/Polynomials.cpp:BasisFunctionsDerivatives"]}
{"id": "C14", "title": "Bezier evaluation: de Casteljau equals Bernstein sum", "statement": "For every degree, control polygon and parameter in the accepted range, GetPointOnCurveByDeCasteljau and GetPointOnCurveByBernstein return the same point, sum of B_{i,p}(t) P_i.", "quantifier": "all degrees, control polygons, parameters", "why_tests_cant": "equivalence of two algorithms for all inputs", "anchors": ["src/LNLib/include/BezierCurve.h:GetPointOnCurveByBernstein", "src/LNLib/include/BezierCurve.h:GetPointOnCurveByDeCasteljau"]}
{"id": "C15", "title": "Bezier curve geometry: end points, convex hull, affine invariance", "statement": "The Bezier point at t=0 is the first and at t=1 the last control point; for t in [0,1] every coordinate-linear functional of the point lies between its minimum and maximum over the control points; applying an affine map to the control points applies it to the curve.", "quantifier": "all degrees, control polygons, parameters, affine maps", "why_tests_cant": "universally quantified geometric facts", "anchors": ["src/LNLib/include/BezierCurve.h:GetPointOnCurveByBernstein", "src/LNLib/include/BezierCurve.h:GetPointOnCurveByDeCasteljau"]}
{"id": "C16", "title": "Bezier surface evaluation is the tensor-product sum", "statement": "GetPointOnSurfaceByDeCasteljau returns sum_i sum_j B_{i,p}(u) B_{j,q}(v) P_{ij} for every pair of degrees and control net accepted by Check.", "quantifier": "all degrees, nets, parameters", "why_tests_cant": "unbounded degrees and nets", "anchors": ["src/LNLib/include/BezierSurface.h:GetPointOnSurfaceByDeCasteljau"]}
{"id": "C17", "title": "B-spline curve evaluation is the basis sum", "statement": "For every structurally valid B-spline curve (size relation, non-decreasing knots, non-degenerate end spans) and t in its domain, GetPointOnCurve returns sum over all control points of N_{i,p}(t) P_i, without undefined behaviour or division by zero; moving a control point outside the p+1 active ones does not change the value.", "quantifier": "all valid curves and parameters", "why_tests_cant": "all knot vectors and parameters", "anchors": ["src/LNLib/include/BsplineCurve.h:GetPointOnCurve"]}
{"id": "C18", "title": "Clamped B-spline curves interpolate their end control points", "statement": "If the first p+1 knots are equal and the last p+1 knots are equal, GetPointOnCurve at the first/last knot returns the first/last control point; every point lies in the convex hull of the p+1 active control points.", "quantifier": "all clamped curves", "why_tests_cant": "all degrees and control polygons", "anchors": ["src/LNLib/include/BsplineCurve.h:GetPointOnCurve"]}
{"id": "C19", "title": "B-spline curve derivatives are the true derivatives", "statement": "BsplineCurve::ComputeDerivatives(d,t)[k] is the k-th derivative of the span polynomial through t for k<=min(d,p), and zero for k>p.", "quantifier": "all valid curves, orders, parameters", "why_tests_cant": "analytic derivative, unbounded inputs", "anchors": ["src/LNLib/include/BsplineCurve.h:ComputeDerivatives"]}
{"id": "C20", "title": "Derivative control points define the derivative curve", "statement": "ComputeControlPointsOfDerivatives returns PK[k][i] with the recursive difference quotient p-k+1 over the knot span, and evaluating them with ComputeDerivativesByAllBasisFunctions gives the same derivatives as ComputeDerivatives.", "quantifier": "all valid curves, orders, parameters", "why_tests_cant": "equivalence of two algorithms for all inputs", "anchors": ["src/LNLib/include/BsplineCurve.h:ComputeControlPointsOfDerivatives", "src/LNLib/include/BsplineCurve.h:ComputeDerivativesByAllBasisFunctions"]}
{"id": "C21", "title": "B-spline surface evaluation is the tensor-product basis sum", "statement": "For every structurally valid surface and (u,v) in its domain, GetPointOnSurface returns sum_ij N_{i,p}(u) N_{j,q}(v) P_ij; it equals evaluating the u-direction and v-direction in either order.", "quantifier": "all valid surfaces and parameters", "why_tests_cant": "unbounded degrees and nets", "anchors": ["src/LNLib/include/BsplineSurface.h:GetPointOnSurface", "src/LNLib/Geometry/Surface/NurbsSurface.cpp:GetPointOnSurface"]}
{"id": "C22", "title": "B-spline surface derivatives", "statement": "ComputeFirstOrderDerivative and ComputeDerivatives return the partial derivatives of the tensor-product patch for orders not above the degrees; an order above either degree makes ComputeDerivatives throw instead of returning zeros. The surface variant ComputeDerivativesByAllBasisFunctions divides by zero for every valid surface of degrees at least 1.", "quantifier": "all valid surfaces, parameters, orders", "why_tests_cant": "analytic partial derivatives", "anchors": ["src/LNLib/include/BsplineSurface.h:ComputeDerivatives", "src/LNLib/include/BsplineSurface.h:ComputeFirstOrderDerivative"]}
{"id": "C23", "title": "NURBS curve point is the weighted rational combination", "statement": "For control points with positive weights above the comparison tolerance of zero, GetPointOnCurve returns (sum N_i w_i P_i)/(sum N_i w_i), lies in the convex hull of the active control points, and is unchanged when all weights are scaled by a common factor. With positive weights inside the tolerance of zero the weight is not divided out and the returned point is wrong.", "quantifier": "all curves with positive weights, all parameters", "why_tests_cant": "division and tolerance test at every parameter", "anchors": ["src/LNLib/Geometry/Curve/NurbsCurve.cpp:GetPointOnCurve", "src/LNLib/Mathematics/Math/XYZW.cpp:ToXYZ"]}
{"id": "C24", "title": "Rational curve derivatives are the true derivatives", "statement": "ComputeRationalCurveDerivatives(d,t)[k] is the k-th derivative of the rational curve A(t)/w(t) of the span of t for every k<=d, whenever w(t) is non-zero (in particular for positive weights); when w(t)=0 the result is not finite.", "quantifier": "all curves, orders, parameters", "why_tests_cant": "Leibniz recursion of unbounded order", "anchors": ["src/LNLib/Geometry/Curve/NurbsCurve.cpp:ComputeRationalCurveDerivatives"]}
{"id": "C25", "title": "Knot insertion produces a structurally valid curve", "statement": "For an insertion parameter inside the domain (before its end) whose tolerance-multiplicity is exact, InsertKnot returns the number r of knots actually inserted: the requested count, or degree-1-multiplicity if more than degree+1-multiplicity were requested. When r>0 the result has exactly r more knots and r more control points and all old control points outside the affected range are unchanged.", "quantifier": "all valid curves, insertion parameters, counts", "why_tests_cant": "index arithmetic for all spans/multiplicities", "anchors": ["src/LNLib/Geometry/Curve/NurbsCurve.cpp:InsertKnot"]}
{"id": "C26", "title": "Knot insertion does not change the curve", "statement": "For every valid curve, insertion parameter strictly inside the domain whose tolerance-multiplicity is exact, and every count, the curve returned by InsertKnot has as knots the sorted multiset union of the old knots and r copies of the new knot, and evaluates to the same homogeneous point as the original at every parameter; when r<=0 it reports 0 and leaves the output untouched. If an existing knot is within tolerance of but different from the inserted one the curve can change.", "quantifier": "all valid curves, parameters u inserted, counts, evaluation parameters t", "why_tests_cant": "for-all over evaluation parameters and real knots (Boehm's theorem)", "anchors": ["src/LNLib/Geometry/Curve/NurbsCurve.cpp:InsertKnot"]}
{"id": "C27", "title": "Corner cutting equals direct evaluation", "statement": "GetPointOnCurveByCornerCut(t) returns the same point as GetPointOnCurve(t) for every valid clamped curve and every parameter whose tolerance-multiplicity is exact and, in the interior, at most the degree. At an interior knot of multiplicity degree+1 it reads the first element of an empty vector.", "quantifier": "all valid clamped curves and parameters", "why_tests_cant": "equivalence of two algorithms", "anchors": ["src/LNLib/Geometry/Curve/NurbsCurve.cpp:GetPointOnCurveByCornerCut"]}
{"id": "C28", "title": "Knot refinement preserves the curve", "statement": "RefineKnotVector with a non-empty non-decreasing list of new knots strictly inside the domain, each equal to or clearly apart from every other knot, yields the merged sorted knot vector, one more control point per new knot, the same domain, and the same curve at every parameter. With new knots out of order the resulting knot vector is not sorted.", "quantifier": "all valid curves and insertion lists", "why_tests_cant": "interleaved merge loop over arbitrary lists", "anchors": ["src/LNLib/Geometry/Curve/NurbsCurve.cpp:RefineKnotVector"]}
{"id": "C29", "title": "Bezier decomposition", "statement": "For every valid clamped curve whose distinct knots are clearly apart and whose inner knots have multiplicity below the degree (for degree 2 also equal to it), DecomposeToBeziers terminates and returns one Bezier segment per non-empty span, in order, each on [0,1] and running affinely through the curve on its span. For degree-1 curves with more than one span it never terminates, and for an inner knot of multiplicity equal to the degree (degree 3) the following segment is wrong.", "quantifier": "all valid curves", "why_tests_cant": "termination and equality for all knot patterns", "anchors": ["src/LNLib/Geometry/Curve/NurbsCurve.cpp:DecomposeToBeziers"]}
{"id": "C30", "title": "Knot removal undoes knot insertion", "statement": "Removing a knot: when a single insertion has brought an inner knot to multiplicity equal to the degree, removing it once restores exactly the original knots and control points; removing once a knot of that multiplicity drops one copy of it and the control point lying on the curve, and nothing else. Outside this case the promise fails: after an insertion at lower multiplicity the removal reports success with wrong control points; when degree minus multiplicity is even the test for removability compares a value with itself, so removal is never refused, even at a corner of the curve; when fewer than the requested removals are done the result violates the knot/control point size relation; a parameter in the first knot span, or one that is no knot, leads to reads outside the control points.", "quantifier": "all valid curves, knots and counts", "why_tests_cant": "two-sided recurrences for all degrees", "anchors": ["src/LNLib/Geometry/Curve/NurbsCurve.cpp:RemoveKnot"]}
{"id": "C31", "title": "Degree elevation preserves the curve", "statement": "For every valid clamped curve of degree p>=1 whose inner knots are simple and whose distinct knots are clearly apart, and every t>=1, ElevateDegree(t) returns a valid clamped curve of degree p+t with the same distinct knots, each t times more often, that has the same point at every parameter of the domain. With a repeated inner knot the returned arrays are too long (unused zeros at the end) and the result cannot be evaluated; for degree 0 it throws.", "quantifier": "all degrees, elevation counts, control points", "why_tests_cant": "binomial convolution for unbounded degrees", "anchors": ["src/LNLib/Geometry/Curve/NurbsCurve.cpp:ElevateDegree"]}
{"id": "C32", "title": "Degree reduction inverts degree elevation", "statement": "For every clamped Bezier curve of degree p>=2 with weights clearly above zero: if some curve of degree p-1 on the same interval has the same points, ReduceDegree returns exactly that curve (in particular it undoes ElevateDegree by 1); and whenever it returns a curve, that is a valid curve of degree p-1 on the same interval with the same first and last control point, within 1/9999 of the original at every parameter for even p and within 1/4999 for odd p (for odd p the intended tolerance 1/10000 can be missed, the error formula has a factor too much). For curves that are not of Bezier size it returns false. Degree 1 reads control point -1; knots that are not clamped are lost.", "quantifier": "all degrees, control points", "why_tests_cant": "two-sided recurrences for all degrees", "anchors": ["src/LNLib/Geometry/Curve/NurbsCurve.cpp:ReduceDegree"]}
{"id": "C33", "title": "Reversal traverses the curve backwards", "statement": "For a valid curve of degree at most 7 whose end spans are clearly wider than the tolerance, Reverse yields a valid curve D on the same domain with D(a+b-t)=C(t) at every parameter that is not an interior knot of multiplicity degree+1, and reversing twice gives back the original curve exactly. At an interior knot of multiplicity degree+1 the two curves take different one-sided values.", "quantifier": "all valid curves and parameters", "why_tests_cant": "for-all parameters", "anchors": ["src/LNLib/Geometry/Curve/NurbsCurve.cpp:Reverse"]}
{"id": "C34", "title": "Splitting a curve", "statement": "For every valid curve and every parameter u strictly inside the domain that is equal to or clearly apart from every knot, SplitAt returns two valid curves, the left one on [a,u], the right one on [u,b], that evaluate to the same points as the original (the left one at u itself only if u is not a knot of multiplicity degree+1: there the original curve jumps); the pieces of a clamped curve are clamped; it returns false when u is within tolerance of or outside the domain ends.", "quantifier": "all valid curves and split parameters", "why_tests_cant": "for-all parameters", "anchors": ["src/LNLib/Geometry/Curve/NurbsCurve.cpp:SplitAt"]}
{"id": "C35", "title": "Extract returns an inconsistent curve", "statement": "For every curve of degree >= 1 on which Extract returns normally, the numbers of knots and control points of the result violate the NURBS size relation m = n + p + 1.", "quantifier": "all curves and parameter pairs", "why_tests_cant": "a defect for every input, not a corner case", "anchors": ["src/LNLib/Geometry/Curve/NurbsCurve.cpp:Extract"]}
{"id": "C36", "title": "Affine reparametrisation", "statement": "Rescale(U,a,b) maps the knots affinely onto [a,b] preserving order, and is a division by zero exactly when first and last knot coincide. Reparametrize(curve,a,b) leaves the curve alone when a and b agree with its ends within tolerance and otherwise gives D with D(phi(t))=C(t) for the affine map phi. Reparametrize(curve,alpha,beta,gamma,delta) gives the same rational point at (alpha t+beta)/(gamma t+delta) for every Moebius map that increases and has no pole on the knots.", "quantifier": "all valid curves and target intervals", "why_tests_cant": "for-all parameters", "anchors": ["src/LNLib/Algorithm/KnotVectorUtils.cpp:Rescale", "src/LNLib/Geometry/Curve/NurbsCurve.cpp:Reparametrize"]}
{"id": "C37", "title": "Transforming control points transforms the curve", "statement": "CreateTransformed with an affine matrix maps every point of the (rational) curve by that matrix and keeps knots and weights; with a projective matrix the points of the curve are not mapped by it.", "quantifier": "all curves, matrices, parameters", "why_tests_cant": "for-all parameters and matrices", "anchors": ["src/LNLib/Geometry/Curve/NurbsCurve.cpp:CreateTransformed", "src/LNLib/Mathematics/Math/Matrix4d.cpp:OfPoint"]}
{"id": "C38", "title": "Merging curves", "statement": "For two valid curves of equal degree, clamped where they meet, with knots clearly apart from the joint, whose end points with weights clearly above zero agree within tolerance, Merge returns a valid curve on [0,1] with all control points of both: on [0,1/2] it runs affinely through the left and on [1/2,1] through the right curve. It returns false when the end points are not within tolerance or the left curve is not clamped at its end.", "quantifier": "all pairs of curves", "why_tests_cant": "for-all parameters", "anchors": ["src/LNLib/Geometry/Curve/NurbsCurve.cpp:Merge"]}
{"id": "C39", "title": "Knot vector compatibility", "statement": "GetKnotMultiplicityMap returns each distinct knot with its exact multiplicity in increasing order, for every vector; GetInternalKnotMultiplicityMap does so for the knots strictly between the smallest and the largest when there are two distinct knots, and has undefined behaviour when there is only one. Inserting the elements returned by GetInsertedKnotElement(s) into each of the given knot vectors gives every one of them, for every value, the largest multiplicity any of them had.", "quantifier": "all families of knot vectors", "why_tests_cant": "multiset laws over unbounded lists", "anchors": ["src/LNLib/Algorithm/KnotVectorUtils.cpp:GetKnotMultiplicityMap", "src/LNLib/Algorithm/KnotVectorUtils.cpp:GetInsertedKnotElements"]}
{"id": "C40", "title": "Chord-length and centripetal parameters", "statement": "For every list of at least two points GetChordParameterization and GetCentripetalParameterization return as many parameters as points, starting at 0, ending at 1, non-decreasing and strictly increasing wherever consecutive points differ; when the total length is not within tolerance of zero the i-th parameter is the partial (chord or centripetal) length divided by the total.", "quantifier": "all point lists", "why_tests_cant": "sums of square roots over unbounded lists", "anchors": ["src/LNLib/Algorithm/Interpolation.cpp:GetChordParameterization", "src/LNLib/Algorithm/Interpolation.cpp:GetCentripetalParameterization"]}
{"id": "C41", "title": "Averaged knot vectors are valid", "statement": "AverageKnotVector(p,params) for p>=1 and non-decreasing params in [0,1] with at least p+1 entries returns n+p+2 knots, clamped with p+1 zeros and ones and non-decreasing, whose interior knots are the means of p consecutive parameters; for strictly increasing parameters from 0 to 1 every parameter lies strictly inside the support of its basis function, so interpolation is possible. With fewer entries the vector has too few zeros, with degree 0 it divides by zero.", "quantifier": "all degrees and parameter lists", "why_tests_cant": "unbounded lists", "anchors": ["src/LNLib/Algorithm/Interpolation.cpp:AverageKnotVector"]}
{"id": "C42", "title": "Matrix4d is an algebra of transformations", "statement": "Multiply is the matrix product, associative with the identity as unit; OfPoint of a product is the composition; transpose reverses products; translation, scale, basis, rotation and reflection matrices act as the geometric maps of those names for every non-zero axis or normal; rotations preserve inner products, fix the axis and add angles; reflections are involutions, in the plane n.x=-d (not n.x=d). A rotation about the zero axis scales by the cosine. IsIdentity and IsTranslation accept matrices that are neither.", "quantifier": "all matrices, points, angles", "why_tests_cant": "real-valued identities", "anchors": ["src/LNLib/Mathematics/Math/Matrix4d.cpp:Multiply", "src/LNLib/Mathematics/Math/Matrix4d.cpp:OfPoint", "src/LNLib/Mathematics/Math/Matrix4d.cpp:CreateRotation", "src/LNLib/Mathematics/Math/Matrix4d.cpp:CreateReflection", "src/LNLib/Mathematics/Math/Matrix4d.cpp:CreateTranslation"]}
{"id": "C43", "title": "Simpson integration is exact on cubics", "statement": "The one-dimensional Simpson rule integrates every polynomial of degree <=3 exactly over every interval, and the two-dimensional rule every bicubic polynomial; neither is exact beyond.", "quantifier": "all cubics and intervals", "why_tests_cant": "real-valued identity", "anchors": ["src/LNLib/Algorithm/Integrator.cpp:Simpson"]}
{"id": "C44", "title": "Projection returns the nearest point", "statement": "Projection::PointToRay returns, for a non-zero direction, the foot of the perpendicular on the whole line, and no point of the line is closer (so the result can lie behind the origin of the ray); a zero direction divides by zero. PointToLine returns the foot point exactly when it lies on the segment within tolerance and fails otherwise or when the segment is degenerate. Stereographic returns the point of the plane z=0 on the line from the pole through the given point, and divides by zero at the height of the pole.", "quantifier": "all points, lines", "why_tests_cant": "real-valued optimality", "anchors": ["src/LNLib/Algorithm/Projection.cpp:PointToLine", "src/LNLib/Algorithm/Projection.cpp:PointToRay"]}
{"id": "C45", "title": "Ray intersection is sound", "statement": "For lines that are not identical within tolerance and whose directions are not zero (a zero direction throws): when the Gram determinant of the directions is not within tolerance of zero, ComputeRays finds the closest points of the two lines and reports Intersecting (with the midpoint) if their distance is within tolerance of zero and Skew otherwise; lines that meet are reported with exactly their parameters and point. Otherwise it reports Coincident or Parallel. The determinant is not normalised: perpendicular meeting lines given by short direction vectors are reported Parallel.", "quantifier": "all pairs of rays", "why_tests_cant": "classification thresholds over real inputs", "anchors": ["src/LNLib/Algorithm/Intersection.cpp:ComputeRays"]}
{"id": "C46", "title": "Line-plane intersection is sound", "statement": "ComputeLineAndPlane reports Intersecting, with the unique point on both the line and the plane, exactly when the inner product of direction and normal is not within tolerance of zero; otherwise On or Parallel depending on whether the point of the line is within tolerance of the plane. The test is not normalised: a short direction vector makes a line that crosses the plane parallel.", "quantifier": "all lines and planes", "why_tests_cant": "real-valued identity", "anchors": ["src/LNLib/Algorithm/Intersection.cpp:ComputeLineAndPlane"]}
{"id": "C47", "title": "Octree construction loses and duplicates no point", "statement": "Whenever Octree construction returns, for whatever points, leaf size and least extent and in any arithmetic, the point indices stored in the leaves are exactly 0..n-1, each once, and every inner octant lists exactly the points stored below it. Over the reals it returns for every positive least extent; with a negative one and two equal points it recurses forever.", "quantifier": "all point sets and parameters", "why_tests_cant": "recursive partition over unbounded sets", "anchors": ["src/LNLib/Algorithm/Octree/Octree.cpp:OctreeConstruction"]}
{"id": "C48", "title": "Octree radius search is sound", "statement": "On every constructed tree both radius searches return every stored point at most once, with its true distance, none farther than the radius plus tolerance, and leave out no point that is nearer than the radius by a margin: with coordinates at most B, tau=(1+3B)/1000000, every point at distance d with (d+2 tau)^2+(1+r^2)/1000000<r^2 is reported. Without the margin it fails: squared distances are compared with an absolute tolerance, so with a small radius (below 1/1000) points well inside the ball are missed; and with coordinates around 10^6 points are filed in the wrong octant and missed.", "quantifier": "all point sets, query points, radii", "why_tests_cant": "recursive search over unbounded sets", "anchors": ["src/LNLib/Algorithm/Octree/Octree.cpp:OctreeRadiusSearch", "src/LNLib/Algorithm/Octree/Octree.cpp:OctreeRadiusSearchFast", "src/LNLib/Algorithm/Octree/OctreeCollector.cpp"]}
{"id": "C49", "title": "k-nearest result set keeps the k best", "statement": "After every sequence of insertions with distances below 10^10 that are pairwise equal or differ by more than the tolerance, a KnnResultSet of capacity k>=1 holds min(k, number of insertions) entries: the nearest ones, in non-decreasing order; it is full exactly when k or more were inserted, and its worst distance is the k-th smallest when full and 10^10 before. With distances closer than the tolerance a farther point replaces a nearer one and the order is lost; capacity 0 writes outside the list.", "quantifier": "all insertion histories", "why_tests_cant": "history-quantified invariant", "anchors": ["src/LNLib/Algorithm/Octree/OctreeCollector.cpp"]}
{"id": "C50", "title": "Circular arcs are circular", "statement": "CreateArc with orthogonal axes, equal radii clearly above zero and an angle of at least 1/500 and at most 2 pi returns a valid curve that traverses the requested circular arc exactly once: there is a strictly increasing function onto [start,end] that gives the angle reached at each parameter of [0,1], and every point is the point of the circle at that angle. Every circular arc between 1/100000 and 1/1000 radians is refused. With unequal radii the curve is in general not on the ellipse.", "quantifier": "all centres, axes, angles, radii, parameters", "why_tests_cant": "for-all parameters over trigonometric functions", "anchors": ["src/LNLib/Geometry/Curve/NurbsCurve.cpp:CreateArc"]}
{"id": "C51", "title": "Lines are parametrised linearly", "statement": "CreateLine(a,b) yields a valid degree-1 curve with C(t)=(1-t)a+tb; it throws when a and b coincide within tolerance.", "quantifier": "all point pairs and parameters", "why_tests_cant": "for-all parameters", "anchors": ["src/LNLib/Geometry/Curve/NurbsCurve.cpp:CreateLine"]}
{"id": "C52", "title": "Swapping surface directions", "statement": "Swap into another object exchanges the roles of u and v: S'(v,u)=S(u,v) for every valid surface and all parameters, and swapping twice is the identity. When input and output are the same object and the two directions differ in degree or knots, the result has the v degree and v knots in both directions.", "quantifier": "all surfaces and parameters", "why_tests_cant": "for-all parameters", "anchors": ["src/LNLib/Geometry/Surface/NurbsSurface.cpp:Swap", "src/LNLib/include/MathUtils.h:Transpose"]}
{"id": "C53", "title": "Reversing a surface", "statement": "Reverse in the U direction into an object that already has the v knots of the input gives a valid surface that traverses u backwards (away from inner knots of multiplicity degree+1), and doing it twice restores the input. Into a fresh object every evaluation of the result reads an empty knot vector. In the V direction the result has twice as many rows as the input, the first half empty, and the library's own check rejects it; for All only the U direction of the net is reversed, so the result is not the mirrored surface.", "quantifier": "all surfaces", "why_tests_cant": "structure for all sizes", "anchors": ["src/LNLib/Geometry/Surface/NurbsSurface.cpp:Reverse"]}
{"id": "C54", "title": "Iso-curves lie on the surface", "statement": "GetIsoCurve at a fixed parameter (moved into the domain first) of a valid surface returns a valid curve of the other direction's degree and knots that agrees with the surface at that parameter for every value of the other parameter.", "quantifier": "all surfaces and parameters", "why_tests_cant": "for-all parameters", "anchors": ["src/LNLib/Geometry/Surface/NurbsSurface.cpp:GetIsoCurve"]}
{"id": "C55", "title": "Surface knot insertion and refinement preserve the surface", "statement": "InsertKnot with an inner knot whose tolerance-multiplicity s is exact (s<=degree) inserts min(times, degree-s) copies, in either direction, and returns a valid surface with the same points; RefineKnotVector with a non-empty ordered list of inner knots that are equal to or clearly apart from all others does so too, and both leave the knots of the other direction alone.", "quantifier": "all valid surfaces, knots, counts, parameters", "why_tests_cant": "for-all parameters", "anchors": ["src/LNLib/Geometry/Surface/NurbsSurface.cpp:InsertKnot", "src/LNLib/Geometry/Surface/NurbsSurface.cpp:RefineKnotVector"]}
{"id": "C56", "title": "Interpolation passes through the data points", "statement": "With a linear solver that solves every regular system exactly, GlobalInterpolation with degree p (1<=p<=7), more than p points and strictly increasing parameters from 0 to 1 (the first and last gap above 2/1000000) never meets a singular system and returns a valid clamped curve with unit weights that passes through every point at its parameter; it is the only such curve on these knots. Without given parameters the same holds for points with distinct neighbours, at the chord length parameters. Degree 0 divides by zero. The variant with tangents builds a matrix with NaN for degree 2 and a singular one for degree 3 and five points. The surface variant reads past the end of a parameter list when the grid is not square.", "quantifier": "all point lists and degrees", "why_tests_cant": "for-all point lists", "anchors": ["src/LNLib/Geometry/Curve/NurbsCurve.cpp:GlobalInterpolation"]}
{"id": "C57", "title": "Matrix helpers", "statement": "MatrixMultiply is the mathematical product for rectangular matrices (associative, identity from MakeDiagonal), Transpose is an involution reversing products, GetColumn returns the column.", "quantifier": "all matrix sizes and entries", "why_tests_cant": "unbounded sizes", "anchors": ["src/LNLib/Mathematics/Utils/MathUtils.cpp:MatrixMultiply", "src/LNLib/Mathematics/Utils/MathUtils.cpp:MakeDiagonal", "src/LNLib/include/MathUtils.h:Transpose"]}
{"id": "C58", "title": "Bounding box of a surface", "statement": "For a surface with clamped knots, control weights above the tolerance and at least as many V knots as U knots less one, GetBoundingBox returns a box that lies inside every box holding the control points and that contains the surface points at (U[i],V[i]) for all knot indices i but the last. It need not contain the surface (a corner of a bilinear patch can lie outside), and with more U knots than V knots it reads past the end of the V knots.", "quantifier": "all surfaces", "why_tests_cant": "for-all parameters", "anchors": ["src/LNLib/Geometry/Surface/NurbsSurface.cpp:GetBoundingBox"]}
{"id": "C59", "title": "Vector algebra", "statement": "Dot and cross products obey their algebraic laws (bilinearity, orthogonality, Lagrange identity), Normalize returns a unit vector for non-zero input and leaves near-zero input safe, Distance is a metric.", "quantifier": "all vectors", "why_tests_cant": "real-valued identities", "anchors": ["src/LNLib/Mathematics/Math/XYZ.cpp:CrossProduct", "src/LNLib/Mathematics/Math/XYZ.cpp:DotProduct", "src/LNLib/Mathematics/Math/XYZ.cpp:Normalize", "src/LNLib/Mathematics/Math/XYZ.cpp:Distance"]}
{"id": "C60", "title": "Arc splitting weight is lost", "statement": "SplitArc receives its weight output by value, so callers never see it: for every input for which CreateOpenConic returns a curve with more than one segment, that curve has 5 or 9 control points, all of odd index are zero with weight zero, and every point of the curve lies on the polygon through the control points of even index instead of on a conic.", "quantifier": "all conic inputs", "why_tests_cant": "a defect for every input", "anchors": ["src/LNLib/Geometry/Curve/NurbsCurve.cpp:SplitArc", "src/LNLib/Geometry/Curve/NurbsCurve.cpp:CreateOpenConic"]}
{"id": "C61", "title": "Quadratic arc evaluation", "statement": "GetPointOnQuadraticArc returns the Bezier point of the three control points when the three weights are equal and non-zero; with different weights it is not the rational quadratic: already at t=1 it does not return the end point.", "quantifier": "all control points, weights, parameters in [0,1]", "why_tests_cant": "The equal-weight case hides the defect: the code divides every control point by the first weight.", "anchors": ["src/LNLib/Geometry/Curve/BezierCurve.cpp: GetPointOnQuadraticArc"]}
{"id": "C62", "title": "Knots for approximation", "statement": "ComputeKnotVector(p,n+1,params) for n-p+1 <= number of params, params non-decreasing in [0,1], returns clamped non-decreasing knots, each interior knot the documented interpolation between two consecutive parameters; with strictly increasing parameters from 0 to 1 and more than n-p+1 of them every knot span contains at least one parameter. With fewer parameters than spans it reads before the start of the parameters.", "quantifier": "all degrees, counts and parameter lists", "why_tests_cant": "floor arithmetic and index ranges over unbounded lists", "anchors": ["src/LNLib/Algorithm/Interpolation.cpp: ComputeKnotVector"]}
{"id": "C63", "title": "Mesh parameters", "statement": "For every rectangular non-empty point mesh GetSurfaceMeshParameterization fails only if all lines of one direction have total length within tolerance of zero; otherwise the parameters of each direction run from 0 to 1, are non-decreasing, strictly increasing where a non-degenerate line has distinct consecutive points, and are the averages over the non-degenerate lines of their chord-length parameters.", "quantifier": "all rectangular meshes", "why_tests_cant": "averaging over a data-dependent number of lines of unbounded length", "anchors": ["src/LNLib/Algorithm/Interpolation.cpp: GetSurfaceMeshParameterization"]}
{"id": "C64", "title": "Tangent estimation", "statement": "For at least three points whose chord-length parameters are clearly apart ComputeTangent returns at interior points the slope of the secant through the two neighbours, extrapolated at the ends; it is not the tangent of the parabola through the three points. Two equal consecutive points next to a different one make it divide by zero.", "quantifier": "all point lists", "why_tests_cant": "real-valued identities over unbounded lists; the tests use evenly spread points", "anchors": ["src/LNLib/Algorithm/Interpolation.cpp: ComputeTangent"]}
{"id": "C65", "title": "Open conics pass through the given point", "statement": "When the end tangents meet in a point q and the line from q through the given point meets the chord strictly inside, CreateOneConicArc returns q and a weight for which the rational quadratic arc passes through the given point at a parameter inside (0,1); a one-segment curve returned by CreateOpenConic starts and ends at the given end points and passes through the given point.", "quantifier": "all end points, tangents and points in general position", "why_tests_cant": "real-valued identity with square roots over all configurations", "anchors": ["src/LNLib/Geometry/Curve/NurbsCurve.cpp: CreateOneConicArc", "src/LNLib/Geometry/Curve/NurbsCurve.cpp: CreateOpenConic"]}
{"id": "C66", "title": "Even insertion, uniformity and clamping of knot vectors", "statement": "GetInsertedKnotElements(n,U) returns exactly n strictly increasing new knots strictly inside the range and different from all old ones whenever the range is wide enough for the tolerance; when all knots are equal it has undefined behaviour. IsUniform answers true exactly when end multiplicities agree, inner multiplicities agree, and all gaps agree within tolerance; with one distinct knot it has undefined behaviour. The elements GetInsertedKnotElement(degree,U,first,last) returns raise the multiplicity of both end knots to degree+1 and touch no other.", "quantifier": "all knot vectors and counts", "why_tests_cant": "recursion depth, list sizes and multiplicities are unbounded", "anchors": ["src/LNLib/Algorithm/KnotVectorUtils.cpp: GetInsertedKnotElements", "src/LNLib/Algorithm/KnotVectorUtils.cpp: IsUniform", "src/LNLib/Algorithm/KnotVectorUtils.cpp: GetInsertedKnotElement"]}
{"id": "C67", "title": "Reparametrising a surface", "statement": "Reparametrize(surface,a,b,c,d) with a<b, c<d, when neither direction already has the requested range within tolerance, keeps degrees and control points, maps the knots affinely onto [a,b] and [c,d], and gives S'(phi(u),psi(v))=S(u,v). When one direction already has its range nothing is changed, although the other direction was to be reparametrised.", "quantifier": "all valid surfaces, ranges, parameters", "why_tests_cant": "real-valued identity over all parameters; the early return needs one matching direction", "anchors": ["src/LNLib/Geometry/Surface/NurbsSurface.cpp: Reparametrize"]}
{"id": "C68", "title": "Nearest neighbour search", "statement": "On every constructed tree (coordinates at most B<=10^9, distances below 8*10^9 and pairwise equal or differing by more than the tolerance) OctreeKnnSearch with a fresh result set of capacity k>=1 returns min(k,n) distinct points with their true distances in non-decreasing order, all at most the worst distance w; and no other point is nearer than w by the margin (d+2(1+3B)/1000000)^2+(1+w^2)/1000000<w^2.", "quantifier": "all point sets, query points, k, leaf sizes and extents", "why_tests_cant": "recursive search with pruning over unbounded sets", "anchors": ["src/LNLib/Algorithm/Octree/Octree.cpp: OctreeKnnSearch", "src/LNLib/Algorithm/Octree/OctreeCollector.cpp: KnnResultSet"]}
{"id": "C69", "title": "Points of a rational surface", "statement": "For control weights above the tolerance, GetPointOnSurface of a NURBS surface returns sum(N_i(u)N_j(v)w_ij P_ij)/sum(N_i(u)N_j(v)w_ij), and this point lies in every half space that holds the control points. Weights below the tolerance are not divided out.", "quantifier": "all degrees up to 7, knot vectors, weighted nets and parameters in the domain", "why_tests_cant": "for-all parameters and nets", "anchors": ["src/LNLib/Geometry/Surface/NurbsSurface.cpp: GetPointOnSurface"]}
{"id": "C70", "title": "Partial derivatives of a rational surface", "statement": "Where the weight is not zero, ComputeRationalSurfaceDerivatives of order d up to both degrees returns for all k+l<=d the k-th/l-th mixed partial derivative of the surface (on the spans of u and v), and ComputeRationalSurfaceFirstOrderDerivative returns the point and the two first ones. Orders above a degree are refused.", "quantifier": "all degrees up to 7, knot vectors, nets, parameters, orders", "why_tests_cant": "derivatives are limits; recursive quotient rule for every order", "anchors": ["src/LNLib/Geometry/Surface/NurbsSurface.cpp: ComputeRationalSurfaceDerivatives", "src/LNLib/Geometry/Surface/NurbsSurface.cpp: ComputeRationalSurfaceFirstOrderDerivative"]}
{"id": "C71", "title": "Surface normal", "statement": "Where the weight is not zero, Normal returns the unit vector in the direction of the cross product of the two first partial derivatives, and the zero vector exactly where that product vanishes.", "quantifier": "all surfaces of degrees 1 to 7 and parameters", "why_tests_cant": "for-all surfaces and parameters", "anchors": ["src/LNLib/Geometry/Surface/NurbsSurface.cpp: Normal"]}
{"id": "C72", "title": "Coordinates in the tangent plane", "statement": "GetUVTangent returns (a,b) such that the tangent minus a*Su+b*Sv is orthogonal to Su and Sv, or false when |Su|^2|Sv|^2 and (Su.Sv)^2 agree within tolerance, which is so for every small enough patch.", "quantifier": "all surfaces, parameters and vectors", "why_tests_cant": "for-all surfaces, parameters and vectors", "anchors": ["src/LNLib/Geometry/Surface/NurbsSurface.cpp: GetUVTangent"]}
{"id": "C73", "title": "Surface curvatures", "statement": "For degrees 2 to 7 and |Su x Sv|^2>1/999999, Curvature returns the largest and the smallest principal curvature (eigenvalues of the second fundamental form relative to the first), their product (Gauss), their mean, the sum of their absolute values and the root of the sum of their squares. For smaller |Su x Sv| it returns 0, whatever the surface; for a degree of 1 it throws.", "quantifier": "all surfaces, parameters and kinds of curvature", "why_tests_cant": "for-all surfaces and parameters", "anchors": ["src/LNLib/Geometry/Surface/NurbsSurface.cpp: Curvature"]}
{"id": "C74", "title": "Bilinear surface", "statement": "CreateBilinearSurface returns a surface whose point at (u,v) in the unit square is the bilinear interpolation of the four corners: (1-v)((1-u) topLeft + u bottomLeft) + v((1-u) topRight + u bottomRight).", "quantifier": "all corners and parameters", "why_tests_cant": "for-all parameters", "anchors": ["src/LNLib/Geometry/Surface/NurbsSurface.cpp: CreateBilinearSurface"]}
{"id": "C75", "title": "Cylindrical surface", "statement": "For orthogonal axes that are not nearly zero, an angle from 1/500 to 2 pi, and radius and height above the tolerance, CreateCylindricalSurface returns a surface whose point at (x,y) is the point of the circle at angle phi(y) moved by (1-x)*height along the normal of the axes, where phi increases from the start angle to the end angle and takes every value between.", "quantifier": "all centres, axes, angles, radii, heights and parameters", "why_tests_cant": "the circle must be met at every parameter, not at samples", "anchors": ["src/LNLib/Geometry/Surface/NurbsSurface.cpp: CreateCylindricalSurface"]}
{"id": "C76", "title": "Ruled surface", "statement": "For two clamped curves of degree at most 7 over the same parameter interval, with knots equal or clearly apart (and the curve of lower degree having simple inner knots), CreateRuledSurface returns a valid surface of the larger degree and degree 1, over the knots of both, whose homogeneous point at (u,v) is (1-v) C0(u) + v C1(u); its edges v=0 and v=1 are the two curves. Curves over different intervals are refused.", "quantifier": "all pairs of curves, parameters", "why_tests_cant": "the two curves have to be brought to common degree and knots, in every combination", "anchors": ["src/LNLib/Geometry/Surface/NurbsSurface.cpp: CreateRuledSurface"]}
{"id": "C77", "title": "Surface of revolution", "statement": "For a unit axis, an angle from 1/500 to 2 pi, a valid profile with weights of at least 1/1000 whose control points lie on the axis or far enough from it (squared distance times angle at least 1/50), CreateRevolvedSurface returns a surface whose point at (u,v) is the profile point at v rotated about the axis by phi(u), where phi increases from 0 to the angle and takes every value between. With an axis of another length the surface is wrong; a profile near the axis is refused.", "quantifier": "all axes, angles, profiles and parameters", "why_tests_cant": "rotation has to hold at every parameter", "anchors": ["src/LNLib/Geometry/Surface/NurbsSurface.cpp: CreateRevolvedSurface"]}
{"id": "C78", "title": "Scaling along the axes", "statement": "For a valid surface whose weights are all 1, and a reference point that is the origin or clearly not, NonUniformScaling returns control points of a valid surface on the same knots each of whose points is the old one scaled along the axes about the reference point. With other weights it fails: even scaling by 1 moves the surface.", "quantifier": "all surfaces, factors, reference points and parameters", "why_tests_cant": "for-all surfaces and parameters", "anchors": ["src/LNLib/Geometry/Surface/NurbsSurface.cpp: NonUniformScaling"]}
{"id": "C79", "title": "Curvature and normals of a curve", "statement": "With a, b the first and second derivative at the parameter (degree at most 7, weight not zero): where the speed |a| is not within tolerance of 1, Curvature returns |a x b|/|a|^3 and does not return a number where a=0; Normal returns the unit principal normal and the unit binormal (direction of a x b), and no finite vector where a x b=0. Where |a| is within tolerance of 1 it assumes parametrisation by arc length and returns |b| and the direction of b: right if a.b=0, wrong otherwise (a straight line gets curvature 4 and its tangent as normal).", "quantifier": "all curves of degree up to 7 and parameters in the domain", "why_tests_cant": "derivatives are limits; the wrong shortcut needs a speed of exactly 1 at the parameter", "anchors": ["src/LNLib/Geometry/Curve/NurbsCurve.cpp: Curvature", "src/LNLib/Geometry/Curve/NurbsCurve.cpp: Normal"]}
{"id": "C80", "title": "Torsion of a curve", "statement": "With a, b, c the first three derivatives at the parameter: where |a| is not within tolerance of 1, Torsion returns (a x b).c/|a x b|^2, and no number where a x b=0. Where |a| is within tolerance of 1 it returns (a x b).c/|b|^2, which is not the torsion unless a.b=0: halving the parameter range changes the result.", "quantifier": "all curves of degree up to 7 and parameters in the domain", "why_tests_cant": "derivatives are limits; the wrong shortcut needs a speed of exactly 1", "anchors": ["src/LNLib/Geometry/Curve/NurbsCurve.cpp: Torsion"]}
{"id": "C81", "title": "Moving a curve point by a control point", "statement": "ControlPointReposition(curve,t,index,direction,distance), with equal weights and index the first control point active at t (t not the end of its span), moves the point at t by exactly the distance along the direction. For any index it moves it by distance*R_index(t)/N_first(t), so in general by another distance (the middle control point of a parabola: twice); at the end of the curve it divides by zero.", "quantifier": "all curves of degree up to 7, parameters, indices, directions, distances", "why_tests_cant": "for-all curves and parameters; the tests only look at one control point", "anchors": ["src/LNLib/Geometry/Curve/NurbsCurve.cpp: ControlPointReposition"]}
{"id": "C82", "title": "Moving a curve point by a weight", "statement": "WeightModification(curve,t,index,distance), with equal weights and index the first control point active at t, moves the point at t by the distance on the line towards the control point. For other indices it moves by another distance; at the end of the curve it divides by zero.", "quantifier": "all curves of degree up to 7, parameters, distances", "why_tests_cant": "for-all curves and parameters", "anchors": ["src/LNLib/Geometry/Curve/NurbsCurve.cpp: WeightModification"]}
{"id": "C83", "title": "Warping a curve", "statement": "Warping moves the i-th control point by shape[i]*|distance| along the unit vector in the direction of distance*(tangent at the middle parameter x plane normal), keeps weights and knots, and moves every point of the curve by the average of these moves weighted with the rational basis functions.", "quantifier": "all curves of degree up to 7, shapes, distances, normals and ranges for which that cross product is not zero", "why_tests_cant": "for-all parameters", "anchors": ["src/LNLib/Geometry/Curve/NurbsCurve.cpp: Warping"]}
{"id": "C84", "title": "Flattening a curve", "statement": "Flattening replaces each control point of index span(start) <= i < span(end)-degree by its foot on the line if that lies on the segment within tolerance, leaves all others alone and keeps weights and knots. If all of them project into the segment and there are more than the degree of them, it returns true and the curve lies on the line over all spans k with span(start)+degree <= k < span(end)-degree. The return value alone promises nothing: true is also returned when one of them stays off the line.", "quantifier": "all curves, lines and parameter ranges", "why_tests_cant": "for-all parameters", "anchors": ["src/LNLib/Geometry/Curve/NurbsCurve.cpp: Flattening"]}
{"id": "C85", "title": "Bending a curve", "statement": "Bending with centre o, radius r>=0 and cross ratio q moves each selected control point P (span(start) <= i < span(end)-degree) on the ray from o to the distance fraction q r/(d+(q-1) r) of d=|P-o|; with q=1 exactly onto the sphere of radius r about o; all others, weights and knots stay.", "quantifier": "all curves, centres, radii, cross ratios and ranges with no selected control point at the centre and no vanishing denominator", "why_tests_cant": "for-all curves", "anchors": ["src/LNLib/Geometry/Curve/NurbsCurve.cpp: Bending"]}
{"id": "C86", "title": "Unclamping a curve", "statement": "ToUnclampCurve of a clamped curve of degree at least 1 returns a valid curve with the same number of control points and the same knots inside the domain, whose outer knot gaps repeat the gaps of the other end, and which has the same point at every parameter of the domain.", "quantifier": "all clamped curves and parameters", "why_tests_cant": "for-all parameters; nested loops over degree and control points", "anchors": ["src/LNLib/Geometry/Curve/NurbsCurve.cpp: ToUnclampCurve"]}
{"id": "C87", "title": "Clamping a curve", "statement": "IsClamp answers true exactly when the first and the last knot have multiplicity degree+1, provided no other knot is within tolerance of them. ToClampCurve does not keep the curve: for the quadratic curve over the knots 0..7 the result has another end point.", "quantifier": "all knot vectors", "why_tests_cant": "for-all knot vectors", "anchors": ["src/LNLib/Geometry/Curve/NurbsCurve.cpp: IsClamp", "src/LNLib/Geometry/Curve/NurbsCurve.cpp: ToClampCurve"]}
{"id": "C88", "title": "Closed curves", "statement": "For a clamped curve IsClosed answers true if the ends agree within tolerance; if it answers true, then the ends agree within tolerance or the last control points repeat the first ones. The second case need not be a closed curve: the polyline A B A B is called closed.", "quantifier": "all clamped curves of degree up to 7", "why_tests_cant": "for-all curves", "anchors": ["src/LNLib/Geometry/Curve/NurbsCurve.cpp: IsClosed"]}
{"id": "C89", "title": "Straight curves", "statement": "If IsLinear answers true, every point of the curve is within 2/999999 of one line; if it answers false, the control points are not on one line.", "quantifier": "all curves of degree up to 7 with at least two control points", "why_tests_cant": "for-all parameters", "anchors": ["src/LNLib/Geometry/Curve/NurbsCurve.cpp: IsLinear"]}
{"id": "C90", "title": "Tessellation of a curve", "statement": "EquallyTessellate of a clamped curve returns, for each of the intervals between consecutive distinct knots, 100 equally spaced parameters including both ends, and the points of the curve at them.", "quantifier": "all clamped curves of degree up to 7", "why_tests_cant": "unbounded number of knots; nested loops", "anchors": ["src/LNLib/Geometry/Curve/NurbsCurve.cpp: EquallyTessellate"]}
{"id": "C91", "title": "Recognising arcs", "statement": "For a clamped curve that IsLinear calls not straight, and whose three sample points are not collinear: if all points of the curve lie in a plane at distance r from o, IsArc returns true with centre o and radius r; if it returns true, all points of the tessellation are at distance radius from the centre, within tolerance.", "quantifier": "all clamped curves of degree up to 7", "why_tests_cant": "for-all curves and parameters", "anchors": ["src/LNLib/Geometry/Curve/NurbsCurve.cpp: IsArc"]}
{"id": "C92", "title": "Cubic Hermite interpolation", "statement": "CreateCubicHermite of at least 4 points, with chord length parameters that increase by more than the tolerance, returns a valid cubic curve with unit weights that passes through the i-th point with the i-th tangent as its derivative at the i-th parameter, whether or not points and tangents close up.", "quantifier": "all point and tangent lists", "why_tests_cant": "for-all lists; derivatives are limits", "anchors": ["src/LNLib/Geometry/Curve/NurbsCurve.cpp: CreateCubicHermite"]}
{"id": "C93", "title": "Periodic curves", "statement": "A curve over equally spaced, clearly different knots whose last `degree` control points repeat the first ones is called periodic by IsPeriodic, and its two ends are the same point. A clamped curve is never called periodic, however smoothly it closes.", "quantifier": "all curves", "why_tests_cant": "for-all curves", "anchors": ["src/LNLib/Geometry/Curve/NurbsCurve.cpp: IsPeriodic"]}
{"id": "C94", "title": "Points of a volume", "statement": "GetPointOnVolume at a parameter of the box returns sum(N_i(u)N_j(v)N_k(w) P_ijk) of the weighted control points divided by its weight, if that is above the tolerance; with control weights clearly above zero it is, and the point lies in every half space that holds the control points.", "quantifier": "all volumes of degrees up to 7 and parameters in the domain", "why_tests_cant": "for-all nets, knots and parameters", "anchors": ["src/LNLib/Geometry/Volume/NurbsVolume.cpp: GetPointOnVolume"]}
{"id": "C95", "title": "Iso-parameter curves of a volume", "statement": "GetIsoCurve with the parameter -1 for one direction (no earlier direction having -1) returns the curve of that direction's degree and knots that runs through the volume at the other two parameters (moved into the domain first), for every parameter. Without a parameter -1 it returns an empty curve.", "quantifier": "all volumes of degrees up to 7 and parameters", "why_tests_cant": "for-all nets, knots and parameters", "anchors": ["src/LNLib/Geometry/Volume/NurbsVolume.cpp: GetIsoCurve"]}
{"id": "C96", "title": "Knot insertion in a volume", "statement": "InsertKnot with an inner knot that is equal to or clearly apart from all others, so often that its multiplicity is at most degree+1, returns a valid volume with that knot added to the one direction, nothing else changed and the same point at every parameter. More often, it returns a volume whose numbers of knots and control points do not fit.", "quantifier": "all volumes of degrees up to 7, directions, knots", "why_tests_cant": "for-all parameters; loops over a three-dimensional net", "anchors": ["src/LNLib/Geometry/Volume/NurbsVolume.cpp: InsertKnot"]}
{"id": "C97", "title": "Knot refinement of a volume", "statement": "RefineKnotVector ought to return the volume with the given knots added. It never does: for every valid volume and every non-empty list of knots that could be inserted, in every direction, it writes outside the net of control points (the net is made one too small).", "quantifier": "all volumes, directions, non-empty lists of inner knots", "why_tests_cant": "the write past the end may go unnoticed in a run", "anchors": ["src/LNLib/Geometry/Volume/NurbsVolume.cpp: RefineKnotVector"]}
{"id": "C98", "title": "Reversing a volume", "statement": "Reverse in the U direction returns a valid volume with mirrored U knots whose point at the mirrored parameter is the old point (where the U parameter is no knot of multiplicity above the degree). In the V and W direction it reads outside the net of control points, for every valid volume.", "quantifier": "all volumes of degrees up to 7, parameters", "why_tests_cant": "for-all parameters; undefined behaviour may go unnoticed in a run", "anchors": ["src/LNLib/Geometry/Volume/NurbsVolume.cpp: Reverse"]}
{"id": "C99", "title": "Exchanging directions of a volume", "statement": "Swap of two different directions given in the order U, V, W returns the volume with the two directions exchanged: degrees, knots, and the point at exchanged parameters. Given in the other order it leaves the result argument as it was.", "quantifier": "all volumes, pairs of directions, parameters", "why_tests_cant": "for-all nets and parameters", "anchors": ["src/LNLib/Geometry/Volume/NurbsVolume.cpp: Swap"]}
{"id": "C100", "title": "Splitting a volume", "statement": "SplitAt at an inner parameter that is equal to or clearly apart from all knots, with multiplicity at most the degree, returns two valid volumes that meet at the parameter and have the points of the volume on their parts of the domain. At an end of the knots both results are the volume itself. At a knot of multiplicity degree+1 the left piece has too many knots for its control points.", "quantifier": "all volumes of degrees 1 to 7, directions, parameters", "why_tests_cant": "for-all parameters; loops over a three-dimensional net", "anchors": ["src/LNLib/Geometry/Volume/NurbsVolume.cpp: SplitAt"]}
{"id": "C101", "title": "Degree elevation of a volume", "statement": "ElevateDegree in a clamped direction with simple inner knots that are clearly apart returns a valid volume of the higher degree in that direction, each knot that many times more often, nothing else changed, and the same point at every parameter. With a repeated inner knot the returned knots have an unordered 0 at the end and the result cannot be evaluated.", "quantifier": "all volumes, directions, numbers of elevations up to degree 7", "why_tests_cant": "for-all parameters; loops over a three-dimensional net", "anchors": ["src/LNLib/Geometry/Volume/NurbsVolume.cpp: ElevateDegree"]}
{"id": "C102", "title": "Derivatives of a volume, the check and the parameters of a point", "statement": "ComputeVolumeRationalDerivatives ought to return the partial derivatives of the volume. In exact arithmetic no call of it ever returns, whatever the arguments: all its sums are zero and it divides by the weight 0; in binary64 it returns NaN. The check of a volume and the search for the parameters of a point, which call it, never return either.", "quantifier": "all volumes, orders, parameters, points", "why_tests_cant": "a universally quantified failure", "anchors": ["src/LNLib/Geometry/Volume/NurbsVolume.cpp: ComputeVolumeRationalDerivatives", "src/LNLib/Geometry/Volume/NurbsVolume.cpp: Check", "src/LNLib/Geometry/Volume/NurbsVolume.cpp: GetParamOnVolume"]}
{"id": "C103", "title": "Closed volumes", "statement": "IsClosed in a clamped direction, with weights clearly above zero, answers true if every line of control points in that direction is a curve whose ends agree within tolerance; if it answers true, each line has ends that agree within tolerance or last control points that repeat the first ones.", "quantifier": "all volumes of degrees up to 7", "why_tests_cant": "for-all nets", "anchors": ["src/LNLib/Geometry/Volume/NurbsVolume.cpp: IsClosed"]}
{"id": "C104", "title": "Sections of a volume", "statement": "Extract ought to return the surface at the parameter. It never sets the result: whenever it returns, the surface argument is as it was; for every valid volume and admissible inner parameter it returns true with it unchanged; at the ends of the knots it reads the degrees of the surface uninitialised.", "quantifier": "all volumes, directions, parameters", "why_tests_cant": "a universally quantified failure", "anchors": ["src/LNLib/Geometry/Volume/NurbsVolume.cpp: Extract"]}
{"id": "C105", "title": "Degree elevation of a surface", "statement": "ElevateDegree of a surface by at least one, up to degree 7, in a clamped direction with simple inner knots that are clearly apart, returns a valid surface of the higher degree in that direction, each of its knots that many times more often, the other direction unchanged, and the same point at every parameter pair. A number of times below one is refused. With a repeated inner knot the returned knots have an unordered 0 at the end and the result cannot be evaluated.", "quantifier": "all surfaces, both directions, numbers of elevations", "why_tests_cant": "for-all parameters; loops over all lines of the net", "anchors": ["src/LNLib/Geometry/Surface/NurbsSurface.cpp: ElevateDegree"]}
{"id": "C106", "title": "Knot removal from a surface", "statement": "RemoveKnot of a surface: when a single insertion has brought an inner knot of one direction to multiplicity equal to the degree, removing it once restores exactly the original surface; removing once a knot of that multiplicity drops one copy of it and the line of control points lying on the surface, and nothing else. Outside this case the promise fails: when the knot can be removed from some lines only, the others come back empty, with the knots of the last line, and evaluating the result reads outside the net.", "quantifier": "all surfaces of degrees up to 7, both directions, inner knots", "why_tests_cant": "for-all nets; undefined behaviour may go unnoticed in a run", "anchors": ["src/LNLib/Geometry/Surface/NurbsSurface.cpp: RemoveKnot"]}
{"id": "C107", "title": "Degree reduction of a surface", "statement": "ReduceDegree of a surface in a clamped direction with a single polynomial piece: it undoes an elevation by one exactly; when it reports success, every line of control points in the direction is a curve with the same ends and moved by at most 1/9999 (even degree) or 1/4999 (odd degree) at every parameter. With inner knots it always reports failure.", "quantifier": "all surfaces with weights clearly above zero, both directions", "why_tests_cant": "for-all parameters", "anchors": ["src/LNLib/Geometry/Surface/NurbsSurface.cpp: ReduceDegree"]}
{"id": "C108", "title": "Tessellation of a surface", "statement": "EquallyTessellate of a surface clamped in both directions returns the grid of 100 equally spaced parameters for each interval between distinct knots, without its end, in both directions, and last the corner with the largest parameters; each returned point is the point of the surface at its parameters. Hence the two edges with a largest parameter are not sampled, except for that corner.", "quantifier": "all surfaces clamped in both directions", "why_tests_cant": "unbounded number of knots; nested loops", "anchors": ["src/LNLib/Geometry/Surface/NurbsSurface.cpp: EquallyTessellate"]}
{"id": "C109", "title": "Closed surfaces", "statement": "IsClosed of a surface in a clamped direction, with weights clearly above zero, answers true if every line of control points in that direction is a curve whose ends agree within tolerance; if it answers true, each line has ends that agree within tolerance or last control points that repeat the first ones. The second case need not be closed: a strip folded to and fro is called closed.", "quantifier": "all surfaces of degrees up to 7, both directions", "why_tests_cant": "for-all nets", "anchors": ["src/LNLib/Geometry/Surface/NurbsSurface.cpp: IsClosed"]}
{"id": "C110", "title": "Parameters of a point on a surface", "statement": "GetParamOnSurface of an open, clamped surface of degrees at least 2, with points of length up to 2^400, always returns; the parameters lie in the domain or are one Newton step, of length within tolerance measured along the tangents, away from parameters in the domain. That step may leave the domain: for a long thin rectangle it returns u = -1/32, which the evaluation refuses. For every surface with a degree below 2 it throws.", "quantifier": "all surfaces and points", "why_tests_cant": "for-all points; iteration over 20 steps with data-dependent exits", "anchors": ["src/LNLib/Geometry/Surface/NurbsSurface.cpp: GetParamOnSurface"]}
{"id": "C111", "title": "Translational sweeps", "statement": "CreateGeneralizedTranslationalSweepSurface of two curves with weights clearly above zero returns the valid surface with the degrees and knots of the two curves and products of weights, whose point at (u,v) is the sum of the points of the two curves at u and v; so does the evaluation, provided no product of two weights is within tolerance of zero (with weights of 2^-10 it returns a point near the origin instead).", "quantifier": "all pairs of curves of degree up to 7, all parameters", "why_tests_cant": "for-all nets, weights and parameters", "anchors": ["src/LNLib/Geometry/Surface/NurbsSurface.cpp: CreateGeneralizedTranslationalSweepSurface"]}
{"id": "C112", "title": "Lofted surfaces", "statement": "CreateLoftSurface through sections of positive weights, all brought to the highest degree, with as many control points as the first section and its weights, and with own increasing parameters from 0 to 1, one per section, returns the valid surface over the knots of the first section that contains each section, read over these knots, as the iso curve at its parameter. Without own parameters it chooses the averages of the chord lengths and ignores the degree asked for. Outside the guard it fails: a list of own parameters of another length is refused by an exception, a later section with fewer control points is read out of bounds, the knots of later sections are ignored, and if the weights of a section differ from the others, the surface misses the section.", "quantifier": "all numbers of sections, degrees up to 7, parameters, correct linear solvers", "why_tests_cant": "for-all sections; the surface comes from solving linear systems", "anchors": ["src/LNLib/Geometry/Surface/NurbsSurface.cpp: CreateLoftSurface"]}
{"id": "C113", "title": "Surfaces blended from four boundary curves", "statement": "CreateCoonsSurface of four clamped curves over [0,1] (left, bottom, right, top, joined end to end within tolerance, end weights 1, knots clearly apart) returns a valid surface whose edge u=0 is the bottom curve and whose edge u=1 is the top curve reversed, and whose homogeneous point at (u,v) is the blend of the curves; if the ends do not meet it throws. The other two edges ought to be the left and right curves but are not: the edge v=0 is left(u)+(1-2u)(left(1)-left(0)), which for a left side bent once is off the left curve.", "quantifier": "all curves of degree up to 7, all parameters", "why_tests_cant": "for-all nets and parameters; degree elevation and knot merging in between", "anchors": ["src/LNLib/Geometry/Surface/NurbsSurface.cpp: CreateCoonsSurface"]}
{"id": "C114", "title": "Swung surfaces", "statement": "CreateSwungSurface ought to move the scaled profile along the trajectory. Along a straight trajectory from a to b it returns the valid surface whose point at (u,v) is the profile's point at u, in an orthonormal frame with one axis along the trajectory, moved to the trajectory's point at v and then by 1 along the z axis. So it is displaced: a profile starting at the origin does not start on the trajectory. The weights of the profile are dropped. For every trajectory the scale has no effect whatever, as long as the scaled weights are not within tolerance of zero.", "quantifier": "all profiles of degree up to 7, all trajectories (scale) or straight ones (formula), all scales and parameters, correct linear solvers", "why_tests_cant": "a universally quantified equality of outcomes; for-all parameters", "anchors": ["src/LNLib/Geometry/Surface/NurbsSurface.cpp: CreateSwungSurface"]}
{"id": "C115", "title": "Local cubic interpolation", "statement": "CubicLocalInterpolation of at least five points, where at each point the polygon turns before or after it and the averaged direction is not zero, answers true and returns a curve of degree 3 over equally spaced knots: each given point is a control point, the two control points between neighbours lie a third of the leg's length along unit tangents, whose directions are the averages of the neighbouring legs weighted by the turns. The curve starts at the first and ends at the last point. It ought to pass all points but does not: the inner knots are single, and for five points of a zigzag the curve passes the third one at no parameter. With two to four points it answers false. If the first five points lie on a line it divides zero by zero.", "quantifier": "all lists of 5 to 100000 points (any number for the tangents and control points)", "why_tests_cant": "for-all points; a statement about all parameters of the curve", "anchors": ["src/LNLib/Geometry/Curve/NurbsCurve.cpp: CubicLocalInterpolation", "src/LNLib/Algorithm/Interpolation.cpp: ComputeTangent"]}
{"id": "C116", "title": "Changing two neighbouring weights", "statement": "NeighborWeightsModification, where both control points k and k+1 influence the point at t, the other ones too, and the line through the two meets the line of motion at a clear angle, multiplies both weights by one positive number such that the point at t moves by exactly the distance asked for, away from the point of the remaining control points, as long as that does not take it beyond the line through the two. Outside the guard it fails: for a larger distance it answers true with negative weights, where one of the two has no influence it divides by zero, with the last control point as k it reads out of bounds, and the scale has no effect.", "quantifier": "all curves of degree up to 7, parameters, indices, distances", "why_tests_cant": "for-all curves and distances", "anchors": ["src/LNLib/Geometry/Curve/NurbsCurve.cpp: NeighborWeightsModification"]}
{"id": "C117", "title": "Normals carried along a curve", "statement": "ProjectNormal of an open clamped curve, if it returns, returns one unit vector per knot, each at right angles to the tangent at its knot and each the normalised projection of the one before onto the normal plane. For a straight segment not parallel to (1,-1,1) it returns at once the same normal everywhere, whatever angles are drawn. For a curve that ends where it began it never returns: it writes out of bounds or draws angles for ever. For a curve that starts in the direction (1,-1,1), or with derivative zero, it draws angles for ever.", "quantifier": "all curves of degree up to 7, all sequences of drawn angles, any number of draws", "why_tests_cant": "quantifies over all random draws; non-termination", "anchors": ["src/LNLib/Geometry/Curve/NurbsCurve.cpp: ProjectNormal", "src/LNLib/Mathematics/Math/XYZ.cpp: CreateRandomOrthogonal"]}
{"id": "C118", "title": "Testing for a derivative", "statement": "CanComputeDerivative of a clamped curve with weights clearly above zero answers true within tolerance of either end, and elsewhere answers whether the two difference quotients of width 10^-8 agree within tolerance; so at an inner vertex of a polyline it answers whether the slopes of the two legs agree within tolerance, and everywhere on a straight segment it answers true. It ought to answer true wherever the curve is smooth but does not: a parabola with second derivative 400 is refused at its vertex, and in binary64 a straight segment of length 1 at distance 1000 from the origin is refused because the quotients cancel.", "quantifier": "all clamped curves of degree up to 7, all parameters", "why_tests_cant": "for-all parameters; the smoothness of a curve is a statement about limits", "anchors": ["src/LNLib/Geometry/Curve/NurbsCurve.cpp: CanComputeDerivative"]}
{"id": "C119", "title": "The parameter of a point", "statement": "GetParamOnCurve with a point, for a clamped curve with weights clearly above zero, open or closed, always returns; the parameter lies in the domain or is one Newton step away from a parameter in the domain, a step of length below 1/10000 along the tangent. For a straight segment of length at least 1/1000, whose ends the library tells apart, the point at the parameter is within 1/10000 of the given point, or no point of the segment is nearer to it. The parameter may leave the domain: for a point beside the end of a segment it returns -1/20000, which the evaluation refuses. A point on the curve may be missed: for a point passed twice by a small loop of a cubic the returned parameter belongs to a point at distance 12.", "quantifier": "all clamped curves of degree up to 7, all points", "why_tests_cant": "for-all points; an iteration with data-dependent exits, and loops without a bound for closed curves", "anchors": ["src/LNLib/Geometry/Curve/NurbsCurve.cpp: GetParamOnCurve"]}
{"id": "C120", "title": "Adaptive tessellation", "statement": "Tessellate of a clamped curve of degree at least 2 with weights clearly above zero returns the points of the curve at increasing parameters, at least two, from the first knot to one within tolerance of the last; if the knots are equal or clearly apart, every knot is within tolerance of a parameter. For degree 1 it returns the control points. The polygon ought to stay near the curve but need not: for every height h there is a cubic which reaches 9/32 h to both sides of the straight line on which all returned points lie.", "quantifier": "all clamped curves of degree up to 7", "why_tests_cant": "for-all curves; recursion of depth 20 with data-dependent stops", "anchors": ["src/LNLib/Geometry/Curve/NurbsCurve.cpp: Tessellate"]}
{"id": "C121", "title": "The length of a curve", "statement": "ApproximateLength returns, for control points on one line, the distance of the first and the last one; for a polyline with corners (no line passes within 2/999999 of all vertices) it throws. With Simpson's rule, for every other clamped curve on [0,1] with weights clearly above zero it always ends, and if the speed of the curve lies between lo and hi the result lies between lo-(hi-lo)/15 and hi+(hi-lo)/15. The result ought to be the length but need not be: for a curve that runs back on itself along a line the distance of its ends is returned, and for a quadratic whose ends are 100 apart Simpson's rule returns 1.", "quantifier": "all clamped curves of degree up to 7", "why_tests_cant": "for-all curves; recursion with a data-dependent stop", "anchors": ["src/LNLib/Geometry/Curve/NurbsCurve.cpp: ApproximateLength"]}
{"id": "C122", "title": "The parameter of a length", "statement": "For every curve on which GetParamOnCurve with a length returns: it returned the last knot and the curve is shorter than the given length; or the part of the curve before the returned parameter, as SplitAt cuts it off and ApproximateLength measures it, has the given length up to 1/10000 (relatively); or halving ran into the ends of the domain between a parameter that is too short (or the first) and one that is too long (or the last). For a straight segment of length up to 10 and every length from 0 to its own the middle case happens, after at most 17 halvings. On longer segments it may fail: on one of length 2^20 the start is returned for 1/2. GetParamsOnCurve returns an additional cut just before the end of a segment whose length is a multiple of the given one, and never ends for a negative length.", "quantifier": "all curves and lengths", "why_tests_cant": "for-all curves and lengths; unbounded recursion and an unbounded loop", "anchors": ["src/LNLib/Geometry/Curve/NurbsCurve.cpp: GetParamOnCurve", "src/LNLib/Geometry/Curve/NurbsCurve.cpp: GetParamsOnCurve"]}
{"id": "C123", "title": "All parameters of a point", "statement": "GetAllParamsOnCurve of an open clamped curve with weights clearly above zero, unless the library recognises it as a circle around the point or its recognition of arcs fails, always returns at least one parameter; each lies in the domain or is one Newton step, of length below 1/10000 along the tangent, away from a parameter in the domain, and no two of them are within tolerance of each other. For a straight segment of length at least 1/100, whose ends the library tells apart, the point at each parameter is within 1/10000 of the given point, or no point of the segment is nearer to it. It ought to find all parameters but does not: of a cubic with a small loop through the given point it returns one of the two. On a closed curve it may throw: for a point beside the common end of a triangle the wrapped parameter is refused by the evaluation.", "quantifier": "all open clamped curves of degree up to 7, all points", "why_tests_cant": "for-all points; iterations with data-dependent exits", "anchors": ["src/LNLib/Geometry/Curve/NurbsCurve.cpp: GetAllParamsOnCurve"]}
{"id": "C124", "title": "Extending a curve", "statement": "Extend leaves a curve unchanged when the length is not clearly above zero or the curve is periodic. The natural extension of a clamped curve of degree p with weights clearly above zero at its end or its start keeps all control points and all knots but one end knot, adds p control points and p knots at one new parameter beyond that end, and, when the new parameter is clearly apart from the old end, gives a valid clamped curve that evaluates to the old points at the old parameters and beyond them to the Taylor polynomial of degree p of the curve at that end. A segment of length 1/100 to 100 is continued straight on and the added piece has the given length, at least 1/100, up to two millionths of one plus that length. The length is not met for a segment of length below 1/1000000: the search for it stops at once.", "quantifier": "all clamped curves of degree 1 to 7, all lengths", "why_tests_cant": "for-all curves and lengths; an iteration with data-dependent exits", "anchors": ["src/LNLib/Geometry/Curve/NurbsCurve.cpp: Extend"]}
{"id": "C125", "title": "Changing derivatives at given parameters", "statement": "ConstraintBasedModification with equal nonzero weights, an exact inverse of matrices, indices in range, parameters in the domain and orders up to the degree: when it returns, the curve keeps its degree, knots and weights; the fixed control points, and those out of reach of all the parameters, stay where they are; and each derivative asked for changes by exactly the vector given. With one constraint it returns whenever a control point that is not fixed has a clear influence. Outside the guard it fails: with all control points fixed its behaviour is undefined, and with unequal weights the change is wrong (for weights 1 and 3 the point moves by 3/2 instead of 1).", "quantifier": "all curves of degree up to 7, numbers of constraints, parameters, orders, vectors and sets of fixed control points", "why_tests_cant": "for-all constraints; the result comes from inverting a matrix", "anchors": ["src/LNLib/Geometry/Curve/NurbsCurve.cpp: ConstraintBasedModification"]}
{"id": "C126", "title": "Weighted and constrained least squares", "statement": "WeightedAndContrainedLeastSquaresApproximation with an exact linear solver, degree 1 to 7, chord length parameters and knots as the library computes them, indices in range and without repetition: a point or tangent with a negative weight is met exactly, one with weight zero is ignored, and among all curves of that degree and those knots that meet the former, the result minimises the weighted sum of the squared distances to the points and tangents with positive weight, when the positive weights are all 1. It needs that the data determine the curve and that the data to be met can be met whatever they are. It returns false when nothing has a positive weight or when there are at least as many data to meet as control points. Outside the guard it fails: with other positive weights it fits the curve to the points multiplied by their weights (the line for two points with weights 2 starts at twice the first point).", "quantifier": "all numbers of points, tangents and control points, degrees up to 7, positions, weights of either sign", "why_tests_cant": "for-all data and weights; optimality is a statement about all other curves", "anchors": ["src/LNLib/Geometry/Curve/NurbsCurve.cpp: WeightedAndContrainedLeastSquaresApproximation"]}
{"id": "C127", "title": "Least squares between fixed ends", "statement": "LeastSquaresApproximation with an exact linear solver, degree p from 1 to 7, at least three and at most (number of points + p) control points, chord length parameters and knots as the library computes them: when the inner parameters are below 1, clearly apart from the knots or equal to them, the values of the end functions are not small without being zero, and the inner parameters determine the inner control points, it returns true and a curve with weights 1 that starts in the first point, ends in the last, and among all curves of that degree, those knots and those ends minimises the sum of the squared distances from the other points to the curve points at their parameters. It returns false when no inner parameter lies in the support of the second basis function. Outside the guard it fails: with two control points, which it accepts, and with more than (number of points + degree) control points its behaviour is undefined.", "quantifier": "all numbers of points and control points, degrees 1 to 7, positions", "why_tests_cant": "for-all data; optimality is a statement about all other curves", "anchors": ["src/LNLib/Geometry/Curve/NurbsCurve.cpp: LeastSquaresApproximation", "src/LNLib/Mathematics/Utils/MathUtils.cpp: SolveLinearSystemBanded"]}
{"id": "C128", "title": "Approximating a net of points", "statement": "GlobalApproximation of a net of points first fits every row of the data and then every column of the control points this gives, with the least squares curves of LeastSquaresApproximation: if all these fits succeed it returns true, and if a fit of a row fails, after fits that succeed, it returns false. Whatever the linear solver does, a surface that is returned has the degrees asked for, controlPointsColumns+degreeU+1 and controlPointsRows+degreeV+1 knots, those of the first row and of the first column, a net of controlPointsRows times controlPointsColumns control points of weight 1, and its corners are the corners of the data. It ought to be a valid surface but is one only for as many rows as columns: the first index of the net belongs to the first parameter, whose knots are counted by columns, so for all other sizes the library's own check refuses every surface returned.", "quantifier": "all nets of points, degrees 1 to 7, sizes, and linear solvers", "why_tests_cant": "for-all nets and solvers", "anchors": ["src/LNLib/Geometry/Surface/NurbsSurface.cpp: GlobalApproximation", "src/LNLib/Algorithm/ControlPointsUtils.cpp: ToXYZ, ToXYZW"]}
{"id": "C129", "title": "Offset curves", "statement": "Offset by a distance within tolerance of zero returns the curve. TillerAndHanson: a returned curve keeps degree and knots, and every control point is the old one moved by exactly the distance along or against the unit normal at the parameter found for it, against it when that normal points clearly away from the first one (at a corner whose neighbours come out equal within tolerance, the neighbour instead); the result is left as it was only where two neighbouring moved legs are parallel within 1/999; it returns a curve whenever parameters and normals exist, the moved points differ and the legs are not parallel. All weights of the result are 1, whatever the weights were, so the offset of a circle is not a circle. PieglAndTiller: a returned curve comes from the points at the distance at max(2(p+1), 100 sqrt(|C''|/8)) even parameters, and if these are apart it passes through all of them at their chord length parameters. A curve that is straight at its start has no normal: both types divide by zero, in particular for every line segment.", "quantifier": "all curves with positive weights, distances, solvers", "why_tests_cant": "for-all curves; the tests look at one curve each and draw it", "anchors": ["src/LNLib/Geometry/Curve/NurbsCurve.cpp: Offset"]}
{"id": "C130", "title": "Removing repeated knots", "statement": "RemoveExcessiveKnots always ends: it fails only where counting knots or removing one fails. It keeps the degree and removes as many knots as control points: only repeated inner knots, one at a time, and when it ends no repeated inner knot of the result can be removed; a curve without any is left unchanged. Removal is not checked against the curve: whenever degree and multiplicity have the same parity something is removed, and a corner held by such a knot goes with it, so the curve passes elsewhere.", "quantifier": "all curves", "why_tests_cant": "termination for every input; the tests use removable knots", "anchors": ["src/LNLib/Geometry/Curve/NurbsCurve.cpp: RemoveExcessiveKnots"]}
{"id": "C131", "title": "The error bound of removing one knot", "statement": "ComputerRemoveKnotErrorBound, for an inner knot of multiplicity at most the degree that is clearly apart from the other knots, given by its last index, returns a number e >= 0 such that some curve without that knot is, at every parameter, within e of the curve in homogeneous coordinates. If it returns 0 the knot can be left out without any change, and for a knot inserted just before it does return 0. For simple knots of polygons and quadratic curves its exact value is given. Outside the guard it fails: for the first degree+1 indices, which it accepts, its behaviour is undefined, and the bound is not one for the points themselves: there is a curve with bound 1 such that every curve without the knot is somewhere farther than 1 away.", "quantifier": "all curves, degrees and inner knots", "why_tests_cant": "for-all curves and parameters; a bound on an infinite set of points", "anchors": ["src/LNLib/Geometry/Curve/NurbsCurve.cpp: ComputerRemoveKnotErrorBound"]}
{"id": "C132", "title": "Removing knots within an error bound", "statement": "RemoveKnotsByGivenBound throws unless there are as many errors as parameters, at least one, and the bound is positive. What it returns is left of the curve after removing knots one at a time, as many control points as knots, and each error it reports is the one given or within the bound. GlobalApproximationByErrorBound returns what is left, in this sense, of the polygon of the points after raising its degree to the one asked for. The error ought to stay within the bound but need not: errors of zero are reported while the curve moves by more than the bound at the parameter itself, and the approximation misses a given point by twice the bound. The last inner knot is never removed, however large the bound, and degree 1, which is accepted, always throws.", "quantifier": "all curves, parameters, errors and bounds", "why_tests_cant": "for-all curves; histories of removals of any length", "anchors": ["src/LNLib/Geometry/Curve/NurbsCurve.cpp: RemoveKnotsByGivenBound", "src/LNLib/Geometry/Curve/NurbsCurve.cpp: GlobalApproximationByErrorBound"]}
{"id": "C133", "title": "Loops that end for every input", "statement": "GetKnotSpanIndex, RemoveKnot, RemoveExcessiveKnots, ElevateDegree, RemoveKnotsByGivenBound and GlobalApproximationByErrorBound come to an end for every input whatsoever, valid or not: they return, throw, or fail on an access or a division, but their while loops do not run for ever.", "quantifier": "all inputs, valid or not", "why_tests_cant": "termination for every input", "anchors": ["src/LNLib/Algorithm/Polynomials.cpp: GetKnotSpanIndex", "src/LNLib/Geometry/Curve/NurbsCurve.cpp: RemoveKnot", "src/LNLib/Geometry/Curve/NurbsCurve.cpp: RemoveExcessiveKnots", "src/LNLib/Geometry/Curve/NurbsCurve.cpp: ElevateDegree", "src/LNLib/Geometry/Curve/NurbsCurve.cpp: RemoveKnotsByGivenBound", "src/LNLib/Geometry/Curve/NurbsCurve.cpp: GlobalApproximationByErrorBound"]}
{"id": "C134", "title": "Fitting points with a conic arc", "statement": "FitWithConic, for a start and an end index with at least one point between, when it answers true yields one control point for the arc: either the lines along the two tangents meet ahead of the start point and behind the end point, the control point lies there, and for every inner point the evaluation of the arc returned a point within the error, the point of the conic where that is at a parameter of the arc; or the tangents are parallel to each other and to the chord within tolerance, and the result is the straight segment with weight 1. In the second case the inner points are not looked at: with both tangents along the chord any points are accepted, however far away. For an inner point inside the triangle of the tangents, in their plane, the computation divides zero by zero; in binary64 it then answers true with a weight that is not a number.", "quantifier": "all lists of points, windows, tangents and error bounds", "why_tests_cant": "for-all points; the accuracy promised is for every inner point", "anchors": ["src/LNLib/Geometry/Curve/NurbsCurve.cpp: FitWithConic"]}
{"id": "C135", "title": "Conic arcs through two points with tangents", "statement": "Without inner points FitWithConic yields (for points the library tells apart and nonzero tangents) the control points of arcs with the tangents asked for: one control point ahead of the start and behind the end on both tangents, or three, the first on the start tangent, the last on the end tangent and the middle one, of weight 1, dividing the segment between them in proportion to their distances; or a straight segment, only when start tangent, end tangent and chord are parallel, or the tangents meet in one of the end points, within tolerance. The weight for a corner with equal legs makes the arc circular: it lies strictly between 0 and 1 and all points of the arc have one distance from one centre. The end tangent need not be respected: with the start tangent along the chord and the end tangent at right angles to it, a straight segment is returned.", "quantifier": "all points and tangents", "why_tests_cant": "for-all points and tangents; being circular is a statement about all points of the arc", "anchors": ["src/LNLib/Geometry/Curve/NurbsCurve.cpp: FitWithConic", "src/LNLib/Algorithm/Interpolation.cpp: ComputerWeightForRationalQuadraticInterpolation", "src/LNLib/Geometry/Curve/BezierCurve.cpp: ComputerMiddleControlPointsOnQuadraticCurve"]}
{"id": "C136", "title": "Fitting points with a cubic", "statement": "FitWithCubic for two neighbouring points, when it answers true, yields two control points of weight 1, one ahead of the start along its tangent, one behind the end along its tangent; inside the list the first one lies at a third of the tangent scaled by the ratio of the chord to the chord before, the last one at a third of the tangent scaled by the ratio of the chord after to the chord. With points between it ought to fit a cubic to them but never does: when the points are not all within tolerance of each other, whatever is returned is a straight segment. A window that starts further into the list than it is long is accepted without looking at its points; of three points, the middle one away from the plane of the chord and start tangent, the segment is accepted for every error bound, zero included; with the middle one in that plane, and the end tangent too, it divides zero by zero.", "quantifier": "all lists of points, windows, tangents and error bounds", "why_tests_cant": "for-all points; the accuracy promised is for every inner point", "anchors": ["src/LNLib/Geometry/Curve/NurbsCurve.cpp: FitWithCubic"]}
{"id": "C137", "title": "Area of a surface by Simpson's rule", "statement": "ApproximateArea with Simpson's rule reparametrises the surface over the unit square and then subdivides; for every valid surface of degrees 1 to 7 whose denominator does not vanish the subdivision ends, and the value lies between any two bounds of the area element (the length of the cross product of the two first partial derivatives) over the unit square. For every parallelogram over the unit square it is the area. Outside: the reparametrisation leaves a surface alone when only one of its two ranges is [0,1]; then the part with the other parameter up to 1 is measured, and of a parallelogram over [0,1] x [0,k] the library returns the k-th part of the area.", "quantifier": "all surfaces; all parallelograms; all k from 1 to 1000", "why_tests_cant": "for-all surfaces; termination of the subdivision for every surface", "anchors": ["src/LNLib/Geometry/Surface/NurbsSurface.cpp: ApproximateArea", "src/LNLib/Algorithm/Integrator.cpp: Simpson"]}
{"id": "C138", "title": "Triangle meshes of a surface", "statement": "Triangulate on a grid of resolutionU x resolutionV samples, both at least 2, of a valid surface with positive weights whose parameter ranges contain [0,1]: every vertex is the point of the surface at the parameters listed for it, which form the regular grid of the unit square; there are 2 (resolutionU-1) (resolutionV-1) distinct triangles of three distinct existing vertices; no edge is run through twice in the same direction, and an edge run through in one direction only lies on one of the four sides of the grid, so the mesh is an oriented surface with border; the triangles of parameters cover the unit square; the texture indices repeat the faces. Outside: the grid is always over [0,1], whatever the range of the surface: of a parallelogram over [0,1] x [0,k] only the k-th part is meshed; a resolution of one divides zero by zero, and in binary64 yields vertices that are not numbers.", "quantifier": "all surfaces, all resolutions", "why_tests_cant": "for-all resolutions: adjacency, orientation and cover of meshes of every size", "anchors": ["src/LNLib/Geometry/Surface/NurbsSurface.cpp: Triangulate", "src/LNLib/include/LNObject.h: LN_Mesh"]}
{"id": "C139", "title": "Signed distance to a surface", "statement": "For a valid surface with positive weights ComputeSignedDistanceFunction returns the distance from the point to the surface point at the parameters the search for them returned, if these lie in the domain; it is positive if the point lies on the side the surface normal there points to, or behind it by no more than the tolerance 10^-6 (1 + height), negative otherwise; where the normal vanishes it is positive. For open clamped surfaces of degrees at least 2 it therefore returns plus or minus the distance to some point of the surface, unless the search leaves the surface. Over every flat rectangle of sides 1 to 2^20, of degrees 2, it is the signed height of every point above or below the rectangle at a height from 10^-5 to 2^20. Outside: it throws for surfaces of degree 1 in a direction, and when the search leaves the surface.", "quantifier": "all surfaces, all points", "why_tests_cant": "for-all points: which side is reported", "anchors": ["src/LNLib/Geometry/Surface/NurbsSurface.cpp: ComputeSignedDistanceFunction", "src/LNLib/Geometry/Surface/NurbsSurface.cpp: GetParamOnSurface"]}
{"id": "C140", "title": "Bezier patches of a surface", "statement": "For every valid clamped surface of degrees at least 1 whose knots are equal or clearly apart and whose inner knots have multiplicity at most the degree, DecomposeToBeziers ends and returns one patch for each pair of neighbouring distinct knots in u and in v, row by row; each is a valid surface on Bezier knots of the same degrees, and at (s,t) in the unit square it has the homogeneous point of the surface at the parameters that divide the two knot intervals in the ratio s and t. Outside: an inner knot of multiplicity degree+1 makes the library write before the first row of a patch, and knots that are not clamped make it read beyond the last row of control points.", "quantifier": "all surfaces, all numbers of knots", "why_tests_cant": "for-all knot vectors and multiplicities in both directions", "anchors": ["src/LNLib/Geometry/Surface/NurbsSurface.cpp: DecomposeToBeziers"]}
{"id": "C141", "title": "Area by the default rule", "statement": "ApproximateArea with the rule of Gauss and Legendre, its default: let S be the reparametrised surface, valid, clamped, of degrees 1 to 7, with denominator nowhere zero, knots equal or clearly apart, and inner multiplicities at most the degree. For all tables of nodes inside (-1,1) and weights the call ends and its value is the product rule applied, on every cell between neighbouring distinct knots, to the area element of S at the nodes mapped into that cell. With the 24 nodes and weights of the library, as decimals, the value lies between lo A (1 - 10^-39) and hi A for all bounds 0 <= lo, hi of the area element over the domain, A being the area of the domain. For every parallelogram over [0,1]x[0,k] it is the area, up to that relative error. Outside: on a surface with an inner knot of multiplicity degree+1 it writes outside its arrays.", "quantifier": "all surfaces, all tables of nodes and weights; all parallelograms, all k from 1/1000 to 1000", "why_tests_cant": "for-all surfaces: the value depends on derivatives of every patch at every node", "anchors": ["src/LNLib/Geometry/Surface/NurbsSurface.cpp: ApproximateArea", "src/LNLib/Geometry/Surface/NurbsSurface.cpp: DecomposeToBeziers", "src/LNLib/Algorithm/Integrator.cpp: GaussLegendreAbscissae", "src/LNLib/Algorithm/Integrator.cpp: GaussLegendreWeights"]}
{"id": "C142", "title": "Length by the default rule", "statement": "ApproximateLength with the rule of Gauss and Legendre, its default: for every valid clamped curve on [0,1] of degree 2 to 7 with weights clearly above zero, no line within 2/999999 of all control points, knots equal or clearly apart, and inner multiplicities below the degree (or 2 for degree 2), and for all tables of nodes inside (-1,1) and weights, the call ends and its value is the sum of the rule applied to the speed of the curve on every interval between neighbouring distinct knots. With the 24 nodes and weights of the library, as decimals, the value lies between lo (1 - 10^-39) and hi for all bounds 0 <= lo, hi of the speed. Outside: for a cubic with a triple inner knot, one of whose points is more than 38 away from its start, it returns 6.", "quantifier": "all curves, all tables of nodes and weights", "why_tests_cant": "for-all curves: the value depends on derivatives of every piece at every node", "anchors": ["src/LNLib/Geometry/Curve/NurbsCurve.cpp: ApproximateLength", "src/LNLib/Geometry/Curve/NurbsCurve.cpp: DecomposeToBeziers", "src/LNLib/Algorithm/Integrator.cpp: GaussLegendreAbscissae", "src/LNLib/Algorithm/Integrator.cpp: GaussLegendreWeights"]}
