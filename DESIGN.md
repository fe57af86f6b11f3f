# A Rocq model of LNLib

This directory holds a machine-checked model of the numerical core of LNLib
(`/repo`, C++) and proofs of the properties listed in `properties.jsonl`.
`MANIFEST.json` maps every property to the exact theorem names.

## 1. How C++ is modelled

| C++ | model |
|---|---|
| a function call | a total Gallina function returning `res A` |
| normal return | `Ok a` |
| `throw` (VALIDATE_ARGUMENT..., `std::invalid_argument`, `std::out_of_range`, `vector(negative)`) | `Throw` |
| undefined behaviour (out-of-range `operator[]`, read of an uninitialised array element) | `UB` |
| division by zero, square root of a negative (a non-finite double appears) | `NonFin` in the exact instance; ordinary IEEE arithmetic in the float instance |
| a `while` loop that does not finish | `OutOfFuel`; theorems either exclude it, or prove it for every fuel |
| `int`, `size_t` | unbounded `Z`; indices that would be negative are `UB` (machine overflow of `int` is not modelled) |
| `std::vector<T>` | `list T` with `Z` indices; every access is bounds-checked and gives `UB` outside |
| uninitialised C arrays `double a[8]` | `list (option A)`, all `None`; reading a `None` is `UB` |
| `for` / `while` loops | the combinators `for_up`, `for_down`, `while_` of `Base.v`, with the loop body written as in the source |
| output parameters | extra results |
| template parameter `T` of the Bezier / B-spline classes | a type with the vector operations class `Vec`; theorems for every type satisfying the vector laws, instances `XYZ` and `XYZW` |

Arithmetic is abstracted by the class `Num` (`Num.v`). Every model function is
written once, for any `Num A`, and used at two instances:

* `R` (Coq reals): exact arithmetic. All universally quantified theorems about
  numerical results are stated here. Rounding, overflow and NaN are therefore
  *not* covered by these theorems. This is the largest gap between model and
  code and is stated in the trusted base.
* `float` (Coq primitive IEEE-754 binary64 floats): bit-exact double
  arithmetic. Used to run the model (tests against the expected values found in
  `/repo/tests`, in `Check*.v`), for `_refuted` witnesses, and for a few
  theorems about all doubles (comparisons).

Tolerances (`1e-6` etc.) are part of the model, exactly as in the code.

## 2. Layout (`rocq/theories`)

* `Base.v` outcome monad, checked lists, loops, and the total-correctness
  calculus `wp` used in every proof.
* `Num.v` number class and its instances; `Vec.v` vector class and laws.
* `M_*.v` the model, one file per C++ file; no proofs. Each definition cites
  the file and lines it models.
* `Spec.v` independent mathematical specifications (Bernstein polynomials,
  Cox-de Boor basis, curves as sums, ...). Short; no reference to the model.
* `P_*.v` proofs.
* `Check*.v` executable sanity checks at the float instance (tests, not claims).
* `Properties*.v` the property theorems only: each is closed by `exact` and
  followed by `Print Assumptions`, next to a non-vacuity `Example`.

## 3. Plan per property

Proof technique keys: *(I)* loop invariant + `wp`, *(A)* algebra (`ring`,
`field`, `nra`), *(M)* list/multiset induction, *(D)* differential calculus with
the standard library's `derivable_pt_lim`, *(B)* blossom argument: the de Boor scheme with distinct arguments
is symmetric and multi-affine, hence determined by its values on consecutive
knots, *(X)* execution of the float model for a witness.

| id | modelled code | how |
|---|---|---|
| C01 | MathUtils comparisons | case analysis over R; floats for NaN / infinity (X) |
| C02 | Factorial, Binomial, pascal table | (I) against Pascal's recursion |
| C03 | Horner, Horner 2D | (I) |
| C04 | Bernstein, AllBernstein | (I) with closed form `C(p,i) t^i (1-t)^(p-i)` |
| C05 | BezierToPowerMatrix | (I),(A) |
| C06 | GetKnotSpanIndex | (I) with a decreasing measure for the binary search |
| C07 | GetKnotMultiplicity | (M) |
| C08, C09, C11 | BasisFunctions, AllBasisFunctions | (I) against Cox-de Boor; sum/sign by induction |
| C10 | OneBasisFunction | (I) under a separation hypothesis, (X) for the refutation |
| C12, C13 | BasisFunctionsDerivatives, ...FirstOrderDerivative | (I),(D) |
| C14, C15, C16 | BezierCurve.h, BezierSurface.h | (I),(A) |
| C17..C20 | BsplineCurve.h | (I),(D) |
| C21, C22 | BsplineSurface.h | (I),(D) |
| C23, C24 | NurbsCurve::GetPointOnCurve, ComputeRationalCurveDerivatives | (I),(D) Leibniz |
| C25, C26 | NurbsCurve::InsertKnot | (I) to iterated Boehm steps, then (B) |
| C27 | GetPointOnCurveByCornerCut | (I),(B) |
| C28 | RefineKnotVector | (I),(B) |
| C29 | DecomposeToBeziers | non-termination by induction on fuel; (X); (B) for the positive part |
| C30 | RemoveKnot | (I),(A); (X) |
| C31 | ElevateDegree | (I) for Bezier curves; (X) |
| C32 | ReduceDegree | (I),(A) |
| C33..C38 | Reverse, SplitAt, Extract, Rescale/Reparametrize, CreateTransformed, Merge | (I),(A),(B) |
| C39 | KnotVectorUtils | (M) |
| C40, C41 | Interpolation parametrisations, AverageKnotVector | (I) |
| C42 | Matrix4d | (A) |
| C43 | Integrator::Simpson | (A) |
| C44..C46 | Projection, Intersection | (A) |
| C47..C49, C68 | Octree, OctreeCollector (`M_Octree.v`) | induction on built trees, with the octant geometry up to the tolerance; induction on insertion histories |
| C50, C51 | CreateArc, CreateLine | (A), trigonometry |
| C52..C54, C57 | NurbsSurface Swap, Reverse, GetIsoCurve, InsertKnot, RefineKnotVector; MathUtils matrix helpers | (I),(A) |
| C55 | surface insertion | reduction to the curve theorems |
| C56 | GlobalInterpolation with the Eigen solver as a parameter | Schoenberg-Whitney: zeros of splines counted by sign changes (`P_SW.v`) |
| C58 | GetBoundingBox | loop invariants over boxes, hull property for the samples; (X) corner outside, read past the knots |
| C59 | XYZ | (A) |
| C60 | SplitArc, CreateOpenConic | direct |
| C69..C73 | NURBS surface point, derivatives, Normal, GetUVTangent, Curvature | bivariate quotient rule by nesting the univariate one; Lagrange identity and the discriminant as a sum of squares for curvatures; (X) tolerances, low degrees |
| C74..C78 | CreateBilinearSurface, CreateCylindricalSurface, CreateRuledSurface, CreateRevolvedSurface, NonUniformScaling | a surface is a curve of curves, so the arc theorem (C60) lifts to cylinders and, by linearity of homogeneous rotation, to surfaces of revolution; ruled surfaces by degree elevation and refinement to common knots; (X) axis length, profile near the axis, weights other than 1 |
| C79..C85 | Curvature, Normal, Torsion, ControlPointReposition, WeightModification, Warping, Flattening, Bending | derivatives from C24; the new control points enter the point linearly; (X) unit-speed shortcuts, wrong basis function, division by zero at the end |
| C86..C93 | ToUnclampCurve, IsClamp, ToClampCurve, IsClosed, IsLinear, EquallyTessellate, IsArc, CreateCubicHermite, IsPeriodic | blossoms for unclamping; hull property for straightness; knot multiplicities; explicit cubic basis at double knots; shift of evenly spaced basis functions; (X) ToClampCurve, IsClosed |
| C94..C104 | NurbsVolume: all functions | a volume is a family of lines of control points in the one direction, so that the curve theorems (insertion, splitting, elevation, reversal) lift through `volume_lines`; derivatives, Check and GetParamOnVolume by an invariant that all sums are zero; (X) RefineKnotVector, Reverse in V and W, derivatives, Extract |
| C105..C111 | NurbsSurface ElevateDegree, RemoveKnot, ReduceDegree, EquallyTessellate, IsClosed, GetParamOnSurface, CreateGeneralizedTranslationalSweepSurface | the curve theorems lifted to all lines of the net along one direction (`lines_changed_ok`, `lines_back` for round trips); the grid by loop invariants; the search by invariants over the segments and the Newton iteration; the sweep by multiplying out the double sum; (X) RemoveKnot with lines of different outcome, folded strips, parameters outside the domain, degree below 2, small products of weights |
| C112, C113 | NurbsSurface CreateLoftSurface, CreateCoonsSurface | loft: interpolation of every line of control points, then the sections by exchanging the sums; Coons: every step (elevation, merged knots, ruled surfaces, swap, sum of nets) keeps the points of its surface, so the result is a blend of curves; (X) own parameters of another length, fewer control points, other knots and weights in later sections; the edges v=0 and v=1 of the blend |
| C114 | NurbsSurface CreateSwungSurface | two runs with different scales related step by step (`rel`); the straight trajectory by computing the frame and the two-point interpolations; (X) the scale, the displacement by (0,0,1) |
| C115..C117 | NurbsCurve CubicLocalInterpolation, NeighborWeightsModification, ProjectNormal (`M_Curve3.v`); the random angles of ProjectNormal are an arbitrary sequence, its retry loop runs on fuel | (I) for tangents and control points; a point not on the curve by the signs of the basis functions; the weights by the projective geometry of the two lines; ProjectNormal by an invariant of one pass, non-termination by induction on fuel |
| C118..C120 | NurbsCurve CanComputeDerivative (`M_Curve3.v`), GetParamOnCurve, Tessellate (`M_Curve4.v`; the Newton iteration and the wrapping of parameters run on fuel) | one-sided derivatives by derivatives of the two neighbouring spans; the search by an invariant of the Newton loop; tessellation by induction on the depth, flatness by midpoints; (X) outside the guards |
| C121, C122 | NurbsCurve ApproximateLength, GetParamOnCurve and GetParamsOnCurve by length (`M_Curve4.v`; recursion and loops on fuel; the Gauss tables, fixed in C142, and the Clenshaw-Curtis rule are arbitrary parameters) | speeds bounded on every closed span (weights positive there), so that the recursion of Simpson's rule ends; halving by induction, for every curve relative to the library's own splitting and measuring, absolutely for segments; (X) folded curves, blind samples, long segments, negative lengths |
| C123 | NurbsCurve GetAllParamsOnCurve (`M_Curve4.v`; the wrapping of parameters of closed curves runs on fuel) | the smallest of the sampled distances is a local minimum, so that there is a start; invariants of the Newton loop and of the loop that collects the results; (X) missed parameters, closed curves |
| C124 | NurbsCurve Extend (`M_Curve3.v`; theorems on the natural extension, the tangent and arc branches are modelled without theorems) | Bernstein form of a Taylor polynomial (sums of binomial coefficients), locality of basis functions; the damped Newton search on a segment by an invariant with three stages; (X) slow segments |
| C125 | NurbsCurve ConstraintBasedModification (`M_Curve3.v`; Eigen's inverse is a parameter, assumed exact on regular matrices: `exact_inverse` in `Spec19.v`) | the change of the control points is B^T (B B^T)^-1 D, so B times it is D; basis derivatives turn that into derivatives of the curve; (X) all points fixed, unequal weights |
| C126 | NurbsCurve WeightedAndContrainedLeastSquaresApproximation (`M_Fit2.v`; Eigen's solver is a parameter, assumed exact on regular matrices: `exact_solver` in `Spec6.v`) | the loop fills the rows with the basis functions and derivatives of a permutation of the data (invariant over the sorted tangents); the system is the one of Lagrange multipliers, regular when the data determine the curve and the data to be met are independent; convexity gives the minimum; (X) weights other than 1 |
| C127 | NurbsCurve LeastSquaresApproximation, MathUtils SolveLinearSystemBanded (`M_Fit3.v`; Eigen's sparse LU is a parameter, assumed to succeed and to be exact on regular matrices: `exact_lu` in `Spec21.v`) | invariant of the loop over the points: the windows (start, end) of the inner functions are the parameters whose span meets the support; so the band holds the matrix of the normal equations and the right hand sides are complete; the matrix is regular when the inner parameters determine the inner control points; convexity gives the minimum; (X) two control points, and more control points than points and degrees |
| C128 | NurbsSurface GlobalApproximation, ControlPointsUtils ToXYZ and ToXYZW (`M_Fit4.v`; Eigen's sparse LU is an arbitrary parameter) | partial correctness of every step of LeastSquaresApproximation, whatever the decomposition returns, gives the shape of each curve; loops over rows and columns; (X) the knots of the first direction are counted by columns, the net by rows |
| C129 | NurbsCurve Offset with OffsetByTillerAndHanson and OffsetByPieglAndTiller (`M_Offset.v`; Eigen's solver is an arbitrary parameter, the number of iterations of the parameter search is fuel, sample numbers beyond the range of int are not modelled) | partial correctness of both passes of the polygon construction, using the cases of ComputeRays (C45), and its totality under separation; sampling by a loop invariant, then interpolation (C56) and the knots it yields. Refuted: weights are lost, straight starts have no normal |
| C130 | NurbsCurve RemoveExcessiveKnots (`M_Curve2.v`) | each round that changes the curve drops one control point, so fuel of their number suffices; invariant for the sizes; a failure is one of a removal from what is left by then. Refuted: a corner is removed |
| C131 | NurbsCurve ComputerRemoveKnotErrorBound (`M_Bound.v`) | the points found from both sides are those of a curve which, after inserting the knot again, differs in one control point; a basis function is at most 1. Refuted: first indices, distance of points |
| C132 | NurbsCurve RemoveKnotsByGivenBound, GlobalApproximationByErrorBound (`M_Bound.v`) | invariant of the rounds (partial-correctness calculus of `P_Ls4.v`): chain of removals, errors within the bound. Refuted by computation in binary64: the errors reported and the points to be met; symbolically: last knot, degree 1 |
| C133 | the functions named there | the predicate `ends` (not out of fuel) is closed under the control structures (`P_Ends.v`); each while loop has a measure. In RemoveKnotsByGivenBound it is (control points) * (knots + 1) + (knots not given up) |
| C134 | NurbsCurve FitWithConic (`M_FitConic.v`) | partial-correctness calculus through the loops over the inner points; the line through the shoulder of a conic is evaluated at its exact point (`P_FitConic.v`). Refuted: chord case, points in the plane, success with NaN by computation in binary64 |
| C135 | NurbsCurve FitWithConic, BezierCurve ComputerMiddleControlPointsOnQuadraticCurve, Interpolation ComputerWeightForRationalQuadraticInterpolation (`M_FitConic.v`, `M_Interp.v`) | case analysis of the intersections; the weight is the cosine of the half angle at the corner, so the conic is circular (`P_FitConic2.v`). Refuted: end tangent ignored |
| C136 | NurbsCurve FitWithCubic (`M_FitConic.v`) | the points are appended to as many points at the origin, so every parameter used is zero, no inner point contributes and the arms have length zero (`P_FitCubic.v`). Refuted: windows, far points, points in the plane |
| C137 | NurbsSurface ApproximateArea, Simpson branch, and Integrator::Simpson on two parameters (`M_Area.v`) | every rectangle's Simpson value is a mean of the area element times its size, so a rectangle of small size passes the test and the stack drains (`P_Area.v`); derivatives by the theorem of C70, the parallelogram computed (`P_Area2.v`). Refuted: the second range not [0,1]. The Gauss branch is C141, Clenshaw-Curtis is a parameter |
| C138 | NurbsSurface Triangulate without Delaunay (`M_Mesh.v`) | loop invariants for vertices and faces (`P_Mesh.v`); edges by uniqueness of row and column, cover by barycentric coordinates in a cell (`P_Mesh2.v`). Refuted: ranges other than [0,1], resolution one |
| C139 | NurbsSurface ComputeSignedDistanceFunction (`M_Mesh.v`) | composition of the theorems of C110 (search), evaluation and normal (`P_Mesh3.v`); exact height over flat rectangles (`P_Mesh4.v`). Refuted: degree one, search leaving the surface |
| C140 | NurbsSurface DecomposeToBeziers (`M_Area.v`) | one pass for both directions over an abstract store of points; the blossom lemmas of C29 hold on every line of the net (`P_SDec.v`); the two passes compose by exchanging the sums of the tensor product (`P_SDec2.v`). Refuted by computation: inner knots of multiplicity degree+1, unclamped knots |
| C141, C142 | the Gauss-Legendre branches of NurbsSurface ApproximateArea (`M_Area.v`) and NurbsCurve ApproximateLength (`M_Curve4.v`), the tables of Integrator.cpp (`M_Gauss.v`; as the decimals of the source over R, as doubles for the refutations) | inside a cell the derivatives of a Bezier piece are those of the whole times the widths of the cell, by locality, the chain rule for affine maps and uniqueness of derivatives (`P_Gauss.v`, `P_Gauss2.v`); widths telescope, the weights sum to 2 - 8/10^40 (`P_Gauss3.v`). The rule itself is in `Spec27.v`. No claim that the rule is near the integral for smooth integrands. Refuted by computation: inner knots of multiplicity degree+1 (surface) and degree (curve) |

Not expressible in the model: wall-clock performance, memory consumption,
thread interactions (the library has no concurrency), and the accuracy of
Eigen's factorisations (external).

## 4. Trusted base

* Coq 8.16.1's kernel, including its primitive 63-bit integers and binary64
  floats (`PrimInt63`, `PrimFloat`) and the virtual machine (`vm_compute`) that
  runs the float instance.
* What `Print Assumptions` lists. Every theorem in `Properties*.v` is followed
  by this command. Only these appear, all from Coq's standard library:
  * `ClassicalDedekindReals.sig_not_dec`, `ClassicalDedekindReals.sig_forall_dec`
    and `FunctionalExtensionality.functional_extensionality_dep`: Coq's real
    numbers.
  * `Classical_Prop.classic`: brought in by `nsatz`, by the standard library's
    calculus and by the zero-counting argument for splines (`P_SW.v`).
  * the primitive float and integer operations and types (`PrimFloat.float`,
    `PrimFloat.add`, ...), listed for theorems about the float instance.
    These are evaluated by the kernel; no axiom about them is used.
* No axiom is declared, no kernel check is switched off, nothing is admitted.
* The reading of C++ into the model: section 1, and the comment at each
  definition. Its faithfulness is argued, and tested in `Check*.v` against the
  values of the library's own unit tests.

### What is modelled

| C++ file | model | functions |
|---|---|---|
| Algorithm/MathUtils | M_MathUtils, M_Fit3 | comparisons, binomial, matrix helpers, banded systems |
| Algorithm/Polynomials | M_Polynomials | all but the Eigen-based ones |
| Algorithm/KnotVectorUtils | M_Knots | all |
| Algorithm/Interpolation | M_Interp | parametrisations, knots, tangents |
| Algorithm/Intersection, Projection, Integrator | M_Geom, M_Area, M_Gauss | all but the Chebyshev series and Clenshaw-Curtis |
| Math/XYZ, XYZW, UV, Matrix4d | M_XYZ, M_Matrix | all used by the rest |
| Algorithm/Octree | M_Octree | construction, both result sets, all three searches (the recursion depth is fuel) |
| Geometry/BezierCurve, BezierSurface | M_Bezier | all |
| Geometry/BsplineCurve, BsplineSurface | M_Bspline | all |
| Geometry/NurbsCurve | M_NurbsCurve, M_Curve2, M_Conic, M_Fit, M_Shape, M_Curve3, M_Curve4, M_Fit2, M_Fit3, M_Offset, M_Bound, M_FitConic | fitting with conics and cubics, removal of knots within an error bound, offsets, least squares between fixed ends, parameters of points, lengths (Simpson, Gauss; Clenshaw-Curtis is a parameter), parameters by length, adaptive tessellation, tests for derivatives, local cubic interpolation, neighbouring weights, projected normals, evaluation, derivatives, knot insertion, refinement, removal, decomposition, degree changes, split, merge, extract, reparametrisation, lines, arcs, conics, interpolation, curvature, torsion and normals, control point and weight editing, warping, flattening, bending, clamping, tessellation, tests for closed, straight, circular and periodic curves, cubic Hermite curves, constraint based modification, weighted and constrained least squares |
| Geometry/NurbsSurface | M_Surface, M_Surface2, M_Fit, M_Fit4, M_Area, M_Mesh | triangulation on a grid, signed distance, area (Simpson, Gauss; Clenshaw-Curtis is a parameter), decomposition into Bezier patches, least squares approximation, knot removal, degree elevation and reduction, tessellation, closedness, parameters of a point, translational sweep, Coons, loft and swung constructors, evaluation, knot insertion and refinement, iso curves, swap, reverse, reparametrisation, bilinear, cylindrical, ruled and revolved constructors, scaling, rational derivatives, normal and curvature, interpolation |
| Geometry/NurbsVolume | M_Volume | all |

Eigen's solver is a parameter of the model of the interpolation functions. The
theorems assume of it that it solves regular systems exactly (`exact_solver`
in `Spec6.v`, `exact_lu` in `Spec21.v`), and a solver with this property is given.

### What is not modelled

Rounding, except where a theorem is about the float instance. Clenshaw-Curtis
quadrature, the remaining surface constructors, Delaunay triangulation, Voronoi, FFT.
