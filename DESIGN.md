# Formal model of frackit: design

Source under study: `/repo` (richardhaslam/frackit, C++17 header library plus a thin
Python layer).  The code is read as text; nothing is built or executed.  Everything
here is checked by Coq 8.16.1 (`rocq/`, logical root `Verif`).

## 1. What is modelled, and how

Frackit consists of

1. *bookkeeping code* (sampling status, sampling strategies, multi-geometry sampler,
   entity sets, constraints matrix, constraint evaluation, network builders, writers,
   Python classes and bindings).  It is modelled by small total Gallina functions over
   lists, `N`/`Z` and std++ `gmap`; stateful classes become a record and a `step`
   function; exceptions, undefined behaviour and endless loops are explicit outcomes
   (`Ok`/`Throw`/`UB`/`Diverge` in `Base.v`).  Machine integers wrap explicitly where the
   code can reach the bound.  The iteration order of `std::unordered_map` is left
   unspecified: theorems quantify over all orders.
2. *analytic geometry* (points ... polygons, samplers, distances, containment tests,
   intersections, angles).  The functions are written once, over an abstract number type
   with the operations the code uses (class `Num`).  Instantiating it with Coq's reals `R`
   gives the objects the theorems are about (idealised arithmetic: no rounding).
   Instantiating it with Coq's primitive IEEE binary64 floats gives a runnable model that
   is used for witnesses of findings on real doubles, and about which C98, C99 and
   C103-C110, C112-C120 prove error bounds for all inputs of moderate size (by Flocq).  The
   trigonometric functions are a second class (`Trig`); on doubles the theorems quantify
   over all implementations with a stated accuracy (`TrigDblSpec.v`).
3. *the OpenCascade kernel* (Boolean operations, BRep distances, bounding boxes, curve
   lengths).  It is not modelled; it appears as a record of functions (`kernel`,
   `cyl_kernel`, `shape_kernel`, `occ`, `surface`, `curve`, ...) over which the theorems
   quantify, with the assumed contract spelled out as a hypothesis in the statement.  For
   the conversion of geometries to shapes (C85) the constructors used (`gp_Ax2`,
   `gp_Elips`, `BRepBuilderAPI_MakeEdge`, ...) are modelled after their documentation.
4. *the overload resolution of pybind11* (C77-C81): overloads are tried in the order of
   registration, first without and then with implicit conversions; the registered
   overloads are data, one entry per `m.def`/`cls.def`.

Modelled headers: everything in `frackit/` except the items listed in section 5.  Of the
example programs in `appl/`, the sampling loops and the calls of the builders are modelled
(C86-C89).

## 2. File layout

`theories/<Area>Model.v` - definitions only, each citing file and lines of `/repo`;
`theories/<Area>Spec.v` - the small independent specification used in statements;
`theories/<Area>Proofs.v` (and further files named after the object treated) - lemmas;
`theories/<Area>Examples.v` - concrete cases that meet the hypotheses of the theorems;
`theories/<Area>Props.v` - property theorems only, each closed by `exact` and followed by
`Print Assumptions`.

Naming: `cNN_...` proves property CNN; suffix `_partial` marks a theorem weaker than the
full property (the comment says what is missing); suffix `_refuted` marks a proof that the
faithful model violates the property (a finding, with witness).

`seeded/LOG.jsonl` records the wrong programs the theorems were tested against: each line
names the edited definition, the edit, the claim that breaks, the theorems that failed and
those that were tightened because too few failed.

## 3. Plan per property

| id | property | files | proof method | status |
|----|----------|-------|--------------|--------|
| C01 | Sampling status counts exactly the registered successes | Status, StatusPrint | induction over call histories; explicit wrap-around; witnesses by computation | proved |
| C02 | finished() says exactly whether every target has been reached | Status, StatusPrint | induction over call histories; explicit wrap-around; witnesses by computation | partial |
| C03 | The total count is the sum of the per-id counts | Status, StatusPrint | induction over call histories; explicit wrap-around; witnesses by computation | partial |
| C04 | Resetting restores a fresh status | Status, StatusPrint | induction over call histories; explicit wrap-around; witnesses by computation | partial |
| C05 | The status table can always be printed and stays aligned | Status, StatusPrint | induction over call histories; explicit wrap-around; witnesses by computation | partial |
| C06 | Round-robin sampling is fair | Strategy | invariant on the index; counting over runs by induction | proved |
| C07 | A sampling strategy only ever returns registered ids | Strategy | invariant on the index; counting over runs by induction | proved |
| C08 | A sampled geometry comes from the sampler registered under the reported id | Strategy | invariant on the index; counting over runs by induction | proved |
| C09 | Replacing the sampling strategy keeps the sampler usable | Strategy | invariant on the index; counting over runs by induction | partial |
| C10 | An entity set behaves like a map from id to the list of inserted entities | EntitySet | refinement to a map from ids to lists | proved |
| C11 | Entities of a second type are rejected under an id and rejection has no effect | EntitySet | refinement to a map from ids to lists | proved |
| C12 | Counting and exporting cover every entity exactly once | EntitySet | refinement to a map from ids to lists | proved |
| C13 | Pairwise constraint evaluation is the conjunction of the active constraints | Constraints | case analysis, induction on the pieces of an intersection | partial |
| C14 | Constraints against sets are pairwise constraints | Constraints | case analysis, induction on the pieces of an intersection | proved |
| C15 | Equi-dimensional intersections are rejected unless allowed | Constraints | case analysis, induction on the pieces of an intersection | partial |
| C16 | The constraints matrix enforces every relation registered for an id | Matrix, Loop | invariants over runs of the rejection loop | proved |
| C17 | A failing addConstraints has no effect | Matrix, Loop | invariants over runs of the rejection loop | partial |
| C18 | Rejection sampling delivers a pairwise admissible network with the requested counts | Matrix, Loop | invariants over runs of the rejection loop | proved |
| C19 | Relations registered in one direction are still enforced | Matrix, Loop | invariants over runs of the rejection loop | partial |
| C20 | The Python constraints matrix enforces every registered relation | PyConstraints | induction on lists; witnesses | partial |
| C21 | The Python constraints evaluation handles lists on either side | PyConstraints | induction on lists; witnesses | partial |
| C22 | Network builders keep dimensions consistent and sub-domain ids unique | Builder, BuilderAttr | invariants over histories with failing kernel operations | proved |
| C23 | network() delivers a network only after a successful build | Builder, BuilderAttr | invariants over histories with failing kernel operations | proved |
| C24 | Every fragment of a built network is attributed to the entity it stems from | Builder, BuilderAttr | invariants over histories with failing kernel operations | partial |
| C25 | Entities of different sub-domains keep different primary indices | Builder, BuilderAttr | invariants over histories with failing kernel operations | partial |
| C26 | Sub-domain ids are kept intact | Builder, BuilderAttr | invariants over histories with failing kernel operations | partial |
| C27 | The default tolerance belongs to the geometry being built | Builder, BuilderAttr | invariants over histories with failing kernel operations | partial |
| C28 | Intersection edges are grouped into disjoint physical groups | Writer, WriterNet, WriterBuild | loop invariants of the exploration of compounds | partial |
| C29 | Physical groups written to the .geo file refer to each fragment exactly once | Writer, WriterNet, WriterBuild | loop invariants of the exploration of compounds | proved |
| C30 | Physical indices of entities in different sub-domains do not collide in the output | Writer, WriterNet, WriterBuild | loop invariants of the exploration of compounds | partial |
| C31 | Interval overlap test has no false negatives and is tolerance-bounded | Num, Vec, Math | real algebra; trigonometry; primitive floats for witnesses | partial |
| C32 | Bounding-box pre-check never hides an intersection | Num, Vec, Math | real algebra; trigonometry; primitive floats for witnesses | proved |
| C33 | Cross and box product obey their algebraic laws | Num, Vec, Math | real algebra; trigonometry; primitive floats for witnesses | proved |
| C34 | rotate is a rotation | Num, Vec, Math | real algebra; trigonometry; primitive floats for witnesses | proved |
| C35 | Degrees and radians convert back and forth | Num, Vec, Math | real algebra; trigonometry; primitive floats for witnesses | proved |
| C36 | makeOrthogonalVector returns a non-zero orthogonal vector | Num, Vec, Math | real algebra; trigonometry; primitive floats for witnesses | proved |
| C37 | isParallel recognises parallel vectors of either orientation | Num, Vec, Math | real algebra; trigonometry; primitive floats for witnesses | partial |
| C38 | Directions are unit vectors | Num, Vec, Math | real algebra; trigonometry; primitive floats for witnesses | partial |
| C39 | Line projection is the closest point | Lin, Box | real algebra | proved |
| C40 | Planes carry an orthonormal right-handed basis and project orthogonally | Lin, Box | real algebra | proved |
| C41 | Segment containment is sound and complete | Lin, Box | real algebra | proved |
| C42 | Boxes describe the axis-aligned set given by their bounds | Lin, Box | real algebra | proved |
| C43 | Points generated on circles and ellipses lie on them | Round, Ell, Arc, Cyl, Area | trigonometry; Riemann integrals of section lengths (C70) | proved |
| C44 | An ellipse arc contains exactly the points between its end points | Round, Ell, Arc, Cyl, Area | trigonometry; Riemann integrals of section lengths (C70) | partial |
| C45 | Disk containment and parametrisation agree | Round, Ell, Arc, Cyl, Area | trigonometry; Riemann integrals of section lengths (C70) | partial |
| C46 | Cylinders, hollow cylinders and spheres contain the points of the solid they describe | Round, Ell, Arc, Cyl, Area | trigonometry; Riemann integrals of section lengths (C70) | partial |
| C47 | Triangle containment is the area test | Poly, PolyBridge, Quad, Tight | barycentric coordinates; shoelace sums by induction on the corners | partial |
| C48 | Polygon convexity flag is right | Poly, PolyBridge, Quad, Tight | barycentric coordinates; shoelace sums by induction on the corners | partial |
| C49 | Polygon area and containment are right for convex polygons | Poly, PolyBridge, Quad, Tight | barycentric coordinates; shoelace sums by induction on the corners | partial |
| C50 | Quadrilateral predicates are right | Poly, PolyBridge, Quad, Tight | barycentric coordinates; shoelace sums by induction on the corners | partial |
| C51 | Point samplers sample within the given domain | Samp, SampPoly, SampConvex, SampPy, SampMore | induction on streams of draws and on fuel; permutations; sums of edges | proved |
| C52 | The Python point samplers sample within the given domain | Samp, SampPoly, SampConvex, SampPy, SampMore | induction on streams of draws and on fuel; permutations; sums of edges | partial |
| C53 | The disk sampler produces valid disks | Samp, SampPoly, SampConvex, SampPy, SampMore | induction on streams of draws and on fuel; permutations; sums of edges | proved |
| C54 | The polygon sampler produces closed planar polygons around the sampled centre | Samp, SampPoly, SampConvex, SampPy, SampMore | induction on streams of draws and on fuel; permutations; sums of edges | proved |
| C55 | The polygon sampler rejects inadmissible distributions and only those | Samp, SampPoly, SampConvex, SampPy, SampMore | induction on streams of draws and on fuel; permutations; sums of edges | partial |
| C56 | Quadrilateral sampling terminates | Samp, SampPoly, SampConvex, SampPy, SampMore | induction on streams of draws and on fuel; permutations; sums of edges | partial |
| C57 | The Python polygon sampler terminates and uses positive dimensions | Samp, SampPoly, SampConvex, SampPy, SampMore | induction on streams of draws and on fuel; permutations; sums of edges | partial |
| C58 | Point-to-segment distance is the minimum distance | Dist, Len | real optimisation; integrals of speeds (C72) | proved |
| C59 | Distance to boundaries is the minimum over the edges | Dist, Len | real optimisation; integrals of speeds (C72) | proved |
| C60 | Collinear segments intersect in their common part | Int, SegInt, FaceInt, LineInt | case analysis relative to the contract of the kernel; convexity | partial |
| C61 | Planar geometries that share a point have a non-empty intersection | Int, SegInt, FaceInt, LineInt | case analysis relative to the contract of the kernel; convexity | partial |
| C62 | Intersection angles lie in [0, pi/2] and are symmetric | Ang | real algebra, acos; induction on pieces | partial |
| C63 | Default tolerances are positive and scale with the geometry | Dist, Len | real optimisation; integrals of speeds (C72) | partial |
| C64 | Plane-line and plane-plane intersections are classified by the tolerances | Int, SegInt, FaceInt, LineInt | case analysis relative to the contract of the kernel; convexity | partial |
| C65 | The network lists every registered sub-domain with all of its fragments | Builder, BuilderAttr | invariants over histories with failing kernel operations | partial |
| C66 | Building a network has defined behaviour | Builder, BuilderAttr | invariants over histories with failing kernel operations | partial |
| C67 | The written compound has each sub-shape exactly once | Writer, WriterNet, WriterBuild | loop invariants of the exploration of compounds | proved |
| C68 | The sampling status warns exactly when a target is exceeded | Status, StatusPrint | induction over call histories; explicit wrap-around; witnesses by computation | proved |
| C69 | The writers accept exactly the networks of supported dimensions | Writer, WriterNet, WriterBuild | loop invariants of the exploration of compounds | proved |
| C70 | Reported areas and volumes are those of the described sets | Round, Ell, Arc, Cyl, Area | trigonometry; Riemann integrals of section lengths (C70) | proved |
| C71 | The tolerance of containment tests on planar polygons is a distance | Poly, PolyBridge, Quad, Tight | barycentric coordinates; shoelace sums by induction on the corners | partial |
| C72 | computeLength returns the length of the curve | Dist, Len | real optimisation; integrals of speeds (C72) | partial |
| C73 | Points on the boundary are recognised | Round, Ell, Arc, Cyl, Area | trigonometry; Riemann integrals of section lengths (C70) | proved |
| C74 | The search for the part of a face on a line covers the whole face | Int, SegInt, FaceInt, LineInt | case analysis relative to the contract of the kernel; convexity | partial |
| C75 | Sampled polygons and quadrilaterals are convex | Samp, SampPoly, SampConvex, SampPy, SampMore | induction on streams of draws and on fuel; permutations; sums of edges | partial |
| C76 | The extents of sampled polygons follow the drawn lengths | Samp, SampPoly, SampConvex, SampPy, SampMore | induction on streams of draws and on fuel; permutations; sums of edges | partial |
| C77 | computeDistanceToBoundary of the Python module returns the distance to the boundary | PyBind, PyTab | tables of overloads as data, resolution as a function; computation and case analysis | partial |
| C78 | The functions of the Python module act on the class of the object | PyBind, PyTab | tables of overloads as data, resolution as a function; computation and case analysis | partial |
| C79 | contains(point, eps) called from Python uses the tolerance given | PyBind, PyTab | tables of overloads as data, resolution as a function; computation and case analysis | partial |
| C80 | Point, Vector, Direction and Circle construct what their arguments say | PyBind, PyTab | tables of overloads as data, resolution as a function; computation and case analysis | partial |
| C81 | computeDistance, computeLength, computeArea and computeVolume of the Python module | PyBind, PyTab | tables of overloads as data, resolution as a function; computation and case analysis | partial |
| C82 | Geometries behind pointers behave like the geometries | Dyn | case analysis on classes and names | partial |
| C83 | Intersections of cylinder surfaces and planar faces | CylInt | case analysis relative to the contract of the kernel | partial |
| C84 | Intersections of face shapes | FaceFace | fold invariants over the explored sub-shapes | partial |
| C85 | Shapes have the points of the geometries | Shape | points of a shape as an inductive predicate; real algebra | partial |
| C86 | Example networks satisfy their constraints | App | invariants of the sampling loops; the theorems on constraints (C06-C19) and builders (C24-C27) | partial |
| C87 | Networks grown around a tunnel are connected | App | invariants of the sampling loops; the theorems on constraints (C06-C19) and builders (C24-C27) | partial |
| C88 | Both versions of example 4 use the constraints stated | App | invariants of the sampling loops; the theorems on constraints (C06-C19) and builders (C24-C27) | partial |
| C89 | Networks written by the examples consist of the accepted entities | App | invariants of the sampling loops; the theorems on constraints (C06-C19) and builders (C24-C27) | proved |
| C90 | Sub-shape functions list every sub-shape exactly once | Sub | invariant of all programs (acyclic graph of shapes, parts are frozen); induction over the search and over programs | partial |
| C91 | Edges along which two faces coincide | Sub | invariant of all programs (acyclic graph of shapes, parts are frozen); induction over the search and over programs | partial |
| C92 | A compound has what was added to it | Sub | invariant of all programs (acyclic graph of shapes, parts are frozen); induction over the search and over programs | partial |
| C93 | Translated shapes | Sub | invariant of all programs (acyclic graph of shapes, parts are frozen); induction over the search and over programs | partial |
| C94 | Failed additions of geometries | PyNet | refinement: equality of steps with those of the builder of C22 and invariant on dimensions; counterexamples by computation | partial |
| C95 | Network builders in Python | PyNet | refinement: equality of steps with those of the builder of C22 and invariant on dimensions; counterexamples by computation | partial |
| C96 | Constraints on disks, quadrilaterals, polygons and cylinder surfaces mean what they say | Eval | case analysis of the exact intersections (C61, C83), angles (C62) and boundary distances (C60, C74), combined with the settings (C19) | partial |
| C97 | The network of example 1 has the spacing the constraints ask for | Ex1 | composition of C86 (loop), C96 (decision) and C65 (corners); a run of 30 passes with exact distances as example | partial |
| C98 | Bounding boxes in double precision hide no intersection | Dbl | rounding errors by Flocq through the specification of primitive floats; computation for the counterexamples | partial |
| C99 | Distances, equality and directions of points in double precision | Dbl | rounding errors by Flocq through the specification of primitive floats; computation for the counterexamples | partial |
| C100 | Geometry in one and two dimensions is that of space with zero coordinates added | Low | Coordinates are lists, so that one definition serves each dimension; zeros are appended to compare with space. Over the reals each operation is shown to commute with appending zeros and the theorems about space are transferred; in double precision a sum that starts from +0 is never -0, so that adding the products of the zeros changes nothing. | partial |
| C101 | Constraints on faces of OpenCascade mean what they say | ShEval | the dispatch of the constraints to the functions of C62, C84 and C96 for face shapes; the kernel of OpenCascade is a record of functions, and the theorem is conditional on what it reports about sets of points | partial |
| C102 | Distances to boundaries are the smallest distances to the points of the boundary | Bnd | the minimum over the parts of the boundary; OpenCascade is a record of functions and the theorem is conditional on the distances it computes | partial |
| C103 | Points sampled in double precision lie in the domain | Dom | the formula of libstdc++ for uniform numbers on the doubles of PrimFloat; rounding is monotone, so that a product with a number below one stays below the width, and the square root of a rounded square is exact | partial |
| C104 | Lines, planes and segments decide in double precision by the distance | LinDbl | forward error bounds of the operations of the model on the doubles of PrimFloat (Flocq): every operation adds at most 2^-53 of a bound on its operands; the comparison of squares is decided by the lengths | partial |
| C105 | Areas decide in double precision whether a figure contains a point | TriDbl | differences of the exact corners have a relative error, so that the error of an area depends on the size only; induction over the sum of the areas; the real theory of convex figures (C47-C50) and a Lipschitz bound of the area give the points near the figure | partial |
| C106 | Round bodies decide in double precision which points they contain | RndDbl | the error of the projected point from C104, then the squares with their rounding errors are compared; monotonicity of rounding for the inner radius | partial |
| C107 | Intersection angles and the minimum angle in double precision | AngDbl | the error of the product of the normals, and 1 - cos(a - b) <= |cos a - cos b| for acute angles; the accuracy of the trigonometric functions on doubles is a hypothesis (TrigDblSpec), shown to be consistent by rounding the real functions | partial |
| C108 | Frames, points of curves and sampled points in double precision | PtDbl | error analysis of the chain of operations by Flocq, with magnitudes relative to the size M of the coordinates; a lower bound on the non-zero components (multiples of a power of two do not cancel to something smaller) excludes underflow in the cross products | proved |
| C109 | Boundaries, lengths and their constraints in double precision | BdDbl | the error of the distance to a segment (C104) for every edge, minima and disjunctions of those over the list of edges, and evaluation of the constraints | proved |
| C110 | Disks, ellipses and circles contain points in double precision | DkDbl | error analysis of the scalar products, the quotients of squares and their sum (mixed relative and absolute errors of Flocq), combined with the error of the points of an ellipse (C108) | partial |
| C111 | The .geo file says what the network is | GeoText | round trip: the text is cut into tokens and read by a small reader of the language of Gmsh, by induction over the groups and members; the decimal digits by arithmetic on integers and powers of ten and two (Flocq) | partial |
| C112 | Angles and arcs of ellipses in double precision | AgDbl | error analysis of the two scalar products and their quotient (Flocq); the arctangent of perturbed quotients by the addition formula; the branches by the signs of sine and cosine | partial |
| C113 | Intersections of segments, planes and lines in double precision | IxDbl | case analysis of the algorithms over the error bounds of C104 (segments and planes contain points) and C110 (disks); for parallel segments the vector product of nearly equal directions | partial |
| C114 | Rotations and sampled disks in double precision | SdDbl | error analysis of the entries of the rotation matrix and of the scalar products with separate bounds for the terms (Flocq); for the coordinate axes the entries are exact but for the sines and cosines; exact rotations keep distances, so that the errors of successive rotations add up | proved |
| C115 | Sampled polygons and quadrilaterals in double precision | SpDbl | the order of doubles is that of their values, so that sorting and taking out the least and largest value are carried over to the reals; induction over the list of differences and over the chain of edges (one rounding each), with the rotations of C114; middle of the box by monotonicity of rounding | proved |
| C116 | The checks of debug builds accept valid input | Chk | the conditions of the assertions as Boolean functions; the center of a convex polygon is on the inner side of the first edge (weighted sum over the fan of triangles); the closing of sampled polygons by the chain of edges of C115 with one more step; counterexamples by computation | partial |
| C117 | The points that samplers draw are spread over their domain | Rng | the linear congruential engine of libstdc++ on Z and its uniform numbers on doubles; 16807 is a primitive root modulo the prime 2147483647 (powers computed for the prime factors of 2147483646); error analysis of the quotient by Flocq; the short vector (-218, 573, -777) of the dual lattice of triples for the planes | partial |
| C118 | Quadrilaterals of the strike, dip and length sampler have their lengths in double precision | QdDbl | error analysis of the two rotations and of the sums with the centre by Flocq, from the bounds of C114 and C115 on rotations; the comparison of doubles for the lengths; computed witness 2^57 away from the origin | partial |
| C119 | Draws from the distributions of a sampler end and stay in the range of the distribution | Draw | the distributions of libstdc++ 13 on the engine of C117; termination from the single cycle of the engine (four states in a row are accepted, which covers all residues of the number of values used); integer division for the shares; error analysis of the polar method by Flocq (a coordinate is 0 or at least 2^-53, so that the radius is at least 2^-53) and a bound on ln 2 | partial |
| C120 | Distributions are made from parameters that they accept | DrawMake | the preconditions of the constructors of the distributions in libstdc++ 13 as undefined behaviour; comparisons of doubles and the oddness of rounding by Flocq | partial |

## 4. Scope of the theorems, and findings

A finding is a place where the code, as modelled, does not do what the property says; each
has a theorem with suffix `_refuted` and a concrete witness.  All other notes delimit what
was proved.

* **C01** Counts are size_t, i.e. modulo 2^64.
* **C02** Proved for histories in which each id gets its target before other use; finding: getCount(id)/resetCounter(id) of an id without target inserts it and makes finished() throw out_of_range.
* **C03** Holds below 2^31; finding: std::accumulate with int initial value truncates the sum.
* **C04** Finding: resetCounters() keeps the rejected counter.
* **C05** Findings: NaN to int conversion before the first sample or without targets, length_error when progress reaches 100000 %, ratio column one character too wide when 99.995..100 is rounded up.
* **C08** Sampler draws are streams; the strategy is arbitrary as long as it returns registered ids.
* **C09** Findings: setSamplingStrategy after addGeometrySampler forgets the registered ids: the next draw throws; an id may then be registered twice.
* **C13** Full conjunction proved for every answer of the geometry kernel as long as at least one constraint is set and intersections have a boundary distance; finding: with equi-dimensional intersections allowed, the boundary distance constraint makes evaluate throw.
* **C15** Finding: a constraints object without active constraint accepts equi-dimensional intersections.
* **C17** Finding: the overload for a list of pairs keeps the pairs registered before the failing one.
* **C18** Loop of example 3 over arbitrary draws, arbitrary geometry checks and iteration orders.
* **C19** Finding: entities of the second set that are added later are not checked.
* **C20** Finding: only sets that occur as first id of some relation are looked at.
* **C21** Finding: a list as second argument raises TypeError.
* **C22** Arbitrary shapes, dimension function and histories.
* **C23** Arbitrary, possibly failing, kernel operations.
* **C24** Proved for every result of the kernel operations if ids are below 2^31 and no shape occurs twice; finding: an entity registered for two sub-domains is left unsplit in one of them.
* **C25** Finding: primary indices collide if the confinement removes entities.
* **C26** Finding: ids are passed through int; ids from 2^31 on throw std::out_of_range or are filed under another id.
* **C27** Finding: the default tolerance of a first build is kept after clear().
* **C28** Groups are disjoint, non-empty and contain only shared edges; all of them for plain networks of FORWARD faces. Finding: a shared edge that is first written in a direction none of the fragments has is in no group (IsEqual versus IsSame).
* **C29** For shapes as OpenCascade explores them ([consistent]).
* **C30** Finding: indices of different sub-domains collide in the .geo file if an entity has no fragment left.
* **C31** Over the reals. Findings: the test is not symmetric if the gap equals eps, and excludes touching intervals for eps = 0 although the documentation includes the boundary.
* **C32** Over the reals; that the boxes computed by OpenCascade enclose the shapes is assumed.
* **C33** Over the reals.
* **C34** Over the reals.
* **C35** Over the reals, with M_PI = pi.
* **C36** Over the reals.
* **C37** Findings: vectors of opposite orientation are not recognised (angularEps is tested where angle is meant); in double arithmetic (1,1,1) is not parallel to itself.
* **C38** Proved over the reals; finding: in double arithmetic vectors shorter than about 1e-162 or longer than 1e154 have an infinite or zero direction.
* **C39** Over the reals.
* **C40** Over the reals.
* **C41** Over the reals, for segments of positive length.
* **C42** Over the reals.
* **C43** Over the reals.
* **C44** Over the reals. Findings: a full ellipse arc whose source is not on the major axis contains only its source; the end angles of a short arc across an axis coincide and the arc runs around the whole ellipse; contains() with a tolerance above 1e-7 throws for points between 1e-7 and the tolerance.
* **C45** Over the reals. Finding: getPoint() adds the radial offset to the rim point instead of the center; the result is outside the disk for every positive radial parameter.
* **C46** Over the reals; exact for eps -> 0. Finding: a contained point can be sqrt 2 times eps away from the cylinder.
* **C47** Over the reals the explicit overload is exact for triangles with non-zero area, for the absolute value of reals. Findings: the overload with default tolerance reads corner(3); if the unqualified abs resolves to the integer version, points outside are contained; in double arithmetic points of the triangle are rejected for the tolerance Precision::confusion().
* **C48** Convex polygons with distinct neighbouring corners are recognised. Findings: the angle at the second corner is never tested, self-intersecting polygons and polygons with a straight first corner are taken for convex.
* **C49** Proved over the reals for convex polygons with any number of corners. Finding in double arithmetic: for the default tolerance points of a thin rhombus are rejected, because the squared tolerance is below the rounding error of the areas.
* **C50** Proved for convex quadrilaterals over the reals. Findings: area and containment are wrong for concave quadrilaterals; in double arithmetic the default tolerance rejects points of a thin rhombus.
* **C51** The samplable points are exactly those of the domain.
* **C52** Finding: the Python samplers for cylinders and hollow cylinders draw from [0,r] where the C++ ones draw from [0,r^2]: points outside of the domain are sampled for radii below one, and not all points of the domain are reached for radii above one.
* **C55** Findings: the hundredth number of corners drawn is ignored; negative dip lengths are never rejected, since the counter of the strike lengths is tested; zero lengths are accepted.
* **C56** Finding: the deprecated sampler never returns once a length below the minimum was drawn. The Python version does.
* **C57** Proved up to 16 corners. Findings: the loop over the number of corners is endless; the dip length is not checked; with 29 corners the sampler can fail with a name error.
* **C58** Over the reals, for segments of positive length. The error of at most 1e-7 times the length is attained up to a factor of 2 (c58_tolerance_is_visible).
* **C59** Over the reals, up to the tolerance of the distance to segments (C58). Boxes and cylinder surfaces for any kernel distance to faces and circles.
* **C60** Proved for segments whose end points are on the other segment or at least eps away, given that the kernel splits the segments correctly. Finding: collinear segments that touch yield a segment of length zero instead of a point.
* **C61** Proved for disks, convex quadrilaterals and convex polygons in general position, given that the kernel computes the parts of segments on faces correctly. Findings: a common point of two parts that are points is dropped; two parts that are touching segments yield a segment of length zero; faces in one plane and quadrilateral/polygon pairs throw.
* **C62** Proved over the reals for planes, planar faces, cylinder surfaces and face shapes. Findings: a planar face and a curved face shape get the angle at the wrong parameter; the smallest angle along an arc is missed between the five samples; an empty list of pieces yields the largest number; in double arithmetic the angle between equal planes can be NaN.
* **C63** Findings: the default tolerance of polygons not recognised as convex throws; geometries without an overload (cylinders, hollow cylinders, triangles, ellipse arcs) have a constant tolerance.
* **C64** Finding: for lines that are parallel within the angular tolerance the answer depends on the support point of the line.
* **C65** [sub_domains_ok] in c24_contained_partial; finding: the same shape registered under two ids is listed under one only.
* **C66** Finding: a contained network without entities is built with an indeterminate entity dimension.
* **C69** For contained networks whose maps have an entry for every sub-domain id, as built by the builders (C24).
* **C70** Areas and volumes as Riemann integrals of section lengths and areas.
* **C71** Refuted: the squared tolerance is compared with an area. What holds is the bound by the overhang, see also c49_tolerance and c49_near.
* **C72** Finding: the length of every ellipse that is not a circle is too small, by more than 20 percent if the axes differ by a factor of 100.
* **C73** Over the reals, for explicit tolerances.
* **C74** Proved for disks and quadrilaterals, and for all pairs of faces for which an algorithm exists except disks more than twenty times as large as the polygon. Findings: there the common part is missed; polygons and lines are not supported.
* **C75** Proved if the components of the edges in strike and dip direction are zero or not below the tolerance of 1e-6. Finding: smaller components are taken for zero whatever the size of the polygon, and the polygons are not convex.
* **C76** The upper bounds hold for all draws, and the lower ones if the components of the edges are zero or not below the tolerance of 1e-6. Finding: in small polygons, whose components are taken for zero in the sort of the edges, the extent can be 75 percent of the length drawn (c76_small_refuted).
* **C77** Finding: the binding calls computeDistance; inside of a geometry the result is zero. Right if the closest point lies on the boundary. OpenCascade is an oracle.
* **C78** Finding: for elliptical arcs the overloads of the full ellipse are called. Proved for all other classes.
* **C79** Finding: an int in second place is taken for the flag of the overload with default tolerance.
* **C80** Findings: lists of wrong length are cut or padded silently; a single keyword argument fails; no one-dimensional vector from a number.
* **C81** Finding: distances between points and lines raise a TypeError. Arcs: see C78.
* **C82** Proved for disks and quadrilaterals. Findings: all other classes are rejected at run time, null pointers and classes of the user with the name Disk are dereferenced.
* **C83** Proved relative to the boolean operations of OpenCascade (hypothesis splits). Findings: faces tangent to the surface inside their boundary give an empty intersection; concave faces give an exception.
* **C84** The first four are relative to the boolean operations of OpenCascade; the others hold whatever they return. Finding: faces that touch inside of both boundaries give an empty intersection.
* **C85** The constructors of OpenCascade are modelled after their documentation; faces with straight edges are convex. Findings: full ellipse arcs that do not start on the major axis, and ellipses and disks whose minor axis is the longer one, cannot be converted.
* **C86** Example 3 is modelled after the Python version. Proved for all streams for which the loop ends. Finding: example 2 asks for lengths uniformly distributed between 0.5 and 0.1, which is undefined.
* **C87** Connectivity is relative to exact geometric operations. Findings: 501 candidates are tried; the message is also printed on success at the 500th; entities for which nothing was found can be isolated, contrary to the README.
* **C88** Finding: the C++ program sets the spacing of the second set twice and never that of the third; in both versions the spacing of set 2 is smaller than that of set 1, the comment says larger.
* **C89** Relative to the boolean operations of OpenCascade.
* **C90** The data structure of OpenCascade is modelled from its documentation. Finding: shared sub-shapes are listed once for every way they are part of the shape; the vertices of a box are listed six times.
* **C91** Findings: the seam of a closed surface is returned twice; a face moved forth and back has no edge in common with the original.
* **C92** Findings: objects made from a compound see later additions; a failed add() makes the argument immutable.
* **C93** Findings: the translated compound is an OCCShapeWrapper and shares later additions with the argument.
* **C94** Finding: addEntity and addSubDomainEntity register an empty set and the dimension before the geometry is converted; if that throws, later additions of other dimensions are rejected and build() fails for confining sub-domains.
* **C95** Findings: a list is added up to the first element that is no entity; ContainedEntityNetworkBuilder has no addEntity/addEntities; network() and isBuilt() are not bound.
* **C96** Decision of the constraints for crossing faces up to M/10^7 for edges of length at most M (exact for disks), over the reals and for a geometry kernel that finds distances, lines and splits. Findings: overlapping faces in one plane, quadrilateral/polygon pairs and pairs of cylinder surfaces throw (AllowEquiDim does not help); faces that touch in one boundary point of both are accepted whatever the angle; a quadrilateral or polygon around a cylinder surface throws when a minimum distance of the intersection from the boundary is active, a disk works. Missing: pairs close to the tolerances.
* **C97** The loop, the samplers and the constraints together, over the reals. Missing: pairs of quadrilaterals that are neither in general position nor in parallel planes (for these the decision is refuted in C96), thresholds within M/10^7 of the value, a geometry kernel that is not exact.
* **C98** For all doubles with coordinates up to 2^500 and at most 4 10^8 times the size of the box. Findings: farther from the origin the default tolerance is lost, so that boxes sharing a face are reported disjoint and a box does not contain its own corner; the constructor accepts NaN and the box then contains nothing.
* **C99** Symmetry and sign for all doubles; accuracy 2^-50 for coordinates up to 2^500 and differences of at least 2^-500. Findings: beyond, the square overflows or underflows: infinite or zero distances and directions that are zero, infinite or NaN.
* **C100** The sentence on construction is false and only proved for lists that are long enough (c100_coordinates_partial): coordinates beyond a shorter initializer list are never written (c100_list_refuted), nor are those of a default-constructed Direction (c100_direction_refuted). Vector-valued results in double precision are compared with space only for three dimensions (c100_three).
* **C101** Proved for face shapes and planar geometries with the outer boundary in place of the boundary (c101_evaluate_partial). Findings: holes are not part of the boundary, so that an edge that ends next to a hole is admissible (c101_holes_refuted; a note at distancetoboundary.hh:233-234 says that the helper ignores holes, the documentation of the constraints does not); the tolerance passed to pointOnGeometryBoundary is not used for face shapes (c101_eps_refuted); a minimum angle between a cylinder surface and a face shape makes evaluate throw (c101_surface_refuted). Missing: face shapes that are curved with planar geometries (see C62) and the values for overlaps that are allowed.
* **C102** Proved for the pairs that are implemented and boundaries without holes and cavities, if OpenCascade computes the distances of the parts. Findings: for geometries other than points the boundaries of quadrilaterals and polygons are rejected at run time although the same call with the geometry's shape works (c102_quadrilateral_refuted); cavities of solids and holes of faces are ignored (c102_cavity_refuted, c102_hole_refuted; documented for shape and face only). Points: C59, C73.
* **C103** With the formula of libstdc++ for uniform numbers. Boxes: coordinates up to 2^1021; that the box reports to contain the point is proved up to 4 10^8 times the size. Spheres: coordinates up to 2^500 and differences of at least 2^-500. Findings: the upper end of a range can be drawn (c103_end_refuted); larger boxes give NaN (c103_huge_refuted); a cylinder of radius 1 at 10^5 rejects a point 8 10^-12 below its surface (c103_cylinder_refuted). Missing: the coordinates of the points of cylinders in double precision (sine and cosine).
* **C104** Coordinates and tolerances between 2^-400 and 2^400, coordinates of the ends of a segment equal or 2^-500 apart, directions of length 1 up to 2^-50 (all those made by the library are, C99). The distance to a segment is proved for segments longer than 10^7 2^-42 (2 10^-6) of the coordinates. Findings: shorter segments do not contain the points they return (c104_far_refuted, a segment of length 1.4 at 2 10^10) and the distance of these to the segment can be the one to an end (c104_far_distance_refuted, 0.52 instead of 0 at 2 10^9).
* **C105** Sizes between 2^-200 and 2^200, tolerances between 2^-400 and 2^400. The test of the areas (checkIfOnPlane = false) is covered; the test of the supporting plane is C104 for a plane whose normal is a direction. The error for n corners is (2 n^2 + 40 n) 2^-53 of the square of the size. Finding: with smaller tolerances (7 10^-9 of the size; the default ones are 10^-7 of a diagonal) inner points are not contained (c105_small_tolerance_refuted).
* **C106** Coordinates and radii up to M between 2^-400 and 2^400; the margin is 2^-42 M (2^-51 M for spheres). c106_hollow_partial: points between the inner radius minus the tolerance and the inner radius are not described. Finding: as the tolerance is added to the squares, it does not cover the rounding errors; a hollow cylinder of size 5 at 10^5 does not contain a point 8 10^-12 inside its inner wall (c106_inner_wall_refuted; for cylinders see c103_cylinder_refuted).
* **C107** The accuracy of the C library is an assumption of the theorems (accurate); c107_rounded shows that it can be met. The partial theorems leave out angles below 2^-22, for which the result may be NaN. Finding: two disks with a common diameter at an angle above 10^-8 have normals whose product is rounded to a number above 1; the angle is NaN, the comparison with the minimum is false, and the pair is accepted whatever the minimum angle is.
* **C108** The accuracy of the C library is an assumption of the theorems (accurate), which c107_rounded shows to be satisfiable. The draws of the samplers are arguments; that their distributions keep to the ranges is part of C103.
* **C109** The intersection itself is the result of the geometry kernel and an assumption of the two theorems on constraints; the example computes it for two quadrilaterals through the modelled intersection code.
* **C110** Finding: the test of disks adds the square of the tolerance, 1e-14 for the default, so a disk with radius 0.7 whose centre is 1000 away from the origin does not contain the point of its rim at angle 0 (c110_rim_refuted). c110_rim_partial: missing are the tolerances whose square is below 2^-42 of the ratio of the coordinates to the half axes.
* **C111** Findings: mesh sizes are written with six digits, so that 1000001 and 1000002 give the same file (c111_size_refuted; the error is at most 5 in a million); for a relative name with a directory, the Merge command names a .brep file that does not exist, since Gmsh looks it up relative to the .geo file (c111_merge_refuted; c111_merge_partial misses these names); names with quotation marks give files that cannot be read (c111_quote_refuted). How Gmsh reads the file is specified in GeoTextSpec.v from its documentation; Gmsh is not part of /repo.
* **C112** Finding: an arc of a unit circle does not contain its own first point with the default tolerance, since its angle of 1e-7 is at the threshold below which angles are replaced by zero (c112_source_refuted, for the values that the C library's functions return). c112_arc_points_partial misses the points close to the axes of the ellipse. The half axes may differ by a factor of 2^18.
* **C113** Finding: two segments of 1.4 mm that cross at the coordinates of a map in metres make intersect() with the default tolerance raise a RuntimeError if OpenCascade returns the crossing rounded to half a unit in the last place (c113_survey_refuted). c113_segments takes as a hypothesis how far the directions of segments that pass the parallel test differ (the angle is computed inside OpenCascade). c113_disk_line_partial leaves out lines in the plane of the disk.
* **C114** The draws are numbers and the trigonometric functions accurate to half a unit at 1 (the accuracy of C107); a draw that is not a number is outside the statement.
* **C115** The draws are numbers, lengths up to a fifth of the scale, and the trigonometric functions accurate to half a unit at 1 (the accuracy of C107). The plane, area and convexity stored with a quadrilateral are not part of the statement (C106 has the plane).
* **C116** Findings: a valid concave polygon whose centroid is its first corner fails the check of its constructor (the tolerance is zero); the check on the basis of a plane never compares the second base vector with the normal and accepts bases that are none; for ellipses with a major axis beyond 10^7 the center passes as an end of an arc, since a length is used as tolerance of a ratio; parallel planes further apart than 10^-7 end the computation of an angle, although figures in them intersect with a tolerance relative to their size; polygons sampled with lengths of 10^10 may fail the check that they close. Proved: all convex polygons pass, and sampled polygons pass in double precision while the number of corners times the size is at most 400000. The checks on quadrilaterals, polygons, planes, arcs and angles are over the reals.
* **C117** Proved for the engine and the uniform numbers of libstdc++ (the C++ standard leaves both open): the period, that all seeds share one cycle, that uniform numbers are in [0, 1) and within 2^-50 of the fraction two values stand for, that points of boxes are in the box in double precision for every seed, that points of cylinders and of hollow cylinders are in them up to 2^-43 of the coordinates, and that points repeat after 357913941 of them.  Findings: half of the 2^32 seeds give the numbers of another seed (s and s + 2^31 - 1, and 0 and 1); there are at most 2^31 - 2 different points; all points sampled in the unit cube lie within 1/500000 (of the value of the form) of 1569 parallel planes.  Not proved: a statement on how evenly points are spread in other domains.
* **C118** Proved in double precision for all angles up to 2^20 and sizes from 2^-300 to 2^300: the corners are the prescribed ones up to 2^-40 of the coordinates, two edges have the lengths drawn up to 2^-39, the corners lie in the plane up to 2^-40; lengths that are not below the minimum are used as they are; Python only uses such lengths.  Findings: the C++ sampler never returns if one of the four lengths drawn is below the minimum (the loop draws without assigning); far from the origin the lengths are lost, and all four corners coincide.  Trigonometric functions are any that are accurate to 2^-53.
* **C119** Proved for the distributions of libstdc++ 13 on its default engine: drawing integers ends for every seed, they are in the range, each of them is given by equally many values of the engine, and all are drawn at some time; uniform numbers are in the closed range in double precision; drawing from normal distributions ends for every seed, all results are finite and within 12.2 standard deviations of the mean, and they are the two numbers of the polar method for the first point of the disk, up to 2^-41 in their squares; if the mean is not negative, a positive number is drawn at some time, so that samplers waiting for a positive length return; polygons are always returned for ranges as those of example 4, and quadrilaterals with lengths from a normal distribution if the minimum is 12.2 standard deviations below the mean, or from a uniform one if the minimum is not above its lower end.  Findings: if the mean is more than 12.2 standard deviations below zero, a sampler waiting for a positive length never returns; the upper end of a uniform range, excluded by the C++ standard, is drawn, e.g. 5000001 from [5000000, 5000001).  Ranges with more than 2147483646 integers are not modelled; the logarithm is any that is accurate to 2^-50.
* **C120** Proved for doubles: when uniform and normal distributions may be made; the three distributions of point samplers of boxes always may, those of cylinders, and of hollow cylinders whose inner radius is not below minus the outer one, if and only if the height is not negative; the ranges of lengths of examples 1 and 3, and of example 2 in Python, are in order, and the standard deviations of all examples are positive after their conversion to radians, whose error is at most 2^-53 of the degrees.  Findings: the second sampler of example 2 in C++ has UniformDistro(0.5, 0.1), which the standard does not allow (with libstdc++ and without its assertions the lengths are then between 0.1 and 0.5, c120_reversed); cylinders of negative height can be constructed, and a point sampler for one of them makes a distribution from a range in the wrong order, and the same holds for hollow cylinders with a negative inner radius that exceeds the outer one in size.  Not stated: hollow cylinders whose inner radius is below minus the outer one, but for the example (their squares may be the same after rounding).

## 5. Not modelled

* rounding of floating-point numbers, except in C98, C99 and C103-C110, C112-C120 and in the witnesses
  that say "in double arithmetic", which are computed with primitive floats;
* the algorithms of OpenCascade (see 1.3), and Gmsh, except how it reads a `.geo` file (C111): commands, and names after `Merge` relative to the directory of the file;
* assertions: builds are release builds (`NDEBUG`), so a failed precondition is either
  a hypothesis of a theorem or leads to what the code does without the check
  (the conditions checked by debug builds are the subject of C116);
* the random number engines, except in C117 (the engine of libstdc++): draws are arbitrary streams;
* the text layout of files and messages, except the table of `SamplingStatus::print` (C05)
  and the `.geo` file (C28-C30, C69, C111);
* template machinery without run-time behaviour (`typetraits.hh`, `promotedtype.hh`,
  `ctype.hh`, traits classes), except where it selects an overload (C77-C82);
* object lifetimes and reference semantics on the Python side.

Two readings of the source are parameters rather than decisions: whether the unqualified
`abs` in `Triangle` is the integer or the floating-point version (C47), and the result of
converting NaN to `int` (undefined behaviour, reported as such in C05).

## 6. Trusted base

* the Coq 8.16.1 kernel, including `vm_compute` and the primitive floats and 63-bit
  integers (`PrimFloat`, `PrimInt63`) used by witnesses on doubles;
* what `Print Assumptions` prints under each theorem:
  - theorems over lists, maps and integers: "Closed under the global context";
  - theorems over `R`: the axioms of Coq's standard real numbers,
    `ClassicalDedekindReals.sig_forall_dec`, `ClassicalDedekindReals.sig_not_dec` and
    `FunctionalExtensionality.functional_extensionality_dep`, and
    `Classical_Prop.classic` where library lemmas on trigonometric functions, integrals
    or case distinctions on reals use it;
  - float witnesses: the primitive operations of `PrimFloat` and `PrimInt63`;
  - theorems about all doubles (C98, C99, C103-C110, C112-C120): in addition the axioms of the standard library's
    `FloatAxioms` (each operation is the one of `SpecFloat`); Flocq adds theorems only;
  no axiom of any other library, and none of our own;
* the reading of the C++ and Python source documented by the line citations in the models,
  in particular the documented behaviour of OpenCascade constructors and of pybind11.
