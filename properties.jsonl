{"id": "C01", "title": "Sampling status counts exactly the registered successes", "statement": "After any history of API calls on a SamplingStatus, getCount(id) is the number of increaseCounter(id) calls made since the last call that reset this id (reset, resetCounters, resetCounter(id)), and calls that concern other ids never change it.", "quantifier": "all finite histories of setTargetCount/increaseCounter/increaseRejectedCounter/reset/resetCounters/resetCounter/getCount/finished calls, all ids, all targets", "why_tests_cant": "The claim is about every interleaving of the calls, of unbounded length; a unit test runs one history.", "anchors": ["frackit/sampling/status.hh: SamplingStatus::increaseCounter, getCount(id), reset, resetCounters, resetCounter, setTargetCount"]}
{"id": "C02", "title": "finished() says exactly whether every target has been reached", "statement": "On a status whose ids all received a target, finished() is true iff for every id the number of registered successes is at least its target; finished(id) says the same for one id and throws for an id that is not known. Querying the status never changes what finished() answers.", "quantifier": "all call histories, all ids and targets", "why_tests_cant": "finished() depends on the whole history of the map of counters; in particular read-only looking calls insert ids.", "anchors": ["frackit/sampling/status.hh: SamplingStatus::finished(), finished(id), getCount(id), resetCounter"]}
{"id": "C03", "title": "The total count is the sum of the per-id counts", "statement": "getCount() without argument equals the sum of getCount(id) over all ids.", "quantifier": "all statuses, including those whose counters are larger than 2^31", "why_tests_cant": "Requires billions of registrations; the accumulation happens in a narrower type than the counters.", "anchors": ["frackit/sampling/status.hh: SamplingStatus::getCount()"]}
{"id": "C04", "title": "Resetting restores a fresh status", "statement": "reset() brings the status back to the state of a newly constructed one; resetCounters() sets all counters to zero (accepted and rejected) and keeps the targets.", "quantifier": "all call histories before the reset", "why_tests_cant": "State left over from an arbitrary earlier history cannot be enumerated by tests.", "anchors": ["frackit/sampling/status.hh: SamplingStatus::reset, resetCounters"]}
{"id": "C05", "title": "The status table can always be printed and stays aligned", "statement": "print() terminates without an exception for every status reachable by API calls and every row is as wide as the header.", "quantifier": "all counters, targets and rejection counts", "why_tests_cant": "The padding widths underflow only for large values or special targets.", "anchors": ["frackit/sampling/status.hh: SamplingStatus::print"]}
{"id": "C06", "title": "Round-robin sampling is fair", "statement": "With the sequential strategy and n registered ids, any n consecutive draws return every id exactly once, and over any run of draws the numbers of draws of two ids differ by at most one.", "quantifier": "all id lists, all starting positions reached by earlier draws, all run lengths", "why_tests_cant": "Fairness is a statement on unbounded runs.", "anchors": ["frackit/sampling/sequentialsamplingstrategy.hh: SequentialSamplingStrategy::getNextId"]}
{"id": "C07", "title": "A sampling strategy only ever returns registered ids", "statement": "For any interleaving of addId and getNextId calls: ids are stored once and in order of registration, getNextId throws iff no id was registered, and otherwise returns a registered id.", "quantifier": "all interleavings of addId/getNextId", "why_tests_cant": "Adding ids between draws moves the wrap-around point; tests fix the list first.", "anchors": ["frackit/sampling/samplingstrategy.hh: addId, hasId", "frackit/sampling/sequentialsamplingstrategy.hh: getNextId"]}
{"id": "C08", "title": "A sampled geometry comes from the sampler registered under the reported id", "statement": "operator() of MultiGeometrySampler reports an id and returns a geometry drawn from the sampler that was registered under this very id; registering the same id twice throws and changes nothing.", "quantifier": "all sequences of addGeometrySampler/operator() calls, all geometry type packs", "why_tests_cant": "Dispatch goes over heterogenous per-type containers; all orders of registration matter.", "anchors": ["frackit/sampling/multigeometrysampler.hh: addGeometrySampler, operator()"]}
{"id": "C09", "title": "Replacing the sampling strategy keeps the sampler usable", "statement": "After setSamplingStrategy on a sampler with registered geometry samplers, drawing still returns geometries of the registered samplers and duplicate ids are still rejected.", "quantifier": "all histories containing setSamplingStrategy", "why_tests_cant": "Depends on the order of strategy replacement and registrations.", "anchors": ["frackit/sampling/multigeometrysampler.hh: setSamplingStrategy, addGeometrySampler"]}
{"id": "C10", "title": "An entity set behaves like a map from id to the list of inserted entities", "statement": "After any history of addEntity calls, the set seen under an id is exactly the list of entities successfully added under that id, in insertion order; adding under one id never affects another id.", "quantifier": "all histories of addEntity, all ids, all geometry types of the pack", "why_tests_cant": "Refinement over unbounded histories over heterogenous containers.", "anchors": ["frackit/entitynetwork/multigeometryentityset.hh: addEntity, applyOnSet"]}
{"id": "C11", "title": "Entities of a second type are rejected under an id and rejection has no effect", "statement": "addEntity of a geometry whose type differs from that of the entities already stored under the same id throws, and the content of all entity sets is the same as before the call.", "quantifier": "all histories, all ids and types", "why_tests_cant": "Error path after arbitrary histories.", "anchors": ["frackit/entitynetwork/multigeometryentityset.hh: addEntity"]}
{"id": "C12", "title": "Counting and exporting cover every entity exactly once", "statement": "numEntities() is the sum of numEntities(id) over the ids; exportEntitySets hands every stored entity exactly once to the receiver, restricted to the requested ids if any.", "quantifier": "all histories", "why_tests_cant": "Exactly-once over unbounded histories.", "anchors": ["frackit/entitynetwork/multigeometryentityset.hh: numEntities, exportEntitySets"]}
{"id": "C13", "title": "Pairwise constraint evaluation is the conjunction of the active constraints", "statement": "evaluate(e1,e2) is true iff: when the two entities do not intersect, their distance is at least the minimum distance (if that constraint is set); when they intersect, the dimension of the intersection is admissible, and every set constraint on magnitude, angle and distance to both boundaries holds (boundaries inclusive).", "quantifier": "all subsets of active constraints, all thresholds, all intersection results (including unions of several pieces), any geometry kernel", "why_tests_cant": "2^4 activations x unbounded intersection shapes; decision order matters.", "anchors": ["frackit/entitynetwork/constraints.hh: EntityNetworkConstraints::evaluate_", "frackit/entitynetwork/constraints_impl/admissiblemagnitude.hh", "frackit/entitynetwork/constraints_impl/admissibledimension.hh"]}
{"id": "C14", "title": "Constraints against sets are pairwise constraints", "statement": "evaluate(set,entity), evaluate(entity,set) and evaluate(set,set) are true iff evaluate holds for every pair, and are true on empty sets; (entity,set) and (set,entity) agree.", "quantifier": "all sets of any size", "why_tests_cant": "Unbounded sets.", "anchors": ["frackit/entitynetwork/constraints.hh: EntityNetworkConstraints::evaluate overloads"]}
{"id": "C15", "title": "Equi-dimensional intersections are rejected unless allowed", "statement": "Unless allowEquiDimensionalIntersections(true) was called, evaluate rejects every pair of entities that intersect in a geometry of their own dimension.", "quantifier": "all configurations of the other constraints", "why_tests_cant": "Only shows for the configuration in which no other constraint is set.", "anchors": ["frackit/entitynetwork/constraints.hh: allowEquiDimensionalIntersections, evaluate_"]}
{"id": "C16", "title": "The constraints matrix enforces every relation registered for an id", "statement": "evaluate(entitySets, entity, id) is true iff for every relation registered for id and every entity of the related set the constraint evaluates to true; it throws iff no relation was registered for id.", "quantifier": "all histories of addConstraints, all entity sets, all entities", "why_tests_cant": "Unbounded relations and sets.", "anchors": ["frackit/entitynetwork/constraintsmatrix.hh: addConstraints, evaluate"]}
{"id": "C17", "title": "A failing addConstraints has no effect", "statement": "If addConstraints throws (relation already defined), the matrix behaves as if the call had not been made.", "quantifier": "all histories, all lists of id pairs", "why_tests_cant": "Depends on the position of the duplicate in the list.", "anchors": ["frackit/entitynetwork/constraintsmatrix.hh: addConstraints, updateIndexMaps_"]}
{"id": "C18", "title": "Rejection sampling delivers a pairwise admissible network with the requested counts", "statement": "The sample-check-add loop of the example applications (draw, evaluate against the matrix, add and count or reject) ends, if it ends, with exactly the requested number of entities per id, and every later-added entity satisfies all constraints registered for its id against every entity that was present when it was added; if the relations are registered in both directions, every pair of entities of related sets is admissible.", "quantifier": "all streams of candidates, all constraint oracles, all run lengths", "why_tests_cant": "The invariant is about all random histories.", "anchors": ["appl/example2/example2.cc", "appl/example1/example1.cc", "frackit/entitynetwork/constraintsmatrix.hh", "frackit/sampling/status.hh", "frackit/entitynetwork/multigeometryentityset.hh"]}
{"id": "C19", "title": "Relations registered in one direction are still enforced", "statement": "If a constraint is registered for the pair (a,b), no two entities of the sets a and b that violate it end up in the network.", "quantifier": "all insertion orders", "why_tests_cant": "Only fails for some interleavings of accepted entities of the two sets.", "anchors": ["frackit/entitynetwork/constraintsmatrix.hh: addConstraints, evaluate"]}
{"id": "C20", "title": "The Python constraints matrix enforces every registered relation", "statement": "EntityNetworkConstraintsMatrix.evaluate (Python) returns False whenever a relation registered for the id is violated by an entity of the related set.", "quantifier": "all histories of addConstraints, all dictionaries of entity sets", "why_tests_cant": "Only fails when the related id has no relations of its own.", "anchors": ["python/frackit/entitynetwork/__init__.py: EntityNetworkConstraintsMatrix"]}
{"id": "C21", "title": "The Python constraints evaluation handles lists on either side", "statement": "EntityNetworkConstraints.evaluate(a,b) (Python) equals the conjunction of the pairwise evaluations for every combination of geometry/list arguments.", "quantifier": "all lists", "why_tests_cant": "Two of the four argument shapes pass the wrong variable.", "anchors": ["python/frackit/entitynetwork/__init__.py: EntityNetworkConstraints.evaluate"]}
{"id": "C22", "title": "Network builders keep dimensions consistent and sub-domain ids unique", "statement": "After any history of calls (some of which may have thrown), all registered sub-domains have the same dimension, all entities have the same dimension, the entity dimension is smaller than the sub-domain dimension, and no two sub-domains share an id.", "quantifier": "all histories of addSubDomain/addConfiningSubDomain/addSubDomainEntity/addSubDomainEntities/addEntity/clear", "why_tests_cant": "Order-dependent checks over arbitrary histories with failures.", "anchors": ["frackit/entitynetwork/networkbuilder.hh: addSubDomain, addSubDomainEntity, clear"]}
{"id": "C23", "title": "network() delivers a network only after a successful build", "statement": "network() throws unless the last build() succeeded and clear() was not called since; a failed build does not leave a stale network accessible.", "quantifier": "all call histories including failing kernel operations", "why_tests_cant": "Crash/exception points inside build().", "anchors": ["frackit/entitynetwork/networkbuilder.hh: build, network, clear, initializeBuild_, finishBuild_, clearBuild_"]}
{"id": "C24", "title": "Every fragment of a built network is attributed to the entity it stems from", "statement": "After build(), the fragment list of every sub-domain contains exactly the fragments of the entities of that sub-domain, each mapped to the index of its parent entity.", "quantifier": "all entity lists, sub-domains and all results of the Boolean fragment operation", "why_tests_cant": "Quantifies over all behaviours of the fragmentation kernel.", "anchors": ["frackit/entitynetwork/networkbuilder.hh: initializeBuild_, confineNetworks_, fragment_"]}
{"id": "C25", "title": "Entities of different sub-domains keep different primary indices", "statement": "In the network built by EntityNetworkBuilder two fragments carry the same primary entity index iff they stem from the same entity.", "quantifier": "all configurations of sub-domains and confinement results", "why_tests_cant": "Only fails if confinement removes an entity of a sub-domain.", "anchors": ["frackit/entitynetwork/networkbuilder.hh: EntityNetworkBuilder::build"]}
{"id": "C26", "title": "Sub-domain ids are kept intact", "statement": "Fragments are filed under the id under which the user registered the sub-domain, for every id representable in Id.", "quantifier": "all ids of type size_t", "why_tests_cant": "Needs ids beyond 2^31.", "anchors": ["frackit/entitynetwork/networkbuilder.hh: fragment_", "frackit/common/id.hh: Id"]}
{"id": "C27", "title": "The default tolerance belongs to the geometry being built", "statement": "Unless the user sets a tolerance, each build() uses the default tolerance derived from the geometries registered at that time.", "quantifier": "all histories with several builds", "why_tests_cant": "Needs several builds with different geometries.", "anchors": ["frackit/entitynetwork/networkbuilder.hh: setEpsilon, setDefaultEpsilon, getEpsilon_"]}
{"id": "C28", "title": "Intersection edges are grouped into disjoint physical groups", "statement": "The physical intersection groups computed by the writer are pairwise disjoint, non-empty and together contain exactly the edges shared by two different entity fragments.", "quantifier": "all networks", "why_tests_cant": "Quadratic loop over all fragment pairs with de-duplication.", "anchors": ["frackit/io/brepwriter.hh: findEntityIntersectionShapes_, addEdges_"]}
{"id": "C29", "title": "Physical groups written to the .geo file refer to each fragment exactly once", "statement": "Every entity fragment gets exactly one index in the compound and is listed in exactly one physical group, namely that of its primary entity; no physical group is empty.", "quantifier": "all networks", "why_tests_cant": "Numbering over arbitrary networks with shared faces.", "anchors": ["frackit/io/brepwriter.hh: makeEntityMap_, addFaces_, addSolids_", "frackit/io/gmshwriter.hh: write"]}
{"id": "C30", "title": "Physical indices of entities in different sub-domains do not collide in the output", "statement": "In the output written for a contained network, fragments of two different entities are listed in different physical groups.", "quantifier": "all contained networks", "why_tests_cant": "Only fails if an entity of a sub-domain has no fragment left.", "anchors": ["frackit/io/brepwriter.hh: makeEntityMap_"]}
{"id": "C31", "title": "Interval overlap test has no false negatives and is tolerance-bounded", "statement": "intervalsOverlap(i1,i2,eps) with eps>0 is true whenever the intervals share a point and false whenever they are more than eps apart; touching intervals overlap; the test is symmetric in its arguments.", "quantifier": "all real intervals and tolerances", "why_tests_cant": "Boundary equality cases.", "anchors": ["frackit/common/math.hh: intervalsOverlap"]}
{"id": "C32", "title": "Bounding-box pre-check never hides an intersection", "statement": "doIntersect(b1,b2,eps), eps>0, is true whenever the two boxes share a point; hence intersect() only short-circuits to the empty intersection when no common point exists.", "quantifier": "all pairs of boxes", "why_tests_cant": "All relative positions.", "anchors": ["frackit/intersection/bboxintersection.hh: doIntersect", "frackit/intersection/intersect.hh"]}
{"id": "C33", "title": "Cross and box product obey their algebraic laws", "statement": "crossProduct is orthogonal to both arguments, antisymmetric and |u x v|^2 = |u|^2|v|^2-(u.v)^2; boxProduct is the determinant; isRightHandSystem is true iff the determinant is positive.", "quantifier": "all vectors", "why_tests_cant": "Algebraic identities over the reals.", "anchors": ["frackit/common/math.hh: crossProduct, boxProduct, isRightHandSystem"]}
{"id": "C34", "title": "rotate is a rotation", "statement": "rotate(v,axis,angle) preserves lengths, scalar products and orientation, leaves the axis fixed, is the identity for angle 0, composes additively in the angle and is periodic in 2 pi; the overload for several vectors does the same for each.", "quantifier": "all vectors, unit axes and angles", "why_tests_cant": "Trigonometric identities.", "anchors": ["frackit/common/math.hh: rotate"]}
{"id": "C35", "title": "Degrees and radians convert back and forth", "statement": "toRadians and toDegrees are mutually inverse and map 180 degrees to pi.", "quantifier": "all angles", "why_tests_cant": "Real identity.", "anchors": ["frackit/common/math.hh: toDegrees, toRadians"]}
{"id": "C36", "title": "makeOrthogonalVector returns a non-zero orthogonal vector", "statement": "For every vector v the result is orthogonal to v and not the zero vector.", "quantifier": "all vectors including those with zero coordinates", "why_tests_cant": "Case analysis on zero coordinates.", "anchors": ["frackit/geometry/vector.hh: makeOrthogonalVector"]}
{"id": "C37", "title": "isParallel recognises parallel vectors of either orientation", "statement": "isParallel(v,w) is true for w = c v for every c <> 0, and false for orthogonal vectors.", "quantifier": "all non-zero vectors", "why_tests_cant": "Anti-parallel case.", "anchors": ["frackit/geometry/vector.hh: Vector::isParallel"]}
{"id": "C38", "title": "Directions are unit vectors", "statement": "A Direction constructed from a non-zero vector has length one, the same orientation, and invert() is an involution.", "quantifier": "all non-zero vectors", "why_tests_cant": "Real identity.", "anchors": ["frackit/geometry/direction.hh: Direction"]}
{"id": "C39", "title": "Line projection is the closest point", "statement": "line.projection(p) lies on the line and no point of the line is closer to p; line.contains(p,eps) iff the distance of p to the line is below eps.", "quantifier": "all lines, points, tolerances", "why_tests_cant": "Real optimisation over a continuum.", "anchors": ["frackit/geometry/line.hh: projection, contains"]}
{"id": "C40", "title": "Planes carry an orthonormal right-handed basis and project orthogonally", "statement": "Every constructor of Plane yields unit, pairwise orthogonal base vectors forming a right-handed system with the normal; projection(p) lies in the plane and is the closest point; contains(p,eps) iff the distance to the plane is below eps; the projection of a line/segment is the image of its points.", "quantifier": "all points, normals, non-collinear triples", "why_tests_cant": "Continuum.", "anchors": ["frackit/geometry/plane.hh: Plane"]}
{"id": "C41", "title": "Segment containment is sound and complete", "statement": "contains(p,eps) holds for every point of the segment (eps>0) and only for points whose distance to the segment is below eps; getPoint(t), t in [0,1], lies on the segment; getReversed describes the same set.", "quantifier": "all segments, points, tolerances", "why_tests_cant": "Continuum.", "anchors": ["frackit/geometry/segment.hh: contains, getPoint, getReversed"]}
{"id": "C42", "title": "Boxes describe the axis-aligned set given by their bounds", "statement": "Construction succeeds iff min<=max in every direction; contains(p,eps) iff p is strictly within the box enlarged by eps; corners, edges and faces enumerate the 8 corners, 12 edges and 6 faces; the volume is the product of the extents and the face areas agree with them.", "quantifier": "all boxes, points", "why_tests_cant": "Continuum.", "anchors": ["frackit/geometry/box.hh: Box"]}
{"id": "C43", "title": "Points generated on circles and ellipses lie on them", "statement": "getPoint/getPointFromAngle return points that satisfy the implicit equation and are contained for every positive tolerance; getAngle inverts getPointFromAngle outside the tolerance bands around the axes, getParam lies in [0,1].", "quantifier": "all ellipses, parameters, angles", "why_tests_cant": "Continuum, quadrant case analysis.", "anchors": ["frackit/geometry/ellipse.hh: getPoint, getPointFromAngle, getAngle, getParam, contains", "frackit/geometry/circle.hh"]}
{"id": "C44", "title": "An ellipse arc contains exactly the points between its end points", "statement": "For every arc, all points getPoint(t), t in [0,1], are contained in the arc; an arc with coinciding end points contains all points of the ellipse.", "quantifier": "all arcs", "why_tests_cant": "Continuum; wrap-around at angle zero.", "anchors": ["frackit/geometry/ellipsearc.hh: EllipseArc, contains, getPoint"]}
{"id": "C45", "title": "Disk containment and parametrisation agree", "statement": "disk.contains(p,eps) iff p is in the plane (within eps) and inside the ellipse enlarged by the tolerance; disk.getPoint(angleParam, radiusParam) lies in the disk for parameters in [0,1].", "quantifier": "all disks and parameters", "why_tests_cant": "Continuum.", "anchors": ["frackit/geometry/disk.hh: contains, getPoint"]}
{"id": "C46", "title": "Cylinders, hollow cylinders and spheres contain the points of the solid they describe", "statement": "contains is true for every point of the solid (positive tolerance) and false for points farther than the tolerance; hollow cylinders exclude the core; volumes and areas follow the formulas; top and bottom faces bound the lateral face.", "quantifier": "all solids and points", "why_tests_cant": "Continuum.", "anchors": ["frackit/geometry/cylinder.hh", "frackit/geometry/hollowcylinder.hh", "frackit/geometry/cylindersurface.hh", "frackit/geometry/sphere.hh"]}
{"id": "C47", "title": "Triangle containment is the area test", "statement": "triangle.contains(p,eps) holds for every point of the triangle and for no in-plane point whose sub-triangle areas exceed the area by eps^2; the overload with default tolerance behaves like the explicit one.", "quantifier": "all triangles, points", "why_tests_cant": "Continuum; undefined behaviour in the default overload.", "anchors": ["frackit/geometry/triangle.hh: contains"]}
{"id": "C48", "title": "Polygon convexity flag is right", "statement": "isConvex() is true iff the polygon is convex.", "quantifier": "all planar polygons with at least three corners", "why_tests_cant": "All polygons of all sizes.", "anchors": ["frackit/geometry/polygon.hh: determineConvexity_"]}
{"id": "C49", "title": "Polygon area and containment are right for convex polygons", "statement": "For a convex polygon area() is the shoelace area, the number of triangles of the triangulation is n-2, and contains(p,eps) holds for all points of the polygon and for no in-plane point whose area excess is at least eps^2.", "quantifier": "all convex polygons of any size", "why_tests_cant": "Unbounded number of corners.", "anchors": ["frackit/geometry/polygon.hh: area, contains, convexContains", "frackit/geometry/triangulation.hh: triangulate"]}
{"id": "C50", "title": "Quadrilateral predicates are right", "statement": "isConvex, area and contains of a planar quadrilateral agree with the region bounded by its four edges.", "quantifier": "all planar quadrilaterals", "why_tests_cant": "Continuum; concave cases.", "anchors": ["frackit/geometry/quadrilateral.hh"]}
{"id": "C51", "title": "Point samplers sample within the given domain", "statement": "makePointSampler for boxes, cylinders and hollow cylinders only produces points contained in the domain.", "quantifier": "all draws of the underlying distributions within their ranges, all domains", "why_tests_cant": "All random draws.", "anchors": ["frackit/sampling/makepointsampler.hh", "frackit/sampling/cylinderpointsampler.hh", "frackit/sampling/boxpointsampler.hh"]}
{"id": "C52", "title": "The Python point samplers sample within the given domain", "statement": "makePointSampler (Python) for boxes, cylinders and hollow cylinders only produces points contained in the domain and can reach all of it.", "quantifier": "all draws, all radii", "why_tests_cant": "Only fails for radii different from one.", "anchors": ["python/frackit/sampling/__init__.py: makePointSampler, CylinderPointSampler"]}
{"id": "C53", "title": "The disk sampler produces valid disks", "statement": "Every sampled disk has positive semi-axes with minor <= major and orthonormal axis directions; sampling ends once positive lengths are drawn.", "quantifier": "all draw streams", "why_tests_cant": "All random draws.", "anchors": ["frackit/sampling/disksampler.hh: operator()"]}
{"id": "C54", "title": "The polygon sampler produces closed planar polygons around the sampled centre", "statement": "Every polygon returned has the drawn number of corners, its edge vectors sum to zero, its corners lie in one plane with the drawn strike/dip, and its bounding box is centred at the drawn point.", "quantifier": "all draw streams, any number of corners", "why_tests_cant": "Unbounded number of corners, all draws.", "anchors": ["frackit/sampling/polygonsampler.hh: sampleCorners"]}
{"id": "C55", "title": "The polygon sampler rejects inadmissible distributions and only those", "statement": "sampleCorners throws iff 100 draws in a row were inadmissible, and the dimensions used are positive.", "quantifier": "all draw streams", "why_tests_cant": "Boundary of the retry loop.", "anchors": ["frackit/sampling/polygonsampler.hh: sampleCorners"]}
{"id": "C56", "title": "Quadrilateral sampling terminates", "statement": "The deprecated quadrilateral sampler returns as soon as the edge length distribution delivers lengths not below the minimum.", "quantifier": "all draw streams", "why_tests_cant": "Non-termination.", "anchors": ["frackit/sampling/quadrilateralsampler.hh"]}
{"id": "C57", "title": "The Python polygon sampler terminates and uses positive dimensions", "statement": "sampleCorners (Python) raises after 100 inadmissible numbers of corners and only uses positive dimensions.", "quantifier": "all draw streams", "why_tests_cant": "Non-termination.", "anchors": ["python/frackit/sampling/__init__.py: PolygonSampler.sampleCorners"]}
{"id": "C58", "title": "Point-to-segment distance is the minimum distance", "statement": "computeDistance(p,segment) is the minimum over the points of the segment up to the tolerance of the containment test, and exact whenever the projection falls inside the segment or farther than the tolerance from it.", "quantifier": "all points, segments", "why_tests_cant": "Continuum.", "anchors": ["frackit/distance/distance.hh: computeDistance(Point,Segment)"]}
{"id": "C59", "title": "Distance to boundaries is the minimum over the edges", "statement": "computeDistanceToBoundary(p,quad/polygon) is the minimum of the distances to the edges and zero on the boundary; computeDistance(geo, vector) is the minimum over the list.", "quantifier": "all polygons of any size", "why_tests_cant": "Unbounded.", "anchors": ["frackit/distance/distancetoboundary.hh", "frackit/distance/distance.hh"]}
{"id": "C60", "title": "Collinear segments intersect in their common part", "statement": "For segments on one line, intersect returns the common part: a segment if they overlap in more than a point, the common point if they touch, empty otherwise.", "quantifier": "all pairs of collinear segments", "why_tests_cant": "Nine relative positions, two orientations, continuum.", "anchors": ["frackit/intersection/algorithms/algo_segment_segment.hh: intersect_segment_segment"]}
{"id": "C61", "title": "Planar geometries that share a point have a non-empty intersection", "statement": "If the intersections of both faces with the common line of their planes share a point, the result is not empty.", "quantifier": "all pairs of line intersections", "why_tests_cant": "All combinations of segment/point pieces.", "anchors": ["frackit/intersection/algorithms/algo_planargeom_planargeom.hh"]}
{"id": "C62", "title": "Intersection angles lie in [0, pi/2] and are symmetric", "statement": "The angle between two planes lies in [0,pi/2], is symmetric, does not depend on the orientation of the normals, is 0 for parallel and pi/2 for orthogonal planes; the angle for composed intersections is the minimum over the pieces.", "quantifier": "all planes and lists of pieces", "why_tests_cant": "Continuum.", "anchors": ["frackit/intersection/intersectionangle.hh: IntersectionAngle"]}
{"id": "C63", "title": "Default tolerances are positive and scale with the geometry", "statement": "defaultEpsilon(geo) is positive for non-degenerate geometries and scales linearly with the size of the geometry.", "quantifier": "all geometries", "why_tests_cant": "Continuum.", "anchors": ["frackit/precision/defaultepsilon.hh"]}
{"id": "C64", "title": "Plane-line and plane-plane intersections are classified by the tolerances", "statement": "intersect(plane,line) returns the line iff it is parallel within the angular tolerance and closer than eps, empty iff parallel and farther, and a single point on both otherwise.", "quantifier": "all planes, lines, tolerances", "why_tests_cant": "Continuum.", "anchors": ["frackit/intersection/algorithms/algo_plane_line.hh: intersect_plane_line", "frackit/intersection/algorithms/algo_plane_plane.hh: intersect_plane_plane"]}
{"id": "C65", "title": "The network lists every registered sub-domain with all of its fragments", "statement": "In a contained network, the sub-domain ids are those registered, and the fragments of each sub-domain are exactly those into which the kernel splits it.", "quantifier": "all histories, all results of the Boolean fragment operation", "why_tests_cant": "Quantifies over all behaviours of the fragmentation kernel.", "anchors": ["frackit/entitynetwork/networkbuilder.hh: fragment_, ContainedEntityNetworkBuilder::build"]}
{"id": "C66", "title": "Building a network has defined behaviour", "statement": "build() never reads an indeterminate value, for every history of calls.", "quantifier": "all call histories", "why_tests_cant": "Needs a history without entities; undefined behaviour is not observable in a test.", "anchors": ["frackit/entitynetwork/networkbuilder.hh: build, entityDimension_"]}
{"id": "C67", "title": "The written compound has each sub-shape exactly once", "statement": "The compound written by the writers consists of the vertices, edges, wires, faces, shells and solids of the network, each exactly once (up to IsSame), and nothing else.", "quantifier": "all networks of any topology", "why_tests_cant": "Depends on how fragments share sub-shapes.", "anchors": ["frackit/io/brepwriter.hh: addSolids_, addFaces_, addEdges_, addVertices_, makeCompound_"]}
{"id": "C68", "title": "The sampling status warns exactly when a target is exceeded", "statement": "increaseCounter(id) prints the warning iff the count of id then exceeds its target, and setTargetCount(id,n) iff the count exceeds n.", "quantifier": "all histories of calls", "why_tests_cant": "Off-by-one errors show up only at the boundary after particular histories.", "anchors": ["frackit/sampling/status.hh: increaseCounter, setTargetCount"]}
{"id": "C69", "title": "The writers accept exactly the networks of supported dimensions", "statement": "The constructors of the writers throw for networks whose entities are not two-dimensional, and for contained networks whose domain dimension is not one higher; all other networks are accepted.", "quantifier": "all networks", "why_tests_cant": "Depends on the dimensions recorded by the builders.", "anchors": ["frackit/io/brepwriter.hh: BRepWriter"]}
{"id": "C70", "title": "Reported areas and volumes are those of the described sets", "statement": "The area of a disk or cylinder surface and the volume of a cylinder, hollow cylinder or sphere equal the integral of the lengths or areas of the sections of the set the geometry describes.", "quantifier": "all geometries of positive extents", "why_tests_cant": "Continuum; a test compares with the same closed formula.", "anchors": ["frackit/geometry/disk.hh: area", "frackit/geometry/cylinder.hh: volume", "frackit/geometry/hollowcylinder.hh: volume", "frackit/geometry/cylindersurface.hh: area", "frackit/geometry/sphere.hh: volume"]}
{"id": "C71", "title": "The tolerance of containment tests on planar polygons is a distance", "statement": "A point closer than eps to a convex polygon or quadrilateral is contained for the tolerance eps, and a point farther away than eps is not, as the documentation of the tolerance suggests.", "quantifier": "all convex polygons, points and tolerances", "why_tests_cant": "Continuum; tests use points far inside and far outside.", "anchors": ["frackit/geometry/polygon.hh: contains", "frackit/geometry/quadrilateral.hh: contains", "frackit/geometry/triangle.hh: contains"]}
{"id": "C72", "title": "computeLength returns the length of the curve", "statement": "computeLength(segment/circle/ellipse/full arc) is the arc length of the curve, and computeContainedMagnitude is the sum of the magnitudes of the pieces of the geometry inside the domain.", "quantifier": "all curves", "why_tests_cant": "Continuum; a test compares with the same closed formula.", "anchors": ["frackit/magnitude/length.hh: computeLength", "frackit/magnitude/containedmagnitude.hh: computeContainedMagnitude"]}
{"id": "C73", "title": "Points on the boundary are recognised", "statement": "pointOnGeometryBoundary(p,polygon/quadrilateral,eps) holds for the points closer than eps to the boundary, and for no points farther away than eps plus the tolerance of the containment test on segments.", "quantifier": "all polygons, quadrilaterals, points and tolerances", "why_tests_cant": "Continuum, any number of corners.", "anchors": ["frackit/distance/pointonboundary.hh: pointOnGeometryBoundary", "frackit/distance/pointongeometry.hh: pointOnGeometry"]}
{"id": "C74", "title": "The search for the part of a face on a line covers the whole face", "statement": "intersect(face,line) returns the common part of a planar face and a line: nothing is missed because the search is limited to a segment of the line. The same holds for the two searches in intersect(face,face).", "quantifier": "all planar faces, lines and pairs of faces larger than the tolerance", "why_tests_cant": "The length of the search segment is computed from the sizes of the faces; the ratio of sizes is unbounded.", "anchors": ["frackit/intersection/algorithms/algo_planargeom_line.hh: intersect_planarGeometry_line", "frackit/intersection/algorithms/algo_polygon_disk.hh: intersect_polygon_disk", "frackit/intersection/algorithms/algo_quadrilateral_disk.hh: intersect_quadrilateral_disk"]}
{"id": "C75", "title": "Sampled polygons and quadrilaterals are convex", "statement": "The corners of every polygon and quadrilateral returned by the samplers form a convex polygon with counter-clockwise orientation (with respect to the normal of the plane of the drawn strike and dip), as the documentation of the sampler promises.", "quantifier": "all draw streams, any number of corners", "why_tests_cant": "Unbounded number of corners, all draws.", "anchors": ["frackit/sampling/polygonsampler.hh: sampleCorners", "frackit/sampling/quadrilateralsampler.hh: operator()"]}
{"id": "C76", "title": "The extents of sampled polygons follow the drawn lengths", "statement": "The extents of a sampled polygon in strike and dip direction are between 80 and 100 percent of the lengths drawn.", "quantifier": "all draw streams, any number of corners", "why_tests_cant": "Unbounded number of corners, all draws.", "anchors": ["frackit/sampling/polygonsampler.hh: sampleCorners"]}
{"id": "C77", "title": "computeDistanceToBoundary of the Python module returns the distance to the boundary", "statement": "frackit.geometry.computeDistanceToBoundary(g1, g2) is the smallest distance of g1 to the boundary of g2 (edges of polygons and quadrilaterals, circle of a disk, faces of a box), also if g1 lies in g2.", "quantifier": "all pairs of geometries", "why_tests_cant": "The binding may call another function than the one it is named after; the tests of the module compare a handful of pairs, all outside.", "anchors": ["python/frackit/geometry/__init__.py: computeDistanceToBoundary", "python/geometry/distancetoboundary.hh: Detail::computeDistanceToBoundary"]}
{"id": "C78", "title": "The functions of the Python module act on the class of the object", "statement": "getShape, getBoundingBox, computeMagnitude, computeLength and computeDistance called from Python with an object of some class have the result of the C++ function for this class.", "quantifier": "all registered classes and objects", "why_tests_cant": "Overloads are tried in the order of registration and a base class may win; the tests call the functions for a few classes.", "anchors": ["python/occutilities/breputilities.hh: registerBRepUtilities", "python/geometry/magnitude.hh: registerMagnitude", "python/geometry/getboundingbox.hh: registerBoundingBox", "python/geometry/ellipsearc.hh: registerEllipseArc"]}
{"id": "C79", "title": "contains(point, eps) called from Python uses the tolerance given", "statement": "For all classes with a method contains, geometry.contains(point, eps) called from Python is the C++ contains(point, eps), for eps a float or an int, given by position or by name.", "quantifier": "all classes, objects, points and numbers", "why_tests_cant": "Overload resolution depends on the Python types of the arguments.", "anchors": ["python/geometry/disk.hh: registerDisk", "python/geometry/quadrilateral.hh: registerQuadrilateral", "python/geometry/segment.hh: registerSegment", "python/geometry/polygon.hh: registerPolygon"]}
{"id": "C80", "title": "Point, Vector, Direction and Circle construct what their arguments say", "statement": "Point and Vector construct an object with the coordinates given, by position, by name or as a list, of dimension one, two or three; other numbers of coordinates are rejected. Direction and Circle pass their arguments, positional or by name, to the class of the right dimension.", "quantifier": "all argument lists, lists of any length, positional and keyword arguments", "why_tests_cant": "The dispatch depends on number, kind and length of the arguments.", "anchors": ["python/frackit/geometry/__init__.py: Point, Vector, Direction, Circle"]}
{"id": "C81", "title": "computeDistance, computeLength, computeArea and computeVolume of the Python module", "statement": "computeDistance(g1, g2) is the distance computed by the C++ library; for a list of geometries it is the smallest of the distances. computeLength, computeArea and computeVolume accept exactly the geometries of dimension one, two and three and return their magnitude.", "quantifier": "all pairs of geometries for which the library computes distances, lists of any length", "why_tests_cant": "Fallback to shapes on any exception, lists of unbounded length.", "anchors": ["python/frackit/geometry/__init__.py: computeDistance, computeLength, computeArea, computeVolume", "python/geometry/distance.hh: registerComputeDistance"]}
{"id": "C82", "title": "Geometries behind pointers behave like the geometries", "statement": "Constraints evaluated on std::shared_ptr<Geometry> (alone, mixed with objects, or in sets), and computeContainedMagnitude of such a pointer, have the result obtained with the geometry pointed to.", "quantifier": "all geometry classes of the library, all constraints, sets of any size", "why_tests_cant": "All classes and pairs of classes; the dispatch is by hard-coded names.", "anchors": ["frackit/geometryutilities/applyongeometry.hh: applyOnGeometry", "frackit/geometryutilities/assign.hh: assign", "frackit/entitynetwork/constraints.hh: evaluate", "frackit/magnitude/containedmagnitude.hh: computeContainedMagnitude"]}
{"id": "C83", "title": "Intersections of cylinder surfaces and planar faces", "statement": "intersect(cylinderSurface, face, eps) for disks, quadrilaterals and convex polygons returns points, segments, arcs or an ellipse that together cover exactly the common points of the face and the surface, and EmptyIntersection only if there are none.", "quantifier": "all surfaces and faces in any orientation (orthogonal to the axis, oblique, along the axis), all tolerances", "why_tests_cant": "A continuum of positions; the arc is chosen by projections of points on the edges of wires, vertices are merged by tolerance.", "anchors": ["frackit/intersection/intersect.hh: intersect", "frackit/intersection/algorithms/algo_cylsurface_planargeom.hh: intersect_cylinderSurface_planarGeometry, makeArc", "frackit/intersection/algorithms/algo_cylsurface_disk.hh", "frackit/intersection/algorithms/algo_cylsurface_quadrilateral.hh", "frackit/intersection/algorithms/algo_cylsurface_polygon.hh"]}
{"id": "C84", "title": "Intersections of face shapes", "statement": "intersect(a, b, eps) for face shapes, or for a disk, quadrilateral, polygon or cylinder surface and a face shape, returns faces, edges and points of both arguments; every common point is within eps of one of them; EmptyIntersection is returned alone and only if there is no common point; points, edges and faces are not reported twice, neither on their own nor as part of a larger piece.", "quantifier": "all shapes (also curved ones), all results of the boolean operations, all tolerances", "why_tests_cant": "Shapes are arbitrary; the pieces are collected in three passes and merged by tolerance and identity.", "anchors": ["frackit/intersection/intersect.hh: intersect", "frackit/intersection/algorithms/algo_face_face_3d.hh: intersect_face_face_3d", "frackit/intersection/algorithms/algo_cylsurface_face.hh: intersect_cylinderSurface_face"]}
{"id": "C85", "title": "Shapes have the points of the geometries", "statement": "getShape(geometry) succeeds for every valid point, segment, circle, ellipse, ellipse arc, disk, quadrilateral, polygon, cylinder surface, cylinder, box and sphere, and the shape passed to OpenCascade has exactly the points of the geometry; degenerate geometries (coinciding corners, boxes without volume) are rejected with an exception.", "quantifier": "all geometries in any position and orientation, arcs across the angle zero, full arcs", "why_tests_cant": "A continuum of geometries; the local coordinate system is recomputed by OpenCascade from the normal and one axis, and arcs are given by parameters that may be equal or in the wrong order.", "anchors": ["frackit/occ/breputilities.hh: getShape, makeEdge", "frackit/occ/geomutilities.hh: getGeomHandle", "frackit/occ/gputilities.hh: point, direction"]}
{"id": "C86", "title": "Example networks satisfy their constraints", "statement": "When the sampling loops of examples 1, 2 and 3 end, the sets have the target sizes and all pairs of entities satisfy the stated constraints (spacing, intersection angle and magnitude, distance of intersections to boundaries), also with the boundaries of the domain; the contained area is not below the stated minimum. Entities are accepted in turns and in the order of sampling.", "quantifier": "all sampled streams, orders of the hash map, numbers of passes; any constraints, target sizes and evaluation of constraints", "why_tests_cant": "Random inputs: a run shows one stream; the stopping criterion, the choice of the sampler and the checks are interleaved with continue statements.", "anchors": ["appl/example1/example1.cc: main", "appl/example2/example2.cc: main", "appl/example3/example3.py", "appl/example1/example1.py", "appl/example2/example2.py", "appl/example3/example3.cc: main"]}
{"id": "C87", "title": "Networks grown around a tunnel are connected", "statement": "In example 4, all entities of the first set meet the tunnel, those of the second and third set meet an entity of the set before; no vertex is closer than the minimum to an intersection, at least a quarter of a candidate remains in the domain, the constraints hold within and between the sets. At most 500 candidates are tried per entity, and the message that the search was given up is printed if and only if it was. As stated in the README, all entities are connected to at least one other.", "quantifier": "all sampled streams, all results of the geometric operations", "why_tests_cant": "Three nested random searches whose results feed each other; the messages depend on which try succeeds.", "anchors": ["appl/example4/example4.cc: main", "appl/example4/example4.py", "appl/example4/README.md"]}
{"id": "C88", "title": "Both versions of example 4 use the constraints stated", "statement": "The constraints within the three sets, between them and with the boundaries are the ones stated in the comments, and the same in the C++ and the Python version of example 4.", "quantifier": "all pairs of entities and their distances, angles and intersections", "why_tests_cant": "Programs with random output cannot be compared by running them.", "anchors": ["appl/example4/example4.cc: constraints", "appl/example4/example4.py: constraints"]}
{"id": "C89", "title": "Networks written by the examples consist of the accepted entities", "statement": "The networks built at the end of the examples consist of exactly the fragments of the accepted entities, confined to the domain (examples 2 and 4), to the second layer or to all layers (example 3), or not at all (examples 1 and 3); the domains themselves are part of the contained networks. Building succeeds whenever the geometry kernel does.", "quantifier": "all entities and domains, all results of the geometry kernel, all orders of hash maps", "why_tests_cant": "The order of calls and reuse of a builder matters; needs all shapes and orders.", "anchors": ["appl/example1/example1.cc: main", "appl/example2/example2.cc: main", "appl/example3/example3.cc: main", "appl/example4/example4.cc: main", "frackit/entitynetwork/networkbuilder.hh: EntityNetworkBuilder, ContainedEntityNetworkBuilder"]}
{"id": "C90", "title": "Sub-shape functions list every sub-shape exactly once", "statement": "getSolids, getShells, getFaces, getWires, getEdges and getVertices return exactly the sub-shapes of the kind that a shape has, each of them once, for all wrappers of shapes that are not less complex; for the others they raise TypeError. They never hang and never leave the memory of the program, whatever was done with the shapes before.", "quantifier": "all programs that build, combine, move and query shapes", "why_tests_cant": "Shapes are directed graphs with shared nodes that programs extend; all histories are needed.", "anchors": ["frackit/occ/breputilities.hh: getVertices, getEdges, getFaces, getWires, getShells, getSolids", "frackit/python/occutilities/breputilities.hh: registerSubShapeGetterFunctions"]}
{"id": "C91", "title": "Edges along which two faces coincide", "statement": "getOverlapEdges(face1, face2) returns the edges the two faces have in common, each of them once, independently of the order of the faces, also if the faces were moved.", "quantifier": "all programs that build, combine, move and query shapes, all pairs of faces", "why_tests_cant": "Edges are compared by identity of nodes and locations, which depends on how the faces came about.", "anchors": ["frackit/occ/breputilities.hh: getOverlapEdges, getEdges"]}
{"id": "C92", "title": "A compound has what was added to it", "statement": "A compound contains exactly the shapes that were added to it, in this order. Adding to a compound changes no other object, in particular none that was made from it before; adding fails only if the compound has become part of another shape or would become part of itself, and then nothing has changed.", "quantifier": "all programs that build, combine, move and query shapes", "why_tests_cant": "Wrappers share nodes; a later addition through one object can be seen through another. Needs all histories.", "anchors": ["frackit/python/geometry/brepwrapper.hh: BRepWrapper<TopoDS_Compound>", "frackit/python/geometry/brepwrappers.hh: registerBRepWrapper, registerCompoundWrapper"]}
{"id": "C93", "title": "Translated shapes", "statement": "translate(shape, vector) succeeds for every shape and returns a shape of the same class whose sub-shapes are those of the argument, moved by the vector; the argument is not changed, and later changes of the argument do not affect the result.", "quantifier": "all programs that build, combine, move and query shapes, all vectors", "why_tests_cant": "The result shares its nodes with the argument; all histories are needed.", "anchors": ["frackit/occ/breputilities.hh: translate", "frackit/python/occutilities/breputilities.hh: translate, parseShape, getSingleEntity"]}
{"id": "C94", "title": "Failed additions of geometries", "statement": "If a geometry cannot be converted to a shape, adding it to a network builder throws and leaves the builder as it was: later additions and builds behave as if the call had not been made. With convertible geometries the builder behaves as with their shapes.", "quantifier": "all builders, call histories, geometries with and without a shape, ids, kernels", "why_tests_cant": "The effect of a caught exception shows only in later calls, over all histories.", "anchors": ["frackit/entitynetwork/networkbuilder.hh: addSubDomain, addSubDomainEntity, addEntity", "frackit/occ/breputilities.hh: getShape"]}
{"id": "C95", "title": "Network builders in Python", "statement": "The Python classes EntityNetworkBuilder and ContainedEntityNetworkBuilder have the methods of the C++ builders and do the same; arguments of other classes, and ids that are not Id objects, are a TypeError without effect; lists are added completely or not at all.", "quantifier": "all programs that call the builders with arbitrary arguments and catch exceptions", "why_tests_cant": "The overloads, the loops in Python and the state of the builder interact over all call histories.", "anchors": ["frackit/python/entitynetwork/networkbuilder.hh: registerEntityNetworkBuilders", "frackit/python/entitynetwork/networkbuilderwrappers.hh", "python/frackit/entitynetwork/__init__.py: EntityNetworkBuilder, ContainedEntityNetworkBuilder", "frackit/python/common/id.hh"]}
{"id": "C96", "title": "Constraints on disks, quadrilaterals, polygons and cylinder surfaces mean what they say", "statement": "EntityNetworkConstraints.evaluate(face1, face2) accepts two crossing planar faces exactly if the active thresholds hold for the sets of points: for disjoint faces their distance is at least the minimum distance; for faces with a common point or segment the angle between the planes, the length of the segment, and the distances of its ends from the boundaries of both faces are at least the thresholds (ends on a boundary count as admissible). It does not throw for geometries of the supported types, and a set of faces is accepted iff each of its members is.", "quantifier": "all pairs of disks, convex quadrilaterals and polygons (and cylinder surfaces), all sequences of setter calls, all thresholds", "why_tests_cant": "A test fixes a pair of faces and thresholds; the decision has to be right for every position, every combination of active constraints and every dispatch to the per-type functions.", "anchors": ["frackit/entitynetwork/constraints.hh: EntityNetworkConstraints::evaluate", "frackit/entitynetwork/constraints_impl/distancetoboundary.hh", "frackit/entitynetwork/constraints_impl/admissiblemagnitude.hh", "frackit/distance/distancetoboundary.hh", "frackit/distance/pointonboundary.hh", "frackit/intersection/intersect.hh"]}
{"id": "C97", "title": "The network of example 1 has the spacing the constraints ask for", "statement": "When the program example 1 ends its sampling loop, each of its two sets holds 15 quadrilaterals of its sampler, and any two quadrilaterals within a set keep a minimum distance of 0.05, a minimum length 0.05 of their intersection, a distance 0.05 of its ends from the boundaries and an angle of 30 degrees (40 degrees across the sets). More generally, the faces accepted by such a loop keep the constraints as statements about sets of points, a candidate that keeps them is accepted and one that does not is rejected.", "quantifier": "all sequences of random values in the ranges of the samplers, all numbers of passes, all constraints", "why_tests_cant": "The statement is about every pair in every network the program can generate; a run with one seed shows one network, and its spacing is only visible on sets of points.", "anchors": ["appl/example1/example1.cc", "frackit/sampling/quadrilateralsampler.hh", "frackit/entitynetwork/constraints.hh: EntityNetworkConstraints::evaluate", "frackit/sampling/status.hh: SamplingStatus"]}
{"id": "C98", "title": "Bounding boxes in double precision hide no intersection", "statement": "For all boxes with double coordinates, whatever the rounding: two boxes with a common point are reported to intersect, a box contains each of its points, boxes that are reported to intersect are apart by no more than the tolerance and the rounding error, and a box can be constructed exactly from ordered numbers.", "quantifier": "all boxes and points with double coordinates, including infinities and NaN where stated", "why_tests_cant": "The rounding of the tolerance depends on all 64 bits of each coordinate; tests use small coordinates, where the tolerance is far above the rounding error.", "anchors": ["frackit/geometry/box.hh: Box, contains", "frackit/intersection/bboxintersection.hh: doIntersect", "frackit/precision/defaultepsilon.hh"]}
{"id": "C99", "title": "Distances, equality and directions of points in double precision", "statement": "For all points with double coordinates, whatever the rounding: computeDistance(p, q) and isEqual(p, q, eps) do not depend on the order of the points, a distance is not negative and accurate to a few units in the last place, two points are equal iff their distance is below the tolerance up to such an error, and a Direction has the length 1 and the direction of its vector up to such an error.", "quantifier": "all points and vectors with double coordinates, all tolerances", "why_tests_cant": "There are 2^384 pairs of points; the error bound and the symmetry are statements about all of them.", "anchors": ["frackit/geometry/vector.hh: squaredLength, length", "frackit/geometry/point.hh: isEqual", "frackit/geometry/direction.hh: Direction", "frackit/distance/distance.hh: computeDistance"]}
{"id": "C100", "title": "Geometry in one and two dimensions is that of space with zero coordinates added", "statement": "Points, vectors, directions, lines and segments of one- and two-dimensional spaces behave as those of three-dimensional space whose missing coordinates are zero: lengths, scalar products, distances, equality with a tolerance, projections onto lines, containment in lines and segments, distances to lines and segments give the same results (lengths, scalar products and distances of points bit for bit in double precision), results stay in the space, the product of two plane vectors is the determinant and is zero exactly for parallel vectors. Objects built from a list of coordinates have these coordinates, and default-constructed ones are at the origin.", "quantifier": "all coordinates, tolerances, lines and segments; dimensions one, two and three; any list of coordinates", "why_tests_cant": "The dimension is a template parameter and each property ranges over all coordinates; the tests instantiate a few values per dimension, and an uninitialised coordinate may read as zero in a test.", "anchors": ["frackit/geometry/point.hh: PointBase, Point", "frackit/geometry/vector.hh: VectorBase, Vector", "frackit/geometry/direction.hh: Direction", "frackit/geometry/line.hh: Line", "frackit/geometry/segment.hh: Segment", "frackit/distance/distance.hh: computeDistance", "frackit/common/math.hh: crossProduct"]}
{"id": "C101", "title": "Constraints on faces of OpenCascade mean what they say", "statement": "For two entities of which at least one is a face shape (TopoDS_Face), evaluate(e1, e2) of EntityNetworkConstraints returns true exactly if, up to 10^-7 times the size of the faces, the points and edges they have in common satisfy each active constraint: the edges have the minimum length, the normals of both entities at the common points enclose the minimum angle, the ends of edges and isolated points keep the minimum distance from the boundary of each face unless they are on it, and entities without common points have the minimum distance. Entities that overlap in a face are rejected unless this is allowed.", "quantifier": "all faces and planar geometries for which OpenCascade reports the common points and edges, all settings of the constraints", "why_tests_cant": "The common points, normals and distances range over all shapes; the tests construct the constraints with a few boxes and disks and check one threshold each, and no test has a face with a hole.", "anchors": ["frackit/entitynetwork/constraints.hh: EntityNetworkConstraints::evaluate", "frackit/entitynetwork/constraints_impl/distancetoboundary.hh: ConstraintImpl::isAdmissibleDistanceToBoundary", "frackit/distance/distancetoboundary.hh: computeDistanceToBoundary", "frackit/distance/pointonboundary.hh: pointOnGeometryBoundary", "frackit/intersection/intersectionangle.hh: IntersectionAngle", "frackit/intersection/intersect.hh: intersect"]}
{"id": "C102", "title": "Distances to boundaries are the smallest distances to the points of the boundary", "statement": "computeDistanceToBoundary(a, b) for a shape or geometry a and a disk, quadrilateral, polygon, cylinder surface, face or solid b returns the smallest distance of a point of a and a point of the boundary of b, including the boundaries of holes and cavities; if the distance cannot be computed an exception is raised.", "quantifier": "all geometries, shapes, faces and solids for which OpenCascade computes distances of shapes", "why_tests_cant": "The boundary consists of any number of edges, curves, wires and shells; a missed part of the boundary shows only if it is the closest one. The tests measure points only, and there is no face with a hole and no solid with a cavity.", "anchors": ["frackit/distance/distancetoboundary.hh: computeDistanceToBoundary", "frackit/distance/distance.hh: computeDistance", "frackit/occ/breputilities.hh: getShape"]}
{"id": "C103", "title": "Points sampled in double precision lie in the domain", "statement": "A point drawn by the sampler of a box has, whatever the rounding, coordinates within those of the box, and the box contains it; a point drawn in a cylinder or hollow cylinder has a distance from the axis and a height within those of the domain; numbers are drawn from the half-open range [a, b); and spheres and cylinders contain, in double precision, the points that are in them and not those further out than a rounding error.", "quantifier": "all boxes, cylinders, hollow cylinders, spheres and points with double coordinates, all random numbers from [0, 1)", "why_tests_cant": "Whether the rounded product and sum stay within the range depends on every bit of three numbers; a test draws a few random numbers in a unit box, and never the largest below one.", "anchors": ["frackit/sampling/makepointsampler.hh: makeUniformPointSampler", "frackit/sampling/boxpointsampler.hh: BoxPointSampler", "frackit/sampling/cylinderpointsampler.hh: CylinderPointSampler", "frackit/geometry/box.hh: Box::contains", "frackit/geometry/sphere.hh: Sphere::contains", "frackit/geometry/cylinder.hh: Cylinder::contains"]}
{"id": "C104", "title": "Lines, planes and segments decide in double precision by the distance", "statement": "In double precision, a line, plane or segment contains a point if its distance is below the tolerance and does not contain it if its distance is above, up to a rounding error proportional to the coordinates; the distance of a point to a line or segment is the exact distance up to such an error; and a segment contains the points it returns for a parameter between 0 and 1, and has the distance zero to them, up to the default tolerance.", "quantifier": "all lines, planes, segments, points and tolerances in double precision", "why_tests_cant": "The accumulated rounding errors of some forty operations have to be bounded for all operands at once; tests use coordinates around one, where the errors are far below the tolerance.", "anchors": ["frackit/geometry/line.hh: Line::contains, Line::projection", "frackit/geometry/plane.hh: Plane::contains", "frackit/geometry/segment.hh: Segment::contains, Segment::getPoint", "frackit/distance/distance.hh: computeDistance"]}
{"id": "C105", "title": "Areas decide in double precision whether a figure contains a point", "statement": "In double precision, the area of a triangle, quadrilateral or polygon is the exact area up to a rounding error proportional to the square of its size, independently of where it lies; the centre of a triangle is the mean of its corners; and a convex figure contains the points in or near it and does not contain the points that lie beyond its edges, if the tolerance exceeds 2^-22 of the size.", "quantifier": "all triangles, quadrilaterals, polygons with up to 1000 corners, points and tolerances in double precision", "why_tests_cant": "The rounding errors of the areas of all triangles between the point and the edges have to be bounded for all corners at once; tests use a few figures of size one.", "anchors": ["frackit/geometry/triangle.hh: Triangle, contains", "frackit/geometry/quadrilateral.hh: Quadrilateral, contains, area", "frackit/geometry/polygon.hh: Polygon, contains, area", "frackit/geometry/triangulation.hh: triangulate"]}
{"id": "C106", "title": "Round bodies decide in double precision which points they contain", "statement": "In double precision, a sphere, a cylinder, a cylinder surface or a hollow cylinder contains a point if its exact distance to the centre, or its exact position along the axis and exact distance from the axis, lies within the bounds, and does not contain it if one of them exceeds the bounds, unless it is closer to a bound than a margin proportional to the coordinates; and the default tolerances are the documented fractions of radius and height.", "quantifier": "all spheres, cylinders, cylinder surfaces, hollow cylinders, points and tolerances in double precision", "why_tests_cant": "The projection to the axis and the squares are rounded, and the tolerance is added to the squares; the set of affected points is not visible in tests with a few points.", "anchors": ["frackit/geometry/sphere.hh: Sphere, contains", "frackit/geometry/cylinder.hh: Cylinder, contains", "frackit/geometry/cylindersurface.hh: CylinderSurface, contains", "frackit/geometry/hollowcylinder.hh: HollowCylinder, contains"]}
{"id": "C107", "title": "Intersection angles and the minimum angle in double precision", "statement": "In double precision, with trigonometric functions that are accurate to the last digits, the angle returned for two planar geometries is the angle between their stored normals up to 2^-22, and two fractures that meet in a point or a segment are accepted if their angle exceeds the minimum angle by this error and rejected if it falls below the minimum by this error.", "quantifier": "all pairs of planar geometries with normals of length 1 up to 2^-50, all minimum angles, all accurate trigonometric functions", "why_tests_cant": "The arccosine is not Lipschitz at 1 and undefined above 1, and the product of two rounded unit vectors may exceed 1; the nearly parallel pairs that are affected are not hit by tests.", "anchors": ["frackit/intersection/intersectionangle.hh: IntersectionAngle", "frackit/entitynetwork/constraints.hh: EntityNetworkConstraints, evaluate, setMinIntersectingAngle"]}
{"id": "C108", "title": "Frames, points of curves and sampled points in double precision", "statement": "In double precision, with trigonometric functions that are accurate to the last digits, the axes and the normal of a circle are unit vectors that are orthogonal up to 2^-47 and the normal is the given one up to 2^-46; the point of an ellipse, a circle or an arc at a parameter is the point at the corresponding angle up to 2^-45 of the coordinates; and a point sampled in a cylinder lies at the sampled radius, angle and height up to 2^-47 of the coordinates, and within the cylinder up to 2^-44 of the coordinates.", "quantifier": "all centres, radii and heights of magnitudes up to any M from 2^-400 to 2^400, all normals with components that are zero or 2^-100 at least, all parameters, all draws, all accurate trigonometric functions", "why_tests_cant": "The rounding errors of a chain of products, sums and normalizations depend on every digit of the input; tests compare some points with a tolerance.", "anchors": ["frackit/geometry/circle.hh: Circle", "frackit/geometry/ellipse.hh: Ellipse, getPoint", "frackit/geometry/ellipsearc.hh: EllipseArc, getPoint", "frackit/sampling/cylinderpointsampler.hh: CylinderPointSampler, operator()"]}
{"id": "C109", "title": "Boundaries, lengths and their constraints in double precision", "statement": "In double precision, the distance of a point to the boundary of a quadrilateral or a polygon is too large by 2^-45 of the coordinates at most, and too small by a ten-millionth of the longest edge and 2^-42 of the coordinates at most; a point is found to be on the boundary if it is closer than the tolerance less the first bound and not found to be on it if it is further away than the tolerance plus the second; the length of a segment is exact up to 2^-48 of the coordinates; and the constraints on the length of the intersection and on its distance to the boundaries accept and reject accordingly, where an end of the intersection that is on a boundary is not required to keep a distance from it.", "quantifier": "all quadrilaterals and polygons with edges that are not short compared to their coordinates, all points with coordinates up to any M from 2^-400 to 2^400, all tolerances and thresholds, all results of the geometry kernel", "why_tests_cant": "The rounding errors depend on every digit of the input, and the decision changes where the exact distance is near the threshold; tests use a few points far from it.", "anchors": ["frackit/distance/distancetoboundary.hh: computeDistanceToBoundary", "frackit/distance/pointonboundary.hh: pointOnBoundary", "frackit/magnitude/length.hh: computeLength", "frackit/entitynetwork/constraints_impl/distancetoboundary.hh: isAdmissibleDistanceToBoundary"]}
{"id": "C110", "title": "Disks, ellipses and circles contain points in double precision", "statement": "For doubles of moderate size, whether a disk, an ellipse or a circle contains a point is decided by the distance of the point to the plane and by the factor by which the disk must be scaled for the point to be on its rim (for circles, by the distance to the centre), up to an error that is a small multiple of the unit roundoff times the size of the coordinates (relative to the half axes). They contain the points they return themselves at any parameter, if the tolerance exceeds such an error.", "quantifier": "all disks, ellipses and circles with double coordinates, all points, all tolerances of moderate size, all parameters", "why_tests_cant": "rounding depends on the exact coordinates; the test of disks compares a sum of quotients of squares to 1 + eps^2, which is lost in rounding for small tolerances, and only some of the points of the rim show it", "anchors": ["frackit/geometry/disk.hh: contains", "frackit/geometry/ellipse.hh: contains, getPoint, getPointFromAngle", "frackit/geometry/circle.hh: contains, getPoint", "frackit/geometry/ellipticalgeometry.hh: supportingPlane"]}
{"id": "C111", "title": "The .geo file says what the network is", "statement": "Gmsh reads from the .geo file that is written for a network: the .brep file written with it, the two mesh sizes, and one physical group for every domain, entity and intersection with its kind, tag and members, with the mesh size of the boundary at the domains and that of the entities at the entities. The mesh sizes are the ones given, and the file can be read whatever its name is.", "quantifier": "all networks of two- or one-dimensional entities, all numbers of groups and members, all mesh sizes, all file names", "why_tests_cant": "the text is put together from pieces for any number of groups, tags and members; numbers are formatted with six digits, which only shows for some sizes, and the names of files only matter when the file is read from elsewhere", "anchors": ["frackit/io/gmshwriter.hh: write", "frackit/io/brepwriter.hh: write"]}
{"id": "C112", "title": "Angles and arcs of ellipses in double precision", "statement": "For points close to an ellipse, in double precision, the angle and the parameter that are returned are those of the point up to a stated multiple of the rounding and of the distance to the ellipse, angles close to a multiple of the right angle are replaced by it, no error is raised, and the point with the returned angle is the point that was given. An arc contains exactly the points whose angle is between those of its ends, unless they differ by the tolerance and a stated error, and in particular all the points it returns.", "quantifier": "all ellipses, circles and arcs in moderate coordinates whose half axes are not too different, all points close to them, all parameters and tolerances, all accurate trigonometric functions", "why_tests_cant": "the errors depend on the ratio of the half axes and the place of the point; angles close to the axes are treated separately, which only matters for points in a band of width 1e-7", "anchors": ["frackit/geometry/ellipse.hh: getAngle, getParam, getPointFromAngle, contains", "frackit/geometry/ellipsearc.hh: contains, getPoint"]}
{"id": "C113", "title": "Intersections of segments, planes and lines in double precision", "statement": "In double precision, whatever OpenCascade returns for its part of the computation, the points of an intersection of two segments are within the tolerance and a stated error of both segments; an exception is only raised if none of the vertices returned by OpenCascade is near both; no intersection is only reported if no ends are near each other. The intersections of planes and lines, of two planes, and of a disk and a line are on both up to the tolerance and a stated error.", "quantifier": "all segments, planes, lines and disks in moderate coordinates, all tolerances, all results of OpenCascade in moderate coordinates, all trigonometric functions", "why_tests_cant": "the error grows with the coordinates and not with the size of the segments, so that tests around the origin do not show it", "anchors": ["frackit/intersection/algorithms/algo_segment_segment.hh", "frackit/intersection/algorithms/algo_plane_line.hh", "frackit/intersection/algorithms/algo_plane_plane.hh", "frackit/intersection/algorithms/algo_planargeom_line.hh", "frackit/intersection/intersect.hh: intersect"]}
{"id": "C114", "title": "Rotations and sampled disks in double precision", "statement": "In double precision a vector that is turned about an axis is the exactly turned one, up to 2^-44 of its coordinates, and keeps its length. The axes of a sampled disk are those of the exact rotations about the three coordinate axes by the drawn angles up to 2^-46; they are of unit length and orthogonal to each other and to the normal up to a stated rounding error, so that the assertion on them never fails; its half axes are the first positive values drawn, and the minor one is at most the major one.", "quantifier": "all vectors in moderate coordinates, all axes, all angles up to 2^20, all sequences of draws, all accurate trigonometric functions", "why_tests_cant": "the errors of the sines and cosines, of the matrix and of three successive rotations add up; that they stay below the tolerance of the assertion for all angles cannot be tested", "anchors": ["frackit/common/math.hh: rotate", "frackit/sampling/disksampler.hh: operator()", "frackit/geometry/ellipticalgeometry.hh: EllipticalGeometry"]}
{"id": "C115", "title": "Sampled polygons and quadrilaterals in double precision", "statement": "In double precision a sampled polygon or quadrilateral has the drawn number of corners; each of its edges, the closing one included, is a step in the plane of the drawn strike and dip times the drawn lengths up to n 2^-40 of the coordinates, where n is the number of corners; the steps add up to zero but for one rounding each and extend over at least 0.79 and at most 1.01 of the lengths; the corners are in one plane up to the same bound, and the middle of their bounding box is the drawn centre up to 2^-49 of the coordinates. Sampling fails exactly if too many unusable values are drawn.", "quantifier": "all sequences of draws of lengths, angles up to 2^20, centres and values in the unit interval, up to 1000 corners, all orders std::sort may produce, all accurate trigonometric functions", "why_tests_cant": "the rounding errors of the differences, of two rotations of every edge and of the sums of the edges accumulate with the number of corners; whether the polygon closes and is plane for all draws cannot be tested", "anchors": ["frackit/sampling/polygonsampler.hh: operator()", "frackit/sampling/quadrilateralsampler.hh: operator()", "frackit/common/math.hh: rotate"]}
{"id": "C116", "title": "The checks of debug builds accept valid input", "statement": "In builds with assertions, valid geometries and results pass the checks of the library: quadrilaterals and polygons whose corners lie in a plane, points on an ellipse given as the ends of an arc, orthonormal bases of planes, parallel planes between which an angle is computed, and the polygons that the samplers construct themselves; input that is not valid does not pass.", "quantifier": "all corners, ellipses, bases and planes; all draws of a polygon sampler, all orders std::sort may produce", "why_tests_cant": "the checks compare sizes with tolerances that depend on the geometry; whether some valid geometry or some draw of a sampler ends the program cannot be settled by examples", "anchors": ["frackit/geometry/polygon.hh: Polygon", "frackit/geometry/quadrilateral.hh: Quadrilateral", "frackit/geometry/plane.hh: Plane", "frackit/geometry/ellipsearc.hh: EllipseArc", "frackit/intersection/intersectionangle.hh: operator()", "frackit/common/math.hh: isRightHandSystem", "frackit/sampling/polygonsampler.hh: operator()"]}
{"id": "C117", "title": "The points that samplers draw are spread over their domain", "statement": "Every point that a point sampler draws lies in its domain, samplers with different seeds draw different points, points do not repeat within the number of points a program draws, and the points reach all parts of the domain.", "quantifier": "all seeds, all numbers of draws, all boxes and cylinders", "why_tests_cant": "a test draws a few points for a few seeds; the period of the engine, the seeds that coincide, and the planes on which all of its points lie only show over all two billion states of the engine", "anchors": ["frackit/sampling/boxpointsampler.hh: operator()", "frackit/sampling/cylinderpointsampler.hh: operator()", "frackit/sampling/uniformpointsamplertraits.hh: UniformPointSamplerTraits", "frackit/sampling/disksampler.hh: generator_", "frackit/sampling/quadrilateralsampler.hh: generator_", "frackit/sampling/polygonsampler.hh: generator_"]}
{"id": "C118", "title": "Quadrilaterals of the strike, dip and length sampler have their lengths in double precision", "statement": "A quadrilateral sampled from a strike, a dip and edge lengths (the deprecated sampler) lies, in double precision, in the plane with that strike and dip through the point drawn, has the corners that its lengths prescribe up to a bound relative to the size of the coordinates, none of the lengths is below the minimum, and a quadrilateral is always returned.", "quantifier": "all angles up to 2^20, all points and lengths that are numbers of a common size between 2^-300 and 2^300, all minima, all sequences of draws", "why_tests_cant": "a test compares a few corners with a tolerance; the bound has to hold for all angles, points and lengths, and whether sampling ends depends on the numbers drawn", "anchors": ["frackit/sampling/quadrilateralsampler.hh: operator()", "python/frackit/sampling/__init__.py: QuadrilateralSampler", "frackit/common/math.hh: rotate"]}
{"id": "C119", "title": "Draws from the distributions of a sampler end and stay in the range of the distribution", "statement": "Drawing numbers from the distributions that are passed to samplers (uniform integers, uniform numbers, normal distributions) ends for every seed; uniform integers are in their range, equally likely, and all occur; uniform numbers are in their range, the upper end excluded; numbers of a normal distribution are finite and near the mean on the scale of the standard deviation.", "quantifier": "all seeds, all numbers of draws, all ranges of up to 2147483646 integers, all ranges of doubles up to 2^1021, all means and standard deviations between 2^-900 and 2^900", "why_tests_cant": "distributions draw values of the engine again until one is accepted; that this ends for every one of the two billion states, and that no state gives an infinite angle or a length outside of its range, cannot be tested by drawing", "anchors": ["appl/example4/example4.cc: getSampler", "frackit/sampling/polygonsampler.hh: operator()", "frackit/sampling/disksampler.hh: operator()", "frackit/sampling/quadrilateralsampler.hh: operator()"]}
{"id": "C120", "title": "Distributions are made from parameters that they accept", "statement": "The distributions that a point sampler for a domain makes, and those that the example applications pass to their samplers, satisfy what the C++ standard demands: the ends of a uniform range are in order and standard deviations are positive; otherwise the behaviour is undefined.", "quantifier": "all boxes, cylinders and hollow cylinders that can be constructed from doubles; all lengths in the example applications", "why_tests_cant": "libstdc++ checks this in builds with assertions only; without them a wrong order shows nowhere but in the numbers, which look like lengths all the same", "anchors": ["appl/example2/example2.cc: quadSampler2", "appl/example2/example2.py", "appl/example1/example1.cc", "appl/example3/example3.cc", "frackit/sampling/makeuniformpointsampler.hh: makeUniformPointSampler", "frackit/geometry/cylinder.hh: Cylinder", "frackit/geometry/box.hh: Box"]}
