{
 "claims": [
  {
   "property": "C01",
   "status": "proved",
   "theorems": [
    "c01_count_is_successes",
    "c01_frame"
   ],
   "note": "Counts are size_t, i.e. modulo 2^64."
  },
  {
   "property": "C02",
   "status": "partial",
   "theorems": [
    "c02_finished_iff",
    "c02_finished_id",
    "c02_query_changes_finished_refuted"
   ],
   "note": "Proved for histories in which each id gets its target before other use; finding: getCount(id)/resetCounter(id) of an id without target inserts it and makes finished() throw out_of_range."
  },
  {
   "property": "C03",
   "status": "partial",
   "theorems": [
    "c03_total_count_partial",
    "c03_total_count_refuted"
   ],
   "note": "Holds below 2^31; finding: std::accumulate with int initial value truncates the sum."
  },
  {
   "property": "C04",
   "status": "partial",
   "theorems": [
    "c04_reset_is_fresh",
    "c04_reset_counters_partial",
    "c04_rejected_counter",
    "c04_rejected_not_reset_refuted"
   ],
   "note": "Finding: resetCounters() keeps the rejected counter."
  },
  {
   "property": "C05",
   "status": "partial",
   "theorems": [
    "c05_print_partial",
    "c05_print_fresh_refuted",
    "c05_print_throws_refuted",
    "c05_misaligned_refuted"
   ],
   "note": "Findings: NaN to int conversion before the first sample or without targets, length_error when progress reaches 100000 %, ratio column one character too wide when 99.995..100 is rounded up."
  },
  {
   "property": "C06",
   "status": "proved",
   "theorems": [
    "c06_round",
    "c06_fair"
   ],
   "note": ""
  },
  {
   "property": "C07",
   "status": "proved",
   "theorems": [
    "c07_strategy_ids",
    "c07_draws"
   ],
   "note": ""
  },
  {
   "property": "C08",
   "status": "proved",
   "theorems": [
    "c08_draw",
    "c08_duplicate_rejected",
    "c08_new_id_accepted",
    "c08_any_strategy"
   ],
   "note": "Sampler draws are streams; the strategy is arbitrary as long as it returns registered ids."
  },
  {
   "property": "C09",
   "status": "partial",
   "theorems": [
    "c09_replace_strategy_partial",
    "c09_strategy_loses_ids_refuted",
    "c09_duplicate_id_refuted"
   ],
   "note": "Findings: setSamplingStrategy after addGeometrySampler forgets the registered ids: the next draw throws; an id may then be registered twice."
  },
  {
   "property": "C10",
   "status": "proved",
   "theorems": [
    "c10_set_is_map",
    "c10_outcomes"
   ],
   "note": ""
  },
  {
   "property": "C100",
   "status": "partial",
   "theorems": [
    "c100_points",
    "c100_directions",
    "c100_inverse",
    "c100_lines",
    "c100_segments",
    "c100_segment_points",
    "c100_segment_plane",
    "c100_cross",
    "c100_arithmetic",
    "c100_segment_same",
    "c100_parallel",
    "c100_double",
    "c100_three",
    "c100_three_lines",
    "c100_coordinates_partial",
    "c100_list_refuted",
    "c100_direction_refuted"
   ],
   "note": "The sentence on construction is false and only proved for lists that are long enough (c100_coordinates_partial): coordinates beyond a shorter initializer list are never written (c100_list_refuted), nor are those of a default-constructed Direction (c100_direction_refuted). Vector-valued results in double precision are compared with space only for three dimensions (c100_three)."
  },
  {
   "property": "C101",
   "status": "partial",
   "theorems": [
    "c101_evaluate_partial",
    "c101_holes_refuted",
    "c101_eps_refuted",
    "c101_overlap",
    "c101_overlap_distance",
    "c101_surface_refuted"
   ],
   "note": "Proved for face shapes and planar geometries with the outer boundary in place of the boundary (c101_evaluate_partial). Findings: holes are not part of the boundary, so that an edge that ends next to a hole is admissible (c101_holes_refuted; a note at distancetoboundary.hh:233-234 says that the helper ignores holes, the documentation of the constraints does not); the tolerance passed to pointOnGeometryBoundary is not used for face shapes (c101_eps_refuted); a minimum angle between a cylinder surface and a face shape makes evaluate throw (c101_surface_refuted). Missing: face shapes that are curved with planar geometries (see C62) and the values for overlaps that are allowed."
  },
  {
   "property": "C102",
   "status": "partial",
   "theorems": [
    "c102_shape_partial",
    "c102_geometry_partial",
    "c102_failure",
    "c102_quadrilateral_refuted",
    "c102_cavity_refuted",
    "c102_hole_refuted"
   ],
   "note": "Proved for the pairs that are implemented and boundaries without holes and cavities, if OpenCascade computes the distances of the parts. Findings: for geometries other than points the boundaries of quadrilaterals and polygons are rejected at run time although the same call with the geometry's shape works (c102_quadrilateral_refuted); cavities of solids and holes of faces are ignored (c102_cavity_refuted, c102_hole_refuted; documented for shape and face only). Points: C59, C73."
  },
  {
   "property": "C103",
   "status": "partial",
   "theorems": [
    "c103_range",
    "c103_end_refuted",
    "c103_box",
    "c103_box_contained_partial",
    "c103_huge_refuted",
    "c103_cylinder_draws",
    "c103_hollow_draws",
    "c103_sphere_partial",
    "c103_cylinder_refuted"
   ],
   "note": "With the formula of libstdc++ for uniform numbers. Boxes: coordinates up to 2^1021; that the box reports to contain the point is proved up to 4 10^8 times the size. Spheres: coordinates up to 2^500 and differences of at least 2^-500. Findings: the upper end of a range can be drawn (c103_end_refuted); larger boxes give NaN (c103_huge_refuted); a cylinder of radius 1 at 10^5 rejects a point 8 10^-12 below its surface (c103_cylinder_refuted). Missing: the coordinates of the points of cylinders in double precision (sine and cosine)."
  },
  {
   "property": "C104",
   "status": "partial",
   "theorems": [
    "c104_line_distance",
    "c104_line",
    "c104_plane",
    "c104_segment",
    "c104_segment_default",
    "c104_segment_distance_partial",
    "c104_far_refuted",
    "c104_far_distance_refuted"
   ],
   "note": "Coordinates and tolerances between 2^-400 and 2^400, coordinates of the ends of a segment equal or 2^-500 apart, directions of length 1 up to 2^-50 (all those made by the library are, C99). The distance to a segment is proved for segments longer than 10^7 2^-42 (2 10^-6) of the coordinates. Findings: shorter segments do not contain the points they return (c104_far_refuted, a segment of length 1.4 at 2 10^10) and the distance of these to the segment can be the one to an end (c104_far_distance_refuted, 0.52 instead of 0 at 2 10^9)."
  },
  {
   "property": "C105",
   "status": "partial",
   "theorems": [
    "c105_triangle_area",
    "c105_triangle_center",
    "c105_triangle",
    "c105_quadrilateral",
    "c105_polygon",
    "c105_small_tolerance_refuted"
   ],
   "note": "Sizes between 2^-200 and 2^200, tolerances between 2^-400 and 2^400. The test of the areas (checkIfOnPlane = false) is covered; the test of the supporting plane is C104 for a plane whose normal is a direction. The error for n corners is (2 n^2 + 40 n) 2^-53 of the square of the size. Finding: with smaller tolerances (7 10^-9 of the size; the default ones are 10^-7 of a diagonal) inner points are not contained (c105_small_tolerance_refuted)."
  },
  {
   "property": "C106",
   "status": "partial",
   "theorems": [
    "c106_sphere",
    "c106_cylinder",
    "c106_surface",
    "c106_hollow_partial",
    "c106_defaults",
    "c106_inner_wall_refuted"
   ],
   "note": "Coordinates and radii up to M between 2^-400 and 2^400; the margin is 2^-42 M (2^-51 M for spheres). c106_hollow_partial: points between the inner radius minus the tolerance and the inner radius are not described. Finding: as the tolerance is added to the squares, it does not cover the rounding errors; a hollow cylinder of size 5 at 10^5 does not contain a point 8 10^-12 inside its inner wall (c106_inner_wall_refuted; for cylinders see c103_cylinder_refuted)."
  },
  {
   "property": "C107",
   "status": "partial",
   "theorems": [
    "c107_rounded",
    "c107_planes_partial",
    "c107_faces_partial",
    "c107_constraint_partial",
    "c107_small_angle_refuted"
   ],
   "note": "The accuracy of the C library is an assumption of the theorems (accurate); c107_rounded shows that it can be met. The partial theorems leave out angles below 2^-22, for which the result may be NaN. Finding: two disks with a common diameter at an angle above 10^-8 have normals whose product is rounded to a number above 1; the angle is NaN, the comparison with the minimum is false, and the pair is accepted whatever the minimum angle is."
  },
  {
   "property": "C108",
   "status": "proved",
   "theorems": [
    "c108_circle_frame",
    "c108_ellipse_frame",
    "c108_ellipse_point",
    "c108_arc_point",
    "c108_sampled",
    "c108_near_cylinder"
   ],
   "note": "The accuracy of the C library is an assumption of the theorems (accurate), which c107_rounded shows to be satisfiable. The draws of the samplers are arguments; that their distributions keep to the ranges is part of C103."
  },
  {
   "property": "C109",
   "status": "proved",
   "theorems": [
    "c109_boundary_distance",
    "c109_on_quadrilateral",
    "c109_on_polygon",
    "c109_length",
    "c109_length_constraint",
    "c109_boundary_constraint"
   ],
   "note": "The intersection itself is the result of the geometry kernel and an assumption of the two theorems on constraints; the example computes it for two quadrilaterals through the modelled intersection code."
  },
  {
   "property": "C11",
   "status": "proved",
   "theorems": [
    "c11_other_type_rejected",
    "c11_failure_no_effect"
   ],
   "note": ""
  },
  {
   "property": "C110",
   "status": "partial",
   "theorems": [
    "c110_factor",
    "c110_disk",
    "c110_ellipse",
    "c110_circle",
    "c110_ellipse_point",
    "c110_circle_point",
    "c110_rim_partial",
    "c110_rim_refuted"
   ],
   "note": "Finding: the test of disks adds the square of the tolerance, 1e-14 for the default, so a disk with radius 0.7 whose centre is 1000 away from the origin does not contain the point of its rim at angle 0 (c110_rim_refuted). c110_rim_partial: missing are the tolerances whose square is below 2^-42 of the ratio of the coordinates to the half axes."
  },
  {
   "property": "C111",
   "status": "partial",
   "theorems": [
    "c111_file",
    "c111_network",
    "c111_size",
    "c111_size_refuted",
    "c111_merge_partial",
    "c111_merge_refuted",
    "c111_quote_refuted"
   ],
   "note": "Findings: mesh sizes are written with six digits, so that 1000001 and 1000002 give the same file (c111_size_refuted; the error is at most 5 in a million); for a relative name with a directory, the Merge command names a .brep file that does not exist, since Gmsh looks it up relative to the .geo file (c111_merge_refuted; c111_merge_partial misses these names); names with quotation marks give files that cannot be read (c111_quote_refuted). How Gmsh reads the file is specified in GeoTextSpec.v from its documentation; Gmsh is not part of /repo."
  },
  {
   "property": "C112",
   "status": "partial",
   "theorems": [
    "c112_angle",
    "c112_axes",
    "c112_any",
    "c112_back",
    "c112_contains",
    "c112_get_angle",
    "c112_arc",
    "c112_arc_points_partial",
    "c112_param",
    "c112_source_refuted"
   ],
   "note": "Finding: an arc of a unit circle does not contain its own first point with the default tolerance, since its angle of 1e-7 is at the threshold below which angles are replaced by zero (c112_source_refuted, for the values that the C library's functions return). c112_arc_points_partial misses the points close to the axes of the ellipse. The half axes may differ by a factor of 2^18."
  },
  {
   "property": "C113",
   "status": "partial",
   "theorems": [
    "c113_segments",
    "c113_point",
    "c113_throw",
    "c113_empty",
    "c113_plane_line",
    "c113_plane_line_throw",
    "c113_planes",
    "c113_disk_line_partial",
    "c113_survey_refuted"
   ],
   "note": "Finding: two segments of 1.4 mm that cross at the coordinates of a map in metres make intersect() with the default tolerance raise a RuntimeError if OpenCascade returns the crossing rounded to half a unit in the last place (c113_survey_refuted). c113_segments takes as a hypothesis how far the directions of segments that pass the parallel test differ (the angle is computed inside OpenCascade). c113_disk_line_partial leaves out lines in the plane of the disk."
  },
  {
   "property": "C114",
   "status": "proved",
   "theorems": [
    "c114_rotate",
    "c114_length",
    "c114_disk_axes",
    "c114_disk_lengths",
    "c114_disk_upto",
    "c114_disk_assertion"
   ],
   "note": "The draws are numbers and the trigonometric functions accurate to half a unit at 1 (the accuracy of C107); a draw that is not a number is outside the statement."
  },
  {
   "property": "C115",
   "status": "proved",
   "theorems": [
    "c115_polygon",
    "c115_throws",
    "c115_quad",
    "c115_edges",
    "c115_closing"
   ],
   "note": "The draws are numbers, lengths up to a fifth of the scale, and the trigonometric functions accurate to half a unit at 1 (the accuracy of C107). The plane, area and convexity stored with a quadrilateral are not part of the statement (C106 has the plane)."
  },
  {
   "property": "C116",
   "status": "partial",
   "theorems": [
    "c116_quad",
    "c116_quad_planar",
    "c116_polygon",
    "c116_polygon_convex",
    "c116_polygon_refuted",
    "c116_plane",
    "c116_plane_refuted",
    "c116_right_hand",
    "c116_arc",
    "c116_arc_exact",
    "c116_arc_refuted",
    "c116_angle",
    "c116_angle_refuted",
    "c116_sampled",
    "c116_sampled_refuted"
   ],
   "note": "Findings: a valid concave polygon whose centroid is its first corner fails the check of its constructor (the tolerance is zero); the check on the basis of a plane never compares the second base vector with the normal and accepts bases that are none; for ellipses with a major axis beyond 10^7 the center passes as an end of an arc, since a length is used as tolerance of a ratio; parallel planes further apart than 10^-7 end the computation of an angle, although figures in them intersect with a tolerance relative to their size; polygons sampled with lengths of 10^10 may fail the check that they close. Proved: all convex polygons pass, and sampled polygons pass in double precision while the number of corners times the size is at most 400000. The checks on quadrilaterals, polygons, planes, arcs and angles are over the reals."
  },
  {
   "property": "C117",
   "status": "partial",
   "theorems": [
    "c117_states",
    "c117_period",
    "c117_one_cycle",
    "c117_seeds_refuted",
    "c117_uniform",
    "c117_box",
    "c117_cylinder",
    "c117_hollow",
    "c117_repeat",
    "c117_few_points_refuted",
    "c117_planes_refuted"
   ],
   "note": "Proved for the engine and the uniform numbers of libstdc++ (the C++ standard leaves both open): the period, that all seeds share one cycle, that uniform numbers are in [0, 1) and within 2^-50 of the fraction two values stand for, that points of boxes are in the box in double precision for every seed, that points of cylinders and of hollow cylinders are in them up to 2^-43 of the coordinates, and that points repeat after 357913941 of them.  Findings: half of the 2^32 seeds give the numbers of another seed (s and s + 2^31 - 1, and 0 and 1); there are at most 2^31 - 2 different points; all points sampled in the unit cube lie within 1/500000 (of the value of the form) of 1569 parallel planes.  Not proved: a statement on how evenly points are spread in other domains."
  },
  {
   "property": "C118",
   "status": "partial",
   "theorems": [
    "c118_corners",
    "c118_edges",
    "c118_plane",
    "c118_returns",
    "c118_hangs_refuted",
    "c118_python",
    "c118_far_refuted"
   ],
   "note": "Proved in double precision for all angles up to 2^20 and sizes from 2^-300 to 2^300: the corners are the prescribed ones up to 2^-40 of the coordinates, two edges have the lengths drawn up to 2^-39, the corners lie in the plane up to 2^-40; lengths that are not below the minimum are used as they are; Python only uses such lengths.  Findings: the C++ sampler never returns if one of the four lengths drawn is below the minimum (the loop draws without assigning); far from the origin the lengths are lost, and all four corners coincide.  Trigonometric functions are any that are accurate to 2^-53."
  },
  {
   "property": "C119",
   "status": "partial",
   "theorems": [
    "c119_ints",
    "c119_equal",
    "c119_all",
    "c119_reals",
    "c119_upper_refuted",
    "c119_normal",
    "c119_pair",
    "c119_positive",
    "c119_negative_refuted",
    "c119_polygon",
    "c119_quad",
    "c119_quad_uniform"
   ],
   "note": "Proved for the distributions of libstdc++ 13 on its default engine: drawing integers ends for every seed, they are in the range, each of them is given by equally many values of the engine, and all are drawn at some time; uniform numbers are in the closed range in double precision; drawing from normal distributions ends for every seed, all results are finite and within 12.2 standard deviations of the mean, and they are the two numbers of the polar method for the first point of the disk, up to 2^-41 in their squares; if the mean is not negative, a positive number is drawn at some time, so that samplers waiting for a positive length return; polygons are always returned for ranges as those of example 4, and quadrilaterals with lengths from a normal distribution if the minimum is 12.2 standard deviations below the mean, or from a uniform one if the minimum is not above its lower end.  Findings: if the mean is more than 12.2 standard deviations below zero, a sampler waiting for a positive length never returns; the upper end of a uniform range, excluded by the C++ standard, is drawn, e.g. 5000001 from [5000000, 5000001).  Ranges with more than 2147483646 integers are not modelled; the logarithm is any that is accurate to 2^-50."
  },
  {
   "property": "C12",
   "status": "proved",
   "theorems": [
    "c12_num_entities",
    "c12_export",
    "c12_export_ids"
   ],
   "note": ""
  },
  {
   "property": "C120",
   "status": "partial",
   "theorems": [
    "c120_made",
    "c120_example2_refuted",
    "c120_reversed",
    "c120_box_made",
    "c120_cylinder_made",
    "c120_hollow_made",
    "c120_sunk_refuted",
    "c120_inner_refuted",
    "c120_radians",
    "c120_normals"
   ],
   "note": "Proved for doubles: when uniform and normal distributions may be made; the three distributions of point samplers of boxes always may, those of cylinders, and of hollow cylinders whose inner radius is not below minus the outer one, if and only if the height is not negative; the ranges of lengths of examples 1 and 3, and of example 2 in Python, are in order, and the standard deviations of all examples are positive after their conversion to radians, whose error is at most 2^-53 of the degrees.  Findings: the second sampler of example 2 in C++ has UniformDistro(0.5, 0.1), which the standard does not allow (with libstdc++ and without its assertions the lengths are then between 0.1 and 0.5, c120_reversed); cylinders of negative height can be constructed, and a point sampler for one of them makes a distribution from a range in the wrong order, and the same holds for hollow cylinders with a negative inner radius that exceeds the outer one in size.  Not stated: hollow cylinders whose inner radius is below minus the outer one, but for the example (their squares may be the same after rounding)."
  },
  {
   "property": "C13",
   "status": "partial",
   "theorems": [
    "c13_evaluate",
    "c13_failing_intersection",
    "c13_symmetric",
    "c13_equi_dim_distance_refuted"
   ],
   "note": "Full conjunction proved for every answer of the geometry kernel as long as at least one constraint is set and intersections have a boundary distance; finding: with equi-dimensional intersections allowed, the boundary distance constraint makes evaluate throw."
  },
  {
   "property": "C14",
   "status": "proved",
   "theorems": [
    "c14_set_entity",
    "c14_set_entity_rejected",
    "c14_agree",
    "c14_set_set",
    "c14_set_set_rejected"
   ],
   "note": ""
  },
  {
   "property": "C15",
   "status": "partial",
   "theorems": [
    "c15_equi_dim_partial",
    "c15_default_accepts_refuted"
   ],
   "note": "Finding: a constraints object without active constraint accepts equi-dimensional intersections."
  },
  {
   "property": "C16",
   "status": "proved",
   "theorems": [
    "c16_accepts_iff",
    "c16_rejects_iff",
    "c16_throws_iff"
   ],
   "note": ""
  },
  {
   "property": "C17",
   "status": "partial",
   "theorems": [
    "c17_failed_add_partial",
    "c17_outcome",
    "c17_list_refuted"
   ],
   "note": "Finding: the overload for a list of pairs keeps the pairs registered before the failing one."
  },
  {
   "property": "C18",
   "status": "proved",
   "theorems": [
    "c18_loop",
    "c18_running",
    "c18_pairs",
    "c18_same_set"
   ],
   "note": "Loop of example 3 over arbitrary draws, arbitrary geometry checks and iteration orders."
  },
  {
   "property": "C19",
   "status": "partial",
   "theorems": [
    "c19_one_direction_partial",
    "c19_one_direction_refuted"
   ],
   "note": "Finding: entities of the second set that are added later are not checked."
  },
  {
   "property": "C20",
   "status": "partial",
   "theorems": [
    "c20_violation_noticed_partial",
    "c20_enforced_relations",
    "c20_ignored_relation_refuted"
   ],
   "note": "Finding: only sets that occur as first id of some relation are looked at."
  },
  {
   "property": "C21",
   "status": "partial",
   "theorems": [
    "c21_lists_partial",
    "c21_second_list_refuted"
   ],
   "note": "Finding: a list as second argument raises TypeError."
  },
  {
   "property": "C22",
   "status": "proved",
   "theorems": [
    "c22_registered",
    "c22_outcomes",
    "c22_rejected",
    "c22_dimensions"
   ],
   "note": "Arbitrary shapes, dimension function and histories."
  },
  {
   "property": "C23",
   "status": "proved",
   "theorems": [
    "c23_network",
    "c23_throws"
   ],
   "note": "Arbitrary, possibly failing, kernel operations."
  },
  {
   "property": "C24",
   "status": "partial",
   "theorems": [
    "c24_contained_partial",
    "c24_build_succeeds",
    "c24_shared_entity_refuted"
   ],
   "note": "Proved for every result of the kernel operations if ids are below 2^31 and no shape occurs twice; finding: an entity registered for two sub-domains is left unsplit in one of them."
  },
  {
   "property": "C25",
   "status": "partial",
   "theorems": [
    "c25_primary_index_partial",
    "c25_primary_index_refuted"
   ],
   "note": "Finding: primary indices collide if the confinement removes entities."
  },
  {
   "property": "C26",
   "status": "partial",
   "theorems": [
    "c26_ids_partial",
    "c26_large_id_throws_refuted",
    "c26_aliased_id_refuted"
   ],
   "note": "Finding: ids are passed through int; ids from 2^31 on throw std::out_of_range or are filed under another id."
  },
  {
   "property": "C27",
   "status": "partial",
   "theorems": [
    "c27_explicit",
    "c27_set_default",
    "c27_first_build_partial",
    "c27_after_clear_refuted"
   ],
   "note": "Finding: the default tolerance of a first build is kept after clear()."
  },
  {
   "property": "C28",
   "status": "partial",
   "theorems": [
    "c28_groups",
    "c28_complete_partial",
    "c28_forward",
    "c28_complete_refuted"
   ],
   "note": "Groups are disjoint, non-empty and contain only shared edges; all of them for plain networks of FORWARD faces. Finding: a shared edge that is first written in a direction none of the fragments has is in no group (IsEqual versus IsSame)."
  },
  {
   "property": "C29",
   "status": "proved",
   "theorems": [
    "c29_surfaces",
    "c29_members",
    "c29_volumes",
    "c29_built"
   ],
   "note": "For shapes as OpenCascade explores them ([consistent])."
  },
  {
   "property": "C30",
   "status": "partial",
   "theorems": [
    "c30_separate_partial",
    "c30_refuted"
   ],
   "note": "Finding: indices of different sub-domains collide in the .geo file if an entity has no fragment left."
  },
  {
   "property": "C31",
   "status": "partial",
   "theorems": [
    "c31_near",
    "c31_far",
    "c31_symmetric_partial",
    "c31_symmetric_refuted",
    "c31_boundary_refuted"
   ],
   "note": "Over the reals. Findings: the test is not symmetric if the gap equals eps, and excludes touching intervals for eps = 0 although the documentation includes the boundary."
  },
  {
   "property": "C32",
   "status": "proved",
   "theorems": [
    "c32_no_false_negative",
    "c32_default_no_false_negative",
    "c32_no_false_positive"
   ],
   "note": "Over the reals; that the boxes computed by OpenCascade enclose the shapes is assumed."
  },
  {
   "property": "C33",
   "status": "proved",
   "theorems": [
    "c33_cross_orthogonal",
    "c33_cross_length",
    "c33_cross_antisymmetric",
    "c33_cross_orientation",
    "c33_cross_zero_iff",
    "c33_box_determinant",
    "c33_right_hand"
   ],
   "note": "Over the reals."
  },
  {
   "property": "C34",
   "status": "proved",
   "theorems": [
    "c34_isometry",
    "c34_axis_fixed",
    "c34_angle",
    "c34_zero",
    "c34_additive",
    "c34_periodic",
    "c34_all"
   ],
   "note": "Over the reals."
  },
  {
   "property": "C35",
   "status": "proved",
   "theorems": [
    "c35_inverse",
    "c35_half_turn",
    "c35_linear"
   ],
   "note": "Over the reals, with M_PI = pi."
  },
  {
   "property": "C36",
   "status": "proved",
   "theorems": [
    "c36_orthogonal"
   ],
   "note": "Over the reals."
  },
  {
   "property": "C37",
   "status": "partial",
   "theorems": [
    "c37_angle",
    "c37_same_orientation_partial",
    "c37_orthogonal",
    "c37_opposite_refuted",
    "c37_default_tolerance",
    "c37_double_refuted"
   ],
   "note": "Findings: vectors of opposite orientation are not recognised (angularEps is tested where angle is meant); in double arithmetic (1,1,1) is not parallel to itself."
  },
  {
   "property": "C38",
   "status": "partial",
   "theorems": [
    "c38_unit",
    "c38_invert",
    "c38_double_refuted"
   ],
   "note": "Proved over the reals; finding: in double arithmetic vectors shorter than about 1e-162 or longer than 1e154 have an infinite or zero direction."
  },
  {
   "property": "C39",
   "status": "proved",
   "theorems": [
    "c39_projection_closest",
    "c39_contains"
   ],
   "note": "Over the reals."
  },
  {
   "property": "C40",
   "status": "proved",
   "theorems": [
    "c40_point_normal",
    "c40_three_points",
    "c40_three_points_contained",
    "c40_projection_closest",
    "c40_contains",
    "c40_project_line",
    "c40_project_segment"
   ],
   "note": "Over the reals."
  },
  {
   "property": "C41",
   "status": "proved",
   "theorems": [
    "c41_contains",
    "c41_distance_exists",
    "c41_own_points",
    "c41_skip_line_check",
    "c41_get_point",
    "c41_get_point_complete",
    "c41_end_points",
    "c41_reversed"
   ],
   "note": "Over the reals, for segments of positive length."
  },
  {
   "property": "C42",
   "status": "proved",
   "theorems": [
    "c42_construction",
    "c42_contains",
    "c42_contains_default",
    "c42_corners",
    "c42_corner_count",
    "c42_corners_distinct",
    "c42_edge_count",
    "c42_edges_sound",
    "c42_edges_complete",
    "c42_face_count",
    "c42_faces_sound",
    "c42_faces_complete",
    "c42_center",
    "c42_volume",
    "c42_face_areas"
   ],
   "note": "Over the reals."
  },
  {
   "property": "C43",
   "status": "proved",
   "theorems": [
    "c43_construction",
    "c43_circle_construction",
    "c43_points",
    "c43_exact",
    "c43_contains",
    "c43_angle",
    "c43_angle_band",
    "c43_ranges",
    "c43_throws",
    "c43_circle_points",
    "c43_circle_exact",
    "c43_circle_contains",
    "c43_circle_complete",
    "c43_circle_default"
   ],
   "note": "Over the reals."
  },
  {
   "property": "C44",
   "status": "partial",
   "theorems": [
    "c44_points_partial",
    "c44_exact_partial",
    "c44_between_partial",
    "c44_end_points",
    "c44_full_partial",
    "c44_full_refuted",
    "c44_short_refuted",
    "c44_tolerance_refuted"
   ],
   "note": "Over the reals. Findings: a full ellipse arc whose source is not on the major axis contains only its source; the end angles of a short arc across an axis coincide and the arc runs around the whole ellipse; contains() with a tolerance above 1e-7 throws for points between 1e-7 and the tolerance."
  },
  {
   "property": "C45",
   "status": "partial",
   "theorems": [
    "c45_contains",
    "c45_exact",
    "c45_point_refuted",
    "c45_rim_partial"
   ],
   "note": "Over the reals. Finding: getPoint() adds the radial offset to the rim point instead of the center; the result is outside the disk for every positive radial parameter."
  },
  {
   "property": "C46",
   "status": "partial",
   "theorems": [
    "c46_cylinder_exact",
    "c46_cylinder_near",
    "c46_cylinder_tolerance_refuted",
    "c46_cylinder_default",
    "c46_surface_exact",
    "c46_surface_near",
    "c46_surface_default",
    "c46_tangent",
    "c46_hollow_exact",
    "c46_hollow_near",
    "c46_hollow_core",
    "c46_hollow_default",
    "c46_sphere_exact",
    "c46_sphere_near",
    "c46_sphere_default",
    "c46_from_disk",
    "c46_from_circle",
    "c46_axis_aligned",
    "c46_hollow_construction",
    "c46_hollow_circles",
    "c46_lateral_face",
    "c46_end_faces",
    "c46_surface_cylinder"
   ],
   "note": "Over the reals; exact for eps -> 0. Finding: a contained point can be sqrt 2 times eps away from the cylinder."
  },
  {
   "property": "C47",
   "status": "partial",
   "theorems": [
    "c47_construction",
    "c47_contains",
    "c47_exact",
    "c47_tolerance",
    "c47_near",
    "c47_default_refuted",
    "c47_int_abs_refuted",
    "c47_double_refuted"
   ],
   "note": "Over the reals the explicit overload is exact for triangles with non-zero area, for the absolute value of reals. Findings: the overload with default tolerance reads corner(3); if the unqualified abs resolves to the integer version, points outside are contained; in double arithmetic points of the triangle are rejected for the tolerance Precision::confusion()."
  },
  {
   "property": "C48",
   "status": "partial",
   "theorems": [
    "c48_convex_partial",
    "c48_triangle_partial",
    "c48_second_corner_refuted",
    "c48_star_refuted",
    "c48_straight_corner_refuted"
   ],
   "note": "Convex polygons with distinct neighbouring corners are recognised. Findings: the angle at the second corner is never tested, self-intersecting polygons and polygons with a straight first corner are taken for convex."
  },
  {
   "property": "C49",
   "status": "partial",
   "theorems": [
    "c49_construction",
    "c49_triangulation",
    "c49_edges",
    "c49_area",
    "c49_center",
    "c49_contains",
    "c49_contains_default",
    "c49_exact",
    "c49_tolerance",
    "c49_near",
    "c49_total",
    "c49_throws",
    "c49_double_refuted"
   ],
   "note": "Proved over the reals for convex polygons with any number of corners. Finding in double arithmetic: for the default tolerance points of a thin rhombus are rejected, because the squared tolerance is below the rounding error of the areas."
  },
  {
   "property": "C50",
   "status": "partial",
   "theorems": [
    "c50_edges",
    "c50_convex",
    "c50_normal",
    "c50_area_convex_partial",
    "c50_area_partial",
    "c50_contains_partial",
    "c50_default_partial",
    "c50_exact_partial",
    "c50_tolerance_partial",
    "c50_near_partial",
    "c50_center",
    "c50_area_refuted",
    "c50_contains_refuted",
    "c50_double_refuted"
   ],
   "note": "Proved for convex quadrilaterals over the reals. Findings: area and containment are wrong for concave quadrilaterals; in double arithmetic the default tolerance rejects points of a thin rhombus."
  },
  {
   "property": "C51",
   "status": "proved",
   "theorems": [
    "c51_box",
    "c51_cylinder",
    "c51_hollow"
   ],
   "note": "The samplable points are exactly those of the domain."
  },
  {
   "property": "C52",
   "status": "partial",
   "theorems": [
    "c52_box",
    "c52_cylinder_partial",
    "c52_cylinder_refuted",
    "c52_hollow_partial",
    "c52_hollow_refuted"
   ],
   "note": "Finding: the Python samplers for cylinders and hollow cylinders draw from [0,r] where the C++ ones draw from [0,r^2]: points outside of the domain are sampled for radii below one, and not all points of the domain are reached for radii above one."
  },
  {
   "property": "C53",
   "status": "proved",
   "theorems": [
    "c53_valid",
    "c53_returns",
    "c53_hangs"
   ],
   "note": ""
  },
  {
   "property": "C54",
   "status": "proved",
   "theorems": [
    "c54_polygon",
    "c54_sort",
    "c54_quad"
   ],
   "note": ""
  },
  {
   "property": "C55",
   "status": "partial",
   "theorems": [
    "c55_throws_partial",
    "c55_outcomes",
    "c55_quad_outcomes",
    "c55_hundredth_refuted",
    "c55_dip_refuted",
    "c55_zero_refuted"
   ],
   "note": "Findings: the hundredth number of corners drawn is ignored; negative dip lengths are never rejected, since the counter of the strike lengths is tested; zero lengths are accepted."
  },
  {
   "property": "C56",
   "status": "partial",
   "theorems": [
    "c56_returns_partial",
    "c56_hangs_refuted",
    "c56_corners",
    "c56_convex",
    "c56_python"
   ],
   "note": "Finding: the deprecated sampler never returns once a length below the minimum was drawn. The Python version does."
  },
  {
   "property": "C57",
   "status": "partial",
   "theorems": [
    "c57_hangs_refuted",
    "c57_returns_partial",
    "c57_same_partial",
    "c57_dip_refuted",
    "c57_unbound_refuted"
   ],
   "note": "Proved up to 16 corners. Findings: the loop over the number of corners is endless; the dip length is not checked; with 29 corners the sampler can fail with a name error."
  },
  {
   "property": "C58",
   "status": "proved",
   "theorems": [
    "c58_points",
    "c58_line",
    "c58_segment",
    "c58_segment_exact",
    "c58_segment_zero",
    "c58_tolerance_is_visible"
   ],
   "note": "Over the reals, for segments of positive length. The error of at most 1e-7 times the length is attained up to a factor of 2 (c58_tolerance_is_visible)."
  },
  {
   "property": "C59",
   "status": "proved",
   "theorems": [
    "c59_list",
    "c59_empty_list",
    "c59_polygon",
    "c59_polygon_zero",
    "c59_quadrilateral",
    "c59_quadrilateral_zero",
    "c59_distance_exists",
    "c59_box",
    "c59_surface"
   ],
   "note": "Over the reals, up to the tolerance of the distance to segments (C58). Boxes and cylinder surfaces for any kernel distance to faces and circles."
  },
  {
   "property": "C60",
   "status": "partial",
   "theorems": [
    "c60_collinear_partial",
    "c60_touch_refuted",
    "c60_oblique",
    "c60_sound"
   ],
   "note": "Proved for segments whose end points are on the other segment or at least eps away, given that the kernel splits the segments correctly. Finding: collinear segments that touch yield a segment of length zero instead of a point."
  },
  {
   "property": "C61",
   "status": "partial",
   "theorems": [
    "c61_faces_partial",
    "c61_apart",
    "c61_coplanar_refuted",
    "c61_unsupported_refuted",
    "c61_points_refuted",
    "c61_touch_refuted",
    "c61_traces",
    "c61_concave_refuted",
    "c61_concave_polygons_refuted"
   ],
   "note": "Proved for disks, convex quadrilaterals and convex polygons in general position, given that the kernel computes the parts of segments on faces correctly. Findings: a common point of two parts that are points is dropped; two parts that are touching segments yield a segment of length zero; faces in one plane and quadrilateral/polygon pairs throw."
  },
  {
   "property": "C62",
   "status": "partial",
   "theorems": [
    "c62_planes",
    "c62_orientation",
    "c62_symmetric",
    "c62_symmetric_pieces",
    "c62_faces",
    "c62_surface_point",
    "c62_surface_segment",
    "c62_surface_ellipse",
    "c62_surface_arc_partial",
    "c62_surface_arc_refuted",
    "c62_shapes",
    "c62_face_shape_partial",
    "c62_face_shape_refuted",
    "c62_shapes_edge",
    "c62_face_shape_edge",
    "c62_overlap",
    "c62_supported",
    "c62_pieces",
    "c62_pieces_throw",
    "c62_no_pieces_refuted",
    "c62_double_refuted"
   ],
   "note": "Proved over the reals for planes, planar faces, cylinder surfaces and face shapes. Findings: a planar face and a curved face shape get the angle at the wrong parameter; the smallest angle along an arc is missed between the five samples; an empty list of pieces yields the largest number; in double arithmetic the angle between equal planes can be NaN."
  },
  {
   "property": "C63",
   "status": "partial",
   "theorems": [
    "c63_positive",
    "c63_values",
    "c63_scaling",
    "c63_quadrilateral_positive",
    "c63_quadrilateral_scaling",
    "c63_polygon_partial",
    "c63_polygon_scaling_partial",
    "c63_polygon_refuted",
    "c63_no_overload_refuted"
   ],
   "note": "Findings: the default tolerance of polygons not recognised as convex throws; geometries without an overload (cylinders, hollow cylinders, triangles, ellipse arcs) have a constant tolerance."
  },
  {
   "property": "C64",
   "status": "partial",
   "theorems": [
    "c64_planes",
    "c64_planes_parallel",
    "c64_line",
    "c64_line_parallel",
    "c64_support_refuted"
   ],
   "note": "Finding: for lines that are parallel within the angular tolerance the answer depends on the support point of the line."
  },
  {
   "property": "C65",
   "status": "partial",
   "theorems": [
    "c24_contained_partial",
    "c65_same_sub_domain_refuted"
   ],
   "note": "[sub_domains_ok] in c24_contained_partial; finding: the same shape registered under two ids is listed under one only."
  },
  {
   "property": "C66",
   "status": "partial",
   "theorems": [
    "c66_defined_partial",
    "c66_no_entities_refuted"
   ],
   "note": "Finding: a contained network without entities is built with an indeterminate entity dimension."
  },
  {
   "property": "C67",
   "status": "proved",
   "theorems": [
    "c67_compound"
   ],
   "note": ""
  },
  {
   "property": "C68",
   "status": "proved",
   "theorems": [
    "c68_increase_warns",
    "c68_target_warns"
   ],
   "note": ""
  },
  {
   "property": "C69",
   "status": "proved",
   "theorems": [
    "c69_plain",
    "c69_contained"
   ],
   "note": "For contained networks whose maps have an entry for every sub-domain id, as built by the builders (C24)."
  },
  {
   "property": "C70",
   "status": "proved",
   "theorems": [
    "c70_disk",
    "c70_cylinder",
    "c70_hollow",
    "c70_surface",
    "c70_sphere"
   ],
   "note": "Areas and volumes as Riemann integrals of section lengths and areas."
  },
  {
   "property": "C71",
   "status": "partial",
   "theorems": [
    "c71_beyond_partial",
    "c71_close_refuted",
    "c71_far_refuted"
   ],
   "note": "Refuted: the squared tolerance is compared with an area. What holds is the bound by the overhang, see also c49_tolerance and c49_near."
  },
  {
   "property": "C72",
   "status": "partial",
   "theorems": [
    "c72_segment",
    "c72_circle",
    "c72_ellipse_refuted",
    "c72_full_arc_refuted",
    "c72_thin_ellipse_refuted",
    "c72_contained"
   ],
   "note": "Finding: the length of every ellipse that is not a circle is too small, by more than 20 percent if the axes differ by a factor of 100."
  },
  {
   "property": "C73",
   "status": "proved",
   "theorems": [
    "c73_on_polygon_boundary",
    "c73_on_quadrilateral_boundary"
   ],
   "note": "Over the reals, for explicit tolerances."
  },
  {
   "property": "C74",
   "status": "partial",
   "theorems": [
    "c74_in_plane",
    "c74_apart",
    "c74_cross",
    "c74_polygon_refuted",
    "c74_polygon_disk_refuted",
    "c61_faces_partial"
   ],
   "note": "Proved for disks and quadrilaterals, and for all pairs of faces for which an algorithm exists except disks more than twenty times as large as the polygon. Findings: there the common part is missed; polygons and lines are not supported."
  },
  {
   "property": "C75",
   "status": "partial",
   "theorems": [
    "c75_turns_partial",
    "c75_convex_partial",
    "c75_quad_partial",
    "c75_small_refuted"
   ],
   "note": "Proved if the components of the edges in strike and dip direction are zero or not below the tolerance of 1e-6. Finding: smaller components are taken for zero whatever the size of the polygon, and the polygons are not convex."
  },
  {
   "property": "C76",
   "status": "partial",
   "theorems": [
    "c76_extent_partial",
    "c76_small_refuted"
   ],
   "note": "The upper bounds hold for all draws, and the lower ones if the components of the edges are zero or not below the tolerance of 1e-6. Finding: in small polygons, whose components are taken for zero in the sort of the edges, the extent can be 75 percent of the length drawn (c76_small_refuted)."
  },
  {
   "property": "C77",
   "status": "partial",
   "theorems": [
    "c77_is_distance_refuted",
    "c77_inside_refuted",
    "c77_outside_partial",
    "c77_box_partial",
    "c77_shapes_partial"
   ],
   "note": "Finding: the binding calls computeDistance; inside of a geometry the result is zero. Right if the closest point lies on the boundary. OpenCascade is an oracle."
  },
  {
   "property": "C78",
   "status": "partial",
   "theorems": [
    "c78_shape_partial",
    "c78_magnitude_partial",
    "c78_box_partial",
    "c78_rejected_partial",
    "c78_kinds_partial",
    "c78_boxes_partial",
    "c78_arc_shape_refuted",
    "c78_arc_length_refuted",
    "c78_arc_distance_refuted"
   ],
   "note": "Finding: for elliptical arcs the overloads of the full ellipse are called. Proved for all other classes."
  },
  {
   "property": "C79",
   "status": "partial",
   "theorems": [
    "c79_float_partial",
    "c79_plain_partial",
    "c79_classes_partial",
    "c79_plain_classes",
    "c79_wrong_arguments",
    "c79_int_refuted"
   ],
   "note": "Finding: an int in second place is taken for the flag of the overload with default tolerance."
  },
  {
   "property": "C80",
   "status": "partial",
   "theorems": [
    "c80_point_partial",
    "c80_point_list_partial",
    "c80_vector_partial",
    "c80_vector_list_partial",
    "c80_objects_partial",
    "c80_objects2_partial",
    "c80_keywords_partial",
    "c80_long_list_refuted",
    "c80_empty_list_refuted",
    "c80_keywords_refuted",
    "c80_one_number_refuted"
   ],
   "note": "Findings: lists of wrong length are cut or padded silently; a single keyword argument fails; no one-dimensional vector from a number."
  },
  {
   "property": "C81",
   "status": "partial",
   "theorems": [
    "c81_objects_partial",
    "c81_list_partial",
    "c81_empty_partial",
    "c81_dimension_partial",
    "c81_magnitude_partial",
    "c81_rejected_partial",
    "c81_no_geometry_partial",
    "c81_values_partial",
    "c81_points_partial",
    "c81_line_refuted"
   ],
   "note": "Finding: distances between points and lines raise a TypeError. Arcs: see C78."
  },
  {
   "property": "C82",
   "status": "partial",
   "theorems": [
    "c82_pair_partial",
    "c82_sets_partial",
    "c82_magnitude_partial",
    "c82_assign_partial",
    "c82_others_refuted",
    "c82_magnitude_refuted",
    "c82_null_refuted",
    "c82_name_refuted"
   ],
   "note": "Proved for disks and quadrilaterals. Findings: all other classes are rejected at run time, null pointers and classes of the user with the name Disk are dereferenced."
  },
  {
   "property": "C83",
   "status": "partial",
   "theorems": [
    "c83_exact_partial",
    "c83_section",
    "c83_on_section",
    "c83_tilted_partial",
    "c83_kinds",
    "c83_points_near",
    "c83_points_apart",
    "c83_tangent_refuted",
    "c83_concave_refuted"
   ],
   "note": "Proved relative to the boolean operations of OpenCascade (hypothesis splits). Findings: faces tangent to the surface inside their boundary give an empty intersection; concave faces give an exception."
  },
  {
   "property": "C84",
   "status": "partial",
   "theorems": [
    "c84_within_partial",
    "c84_reach_partial",
    "c84_planar_partial",
    "c84_surface_partial",
    "c84_kinds",
    "c84_ordered",
    "c84_points_apart",
    "c84_points_new",
    "c84_edges_distinct",
    "c84_faces_kept",
    "c84_edges_kept",
    "c84_vertices_kept",
    "c84_inner_touch",
    "c84_inner_touch_refuted"
   ],
   "note": "The first four are relative to the boolean operations of OpenCascade; the others hold whatever they return. Finding: faces that touch inside of both boundaries give an empty intersection."
  },
  {
   "property": "C85",
   "status": "partial",
   "theorems": [
    "c85_ellipse",
    "c85_circle",
    "c85_disk",
    "c85_axes_refuted",
    "c85_arc_partial",
    "c85_full_arc_partial",
    "c85_full_arc_throws",
    "c85_full_arc_refuted",
    "c85_segment",
    "c85_wires",
    "c85_quadrilateral_partial",
    "c85_polygon_partial",
    "c85_double_corner",
    "c85_surface",
    "c85_cylinder",
    "c85_box",
    "c85_flat_box",
    "c85_sphere",
    "c85_point",
    "c85_flat_points"
   ],
   "note": "The constructors of OpenCascade are modelled after their documentation; faces with straight edges are convex. Findings: full ellipse arcs that do not start on the major axis, and ellipses and disks whose minor axis is the longer one, cannot be converted."
  },
  {
   "property": "C86",
   "status": "partial",
   "theorems": [
    "c86_accepted",
    "c86_pairs",
    "c86_sizes",
    "c86_running",
    "c86_turns",
    "c86_fails",
    "c86_compatible",
    "c86_example1",
    "c86_example2",
    "c86_example3",
    "c86_strike_length_refuted"
   ],
   "note": "Example 3 is modelled after the Python version. Proved for all streams for which the loop ends. Finding: example 2 asks for lengths uniformly distributed between 0.5 and 0.1, which is undefined."
  },
  {
   "property": "C87",
   "status": "partial",
   "theorems": [
    "c87_step1",
    "c87_step1_fails",
    "c87_step2",
    "c87_step3",
    "c87_search_ends",
    "c87_connected",
    "c87_isolated_refuted",
    "c87_tries_refuted",
    "c87_message_refuted",
    "c87_example4"
   ],
   "note": "Connectivity is relative to exact geometric operations. Findings: 501 candidates are tried; the message is also printed on success at the 500th; entities for which nothing was found can be isolated, contrary to the README."
  },
  {
   "property": "C88",
   "status": "partial",
   "theorems": [
    "c88_rules",
    "c88_spacing_refuted"
   ],
   "note": "Finding: the C++ program sets the spacing of the second set twice and never that of the third; in both versions the spacing of set 2 is smaller than that of set 1, the comment says larger."
  },
  {
   "property": "C89",
   "status": "proved",
   "theorems": [
    "c89_plain",
    "c89_contained",
    "c89_layers",
    "c89_uncontained"
   ],
   "note": "Relative to the boolean operations of OpenCascade."
  },
  {
   "property": "C90",
   "status": "partial",
   "theorems": [
    "c90_lists",
    "c90_members",
    "c90_placed",
    "c90_program",
    "c90_wrapped",
    "c90_classes",
    "c90_once_partial",
    "c90_once_refuted",
    "c90_safe"
   ],
   "note": "The data structure of OpenCascade is modelled from its documentation. Finding: shared sub-shapes are listed once for every way they are part of the shape; the vertices of a box are listed six times."
  },
  {
   "property": "C91",
   "status": "partial",
   "theorems": [
    "c91_edges",
    "c91_symmetric",
    "c91_once_partial",
    "c91_once_refuted",
    "c91_coincide_refuted"
   ],
   "note": "Findings: the seam of a closed surface is returned twice; a face moved forth and back has no edge in common with the original."
  },
  {
   "property": "C92",
   "status": "partial",
   "theorems": [
    "c92_add",
    "c92_history",
    "c92_others",
    "c92_frame",
    "c92_used",
    "c92_accepts",
    "c92_self",
    "c92_class",
    "c92_snapshot_refuted",
    "c92_self_refuted",
    "c92_failed_refuted"
   ],
   "note": "Findings: objects made from a compound see later additions; a failed add() makes the argument immutable."
  },
  {
   "property": "C93",
   "status": "partial",
   "theorems": [
    "c93_result",
    "c93_sub",
    "c93_follow",
    "c93_class_refuted",
    "c93_independent_refuted"
   ],
   "note": "Findings: the translated compound is an OCCShapeWrapper and shares later additions with the argument."
  },
  {
   "property": "C94",
   "status": "partial",
   "theorems": [
    "c94_converted",
    "c94_sub_domain",
    "c94_entity_partial",
    "c94_leftover_refuted",
    "c94_build_refuted"
   ],
   "note": "Finding: addEntity and addSubDomainEntity register an empty set and the dimension before the geometry is converted; if that throws, later additions of other dimensions are rejected and build() fails for confining sub-domains."
  },
  {
   "property": "C95",
   "status": "partial",
   "theorems": [
    "c95_adders",
    "c95_type_error",
    "c95_others",
    "c95_others_error",
    "c95_shapes",
    "c95_history",
    "c95_entities",
    "c95_domains",
    "c95_list_refuted",
    "c95_methods_refuted"
   ],
   "note": "Findings: a list is added up to the first element that is no entity; ContainedEntityNetworkBuilder has no addEntity/addEntities; network() and isBuilt() are not bound."
  },
  {
   "property": "C96",
   "status": "partial",
   "theorems": [
    "c96_faces_partial",
    "c96_set_partial",
    "c96_apart",
    "c96_coplanar_refuted",
    "c96_quad_polygon_refuted",
    "c96_surfaces_refuted",
    "c96_points_refuted",
    "c96_section_disk",
    "c96_section_refuted"
   ],
   "note": "Decision of the constraints for crossing faces up to M/10^7 for edges of length at most M (exact for disks), over the reals and for a geometry kernel that finds distances, lines and splits. Findings: overlapping faces in one plane, quadrilateral/polygon pairs and pairs of cylinder surfaces throw (AllowEquiDim does not help); faces that touch in one boundary point of both are accepted whatever the angle; a quadrilateral or polygon around a cylinder surface throws when a minimum distance of the intersection from the boundary is active, a disk works. Missing: pairs close to the tolerances."
  },
  {
   "property": "C97",
   "status": "partial",
   "theorems": [
    "c97_kept_partial",
    "c97_pass_partial",
    "c97_example1_partial"
   ],
   "note": "The loop, the samplers and the constraints together, over the reals. Missing: pairs of quadrilaterals that are neither in general position nor in parallel planes (for these the decision is refuted in C96), thresholds within M/10^7 of the value, a geometry kernel that is not exact."
  },
  {
   "property": "C98",
   "status": "partial",
   "theorems": [
    "c98_overlap_partial",
    "c98_overlap_proper",
    "c98_overlap_far",
    "c98_absorbed_refuted",
    "c98_boxes_partial",
    "c98_contains_partial",
    "c98_far_refuted",
    "c98_construction",
    "c98_nan_refuted"
   ],
   "note": "For all doubles with coordinates up to 2^500 and at most 4 10^8 times the size of the box. Findings: farther from the origin the default tolerance is lost, so that boxes sharing a face are reported disjoint and a box does not contain its own corner; the constructor accepts NaN and the box then contains nothing."
  },
  {
   "property": "C99",
   "status": "partial",
   "theorems": [
    "c99_symmetric",
    "c99_not_negative",
    "c99_distance_partial",
    "c99_equal_partial",
    "c99_direction_partial",
    "c99_large_refuted",
    "c99_small_refuted"
   ],
   "note": "Symmetry and sign for all doubles; accuracy 2^-50 for coordinates up to 2^500 and differences of at least 2^-500. Findings: beyond, the square overflows or underflows: infinite or zero distances and directions that are zero, infinite or NaN."
  }
 ]
}