(** Properties of the Python module. *)

From Coq Require Import ZArith Reals String List Bool.
From Verif Require Import Base NumModel VecModel LinModel RoundModel PolyModel DistModel PyBindModel
  GeoSpec LinSpec PolySpec RoundSpec DistSpec PyBindSpec PolyExamples LenProofs PyBindProofs PyBindExamples.
Import ListNotations.
Local Open Scope R_scope.

(** * C77: computeDistanceToBoundary *)

(** Finding: every result of computeDistanceToBoundary is that of computeDistance, whose second
    argument is the geometry and not its boundary. *)
Theorem c77_is_distance_refuted {S} (oc : @occ R S) (g1 g2 : geo R S) d :
  py_distance_boundary oc (PObj g1) (PObj g2) = Ok d -> py_distance oc (PObj g1) (PObj g2) = Ok d.
Proof. exact (boundary_is_distance oc g1 g2 d). Qed.
(** For all points inside, the result is zero. *)
Theorem c77_inside_refuted {S} (oc : @occ R S) p (g : geo R S) :
  bounded g -> occ_exact oc p g (points_of g) -> points_of g p ->
  py_distance_boundary oc (PObj (GPoint p)) (PObj g) = Ok 0.
Proof. exact (boundary_inside oc p g). Qed.
Example c77_inside_case : let g := @GQuad R bool unit_quad in
  bounded g /\ occ_exact zero_occ center2 g (points_of g) /\ points_of g center2 /\
  dist_to (boundary_of g) center2 (1 / 2).
Proof. exact center_case. Qed.
(** It is right if a point of the boundary is closest to p among the points of the geometry. *)
Theorem c77_outside_partial {S} (oc : @occ R S) p (g : geo R S) y :
  bounded g -> occ_exact oc p g (points_of g) ->
  boundary_of g y -> (forall x, points_of g x -> dist p y <= dist p x) ->
  py_distance_boundary oc (PObj (GPoint p)) (PObj g) = Ok (dist p y) /\
  dist_to (boundary_of g) p (dist p y).
Proof. exact (boundary_outside oc p g y). Qed.
Theorem c77_box_partial {S} (oc : @occ R S) b p :
  box_ok b -> occ_exact oc p (GBox b) (in_box b) -> ~ strictly_inside b p ->
  exists d, py_distance_boundary oc (PObj (GPoint p)) (PObj (GBox b)) = Ok d /\
            dist_to (on_bounding_face b) p d.
Proof. exact (boundary_box oc b p). Qed.
Example c77_box_case : ~ strictly_inside cube (mkV3 2 0 0) /\ dist_to (in_box cube) (mkV3 2 0 0) 1.
Proof. exact cube_mid_case. Qed.
(** Other objects: the distance of the shapes. *)
Theorem c77_shapes_partial {S} (oc : @occ R S) (g1 g2 : geo R S) :
  shaped g1 -> has_boundary g2 -> (forall p, g1 <> GPoint p) ->
  py_distance_boundary oc (PObj g1) (PObj g2) =
  obind (get_shape_of oc g1) (fun w1 => obind (get_shape_of oc g2) (fun w2 =>
    match w1, w2 with GWrap _ s1, GWrap _ s2 => oc_dist oc s1 s2 | _, _ => UB end)).
Proof. exact (boundary_ok oc g1 g2). Qed.

(** * C78: functions of objects act on the class of the object *)

(** All classes but EllipseArc_3: the overload for the class of the object is the one called. *)
Theorem c78_shape_partial {S} (oc : @occ R S) (g : geo R S) :
  class_of g <> CArc -> In (class_of g) shape_classes -> py_get_shape oc (PObj g) = get_shape_of oc g.
Proof. exact (get_shape_own oc g). Qed.
Theorem c78_magnitude_partial {S} (oc : @occ R S) (g : geo R S) :
  class_of g <> CArc -> In (class_of g) magnitude_classes -> py_magnitude oc (PObj g) = magnitude oc g.
Proof. exact (magnitude_own oc g). Qed.
Theorem c78_box_partial {S} (oc : @occ R S) (g : geo R S) :
  class_of g <> CArc -> In (class_of g) bbox_classes -> py_bounding_box oc (PObj g) = bounding_box oc g.
Proof. exact (bbox_own oc g). Qed.
(** other classes are rejected *)
Theorem c78_rejected_partial {S} (oc : @occ R S) (g : geo R S) :
  (~ In (class_of g) shape_classes -> py_get_shape oc (PObj g) = Throw TypeError) /\
  (~ In (class_of g) magnitude_classes -> py_magnitude oc (PObj g) = Throw TypeError).
Proof. exact (conj (get_shape_other oc g) (magnitude_other oc g)). Qed.
(** Finding: EllipseArc_3 is registered with the base class Ellipse_3, whose overloads come first:
    shape and bounding box of an arc are those of the ellipse, *)
Theorem c78_arc_shape_refuted {S} (oc : @occ R S) (c : arc R) :
  py_get_shape oc (PObj (GArc c)) = get_shape_of oc (GEllipse (a_ell c)) /\
  py_bounding_box oc (PObj (GArc c)) = bounding_box oc (GEllipse (a_ell c)).
Proof. exact (conj (get_shape_arc oc c) (bbox_arc oc c)). Qed.
(** the length of an arc does not depend on its end points, *)
Theorem c78_arc_length_refuted {S} (oc : @occ R S) (c : arc R) :
  py_length oc (PObj (GArc c)) = Ok (PI * (e_a (a_ell c) + e_b (a_ell c))).
Proof. exact (py_length_arc oc c). Qed.
(** and distances to an arc are distances to the ellipse. *)
Theorem c78_arc_distance_refuted {S} (oc : @occ R S) (c : arc R) p d :
  occ_exact oc p (GEllipse (a_ell c)) (on_ellipse (a_ell c)) ->
  dist_to (on_ellipse (a_ell c)) p d -> py_distance oc (PObj (GPoint p)) (PObj (GArc c)) = Ok d.
Proof. exact (py_distance_to_arc oc c p d). Qed.
Example c78_case : arc_length 1 1 (a_s quarter) (a_t quarter) = PI / 2 /\
  py_length zero_occ (PObj (GArc quarter)) = Ok (2 * PI) /\
  (let p := mkV3 (- 1) 0 0 in
   occ_exact zero_occ p (GEllipse (a_ell quarter)) (on_ellipse (a_ell quarter)) /\
   dist_to (on_ellipse (a_ell quarter)) p 0 /\ forall q, on_arc quarter q -> 1 <= dist p q).
Proof. exact quarter_case. Qed.

(** * C79: contains(point, eps) *)

(** Classes with a flag; d is contains(point, flag), e is contains(point, eps, flag). *)
Theorem c79_float_partial {S} c_abs (g : geo R S) d e p x b :
  flag_default c_abs g = Some d -> flag_eps c_abs g = Some e ->
  py_contains c_abs g [PObj (GPoint p); PFloat x] [] = e p x true /\
  py_contains c_abs g [PObj (GPoint p); PFloat x; PBool b] [] = e p x b /\
  (forall v, py_number v x ->
     py_contains c_abs g [PObj (GPoint p)] [("eps"%string, v)] = e p x true /\
     py_contains c_abs g [PObj (GPoint p); v; PBool b] [] = e p x b) /\
  py_contains c_abs g [PObj (GPoint p)] [] = d p true /\
  py_contains c_abs g [PObj (GPoint p); PBool b] [] = d p b.
Proof. exact (contains_float c_abs g d e p x b). Qed.
(** classes without *)
Theorem c79_plain_partial {S} c_abs (g : geo R S) e p v x :
  plain_eps g = Some e -> py_number v x ->
  py_contains c_abs g [PObj (GPoint p); v] [] = Ok (e p x) /\
  py_contains c_abs g [PObj (GPoint p)] [("eps"%string, v)] = Ok (e p x).
Proof. exact (contains_plain c_abs g e p v x). Qed.
(** Finding: an int in the place of the tolerance is taken for the flag, and the default
    tolerance is used. *)
Theorem c79_int_refuted {S} c_abs (g : geo R S) d e p z :
  flag_default c_abs g = Some d -> flag_eps c_abs g = Some e ->
  py_contains c_abs g [PObj (GPoint p); PInt z] [] = d p (negb (Z.eqb z 0)).
Proof. exact (contains_int c_abs g d e p z). Qed.
Example c79_case : let g := @GDisk R bool unit_ell in
  py_contains Rabs g [PObj (GPoint (up 5)); PInt 0] [] = Ok true /\
  py_contains Rabs g [PObj (GPoint (up 5)); PFloat 0] [] = Ok false /\
  py_contains Rabs g [PObj (GPoint (up (1 / 2))); PInt 1] [] = Ok false /\
  py_contains Rabs g [PObj (GPoint (up (1 / 2))); PFloat 1] [] = Ok true.
Proof. exact flag_case. Qed.

(** * C80: Point, Vector, Direction and Circle *)
Theorem c80_point_partial {S} (l : list (pyval R S)) xs :
  Forall2 number l xs -> (1 <= length xs <= 3)%nat ->
  exists g, py_point l [] = Ok g /\ a_point g /\ coords_of g = Some xs.
Proof. exact (point_from_args l xs). Qed.
Theorem c80_point_list_partial {S} (l : list (pyval R S)) xs :
  Forall2 number l xs -> (1 <= length xs <= 3)%nat ->
  exists g, py_point [PList l] [] = Ok g /\ a_point g /\ coords_of g = Some xs.
Proof. exact (point_from_list l xs). Qed.
Theorem c80_vector_partial {S} (l : list (pyval R S)) xs :
  Forall2 number l xs -> (2 <= length xs <= 3)%nat ->
  exists g, py_vector l [] = Ok g /\ a_vector g /\ coords_of g = Some xs.
Proof. exact (vector_from_args l xs). Qed.
Theorem c80_vector_list_partial {S} (l : list (pyval R S)) xs :
  Forall2 number l xs -> (1 <= length xs <= 3)%nat ->
  exists g, py_vector [PList l] [] = Ok g /\ a_vector g /\ coords_of g = Some xs.
Proof. exact (vector_from_list l xs). Qed.
Theorem c80_objects_partial {S} (p q : pt) u w c n (v : pyval R S) x : number v x ->
  py_vector [PObj (GPoint p); PObj (@GPoint R S q)] [] = Ok (GVector (psub q p)) /\
  py_vector [PObj (@GDirection R S u)] [] = Ok (GVector u) /\
  py_direction [PObj (@GVector R S w)] [] = Ok (GDirection (to_dir w)) /\
  py_circle [PObj (GPoint c); PObj (@GDirection R S n); v] [] = Ok (GCircle (make_circle c n x)).
Proof. exact (two_points p q u w c n v x). Qed.
(** Findings: longer lists are cut, empty lists give zeros, *)
Theorem c80_long_list_refuted {S} (l : list (pyval R S)) xs :
  Forall2 number l xs -> (length xs > 3)%nat ->
  (exists g, py_point [PList l] [] = Ok g /\ a_point g /\ coords_of g = Some (firstn 3 xs)) /\
  (exists g, py_vector [PList l] [] = Ok g /\ a_vector g /\ coords_of g = Some (firstn 3 xs)).
Proof. exact (lists_cut l xs). Qed.
Example c80_long_case : Forall2 number [PInt 1; @PFloat R bool 2; PInt 3; PInt 4] [1; 2; 3; 4].
Proof. exact list_case. Qed.
Theorem c80_empty_list_refuted {S} :
  py_point [@PList R S []] [] = Ok (GPoint (mkV3 0 0 0)) /\
  py_vector [@PList R S []] [] = Ok (GVector (mkV3 0 0 0)).
Proof. exact lists_empty. Qed.
(** calls with keyword arguments only fail, although the classes accept them, *)
Theorem c80_keywords_refuted {S} (p q c n : pt) (v : pyval R S) x : number v x ->
  (py_point [] [("x"%string, v)] = Throw OutOfRange /\
   py_point1 [] [("x"%string, v)] = Ok (GPoint1 x)) /\
  (py_vector [] [("source"%string, PObj (@GPoint R S p)); ("target"%string, PObj (GPoint q))] = Throw TypeError /\
   py_vector3 [] [("source"%string, PObj (@GPoint R S p)); ("target"%string, PObj (GPoint q))] = Ok (GVector (psub q p))) /\
  (py_direction [] [("vector"%string, PObj (@GVector R S c))] = Throw RuntimeError /\
   py_direction3 [] [("vector"%string, PObj (@GVector R S c))] = Ok (GDirection (to_dir c))) /\
  (py_circle [] [("center"%string, PObj (@GPoint R S c)); ("normal"%string, PObj (GDirection n)); ("radius"%string, v)] = Throw RuntimeError /\
   py_circle3 [] [("center"%string, PObj (@GPoint R S c)); ("normal"%string, PObj (GDirection n)); ("radius"%string, v)] = Ok (GCircle (make_circle c n x))).
Proof. exact (keywords p q c n v x). Qed.
(** and there is no vector from one number. *)
Theorem c80_one_number_refuted {S} (v : pyval R S) x : number v x ->
  py_vector [v] [] = Throw RuntimeError /\ py_vector1 [v] [] = Ok (GVector1 x).
Proof. exact (one_number v x). Qed.

(** * C81: computeDistance, computeLength, computeArea, computeVolume *)
Theorem c81_objects_partial {S} (oc : @occ R S) (g1 g2 : geo R S) :
  shaped g1 -> shaped g2 -> py_distance oc (PObj g1) (PObj g2) = distance oc g1 g2.
Proof. exact (py_distance_ok oc g1 g2). Qed.
Theorem c81_list_partial {S} (oc : @occ R S) v gs ds :
  Forall2 (fun g d => py_distance oc v (PObj g) = Ok d) gs ds -> gs <> [] ->
  exists m, py_distance oc v (PList (map PObj gs)) = Ok m /\ is_min m ds.
Proof. exact (distance_list oc v gs ds). Qed.
Example c81_list_case :
  Forall2 (fun g d => py_distance zero_occ (PObj (GPoint (mkV3 0 0 0))) (PObj g) = Ok d)
    [GPoint (mkV3 0 3 4); GPoint (mkV3 0 0 2)] [5; 2].
Proof. exact list_distance_case. Qed.
Theorem c81_empty_partial {S} (oc : @occ R S) v : py_distance oc v (PList []) = Throw ValueError.
Proof. exact (distance_empty oc v). Qed.
Theorem c81_dimension_partial {S} (oc : @occ R S) dim (v : pyval R S) x :
  py_dim_magnitude oc dim v = Ok x -> my_dimension v = Some dim.
Proof. exact (dim_guard oc dim v x). Qed.
Theorem c81_magnitude_partial {S} (oc : @occ R S) dim (g : geo R S) :
  class_of g <> CArc -> In (class_of g) magnitude_classes -> my_dimension (PObj g) = Some dim ->
  py_dim_magnitude oc dim (PObj g) = magnitude oc g.
Proof. exact (dim_right oc dim g). Qed.
Example c81_dimension_case : let g := GSegment (mkSeg (mkV3 0 0 0) (mkV3 0 3 4)) : geo R nat in
  class_of g <> CArc /\ In (class_of g) magnitude_classes /\ my_dimension (PObj g) = Some 1%nat /\ my_dimension (PObj (GPoint (mkV3 0 0 0) : geo R nat)) = Some 0%nat.
Proof. cbn zeta. split; [discriminate|]. split; [cbn; tauto|]. split; reflexivity. Qed.
(** Finding: distances between points and lines are not available, although the library computes
    them. *)
Theorem c81_line_refuted {S} (oc : @occ R S) (p : pt) l sp :
  unit3 (l_dir l) -> oc_shape oc (GPoint p) = Ok sp ->
  py_distance oc (PObj (GPoint p)) (PObj (GLine l)) = Throw TypeError /\
  exists d, distance oc (GPoint p) (GLine l) = Ok d /\ dist_to (on_line (l_sup l) (l_dir l)) p d.
Proof. exact (distance_to_line oc p l sp). Qed.

Print Assumptions c77_is_distance_refuted.
Print Assumptions c77_inside_refuted.
Print Assumptions c77_outside_partial.
Print Assumptions c77_box_partial.
Print Assumptions c77_shapes_partial.
Print Assumptions c78_shape_partial.
Print Assumptions c78_magnitude_partial.
Print Assumptions c78_box_partial.
Print Assumptions c78_rejected_partial.
Print Assumptions c78_arc_shape_refuted.
Print Assumptions c78_arc_length_refuted.
Print Assumptions c78_arc_distance_refuted.
Print Assumptions c79_float_partial.
Print Assumptions c79_plain_partial.
Print Assumptions c79_int_refuted.
Print Assumptions c80_point_partial.
Print Assumptions c80_point_list_partial.
Print Assumptions c80_vector_partial.
Print Assumptions c80_vector_list_partial.
Print Assumptions c80_objects_partial.
Print Assumptions c80_long_list_refuted.
Print Assumptions c80_empty_list_refuted.
Print Assumptions c80_keywords_refuted.
Print Assumptions c80_one_number_refuted.
Print Assumptions c81_objects_partial.
Print Assumptions c81_list_partial.
Print Assumptions c81_empty_partial.
Print Assumptions c81_dimension_partial.
Print Assumptions c81_magnitude_partial.
Print Assumptions c81_line_refuted.
