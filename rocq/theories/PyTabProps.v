(** Properties of the Python module, class by class. *)

From Coq Require Import ZArith Reals String List Bool.
From Verif Require Import Base NumModel VecModel LinModel RoundModel PolyModel DistModel PyBindModel
  GeoSpec LinSpec PolySpec RoundSpec DistSpec PyBindSpec PyTabSpec PolyExamples PyBindExamples PyTabProofs.
Import ListNotations.
Local Open Scope R_scope.

(** C78: getShape returns the shape of the object, of the right type, or there is no overload. *)
Theorem c78_kinds_partial {S} (oc : @occ R S) (g : geo R S) : class_of g <> CArc ->
  py_get_shape oc (PObj g) =
  match g, shape_type g with
  | GWrap _ _, _ => Ok g
  | _, Some k => obind (oc_shape oc g) (fun s => Ok (GWrap k s))
  | _, None => Throw TypeError
  end.
Proof. exact (kinds_lemma oc g). Qed.
Print Assumptions c78_kinds_partial.
Example c78_kinds_case : class_of (@GSphere R bool (mkSphere (mkV3 0 0 0) 1)) <> CArc /\
  shape_type (@GSphere R bool (mkSphere (mkV3 0 0 0) 1)) = Some WSolid /\ shape_type (@GPlane R bool (mkPlane (mkV3 0 0 0) (mkV3 1 0 0) (mkV3 0 1 0) (mkV3 0 0 1))) = None.
Proof. repeat split. discriminate. Qed.

(** C78: the bounding box is that of the shape of the object. *)
Theorem c78_boxes_partial {S} (oc : @occ R S) (g : geo R S) : class_of g <> CArc ->
  (has_bbox g -> py_bounding_box oc (PObj g) =
     match g with GWrap _ s => oc_bbox oc s | _ => obind (oc_shape oc g) (oc_bbox oc) end) /\
  (~ has_bbox g -> py_bounding_box oc (PObj g) = Throw TypeError).
Proof. exact (bbox_lemma oc g). Qed.
Print Assumptions c78_boxes_partial.

(** C79: contains(point, eps, flag) and contains(point, flag=...) of every class with a flag, *)
Theorem c79_classes_partial {S} c_abs p x b :
  (forall s, py_contains c_abs (@GSegment R S s) [PObj (GPoint p); PFloat x; PBool b] [] = Ok (seg_contains s p x b) /\
     py_contains c_abs (@GSegment R S s) [PObj (GPoint p)] [("checkIfOnLine"%string, PBool b)] = Ok (seg_contains_default s p b)) /\
  (forall e, py_contains c_abs (@GEllipse R S e) [PObj (GPoint p); PFloat x; PBool b] [] = Ok (ell_contains e p x b) /\
     py_contains c_abs (@GEllipse R S e) [PObj (GPoint p)] [("checkIfOnPlane"%string, PBool b)] = Ok (ell_contains_default e p b)) /\
  (forall c, py_contains c_abs (@GArc R S c) [PObj (GPoint p); PFloat x; PBool b] [] = arc_contains c p x b /\
     py_contains c_abs (@GArc R S c) [PObj (GPoint p)] [("checkIfOnEllipse"%string, PBool b)] = arc_contains_default c p b) /\
  (forall d, py_contains c_abs (@GDisk R S d) [PObj (GPoint p); PFloat x; PBool b] [] = Ok (disk_contains d p x b) /\
     py_contains c_abs (@GDisk R S d) [PObj (GPoint p)] [("checkIfOnEllipse"%string, PBool b)] = Ok (disk_contains_default d p b)) /\
  (forall t, py_contains c_abs (@GTriangle R S t) [PObj (GPoint p); PFloat x; PBool b] [] = Ok (tri_contains c_abs t p x b) /\
     py_contains c_abs (@GTriangle R S t) [PObj (GPoint p)] [("checkIfOnPlane"%string, PBool b)] = tri_contains_default c_abs t p b) /\
  (forall q, py_contains c_abs (@GQuad R S q) [PObj (GPoint p); PFloat x; PBool b] [] = Ok (quad_contains q p x b) /\
     py_contains c_abs (@GQuad R S q) [PObj (GPoint p)] [("checkIfOnPlane"%string, PBool b)] = Ok (quad_contains_default q p b)) /\
  (forall pg, py_contains c_abs (@GPolygon R S pg) [PObj (GPoint p); PFloat x; PBool b] [] = poly_contains pg p x b /\
     py_contains c_abs (@GPolygon R S pg) [PObj (GPoint p)] [("checkIfOnPlane"%string, PBool b)] = poly_contains_default pg p b).
Proof. exact (contains_classes c_abs p x b). Qed.
Print Assumptions c79_classes_partial.

(** and contains(point, eps) and contains(point) of those without. *)
Theorem c79_plain_classes {S} c_abs p x :
  (forall c, py_contains c_abs (@GCircle R S c) [PObj (GPoint p); PFloat x] [] = Ok (circle_contains c p x) /\
     py_contains c_abs (@GCircle R S c) [PObj (GPoint p)] [] = Ok (circle_contains_default c p)) /\
  (forall c, py_contains c_abs (@GBox R S c) [PObj (GPoint p); PFloat x] [] = Ok (box_contains c p x) /\
     py_contains c_abs (@GBox R S c) [PObj (GPoint p)] [] = Ok (box_contains_default c p)) /\
  (forall c, py_contains c_abs (@GCylinder R S c) [PObj (GPoint p); PFloat x] [] = Ok (cyl_contains c p x) /\
     py_contains c_abs (@GCylinder R S c) [PObj (GPoint p)] [] = Ok (cyl_contains_default c p)) /\
  (forall c, py_contains c_abs (@GSurface R S c) [PObj (GPoint p); PFloat x] [] = Ok (surf_contains c p x) /\
     py_contains c_abs (@GSurface R S c) [PObj (GPoint p)] [] = Ok (surf_contains_default c p)) /\
  (forall c, py_contains c_abs (@GHollow R S c) [PObj (GPoint p); PFloat x] [] = Ok (hollow_contains c p x) /\
     py_contains c_abs (@GHollow R S c) [PObj (GPoint p)] [] = Ok (hollow_contains_default c p)) /\
  (forall c, py_contains c_abs (@GSphere R S c) [PObj (GPoint p); PFloat x] [] = Ok (sphere_contains c p x) /\
     py_contains c_abs (@GSphere R S c) [PObj (GPoint p)] [] = Ok (sphere_contains_default c p)) /\
  (forall c, py_contains c_abs (@GLine R S c) [PObj (GPoint p); PFloat x] [] = Ok (line_contains c p x) /\
     py_contains c_abs (@GLine R S c) [PObj (GPoint p)] [] = Ok (line_contains_default c p)) /\
  (forall c, py_contains c_abs (@GPlane R S c) [PObj (GPoint p); PFloat x] [] = Ok (plane_contains c p x) /\
     py_contains c_abs (@GPlane R S c) [PObj (GPoint p)] [] = Ok (plane_contains c p (1 / 10000000))).
Proof. exact (contains_plain_classes c_abs p x). Qed.
Print Assumptions c79_plain_classes.

(** C79: arguments given twice, missing points and things that are no points are rejected. *)
Theorem c79_wrong_arguments {S} c_abs (g : geo R S) p args kw :
  (forall k v, py_contains c_abs g [PObj (GPoint p)] [("point"%string, v); (k, v)] = Throw TypeError) /\
  (forall v, py_contains c_abs g [PObj (GPoint p)] [("point"%string, v)] = Throw TypeError) /\
  (forall v, (forall q, v <> PObj (GPoint q)) -> py_contains c_abs g (v :: args) kw = Throw TypeError) /\
  py_contains c_abs g [] [] = Throw TypeError.
Proof. exact (contains_wrong c_abs g p args kw). Qed.
Print Assumptions c79_wrong_arguments.
Example c79_wrong_case : forall q, @PInt R bool 3 <> PObj (GPoint q).
Proof. discriminate. Qed.

(** C80: vectors and directions in one and two dimensions, and circles with keywords. *)
Theorem c80_objects2_partial {S} (a b c d : R) (p n : pt) (v : pyval R S) r : number v r ->
  py_vector [PObj (GPoint1 a); PObj (@GPoint1 R S b)] [] = Ok (GVector1 (b - a)) /\
  py_vector [PObj (GPoint2 a b); PObj (@GPoint2 R S c d)] [] = Ok (GVector2 (c - a) (d - b)) /\
  py_vector [PObj (@GDirection1 R S a)] [] = Ok (GVector1 a) /\
  py_vector [PObj (@GDirection2 R S a b)] [] = Ok (GVector2 a b) /\
  (0 < a -> py_direction [PObj (@GVector1 R S a)] [] = Ok (GDirection1 1)) /\
  (a < 0 -> py_direction [PObj (@GVector1 R S a)] [] = Ok (GDirection1 (-1))) /\
  ((a, b) <> (0, 0) -> exists x y, py_direction [PObj (@GVector2 R S a b)] [] = Ok (GDirection2 x y) /\
     x * x + y * y = 1 /\ exists l, 0 < l /\ a = l * x /\ b = l * y) /\
  py_circle [PObj (GPoint p); PObj (@GDirection R S n)] [("radius"%string, v)] = Ok (GCircle (make_circle p n r)) /\
  py_circle [PObj (GPoint p)] [("radius"%string, v); ("normal"%string, PObj (@GDirection R S n))] = Ok (GCircle (make_circle p n r)).
Proof. exact (objects2 a b c d p n v r). Qed.
Print Assumptions c80_objects2_partial.
Example c80_objects2_case : number (@PInt R bool 2) 2 /\ (3, 4) <> (0, 0).
Proof. split; [right; exists 2%Z; split; reflexivity|]. intros E. injection E as E1 E2. Lra.lra. Qed.

(** C80: keyword arguments work if there is more than one argument. *)
Theorem c80_keywords_partial {S} (u v w : pyval R S) x y z : number u x -> number v y -> number w z ->
  py_point [] [("y"%string, v); ("x"%string, u)] = Ok (GPoint2 x y) /\
  py_point [u] [("y"%string, v)] = Ok (GPoint2 x y) /\
  py_point [] [("z"%string, w); ("x"%string, u); ("y"%string, v)] = Ok (GPoint (mkV3 x y z)) /\
  py_point [u] [("z"%string, w); ("y"%string, v)] = Ok (GPoint (mkV3 x y z)) /\
  py_vector [] [("y"%string, v); ("x"%string, u)] = Ok (GVector2 x y) /\
  py_vector [] [("z"%string, w); ("x"%string, u); ("y"%string, v)] = Ok (GVector (mkV3 x y z)).
Proof. exact (keywords2 u v w x y z). Qed.
Print Assumptions c80_keywords_partial.

(** C81: computeLength, computeArea and computeVolume reject objects of other dimensions, and those without a magnitude, *)
Theorem c81_rejected_partial {S} (oc : @occ R S) dim (g : geo R S) : (1 <= dim)%nat ->
  measured g <> Some dim -> py_dim_magnitude oc dim (PObj g) = Throw TypeError.
Proof. exact (measured_lemma oc dim g). Qed.
Print Assumptions c81_rejected_partial.

(** and whatever is no geometry, *)
Theorem c81_no_geometry_partial {S} (oc : @occ R S) dim (v : pyval R S) :
  (forall g, v <> PObj g) -> py_dim_magnitude oc dim v = Throw TypeError.
Proof. exact (measured_other oc dim v). Qed.
Print Assumptions c81_no_geometry_partial.

(** and return the length, area or volume (quadrilaterals and polygons: see C48-C50). *)
Theorem c81_values_partial {S} (oc : @occ R S) :
  (forall v, py_length oc (PObj (GVector v)) = Ok (norm v)) /\
  (forall s, py_length oc (PObj (GSegment s)) = Ok (dist (s_src s) (s_tgt s))) /\
  (forall c, py_length oc (PObj (GCircle c)) = Ok (2 * PI * e_a c)) /\
  (forall d, py_area oc (PObj (GDisk d)) = Ok (PI * e_a d * e_b d)) /\
  (forall a b c, py_area oc (PObj (GTriangle (make_tri a b c))) = Ok (norm (cross (psub b a) (psub c a)) / 2)) /\
  (forall q, py_area oc (PObj (GQuad q)) = Ok (q_area q)) /\
  (forall pg, py_area oc (PObj (GPolygon pg)) = poly_get_area pg) /\
  (forall c, py_area oc (PObj (GSurface c)) = Ok (2 * PI * e_a (c_bot c) * c_h c)) /\
  (forall c, py_volume oc (PObj (GCylinder c)) = Ok (PI * (e_a (c_bot c))^2 * c_h c)) /\
  (forall h, py_volume oc (PObj (GHollow h)) = Ok (PI * ((h_outer h)^2 - (e_a (h_bot h))^2) * h_h h)) /\
  (forall b, py_volume oc (PObj (GBox b)) =
     Ok ((vx (b_max b) - vx (b_min b)) * (vy (b_max b) - vy (b_min b)) * (vz (b_max b) - vz (b_min b)))) /\
  (forall s, py_volume oc (PObj (GSphere s)) = Ok (4 / 3 * PI * (sp_r s)^3)) /\
  (forall k dim s, In (k, dim) [(WEdge, 1); (WWire, 1); (WFace, 2); (WShell, 2); (WSolid, 3)]%nat ->
     py_dim_magnitude oc dim (PObj (GWrap k s)) = oc_magnitude oc k s).
Proof. exact (values_lemma oc). Qed.
Print Assumptions c81_values_partial.
Example c81_values_case : measured (@GTriangle R bool (make_tri (mkV3 0 0 0) (mkV3 1 0 0) (mkV3 0 1 0))) = Some 2%nat /\
  measured (@GPoint R bool (mkV3 0 0 0)) <> Some 1%nat.
Proof. split; [reflexivity|discriminate]. Qed.

(** C81: distances between points, and between points and segments (within the tolerance of C58). *)
Theorem c81_points_partial {S} (oc : @occ R S) (p q : pt) (s : segment R) : s_src s <> s_tgt s ->
  py_distance oc (PObj (GPoint p)) (PObj (GPoint q)) = Ok (dist p q) /\
  exists x, py_distance oc (PObj (GPoint p)) (PObj (GSegment s)) = Ok x /\
    py_distance oc (PObj (GSegment s)) (PObj (GPoint p)) = Ok x /\
    forall d, dist_to (on_segment (s_src s) (s_tgt s)) p d ->
      x <= d <= x + dist (s_src s) (s_tgt s) / 10000000.
Proof. exact (point_segment_lemma oc p q s). Qed.
Print Assumptions c81_points_partial.
Example c81_points_case : s_src (mkSeg (mkV3 0 0 0) (mkV3 1 0 0)) <> s_tgt (mkSeg (mkV3 0 0 0) (mkV3 1 0 0)).
Proof. cbn. intros E. injection E as E. Lra.lra. Qed.
