(** Specification of the intersections: which set a result describes, and what is assumed about
    the functions of OpenCascade.  The record types are shared with the model. *)

From Coq Require Import Reals List.
From Verif Require Import Base NumModel VecModel LinModel RoundModel PolyModel IntModel
  GeoSpec LinSpec RoundSpec PolySpec.
Import ListNotations.
Local Open Scope R_scope.

(** the result r describes the set S *)
Definition describes (r : isect R) (S : pt -> Prop) : Prop :=
  match r with
  | IsEmpty => forall x, ~ S x
  | IsPoint p => forall x, S x <-> x = p
  | IsSeg s => s_src s <> s_tgt s /\ forall x, S x <-> on_segment (s_src s) (s_tgt s) x
  | IsLine l => unit3 (l_dir l) /\ forall x, S x <-> on_line (l_sup l) (l_dir l) x
  | IsPlane p => unit3 (pl_n p) /\ forall x, S x <-> on_plane (pl_sup p) (pl_n p) x
  end.

(** the points of a segment, a line, a plane *)
Definition seg_pts (s : segment R) : pt -> Prop := on_segment (s_src s) (s_tgt s).
Definition line_pts (l : line R) : pt -> Prop := on_line (l_sup l) (l_dir l).
Definition plane_pts (p : plane R) : pt -> Prop := on_plane (pl_sup p) (pl_n p).
Definition both (S T : pt -> Prop) (x : pt) : Prop := S x /\ T x.

(** vectors that are multiples of each other, the angle between vectors, and vectors whose
    angle differs from 0 and pi by more than a tolerance *)
Definition parallel (u v : pt) : Prop := exists c, c <> 0 /\ v = pscale c u.
Definition angle (u v : pt) : R := acos (dot u v / (norm u * norm v)).
Definition oblique (tol : R) (u v : pt) : Prop := tol < angle u v < PI - tol.
(** 10^-10, the tolerance for angles *)
Definition ang_tol : R := 1 / 10 ^ 10.

Definition nondeg (s : segment R) : Prop := s_src s <> s_tgt s.
Definition seg_vec (s : segment R) : pt := psub (s_tgt s) (s_src s).
Definition is_end (s : segment R) (p : pt) : Prop := p = s_src s \/ p = s_tgt s.
(** p is at least eps away from the set S *)
Definition far_from (S : pt -> Prop) (eps : R) (p : pt) : Prop := forall q, S q -> eps <= dist p q.
(** every end point of one segment is on the other one or at least eps away from it *)
Definition clear (s1 s2 : segment R) (eps : R) : Prop :=
  (forall p, is_end s1 p -> seg_pts s2 p \/ far_from (seg_pts s2) eps p) /\
  (forall p, is_end s2 p -> seg_pts s1 p \/ far_from (seg_pts s1) eps p).
(** the segments are on one line and have exactly the point p in common *)
Definition touch_at (s1 s2 : segment R) (p : pt) : Prop :=
  parallel (seg_vec s1) (seg_vec s2) /\ forall x, both (seg_pts s1) (seg_pts s2) x <-> x = p.

(** *** The functions of OpenCascade, for one call each *)

(** the intersection line of two planes, the intersection point of a plane and a line *)
Definition line_ok (p1 p2 : plane R) (r : option (line R)) : Prop :=
  exists l, r = Some l /\ l_dir l <> zero3 /\
    forall x, both (plane_pts p1) (plane_pts p2) x <-> line_pts l x.
Definition point_ok (pl : plane R) (l : line R) (r : option (V3 R)) : Prop :=
  exists p, r = Some p /\ plane_pts pl p /\ line_pts l p.

(** the edges of two segments that have at most one point in common, split at this point *)
Definition fragments (s1 s2 : segment R) (es : list (V3 R * V3 R)) : Prop :=
  ((forall x, ~ both (seg_pts s1) (seg_pts s2) x) -> length es = 2%nat) /\
  forall p, (forall x, both (seg_pts s1) (seg_pts s2) x <-> x = p) ->
    (is_end s1 p -> is_end s2 p -> length es = 2%nat) /\
    (is_end s1 p -> ~ is_end s2 p -> length es = 3%nat) /\
    (~ is_end s1 p -> is_end s2 p -> length es = 3%nat) /\
    (~ is_end s1 p -> ~ is_end s2 p -> length es = 4%nat) /\
    (exists e, In e es /\ (fst e = p \/ snd e = p)) /\
    (forall e v, In e es -> fst e = v \/ snd e = v -> is_end s1 v \/ is_end s2 v \/ v = p).

(** the part of a segment on a face F: one edge, or none if there is at most one point *)
Definition common_ok (s : segment R) (F : pt -> Prop) (es : list (V3 R * V3 R)) : Prop :=
  (exists a b, a <> b /\ es = [(a, b)] /\
     forall x, both (seg_pts s) F x <-> on_segment a b x) \/
  (es = [] /\ forall x y, both (seg_pts s) F x -> both (seg_pts s) F y -> x = y).
(** the vertices of a segment without the points of F, for at most one common point *)
Definition cut_ok (s : segment R) (F : pt -> Prop) (vs : list (V3 R)) : Prop :=
  ((forall x, ~ both (seg_pts s) F x) -> length vs = 2%nat) /\
  forall p, (forall x, both (seg_pts s) F x <-> x = p) ->
    length vs <> 2%nat /\ In p vs /\ forall v, In v vs -> is_end s v \/ v = p.

(** *** Planar faces *)

(** the faces the constructors make from valid arguments, and the sets they describe *)
Definition face_set (f : face R) : pt -> Prop :=
  match f with
  | FDisk d => in_disk 1 d
  | FQuad q => hull (around (q_0 q) (q_1 q) (q_2 q) (q_3 q))
  | FPoly p => hull (po_cs p)
  end.
Definition face_ok (f : face R) : Prop :=
  match f with
  | FDisk d => ell_ok d /\ e_b d <= e_a d
  | FQuad q => exists N p0 p1 p2 p3, convex_ccw N (around p0 p1 p2 p3) /\ q = make_quad p0 p1 p2 p3
  | FPoly p => exists N cs, convex_ccw N cs /\ make_poly cs = Ok p /\ po_convex p = true
  end.

(** the parts of two faces on a line, I1 and I2, do not come close without meeting, do not meet
    in one point only if both are segments or both are points *)
Definition is_seg (s : segment R) (I : pt -> Prop) : Prop := describes (IsSeg s) I.
Definition is_point (p : pt) (I : pt -> Prop) : Prop := describes (IsPoint p) I.
Definition clean (I1 I2 : pt -> Prop) (eps : R) : Prop :=
  (forall s1 s2, is_seg s1 I1 -> is_seg s2 I2 -> clear s1 s2 eps /\ forall p, ~ touch_at s1 s2 p) /\
  (forall p s, (is_point p I1 /\ is_seg s I2) \/ (is_seg s I1 /\ is_point p I2) ->
     seg_pts s p \/ far_from (seg_pts s) eps p) /\
  (forall p q, is_point p I1 -> is_point q I2 -> p <> q).

(** two faces: the intersection line of the planes is found, the parts of segments of this
    line on each face are found, and segments of this line are split correctly *)
Definition exact_on (K : kernel R) (f : face R) (l : line R) (tol : R) : Prop :=
  forall s, nondeg s -> (forall x, seg_pts s x -> line_pts l x) ->
    common_ok s (face_set f) (k_common K s f tol) /\ cut_ok s (face_set f) (k_cut K s f tol).
Definition meet_in (p1 p2 : plane R) (l : line R) : Prop :=
  unit3 (l_dir l) /\ forall x, both (plane_pts p1) (plane_pts p2) x <-> line_pts l x.
Definition kernel_ok (K : kernel R) (f1 f2 : face R) (eps : R) : Prop :=
  line_ok (face_plane f1) (face_plane f2) (k_plane_plane K (face_plane f1) (face_plane f2) eps) /\
  forall l, meet_in (face_plane f1) (face_plane f2) l ->
    exact_on K f1 l (1 / 10 * eps) /\ exact_on K f2 l (1 / 10 * eps) /\
    forall s1 s2, nondeg s1 -> nondeg s2 ->
      (forall x, seg_pts s1 x -> line_pts l x) -> (forall x, seg_pts s2 x -> line_pts l x) ->
      fragments s1 s2 (k_fragment K s1 s2 (1 / 10 * eps)).

(** the parts of the faces on the common line of their planes are clean *)
Definition clean_faces (f1 f2 : face R) (eps : R) : Prop :=
  clean (both (face_set f1) (plane_pts (face_plane f2))) (both (face_set f2) (plane_pts (face_plane f1))) eps.

(** the bounding boxes contain the faces *)
Definition boxed (K : kernel R) (f : face R) : Prop := forall x, face_set f x -> in_box (k_face_box K f) x.

(** the face is larger than eps *)
Definition larger (f : face R) (eps : R) : Prop :=
  exists x y, face_set f x /\ face_set f y /\ eps <= dist x y.

(** the result is one of the alternatives empty, point, segment, and describes the set *)
Definition exact_result (r : outcome (isect R)) (S : pt -> Prop) : Prop :=
  exists i, r = Ok i /\ describes i S /\ (i = IsEmpty \/ (exists p, i = IsPoint p) \/ (exists s, i = IsSeg s)).

(** the planes are parallel and at least eps apart *)
Definition apart_planes (p1 p2 : plane R) (eps : R) : Prop :=
  parallel (pl_n p1) (pl_n p2) /\ far_from (plane_pts p1) eps (pl_sup p2).
(** the planes are equal *)
Definition same_plane (p1 p2 : plane R) : Prop :=
  parallel (pl_n p1) (pl_n p2) /\ plane_pts p1 (pl_sup p2).

(** the pairs of faces for which an algorithm exists *)
Definition supported (f1 f2 : face R) : Prop :=
  match f1, f2 with FQuad _, FPoly _ | FPoly _, FQuad _ => False | _, _ => True end.
(** a disk is at most twenty times as large as a polygon *)
Definition fits (f1 f2 : face R) (eps : R) : Prop :=
  match f1, f2 with
  | FPoly p, FDisk d | FDisk d, FPoly p => exists c, In c (po_cs p) /\ e_a d + eps <= 20 * dist (po_c p) c
  | _, _ => True
  end.
(** faces with oblique planes, larger than eps; in general position *)
Definition facing (K : kernel R) (f1 f2 : face R) (eps : R) : Prop :=
  face_ok f1 /\ face_ok f2 /\ supported f1 f2 /\
  oblique ang_tol (pl_n (face_plane f1)) (pl_n (face_plane f2)) /\
  kernel_ok K f1 f2 eps /\ kernel_ok K f2 f1 eps /\ larger f1 eps /\ larger f2 eps /\ fits f1 f2 eps.
Definition crossing (K : kernel R) (f1 f2 : face R) (eps : R) : Prop :=
  facing K f1 f2 eps /\ clean_faces f1 f2 eps.

(** x is within eps of the set S *)
Definition near (S : pt -> Prop) (eps : R) (p : pt) : Prop := exists q, S q /\ dist p q < eps.
(** the angle between the line and the normal of the plane differs from a right angle by at most tol *)
Definition level (tol : R) (l : line R) (pl : plane R) : Prop :=
  Rabs (PI / 2 - angle (l_dir l) (pl_n pl)) <= tol.

(** the face with the margin that point tests allow for: the disk scaled by sqrt(1 + 10^-14), the
    points that overhang the quadrilateral by less than eps^2 *)
Definition thick (f : face R) (eps : R) (p : pt) : Prop :=
  match f with
  | FDisk d => in_disk (sqrt (1 + (1 / 10 ^ 7) * (1 / 10 ^ 7))) d p
  | FQuad q => exists N, convex_ccw N (around (q_0 q) (q_1 q) (q_2 q) (q_3 q)) /\
                 overhang N (around (q_0 q) (q_1 q) (q_2 q) (q_3 q)) p < eps * eps
  | FPoly _ => False
  end.
Definition is_poly (f : face R) : Prop := match f with FPoly _ => True | _ => False end.
Definition seg_boxed (K : kernel R) (s : segment R) : Prop := forall x, seg_pts s x -> in_box (k_seg_box K s) x.
