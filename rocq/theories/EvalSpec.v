(** What the constraints mean for two planar faces, in terms of the sets of points of the faces,
    their boundaries and their normals. *)

From Coq Require Import Reals List.
From Verif Require Import Base ConstraintsModel ConstraintsSpec.
From Verif Require Import NumModel VecModel LinModel RoundModel PolyModel DistModel IntModel AngModel CylIntModel EvalModel
  GeoSpec LinSpec RoundSpec PolySpec DistSpec IntSpec AngSpec.
Import ListNotations.
Local Open Scope R_scope.

(** the boundary of a face *)
Definition edge_set (f : face R) : pt -> Prop :=
  match f with
  | FDisk d => on_ellipse d
  | FQuad q => boundary (around (q_0 q) (q_1 q) (q_2 q) (q_3 q))
  | FPoly p => boundary (po_cs p)
  end.
(** no two neighbouring corners coincide; M bounds the lengths of the edges *)
Definition corners (f : face R) : list pt :=
  match f with
  | FDisk _ => []
  | FQuad q => around (q_0 q) (q_1 q) (q_2 q) (q_3 q)
  | FPoly p => po_cs p
  end.
Definition edges_fit (M : R) (f : face R) : Prop :=
  0 <= M /\ proper_edges (corners f) /\ edges_below M (corners f).
(** the distances within the face are representable *)
Definition within (top : R) (f : face R) : Prop := forall x y, face_set f x -> edge_set f y -> dist x y <= top.

(** d is the distance of two sets (attained) *)
Definition set_dist (S T : pt -> Prop) (d : R) : Prop :=
  (exists x y, S x /\ T y /\ d = dist x y) /\ forall x y, S x -> T y -> d <= dist x y.

(** The point p of an intersection keeps off the boundary B: it is within the tolerance tol of B,
    i.e. counts as a point of B, or at least thr away from it.  The tolerance is widened by a, the
    threshold raised by b. *)
Definition keeps_off (tol thr a b : R) (B : pt -> Prop) (p : pt) : Prop :=
  forall d, dist_to B p d -> d < tol + a \/ thr + b <= d.

(** The active constraints (ConstraintsSpec; h is the list of calls, the latest first) for two
    faces with the default tolerances t1 and t2 *)
Definition angle_kept (h : list (cop R)) (f1 f2 : face R) : Prop :=
  holds_if_set (active_angle h) (fun thr =>
    forall theta, angle_between (face_normal f1) (face_normal f2) theta -> thr <= theta).
Definition end_kept (h : list (cop R)) (t1 t2 a b : R) (f1 f2 : face R) (p : pt) : Prop :=
  holds_if_set (active_is_distance h) (fun thr =>
    keeps_off t1 thr a b (edge_set f1) p /\ keeps_off t2 thr a b (edge_set f2) p).
Definition kept (h : list (cop R)) (t1 t2 a b : R) (f1 f2 : face R) : Prop :=
  let S := both (face_set f1) (face_set f2) in
  ((forall x, ~ S x) ->
     holds_if_set (active_distance h) (fun thr => forall d, set_dist (face_set f1) (face_set f2) d -> thr <= d)) /\
  (forall p, is_point p S -> angle_kept h f1 f2 /\ end_kept h t1 t2 a b f1 f2 p) /\
  (forall s, is_seg s S ->
     holds_if_set (active_magnitude h) (fun thr => thr <= dist (s_src s) (s_tgt s)) /\
     angle_kept h f1 f2 /\
     end_kept h t1 t2 a b f1 f2 (s_src s) /\ end_kept h t1 t2 a b f1 f2 (s_tgt s)).

(** The tolerance of the intersection: the one that was set, or the smaller default tolerance *)
Definition is_eps (h : list (cop R)) (t1 t2 : R) : R :=
  match active_eps h with Some e => e | None => Rmin t1 t2 end.

(** The distances computed by OpenCascade, for two faces: the distance of the faces, and the
    distances of points from the boundary of a disk *)
Definition dist_ok (O : ent_ops R) (f1 f2 : face R) : Prop :=
  exists d, set_dist (face_set f1) (face_set f2) d /\ eo_dist O (EFace f1) (EFace f2) = Ok d.
Definition curve_ok (O : ent_ops R) (f : face R) : Prop :=
  match f with
  | FDisk d => forall p x, dist_to (on_ellipse d) p x -> eo_point_curve O p (disk_ellipse d) = Ok x
  | _ => True
  end.

(** Two faces with the default tolerances t1, t2 for which the constraints are decided up to
    M/10^7: the faces cross and keep off the tolerances of the intersection (IntSpec), and the
    lengths of the edges of quadrilaterals and polygons are below M *)
Record pair_ok (top : R) (O : ent_ops R) (h : list (cop R)) (f1 f2 : face R) (t1 t2 M : R) : Prop := mkPair {
  po_cross : crossing (eo_int O) f1 f2 (is_eps h t1 t2);
  po_pos : 0 < is_eps h t1 t2;
  po_box1 : boxed (eo_int O) f1; po_box2 : boxed (eo_int O) f2;
  po_t1 : ent_eps (EFace f1) = Ok t1; po_t2 : ent_eps (EFace f2) = Ok t2;
  po_e1 : edges_fit M f1; po_e2 : edges_fit M f2;
  po_c1 : curve_ok O f1; po_c2 : curve_ok O f2;
  po_w1 : within top f1; po_w2 : within top f2;
  po_d : dist_ok O f1 f2 }.

(** quadrilaterals and polygons; the distance of two ellipses *)
Definition cornered (f : face R) : Prop := match f with FDisk _ => False | _ => True end.
Definition curves_ok (O : ent_ops R) (e1 e2 : ell R) : Prop :=
  exists d, set_dist (on_ellipse e1) (on_ellipse e2) d /\ eo_curve_curve O e1 e2 = Ok d.
