(** Specification of the intersections of lateral cylinder surfaces with planar faces: which set a
    list of pieces describes, and what is assumed about the boolean operations of OpenCascade.
    The record types are shared with the model. *)

From Coq Require Import Reals List.
From Verif Require Import Base NumModel VecModel LinModel RoundModel PolyModel DistModel IntModel AngModel CylIntModel
  GeoSpec LinSpec RoundSpec PolySpec IntSpec AngSpec.
Import ListNotations.
Local Open Scope R_scope.

(** a cylinder surface whose rim is a proper circle *)
Definition tube_ok (c : cyl R) : Prop :=
  cyl_ok c /\ ell_ok (c_bot c) /\ e_b (c_bot c) = e_a (c_bot c).
(** the unbounded surface: the points at the distance of the radius from the axis *)
Definition unbounded (c : cyl R) (p : pt) : Prop :=
  exists z w, ortho w (e_n (c_bot c)) /\ norm w = e_a (c_bot c) /\
    p = padd (e_c (c_bot c)) (padd (pscale z (e_n (c_bot c))) w).
(** the common points of the face and the surface *)
Definition common_set (c : cyl R) (f : face R) : pt -> Prop := both (face_set f) (cyl_lateral_set c).

(** the arc from the angle s to the angle t, in the positive sense of rotation *)
Definition arc_pts (e : ell R) (s t : R) (x : pt) : Prop := exists tau, 0 <= tau <= 1 /\ x = arc_at e s t tau.
(** the points of the pieces *)
Definition piece_pts (i : apiece R) (x : pt) : Prop :=
  match i with
  | PcPoint p => x = p
  | PcSeg s => seg_pts s x
  | PcArc a => arc_pts (a_ell a) (a_s a) (a_t a) x
  | PcEll e => on_ellipse e x
  | PcLine l => line_pts l x
  | PcEmpty | PcEdge _ | PcFace => False
  end.
(** the pieces cover exactly the set S; the only piece is "empty", or no piece is *)
Definition covers (r : outcome (list (apiece R))) (S : pt -> Prop) : Prop :=
  exists is, r = Ok is /\ (forall x, S x <-> exists i, In i is /\ piece_pts i x) /\
    (is = [PcEmpty] \/ (is <> [] /\ forall i, In i is -> i <> PcEmpty)).

(** the orientation of the face: orthogonal to the axis, oblique, along the axis *)
Definition across (c : cyl R) (f : face R) : Prop := parallel (pl_n (face_plane f)) (e_n (c_bot c)).
Definition slanted (c : cyl R) (f : face R) : Prop :=
  oblique ang_tol (pl_n (face_plane f)) (e_n (c_bot c)) /\
  ang_tol < Rabs (PI / 2 - angle (pl_n (face_plane f)) (e_n (c_bot c))).
Definition along (c : cyl R) (f : face R) : Prop :=
  Rabs (PI / 2 - angle (pl_n (face_plane f)) (e_n (c_bot c))) <= ang_tol.
(** the line of the axis *)
Definition axis_line (c : cyl R) : line R := mkLine (e_c (c_bot c)) (e_n (c_bot c)).

(** e is the ellipse in which the plane of the face cuts the unbounded surface *)
Definition section_of (c : cyl R) (f : face R) (e : ell R) : Prop :=
  ell_ok e /\ forall x, on_ellipse e x <-> plane_pts (face_plane f) x /\ unbounded c x.

(** this ellipse: the center is on the axis, the minor axis has the length of the radius; the axes
    are those of the rim for orthogonal faces; for oblique ones the major axis is the direction of
    the cylinder projected on the plane, and the minor axis is orthogonal to it and the normal.
    Faces along the axis have no ellipse. *)
Definition flat_axis (c : cyl R) (f : face R) : pt :=
  let n := pl_n (face_plane f) in let d := e_n (c_bot c) in psub d (pscale (dot n d) n).
Definition framed (c : cyl R) (f : face R) (e : ell R) : Prop :=
  plane_pts (face_plane f) (e_c e) /\ line_pts (axis_line c) (e_c e) /\ e_n e = cross (e_maj e) (e_min e) /\
  e_b e = e_a (c_bot c) /\ e_a e * Rabs (dot (pl_n (face_plane f)) (e_n (c_bot c))) = e_a (c_bot c).
Definition rim_axes (c : cyl R) (e : ell R) : Prop := e_maj e = e_maj (c_bot c) /\ e_min e = e_min (c_bot c).
Definition slope_axes (c : cyl R) (f : face R) (e : ell R) : Prop :=
  e_maj e = pscale (/ norm (flat_axis c f)) (flat_axis c f) /\ e_min e = cross (pl_n (face_plane f)) (e_maj e).
Definition canonical (c : cyl R) (f : face R) (el : option (ell R)) : Prop :=
  match el with
  | None => along c f
  | Some e => framed c f e /\ ((across c f /\ rim_axes c e) \/ (slanted c f /\ slope_axes c f e))
  end.

(** *** The curves of wires: arcs of the ellipse between two angles, segments *)
Inductive track := TArc (s t : R) | TSeg (p q : pt).
Definition track_pts (el : option (ell R)) (tr : track) (x : pt) : Prop :=
  match el, tr with
  | Some e, TArc s t => arc_pts e s t x
  | None, TSeg p q => on_segment p q x
  | _, _ => False
  end.
(** the projection on an edge with the points E: the points of E are found, and the distance is the
    distance to some point of E *)
Definition projects (E : pt -> Prop) (proj : pt -> option R) : Prop :=
  (forall x, E x -> proj x = Some 0) /\
  forall x d, proj x = Some d -> exists y, E y /\ d = dist x y.
(** the wire w follows an arc of e: its vertices are the ends of the arc in some order, are apart,
    and their angles are not changed by getAngle; its edges make up the arc; the center of the rest
    of the ellipse is at least eps away from it *)
Definition follows_arc (e : ell R) (eps : R) (w : wire R) (s t : R) : Prop :=
  0 <= s < 2 * PI /\ 0 <= t < 2 * PI /\ s <> t /\ unsnapped s /\ unsnapped t /\
  e_a e * (1 / 10 ^ 7) <= dist (ell_at e s) (ell_at e t) /\
  ((w_first w = ell_at e s /\ w_last w = ell_at e t) \/ (w_first w = ell_at e t /\ w_last w = ell_at e s)) /\
  (exists Es, Forall2 projects Es (w_edges w) /\ forall x, arc_pts e s t x <-> exists E, In E Es /\ E x) /\
  far_from (arc_pts e s t) eps (arc_at e t s (1 / 2)).
Definition follows (el : option (ell R)) (eps : R) (w : wire R) (tr : track) : Prop :=
  w_closed w = false /\
  match el, tr with
  | Some e, TArc s t => follows_arc e eps w s t
  | None, TSeg p q => p <> q /\ w_first w = p /\ w_last w = q
  | _, _ => False
  end.
(** the point v is not close to the track: for arcs, the angle is off by more than eps *)
Definition off_track (el : option (ell R)) (eps : R) (tr : track) (v : pt) : Prop :=
  match el, tr with
  | Some e, TArc s t => exists phi, 0 <= phi < 2 * PI /\ unsnapped phi /\ v = ell_at e phi /\
      ((s < t /\ (phi < s - eps \/ t + eps < phi)) \/ (t < s /\ t + eps < phi < s - eps))
  | None, TSeg p q => far_from (on_segment p q) eps v
  | _, _ => False
  end.

(** *** The boolean operations *)

(** the vertices vs of the cut: on the common set S or not close to the surface, and not close to
    each other *)
Definition sharp (c : cyl R) (eps : R) (S : pt -> Prop) (vs : list pt) : Prop :=
  (forall v, In v vs -> S v \/ forall q, cyl_lateral_set c q -> sqrt 2 * eps < dist v q) /\
  forall v w, In v vs -> In w vs -> v = w \/ eps <= dist v w.
(** the operations find the common set: the wires of the part of the face in the cylinder, of the
    face, and the vertices of the cut *)
Definition splits (C : cyl_kernel R) (c : cyl R) (f : face R) (eps : R) (el : option (ell R)) : Prop :=
  let tol := 1 / 10 * eps in
  let S := common_set c f in
  (* the face is not inside, parts of its boundary are on the surface *)
  (ck_faces C c f tol = 0%nat /\ exists trs, trs <> [] /\
     Forall2 (follows el eps) (ck_outer C c f tol) trs /\
     forall x, S x <-> exists tr, In tr trs /\ track_pts el tr x) \/
  (* only vertices of the cut are on the surface *)
  (ck_faces C c f tol = 0%nat /\ ck_outer C c f tol = [] /\
     sharp c eps S (ck_cut C c f tol) /\ forall x, S x -> In x (ck_cut C c f tol)) \/
  (* the whole section is inside the face *)
  (ck_faces C c f tol <> 0%nat /\ (exists w, ck_inner C c f tol = [w] /\ w_closed w = true) /\
     exists e, el = Some e /\ forall x, S x <-> on_ellipse e x) \/
  (* the boundary of the part inside is partly on the surface; further vertices touch it *)
  (ck_faces C c f tol <> 0%nat /\ sharp c eps S (ck_cut C c f tol) /\ exists trs,
     Forall2 (follows el eps) (ck_inner C c f tol) trs /\
     (forall x, S x <-> (exists tr, In tr trs /\ track_pts el tr x) \/ (S x /\ In x (ck_cut C c f tol))) /\
     forall v, In v (ck_cut C c f tol) -> S v -> forall tr, In tr trs -> track_pts el tr v \/ off_track el eps tr v).

(** the bounding box of the surface contains it *)
Definition tube_boxed (C : cyl_kernel R) (c : cyl R) : Prop := forall x, cyl_lateral_set c x -> in_box (ck_box C c) x.
(** the line of the axis meets the plane of the face in the point that OpenCascade finds *)
Definition axis_met (K : kernel R) (c : cyl R) (f : face R) : Prop :=
  point_ok (face_plane f) (axis_line c) (k_plane_line K (face_plane f) (axis_line c)).
