(** Specification of intersection angles, in terms of normals and directions. *)

From Coq Require Import Reals List.
From Verif Require Import Base NumModel VecModel LinModel RoundModel PolyModel DistModel IntModel AngModel
  GeoSpec LinSpec RoundSpec.
Local Open Scope R_scope.

(** theta is the acute (or right) angle between planes with the normals n1 and n2 *)
Definition angle_between (n1 n2 : pt) (theta : R) : Prop :=
  0 <= theta <= PI / 2 /\ cos theta * (norm n1 * norm n2) = Rabs (dot n1 n2).

(** the same, measured in the planes: between the directions u1, u2 of the planes that are
    perpendicular to their common direction l *)
Definition dihedral (n1 n2 : pt) (theta : R) : Prop :=
  0 <= theta <= PI / 2 /\
  forall l u1 u2, unit3 l -> unit3 u1 -> unit3 u2 ->
    ortho l n1 -> ortho l n2 -> ortho u1 n1 -> ortho u1 l -> ortho u2 n2 -> ortho u2 l ->
    cos theta = Rabs (dot u1 u2).

(** the normal of a face: the one of its supporting plane *)
Definition face_normal (f : face R) : pt :=
  match f with FDisk d => e_n d | FQuad q => pl_n (q_plane q) | FPoly p => pl_n (po_plane p) end.
(** faces with a proper supporting plane *)
Definition face_dir_ok (f : face R) : Prop := unit3 (face_normal f).

(** w is the offset of p from the axis of the cylinder *)
Definition radial (c : cyl R) (p w : pt) : Prop :=
  ortho w (e_n (c_bot c)) /\
  exists z, p = padd (e_c (c_bot c)) (padd (pscale z (e_n (c_bot c))) w).
(** theta is the angle between a plane with the normal n and the cylinder surface at p *)
Definition angle_at (n : pt) (c : cyl R) (p : pt) (theta : R) : Prop :=
  exists w, radial c p w /\ angle_between n w theta.

(** theta is the smallest of the angles at the points of S *)
Definition smallest_angle (n : pt) (c : cyl R) (S : pt -> Prop) (theta : R) : Prop :=
  (exists p, S p /\ angle_at n c p theta) /\ (forall p t, S p -> angle_at n c p t -> theta <= t).

(** a cylinder surface with a positive radius *)
Definition surf_ok (c : cyl R) : Prop := cyl_ok c /\ 0 < e_a (c_bot c).

(** the points of an arc from the angle s to the angle t of an ellipse *)
Definition on_arc (e : ell R) (s t : R) (p : pt) : Prop :=
  exists phi, 0 <= phi < 2 * PI /\ between s t phi /\ p = ell_at e phi.

(** a face shape with the point set S and the normals N, as OpenCascade describes it: the
    projection of a point of the shape is the point itself (distance zero), and the partial
    derivatives there span the tangent plane *)
Definition shape_ok (s : surface R) (S : pt -> Prop) (N : pt -> pt) : Prop :=
  forall p, S p -> exists u v, sf_proj s p = (0, (u, v)) /\
    let '(b1, b2) := sf_d1 s u v in
    det3 b1 b2 (N p) <> 0 /\ ortho b1 (N p) /\ ortho b2 (N p).
(** the derivatives of a flat shape do not depend on the parameters *)
Definition flat (s : surface R) : Prop := forall u v u' v', sf_d1 s u v = sf_d1 s u' v'.

(** the cylinder of radius one around the third coordinate axis, as OpenCascade describes it *)
Definition unit_cyl_surface (u_of : pt -> R) : surface R :=
  mkSurf (fun u v => (mkV3 (- sin u) (cos u) 0, mkV3 0 0 1)) (fun p => (0, (u_of p, vz p))).

(** the point at the fraction tau of the arc from the angle s to the angle t, in the positive
    sense of rotation *)
Definition arc_at (e : ell R) (s t tau : R) : pt :=
  ell_at e (s + (if Rlt_dec s t then t - s else 2 * PI - s + t) * tau).

(** the combinations of geometries and intersections for which there is an angle *)
Definition has_angle (g1 g2 : ageo R) (i : apiece R) : Prop :=
  match g1, g2 with
  | GPlane _, GPlane _ => exists l, i = PcLine l
  | GFace _, GFace _ => (exists p, i = PcPoint p) \/ (exists s, i = PcSeg s)
  | GFace _, GSurf _ | GSurf _, GFace _ =>
      (exists p, i = PcPoint p) \/ (exists s, i = PcSeg s) \/ (exists a, i = PcArc a) \/ (exists e, i = PcEll e)
  | GFace _, GShape _ | GShape _, GFace _ | GShape _, GShape _ =>
      (exists p, i = PcPoint p) \/ (exists c, i = PcEdge c) \/ i = PcFace
  | GShape _, _ | _, GShape _ => i = PcFace
  | _, _ => False
  end.
