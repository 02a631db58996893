(** Distances, boundary queries, default tolerances and lengths. *)

From Coq Require Import ZArith List Bool.
From Verif Require Import Base NumModel VecModel LinModel RoundModel PolyModel.
Import ListNotations.
Local Open Scope num_scope.

Section Dist.
Context {A : Type} `{Num A}.

(** std::min(a, b) *)
Definition nmin (a b : A) : A := if b <? a then b else a.

(** distance.hh:155-157: point-point; 166-168, 177-179: point-line *)
Definition dist_points (p q : V3 A) : A := vlen (vec_to p q).
Definition dist_line (p : V3 A) (l : line A) : A := vlen (vec_to p (line_proj l p)).

(** distance.hh:188-202, 211-213: point-segment *)
Definition dist_segment (p : V3 A) (s : segment A) : A :=
  let proj := line_proj (seg_line s) p in
  if seg_contains_default s proj true then vlen (vec_to p proj)
  else nmin (vlen (vec_to p (s_src s))) (vlen (vec_to p (s_tgt s))).

(** distance.hh:238-249: the minimum over a vector of geometries; [top] is
    std::numeric_limits<ctype>::max(), [f] the distance to one geometry *)
Definition dist_list {G} (top : A) (f : G -> A) (gs : list G) : A :=
  fold_left (fun m g => nmin m (f g)) gs top.

(** distancetoboundary.hh:116-126: quadrilaterals; 137-147: polygons.  edge(i) is called with
    valid indices only. *)
Definition dist_quad_boundary (top : A) (p : V3 A) (q : quad A) : outcome A :=
  fold_left (fun m i => obind m (fun m => obind (quad_edge q i) (fun e =>
     Ok (nmin m (dist_segment p e))))) (seq 0 4) (Ok top).
Definition dist_poly_boundary (top : A) (p : V3 A) (pg : poly A) : outcome A :=
  fold_left (fun m i => obind m (fun m => obind (poly_edge pg i) (fun e =>
     Ok (nmin m (dist_segment p e))))) (seq 0 (length (po_cs pg))) (Ok top).

(** distancetoboundary.hh:158-168: boxes.  The distance of a point and a quadrilateral is
    computed by OpenCascade (distance.hh:97-110); it is the parameter [face_dist]. *)
Definition dist_box_boundary (top : A) (face_dist : quad A -> V3 A -> A) (p : V3 A) (b : box A)
  : outcome A :=
  fold_left (fun m i => obind m (fun m => obind (box_face_quad b i) (fun f =>
     Ok (nmin m (face_dist f p))))) (seq 0 6) (Ok top).

(** distancetoboundary.hh:182-200: cylinder surfaces; the distance to a circle is computed by
    OpenCascade *)
Definition dist_surf_boundary {G} (circle_dist : G -> ell A -> A) (g : G) (c : cyl A) : A :=
  nmin (circle_dist g (c_bot c)) (circle_dist g (c_top c)).

(** pointongeometry.hh:60-65: for points in 3d this overload is more specialised than the one
    that calls contains() (43-48), and it is chosen for all geometries *)
Definition point_on_segment (p : V3 A) (s : segment A) (eps : A) : bool :=
  dist_segment p s <? eps.

(** pointonboundary.hh:88-97: quadrilaterals; 110-118: polygons *)
Definition on_quad_boundary (p : V3 A) (q : quad A) (eps : A) : outcome bool :=
  fold_left (fun r i => obind r (fun r : bool => if r then Ok true else
     obind (quad_edge q i) (fun e => Ok (point_on_segment p e eps)))) (seq 0 4) (Ok false).
Definition on_poly_boundary (p : V3 A) (pg : poly A) (eps : A) : outcome bool :=
  fold_left (fun r i => obind r (fun r : bool => if r then Ok true else
     obind (poly_edge pg i) (fun e => Ok (point_on_segment p e eps)))) (seq 0 (length (po_cs pg))) (Ok false).

(** defaultepsilon.hh:56-58: all geometries without an overload (points, lines, planes,
    triangles, ellipse arcs, cylinders, hollow cylinders) *)
Definition eps_generic {G} (g : G) : A := confusion.

(** defaultepsilon.hh:64-66: segments; 72-74: circles; 80-85: ellipses; 91-93: disks *)
Definition eps_segment (s : segment A) : A := confusion * seg_len s.
Definition eps_circle (c : ell A) : A := confusion * e_a c.
Definition eps_ellipse (e : ell A) : A := confusion * nlit 1 2 * (e_a e + e_b e).
Definition eps_disk (d : ell A) : A := eps_ellipse (disk_ellipse d).

(** defaultepsilon.hh:99-104: quadrilaterals; 110-115: polygons (area() throws for polygons that
    are not convex) *)
Definition eps_quad (q : quad A) : A := nlit 1 2 * nsqrt (q_area q) * confusion.
Definition eps_poly (pg : poly A) : outcome A :=
  obind (poly_get_area pg) (fun a => Ok (nlit 1 2 * nsqrt a * confusion)).

(** defaultepsilon.hh:121-126: cylinder surfaces; 132-137: boxes; 143-145: spheres *)
Definition eps_surf (c : cyl A) : A := confusion * nlit 1 2 * (cyl_radius c + c_h c).
Definition eps_box (b : box A) : outcome A :=
  obind (box_corner b 0) (fun p => obind (box_corner b 7) (fun q =>
  Ok (confusion * seg_len (mkSeg p q)))).
Definition eps_sphere (s : sphere A) : A := confusion * sp_r s.

(** pointonboundary.hh:155-157 with the overloads above *)
Definition on_quad_boundary_default (p : V3 A) (q : quad A) : outcome bool :=
  on_quad_boundary p q (eps_quad q).
Definition on_poly_boundary_default (p : V3 A) (pg : poly A) : outcome bool :=
  obind (eps_poly pg) (fun eps => on_poly_boundary p pg eps).

Context `{Trig A}.

(** length.hh:54-56: the default overload, for segments; 95-97: circles; 103-105: ellipses;
    111-117: full ellipse arcs (the length of other arcs is computed by OpenCascade) *)
Definition length_segment (s : segment A) : A := seg_len s.
Definition length_circle (c : ell A) : A := nlit 2 1 * npi * e_a c.
Definition length_ellipse (e : ell A) : A := npi * (e_a e + e_b e).
Definition length_full_arc (c : arc A) : A := npi * (e_a (a_ell c) + e_b (a_ell c)).

(** containedmagnitude.hh:44-52, 58-80, 86-113: points have no magnitude; for other geometries
    the pieces of the intersection with the domain are computed by OpenCascade, and so are their
    magnitudes *)
Definition contained_magnitude {G P} (dim : nat) (pieces : G -> list P) (mag : P -> A) (g : G) : A :=
  match dim with
  | O => n0
  | S _ => match pieces g with
           | [] => n0
           | ps => fold_left (fun m x => m + mag x) ps n0
           end
  end.

End Dist.
