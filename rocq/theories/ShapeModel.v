(** The shapes of OpenCascade that the geometries are converted to.

    A shape is described by the arguments that OpenCascade receives.  The constructors of the
    packages gp and Geom are modelled after their documentation; all exceptions of OpenCascade are
    [Throw RuntimeError].  The paths are relative to /repo/frackit/occ/. *)

From Coq Require Import ZArith List Bool.
From Verif Require Import Base NumModel VecModel LinModel RoundModel PolyModel.
Import ListNotations.
Local Open Scope num_scope.

(** gp_Ax2: origin and the three directions *)
Record frame (A : Type) := mkFrame { fr_o : V3 A; fr_x : V3 A; fr_y : V3 A; fr_z : V3 A }.
Arguments mkFrame {A} _ _ _ _.
Arguments fr_o {A} _.
Arguments fr_x {A} _.
Arguments fr_y {A} _.
Arguments fr_z {A} _.

(** gp_Elips *)
Record conic (A : Type) := mkConic { co_f : frame A; co_a : A; co_b : A }.
Arguments mkConic {A} _ _ _.
Arguments co_f {A} _.
Arguments co_a {A} _.
Arguments co_b {A} _.

(** Shapes: a vertex, a straight edge between two points, the part of an ellipse between two
    parameters (an edge, or the wire made of it), the face bounded by a full ellipse, the face
    bounded by straight edges, the lateral face of a cylinder, and the solids. *)
Inductive shape (A : Type) :=
| ShVertex (p : V3 A)
| ShLine (p q : V3 A)
| ShCurve (c : conic A) (u0 u1 : A)
| ShDisk (c : conic A)
| ShFace (wire : list (V3 A * V3 A))
| ShLateral (f : frame A) (r h : A)
| ShCylinder (f : frame A) (r h : A)
| ShBox (p q : V3 A)
| ShBall (c : V3 A) (r : A).
Arguments ShVertex {A} _.
Arguments ShLine {A} _ _.
Arguments ShCurve {A} _ _ _.
Arguments ShDisk {A} _.
Arguments ShFace {A} _.
Arguments ShLateral {A} _ _ _.
Arguments ShCylinder {A} _ _ _.
Arguments ShBox {A} _ _.
Arguments ShBall {A} _ _.

Section Shape.
Context {A : Type} `{Num A} `{Trig A}.

(** gputilities.hh:47-54: points of any dimension *)
Definition gp_point1 (x : A) : V3 A := mkV3 x n0 n0.
Definition gp_point2 (x y : A) : V3 A := mkV3 x y n0.

(** gputilities.hh:69-76: direction; gp_Dir divides by the length, and throws if it is zero *)
Definition gp_dir (d : V3 A) : outcome (V3 A) :=
  if vlen d <=? n0 then Throw RuntimeError else Ok (to_dir d).

(** gp_Ax2(P, N, Vx): the direction of x is N x (Vx x N), that of y is N x X *)
Definition gp_ax2 (o n v : V3 A) : outcome (frame A) :=
  obind (gp_dir (cross n (cross v n))) (fun x => obind (gp_dir (cross n x)) (fun y => Ok (mkFrame o x y n))).

(** gp_Elips(A2, MajorRadius, MinorRadius): throws if the minor radius is negative or larger than
    the major one *)
Definition gp_elips (f : frame A) (a b : A) : outcome (conic A) :=
  if (b <? n0) || (a <? b) then Throw RuntimeError else Ok (mkConic f a b).

(** geomutilities.hh:62-72, breputilities.hh:220-232, 308-321: the same code for ellipses, and for
    the boundary of disks *)
Definition conic_of (e : ell A) : outcome (conic A) :=
  obind (gp_dir (e_n e)) (fun n => obind (gp_dir (e_maj e)) (fun m =>
  obind (gp_ax2 (e_c e) n m) (fun f => gp_elips f (e_a e) (e_b e)))).
Definition shape_ellipse (e : ell A) : outcome (shape A) :=
  obind (conic_of e) (fun c => Ok (ShCurve c n0 (nlit 2 1 * npi))).
Definition shape_disk (d : ell A) : outcome (shape A) := obind (conic_of d) (fun c => Ok (ShDisk c)).

(** breputilities.hh:238-246: a circle is converted to an ellipse first *)
Definition shape_circle (c : ell A) : outcome (shape A) :=
  shape_ellipse (make_ell (e_c c) (e_maj c) (e_min c) (e_a c) (e_a c)).

(** geomutilities.hh:78-89, breputilities.hh:252-254: arcs.  Geom_TrimmedCurve throws if the two
    parameters are the same. *)
Definition shape_arc (c : arc A) : outcome (shape A) :=
  obind (conic_of (a_ell c)) (fun k =>
  let t := if a_t c <? a_s c then a_t c + nlit 2 1 * npi else a_t c in
  if a_s c =? t then Throw RuntimeError else Ok (ShCurve k (a_s c) t)).

(** breputilities.hh:131-142, 169-171: BRepBuilderAPI_MakeEdge fails if the points coincide *)
Definition make_edge (p q : V3 A) : outcome (V3 A * V3 A) :=
  if vlen (vec_to p q) <=? n0 then Throw RuntimeError else Ok (p, q).
Definition shape_segment (s : segment A) : outcome (shape A) :=
  obind (make_edge (s_src s) (s_tgt s)) (fun e => Ok (ShLine (fst e) (snd e))).

(** BRepBuilderAPI_MakeFace(wire) fails if OpenCascade finds no plane for the wire *)
Definition make_face (finds_plane : list (V3 A * V3 A) -> bool) (w : list (V3 A * V3 A)) : outcome (shape A) :=
  if finds_plane w then Ok (ShFace w) else Throw RuntimeError.

(** breputilities.hh:260-275 *)
Definition shape_quad finds_plane (q : quad A) : outcome (shape A) :=
  obind (make_edge (q_0 q) (q_1 q)) (fun e1 =>
  obind (make_edge (q_1 q) (q_3 q)) (fun e2 =>
  obind (make_edge (q_3 q) (q_2 q)) (fun e3 =>
  obind (make_edge (q_2 q) (q_0 q)) (fun e4 => make_face finds_plane [e1; e2; e3; e4])))).

(** the edges are made one after the other *)
Fixpoint make_edges (l : list (V3 A * V3 A)) : outcome (list (V3 A * V3 A)) :=
  match l with
  | [] => Ok []
  | (p, q) :: l => obind (make_edge p q) (fun e => obind (make_edges l) (fun es => Ok (e :: es)))
  end.

(** breputilities.hh:281-302: the vertices 0 and 1 of polygons with less than two corners are read
    beyond the end of the vector *)
Definition shape_poly finds_plane (pg : poly A) : outcome (shape A) :=
  let cs := po_cs pg in
  let n := length cs in
  match cs with
  | c0 :: c1 :: _ =>
    obind (make_edge c0 c1) (fun e1 =>
    obind (make_edges (map (fun i => (nth i cs c0, nth ((i + 1) mod n)%nat cs c0)) (seq 1 (n - 1)))) (fun es =>
    make_face finds_plane (e1 :: es)))
  | _ => UB
  end.

(** breputilities.hh:199-214: a cylinder surface; BRepPrimAPI_MakeCylinder fails if the radius or
    the height is not positive *)
Definition cyl_frame (bottom : ell A) : outcome (frame A) :=
  obind (gp_dir (e_n bottom)) (fun n => obind (gp_dir (e_maj bottom)) (fun m => gp_ax2 (e_c bottom) n m)).
Definition make_cylinder {B} (bottom : ell A) (h : A) (mk : frame A -> A -> A -> B) : outcome B :=
  obind (cyl_frame bottom) (fun f =>
  if (e_a bottom <=? n0) || (h <=? n0) then Throw RuntimeError else Ok (mk f (e_a bottom) h)).
Definition shape_surface (c : cyl A) : outcome (shape A) := make_cylinder (c_bot c) (c_h c) ShLateral.
(** breputilities.hh:177-192: a cylinder, by the circle of its lateral face *)
Definition shape_cylinder (c : cyl A) : outcome (shape A) :=
  make_cylinder (c_bot (cyl_lateral c)) (c_h (cyl_lateral c)) ShCylinder.

(** breputilities.hh:327-337: BRepPrimAPI_MakeBox fails for boxes without volume *)
Definition shape_box (b : box A) : outcome (shape A) :=
  let p := b_min b in
  let q := b_max b in
  if (vx q - vx p <=? n0) || (vy q - vy p <=? n0) || (vz q - vz p <=? n0) then Throw RuntimeError else Ok (ShBox p q).
(** breputilities.hh:343-351 *)
Definition shape_sphere (s : sphere A) : outcome (shape A) :=
  if sp_r s <=? n0 then Throw RuntimeError else Ok (ShBall (sp_c s) (sp_r s)).
(** breputilities.hh:155-163 *)
Definition shape_point (p : V3 A) : outcome (shape A) := Ok (ShVertex p).

End Shape.
