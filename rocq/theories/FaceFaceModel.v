(** Intersections of faces given as shapes.

    Shapes and the operations of OpenCascade are parameters, collected in the record
    [shape_kernel]; everything else is the code of /repo.  The paths below are relative to
    /repo/frackit/intersection/. *)

From Coq Require Import ZArith List Bool.
From Verif Require Import Base NumModel VecModel LinModel.
Import ListNotations.

(** F, E, W: the types of face, edge and wire shapes.  The argument of type A is the fuzzy value. *)
Record shape_kernel (A F E W : Type) := mkShapeKernel {
  (* the faces of OCCUtilities::intersect, OCCUtilities::cut of two faces *)
  sk_common : F -> F -> A -> list F;
  sk_cut : F -> F -> A -> list F;
  (* getWires of a face *)
  sk_wires : F -> list W;
  (* the edges of OCCUtilities::intersect of a wire and a face, of an edge and a face *)
  sk_wire_common : W -> F -> A -> list E;
  sk_edge_common : E -> F -> A -> list E;
  (* TopoDS_Shape::IsSame *)
  sk_same : E -> E -> bool;
  (* the vertices of a face, of an edge, of OCCUtilities::cut of a wire with a face *)
  sk_face_vertices : F -> list (V3 A);
  sk_edge_vertices : E -> list (V3 A);
  sk_wire_cut : W -> F -> A -> list (V3 A);
  (* the vertices of OCCUtilities::intersect of a point and a face *)
  sk_point_common : V3 A -> F -> A -> list (V3 A);
  (* getBoundingBox *)
  sk_box : F -> box A;
}.
Arguments sk_common {A F E W} _ _ _ _.
Arguments sk_cut {A F E W} _ _ _ _.
Arguments sk_wires {A F E W} _ _.
Arguments sk_wire_common {A F E W} _ _ _ _.
Arguments sk_edge_common {A F E W} _ _ _ _.
Arguments sk_same {A F E W} _ _ _.
Arguments sk_face_vertices {A F E W} _ _.
Arguments sk_edge_vertices {A F E W} _ _.
Arguments sk_wire_cut {A F E W} _ _ _ _.
Arguments sk_point_common {A F E W} _ _ _ _.
Arguments sk_box {A F E W} _ _.

(** intersectiontraits.hh:278-289, 324-333: the result of two faces, or of a cylinder surface and
    a face *)
Inductive spiece (A F E : Type) := SpEmpty | SpPoint (p : V3 A) | SpEdge (e : E) | SpFace (f : F).
Arguments SpEmpty {A F E}.
Arguments SpPoint {A F E} _.
Arguments SpEdge {A F E} _.
Arguments SpFace {A F E} _.

Section FaceFace.
Context {A : Type} `{Num A} {F E W : Type}.
Variable K : shape_kernel A F E W.

(** algorithms/algo_face_face_3d.hh:84-102: the edges on the face *)
Definition on_faces (e : E) (faces : list F) (eps : A) : bool :=
  existsb (fun f => match sk_edge_common K e f eps with [] => false | _ => true end) faces.
Definition add_edge (faces : list F) (eps : A) (found : list E) (e : E) : list E :=
  if on_faces e faces eps then found
  else if existsb (fun e' => sk_same K e e') found then found
  else found ++ [e].

(** algorithms/algo_face_face_3d.hh:73-104.  The loops over the fragments, their wires and the
    edges visit the edges in this order. *)
Definition trace_edges (f1 f2 : F) (eps : A) : list E :=
  flat_map (fun g => flat_map (fun w => sk_wire_common K w f2 eps) (sk_wires K g)) (sk_cut K f1 f2 eps).
Definition found_edges (f1 f2 : F) (eps : A) : list E :=
  fold_left (add_edge (sk_common K f1 f2 eps) eps) (trace_edges f1 f2 eps) [].

(** algorithms/algo_face_face_3d.hh:112-123: the vertices of what is found so far *)
Definition found_vertices (faces : list F) (edges : list E) : list (V3 A) :=
  flat_map (sk_face_vertices K) faces ++ flat_map (sk_edge_vertices K) edges.

(** algorithms/algo_face_face_3d.hh:125-144: the vertices of the cut wires that are on the other face *)
Definition is_on (p : V3 A) (f : F) (eps : A) : bool :=
  negb (Nat.eqb (length (sk_point_common K p f eps)) 0).
Definition candidates (f1 f2 : F) (eps : A) : list (V3 A) :=
  filter (fun p => is_on p f2 eps) (flat_map (fun w => sk_wire_cut K w f2 eps) (sk_wires K f1)) ++
  filter (fun p => is_on p f1 eps) (flat_map (fun w => sk_wire_cut K w f1 eps) (sk_wires K f2)).

(** algorithms/algo_face_face_3d.hh:146-153 *)
Definition has_point (p : V3 A) (c : list (V3 A)) (eps : A) : bool :=
  existsb (fun p2 => pt_eq p2 p eps) c.
Definition new_points (known cands : list (V3 A)) (eps : A) : list (V3 A) :=
  fold_left (fun found p => if negb (has_point p known eps) && negb (has_point p found eps) then found ++ [p] else found) cands [].

(** algorithms/algo_face_face_3d.hh:54-163 *)
Definition face_face_3d (f1 f2 : F) (eps : A) : list (spiece A F E) :=
  let faces := sk_common K f1 f2 eps in
  let edges := found_edges f1 f2 eps in
  let points := new_points (found_vertices faces edges) (candidates f1 f2 eps) eps in
  match map SpPoint points ++ map SpEdge edges ++ map SpFace faces with
  | [] => [SpEmpty]
  | r => r
  end.

(** intersect.hh:419-426: two faces *)
Definition int_face_face (f1 f2 : F) (eps : A) : list (spiece A F E) :=
  if negb (do_intersect (sk_box K f1) (sk_box K f2) eps) then [SpEmpty]
  else face_face_3d f1 f2 eps.

(** intersect.hh:435-498: a disk, quadrilateral or polygon g and a face, in both orders of the
    arguments; shape is OCCUtilities::getShape *)
Definition int_geo_face {G : Type} (shape : G -> F) (g : G) (f : F) (eps : A) : list (spiece A F E) :=
  int_face_face (shape g) f eps.

(** intersect.hh:390-410, algorithms/algo_cylsurface_face.hh:44-49: a cylinder surface and a face,
    in both orders of the arguments; gbox is getBoundingBox of the surface *)
Definition int_surf_face {G : Type} (shape : G -> F) (gbox : G -> box A) (c : G) (f : F) (eps : A) : list (spiece A F E) :=
  if negb (do_intersect (gbox c) (sk_box K f) eps) then [SpEmpty]
  else face_face_3d (shape c) f eps.

End FaceFace.
