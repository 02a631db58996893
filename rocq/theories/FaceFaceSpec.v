(** Specification of the intersections of face shapes: the sets of points that faces and edges
    stand for are the parameters fpts and epts. *)

From Coq Require Import Reals List.
From Verif Require Import Base NumModel VecModel LinModel FaceFaceModel GeoSpec LinSpec.
Import ListNotations.
Local Open Scope R_scope.

Section Shapes.
Context {F E W : Type}.
Variable K : shape_kernel R F E W.
Variable fpts : F -> pt -> Prop.
Variable epts : E -> pt -> Prop.

(** the points of a piece *)
Definition spiece_pts (i : spiece R F E) (x : pt) : Prop :=
  match i with
  | SpEmpty => False
  | SpPoint p => x = p
  | SpEdge e => epts e x
  | SpFace f => fpts f x
  end.
(** the vertices of a piece *)
Definition spiece_vertices (i : spiece R F E) : list pt :=
  match i with
  | SpEmpty => []
  | SpPoint p => [p]
  | SpEdge e => sk_edge_vertices K e
  | SpFace f => sk_face_vertices K f
  end.

(** an edge on the boundary of a fragment of f1 that is on f2 *)
Definition boundary_edge (f1 f2 : F) (eps : R) (e : E) : Prop :=
  exists g w, In g (sk_cut K f1 f2 eps) /\ In w (sk_wires K g) /\ In e (sk_wire_common K w f2 eps).
(** a vertex of the boundary of f1, split by f2, that is on f2 *)
Definition boundary_vertex (f1 f2 : F) (eps : R) (p : pt) : Prop :=
  (exists w, In w (sk_wires K f1) /\ In p (sk_wire_cut K w f2 eps)) /\ sk_point_common K p f2 eps <> [].
(** e and f have an edge in common *)
Definition share_edge (e : E) (f : F) (eps : R) : Prop := sk_edge_common K e f eps <> [].

(** What OpenCascade finds is common to both faces. *)
Record finds_common (f1 f2 : F) (eps : R) : Prop := {
  fc_faces : forall f x, In f (sk_common K f1 f2 eps) -> fpts f x -> fpts f1 x /\ fpts f2 x;
  fc_edges : forall e x, boundary_edge f1 f2 eps e -> epts e x -> fpts f1 x /\ fpts f2 x;
  fc_vertices1 : forall p, boundary_vertex f1 f2 eps p -> fpts f1 p /\ fpts f2 p;
  fc_vertices2 : forall p, boundary_vertex f2 f1 eps p -> fpts f1 p /\ fpts f2 p;
}.
(** OpenCascade finds all of the common points; vertices are points of their shapes, edges that
    share an edge with a common face are on that face, and the same edges have the same points. *)
Record finds_all (f1 f2 : F) (eps : R) : Prop := {
  fa_all : forall x, fpts f1 x -> fpts f2 x ->
    (exists f, In f (sk_common K f1 f2 eps) /\ fpts f x) \/
    (exists e, boundary_edge f1 f2 eps e /\ epts e x) \/
    boundary_vertex f1 f2 eps x \/ boundary_vertex f2 f1 eps x;
  fa_face_vertices : forall f p, In p (sk_face_vertices K f) -> fpts f p;
  fa_edge_vertices : forall e p, In p (sk_edge_vertices K e) -> epts e p;
  fa_on_face : forall e f x, In f (sk_common K f1 f2 eps) -> share_edge e f eps -> epts e x -> fpts f x;
  fa_same : forall e e' x, sk_same K e e' = true -> (epts e x <-> epts e' x);
}.

(** the pieces are in both sets; all common points are on a piece, or within eps of a piece; the
    only piece is "empty", or no piece is *)
Definition pieces_within (is : list (spiece R F E)) (S T : pt -> Prop) : Prop :=
  forall i x, In i is -> spiece_pts i x -> S x /\ T x.
Definition pieces_reach (is : list (spiece R F E)) (eps : R) (S T : pt -> Prop) : Prop :=
  forall x, S x -> T x -> exists i y, In i is /\ spiece_pts i y /\ dist x y < eps.
Definition empty_alone (is : list (spiece R F E)) : Prop :=
  is = [SpEmpty] \/ (is <> [] /\ ~ In SpEmpty is).

(** the box of a shape contains it *)
Definition shape_boxed (f : F) : Prop := forall x, fpts f x -> in_box (sk_box K f) x.
End Shapes.

(** the points, edges and faces of a result *)
Definition points_of {F E} (is : list (spiece R F E)) : list pt := flat_map (fun i => match i with SpPoint p => [p] | _ => [] end) is.
Definition edges_of {F E} (is : list (spiece R F E)) : list E := flat_map (fun i => match i with SpEdge e => [e] | _ => [] end) is.
Definition faces_of {F E} (is : list (spiece R F E)) : list F := flat_map (fun i => match i with SpFace f => [f] | _ => [] end) is.

(** points at a distance of at least eps from each other *)
Definition far_apart (eps : R) (ps : list pt) : Prop :=
  forall l1 p l2 q l3, ps = l1 ++ p :: l2 ++ q :: l3 -> eps <= dist p q.
(** no element is related to an earlier one *)
Definition none_again {T} (same : T -> T -> bool) (l : list T) : Prop :=
  forall l1 a l2 b l3, l = l1 ++ a :: l2 ++ b :: l3 -> same b a = false.
