(** Specification of convex polygons.  Corners are lists of points; N is a unit vector normal
    to the plane of the polygon that fixes the sense of rotation. *)

From Coq Require Import Reals List.
From Verif Require Import NumModel VecModel GeoSpec.
Import ListNotations.
Local Open Scope R_scope.

(** twice the signed area of the triangle a b c, seen from the tip of N: positive if a, b, c
    are in counter-clockwise order *)
Definition orient (N a b c : pt) : R := det3 (psub b a) (psub c a) N.

(** the edges of the closed polygonal chain through the given corners *)
Fixpoint chain (l : list pt) : list (pt * pt) :=
  match l with
  | a :: ((b :: _) as r) => (a, b) :: chain r
  | _ => []
  end.
Definition edges (cs : list pt) : list (pt * pt) := chain (cs ++ firstn 1 cs).

Definition sum (l : list R) : R := fold_right Rplus 0 l.

(** the shoelace formula *)
Definition shoelace (N : pt) (cs : list pt) : R :=
  / 2 * sum (map (fun ab => det3 (fst ab) (snd ab) N) (edges cs)).

(** the corners lie in a plane with normal N *)
Definition planar (N : pt) (cs : list pt) : Prop :=
  forall a b, In a cs -> In b cs -> dot N (psub b a) = 0.

(** the corners are those of a convex polygon in counter-clockwise order (three consecutive
    corners may lie on a line, but not the first three) *)
Definition convex_ccw (N : pt) (cs : list pt) : Prop :=
  unit3 N /\ planar N cs /\ (3 <= length cs)%nat /\
  (forall i j k, (i < j < k)%nat -> (k < length cs)%nat ->
     0 <= orient N (nth i cs zero3) (nth j cs zero3) (nth k cs zero3)) /\
  0 < orient N (nth 0 cs zero3) (nth 1 cs zero3) (nth 2 cs zero3).

(** the polygon as a set: the convex hull of the corners, i.e. the smallest set that contains
    the corners and, with two points, the segment between them *)
Inductive hull (cs : list pt) : pt -> Prop :=
| hull_corner c : In c cs -> hull cs c
| hull_between a b x : hull cs a -> hull cs b -> on_segment a b x -> hull cs x.

(** by how much p lies beyond the edges: for each edge whose line separates p from the
    polygon, the length of the edge times the distance of p from that line *)
Definition beyond (N : pt) (ab : pt * pt) (p : pt) : R := Rmax 0 (- orient N (fst ab) (snd ab) p).
Definition overhang (N : pt) (cs : list pt) (p : pt) : R :=
  sum (map (fun ab => beyond N ab p) (edges cs)).

(** no two neighbouring corners coincide *)
Definition proper_edges (cs : list pt) : Prop := forall ab, In ab (edges cs) -> fst ab <> snd ab.

(** the corners of a quadrilateral in the order in which they go around *)
Definition around (p0 p1 p2 p3 : pt) : list pt := [p2; p0; p1; p3].

(** three points that do not lie on a line *)
Definition noncollinear (a b d : pt) : Prop := cross (psub b a) (psub d a) <> zero3.
