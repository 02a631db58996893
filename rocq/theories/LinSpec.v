(** Specification of lines, planes, segments and boxes (the record types are shared with the
    model, nothing else). *)

From Coq Require Import Reals List.
From Verif Require Import NumModel VecModel LinModel GeoSpec.
Local Open Scope R_scope.

(** b1, b2, n are pairwise orthogonal unit vectors forming a right-handed system *)
Definition ortho_basis (b1 b2 n : pt) : Prop :=
  unit3 b1 /\ unit3 b2 /\ unit3 n /\ ortho b1 b2 /\ ortho b1 n /\ ortho b2 n /\ det3 b1 b2 n = 1.

(** the set described by a box, the box enlarged by eps (open), and validity *)
Definition in_box (b : box R) (p : pt) : Prop :=
  vx (b_min b) <= vx p <= vx (b_max b) /\
  vy (b_min b) <= vy p <= vy (b_max b) /\
  vz (b_min b) <= vz p <= vz (b_max b).
Definition in_box_eps (b : box R) (eps : R) (p : pt) : Prop :=
  vx (b_min b) - eps < vx p < vx (b_max b) + eps /\
  vy (b_min b) - eps < vy p < vy (b_max b) + eps /\
  vz (b_min b) - eps < vz p < vz (b_max b) + eps.
Definition box_ok (b : box R) : Prop :=
  vx (b_min b) <= vx (b_max b) /\ vy (b_min b) <= vy (b_max b) /\ vz (b_min b) <= vz (b_max b).

(** an extreme point of the box: every coordinate is one of the bounds *)
Definition is_corner (b : box R) (p : pt) : Prop :=
  (vx p = vx (b_min b) \/ vx p = vx (b_max b)) /\
  (vy p = vy (b_min b) \/ vy p = vy (b_max b)) /\
  (vz p = vz (b_min b) \/ vz p = vz (b_max b)).

(** p and q differ in at most one of the coordinates *)
Definition axis_parallel (p q : pt) : Prop :=
  (vy p = vy q /\ vz p = vz q) \/ (vx p = vx q /\ vz p = vz q) \/ (vx p = vx q /\ vy p = vy q).

(** a bounding face: the points of the box with one coordinate at a bound *)
Definition on_bounding_face (b : box R) (p : pt) : Prop :=
  in_box b p /\
  (vx p = vx (b_min b) \/ vx p = vx (b_max b) \/ vy p = vy (b_min b) \/ vy p = vy (b_max b) \/
   vz p = vz (b_min b) \/ vz p = vz (b_max b)).

(** the parallelogram spanned at p0 by p1 - p0 and p2 - p0 *)
Definition on_parallelogram (p0 p1 p2 p : pt) : Prop :=
  exists s t, 0 <= s <= 1 /\ 0 <= t <= 1 /\
    p = padd p0 (padd (pscale s (psub p1 p0)) (pscale t (psub p2 p0))).
