(** Points, vectors and directions in three-dimensional space and the functions of
    common/math.hh.  One record is used for the three classes; the coordinates are stored in
    std::array<ctype, 3>.  The 1d and 2d specialisations are in LowModel.v. *)

From Coq Require Import ZArith List.
From Verif Require Import NumModel.
Local Open Scope num_scope.

Record V3 (A : Type) := mkV3 { vx : A; vy : A; vz : A }.
Arguments mkV3 {A} _ _ _.
Arguments vx {A} _.
Arguments vy {A} _.
Arguments vz {A} _.

Section Vec.
Context {A : Type} `{Num A}.

(** vector.hh:336-339: Vector(a, b) points from a to b. *)
Definition vec_to (a b : V3 A) : V3 A := mkV3 (vx b - vx a) (vy b - vy a) (vz b - vz a).

(** vector.hh:106-113: squaredLength (the loop adds to an initial zero). *)
Definition sqlen (v : V3 A) : A := n0 + vx v * vx v + vy v * vy v + vz v * vz v.

(** vector.hh:116-120: length *)
Definition vlen (v : V3 A) : A := nsqrt (sqlen v).

(** vector.hh:139-146: operator* (scalar product) *)
Definition sprod (v w : V3 A) : A := n0 + vx v * vx w + vy v * vy w + vz v * vz w.

(** vector.hh:150-161, 165-176; point.hh:92-131: operator+, operator- of vectors,
    and of a point and a vector *)
Definition vadd (v w : V3 A) : V3 A := mkV3 (vx v + vx w) (vy v + vy w) (vz v + vz w).
Definition vsub (v w : V3 A) : V3 A := mkV3 (vx v - vx w) (vy v - vy w) (vz v - vz w).

(** vector.hh:180-194; direction.hh:217-222, point.hh:134-148: products with a scalar and
    quotients by a scalar *)
Definition vscale (v : V3 A) (c : A) : V3 A := mkV3 (vx v * c) (vy v * c) (vz v * c).
Definition vdiv (v : V3 A) (c : A) : V3 A := mkV3 (vx v / c) (vy v / c) (vz v / c).

(** point.hh:83-88: isEqual with a tolerance and with the default tolerance *)
Definition pt_eq (p q : V3 A) (eps : A) : bool := sqlen (vec_to p q) <? eps * eps.
Definition pt_eq_default (p q : V3 A) : bool := pt_eq p q confusion.

(** direction.hh:195-202: constructor from a vector; 225-229: invert *)
Definition to_dir (v : V3 A) : V3 A := vdiv v (vlen v).
Definition dir_invert (d : V3 A) : V3 A := vscale d (nlit (-1) 1).

(** vector.hh:379-386: makeOrthogonalVector *)
Definition make_orthogonal (v : V3 A) : V3 A :=
  if vx v =? n0 then mkV3 n1 n0 n0
  else if vy v =? n0 then mkV3 n0 n1 n0
  else if vz v =? n0 then mkV3 n0 n0 n1
  else mkV3 (vy v) (- vx v) n0.

(** math.hh:54-67: intervalsOverlap, intervals are pairs (lower, upper) *)
Definition intervals_overlap (i1 i2 : A * A) (eps : A) : bool :=
  if snd i1 >? snd i2 + eps then fst i1 <? snd i2 + eps
  else if fst i1 <? fst i2 - eps then snd i1 >? fst i2 - eps
  else true.

(** math.hh:75-81: crossProduct; 98-102: boxProduct; 109-118: isRightHandSystem (the
    assertion only applies to debug builds) *)
Definition cross (v w : V3 A) : V3 A :=
  mkV3 (vy v * vz w - vz v * vy w) (vz v * vx w - vx v * vz w) (vx v * vy w - vy v * vx w).
Definition box_product (u v w : V3 A) : A := sprod u (cross v w).
Definition is_right_hand (u v w : V3 A) : bool := box_product u v w >? n0.

Context `{Trig A}.

(** vector.hh:123-136: isParallel (3d), with the tolerance given *)
Definition is_parallel (v w : V3 A) (ang_eps : A) : bool :=
  let angle := nabs (nacos (sprod v w / vlen v / vlen w)) in
  (angle <? ang_eps) || (nabs (ang_eps - npi) <? ang_eps).
(** ... and with the default tolerance *)
Definition is_parallel_default (v w : V3 A) : bool := is_parallel v w angular.

(** math.hh:124-134 *)
Definition to_degrees (radians : A) : A := radians * nlit 180 1 / npi.
Definition to_radians (degrees : A) : A := degrees * npi / nlit 180 1.

(** math.hh:154-165 (and 189-200): the rows of the rotation matrix *)
Definition rot_rows (axis : V3 A) (angle : A) : V3 A * V3 A * V3 A :=
  let c := ncos angle in
  let s := nsin angle in
  let omc := n1 - c in
  (mkV3 (c + vx axis * vx axis * omc)
        (vx axis * vy axis * omc - vz axis * s)
        (vx axis * vz axis * omc + vy axis * s),
   mkV3 (vy axis * vx axis * omc + vz axis * s)
        (c + vy axis * vy axis * omc)
        (vy axis * vz axis * omc - vx axis * s),
   mkV3 (vz axis * vx axis * omc - vy axis * s)
        (vz axis * vy axis * omc + vx axis * s)
        (c + vz axis * vz axis * omc)).
Definition apply_rows (m : V3 A * V3 A * V3 A) (v : V3 A) : V3 A :=
  let '(rx, ry, rz) := m in mkV3 (sprod rx v) (sprod ry v) (sprod rz v).

(** math.hh:145-167: rotate one vector *)
Definition rotate (v axis : V3 A) (angle : A) : V3 A := apply_rows (rot_rows axis angle) v.

(** math.hh:180-204: rotate several vectors *)
Definition rotate_all (vs : list (V3 A)) (axis : V3 A) (angle : A) : list (V3 A) :=
  let m := rot_rows axis angle in map (apply_rows m) vs.

End Vec.
