(** Triangles, polygons and quadrilaterals in three-dimensional space. *)

From Coq Require Import ZArith List Bool.
From Verif Require Import Base NumModel VecModel LinModel.
Import ListNotations.
Local Open Scope num_scope.

(** triangle.hh:176-180 *)
Record tri (A : Type) := mkTri
  { t_p1 : V3 A; t_p2 : V3 A; t_p3 : V3 A; t_c : V3 A; t_n : V3 A; t_area : A }.
Arguments mkTri {A} _ _ _ _ _ _.
Arguments t_p1 {A} _.
Arguments t_p2 {A} _.
Arguments t_p3 {A} _.
Arguments t_c {A} _.
Arguments t_n {A} _.
Arguments t_area {A} _.

(** polygon.hh:246-250 *)
Record poly (A : Type) := mkPoly
  { po_cs : list (V3 A); po_plane : plane A; po_c : V3 A; po_area : A; po_convex : bool }.
Arguments mkPoly {A} _ _ _ _ _.
Arguments po_cs {A} _.
Arguments po_plane {A} _.
Arguments po_c {A} _.
Arguments po_area {A} _.
Arguments po_convex {A} _.

(** quadrilateral.hh:223-227 *)
Record quad (A : Type) := mkQuad
  { q_0 : V3 A; q_1 : V3 A; q_2 : V3 A; q_3 : V3 A;
    q_plane : plane A; q_c : V3 A; q_area : A; q_convex : bool }.
Arguments mkQuad {A} _ _ _ _ _ _ _ _.
Arguments q_0 {A} _.
Arguments q_1 {A} _.
Arguments q_2 {A} _.
Arguments q_3 {A} _.
Arguments q_plane {A} _.
Arguments q_c {A} _.
Arguments q_area {A} _.
Arguments q_convex {A} _.

Section Poly.
Context {A : Type} `{Num A}.

Definition origin : V3 A := mkV3 n0 n0 n0.

(** triangle.hh:85-100: constructor *)
Definition make_tri (p1 p2 p3 : V3 A) : tri A :=
  let third := nlit 1 3 in
  let center := mkV3 (third * (vx p1 + vx p2 + vx p3))
                     (third * (vy p1 + vy p2 + vy p3))
                     (third * (vz p1 + vz p2 + vz p3)) in
  let normal_vec := cross (vec_to p1 p2) (vec_to p1 p3) in
  mkTri p1 p2 p3 center (to_dir normal_vec) (nlit 1 2 * vlen normal_vec).

(** triangle.hh:111: supportingPlane *)
Definition tri_plane (t : tri A) : plane A := plane_pn (t_p1 t) (t_n t).

(** triangle.hh:116-120, 125-135: corner, edge.  Release builds: the assertions do not apply
    and an index out of range reads beyond the array. *)
Definition tri_corner (t : tri A) (i : nat) : outcome (V3 A) :=
  match i with
  | 0 => Ok (t_p1 t) | 1 => Ok (t_p2 t) | 2 => Ok (t_p3 t) | _ => UB
  end%nat.
Definition tri_edge (t : tri A) (i : nat) : outcome (segment A) :=
  match i with
  | 0 => Ok (mkSeg (t_p1 t) (t_p2 t))
  | 1 => Ok (mkSeg (t_p2 t) (t_p3 t))
  | 2 => Ok (mkSeg (t_p3 t) (t_p1 t))
  | _ => Throw RuntimeError
  end%nat.

(** triangle.hh:145-159: contains.  Line 158 calls abs without "using std::abs"; which function
    that is (std::abs for floating point numbers or the abs for int of the C library) depends
    on the headers included before.  It is a parameter here. *)
Definition tri_contains (c_abs : A -> A) (t : tri A) (p : V3 A) (eps : A) (chk : bool) : bool :=
  if chk && negb (plane_contains (tri_plane t) p eps) then false
  else
    let other := n0 + t_area (make_tri (t_p1 t) (t_p2 t) p)
                    + t_area (make_tri (t_p2 t) (t_p3 t) p)
                    + t_area (make_tri (t_p3 t) (t_p1 t) p) in
    c_abs (t_area t - other) <? eps * eps.

(** triangle.hh:169-174: contains with the default tolerance; corner(3) does not exist, and the
    argument chk is not passed on. *)
Definition tri_contains_default (c_abs : A -> A) (t : tri A) (p : V3 A) (chk : bool) : outcome bool :=
  obind (tri_corner t 0) (fun c0 =>
  obind (tri_corner t 3) (fun c3 =>
  Ok (tri_contains c_abs t p (confusion * vlen (vec_to c0 c3)) true))).

(** The i-th element of the corner vector; only used with indices in range. *)
Definition at_ (cs : list (V3 A)) (i : nat) : V3 A := nth i cs origin.

(** triangulation.hh:42-60: triangulate *)
Definition triangulate (cs : list (V3 A)) : list (tri A) :=
  make_tri (at_ cs 0) (at_ cs 1) (at_ cs 2)
  :: map (fun i => make_tri (at_ cs 0) (at_ cs i) (at_ cs (S i))) (seq 2 (length cs - 3)%nat).

(** polygon.hh:135-148: corner, edge.  The indices out of range are undefined behaviour in
    release builds: edge(i) reads corner(i). *)
Definition corners_edge (cs : list (V3 A)) (i : nat) : segment A :=
  mkSeg (at_ cs i) (at_ cs (Nat.modulo (S i) (length cs))).
Definition poly_corner (p : poly A) (i : nat) : outcome (V3 A) :=
  if Nat.ltb i (length (po_cs p)) then Ok (at_ (po_cs p) i) else UB.
Definition poly_edge (p : poly A) (i : nat) : outcome (segment A) :=
  if Nat.ltb i (length (po_cs p)) then Ok (corners_edge (po_cs p) i) else UB.

(** polygon.hh:226-244: determineConvexity_ *)
Definition corners_convex (cs : list (V3 A)) : bool :=
  let n := length cs in
  let dir i := seg_dir (corners_edge cs i) in
  let test := cross (dir (n - 1)%nat) (dir 0%nat) in
  forallb (fun i => negb (nsign (sprod (cross (dir i) (dir (S i))) test))) (seq 1 (n - 2)%nat).

(** polygon.hh:93-128: constructor *)
Definition make_poly (cs : list (V3 A)) : outcome (poly A) :=
  if Nat.ltb (length cs) 3 then Throw RuntimeError
  else
    let ts := triangulate cs in
    let center := fold_left (fun c t => vadd c (vscale (vec_to origin (t_c t)) (t_area t))) ts origin in
    let area := fold_left (fun a t => a + t_area t) ts n0 in
    Ok (mkPoly cs (plane_3p (at_ cs 0) (at_ cs 1) (at_ cs 2)) (vdiv center area) area
               (corners_convex cs)).

(** polygon.hh:157-162: area *)
Definition poly_get_area (p : poly A) : outcome A :=
  if po_convex p then Ok (po_area p) else Throw RuntimeError.

(** polygon.hh:200-215: convexContains *)
Definition poly_other_area (cs : list (V3 A)) (p : V3 A) : A :=
  let n := length cs in
  fold_left (fun a i => a + t_area (make_tri (at_ cs i) (at_ cs (S i)) p)) (seq 0 (n - 1)%nat) n0
  + t_area (make_tri (at_ cs (n - 1)%nat) (at_ cs 0) p).
Definition poly_contains_convex (pg : poly A) (p : V3 A) (eps : A) (chk : bool) : bool :=
  if chk && negb (plane_contains (po_plane pg) p eps) then false
  else nabs (po_area pg - poly_other_area (po_cs pg) p) <? eps * eps.

(** polygon.hh:172-178, 188-193: contains *)
Definition poly_contains (pg : poly A) (p : V3 A) (eps : A) (chk : bool) : outcome bool :=
  if po_convex pg then Ok (poly_contains_convex pg p eps chk) else Throw RuntimeError.
Definition poly_contains_default (pg : poly A) (p : V3 A) (chk : bool) : outcome bool :=
  poly_contains pg p (confusion * vlen (vec_to (at_ (po_cs pg) 0) (po_c pg))) chk.

(** quadrilateral.hh:200-221: determineConvexity_ *)
Definition quad_is_convex (p0 p1 p2 p3 : V3 A) : bool :=
  let v1 := vec_to p0 p1 in
  let v2 := vec_to p1 p3 in
  let v4 := vec_to p2 p0 in
  let nn1 := cross v4 v1 in
  let v3 := vec_to p3 p2 in
  if nsign (sprod nn1 (cross v1 v2)) then false
  else if nsign (sprod nn1 (cross v2 v3)) then false
  else if nsign (sprod nn1 (cross v3 v4)) then false
  else true.

(** quadrilateral.hh:93-117: constructor *)
Definition make_quad (p0 p1 p2 p3 : V3 A) : quad A :=
  let t1 := make_tri p0 p1 p3 in
  let t2 := make_tri p0 p3 p2 in
  let area := t_area t1 + t_area t2 in
  let d1 := vscale (vec_to origin (t_c t1)) (t_area t1) in
  let d2 := vscale (vec_to origin (t_c t2)) (t_area t2) in
  let center := vdiv (vadd (vadd origin d1) d2) area in
  mkQuad p0 p1 p2 p3 (plane_3p p0 p1 p2) center area (quad_is_convex p0 p1 p2 p3).

(** quadrilateral.hh:124-128, 133-144: corner, edge *)
Definition quad_corner (q : quad A) (i : nat) : outcome (V3 A) :=
  match i with
  | 0 => Ok (q_0 q) | 1 => Ok (q_1 q) | 2 => Ok (q_2 q) | 3 => Ok (q_3 q) | _ => UB
  end%nat.
Definition quad_edge (q : quad A) (i : nat) : outcome (segment A) :=
  match i with
  | 0 => Ok (mkSeg (q_0 q) (q_1 q))
  | 1 => Ok (mkSeg (q_1 q) (q_3 q))
  | 2 => Ok (mkSeg (q_0 q) (q_2 q))
  | 3 => Ok (mkSeg (q_2 q) (q_3 q))
  | _ => Throw RuntimeError
  end%nat.

(** quadrilateral.hh:161-177, 188-193: contains *)
Definition quad_contains (q : quad A) (p : V3 A) (eps : A) (chk : bool) : bool :=
  if chk && negb (plane_contains (q_plane q) p eps) then false
  else
    let other := n0 + t_area (make_tri (q_0 q) (q_1 q) p)
                    + t_area (make_tri (q_1 q) (q_3 q) p)
                    + t_area (make_tri (q_3 q) (q_2 q) p)
                    + t_area (make_tri (q_2 q) (q_0 q) p) in
    nabs (q_area q - other) <? eps * eps.
Definition quad_eps (q : quad A) : A := confusion * vlen (vec_to (q_0 q) (q_3 q)).
Definition quad_contains_default (q : quad A) (p : V3 A) (chk : bool) : bool :=
  quad_contains q p (quad_eps q) chk.

(** box.hh:169-182: the faces of a box are quadrilaterals *)
Definition box_face_quad (b : box A) (i : nat) : outcome (quad A) :=
  obind (box_face b i) (fun '(p0, p1, p2, p3) => Ok (make_quad p0 p1 p2 p3)).

End Poly.
