(** Lines, planes, segments and axis-aligned boxes in three-dimensional space, and the
    bounding-box check used by the intersection functions. *)

From Coq Require Import ZArith List Bool.
From Verif Require Import Base NumModel VecModel.
Local Open Scope num_scope.

(** line.hh:74-78, 115-116: supporting point and direction (a Direction, i.e. a vector that
    was normalised when the object was made) *)
Record line (A : Type) := mkLine { l_sup : V3 A; l_dir : V3 A }.
Arguments mkLine {A} _ _.
Arguments l_sup {A} _.
Arguments l_dir {A} _.

(** plane.hh:187-190 *)
Record plane (A : Type) := mkPlane { pl_sup : V3 A; pl_b1 : V3 A; pl_b2 : V3 A; pl_n : V3 A }.
Arguments mkPlane {A} _ _ _ _.
Arguments pl_sup {A} _.
Arguments pl_b1 {A} _.
Arguments pl_b2 {A} _.
Arguments pl_n {A} _.

(** segment.hh:162-163 *)
Record segment (A : Type) := mkSeg { s_src : V3 A; s_tgt : V3 A }.
Arguments mkSeg {A} _ _.
Arguments s_src {A} _.
Arguments s_tgt {A} _.

(** box.hh:209-211 *)
Record box (A : Type) := mkBox { b_min : V3 A; b_max : V3 A }.
Arguments mkBox {A} _ _.
Arguments b_min {A} _.
Arguments b_max {A} _.

Section Lin.
Context {A : Type} `{Num A}.

(** line.hh:87-96: projection *)
Definition line_proj (l : line A) (p : V3 A) : V3 A :=
  let d := l_dir l in
  let d := vscale d (sprod d (vec_to (l_sup l) p)) in
  vadd (l_sup l) d.

(** line.hh:103-104, 111-112: contains *)
Definition line_contains (l : line A) (p : V3 A) (eps : A) : bool :=
  sqlen (vec_to p (line_proj l p)) <? eps * eps.
Definition line_contains_default (l : line A) (p : V3 A) : bool := line_contains l p confusion.

(** plane.hh:84-92: constructor from a point and a normal *)
Definition plane_pn (p normal : V3 A) : plane A :=
  let base1 := to_dir (make_orthogonal normal) in
  let base2 := to_dir (cross normal base1) in
  mkPlane p base1 base2 normal.

(** plane.hh:99-105: constructor from three points *)
Definition plane_3p (p1 p2 p3 : V3 A) : plane A :=
  let base1 := to_dir (vec_to p1 p2) in
  let normal := to_dir (cross base1 (vec_to p1 p3)) in
  let base2 := to_dir (cross normal base1) in
  mkPlane p1 base1 base2 normal.

(** plane.hh:115-127: constructor from the basis (the assertions only apply to debug builds) *)
Definition plane_basis (p base1 base2 normal : V3 A) : plane A := mkPlane p base1 base2 normal.

(** plane.hh:141-150: projection of a point *)
Definition plane_proj (pl : plane A) (p : V3 A) : V3 A :=
  let d := pl_n pl in
  let d := vscale d (sprod d (vec_to (pl_sup pl) p)) in
  let d := vscale d (nlit (-1) 1) in
  vadd p d.

(** plane.hh:153-165: projection of a line *)
Definition plane_proj_line (pl : plane A) (l : line A) : line A :=
  let new_support := plane_proj pl (l_sup l) in
  let p2 := vadd (l_sup l) (l_dir l) in
  let p2 := if pt_eq_default p2 new_support then vadd p2 (l_dir l) else p2 in
  mkLine new_support (to_dir (vec_to new_support (plane_proj pl p2))).

(** plane.hh:168-172: projection of a segment *)
Definition plane_proj_seg (pl : plane A) (s : segment A) : segment A :=
  mkSeg (plane_proj pl (s_src s)) (plane_proj pl (s_tgt s)).

(** plane.hh:179-183: contains *)
Definition plane_contains (pl : plane A) (p : V3 A) (eps : A) : bool :=
  nabs (sprod (vec_to (pl_sup pl) p) (pl_n pl)) <? eps.
Definition plane_contains_default (pl : plane A) (p : V3 A) : bool := plane_contains pl p confusion.

(** segment.hh:93-100 *)
Definition seg_dir (s : segment A) : V3 A := to_dir (vec_to (s_src s) (s_tgt s)).
Definition seg_len (s : segment A) : A := vlen (vec_to (s_src s) (s_tgt s)).
Definition seg_sqlen (s : segment A) : A := sqlen (vec_to (s_src s) (s_tgt s)).
Definition seg_line (s : segment A) : line A := mkLine (s_src s) (seg_dir s).

(** segment.hh:110-132: contains *)
Definition seg_contains (s : segment A) (p : V3 A) (eps : A) (check_line : bool) : bool :=
  let line := seg_line s in
  if check_line && negb (line_contains line p eps) then false
  else
    let d1 := vec_to (s_src s) p in
    let d2 := vec_to (s_tgt s) p in
    let sp1 := sprod (l_dir line) d1 in
    let sp2 := sprod (l_dir line) d2 in
    if xorb (nsign sp1) (nsign sp2) then true
    else
      let eps2 := eps * eps in
      if sqlen d1 <? eps2 then true
      else if sqlen d2 <? eps2 then true
      else false.
(** segment.hh:142-143: default tolerance *)
Definition seg_contains_default (s : segment A) (p : V3 A) (check_line : bool) : bool :=
  seg_contains s p (confusion * seg_len s) check_line.

(** segment.hh:148-156, 90, 159 *)
Definition seg_point (s : segment A) (param : A) : V3 A :=
  vadd (s_src s) (vscale (vec_to (s_src s) (s_tgt s)) param).
Definition seg_center (s : segment A) : V3 A := seg_point s (nlit 1 2).
Definition seg_reversed (s : segment A) : segment A := mkSeg (s_tgt s) (s_src s).

(** box.hh:66-83: constructors *)
Definition make_box (xmin ymin zmin xmax ymax zmax : A) : outcome (box A) :=
  if xmax <? xmin then Throw RuntimeError
  else if ymax <? ymin then Throw RuntimeError
  else if zmax <? zmin then Throw RuntimeError
  else Ok (mkBox (mkV3 xmin ymin zmin) (mkV3 xmax ymax zmax)).
Definition make_box_pts (pmin pmax : V3 A) : outcome (box A) :=
  make_box (vx pmin) (vy pmin) (vz pmin) (vx pmax) (vy pmax) (vz pmax).

(** box.hh:101-106 *)
Definition box_volume (b : box A) : A :=
  (vx (b_max b) - vx (b_min b)) * (vy (b_max b) - vy (b_min b)) * (vz (b_max b) - vz (b_min b)).

(** box.hh:113-118 *)
Definition box_center (b : box A) : V3 A :=
  mkV3 (vx (b_min b) + nlit 1 2 * (vx (b_max b) - vx (b_min b)))
       (vy (b_min b) + nlit 1 2 * (vy (b_max b) - vy (b_min b)))
       (vz (b_min b) + nlit 1 2 * (vz (b_max b) - vz (b_min b))).

(** box.hh:121-136: corner *)
Definition box_corner (b : box A) (i : nat) : outcome (V3 A) :=
  let lo := b_min b in
  let hi := b_max b in
  match i with
  | 0 => Ok (mkV3 (vx lo) (vy lo) (vz lo))
  | 1 => Ok (mkV3 (vx hi) (vy lo) (vz lo))
  | 2 => Ok (mkV3 (vx lo) (vy hi) (vz lo))
  | 3 => Ok (mkV3 (vx hi) (vy hi) (vz lo))
  | 4 => Ok (mkV3 (vx lo) (vy lo) (vz hi))
  | 5 => Ok (mkV3 (vx hi) (vy lo) (vz hi))
  | 6 => Ok (mkV3 (vx lo) (vy hi) (vz hi))
  | 7 => Ok (mkV3 (vx hi) (vy hi) (vz hi))
  | _ => Throw RuntimeError
  end%nat.

(** box.hh:143-162: edge; the pairs of corners *)
Definition edge_corners (i : nat) : outcome (nat * nat) :=
  match i with
  | 0 => Ok (0, 1) | 1 => Ok (0, 2) | 2 => Ok (1, 3) | 3 => Ok (2, 3)
  | 4 => Ok (0, 4) | 5 => Ok (1, 5) | 6 => Ok (2, 6) | 7 => Ok (3, 7)
  | 8 => Ok (4, 5) | 9 => Ok (4, 6) | 10 => Ok (5, 7) | 11 => Ok (6, 7)
  | _ => Throw RuntimeError
  end%nat.
Definition box_edge (b : box A) (i : nat) : outcome (segment A) :=
  obind (edge_corners i) (fun ij =>
  obind (box_corner b (fst ij)) (fun p =>
  obind (box_corner b (snd ij)) (fun q => Ok (mkSeg p q)))).

(** box.hh:169-182: face; the corners in the order of the Quadrilateral constructor (which
    numbers the corners such that 0, 1, 3, 2 go around) *)
Definition face_corners (i : nat) : outcome (nat * nat * nat * nat) :=
  match i with
  | 0 => Ok (0, 1, 2, 3) | 1 => Ok (0, 1, 4, 5) | 2 => Ok (0, 2, 4, 6)
  | 3 => Ok (1, 3, 5, 7) | 4 => Ok (2, 3, 6, 7) | 5 => Ok (4, 5, 6, 7)
  | _ => Throw RuntimeError
  end%nat.
Definition box_face (b : box A) (i : nat) : outcome (V3 A * V3 A * V3 A * V3 A) :=
  obind (face_corners i) (fun '(c0, c1, c2, c3) =>
  obind (box_corner b c0) (fun p0 =>
  obind (box_corner b c1) (fun p1 =>
  obind (box_corner b c2) (fun p2 =>
  obind (box_corner b c3) (fun p3 => Ok (p0, p1, p2, p3)))))).

(** box.hh:189-194: contains *)
Definition box_contains (b : box A) (p : V3 A) (eps : A) : bool :=
  (vx p >? vx (b_min b) - eps) && (vx p <? vx (b_max b) + eps)
  && (vy p >? vy (b_min b) - eps) && (vy p <? vy (b_max b) + eps)
  && (vz p >? vz (b_min b) - eps) && (vz p <? vz (b_max b) + eps).
(** box.hh:201-206: default tolerance (corners 0 and 7 are the extreme corners) *)
Definition box_eps (b : box A) : A := confusion * vlen (vec_to (b_min b) (b_max b)).
Definition box_contains_default (b : box A) (p : V3 A) : bool := box_contains b p (box_eps b).

(** bboxintersection.hh:44-59: doIntersect; 70-71: default tolerance *)
Definition do_intersect (b1 b2 : box A) (eps : A) : bool :=
  if negb (intervals_overlap (vx (b_min b1), vx (b_max b1)) (vx (b_min b2), vx (b_max b2)) eps)
  then false
  else if negb (intervals_overlap (vy (b_min b1), vy (b_max b1)) (vy (b_min b2), vy (b_max b2)) eps)
  then false
  else intervals_overlap (vz (b_min b1), vz (b_max b1)) (vz (b_min b2), vz (b_max b2)) eps.
Definition do_intersect_default (b1 b2 : box A) : bool :=
  do_intersect b1 b2 (nlit 1 2 * (box_eps b1 + box_eps b2)).

End Lin.
