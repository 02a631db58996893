(** Intersections of planes, lines, segments and planar faces in three-dimensional space.

    The functions of OpenCascade that compute intersections are parameters, collected in the
    record [kernel]; everything else is the code of /repo.  The paths below are relative to
    /repo/frackit/intersection/. *)

From Coq Require Import ZArith List Bool.
From Verif Require Import Base NumModel VecModel LinModel RoundModel PolyModel.
Import ListNotations.
Local Open Scope num_scope.

(** intersectiontraits.hh:68-276: the alternatives of the result variants *)
Inductive isect (A : Type) :=
| IsEmpty
| IsPoint (p : V3 A)
| IsSeg (s : segment A)
| IsLine (l : line A)
| IsPlane (p : plane A).
Arguments IsEmpty {A}.
Arguments IsPoint {A} _.
Arguments IsSeg {A} _.
Arguments IsLine {A} _.
Arguments IsPlane {A} _.

(** The planar geometries.  A disk is stored as an [ell]. *)
Inductive face (A : Type) :=
| FDisk (d : ell A)
| FQuad (q : quad A)
| FPoly (p : poly A).
Arguments FDisk {A} _.
Arguments FQuad {A} _.
Arguments FPoly {A} _.

(** What is computed by OpenCascade.  Shapes are given by the geometries they are made from
    (occ/breputilities.hh:131-321); an edge is given by its two vertices. *)
Record kernel (A : Type) := mkKernel {
  (* GeomAPI_IntSS on two planes; None: not done *)
  k_plane_plane : plane A -> plane A -> A -> option (line A);
  (* GeomAPI_IntCS on a line and a plane; None: not done *)
  k_plane_line : plane A -> line A -> option (V3 A);
  (* OCCUtilities::fragment on two edges with a fuzzy value; the edges of the result *)
  k_fragment : segment A -> segment A -> A -> list (V3 A * V3 A);
  (* OCCUtilities::intersect of an edge and a face; the edges of the result *)
  k_common : segment A -> face A -> A -> list (V3 A * V3 A);
  (* OCCUtilities::cut of an edge with a face; the vertices of the result *)
  k_cut : segment A -> face A -> A -> list (V3 A);
  (* getBoundingBox *)
  k_face_box : face A -> box A;
  k_seg_box : segment A -> box A;
}.
Arguments k_plane_plane {A} _ _ _ _.
Arguments k_plane_line {A} _ _ _.
Arguments k_fragment {A} _ _ _ _.
Arguments k_common {A} _ _ _ _.
Arguments k_cut {A} _ _ _ _.
Arguments k_face_box {A} _ _.
Arguments k_seg_box {A} _ _.

Section Int.
Context {A : Type} `{Num A} `{Trig A}.
Variable K : kernel A.

(** OpenCascade gp_Vec::Angle, gp_Dir::Angle: the angle between two vectors, in [0, pi];
    gp_Vec::IsParallel; gp_Vec::IsNormal, gp_Dir::IsNormal *)
Definition gp_angle (v w : V3 A) : A := nacos (sprod v w / (vlen v * vlen w)).
Definition gp_parallel (v w : V3 A) (tol : A) : bool :=
  let ang := gp_angle v w in
  (ang <=? tol) || (npi - ang <=? tol).
Definition gp_normal (v w : V3 A) (tol : A) : bool :=
  let ang := npi / nlit 2 1 - gp_angle v w in
  (if ang <? n0 then - ang else ang) <=? tol.

(** algorithms/algo_plane_plane.hh:51-93.  The direction returned by the kernel is converted to
    a Direction. *)
Definition plane_plane (p1 p2 : plane A) (eps : A) : outcome (isect A) :=
  if gp_parallel (pl_n p1) (pl_n p2) angular then
    if plane_contains p1 (pl_sup p2) eps then Ok (IsPlane p1) else Ok IsEmpty
  else
    match k_plane_plane K p1 p2 eps with
    | None => Throw RuntimeError
    | Some l => Ok (IsLine (mkLine (l_sup l) (to_dir (l_dir l))))
    end.

(** algorithms/algo_plane_line.hh:53-94 *)
Definition plane_line (pl : plane A) (l : line A) (eps : A) : outcome (isect A) :=
  if negb (gp_normal (l_dir l) (pl_n pl) angular) then
    match k_plane_line K pl l with
    | None => Throw RuntimeError
    | Some p => if plane_contains pl p eps then Ok (IsPoint p) else Ok IsEmpty
    end
  else
    let d := vec_to (l_sup l) (plane_proj pl (l_sup l)) in
    if vlen d >? eps then Ok IsEmpty else Ok (IsLine l).

(** algorithms/algo_segment_segment.hh:106-119: the first vertex of the edges that is on both
    segments.  An edge is explored in the order of its vertices. *)
Fixpoint first_on_both (s1 s2 : segment A) (eps : A) (es : list (V3 A * V3 A)) : option (V3 A) :=
  let ok p := seg_contains s1 p eps true && seg_contains s2 p eps true in
  match es with
  | [] => None
  | (a, b) :: es => if ok a then Some a else if ok b then Some b else first_on_both s1 s2 eps es
  end.

(** algorithms/algo_segment_segment.hh:51-128 *)
Definition seg_seg (sg1 sg2 : segment A) (eps : A) : outcome (isect A) :=
  let s1 := s_src sg1 in
  let t1 := s_tgt sg1 in
  let s2 := s_src sg2 in
  let t2 := s_tgt sg2 in
  let dir1 := to_dir (vec_to s1 t1) in
  let dir2 := to_dir (vec_to s2 t2) in
  (* 88-124: after the check for an overlap *)
  let rest :=
    let es := k_fragment K sg1 sg2 (nlit 1 10 * eps) in
    if Nat.eqb (length es) 3 || Nat.eqb (length es) 4 then
      match first_on_both sg1 sg2 eps es with
      | Some p => Ok (IsPoint p)
      | None => Throw RuntimeError
      end
    else if pt_eq s1 s2 eps then Ok (IsPoint s1)
    else if pt_eq s1 t2 eps then Ok (IsPoint s1)
    else if pt_eq t1 s2 eps then Ok (IsPoint t1)
    else if pt_eq t1 t2 eps then Ok (IsPoint t1)
    else Ok IsEmpty in
  if gp_parallel dir1 dir2 angular then
    if negb (line_contains (seg_line sg1) s2 eps) then Ok IsEmpty
    else
      let s2_on1 := seg_contains sg1 s2 eps false in
      let t2_on1 := seg_contains sg1 t2 eps false in
      if s2_on1 && t2_on1 then Ok (IsSeg sg2)
      else
        let s1_on2 := seg_contains sg2 s1 eps false in
        let t1_on2 := seg_contains sg2 t1 eps false in
        if s1_on2 && t1_on2 then Ok (IsSeg sg1)
        else if s2_on1 && s1_on2 then Ok (IsSeg (mkSeg s2 s1))
        else if s2_on1 && t1_on2 then Ok (IsSeg (mkSeg s2 t1))
        else if t2_on1 && s1_on2 then Ok (IsSeg (mkSeg t2 s1))
        else if t2_on1 && t1_on2 then Ok (IsSeg (mkSeg t2 t1))
        else rest
  else rest.

(** intersect.hh:101-108: intersect(segment, segment, eps) *)
Definition int_segs (s1 s2 : segment A) (eps : A) : outcome (isect A) :=
  if negb (do_intersect (k_seg_box K s1) (k_seg_box K s2) eps) then Ok IsEmpty
  else seg_seg s1 s2 eps.

(** supportingPlane, center and contains of the planar geometries (disk.hh:98-113,
    quadrilateral.hh:161-177, polygon.hh:172-178) *)
Definition face_plane (f : face A) : plane A :=
  match f with FDisk d => ell_plane d | FQuad q => q_plane q | FPoly p => po_plane p end.
Definition face_center (f : face A) : V3 A :=
  match f with FDisk d => e_c d | FQuad q => q_c q | FPoly p => po_c p end.
Definition face_contains (f : face A) (p : V3 A) (eps : A) (chk : bool) : outcome bool :=
  match f with
  | FDisk d => Ok (disk_contains d p eps chk)
  | FQuad q => Ok (quad_contains q p eps chk)
  | FPoly pg => poly_contains pg p eps chk
  end.

(** algorithms/algo_planargeom_line.hh:96-101: the segment of the line near the face *)
Definition search_segment (f : face A) (l : line A) (char_len : A) : segment A :=
  let source := line_proj l (face_center f) in
  let dir := vscale (l_dir l) (char_len * nlit 20 1) in
  mkSeg (vadd source dir) (vsub source dir).

(** algorithms/algo_planargeom_line.hh:58-139.  More than one edge (excluded by an assertion)
    is handled like no edge. *)
Definition planar_line (f : face A) (l : line A) (char_len ceps eps : A) : outcome (isect A) :=
  obind (plane_line (face_plane f) l eps) (fun r =>
  match r with
  | IsEmpty => Ok IsEmpty
  | IsPoint p =>
      obind (face_contains f p ceps false) (fun b => if b then Ok (IsPoint p) else Ok IsEmpty)
  | IsLine _ =>
      let sg := search_segment f l char_len in
      match k_common K sg f (nlit 1 10 * eps) with
      | [(a, b)] => Ok (IsSeg (mkSeg a b))
      | _ =>
          let vs := k_cut K sg f (nlit 1 10 * eps) in
          if Nat.eqb (length vs) 2 then Ok IsEmpty
          else
            match find (fun p => negb (pt_eq p (s_src sg) eps) && negb (pt_eq p (s_tgt sg) eps)) vs with
            | Some p => Ok (IsPoint p)
            | None => Throw RuntimeError
            end
      end
  | _ => Throw RuntimeError
  end).

(** algorithms/algo_planargeom_planargeom.hh:63-137 *)
Definition planar_planar (f1 f2 : face A) (char_len ceps1 ceps2 eps : A) : outcome (isect A) :=
  obind (plane_plane (face_plane f1) (face_plane f2) eps) (fun r =>
  match r with
  | IsEmpty => Ok IsEmpty
  | IsLine l =>
      obind (planar_line f1 l char_len ceps1 eps) (fun is1 =>
      obind (planar_line f2 l char_len ceps2 eps) (fun is2 =>
      match is1, is2 with
      | IsSeg sg1, IsSeg sg2 =>
          obind (seg_seg sg1 sg2 eps) (fun is =>
          match is with
          | IsSeg s => Ok (IsSeg s)
          | IsPoint p => Ok (IsPoint p)
          | _ => Ok IsEmpty
          end)
      | IsSeg sg1, IsPoint p2 => if seg_contains sg1 p2 eps true then Ok (IsPoint p2) else Ok IsEmpty
      | IsPoint p1, IsSeg sg2 => if seg_contains sg2 p1 eps true then Ok (IsPoint p1) else Ok IsEmpty
      | _, _ => Ok IsEmpty
      end))
  | _ => Throw RuntimeError
  end).

(** std::max(a, b) *)
Definition nmax (a b : A) : A := if a <? b then b else a.

(** The squared lengths of the edges of a quadrilateral, and the squared distances of the
    corners of a polygon from its center *)
Definition quad_sq_edges (q : quad A) : list A :=
  map (fun i => match quad_edge q i with Ok e => seg_sqlen e | _ => n0 end) (seq 0 4).
Definition quad_edge_lens (q : quad A) : list A :=
  map (fun i => match quad_edge q i with Ok e => seg_len e | _ => n0 end) (seq 0 4).
Definition poly_sq_radii (p : poly A) : list A :=
  map (fun c => seg_sqlen (mkSeg (po_c p) c)) (po_cs p).
Definition max_from (m : A) (l : list A) : A := fold_left nmax l m.

(** algorithms/algo_disk_disk.hh:45-59 *)
Definition disk_disk (d1 d2 : ell A) (eps : A) : outcome (isect A) :=
  planar_planar (FDisk d1) (FDisk d2) (nmax (e_a d1) (e_a d2)) confusion confusion eps.

(** algorithms/algo_quadrilateral_quadrilateral.hh:45-63 *)
Definition quad_quad (q1 q2 : quad A) (eps : A) : outcome (isect A) :=
  if negb (q_convex q1) || negb (q_convex q2) then Throw RuntimeError
  else
    let m := max_from (max_from n0 (quad_sq_edges q1)) (quad_sq_edges q2) in
    planar_planar (FQuad q1) (FQuad q2) (nsqrt m) eps eps eps.

(** algorithms/algo_polygon_polygon.hh:45-65 *)
Definition poly_poly (p1 p2 : poly A) (eps : A) : outcome (isect A) :=
  if negb (po_convex p1) || negb (po_convex p2) then Throw RuntimeError
  else
    let twice l := map (fun x => nlit 2 1 * x) l in
    let m := max_from (max_from n0 (twice (poly_sq_radii p1))) (twice (poly_sq_radii p2)) in
    planar_planar (FPoly p1) (FPoly p2) (nsqrt m) eps eps eps.

(** algorithms/algo_quadrilateral_disk.hh:47-60 *)
Definition quad_disk (q : quad A) (d : ell A) (eps : A) : outcome (isect A) :=
  let m := max_from (e_a d * e_a d) (quad_sq_edges q) in
  planar_planar (FQuad q) (FDisk d) (nsqrt m) eps eps eps.

(** algorithms/algo_polygon_disk.hh:48-63: the size of the disk does not enter *)
Definition poly_disk (p : poly A) (d : ell A) (eps : A) : outcome (isect A) :=
  let m := max_from n0 (poly_sq_radii p) in
  planar_planar (FPoly p) (FDisk d) (nsqrt m) eps eps eps.

(** intersect.hh:202-297, 81-92: intersect(face, face, eps).  There is no algorithm for a
    quadrilateral and a polygon: the generic function throws (before any bounding box check). *)
Definition int_faces (f1 f2 : face A) (eps : A) : outcome (isect A) :=
  let checked r := if negb (do_intersect (k_face_box K f1) (k_face_box K f2) eps)
                   then Ok IsEmpty else r in
  let swapped r := if negb (do_intersect (k_face_box K f2) (k_face_box K f1) eps)
                   then Ok IsEmpty else r in
  match f1, f2 with
  | FDisk d1, FDisk d2 => checked (disk_disk d1 d2 eps)
  | FQuad q1, FQuad q2 => checked (quad_quad q1 q2 eps)
  | FPoly p1, FPoly p2 => checked (poly_poly p1 p2 eps)
  | FQuad q, FDisk d => checked (quad_disk q d eps)
  | FDisk d, FQuad q => swapped (quad_disk q d eps)
  | FPoly p, FDisk d => checked (poly_disk p d eps)
  | FDisk d, FPoly p => swapped (poly_disk p d eps)
  | FQuad _, FPoly _ | FPoly _, FQuad _ => Throw RuntimeError
  end.

(** algorithms/algo_disk_line.hh:47-54, algo_quadrilateral_line.hh:45-56, intersect.hh:153-193:
    intersect(face, line, eps).  There is no algorithm for a polygon and a line. *)
Definition int_face_line (f : face A) (l : line A) (eps : A) : outcome (isect A) :=
  match f with
  | FDisk d => planar_line f l (e_a d) confusion eps
  | FQuad q => planar_line f l (max_from n0 (quad_edge_lens q)) eps eps
  | FPoly _ => Throw RuntimeError
  end.

End Int.
