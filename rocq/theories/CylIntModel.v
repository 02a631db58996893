(** Intersections of lateral cylinder surfaces with planar faces.

    The boolean operations of OpenCascade are parameters, collected in the record [cyl_kernel];
    everything else is the code of /repo.  The paths below are relative to
    /repo/frackit/intersection/. *)

From Coq Require Import ZArith List Bool.
From Verif Require Import Base NumModel VecModel LinModel RoundModel PolyModel DistModel IntModel AngModel.
Import ListNotations.
Local Open Scope num_scope.

(** A wire made by a boolean operation: its first and last vertex (TopExp::Vertices), whether it
    is closed (BRep_Tool::IsClosed), and for each of its edges, in the order of exploration, the
    projection of points on the curve of the edge (GeomAPI_ProjectPointOnCurve): the lowest
    distance, None if there is no projection. *)
Record wire (A : Type) := mkWire
  { w_first : V3 A; w_last : V3 A; w_closed : bool; w_edges : list (V3 A -> option A) }.
Arguments mkWire {A} _ _ _ _.
Arguments w_first {A} _.
Arguments w_last {A} _.
Arguments w_closed {A} _.
Arguments w_edges {A} _.

(** What is computed by OpenCascade for a surface and a face; the last argument is the fuzzy
    value of the boolean operation. *)
Record cyl_kernel (A : Type) := mkCylKernel {
  (* intersect of the face and the solid cylinder: the number of faces of the result *)
  ck_faces : cyl A -> face A -> A -> nat;
  (* intersect of the wire of the face and the surface: the wires of the result *)
  ck_outer : cyl A -> face A -> A -> list (wire A);
  (* cut of the wire of the face with the surface: the vertices of the result *)
  ck_cut : cyl A -> face A -> A -> list (V3 A);
  (* intersect of the wire of the part of the face in the solid cylinder and the surface: the
     wires of the result *)
  ck_inner : cyl A -> face A -> A -> list (wire A);
  (* getBoundingBox *)
  ck_box : cyl A -> box A;
}.
Arguments ck_faces {A} _ _ _ _.
Arguments ck_outer {A} _ _ _ _.
Arguments ck_cut {A} _ _ _ _.
Arguments ck_inner {A} _ _ _ _.
Arguments ck_box {A} _ _.

Section CylInt.
Context {A : Type} `{Num A} `{Trig A}.
Variable K : kernel A.
Variable C : cyl_kernel A.

(** /repo/frackit/geometry/cylindersurface.hh:111: direction *)
Definition cyl_dir (c : cyl A) : V3 A := e_n (c_bot c).

(** algorithms/algo_cylsurface_planargeom.hh:131-136: the face is parallel, orthogonal to the
    axis.  The results are elliptical (137) iff [inf_ellipse] makes an ellipse. *)
Definition lies_along (c : cyl A) (f : face A) : bool :=
  gp_normal (pl_n (face_plane f)) (cyl_dir c) angular.
Definition lies_across (c : cyl A) (f : face A) : bool :=
  gp_parallel (pl_n (face_plane f)) (cyl_dir c) angular.

(** algorithms/algo_cylsurface_planargeom.hh:139-161: the ellipse of the plane on the unbounded
    surface.  None: the ellipse is default constructed, its lengths are not initialised.  A result
    of the intersection that is not a point makes std::get throw. *)
Definition inf_ellipse (c : cyl A) (f : face A) (char_len eps : A) : outcome (option (ell A)) :=
  let pl := face_plane f in
  if lies_across c f then
    Ok (Some (make_ell (plane_proj pl (s_src (cyl_axis c))) (e_maj (c_bot c)) (e_min (c_bot c))
                       (cyl_radius c) (cyl_radius c)))
  else if negb (lies_along c f) then
    let cyl_vec := vscale (cyl_dir c) char_len in
    let maj := to_dir (vec_to (face_center f) (plane_proj pl (vadd (face_center f) cyl_vec))) in
    let min := to_dir (cross (pl_n pl) maj) in
    let maj := if negb (is_right_hand maj min (pl_n pl)) then dir_invert maj else maj in
    let maj_len := nabs (cyl_radius c / ncos (gp_angle (pl_n pl) (cyl_dir c))) in
    obind (plane_line K pl (seg_line (cyl_axis c)) eps) (fun i =>
    match i with
    | IsPoint p => Ok (Some (make_ell p maj min maj_len (cyl_radius c)))
    | _ => Throw RuntimeError
    end)
  else Ok None.

(** algorithms/algo_cylsurface_planargeom.hh:81-93: is the first arc taken?  If no edge is close
    to the center of an arc (excluded by an assertion), the second one is. *)
Definition is_close (d : option A) (eps : A) : bool :=
  match d with Some d => d <? eps | None => false end.
Fixpoint first_arc (edges : list (V3 A -> option A)) (c1 c2 : V3 A) (eps : A) : bool :=
  match edges with
  | [] => false
  | ed :: edges =>
      if is_close (ed c1) eps then true
      else if is_close (ed c2) eps then false
      else first_arc edges c1 c2 eps
  end.

(** algorithms/algo_cylsurface_planargeom.hh:66-94: makeArc *)
Definition wire_arc (w : wire A) (e : ell A) (eps : A) : outcome (arc A) :=
  obind (make_arc e (w_first w) (w_last w)) (fun arc1 =>
  obind (make_arc e (w_last w) (w_first w)) (fun arc2 =>
  Ok (if first_arc (w_edges w) (arc_point arc1 (nlit 1 2)) (arc_point arc2 (nlit 1 2)) eps
      then arc1 else arc2))).
(** 192-193, 247-248 *)
Definition wire_seg (w : wire A) : segment A := mkSeg (w_first w) (w_last w).

(** algorithms/algo_cylsurface_planargeom.hh:182-196: the pieces for the wires of a face outside
    of the cylinder.  The ellipse exists where it is used. *)
Fixpoint outer_pieces (el : option (ell A)) (ws : list (wire A)) (eps : A) : outcome (list (apiece A)) :=
  match ws with
  | [] => Ok []
  | w :: ws =>
      obind (match el with
             | Some e => omapo PcArc (wire_arc w e eps)
             | None => Ok (PcSeg (wire_seg w))
             end) (fun p =>
      obind (outer_pieces el ws eps) (fun ps => Ok (p :: ps)))
  end.

(** algorithms/algo_cylsurface_planargeom.hh:204-214 *)
Definition touch_candidates (c : cyl A) (vs : list (V3 A)) (eps : A) : list (V3 A) :=
  fold_left (fun found p =>
    if surf_contains c p eps && negb (existsb (fun tp => pt_eq tp p eps) found)
    then found ++ [p] else found) vs [].

(** algorithms/algo_cylsurface_planargeom.hh:235-250: the segments and arcs of the wires; None: a
    wire is closed *)
Fixpoint parse_wires (el : option (ell A)) (ws : list (wire A)) (eps : A)
  : outcome (option (list (segment A) * list (arc A))) :=
  match ws with
  | [] => Ok (Some ([], []))
  | w :: ws =>
      if w_closed w then Ok None
      else
        match el with
        | Some e =>
            obind (wire_arc w e eps) (fun a =>
            omapo (option_map (fun r => (fst r, a :: snd r))) (parse_wires el ws eps))
        | None =>
            omapo (option_map (fun r => (wire_seg w :: fst r, snd r))) (parse_wires el ws eps)
        end
  end.

(** algorithms/algo_cylsurface_planargeom.hh:254-264: the touching points that are not on the
    segments or arcs.  The search for an arc stops at the first one that contains the point. *)
Fixpoint on_an_arc (arcs : list (arc A)) (p : V3 A) (eps : A) : outcome bool :=
  match arcs with
  | [] => Ok false
  | a :: arcs => obind (arc_contains a p eps true) (fun b => if b then Ok true else on_an_arc arcs p eps)
  end.
Fixpoint isolated (segs : list (segment A)) (arcs : list (arc A)) (ps : list (V3 A)) (eps : A)
  : outcome (list (V3 A)) :=
  match ps with
  | [] => Ok []
  | p :: ps =>
      let on_seg := existsb (fun s => seg_contains s p eps true) segs in
      obind (on_an_arc arcs p eps) (fun on_arc =>
      obind (isolated segs arcs ps eps) (fun r =>
      Ok (if negb on_seg && negb on_arc then p :: r else r)))
  end.

(** algorithms/algo_cylsurface_planargeom.hh:111-273.  The solid cylinder (165) always exists, the
    bottom of a surface is a circle.  A closed wire of a face along the axis
    would give an ellipse that is not initialised. *)
Definition cyl_planar (c : cyl A) (f : face A) (char_len eps : A) : outcome (list (apiece A)) :=
  let tol := nlit 1 10 * eps in
  obind (inf_ellipse c f char_len eps) (fun el =>
  let touch := touch_candidates c (ck_cut C c f tol) eps in
  if Nat.eqb (ck_faces C c f tol) 0 then
    match ck_outer C c f tol with
    | [] => match touch with [] => Ok [PcEmpty] | _ => Ok (map PcPoint touch) end
    | ws => outer_pieces el ws eps
    end
  else
    obind (parse_wires el (ck_inner C c f tol) eps) (fun r =>
    match r with
    | None => match el with Some e => Ok [PcEll e] | None => UB end
    | Some (segs, arcs) =>
        obind (isolated segs arcs touch eps) (fun ps =>
        match map PcPoint ps ++ map PcSeg segs ++ map PcArc arcs with
        | [] => Ok [PcEmpty]
        | r => Ok r
        end)
    end)).

(** algorithms/algo_cylsurface_disk.hh:42-47, algo_cylsurface_quadrilateral.hh:46-63,
    algo_cylsurface_polygon.hh:46-64: the characteristic length *)
Definition cyl_face (c : cyl A) (f : face A) (eps : A) : outcome (list (apiece A)) :=
  match f with
  | FDisk d => cyl_planar c f (e_a d) eps
  | FQuad q =>
      if negb (q_convex q) then Throw RuntimeError
      else cyl_planar c f (nsqrt (max_from n0 (quad_sq_edges q))) eps
  | FPoly p =>
      if negb (po_convex p) then Throw RuntimeError
      else cyl_planar c f (nsqrt (max_from n0 (map (fun x => nlit 2 1 * x) (poly_sq_radii p)))) eps
  end.

(** intersect.hh:299-380: intersect(cylinder surface, face, eps), in both orders of arguments *)
Definition int_cyl_face (c : cyl A) (f : face A) (eps : A) : outcome (list (apiece A)) :=
  if negb (do_intersect (ck_box C c) (k_face_box K f) eps) then Ok [PcEmpty]
  else cyl_face c f eps.

End CylInt.
