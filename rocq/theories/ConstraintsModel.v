(** Model of EntityNetworkConstraints,
    /repo/frackit/entitynetwork/constraints.hh and constraints_impl/*.hh. *)

From stdpp Require Import prelude list.
From Verif Require Import Base.

(** std::all_of with a predicate that may throw: stops at the first element that is not
    admissible or throws. *)
Fixpoint all_of {A} (f : A → outcome bool) (l : list A) : outcome bool :=
  match l with
  | [] => Ok true
  | x :: l => obind (f x) (λ b, if b then all_of f l else Ok false)
  end.

(** Intersection geometries occurring in the intersection traits
    (/repo/frackit/intersection/intersectiontraits.hh): points, segments, ellipse arcs,
    ellipses, BRep edges and faces; [PFull] stands for the full-dimensional analytic
    geometries for which only the throwing primary template exists. *)
Inductive piece (Pt Arc Ell Edge Face Geo : Type) :=
| PEmpty
| PPoint (p : Pt)
| PSegment (source target : Pt)
| PArc (a : Arc)
| PEllipse (e : Ell)
| PEdge (e : Edge)
| PFace (f : Face)
| PFull (g : Geo).
Arguments PEmpty {_ _ _ _ _ _}.
Arguments PPoint {_ _ _ _ _ _} p.
Arguments PSegment {_ _ _ _ _ _} source target.
Arguments PArc {_ _ _ _ _ _} a.
Arguments PEllipse {_ _ _ _ _ _} e.
Arguments PEdge {_ _ _ _ _ _} e.
Arguments PFace {_ _ _ _ _ _} f.
Arguments PFull {_ _ _ _ _ _} g.

Section Constraints.
(** Scalars with the two comparisons the code uses (for doubles they are not each
    other's negation: NaN). *)
Context {num : Type} (ltb geb : num → num → bool).
(** Entities and intersection geometries. *)
Context {G Pt Arc Ell Edge Face : Type}.
Notation pc := (piece Pt Arc Ell Edge Face G).

(** The geometry kernel: algorithms that are not modelled here. *)
Record kernel := mkKernel {
  k_intersect : option num → G → G → outcome (list pc);   (* intersect(geo1, geo2[, eps]) *)
  k_distance : G → G → outcome num;                       (* computeDistance *)
  k_angle : G → G → list pc → outcome num;                (* angleEngine_ *)
  k_magnitude : pc → outcome num;                         (* computeMagnitude *)
  k_on_boundary : Pt → G → outcome bool;                  (* pointOnGeometryBoundary *)
  k_dist_boundary : Pt → G → outcome num;                 (* computeDistanceToBoundary *)
  k_ellipse_dist_boundary : Ell → G → outcome num;        (* the same for ellipses *)
  k_arc_point : Arc → nat → Pt;                           (* arc.getPoint(i/4) *)
  k_arc_source : Arc → Pt;
  k_arc_target : Arc → Pt;
  k_edge_first : Edge → Pt;                               (* TopExp::FirstVertex *)
  k_edge_last : Edge → Pt;
  k_dim : G → Z;                                          (* myDimension() *)
}.
Variable K : kernel.

(** /repo/frackit/geometry/dimension.hh and the myDimension() members. *)
Definition piece_dim (p : pc) : Z :=
  match p with
  | PEmpty => 0
  | PPoint _ => 0
  | PSegment _ _ | PArc _ | PEllipse _ | PEdge _ => 1
  | PFace _ => 2
  | PFull g => k_dim K g
  end.

(** /repo/frackit/intersection/emptyintersection.hh:60-99 *)
Definition is_empty_piece (p : pc) : bool := match p with PEmpty => true | _ => false end.
Definition is_empty (is : list pc) : bool := forallb is_empty_piece is.

(** constraints_impl/admissibledimension.hh:40-62 *)
Definition adm_dim (maxDim : Z) (is : list pc) : bool :=
  forallb (λ p, bool_decide (piece_dim p ≤ maxDim)%Z) is.

(** constraints_impl/admissiblemagnitude.hh:36-66 *)
Definition adm_mag_piece (thr : num) (p : pc) : outcome bool :=
  if bool_decide (piece_dim p = 0%Z) then Ok true
  else if is_empty_piece p then Ok true
  else obind (k_magnitude K p) (λ m, Ok (geb m thr)).
Definition adm_mag (thr : num) (is : list pc) : outcome bool := all_of (adm_mag_piece thr) is.

(** constraints_impl/distancetoboundary.hh:78-86, points *)
Definition adm_db_point (thr : num) (p : Pt) (g : G) : outcome bool :=
  obind (k_on_boundary K p g) (λ b,
    if b then Ok true else obind (k_dist_boundary K p g) (λ d, Ok (geb d thr))).
(** constraints_impl/distancetoboundary.hh:91-99 and 147-157: segments and edges *)
Definition adm_db_ends (thr : num) (p q : Pt) (g : G) : outcome bool :=
  obind (adm_db_point thr p g) (λ b, if b then adm_db_point thr q g else Ok false).
(** constraints_impl/distancetoboundary.hh:104-129: arcs *)
Definition adm_db_arc (thr : num) (a : Arc) (g : G) : outcome bool :=
  obind (k_on_boundary K (k_arc_source K a) g) (λ sb,
  obind (k_on_boundary K (k_arc_target K a) g) (λ tb,
    if sb || tb then
      obind (if sb then Ok true
             else obind (k_dist_boundary K (k_arc_source K a) g) (λ d, Ok (negb (ltb d thr)))) (λ b1,
      if b1 then
        if tb then Ok true
        else obind (k_dist_boundary K (k_arc_target K a) g) (λ d, Ok (negb (ltb d thr)))
      else Ok false)
    else all_of (λ i, obind (k_dist_boundary K (k_arc_point K a i) g) (λ d, Ok (geb d thr)))
                [0; 1; 2; 3; 4])).
(** constraints_impl/distancetoboundary.hh:54-68 (primary template, empty), 137-142
    (ellipse), 162-167 (face), 172-193 (variant, vector). *)
Definition adm_db_piece (thr : num) (g : G) (p : pc) : outcome bool :=
  match p with
  | PEmpty => Ok true
  | PPoint p => adm_db_point thr p g
  | PSegment s t => adm_db_ends thr s t g
  | PArc a => adm_db_arc thr a g
  | PEllipse e => obind (k_ellipse_dist_boundary K e g) (λ d, Ok (geb d thr))
  | PEdge e => adm_db_ends thr (k_edge_first K e) (k_edge_last K e) g
  | PFace _ => Throw RuntimeError
  | PFull _ => Throw RuntimeError
  end.
Definition adm_db (thr : num) (g : G) (is : list pc) : outcome bool :=
  all_of (adm_db_piece thr g) is.

(** constraints.hh:319-338, the data members. *)
Record constraints := mkC {
  minDistance : num; minIsAngle : num; minIsMagnitude : num; minIsDistance : num;
  useMinDistance : bool; useMinIsAngle : bool; useMinIsMagnitude : bool; useMinIsDistance : bool;
  intersectionEps : num; useIntersectionEps : bool;
  allowEquiDimIS : bool;
}.

(** constraints.hh:113-123; [zero] is the value of Scalar(). *)
Definition c_init (zero : num) : constraints :=
  mkC zero zero zero zero false false false false zero false false.

(** constraints.hh:126-180: the setters. *)
Inductive cop :=
| SetMinDistance (x : num) | SetMinAngle (x : num) | SetMinMagnitude (x : num) | SetMinIsDistance (x : num)
| NeglectMinDistance | NeglectMinAngle | NeglectMinMagnitude | NeglectMinIsDistance
| SetEps (x : num) | SetDefaultEps
| AllowEquiDim (b : bool).

Definition cstep (c : constraints) (o : cop) : constraints :=
  let '(mkC d a m i ud ua um ui e ue al) := c in
  match o with
  | SetMinDistance x => mkC x a m i true ua um ui e ue al
  | SetMinAngle x => mkC d x m i ud true um ui e ue al
  | SetMinMagnitude x => mkC d a x i ud ua true ui e ue al
  | SetMinIsDistance x => mkC d a m x ud ua um true e ue al
  | NeglectMinDistance => mkC d a m i false ua um ui e ue al
  | NeglectMinAngle => mkC d a m i ud false um ui e ue al
  | NeglectMinMagnitude => mkC d a m i ud ua false ui e ue al
  | NeglectMinIsDistance => mkC d a m i ud ua um false e ue al
  | SetEps x => mkC d a m i ud ua um ui x true al
  | SetDefaultEps => mkC d a m i ud ua um ui e false al
  | AllowEquiDim b => mkC d a m i ud ua um ui e ue b
  end.
Definition crun (zero : num) (h : list cop) : constraints := fold_left cstep h (c_init zero).

(** constraints.hh:274-317 *)
Definition evaluate (c : constraints) (g1 g2 : G) : outcome bool :=
  let checkIs := useMinIsMagnitude c || useMinIsAngle c || useMinIsDistance c in
  if negb checkIs && negb (useMinDistance c) then Ok true
  else
    obind (k_intersect K (if useIntersectionEps c then Some (intersectionEps c) else None) g1 g2) (λ is,
    if negb (is_empty is) then
      if negb (allowEquiDimIS c) && negb (adm_dim (k_dim K g1 - 1) is) then Ok false
      else
      obind (if useMinIsMagnitude c then adm_mag (minIsMagnitude c) is else Ok true) (λ okm,
      if negb okm then Ok false
      else
      obind (if useMinIsAngle c
             then obind (k_angle K g1 g2 is) (λ a, Ok (negb (ltb a (minIsAngle c))))
             else Ok true) (λ oka,
      if negb oka then Ok false
      else if negb (useMinIsDistance c) then Ok true
      else
      obind (adm_db (minIsDistance c) g1 is) (λ b1,
      if negb b1 then Ok false else adm_db (minIsDistance c) g2 is)))
    else if useMinDistance c
         then obind (k_distance K g1 g2) (λ d, Ok (geb d (minDistance c)))
         else Ok true).

(** constraints.hh:229-235 *)
Definition evaluate_set_entity (c : constraints) (es : list G) (e : G) : outcome bool :=
  all_of (λ x, evaluate c x e) es.
(** constraints.hh:246-248 *)
Definition evaluate_entity_set (c : constraints) (e : G) (es : list G) : outcome bool :=
  evaluate_set_entity c es e.
(** constraints.hh:259-265 *)
Definition evaluate_set_set (c : constraints) (es1 es2 : list G) : outcome bool :=
  all_of (λ e1, evaluate_entity_set c e1 es2) es1.

End Constraints.
Arguments kernel num G Pt Arc Ell Edge Face : clear implicits.
Arguments constraints num : clear implicits.
Arguments cop num : clear implicits.
