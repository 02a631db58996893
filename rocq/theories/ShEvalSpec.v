(** What the constraints mean if face shapes are among the entities.  The sets of points of face
    shapes, edges and wires are the parameters fpts, epts and wpts, the normals of face shapes at
    their points N, the lengths of edges len. *)

From Coq Require Import Reals List.
From Verif Require Import Base ConstraintsModel ConstraintsSpec.
From Verif Require Import NumModel VecModel LinModel RoundModel PolyModel DistModel IntModel AngModel CylIntModel EvalModel FaceFaceModel ShEvalModel
  GeoSpec LinSpec RoundSpec PolySpec DistSpec IntSpec AngSpec EvalSpec FaceFaceSpec.
Import ListNotations.
Local Open Scope R_scope.

Section Sh.
Context {F E W : Type}.
Variables (top : R) (S : shape_ops R F E W).
Variables (fpts : F -> pt -> Prop) (epts : E -> pt -> Prop) (wpts : W -> pt -> Prop).
Variables (N : F -> pt -> pt) (len : E -> R).

(** the points, the normal at a point, and the outer boundary of an entity; cylinder surfaces are
    left out *)
Definition sh_set (g : sent R F) : pt -> Prop :=
  match g with SGeo (EFace f) => face_set f | SGeo (ESurf _) => fun _ => False | SShape s => fpts s end.
Definition sh_normal (g : sent R F) (p : pt) : pt :=
  match g with SGeo (EFace f) => face_normal f | SGeo (ESurf _) => p | SShape s => N s p end.
Definition sh_bound (g : sent R F) : pt -> Prop :=
  match g with SGeo (EFace f) => edge_set f | SGeo (ESurf _) => fun _ => False | SShape s => wpts (so_outer S s) end.
(** the boundary of a face shape with its holes *)
Definition all_bounds (s : F) (p : pt) : Prop := exists w, In w (sk_wires (so_shapes S) s) /\ wpts w p.

(** the five points of an edge at which the angle is computed *)
Definition stations (e : E) : list pt :=
  map (fun tau => cv_value (so_curve S e) (cv_first (so_curve S e) + tau * (cv_last (so_curve S e) - cv_first (so_curve S e))))
    [0; 1 / 4; 1 / 2; 3 / 4; 1].

(** The active constraints for the pieces r of the intersection of g1 and g2 (see EvalSpec); t1 and
    t2 are the tolerances for points on the boundaries. *)
Definition sh_angle_kept (h : list (cop R)) (g1 g2 : sent R F) (p : pt) : Prop :=
  holds_if_set (active_angle h) (fun thr =>
    forall theta, angle_between (sh_normal g1 p) (sh_normal g2 p) theta -> thr <= theta).
Definition sh_end_kept (h : list (cop R)) (t1 t2 a b : R) (g1 g2 : sent R F) (p : pt) : Prop :=
  holds_if_set (active_is_distance h) (fun thr =>
    keeps_off t1 thr a b (sh_bound g1) p /\ keeps_off t2 thr a b (sh_bound g2) p).
Definition sh_kept (h : list (cop R)) (t1 t2 a b : R) (g1 g2 : sent R F) (r : list (spiece R F E)) : Prop :=
  ((forall x, ~ both (sh_set g1) (sh_set g2) x) ->
     holds_if_set (active_distance h) (fun thr => forall d, set_dist (sh_set g1) (sh_set g2) d -> thr <= d)) /\
  (forall p, In (SpPoint p) r -> sh_angle_kept h g1 g2 p /\ sh_end_kept h t1 t2 a b g1 g2 p) /\
  (forall e, In (SpEdge e) r ->
     holds_if_set (active_magnitude h) (fun thr => thr <= len e) /\
     (forall p, In p (stations e) -> sh_angle_kept h g1 g2 p) /\
     sh_end_kept h t1 t2 a b g1 g2 (so_first S e) /\ sh_end_kept h t1 t2 a b g1 g2 (so_last S e)).

(** OpenCascade's view of an entity agrees with its points: conversion to a shape, normals, the
    distance of the points P from the outer boundary; t is the tolerance of the boundary *)
Definition sh_fits (M : R) (P : pt -> Prop) (g : sent R F) (t : R) : Prop :=
  match g with
  | SGeo (EFace f) => face_ok f /\ edges_fit M f /\ curve_ok (so_ent S) f /\ within top f /\
      ent_eps (EFace f) = Ok t /\ forall x, fpts (so_face S f) x <-> face_set f x
  | SGeo (ESurf _) => False
  | SShape s => shape_ok (so_surface S s) (fpts s) (N s) /\ t = eps_box (so_wire_box S (so_outer S s)) /\
      forall p, P p -> exists d, dist_to (wpts (so_outer S s)) p d /\ so_point_wire S p (so_outer S s) = Ok d
  end.
(** the shapes that are intersected, in this order *)
Definition operands (g1 g2 : sent R F) : F * F :=
  match g1, g2 with
  | SShape s, SGeo _ => (sh_shape S g2, s)
  | _, _ => (sh_shape S g1, sh_shape S g2)
  end.
(** a face shape is involved; the other one is a face shape or a planar geometry, then the face
    shape is flat *)
Definition one_shape (g1 g2 : sent R F) : Prop :=
  match g1, g2 with
  | SShape _, SShape _ => True
  | SShape s, SGeo _ | SGeo _, SShape s => flat (so_surface S s)
  | SGeo _, SGeo _ => False
  end.

(** Two entities with the default tolerances u1, u2 and the boundary tolerances t1, t2, for which
    the constraints are decided up to M/10^7 *)
Record sh_pair (h : list (cop R)) (g1 g2 : sent R F) (u1 u2 t1 t2 M : R) : Prop := mkShPair {
  sp_top : PI <= top;
  sp_M : 0 <= M;
  sp_one : one_shape g1 g2;
  sp_f1 : sh_fits M (both (sh_set g1) (sh_set g2)) g1 t1;
  sp_f2 : sh_fits M (both (sh_set g1) (sh_set g2)) g2 t2;
  sp_u1 : sh_eps S g1 = Ok u1; sp_u2 : sh_eps S g2 = Ok u2;
  sp_pos : 0 < is_eps h u1 u2;
  sp_common : finds_common (so_shapes S) fpts epts (fst (operands g1 g2)) (snd (operands g1 g2)) (is_eps h u1 u2);
  sp_all : finds_all (so_shapes S) fpts epts (fst (operands g1 g2)) (snd (operands g1 g2)) (is_eps h u1 u2);
  sp_box1 : shape_boxed (so_shapes S) fpts (fst (operands g1 g2));
  sp_box2 : shape_boxed (so_shapes S) fpts (snd (operands g1 g2));
  sp_apart : sk_common (so_shapes S) (fst (operands g1 g2)) (snd (operands g1 g2)) (is_eps h u1 u2) = [];
  sp_edges : forall e, boundary_edge (so_shapes S) (fst (operands g1 g2)) (snd (operands g1 g2)) (is_eps h u1 u2) e ->
    so_length S e = Ok (len e) /\ epts e (so_first S e) /\ epts e (so_last S e) /\ forall p, In p (stations e) -> epts e p;
  sp_dist : exists d, set_dist (sh_set g1) (sh_set g2) d /\ so_dist S (sh_shape S g1) (sh_shape S g2) = Ok d }.
(** a cylinder surface and a face shape *)
Definition surf_and_shape (g1 g2 : sent R F) : Prop :=
  match g1, g2 with SGeo (ESurf _), SShape _ | SShape _, SGeo (ESurf _) => True | _, _ => False end.
End Sh.
