(** Specification of the network of example 1, in terms of the points, the boundaries and the
    normals of the quadrilaterals. *)

From Coq Require Import Reals List.
From Coq Require Import NArith.
From Verif Require Import Base StatusModel ConstraintsModel ConstraintsSpec AppModel.
From Verif Require Import NumModel VecModel LinModel RoundModel PolyModel DistModel IntModel AngModel CylIntModel EvalModel SampModel
  GeoSpec LinSpec RoundSpec PolySpec DistSpec IntSpec AngSpec EvalSpec SampSpec.
Import ListNotations.
Local Open Scope R_scope.

(** The values the samplers draw: example1.cc:50-51, 59-60 (the angles and centers are arbitrary) *)
Definition ex1_values (d : poly_draws R) : Prop :=
  unit_draws d /\ forall i, 4 / 10 <= d_slen d i <= 8 / 10 /\ 4 / 10 <= d_dlen d i <= 8 / 10.
(** e is one of the quadrilaterals for these values *)
Definition sampled (srt : list (V3 R) -> list (V3 R)) (d : N -> poly_draws R) (e : ent R) : Prop :=
  exists i q, sample_quad srt (d i) = Ok q /\ e = EFace (FQuad q).

(** What the constraints are meant to ensure for two faces, with the minimum angle thr: faces that
    do not meet are at least 1/20 apart; otherwise they enclose at least the angle thr, the common
    part is not shorter than 1/20, and its ends are on the boundaries (up to a tolerance) or at
    least 1/20 away from them. *)
Definition clear_of (f : face R) (p : pt) : Prop := forall d, dist_to (edge_set f) p d -> d < 3 / 10 ^ 7 \/ 1 / 20 <= d.
Record well_spaced (thr : R) (f1 f2 : face R) : Prop := mkSpaced {
  ws_apart : (forall x, ~ (face_set f1 x /\ face_set f2 x)) ->
    forall x y, face_set f1 x -> face_set f2 y -> 1 / 20 <= dist x y;
  ws_angle : forall x theta, face_set f1 x -> face_set f2 x ->
    angle_between (face_normal f1) (face_normal f2) theta -> thr <= theta;
  ws_length : forall s, is_seg s (both (face_set f1) (face_set f2)) -> 1 / 20 <= dist (s_src s) (s_tgt s);
  ws_ends : forall s p, is_seg s (both (face_set f1) (face_set f2)) -> p = s_src s \/ p = s_tgt s ->
    clear_of f1 p /\ clear_of f2 p;
  ws_point : forall p, is_point p (both (face_set f1) (face_set f2)) -> clear_of f1 p /\ clear_of f2 p }.

(** Two quadrilaterals in oblique planes, in general position, or in parallel planes; the functions
    of OpenCascade are exact for them (IntSpec, EvalSpec) *)
Definition tol_of (q1 q2 : quad R) : R := Rmin (eps_quad q1) (eps_quad q2).
Definition general (O : ent_ops R) (q1 q2 : quad R) : Prop :=
  crossing (eo_int O) (FQuad q1) (FQuad q2) (tol_of q1 q2) /\
  boxed (eo_int O) (FQuad q1) /\ boxed (eo_int O) (FQuad q2) /\
  proper_edges (corners (FQuad q1)) /\ proper_edges (corners (FQuad q2)) /\
  dist_ok O (FQuad q1) (FQuad q2).
Definition layered (O : ent_ops R) (q1 q2 : quad R) : Prop :=
  face_ok (FQuad q1) /\ face_ok (FQuad q2) /\
  apart_planes (q_plane q1) (q_plane q2) (tol_of q1 q2) /\
  dist_ok O (FQuad q1) (FQuad q2).
Definition decided (O : ent_ops R) (q1 q2 : quad R) : Prop := general O q1 q2 \/ layered O q1 q2.

Definition spaced (O : ent_ops R) (thr : R) (e1 e2 : ent R) : Prop :=
  forall q1 q2, e1 = EFace (FQuad q1) -> e2 = EFace (FQuad q2) -> decided O q1 q2 ->
    well_spaced thr (FQuad q1) (FQuad q2).

(** The same for any constraints (h: the calls, the latest first) and any faces *)
Definition face_kept (top : R) (O : ent_ops R) (h : list (cop R)) (e1 e2 : ent R) : Prop :=
  forall f1 f2 t1 t2 M, e1 = EFace f1 -> e2 = EFace f2 -> pair_ok top O h f1 f2 t1 t2 M ->
    kept h t1 t2 (M / 10000000) 0 f1 f2.

(** All faces of the list can be compared with f, and the constraints are kept with the given
    margins. *)
Definition comparable (top : R) (O : ent_ops R) (h : list (cop R)) (es : list (ent R)) (f : face R) (M : R) : Prop :=
  forall e, In e es -> exists g t1 t2, e = EFace g /\ pair_ok top O h g f t1 t2 M.
Definition kept_with (h : list (cop R)) (es : list (ent R)) (f : face R) (a b : R) : Prop :=
  forall e g t1 t2, In e es -> e = EFace g -> ent_eps (EFace g) = Ok t1 -> ent_eps (EFace f) = Ok t2 ->
    kept h t1 t2 a b g f.

(** What one pass does: the quadrilateral is put into the set whose turn it is, and then it is the
    turn of the other set; or it is rejected and counted. *)
Definition set_of (b : bool) (x : alt (ent R)) : list (ent R) := if b then a_set1 x else a_set2 x.
Definition taken (x : alt (ent R)) (e : ent R) (x' : alt (ent R)) : Prop :=
  set_of (a_into1 x) x' = (set_of (a_into1 x) x ++ [e])%list /\
  set_of (negb (a_into1 x)) x' = set_of (negb (a_into1 x)) x /\
  a_into1 x' = negb (a_into1 x) /\ rejected (a_status x') = rejected (a_status x).
Definition refused (x x' : alt (ent R)) : Prop :=
  a_set1 x' = a_set1 x /\ a_set2 x' = a_set2 x /\ a_into1 x' = a_into1 x /\
  rejected (a_status x') = N.modulo (rejected (a_status x) + 1)%N (2 ^ 64)%N.
