(** Specification for C113: intersections of segments, planes and lines in double precision. *)

From Coq Require Import Reals Floats List.
From Verif Require Import NumModel VecModel LinModel RoundModel PolyModel IntModel GeoSpec DblSpec LinDblSpec.
Import ListNotations.
Local Open Scope R_scope.

(** p is at a distance of at most r from a point of S *)
Definition reached (r : R) (S : pt -> Prop) (p : pt) : Prop := exists y, S y /\ dist p y <= r.
(** the points of a segment with ends in double precision *)
Definition seg_pts (s : segment float) : pt -> Prop := on_segment (val3 (s_src s)) (val3 (s_tgt s)).
(** a segment with different ends that are numbers up to M *)
Definition segment_upto (M : R) (s : segment float) : Prop :=
  point_upto M (s_src s) /\ point_upto M (s_tgt s) /\ gap3 (s_src s) (s_tgt s) /\ val3 (s_src s) <> val3 (s_tgt s).
(** the sine of the angle between the segments is at most k *)
Definition aligned (k : R) (s1 s2 : segment float) : Prop :=
  let v := psub (val3 (s_tgt s1)) (val3 (s_src s1)) in
  let w := psub (val3 (s_tgt s2)) (val3 (s_src s2)) in
  norm (cross v w) <= k * norm v * norm w.
(** a vertex of one of the edges *)
Definition vertex_of (es : list (V3 float * V3 float)) (p : V3 float) : Prop := exists a b, In (a, b) es /\ (p = a \/ p = b).
(** the points of an intersection that is a point or a segment *)
Definition isect_pts (r : isect float) : pt -> Prop :=
  match r with
  | IsPoint p => eq (val3 p)
  | IsSeg s => seg_pts s
  | _ => fun _ => False
  end.
(** a plane whose support has coordinates up to M, and its points *)
Definition plane_upto (M : R) (pl : plane float) : Prop := point_upto M (pl_sup pl) /\ direction (pl_n pl).
Definition plane_pts (pl : plane float) : pt -> Prop := on_plane (val3 (pl_sup pl)) (val3 (pl_n pl)).
