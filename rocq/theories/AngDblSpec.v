(** Specification for C107: intersection angles and their constraint in double precision. *)

From Coq Require Import ZArith Reals Floats List.
From Verif Require Import Base ConstraintsModel NumModel VecModel LinModel RoundModel PolyModel DistModel IntModel AngModel EvalModel
  GeoSpec AngSpec DblSpec LinDblSpec.
Import ListNotations.
Local Open Scope R_scope.

(** the normal of a face, as the library stores it *)
Definition face_dir (f : face float) : V3 float :=
  match f with FDisk d => e_n d | FQuad q => pl_n (q_plane q) | FPoly p => pl_n (po_plane p) end.

(** a is the angle theta up to r; if theta is below r, there may be no number at all *)
Definition measures (a : float) (theta r : R) : Prop :=
  (number a /\ Rabs (val a - theta) <= r) \/ (a = nan /\ theta <= r).

(** a point or a segment of the intersection of two faces *)
Definition crossing {X Y Z W V : Type} (i : piece (V3 float) X Y Z W V) : Prop :=
  (exists p, i = PPoint p) \/ (exists s t, i = PSegment s t).

(** constraints that bound the angle by m only, with the tolerance e for intersections *)
Definition angle_only (e m : float) : constraints float := crun n0 [SetEps e; SetMinAngle m].
