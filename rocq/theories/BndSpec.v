(** The boundaries of geometries and shapes, and what OpenCascade computes. *)

From Coq Require Import Reals List.
From Verif Require Import Base NumModel VecModel LinModel RoundModel PolyModel IntModel DistModel BndModel GeoSpec LinSpec RoundSpec PolySpec DistSpec IntSpec EvalSpec.
Import ListNotations.
Local Open Scope R_scope.

Section Bnd.
Context {H G : Type}.
Variable O : bnd_ops R H G.
(** the points of a shape, its outer boundary (of a face: without the holes, of a solid: without the
    cavities), its whole boundary *)
Variables (pts outer whole : H -> pt -> Prop).

(** the boundary of the second argument *)
Definition target_bound (t : target R H G) : pt -> Prop :=
  match t with
  | TDisk d => edge_set (FDisk d)
  | TQuad q => edge_set (FQuad q)
  | TPoly p => edge_set (FPoly p)
  | TSurf c => fun x => on_ellipse (c_bot c) x \/ on_ellipse (c_top c) x
  | TFace f => whole f
  | TSolid s => whole s
  | TOther _ => fun _ => False
  end.
(** it has no holes and no cavities *)
Definition unpierced (t : target R H G) : Prop :=
  match t with
  | TFace f => forall x, whole f x <-> outer f x
  | TSolid s => forall x, whole s x <-> outer s x
  | _ => True
  end.
(** OpenCascade computes the distance of h and h', which has the points S *)
Definition computed (h h' : H) (S : pt -> Prop) : Prop :=
  exists d, set_dist (pts h) S d /\ bo_dist O h h' = Ok d.
(** OpenCascade computes the distances of h and the parts of the boundary *)
Definition computes (h : H) (t : target R H G) : Prop :=
  let ellipse e := computed h (bo_ellipse O e) (on_ellipse e) in
  let edge a b := computed h (bo_segment O (mkSeg a b)) (on_segment a b) in
  match t with
  | TDisk d => forall e, (forall x, on_ellipse e x <-> on_ellipse d x) -> ellipse e
  | TQuad q => forall a b, In (a, b) (edges (corners (FQuad q))) -> edge a b /\ edge b a
  | TPoly p => (exists cs, make_poly cs = Ok p) /\ forall a b, In (a, b) (edges (corners (FPoly p))) -> edge a b
  | TSurf c => ellipse (c_bot c) /\ ellipse (c_top c)
  | TFace f => computed h (bo_wire O f) (outer f)
  | TSolid s => computed h (bo_shell O s) (outer s)
  | TOther _ => False
  end.
End Bnd.
