(** Specification of boundaries, of scaled geometries and of the length of ellipses. *)

From Coq Require Import Reals List.
From Coquelicot Require Import Coquelicot.
From Verif Require Import NumModel VecModel LinModel RoundModel GeoSpec PolySpec.
Import ListNotations.
Local Open Scope R_scope.

(** the boundary of a polygon *)
Definition boundary (cs : list pt) (p : pt) : Prop :=
  exists ab, In ab (edges cs) /\ on_segment (fst ab) (snd ab) p.

(** M bounds the lengths of the edges *)
Definition edges_below (M : R) (cs : list pt) : Prop :=
  forall ab, In ab (edges cs) -> dist (fst ab) (snd ab) <= M.

(** m is the smallest of the values *)
Definition is_min (m : R) (l : list R) : Prop := In m l /\ forall x, In x l -> m <= x.

(** images under the homothety with factor k and center 0 *)
Definition scaled_seg (k : R) (s : segment R) : segment R := mkSeg (pscale k (s_src s)) (pscale k (s_tgt s)).
Definition scaled_ell (k : R) (e : ell R) : ell R :=
  mkEll (pscale k (e_c e)) (e_maj e) (e_min e) (e_n e) (k * e_a e) (k * e_b e).
Definition scaled_cyl (k : R) (c : cyl R) : cyl R :=
  mkCyl (k * c_h c) (scaled_ell k (c_top c)) (scaled_ell k (c_bot c)).
Definition scaled_box (k : R) (b : box R) : box R := mkBox (pscale k (b_min b)) (pscale k (b_max b)).
Definition scaled_sphere (k : R) (s : sphere R) : sphere R := mkSphere (pscale k (sp_c s)) (k * sp_r s).

(** the length of the curve t |-> (a cos t, b sin t), 0 <= t <= 2 PI: the integral of the norm
    of the derivative *)
Definition speed (a b t : R) : R := sqrt (Rsqr (a * sin t) + Rsqr (b * cos t)).
Definition perimeter (a b : R) : R := RInt (speed a b) 0 (2 * PI).
