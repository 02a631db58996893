(** Specification for C115: sampled polygons and quadrilaterals in double precision. *)

From Coq Require Import Reals Floats List.
From Verif Require Import NumModel VecModel SampModel GeoSpec SampSpec DblSpec LinDblSpec PolySpec SdDblSpec.
Import ListNotations.
Local Open Scope R_scope.

(** a length that is far from the limits of the numbers *)
Definition scale (M : R) : Prop := powerRZ 2 (-300) <= M <= powerRZ 2 300.
(** the edges of a polygon in the plane: the third coordinates are zero, and the coordinates add up to M at most *)
Definition edges_upto (M : R) (es : list (V3 float)) : Prop :=
  Forall (fun e => number3 e /\ val (vz e) = 0) es /\ sum (map (fun e => Rabs (val (vx e)) + Rabs (val (vy e))) es) <= M.
(** the sum of the positive numbers of a list *)
Definition ups (l : list float) : R := sum (map (fun x => Rmax 0 (val x)) l).
(** the steps of a polygon in the unit square: they lead back to the start up to r each, and their extent in both
    directions is at least 0.79 and at most 1.01 *)
Definition closed_steps (r : R) (ds : list (float * float)) : Prop :=
  Rabs (sum (map (fun d => val (fst d)) ds)) <= INR (length ds) * r /\ Rabs (sum (map (fun d => val (snd d)) ds)) <= INR (length ds) * r /\
  79 / 100 <= ups (map fst ds) <= 101 / 100 /\ 79 / 100 <= ups (map snd ds) <= 101 / 100.
(** a value drawn from the unit interval *)
Definition unitary (x : float) : Prop := number x /\ 0 <= val x <= 1.
(** the length in the direction of the dip: the first one of 100 draws that is not negative, or else the hundred and first *)
Definition length_drawn (s : draws float) (v : float) : Prop :=
  (exists i, (i < 100)%nat /\ first_at (fun x => 0 <= val x) s i v) \/ ((forall i, (i < 100)%nat -> val (s i) < 0) /\ v = s 100%nat).
(** the values drawn: the angles are not astronomic, the centre has coordinates up to M, the lengths are at most a fifth
    of M, and there are at most 1000 corners *)
Record drawn (M : R) (d : poly_draws float) : Prop := mkDrawn
  { dr_strike : usual_angle (d_strike d); dr_dip : usual_angle (d_dip d); dr_centre : point_upto M (d_center d);
    dr_unit : forall i, unitary (d_unit d i);
    dr_slen : forall i, number (d_slen d i) /\ Rabs (val (d_slen d i)) <= M / 5;
    dr_dlen : forall i, number (d_dlen d i) /\ Rabs (val (d_dlen d i)) <= M / 5;
    dr_num : forall i, (d_num d i <= 1000)%Z }.
(** the polygon with corners cs is made of the steps ds times the lengths: every edge, the closing one included, is the
    step in the plane of the given strike and dip, up to r *)
Definition made_near (r s d dlen slen : R) (ds : list (float * float)) (cs : list (V3 float)) : Prop :=
  length ds = length cs /\
  forall i, (i < length cs)%nat -> let p := nth i ds (0%float, 0%float) in
    dist (edge_vec (map val3 cs) i) (in_plane s d (val (fst p) * dlen) (val (snd p) * slen)) <= r.
(** any two corners lie in one plane with normal n, up to r *)
Definition planar_near (r : R) (n : pt) (cs : list (V3 float)) : Prop :=
  forall a b, In a cs -> In b cs -> Rabs (dot n (psub (val3 b) (val3 a))) <= r.
(** the box of the corners has its middle at c, up to r in every coordinate *)
Definition middle_near (r : R) (cs : list (V3 float)) (c : V3 float) : Prop := exists mx my mz,
  middle (map (fun p => val (vx p)) cs) mx /\ middle (map (fun p => val (vy p)) cs) my /\ middle (map (fun p => val (vz p)) cs) mz /\
  Rabs (mx - val (vx c)) <= r /\ Rabs (my - val (vy c)) <= r /\ Rabs (mz - val (vz c)) <= r.
