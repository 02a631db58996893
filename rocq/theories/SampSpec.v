(** Specification of the samplers, by the values drawn and the geometry returned. *)

From Coq Require Import ZArith Reals List Permutation.
From Verif Require Import Base NumModel VecModel LinModel RoundModel PolyModel SampModel
  GeoSpec LinSpec RoundSpec PolySpec.
Import ListNotations.
Local Open Scope R_scope.

(** p is a point the sampler can return: for some values within the ranges of its distributions *)
Definition can_sample (s : psampler R) (p : pt) : Prop :=
  exists d1 d2 d3,
    let '(r1, r2, r3) := ps_ranges s in
    in_interval r1 d1 /\ in_interval r2 d2 /\ in_interval r3 d3 /\ p = ps_point s d1 d2 d3.

(** v is the first of the values drawn that satisfies P; it is the i-th one *)
Definition first_at {B} (P : B -> Prop) (s : draws B) (i : nat) (v : B) : Prop :=
  s i = v /\ P v /\ forall j, (j < i)%nat -> ~ P (s j).
Definition first_draw {B} (P : B -> Prop) (s : draws B) (v : B) : Prop := exists i, first_at P s i v.

(** rotation about the coordinate axes *)
Definition turn_x (t : R) (p : pt) : pt :=
  mkV3 (vx p) (vy p * cos t - vz p * sin t) (vy p * sin t + vz p * cos t).
Definition turn_y (t : R) (p : pt) : pt :=
  mkV3 (vx p * cos t + vz p * sin t) (vy p) (vz p * cos t - vx p * sin t).
Definition turn_z (t : R) (p : pt) : pt :=
  mkV3 (vx p * cos t - vy p * sin t) (vx p * sin t + vy p * cos t) (vz p).

(** The plane with the given strike and dip angle: the horizontal direction, the direction of
    steepest descent and the normal.  The normal encloses the dip angle with the z-axis. *)
Definition strike_dir (s : R) : pt := mkV3 (- sin s) (cos s) 0.
Definition dip_dir (s d : R) : pt := mkV3 (cos d * cos s) (cos d * sin s) (- sin d).
Definition plane_normal (s d : R) : pt := mkV3 (sin d * cos s) (sin d * sin s) (cos d).
(** u along the dip direction and v along the strike direction *)
Definition in_plane (s d u v : R) : pt := padd (pscale u (dip_dir s d)) (pscale v (strike_dir s)).

(** the edge of the closed polygon that starts at the i-th corner *)
Definition edge_vec (cs : list pt) (i : nat) : pt :=
  psub (nth (Nat.modulo (S i) (length cs)) cs zero3) (nth i cs zero3).

(** m is in the middle between the smallest and the largest number of the list *)
Definition middle (l : list R) (m : R) : Prop :=
  exists lo hi, In lo l /\ In hi l /\ (forall x, In x l -> lo <= x <= hi) /\ m = (lo + hi) / 2.

(** the dimensions of the polygon drawn: the sum of the extents in positive direction *)
Definition rises (l : list R) : R := sum (map (Rmax 0) l).
(** the polygon is made of these steps (along dip, along strike), in this order; they lead back to
    the start *)
Definition steps_ok (w h : R) (ds : list (R * R)) : Prop :=
  sum (map fst ds) = 0 /\ sum (map snd ds) = 0 /\ rises (map fst ds) = w /\ rises (map snd ds) = h.
Definition made_of (s d dlen slen : R) (ds : list (R * R)) (cs : list pt) : Prop :=
  length ds = length cs /\
  forall i, (i < length cs)%nat ->
    edge_vec cs i = in_plane s d (fst (nth i ds (0, 0)) * dlen) (snd (nth i ds (0, 0)) * slen).

(** a sort of the edges: any permutation whose angles do not decrease *)
Definition sorts (srt : list pt -> list pt) : Prop :=
  forall l, Permutation (srt l) l /\
    forall i j, (i < j < length l)%nat -> edge_angle (nth i (srt l) zero3) <= edge_angle (nth j (srt l) zero3).

(** the draws for the unit interval *)
Definition unit_draws (d : poly_draws R) : Prop := forall i, 0 <= d_unit d i <= 1.
(** the length used: the first one that is not negative, but after 100 negative ones the next
    one, whatever it is *)
Definition length_used (s : draws R) (v : R) : Prop :=
  (exists i, (i < 100)%nat /\ first_at (fun x => 0 <= x) s i v) \/
  ((forall i, (i < 100)%nat -> s i < 0) /\ v = s 100%nat).

(** the angles of the edges are those getAngle computes: the components of the edges are not
    close to zero unless they are zero *)
Definition clear_edges (s d : R) (cs : list pt) : Prop :=
  forall i, (i < length cs)%nat ->
    let u := dot (edge_vec cs i) (dip_dir s d) in let v := dot (edge_vec cs i) (strike_dir s) in
    (u = 0 \/ 1 / 10 ^ 6 <= Rabs u) /\ (v = 0 \/ 1 / 10 ^ 6 <= Rabs v).
