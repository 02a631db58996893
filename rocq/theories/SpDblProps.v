(** C115: sampled polygons and quadrilaterals in double precision. *)

From Coq Require Import ZArith Reals List Permutation.
From Coq Require Import Floats.
From Verif Require Import Base NumModel VecModel LinModel RoundModel PolyModel SampModel GeoSpec PolySpec SampSpec DblSpec LinDblSpec LinDblExamples RndDblSpec TrigDblSpec TrigDblExamples
  SdDblSpec SdDblExamples SpDblSpec SpDblProofs SpDblDeltas SpDblExamples.
Import ListNotations.
Local Open Scope R_scope.

(** A sampled polygon has the number of corners and the lengths drawn first that are usable.  Its edges, the closing one
    included, are steps in the plane of the strike and dip times the lengths, up to 2^-40 of the coordinates for every
    corner; the steps add up to zero but for one rounding each, and extend over 0.79 to 1.01 in both directions.  The corners
    lie in that plane up to the same bound, and the middle of their box is the centre drawn, up to 2^-49 of the coordinates. *)
Theorem c115_polygon : forall (T : Trig float), accurate T -> forall esort (d : poly_draws float) M, (forall l, Permutation (esort l) l) -> scale M -> drawn M d ->
  forall cs, sample_corners esort d = Ok cs ->
  exists n i k slen dlen ds, (i < 99)%nat /\ first_at (fun v => (3 <= v)%Z) (d_num d) i n /\
  (k < 100)%nat /\ first_at (fun x => 0 <= val x) (d_slen d) k slen /\ length_drawn (d_dlen d) dlen /\
  length cs = Z.to_nat n /\ closed_steps (powerRZ 2 (-53)) ds /\ Forall (point_upto (4 * M)) cs /\
  made_near (INR (length cs) * (powerRZ 2 (-40) * M)) (val (d_strike d)) (val (d_dip d)) (val dlen) (val slen) ds cs /\
  planar_near (INR (length cs) * (powerRZ 2 (-40) * M)) (plane_normal (val (d_strike d)) (val (d_dip d))) cs /\
  middle_near (powerRZ 2 (-49) * M) cs (d_center d).
Proof. exact sampled_corners. Qed.
Print Assumptions c115_polygon.
Example c115_polygon_case : accurate rounded_trig /\ (forall l, Permutation (sp_sort rounded_trig l) l) /\ scale 60 /\ drawn 60 (sp_draws sd_maj) /\
  exists cs, sample_corners (H0 := rounded_trig) (sp_sort rounded_trig) (sp_draws sd_maj) = Ok cs.
Proof. exact (conj rounded_accurate (conj (sp_perm rounded_trig) (conj sp_scale (conj (proj1 sp_drawn) (sp_samples rounded_trig))))). Qed.

(** Sampling fails exactly if 99 numbers of corners are below three, or 100 lengths in the direction of the strike are
    negative; otherwise a polygon is returned. *)
Theorem c115_throws : forall (T : Trig float) esort (d : poly_draws float) M, drawn M d ->
  (sample_corners esort d = Throw RuntimeError <-> (forall i, (i < 99)%nat -> (d_num d i < 3)%Z) \/ (forall i, (i < 100)%nat -> val (d_slen d i) < 0)) /\
  ((exists cs, sample_corners esort d = Ok cs) <-> sample_corners esort d <> Throw RuntimeError).
Proof. exact sampled_throws. Qed.
Print Assumptions c115_throws.
Example c115_throws_case : drawn 60 (sp_draws sp_neg) /\ sample_corners (H0 := rounded_trig) (sp_sort rounded_trig) (sp_draws sp_neg) = Throw RuntimeError.
Proof. exact (conj (proj2 sp_drawn) (sp_fails rounded_trig)). Qed.

(** The same for a sampled quadrilateral: its third and fourth corner are the fourth and third one around it. *)
Theorem c115_quad : forall (T : Trig float), accurate T -> forall esort (d : poly_draws float) M, (forall l, Permutation (esort l) l) -> scale M -> drawn M d ->
  forall q, sample_quad esort d = Ok q ->
  exists k slen dlen ds, (k < 100)%nat /\ first_at (fun x => 0 <= val x) (d_slen d) k slen /\ length_drawn (d_dlen d) dlen /\
  closed_steps (powerRZ 2 (-53)) ds /\
  made_near (powerRZ 2 (-38) * M) (val (d_strike d)) (val (d_dip d)) (val dlen) (val slen) ds [q_0 q; q_1 q; q_3 q; q_2 q] /\
  planar_near (powerRZ 2 (-38) * M) (plane_normal (val (d_strike d)) (val (d_dip d))) [q_0 q; q_1 q; q_3 q; q_2 q] /\
  middle_near (powerRZ 2 (-49) * M) [q_0 q; q_1 q; q_3 q; q_2 q] (d_center d).
Proof. exact sampled_quad. Qed.
Print Assumptions c115_quad.
Example c115_quad_case : exists q, sample_quad (H0 := rounded_trig) (sp_sort rounded_trig) (sp_draws sd_maj) = Ok q.
Proof. exact (sp_quad rounded_trig). Qed.

(** For given edges in the plane: every edge but the closing one is the given one, turned into the plane of strike and dip,
    up to 2^-41 of the coordinates. *)
Theorem c115_edges : forall (T : Trig float) (strike dip : float) M, accurate T -> usual_angle strike -> usual_angle dip -> scale M ->
  forall es ctr, edges_upto M es -> (1 <= length es <= 1000)%nat -> point_upto M ctr -> forall i, (S i < length es)%nat ->
  norm (psub (psub (val3 (nth (S i) (place_polygon es strike dip ctr) origin)) (val3 (nth i (place_polygon es strike dip ctr) origin)))
         (in_plane (val strike) (val dip) (val (vx (nth i es origin))) (val (vy (nth i es origin))))) <= powerRZ 2 (-41) * M.
Proof. exact place_edges. Qed.
Print Assumptions c115_edges.
(** The closing edge is the last one given, up to what the given ones lack of being closed. *)
Theorem c115_closing : forall (T : Trig float) (strike dip : float) M, accurate T -> usual_angle strike -> usual_angle dip -> scale M ->
  forall es ctr, edges_upto M es -> (1 <= length es <= 1000)%nat -> point_upto M ctr -> let n := length es in
  norm (psub (psub (val3 (nth 0 (place_polygon es strike dip ctr) origin)) (val3 (nth (n - 1) (place_polygon es strike dip ctr) origin)))
         (in_plane (val strike) (val dip) (val (vx (nth (n - 1) es origin))) (val (vy (nth (n - 1) es origin)))))
    <= INR (n - 1) * (powerRZ 2 (-41) * M) + Rabs (sum (map (fun e => val (vx e)) es)) + Rabs (sum (map (fun e => val (vy e)) es)).
Proof. exact place_closed. Qed.
Print Assumptions c115_closing.
Example c115_edges_case : usual_angle 1%float /\ usual_angle 3%float /\ scale 60 /\ edges_upto 60 sp_edges /\ length sp_edges = 4%nat.
Proof. exact (conj (proj1 sd_angles) (conj (proj1 (proj2 sd_angles)) (conj sp_scale (conj sp_edges_upto eq_refl)))). Qed.
