(** C109: boundaries of quadrilaterals and polygons, and lengths, in double precision. *)

From Coq Require Import ZArith Reals List.
From Coq Require Import Floats.
From Verif Require Import Base ConstraintsModel NumModel VecModel LinModel RoundModel PolyModel DistModel IntModel AngModel CylIntModel EvalModel
  GeoSpec PolySpec DistSpec DblSpec LinDblSpec LinDblExamples TrigDblSpec TrigDblExamples BdDblSpec BdDblProofs BdDblExamples.
Import ListNotations.
Local Open Scope R_scope.

(** The distance of a point to the boundary of a quadrilateral or polygon: at most 2^-45 M too large, and at most
    N / 10^7 (the tolerance of the segments) too small, up to rounding errors. *)
Theorem c109_boundary_distance : forall (T : Trig float) top O f cs M N p D, moderate M -> point_upto M p -> cornered f cs -> outline M cs -> edges_below N (map val3 cs) ->
  number top -> dist_to (boundary (map val3 cs)) (val3 p) D -> D + powerRZ 2 (-45) * M <= val top ->
  exists m, ent_dist_boundary top O p (EFace f) = Ok m /\ number m /\ D - (N / 10000000 + powerRZ 2 (-42) * M) <= val m <= D + powerRZ 2 (-45) * M.
Proof. exact boundary_distance. Qed.
Print Assumptions c109_boundary_distance.
Example c109_boundary_distance_case : moderate 12 /\ point_upto 12 cut_s /\ (cornered (FQuad bd_floor) floor_cs /\ outline 12 floor_cs /\ edges_below 7 (map val3 floor_cs)) /\
  (number bd_top /\ powerRZ 2 500 <= val bd_top) /\ dist_to (boundary (map val3 floor_cs)) (val3 cut_s) 3.
Proof. exact (conj moderate_12 (conj (proj1 cut_upto) (conj floor_ok (conj top_val (floor_far cut_s (or_introl eq_refl)))))). Qed.

(** Whether a point is on the boundary. *)
Theorem c109_on_quadrilateral : forall (q : quad float) M N p e D, let cs := [q_2 q; q_0 q; q_1 q; q_3 q] in
  moderate M -> point_upto M p -> outline M cs -> edges_below N (map val3 cs) -> number e -> dist_to (boundary (map val3 cs)) (val3 p) D ->
  exists r, on_quad_boundary p q e = Ok r /\ (D + powerRZ 2 (-45) * M < val e -> r = true) /\ (val e + (N / 10000000 + powerRZ 2 (-42) * M) <= D -> r = false).
Proof. exact on_quadrilateral. Qed.
Print Assumptions c109_on_quadrilateral.
Example c109_on_quadrilateral_case : outline 12 floor_cs /\ outline 12 wall_cs /\
  dist_to (boundary (map val3 floor_cs)) (val3 cut_s) 3 /\ dist_to (boundary (map val3 wall_cs)) (val3 cut_s) 0 /\
  number 0x1p-10%float /\ val 0x1p-10%float + (7 / 10000000 + powerRZ 2 (-42) * 12) <= 3 /\ 0 + powerRZ 2 (-45) * 12 < val 0x1p-10%float /\
  on_quad_boundary cut_s bd_floor 0x1p-10%float = Ok false /\ on_quad_boundary cut_s bd_wall 0x1p-10%float = Ok true.
Proof. exact (conj (proj1 (proj2 floor_ok)) (conj (proj1 (proj2 wall_ok)) (conj (floor_far cut_s (or_introl eq_refl)) (conj (wall_near cut_s (or_introl eq_refl)) bd_on)))). Qed.
Theorem c109_on_polygon : forall cs (pg : poly float) M N p e D, make_poly cs = Ok pg ->
  moderate M -> point_upto M p -> outline M cs -> edges_below N (map val3 cs) -> number e -> dist_to (boundary (map val3 cs)) (val3 p) D ->
  exists r, on_poly_boundary p pg e = Ok r /\ (D + powerRZ 2 (-45) * M < val e -> r = true) /\ (val e + (N / 10000000 + powerRZ 2 (-42) * M) <= D -> r = false).
Proof. exact on_polygon. Qed.
Print Assumptions c109_on_polygon.
Example c109_on_polygon_case : exists pg, make_poly floor_cs = Ok pg.
Proof. exact floor_poly. Qed.

(** The length of a segment. *)
Theorem c109_length : forall M s t, moderate M -> point_upto M s -> point_upto M t ->
  let l := length_segment (mkSeg s t) in number l /\ Rabs (val l - dist (val3 s) (val3 t)) <= powerRZ 2 (-48) * M.
Proof. exact length_dbl. Qed.
Print Assumptions c109_length.
Example c109_length_case : (point_upto 12 cut_s /\ point_upto 12 cut_t) /\ dist (val3 cut_s) (val3 cut_t) = 1.
Proof. exact (conj cut_upto cut_len). Qed.

(** The constraint on the length of an intersection segment. *)
Theorem c109_length_constraint : forall (T : Trig float) top O M f1 f2 e m s t, moderate M -> point_upto M s -> point_upto M t -> number m ->
  ent_intersect_eps O (EFace f1) (EFace f2) e = Ok [PSegment s t] ->
  exists b, ent_evaluate top O (length_only e m) (EFace f1) (EFace f2) = Ok b /\
    (val m + powerRZ 2 (-48) * M <= dist (val3 s) (val3 t) -> b = true) /\ (dist (val3 s) (val3 t) + powerRZ 2 (-48) * M < val m -> b = false).
Proof. exact length_constraint. Qed.
Print Assumptions c109_length_constraint.
Example c109_length_constraint_case : forall (T : Trig float) C top, accurate T ->
  ent_intersect_eps (bd_ops C) (EFace (FQuad bd_floor)) (EFace (FQuad bd_wall)) 0x1p-10%float = Ok [PSegment cut_s cut_t] /\
  ent_evaluate top (bd_ops C) (length_only 0x1p-10%float 0x1p-10%float) (EFace (FQuad bd_floor)) (EFace (FQuad bd_wall)) = Ok true /\
  ent_evaluate top (bd_ops C) (length_only 0x1p-10%float 3%float) (EFace (FQuad bd_floor)) (EFace (FQuad bd_wall)) = Ok false.
Proof. exact (fun T C top H => conj (bd_inter T H C) (bd_length T H C top)). Qed.

(** The constraint on the distance of the intersection to the boundaries: accepted if each end of the intersection is
    either far enough from a boundary or on it (within the default tolerance), rejected if some end is neither. *)
Theorem c109_boundary_constraint : forall (T : Trig float) top O M N f1 f2 cs1 cs2 e m e1 e2 i, number top -> powerRZ 2 500 <= val top ->
  moderate M -> cornered f1 cs1 -> cornered f2 cs2 -> outline M cs1 -> outline M cs2 -> edges_below N (map val3 cs1) -> edges_below N (map val3 cs2) ->
  number m -> ent_eps (EFace f1) = Ok e1 -> ent_eps (EFace f2) = Ok e2 -> number e1 -> number e2 ->
  ent_intersect_eps O (EFace f1) (EFace f2) e = Ok [i] -> ends i <> [] -> (forall p, In p (ends i) -> point_upto M p) ->
  let slack := N / 10000000 + powerRZ 2 (-42) * M in
  exists b, ent_evaluate top O (boundary_only e m) (EFace f1) (EFace f2) = Ok b /\
    ((forall p, In p (ends i) ->
       (clear_of cs1 (val m + slack) p \/ near_to cs1 (val e1 - powerRZ 2 (-45) * M) p) /\
       (clear_of cs2 (val m + slack) p \/ near_to cs2 (val e2 - powerRZ 2 (-45) * M) p)) -> b = true) /\
    (forall p, In p (ends i) ->
       (clear_of cs1 (val e1 + slack) p /\ near_to cs1 (val m - powerRZ 2 (-45) * M) p) \/
       (clear_of cs2 (val e2 + slack) p /\ near_to cs2 (val m - powerRZ 2 (-45) * M) p) -> b = false).
Proof. exact boundary_constraint. Qed.
Print Assumptions c109_boundary_constraint.
Example c109_boundary_constraint_case : forall (T : Trig float) C, accurate T ->
  (forall p, In p [cut_s; cut_t] ->
    (clear_of floor_cs (val 1%float + (7 / 10000000 + powerRZ 2 (-42) * 12)) p \/ near_to floor_cs (val (eps_quad bd_floor) - powerRZ 2 (-45) * 12) p) /\
    (clear_of wall_cs (val 1%float + (7 / 10000000 + powerRZ 2 (-42) * 12)) p \/ near_to wall_cs (val (eps_quad bd_wall) - powerRZ 2 (-45) * 12) p)) /\
  clear_of floor_cs (val (eps_quad bd_floor) + (7 / 10000000 + powerRZ 2 (-42) * 12)) cut_s /\ near_to floor_cs (val 4%float - powerRZ 2 (-45) * 12) cut_s /\
  ent_evaluate bd_top (bd_ops C) (boundary_only 0x1p-10%float 1%float) (EFace (FQuad bd_floor)) (EFace (FQuad bd_wall)) = Ok true /\
  ent_evaluate bd_top (bd_ops C) (boundary_only 0x1p-10%float 4%float) (EFace (FQuad bd_floor)) (EFace (FQuad bd_wall)) = Ok false.
Proof. exact (fun T C H => bd_boundary T H C). Qed.
