(** The Python functions, class by class. *)

From Coq Require Import ZArith Reals String List Bool Lra Lia.
From Verif Require Import Base NumModel VecModel LinModel RoundModel PolyModel DistModel PyBindModel
  GeoSpec LinSpec PolySpec RoundSpec DistSpec PyBindSpec PyTabSpec GeoLemmas DistProofs PyBindProofs PyBindExamples.
Import ListNotations.
Local Open Scope R_scope.

Ltac cases g := destruct g as [?|? ?|?|?|? ?|?|?|? ?|?|?|?|?|?|?|?|?|?|?|?|?|?|?|?|?|[] ?].

Lemma kinds_lemma {S} (oc : @occ R S) (g : geo R S) : class_of g <> CArc ->
  py_get_shape oc (PObj g) =
  match g, shape_type g with
  | GWrap _ _, _ => Ok g
  | _, Some k => obind (oc_shape oc g) (fun s => Ok (GWrap k s))
  | _, None => Throw TypeError
  end.
Proof. intros H. cases g; try (exfalso; apply H; reflexivity); reflexivity. Qed.

Lemma bbox_lemma {S} (oc : @occ R S) (g : geo R S) : class_of g <> CArc ->
  (has_bbox g -> py_bounding_box oc (PObj g) =
     match g with GWrap _ s => oc_bbox oc s | _ => obind (oc_shape oc g) (oc_bbox oc) end) /\
  (~ has_bbox g -> py_bounding_box oc (PObj g) = Throw TypeError).
Proof.
  intros H. split.
  - cases g; try (exfalso; apply H; reflexivity); intros K; cbn [has_bbox shape_type] in K; try (exfalso; exact K); try (exfalso; apply K; reflexivity);
      (rewrite (bbox_own oc); [|discriminate|cbn; tauto]); unfold bounding_box; cbn [get_shape_of obind]; try reflexivity;
      match goal with |- obind (obind (oc_shape oc ?h) _) _ = _ => destruct (oc_shape oc h); reflexivity end.
  - cases g; try (exfalso; apply H; reflexivity); intros K; cbn [has_bbox shape_type] in K; try reflexivity; exfalso; apply K; discriminate.
Qed.

Lemma measured_lemma {S} (oc : @occ R S) dim (g : geo R S) : (1 <= dim)%nat ->
  measured g <> Some dim -> py_dim_magnitude oc dim (PObj g) = Throw TypeError.
Proof.
  intros Hd H. destruct dim as [|[|[|[|n]]]]; [lia| | | |];
    cases g; try reflexivity; exfalso; apply H; reflexivity.
Qed.
Lemma measured_other {S} (oc : @occ R S) dim (v : pyval R S) :
  (forall g, v <> PObj g) -> py_dim_magnitude oc dim v = Throw TypeError.
Proof. intros H. destruct v; try reflexivity. exfalso. eapply H. reflexivity. Qed.

Lemma values_lemma {S} (oc : @occ R S) :
  (forall v, py_length oc (PObj (GVector v)) = Ok (norm v)) /\
  (forall s, py_length oc (PObj (GSegment s)) = Ok (dist (s_src s) (s_tgt s))) /\
  (forall c, py_length oc (PObj (GCircle c)) = Ok (2 * PI * e_a c)) /\
  (forall d, py_area oc (PObj (GDisk d)) = Ok (PI * e_a d * e_b d)) /\
  (forall a b c, py_area oc (PObj (GTriangle (make_tri a b c))) = Ok (norm (cross (psub b a) (psub c a)) / 2)) /\
  (forall q, py_area oc (PObj (GQuad q)) = Ok (q_area q)) /\
  (forall pg, py_area oc (PObj (GPolygon pg)) = poly_get_area pg) /\
  (forall c, py_area oc (PObj (GSurface c)) = Ok (2 * PI * e_a (c_bot c) * c_h c)) /\
  (forall c, py_volume oc (PObj (GCylinder c)) = Ok (PI * (e_a (c_bot c))^2 * c_h c)) /\
  (forall h, py_volume oc (PObj (GHollow h)) = Ok (PI * ((h_outer h)^2 - (e_a (h_bot h))^2) * h_h h)) /\
  (forall b, py_volume oc (PObj (GBox b)) =
     Ok ((vx (b_max b) - vx (b_min b)) * (vy (b_max b) - vy (b_min b)) * (vz (b_max b) - vz (b_min b)))) /\
  (forall s, py_volume oc (PObj (GSphere s)) = Ok (4 / 3 * PI * (sp_r s)^3)) /\
  (forall k dim s, In (k, dim) [(WEdge, 1); (WWire, 1); (WFace, 2); (WShell, 2); (WSolid, 3)]%nat ->
     py_dim_magnitude oc dim (PObj (GWrap k s)) = oc_magnitude oc k s).
Proof.
  repeat match goal with |- _ /\ _ => split end.
  - intros v. transitivity (Ok (vlen v)); [reflexivity|]. now rewrite vlen_norm.
  - intros s. transitivity (Ok (length_segment s)); [reflexivity|]. f_equal. apply seg_len_eq.
  - intros c. transitivity (Ok (length_circle c)); [reflexivity|]. f_equal.
  - intros d. reflexivity.
  - intros a b c. transitivity (Ok (t_area (make_tri a b c))); [reflexivity|]. f_equal. cbn [t_area make_tri].
    rewrite vlen_norm. assert (forall x y, vec_to x y = psub y x) as E by reflexivity. rewrite !E. rn. lra.
  - reflexivity.
  - reflexivity.
  - intros c. transitivity (Ok (surf_area c)); [reflexivity|]. f_equal.
  - intros c. transitivity (Ok (cyl_volume c)); [reflexivity|]. f_equal. unfold cyl_volume, cyl_radius. rn. ring.
  - intros h. transitivity (Ok (hollow_volume h)); [reflexivity|]. f_equal. unfold hollow_volume, hollow_inner. rn. ring.
  - reflexivity.
  - intros s. transitivity (Ok (sphere_volume s)); [reflexivity|]. f_equal. unfold sphere_volume. rn. field.
  - intros k dim s H. cbn in H.
    repeat (destruct H as [H|H]; [injection H as <- <-; reflexivity|]). contradiction H.
Qed.

Lemma point_segment_lemma {S} (oc : @occ R S) (p q : pt) (s : segment R) : s_src s <> s_tgt s ->
  py_distance oc (PObj (GPoint p)) (PObj (GPoint q)) = Ok (dist p q) /\
  exists x, py_distance oc (PObj (GPoint p)) (PObj (GSegment s)) = Ok x /\
    py_distance oc (PObj (GSegment s)) (PObj (GPoint p)) = Ok x /\
    forall d, dist_to (on_segment (s_src s) (s_tgt s)) p d ->
      x <= d <= x + dist (s_src s) (s_tgt s) / 10000000.
Proof.
  intros Hs. split.
  - transitivity (Ok (dist_points p q)); [reflexivity|]. f_equal. unfold dist_points. rewrite vlen_norm, vec_to_psub. apply dist_sym.
  - exists (dist_segment p s). split; [reflexivity|]. split; [reflexivity|]. intros d Hd.
    exact (dist_segment_bounds s p Hs d Hd).
Qed.

(** contains, class by class *)
Lemma contains_classes {S} c_abs p x b :
  (forall s, py_contains c_abs (@GSegment R S s) [PObj (GPoint p); PFloat x; PBool b] [] = Ok (seg_contains s p x b) /\
     py_contains c_abs (@GSegment R S s) [PObj (GPoint p)] [("checkIfOnLine"%string, PBool b)] = Ok (seg_contains_default s p b)) /\
  (forall e, py_contains c_abs (@GEllipse R S e) [PObj (GPoint p); PFloat x; PBool b] [] = Ok (ell_contains e p x b) /\
     py_contains c_abs (@GEllipse R S e) [PObj (GPoint p)] [("checkIfOnPlane"%string, PBool b)] = Ok (ell_contains_default e p b)) /\
  (forall c, py_contains c_abs (@GArc R S c) [PObj (GPoint p); PFloat x; PBool b] [] = arc_contains c p x b /\
     py_contains c_abs (@GArc R S c) [PObj (GPoint p)] [("checkIfOnEllipse"%string, PBool b)] = arc_contains_default c p b) /\
  (forall d, py_contains c_abs (@GDisk R S d) [PObj (GPoint p); PFloat x; PBool b] [] = Ok (disk_contains d p x b) /\
     py_contains c_abs (@GDisk R S d) [PObj (GPoint p)] [("checkIfOnEllipse"%string, PBool b)] = Ok (disk_contains_default d p b)) /\
  (forall t, py_contains c_abs (@GTriangle R S t) [PObj (GPoint p); PFloat x; PBool b] [] = Ok (tri_contains c_abs t p x b) /\
     py_contains c_abs (@GTriangle R S t) [PObj (GPoint p)] [("checkIfOnPlane"%string, PBool b)] = tri_contains_default c_abs t p b) /\
  (forall q, py_contains c_abs (@GQuad R S q) [PObj (GPoint p); PFloat x; PBool b] [] = Ok (quad_contains q p x b) /\
     py_contains c_abs (@GQuad R S q) [PObj (GPoint p)] [("checkIfOnPlane"%string, PBool b)] = Ok (quad_contains_default q p b)) /\
  (forall pg, py_contains c_abs (@GPolygon R S pg) [PObj (GPoint p); PFloat x; PBool b] [] = poly_contains pg p x b /\
     py_contains c_abs (@GPolygon R S pg) [PObj (GPoint p)] [("checkIfOnPlane"%string, PBool b)] = poly_contains_default pg p b).
Proof. repeat match goal with |- _ /\ _ => split end; intros ?; split; reflexivity. Qed.
Lemma contains_plain_classes {S} c_abs p x :
  (forall c, py_contains c_abs (@GCircle R S c) [PObj (GPoint p); PFloat x] [] = Ok (circle_contains c p x) /\
     py_contains c_abs (@GCircle R S c) [PObj (GPoint p)] [] = Ok (circle_contains_default c p)) /\
  (forall c, py_contains c_abs (@GBox R S c) [PObj (GPoint p); PFloat x] [] = Ok (box_contains c p x) /\
     py_contains c_abs (@GBox R S c) [PObj (GPoint p)] [] = Ok (box_contains_default c p)) /\
  (forall c, py_contains c_abs (@GCylinder R S c) [PObj (GPoint p); PFloat x] [] = Ok (cyl_contains c p x) /\
     py_contains c_abs (@GCylinder R S c) [PObj (GPoint p)] [] = Ok (cyl_contains_default c p)) /\
  (forall c, py_contains c_abs (@GSurface R S c) [PObj (GPoint p); PFloat x] [] = Ok (surf_contains c p x) /\
     py_contains c_abs (@GSurface R S c) [PObj (GPoint p)] [] = Ok (surf_contains_default c p)) /\
  (forall c, py_contains c_abs (@GHollow R S c) [PObj (GPoint p); PFloat x] [] = Ok (hollow_contains c p x) /\
     py_contains c_abs (@GHollow R S c) [PObj (GPoint p)] [] = Ok (hollow_contains_default c p)) /\
  (forall c, py_contains c_abs (@GSphere R S c) [PObj (GPoint p); PFloat x] [] = Ok (sphere_contains c p x) /\
     py_contains c_abs (@GSphere R S c) [PObj (GPoint p)] [] = Ok (sphere_contains_default c p)) /\
  (forall c, py_contains c_abs (@GLine R S c) [PObj (GPoint p); PFloat x] [] = Ok (line_contains c p x) /\
     py_contains c_abs (@GLine R S c) [PObj (GPoint p)] [] = Ok (line_contains_default c p)) /\
  (forall c, py_contains c_abs (@GPlane R S c) [PObj (GPoint p); PFloat x] [] = Ok (plane_contains c p x) /\
     py_contains c_abs (@GPlane R S c) [PObj (GPoint p)] [] = Ok (plane_contains c p (1 / 10000000))).
Proof. repeat match goal with |- _ /\ _ => split end; intros ?; split; reflexivity. Qed.
(** wrong arguments *)
Lemma contains_wrong {S} c_abs (g : geo R S) p args kw :
  (forall k v, py_contains c_abs g [PObj (GPoint p)] [("point"%string, v); (k, v)] = Throw TypeError) /\
  (forall v, py_contains c_abs g [PObj (GPoint p)] [("point"%string, v)] = Throw TypeError) /\
  (forall v, (forall q, v <> PObj (GPoint q)) -> py_contains c_abs g (v :: args) kw = Throw TypeError) /\
  py_contains c_abs g [] [] = Throw TypeError.
Proof.
  repeat match goal with |- _ /\ _ => split end.
  - intros k v. cases g; reflexivity.
  - intros v. cases g; reflexivity.
  - intros v Hv. assert (C : forall conv, cast (A := R) conv (TObj CPoint) v = None).
    { intros conv. destruct v as [h| | | | |]; try reflexivity. cases h; try reflexivity. exfalso. eapply Hv. reflexivity. }
    unfold py_contains, flag_contains, plain_contains, plane_contains_py, call, first_match, req, opt, bind.
    cases g; cbn [flag_default flag_eps plain_default plain_eps pr_name pr_type]; try reflexivity;
      rewrite !C; destruct (kw_get "point" kw); reflexivity.
  - cases g; reflexivity.
Qed.

(** C80: two dimensions and keywords *)
Lemma objects2 {S} (a b c d : R) (p n : pt) (v : pyval R S) r : number v r ->
  py_vector [PObj (GPoint1 a); PObj (@GPoint1 R S b)] [] = Ok (GVector1 (b - a)) /\
  py_vector [PObj (GPoint2 a b); PObj (@GPoint2 R S c d)] [] = Ok (GVector2 (c - a) (d - b)) /\
  py_vector [PObj (@GDirection1 R S a)] [] = Ok (GVector1 a) /\
  py_vector [PObj (@GDirection2 R S a b)] [] = Ok (GVector2 a b) /\
  (0 < a -> py_direction [PObj (@GVector1 R S a)] [] = Ok (GDirection1 1)) /\
  (a < 0 -> py_direction [PObj (@GVector1 R S a)] [] = Ok (GDirection1 (-1))) /\
  ((a, b) <> (0, 0) -> exists x y, py_direction [PObj (@GVector2 R S a b)] [] = Ok (GDirection2 x y) /\
     x * x + y * y = 1 /\ exists l, 0 < l /\ a = l * x /\ b = l * y) /\
  py_circle [PObj (GPoint p); PObj (@GDirection R S n)] [("radius"%string, v)] = Ok (GCircle (make_circle p n r)) /\
  py_circle [PObj (GPoint p)] [("radius"%string, v); ("normal"%string, PObj (@GDirection R S n))] = Ok (GCircle (make_circle p n r)).
Proof.
  intros Hv. apply number_py in Hv.
  repeat match goal with |- _ /\ _ => split end; try reflexivity.
  - intros Ha. transitivity (Ok (@GDirection1 R S (a / sqrt (0 + a * a)))); [reflexivity|]. do 2 f_equal.
    rewrite Rplus_0_l, sqrt_square by lra. field. lra.
  - intros Ha. transitivity (Ok (@GDirection1 R S (a / sqrt (0 + a * a)))); [reflexivity|]. do 2 f_equal.
    replace (0 + a * a) with ((- a) * (- a)) by ring. rewrite sqrt_square by lra. field. lra.
  - intros Hne. set (l := sqrt (0 + a * a + b * b)). exists (a / l), (b / l). split; [reflexivity|].
    assert (0 < 0 + a * a + b * b) as Hp.
    { destruct (Req_dec a 0) as [Ha|Ha]; [destruct (Req_dec b 0) as [Hb|Hb]; [subst; contradiction Hne; reflexivity|]|].
      - subst. assert (0 < b * b) by (apply Rsqr_pos_lt; exact Hb). lra.
      - assert (0 < a * a) by (apply Rsqr_pos_lt; exact Ha). assert (0 <= b * b) by apply Rle_0_sqr. lra. }
    assert (0 < l) as Hl by (apply sqrt_lt_R0; exact Hp).
    assert (l * l = 0 + a * a + b * b) as Hll by (apply sqrt_sqrt; lra). split.
    + replace (a / l * (a / l) + b / l * (b / l)) with ((0 + a * a + b * b) / (l * l)) by (field; lra). rewrite Hll. field. lra.
    + exists l. split; [exact Hl|]. split; field; lra.
  - destruct Hv as [->|(z & -> & ->)]; reflexivity.
  - destruct Hv as [->|(z & -> & ->)]; reflexivity.
Qed.
Lemma keywords2 {S} (u v w : pyval R S) x y z : number u x -> number v y -> number w z ->
  py_point [] [("y"%string, v); ("x"%string, u)] = Ok (GPoint2 x y) /\
  py_point [u] [("y"%string, v)] = Ok (GPoint2 x y) /\
  py_point [] [("z"%string, w); ("x"%string, u); ("y"%string, v)] = Ok (GPoint (mkV3 x y z)) /\
  py_point [u] [("z"%string, w); ("y"%string, v)] = Ok (GPoint (mkV3 x y z)) /\
  py_vector [] [("y"%string, v); ("x"%string, u)] = Ok (GVector2 x y) /\
  py_vector [] [("z"%string, w); ("x"%string, u); ("y"%string, v)] = Ok (GVector (mkV3 x y z)).
Proof.
  intros Hu%number_py Hv%number_py Hw%number_py.
  destruct Hu as [->|(zu & -> & ->)], Hv as [->|(zv & -> & ->)], Hw as [->|(zw & -> & ->)];
    repeat match goal with |- _ /\ _ => split end; reflexivity.
Qed.
