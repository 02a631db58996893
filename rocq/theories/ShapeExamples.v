(** Examples for the shapes of geometries. *)

From Coq Require Import Reals Lra Psatz List Bool.
From Verif Require Import Base NumModel VecModel LinModel RoundModel PolyModel DistModel IntModel ShapeModel GeoSpec LinSpec RoundSpec PolySpec IntSpec ShapeSpec
  GeoLemmas MathProofs LinProofs EllProofs ArcProofs CylProofs PolyProofs PolyExamples ShapeProofs.
Import ListNotations.
Local Open Scope R_scope.

Definition oval : ell R := make_ell (mkV3 1 2 3) (mkV3 1 0 0) (mkV3 0 1 0) 3 2.
Lemma oval_ok : ell_ok oval /\ e_b oval <= e_a oval.
Proof. split; [exact ell_case|cbn; lra]. Qed.

Lemma tall_case : exists e, ell_ok e /\ e_a e < e_b e /\ on_ellipse e (mkV3 0 2 0) /\ in_disk 1 e (mkV3 0 1 0).
Proof.
  exists (make_ell (mkV3 0 0 0) (mkV3 1 0 0) (mkV3 0 1 0) 1 2). split; [|split; [cbn; lra|split]].
  - pose proof ell_case as (B & _ & _). split; [exact B|]. cbn. lra.
  - exists (PI / 2). unfold ell_at, at_coords. cbn [make_ell e_c e_maj e_min e_a e_b]. rewrite cos_PI2, sin_PI2. apply v3_eq; coords; ring.
  - exists 0, 1. cbn [make_ell e_c e_maj e_min e_a e_b]. split; [lra|]. apply v3_eq; unfold at_coords; coords; ring.
Qed.

Lemma arc_shape_case : exists c, on_ellipse oval (ell_at oval (3 * PI / 2)) /\ on_ellipse oval (ell_at oval (PI / 2)) /\
  make_arc oval (ell_at oval (3 * PI / 2)) (ell_at oval (PI / 2)) = Ok c /\ a_full c = false /\ a_s c <> a_t c.
Proof.
  destruct arc_case as (c & _ & Hm & Hf & Hne & _). exists c. repeat split; auto; eexists; reflexivity.
Qed.
(** a full ellipse that starts on the minor axis *)
Lemma full_arc_throws e : ell_ok e -> e_b e <= e_a e -> exists c, make_arc e (ell_at e (PI / 2)) (ell_at e (PI / 2)) = Ok c /\
  a_full c = true /\ shape_arc c = Throw RuntimeError.
Proof.
  intros Hok Hab. destruct (full_arc_refuted e Hok) as (c & Hm & Hf & _). exists c. split; [exact Hm|]. split; [exact Hf|].
  assert (on_ellipse e (ell_at e (PI / 2))) as Hs by (eexists; reflexivity).
  apply (full_arc_shape e _ c Hok Hab Hs Hm). destruct (make_arc_inv e Hok _ _ _ Hm) as (_ & _ & _ & _ & As & _).
  pose proof PI_RGT_0. pose proof PI2_3_2. rewrite (get_angle_at e Hok), snap_quarter in As by lra. injection As as As. rewrite <- As. lra.
Qed.
(** a full ellipse that starts on the major axis *)
Lemma full_arc_major e : ell_ok e -> e_b e <= e_a e -> exists c, make_arc e (ell_at e 0) (ell_at e 0) = Ok c /\
  represents (shape_arc c) (on_ellipse e).
Proof.
  intros Hok Hab. assert (on_ellipse e (ell_at e 0)) as Hs by (eexists; reflexivity).
  destruct (make_arc_ok e Hok _ _ Hs Hs) as [c Hm]. exists c. split; [exact Hm|].
  apply (full_arc_shape e _ c Hok Hab Hs Hm). destruct (make_arc_inv e Hok _ _ _ Hm) as (_ & _ & _ & _ & As & _).
  pose proof PI_RGT_0. rewrite (get_angle_at e Hok), snap_0 in As by lra. injection As as As. rewrite <- As. lra.
Qed.

Lemma all_planes : plane_found (fun _ => true).
Proof. intros N cs _ w _. reflexivity. Qed.
Definition penta_poly : poly R := mkPoly penta (mkPlane zero3 zero3 zero3 zero3) zero3 0 true.
Definition square_quad : quad R := make_quad (fl 1 0) (fl 1 1) (fl 0 0) (fl 0 1).
Lemma square_quad_case : convex_ccw ez (around (q_0 square_quad) (q_1 square_quad) (q_2 square_quad) (q_3 square_quad)) /\
  proper_edges (around (q_0 square_quad) (q_1 square_quad) (q_2 square_quad) (q_3 square_quad)).
Proof. exact (conj square_convex square_proper). Qed.
Definition barrel : cyl R := make_cyl_z 1 2 0.
Lemma barrel_case : cyl_ok barrel /\ 0 < e_a (c_bot barrel) /\ ell_ok (c_bot barrel).
Proof.
  destruct (make_cyl_z_spec 1 2 0 ltac:(lra) ltac:(lra)) as (Hc & _). split; [exact Hc|]. split; [cbn; lra|].
  unfold barrel, make_cyl_z. cbn [c_bot]. assert ((n0 : R) = 0) as -> by (rn; lra). assert ((n1 : R) = 1) as -> by (rn; lra).
  rewrite to_dir_x, to_dir_y. apply make_ell_ok; try lra; unfold unit3, ortho; coords; ring.
Qed.
Lemma double_corner fp : shape_poly fp (mkPoly [fl 0 0; fl 1 0; fl 1 0; fl 0 1] (mkPlane zero3 zero3 zero3 zero3) zero3 0 true) = Throw RuntimeError.
Proof. apply (poly_shape_throws _ _ (fl 1 0)); cbn; [Lia.lia|auto]. Qed.
Lemma ball_case : ball (mkV3 1 1 1) 2 (mkV3 1 2 1).
Proof.
  unfold ball, dist, norm. replace (dot _ _) with 1 by (unfold dot, psub; cbn; ring). rewrite sqrt_1. lra.
Qed.
