(** Intersection angles: examples and counterexamples. *)

From Coq Require PrimFloat.
From Coq Require Import Reals Lra Psatz Bool List.
From Verif Require Import Base NumModel VecModel LinModel RoundModel PolyModel DistModel IntModel AngModel
  GeoSpec LinSpec RoundSpec AngSpec GeoLemmas MathProofs LinProofs EllProofs ArcProofs CylProofs SegIntProofs AngProofs AngProofs2.
Import ListNotations.
Local Open Scope R_scope.

(** the cylinder surface of radius one around the third axis, and the plane x + z = 5 *)
Definition tube : cyl R := make_surf_z 1 10.
Definition sq2 : R := / sqrt 2.
Definition cut_ell : ell R := make_ell (mkV3 0 0 5) (mkV3 sq2 0 (- sq2)) (mkV3 0 1 0) (sqrt 2) 1.
Definition cut_face : face R := FDisk (make_ell (mkV3 0 0 5) (mkV3 sq2 0 (- sq2)) (mkV3 0 1 0) 4 4).

Lemma sq2_sq : sq2 * sq2 = / 2.
Proof. unfold sq2. rewrite <- Rinv_mult, sqrt_sqrt by lra. reflexivity. Qed.
Lemma sq2_pos : 0 < sq2.
Proof. apply Rinv_0_lt_compat, sqrt_lt_R0. lra. Qed.
Lemma sq2_mul : sqrt 2 * sq2 = 1.
Proof. unfold sq2. apply Rinv_r. apply Rgt_not_eq, sqrt_lt_R0. lra. Qed.

Lemma tube_bot : e_c (c_bot tube) = mkV3 0 0 0 /\ e_n (c_bot tube) = mkV3 0 0 1 /\ e_a (c_bot tube) = 1 /\ c_h tube = 10 /\
  e_c (c_top tube) = mkV3 0 0 10.
Proof.
  assert (unit3 (to_dir (mkV3 0 0 1) : pt)) as U by (rewrite to_dir_z; unfold unit3; coords; ring).
  assert ((nlit 0 1 : R) = 0) as Z0 by (cbn; unfold Rlit; lra).
  assert ((nlit 1 1 : R) = 1) as Z1 by (cbn; unfold Rlit; lra).
  unfold tube, make_surf_z. cbn [c_bot c_top c_h]. rewrite Z0, Z1.
  destruct (make_circle_ok (mkV3 0 0 0) (to_dir (mkV3 0 0 1)) 1 U) as (_ & E1 & E2 & E3 & _); [lra|].
  destruct (make_circle_ok (mkV3 0 0 10) (to_dir (mkV3 0 0 1)) 1 U) as (_ & F1 & _); [lra|].
  rewrite E1, E2, E3, F1, to_dir_z. repeat split; reflexivity.
Qed.
Lemma tube_ok : surf_ok tube.
Proof.
  destruct tube_bot as (E1 & E2 & E3 & E4 & E5). unfold surf_ok, cyl_ok. rewrite E1, E2, E3, E4, E5.
  split; [|lra]. split; [unfold unit3; coords; ring|]. split; [lra|]. split; [lra|]. apply v3_eq; coords; ring.
Qed.

Lemma cut_axes : unit3 (mkV3 sq2 0 (- sq2)) /\ unit3 (mkV3 0 1 0) /\ ortho (mkV3 sq2 0 (- sq2)) (mkV3 0 1 0).
Proof.
  pose proof sq2_sq. unfold unit3, ortho, dot. cbn [vx vy vz]. repeat split; nra.
Qed.
Lemma cut_normal : to_dir (cross (mkV3 sq2 0 (- sq2)) (mkV3 0 1 0)) = mkV3 sq2 0 sq2 :> pt.
Proof.
  destruct cut_axes as (U & V & O). rewrite (to_dir_of_unit _ (cross_unit _ _ U V O)). apply v3_eq; coords; ring.
Qed.
Lemma cut_ell_ok : ell_ok cut_ell.
Proof. destruct cut_axes as (U & V & O). apply make_ell_ok; try assumption; [apply sqrt_lt_R0; lra|lra]. Qed.
Lemma cut_face_ok : face_dir_ok cut_face /\ face_normal cut_face = e_n cut_ell /\ face_normal cut_face = mkV3 sq2 0 sq2.
Proof.
  assert (face_normal cut_face = mkV3 sq2 0 sq2) as E by apply cut_normal.
  split; [|split; [reflexivity|exact E]]. unfold face_dir_ok. rewrite E. pose proof sq2_sq. unfold unit3, dot. cbn [vx vy vz]. nra.
Qed.
Lemma cut_at phi : ell_at cut_ell phi = mkV3 (cos phi) (sin phi) (5 - cos phi).
Proof.
  pose proof sq2_mul as E. unfold ell_at, at_coords, cut_ell, make_ell. cbn [e_c e_maj e_min e_a e_b].
  unfold padd, pscale. cbn [vx vy vz]. 
  f_equal; [transitivity (sqrt 2 * sq2 * cos phi); [ring|rewrite E; ring]|ring|transitivity (5 - sqrt 2 * sq2 * cos phi); [ring|rewrite E; ring]].
Qed.
Lemma cut_radial phi : radial tube (ell_at cut_ell phi) (mkV3 (cos phi) (sin phi) 0).
Proof.
  destruct tube_bot as (E1 & E2 & _). unfold radial. rewrite E1, E2, cut_at. split; [coords; ring|].
  exists (5 - cos phi). apply v3_eq; coords; ring.
Qed.
Lemma circle_norm phi : norm (mkV3 (cos phi) (sin phi) 0) = 1.
Proof. apply norm_unit. unfold unit3, dot. cbn [vx vy vz]. pose proof (sin2_cos2 phi) as E. unfold Rsqr in E. lra. Qed.
Lemma cut_on p : on_ellipse cut_ell p -> cyl_lateral_set tube p.
Proof.
  intros [phi ->]. destruct tube_bot as (E1 & E2 & E3 & E4 & _). unfold cyl_lateral_set, lateral_cyl, cyl_set.
  rewrite E1, E2, E3, E4, cut_at. exists (5 - cos phi), (mkV3 (cos phi) (sin phi) 0).
  pose proof (COS_bound phi). split; [lra|]. split; [coords; ring|]. split; [apply circle_norm|]. apply v3_eq; coords; ring.
Qed.
(** the angle at the point phi of the ellipse *)
Lemma cut_angle phi t : angle_at (face_normal cut_face) tube (ell_at cut_ell phi) t <->
  0 <= t <= PI / 2 /\ cos t = sq2 * Rabs (cos phi).
Proof.
  destruct cut_face_ok as (U & _ & E). pose proof sq2_pos. pose proof (norm_unit _ U) as Nu.
  assert (forall t, angle_between (face_normal cut_face) (mkV3 (cos phi) (sin phi) 0) t <-> 0 <= t <= PI / 2 /\ cos t = sq2 * Rabs (cos phi)) as H1.
  { intros x. unfold angle_between. rewrite Nu, circle_norm, E.
    replace (dot (mkV3 sq2 0 sq2) (mkV3 (cos phi) (sin phi) 0)) with (sq2 * cos phi) by (unfold dot; cbn [vx vy vz]; ring).
    rewrite Rabs_mult, (Rabs_pos_eq sq2) by lra. rewrite !Rmult_1_r. tauto. }
  split.
  - intros [w [W A]]. apply H1. rewrite (radial_char tube _ _ (proj1 (proj1 tube_ok)) (cut_radial phi)).
    rewrite <- (radial_char tube _ _ (proj1 (proj1 tube_ok)) W). exact A.
  - intros A. exists (mkV3 (cos phi) (sin phi) 0). split; [apply cut_radial|apply H1, A].
Qed.

Lemma ellipse_case : face_dir_ok cut_face /\ surf_ok tube /\ ell_ok cut_ell /\
  face_normal cut_face = e_n cut_ell /\ (forall p, on_ellipse cut_ell p -> cyl_lateral_set tube p) /\
  int_angle 100 (GFace cut_face) (GSurf tube) (PcEll cut_ell) = Ok (PI / 4).
Proof.
  destruct cut_face_ok as (F1 & F2 & _). split; [exact F1|]. split; [exact tube_ok|]. split; [exact cut_ell_ok|].
  split; [exact F2|]. split; [exact cut_on|].
  pose proof PI_RGT_0. pose proof PI_4.
  destruct (surf_ellipse_angle 100 cut_face tube cut_ell) as (th & E & (p & [phi ->] & Ha) & Hb);
    [lra|exact F1|exact tube_ok|exact cut_ell_ok|left; exact F2|exact cut_on|].
  rewrite E. f_equal. apply Rle_antisym.
  - apply (Hb (ell_at cut_ell 0)); [eexists; reflexivity|]. apply cut_angle. split; [lra|].
    rewrite cos_PI4, cos_0, Rabs_R1. unfold sq2. lra.
  - apply cut_angle in Ha. destruct Ha as [Ra Ea].
    destruct (Rle_lt_dec (PI / 4) th) as [|L]; [assumption|].
    assert (cos (PI / 4) < cos th) as C by (apply cos_decreasing_1; lra).
    rewrite cos_PI4, Ea in C. pose proof (Rabs_le (cos phi) 1 (COS_bound phi)). pose proof sq2_pos.
    unfold sq2 in *. nra.
Qed.

(** an arc: the smallest angle is not at one of the five sample points *)
Lemma unsnapped_5quarter : unsnapped (5 * (PI / 4)).
Proof.
  assert (cos (5 * (PI / 4)) = - sq2 /\ sin (5 * (PI / 4)) = - sq2) as [E1 E2].
  { replace (5 * (PI / 4)) with (PI / 4 + PI) by field. rewrite neg_cos, neg_sin, cos_PI4, sin_PI4. unfold sq2. split; lra. }
  assert (1 / 10 ^ 7 <= sq2).
  { pose proof sq2_sq. pose proof sq2_pos. assert (1 / 2 <= sq2) by nra. lra. }
  unfold unsnapped. rewrite E1, E2, Rabs_Ropp, Rabs_pos_eq by (pose proof sq2_pos; lra). split; right; lra.
Qed.
Lemma cut_arc : exists a, make_arc cut_ell (ell_at cut_ell (PI / 2)) (ell_at cut_ell (5 * (PI / 4))) = Ok a /\
  a_ell a = cut_ell /\ a_s a = PI / 2 /\ a_t a = 5 * (PI / 4).
Proof.
  pose proof PI_RGT_0 as HP. pose proof cut_ell_ok as Hok.
  assert (on_ellipse cut_ell (ell_at cut_ell (PI / 2))) as Hs by (eexists; reflexivity).
  assert (on_ellipse cut_ell (ell_at cut_ell (5 * (PI / 4)))) as Ht by (eexists; reflexivity).
  destruct (make_arc_ok _ Hok _ _ Hs Ht) as [c Hm]. exists c. split; [exact Hm|].
  destruct (make_arc_inv _ Hok _ _ _ Hm) as (Ee & _ & _ & Hf & _). split; [exact Ee|].
  assert (a_full c = false) as F.
  { destruct (a_full c); [|reflexivity]. exfalso. destruct Hf as [Hf _]. specialize (Hf eq_refl). revert Hf.
    apply Rle_not_lt. rewrite !cut_at. unfold dist.
    assert (sin (5 * (PI / 4)) = - sq2) as E2.
    { replace (5 * (PI / 4)) with (PI / 4 + PI) by field. rewrite neg_sin, sin_PI4. unfold sq2. lra. }
    assert (cos (5 * (PI / 4)) = - sq2) as E1.
    { replace (5 * (PI / 4)) with (PI / 4 + PI) by field. rewrite neg_cos, cos_PI4. unfold sq2. lra. }
    rewrite E1, E2, cos_PI2, sin_PI2. pose proof sq2_pos. pose proof sq2_sq.
    assert (sqrt 2 <= 2) as S2. { rewrite <- (sqrt_square 2) at 2 by lra. apply sqrt_le_1; lra. }
    assert (0 < sqrt 2) by (apply sqrt_lt_R0; lra).
    change (e_a cut_ell) with (sqrt 2). apply Rle_trans with (sqrt 1); [rewrite sqrt_1; rewrite ?kk_eq; unfold kk; lra|].
    unfold norm. apply sqrt_le_1; [lra|apply dot_nonneg|].
    unfold dot, psub. cbn [vx vy vz]. nra. }
  destruct (arc_ends _ Hok (PI / 2) (5 * (PI / 4)) c ltac:(lra) ltac:(lra) unsnapped_quarter unsnapped_5quarter Hm F) as (Es & Et & _).
  split; assumption.
Qed.

Lemma arc_angle_refuted top : PI / 2 <= top -> exists a theta tau t,
  make_arc cut_ell (ell_at cut_ell (PI / 2)) (ell_at cut_ell (5 * (PI / 4))) = Ok a /\
  (forall tau, cyl_lateral_set tube (arc_at (a_ell a) (a_s a) (a_t a) tau)) /\
  int_angle top (GFace cut_face) (GSurf tube) (PcArc a) = Ok theta /\
  0 <= tau <= 1 /\ angle_at (face_normal cut_face) tube (arc_at (a_ell a) (a_s a) (a_t a) tau) t /\ t < theta.
Proof.
  intros Ht. destruct cut_arc as (a & Hm & Ee & Es & Et). pose proof PI_RGT_0 as HP.
  assert (forall tau, cyl_lateral_set tube (arc_at (a_ell a) (a_s a) (a_t a) tau)) as Hon.
  { intros tau. rewrite Ee. apply cut_on. eexists. reflexivity. }
  destruct (surf_arc_angle top cut_face tube a) as (th & E & (p & (tau & Hin & ->) & Ha) & _).
  - exact Ht.
  - apply cut_face_ok.
  - exact tube_ok.
  - rewrite Ee. exact cut_ell_ok.
  - intros t _. apply Hon.
  - exists a, th, (2 / 3), (PI / 4). split; [exact Hm|]. split; [exact Hon|]. split; [exact E|]. split; [lra|].
    rewrite Ee, Es, Et in *. unfold arc_at in *. destruct (Rlt_dec (PI / 2) (5 * (PI / 4))) as [|C]; [|exfalso; lra].
    split.
    + apply cut_angle. replace (PI / 2 + (5 * (PI / 4) - PI / 2) * (2 / 3)) with PI by field.
      rewrite cos_PI, Rabs_m1, cos_PI4. split; [lra|]. unfold sq2. lra.
    + apply cut_angle in Ha. destruct Ha as [Ra Ea]. set (phi := PI / 2 + _) in Ea.
      assert (sin phi <> 0) as Sn.
      { cbn in Hin. destruct Hin as [<-|[<-|[<-|[<-|[<-|[]]]]]]; unfold phi.
        - apply Rgt_not_eq, sin_gt_0; lra.
        - apply Rgt_not_eq, sin_gt_0; lra.
        - apply Rgt_not_eq, sin_gt_0; lra.
        - apply Rlt_not_eq, sin_lt_0; lra.
        - apply Rlt_not_eq, sin_lt_0; lra. }
      assert (Rabs (cos phi) < 1) as C1.
      { pose proof (sin2_cos2 phi) as Q. unfold Rsqr in Q. apply Rabs_def1; nra. }
      destruct (Rlt_le_dec (PI / 4) th) as [|L]; [assumption|]. exfalso.
      assert (cos (PI / 4) <= cos th) as C2 by (apply cos_decr_1; lra).
      rewrite cos_PI4, Ea in C2. pose proof sq2_pos as SP. unfold sq2 in C2, SP. nra.
Qed.

(** * The derivatives are evaluated at the distance instead of the first parameter *)
Definition wall : face R := FDisk (make_ell (mkV3 0 1 0) (mkV3 1 0 0) (mkV3 0 0 (-1)) 1 1).
Definition wall_shape : surface R := unit_cyl_surface (fun _ => PI / 2).
Definition wall_point : pt := mkV3 0 1 0.
Lemma wall_normal : face_normal wall = mkV3 0 1 0.
Proof.
  assert (unit3 (mkV3 1 0 0)) as U by (unfold unit3; coords; ring).
  assert (unit3 (mkV3 0 0 (-1))) as V by (unfold unit3; coords; ring).
  assert (ortho (mkV3 1 0 0) (mkV3 0 0 (-1))) as O by (coords; ring).
  unfold wall, face_normal, make_ell. cbn [e_n]. rewrite (to_dir_of_unit _ (cross_unit _ _ U V O)). apply v3_eq; coords; ring.
Qed.
Lemma wall_shape_ok : shape_ok wall_shape (fun p => p = wall_point) (fun p => mkV3 (vx p) (vy p) 0).
Proof.
  intros p ->. exists (PI / 2), 0. split; [reflexivity|]. cbn. rewrite cos_PI2, sin_PI2.
  unfold wall_point. cbn [vx vy vz]. split; [unfold det3; cbn [vx vy vz]; lra|]. split; coords; ring.
Qed.
Lemma d1_refuted top : exists theta,
  int_angle top (GFace wall) (GShape wall_shape) (PcPoint wall_point) = Ok theta /\ theta = PI / 2 /\
  face_dir_ok wall /\
  shape_ok wall_shape (fun p => p = wall_point) (fun p => mkV3 (vx p) (vy p) 0) /\
  angle_between (face_normal wall) (mkV3 (vx wall_point) (vy wall_point) 0) 0.
Proof.
  pose proof PI_RGT_0 as HP.
  assert (unit3 (mkV3 0 1 0)) as U1 by (unfold unit3; coords; ring).
  exists (plane_angle (face_plane wall) (plane_pn wall_point (to_dir (cross (mkV3 (- sin 0) (cos 0) 0) (mkV3 0 0 1))))).
  assert (cross (mkV3 (- sin 0) (cos 0) 0) (mkV3 0 0 1) = mkV3 1 0 0 :> pt) as E by (rewrite sin_0, cos_0; apply v3_eq; coords; ring).
  split; [reflexivity|]. split.
  - rewrite E. assert (unit3 (mkV3 1 0 0)) as U by (unfold unit3; coords; ring). rewrite (to_dir_of_unit _ U).
    apply plane_angle_right.
    + rewrite face_plane_normal, wall_normal. exact U1.
    + exact U.
    + rewrite face_plane_normal, wall_normal. cbn [plane_pn pl_n]. coords. ring.
  - split; [unfold face_dir_ok; rewrite wall_normal; exact U1|]. split; [exact wall_shape_ok|].
    rewrite wall_normal. unfold wall_point. cbn [vx vy vz]. split; [lra|]. rewrite cos_0, (norm_unit _ U1).
    replace (dot (mkV3 0 1 0) (mkV3 0 1 0)) with 1 by (coords; ring). rewrite Rabs_R1. ring.
Qed.

(** * Double precision *)
Definition plane111 : plane PrimFloat.float :=
  plane_pn (mkV3 PrimFloat.zero PrimFloat.zero PrimFloat.zero) (to_dir (mkV3 PrimFloat.one PrimFloat.one PrimFloat.one)).
Lemma cos111 : PrimFloat.ltb PrimFloat.one (plane_cos plane111 plane111) = true.
Proof. vm_compute. reflexivity. Qed.
Lemma angle_nan (T : Trig PrimFloat.float) :
  (forall x, PrimFloat.ltb PrimFloat.one x = true -> nacos x = PrimFloat.nan) ->
  plane_angle plane111 plane111 = PrimFloat.nan.
Proof. intros Ha. unfold plane_angle. apply Ha, cos111. Qed.

(** * Further examples *)
Lemma point_case : cyl_lateral_set tube (mkV3 1 0 4).
Proof.
  apply cut_on. exists 0. rewrite cut_at, cos_0, sin_0. f_equal; ring.
Qed.
Lemma flat_case : flat (mkSurf (fun _ _ : R => (mkV3 1 0 0, mkV3 0 1 0)) (fun p => (0, (vx p, vy p)))) /\
  shape_ok (mkSurf (fun _ _ : R => (mkV3 1 0 0, mkV3 0 1 0)) (fun p => (0, (vx p, vy p)))) (fun p => vz p = 0) (fun _ => mkV3 0 0 1).
Proof.
  split; [intros u v u' v'; reflexivity|]. intros p _. exists (vx p), (vy p). split; [reflexivity|]. cbn.
  split; [unfold det3; cbn [vx vy vz]; lra|]. split; coords; ring.
Qed.
Lemma segment_case : let s := mkSeg (mkV3 1 0 4) (mkV3 1 0 6) in
  cyl_lateral_set tube (s_src s) /\ on_line (s_src s) (e_n (c_bot tube)) (s_tgt s).
Proof.
  cbn zeta. cbn [s_src s_tgt]. split; [exact point_case|]. destruct tube_bot as (_ & E & _). rewrite E.
  exists 2. apply v3_eq; coords; ring.
Qed.
Lemma pieces_case : Forall2 (fun i x => int_angle 100 (GFace cut_face) (GSurf tube) i = Ok x)
  [PcEll cut_ell] [PI / 4] /\ PI / 4 <= 100.
Proof.
  split; [constructor; [apply ellipse_case|constructor]|]. pose proof PI_4. lra.
Qed.
Lemma plane_case : let p := plane_pn (mkV3 0 0 0) (mkV3 0 0 1) : plane R in let q := plane_pn (mkV3 0 0 0) (mkV3 (3/5) 0 (4/5)) in
  unit3 (pl_n p) /\ unit3 (pl_n q) /\ cos (plane_angle p q) = 4 / 5.
Proof.
  intros p q. assert (unit3 (pl_n p)) as U by (unfold unit3, p; cbn [plane_pn pl_n]; coords; lra).
  assert (unit3 (pl_n q)) as V by (unfold unit3, q; cbn [plane_pn pl_n]; coords; lra).
  split; [exact U|]. split; [exact V|]. destruct (plane_angle_spec p q U V) as [_ E].
  rewrite (norm_unit _ U), (norm_unit _ V) in E. rewrite !Rmult_1_r in E. rewrite E. unfold p, q. cbn [plane_pn pl_n].
  replace (dot _ _) with (4 / 5) by (coords; lra). apply Rabs_pos_eq. lra.
Qed.

Lemma arc_case : face_dir_ok cut_face /\ surf_ok tube /\ exists a, make_arc cut_ell (ell_at cut_ell (PI / 2)) (ell_at cut_ell (5 * (PI / 4))) = Ok a /\
  ell_ok (a_ell a) /\ forall tau, cyl_lateral_set tube (arc_at (a_ell a) (a_s a) (a_t a) tau).
Proof.
  split; [apply cut_face_ok|]. split; [exact tube_ok|]. destruct cut_arc as (a & Hm & Ee & _). exists a. split; [exact Hm|]. rewrite Ee.
  split; [exact cut_ell_ok|]. intros tau. apply cut_on. eexists. reflexivity.
Qed.
