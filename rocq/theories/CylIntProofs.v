(** Proofs about the intersections of lateral cylinder surfaces with planar faces. *)

From Coq Require Import Reals Lra Lia Psatz Nsatz List Bool ZArith.
From Verif Require Import Base NumModel VecModel LinModel RoundModel PolyModel DistModel IntModel AngModel CylIntModel
  GeoSpec LinSpec RoundSpec PolySpec IntSpec AngSpec CylIntSpec
  GeoLemmas MathProofs LinProofs BoxProofs EllProofs ArcProofs CylProofs QuadProofs SegIntProofs SegIntProofs2 IntProofs FaceIntProofs.
Import ListNotations.
Local Open Scope R_scope.

(** * The ellipse of the plane on the unbounded surface *)
Lemma unbounded_iff (c : cyl R) x : cyl_ok c ->
  (unbounded c x <-> norm (axw (e_c (c_bot c)) (e_n (c_bot c)) x) = e_a (c_bot c)).
Proof.
  intros (Hn & _). unfold unbounded. split.
  - intros (z & w & Ho & Hr & E). destruct (ax_unique _ _ Hn z w x Ho E) as [_ ->]. exact Hr.
  - intros E. exists (axz (e_c (c_bot c)) (e_n (c_bot c)) x), (axw (e_c (c_bot c)) (e_n (c_bot c)) x).
    split; [apply ax_ortho, Hn|]. split; [exact E|]. apply ax_split.
Qed.

(** the offset from the axis, relative to a point of the axis *)
Lemma offset_sq (c d p x : pt) : unit3 d -> on_line c d p ->
  dot (axw c d x) (axw c d x) = dot (psub x p) (psub x p) - dot (psub x p) d * dot (psub x p) d.
Proof.
  intros Hd [t ->]. unfold unit3 in Hd. unfold axw, axz. set (v := psub x c).
  replace (psub x (padd c (pscale (dot d v) d))) with (psub v (pscale (dot d v) d)) by (unfold v; apply v3_eq; coords; ring).
  replace (psub x (padd c (pscale t d))) with (psub v (pscale t d)) by (unfold v; apply v3_eq; coords; ring).
  clearbody v.
  transitivity (dot v v - 2 * dot d v * dot d v + dot d v * dot d v * dot d d); [coords; ring|].
  transitivity (dot v v - 2 * t * dot d v + t * t * dot d d - (dot d v - t * dot d d) * (dot d v - t * dot d d)); [|coords; ring].
  rewrite Hd. ring.
Qed.
Lemma norm_eq_sq (w : pt) r : 0 < r -> (norm w = r <-> dot w w = r * r).
Proof.
  intros Hr. split; intros H.
  - rewrite <- norm_sq, H. reflexivity.
  - unfold norm. rewrite H. apply sqrt_square. lra.
Qed.

(** an ellipse in the plane, centered on the axis, is the section if its equation is that of the surface *)
Lemma section_char (c : cyl R) (f : face R) (e : ell R) : cyl_ok c -> 0 < e_a (c_bot c) -> ell_ok e ->
  plane_pts (face_plane f) (e_c e) -> on_line (e_c (c_bot c)) (e_n (c_bot c)) (e_c e) ->
  (forall v, dot (pl_n (face_plane f)) v = 0 <-> dot v (e_n e) = 0) ->
  (forall x y, (x / e_a e) ^ 2 + (y / e_b e) ^ 2 = 1 <->
     x * x + y * y - (x * dot (e_maj e) (e_n (c_bot c)) + y * dot (e_min e) (e_n (c_bot c))) ^ 2 = e_a (c_bot c) * e_a (c_bot c)) ->
  section_of c f e.
Proof.
  intros Hc Hr He Hp Hl Hn Hq. split; [exact He|]. intros x.
  pose proof Hc as (Ud & _). set (d := e_n (c_bot c)) in *. set (p := e_c e) in *.
  rewrite (unbounded_iff c x Hc), (norm_eq_sq _ _ Hr). fold d. rewrite (offset_sq _ _ _ x Ud Hl). fold p.
  rewrite (on_ellipse_char e He). unfold quad_form. rewrite Hq. fold p.
  assert (plane_pts (face_plane f) x <-> dot (psub x p) (e_n e) = 0) as ->.
  { rewrite <- Hn. unfold plane_pts, on_plane in *. set (n := pl_n (face_plane f)) in *. set (s := pl_sup (face_plane f)) in *.
    replace (dot n (psub x s)) with (dot n (psub x p) + dot n (psub p s)) by (clear; coords; ring). rewrite Hp. split; intros; lra. }
  set (v := psub x p). set (u1 := e_maj e) in *. set (u2 := e_min e) in *.
  destruct He as [Hb _]. fold u1 u2 in Hb. 
  assert (dot v (e_n e) = 0 -> dot v v - dot v d * dot v d =
    dot v u1 * dot v u1 + dot v u2 * dot v u2 - (dot v u1 * dot u1 d + dot v u2 * dot u2 d) ^ 2) as K.
  { intros Z. pose proof (basis_coords u1 u2 (e_n e) v Hb) as E. rewrite Z in E.
    set (a := dot v u1) in *. set (b := dot v u2) in *. clearbody a b.
    destruct Hb as (H1 & H2 & _ & H3 & _). unfold unit3, ortho in *. rewrite E.
    transitivity (a * a * dot u1 u1 + 2 * a * b * dot u1 u2 + b * b * dot u2 u2 - (a * dot u1 d + b * dot u2 d) ^ 2).
    - clear. coords. ring.
    - rewrite H1, H2, H3. ring. }
  split; intros [Z Q]; (split; [exact Z|]); specialize (K Z); lra.
Qed.

Lemma same_normal (n : pt) : forall v, dot n v = 0 <-> dot v n = 0.
Proof. intros v. rewrite dot_comm. tauto. Qed.

(** orthogonal faces *)
Lemma ellipse_across K c f L eps : tube_ok c -> unit3 (pl_n (face_plane f)) -> across c f ->
  exists e, inf_ellipse K c f L eps = Ok (Some e) /\ section_of c f e /\ framed c f e /\ rim_axes c e.
Proof.
  intros (Hc & He & Hb) Un Hp. pose proof Hc as (Ud & _). pose proof (ea _ He) as Hr.
  unfold inf_ellipse, lies_across, cyl_dir.
  rewrite (gp_parallel_true _ _ (unit3_nonzero _ Un) Hp). eexists. split; [reflexivity|].
  unfold across in Hp. destruct Hp as (k & Hk & Ed).
  assert (k * k = 1) as Hkk.
  { unfold unit3 in *. rewrite Ed in Ud. revert Ud Un. generalize (pl_n (face_plane f)). clear. intros n A B.
    replace (dot (pscale k n) (pscale k n)) with (k * k * dot n n) in A by (coords; ring). rewrite B in A. lra. }
  pose proof He as ((B1 & B2 & B3 & B4 & B5 & B6 & B7) & _ & _).
  assert (ell_ok (make_ell (plane_proj (face_plane f) (s_src (cyl_axis c))) (e_maj (c_bot c)) (e_min (c_bot c)) (cyl_radius c) (cyl_radius c))) as Hok
    by (apply make_ell_ok; assumption).
  assert (Hnd : Rabs (dot (pl_n (face_plane f)) (e_n (c_bot c))) = 1).
  { rewrite Ed. unfold unit3 in Un. revert Un. generalize (pl_n (face_plane f)). intros n E.
    replace (dot n (pscale k n)) with (k * dot n n) by (clear; coords; ring). rewrite E. unfold Rabs. destruct (Rcase_abs (k * 1)); nra. }
  enough (section_of c f (make_ell (plane_proj (face_plane f) (s_src (cyl_axis c))) (e_maj (c_bot c)) (e_min (c_bot c)) (cyl_radius c) (cyl_radius c)) /\
    plane_pts (face_plane f) (plane_proj (face_plane f) (s_src (cyl_axis c))) /\
    line_pts (axis_line c) (plane_proj (face_plane f) (s_src (cyl_axis c)))) as (Q1 & Q2 & Q3).
  { split; [exact Q1|]. unfold framed, rim_axes, make_ell; cbn [e_c e_maj e_min e_n e_a e_b]. rewrite Hnd. unfold cyl_radius.
    repeat match goal with |- _ /\ _ => split end; try assumption; try reflexivity; [|lra].
    apply to_dir_of_unit, cross_unit; assumption. }
  match goal with |- _ /\ ?P => assert P as HPP end.
  { split.
  - apply (plane_proj_on (face_plane f) _ Un).
  - rewrite plane_proj_eq. cbn [cyl_axis s_src]. unfold line_pts, axis_line. cbn [l_sup l_dir]. rewrite Ed.
    set (n := pl_n (face_plane f)) in *. set (q := e_c (c_bot c)).
    match goal with |- on_line _ _ (padd q (pscale ?m n)) => exists (m * k); set (m' := m); clearbody m' end.
    revert Hkk. clear. intros Hkk. apply v3_eq; coords; nsatz. }
  split; [|exact HPP].
  apply section_char; try assumption; unfold make_ell; cbn [e_c e_maj e_min e_n e_a e_b].
  - apply (plane_proj_on (face_plane f) _ Un).
  - rewrite plane_proj_eq. cbn [cyl_axis s_src]. rewrite Ed.
    set (n := pl_n (face_plane f)) in *. set (q := e_c (c_bot c)).
    match goal with |- on_line _ _ (padd q (pscale ?m n)) => exists (m * k); set (m' := m); clearbody m' end.
    revert Hkk. clear. intros Hkk. apply v3_eq; coords; nsatz.
  - intros v. rewrite (to_dir_of_unit _ (cross_unit _ _ B1 B2 B4)).
    assert (cross (e_maj (c_bot c)) (e_min (c_bot c)) = e_n (c_bot c)) as ->.
    { apply psub_zero. apply (basis_complete _ _ _ _ (proj1 He)).
      - transitivity (dot (cross (e_maj (c_bot c)) (e_min (c_bot c))) (e_maj (c_bot c)) - dot (e_maj (c_bot c)) (e_n (c_bot c))); [clear; coords; ring|].
        unfold ortho in B5. rewrite B5, (cross_ortho_l _ _ : dot _ _ = 0). ring.
      - transitivity (dot (cross (e_maj (c_bot c)) (e_min (c_bot c))) (e_min (c_bot c)) - dot (e_min (c_bot c)) (e_n (c_bot c))); [clear; coords; ring|].
        unfold ortho in B6. rewrite B6, (cross_ortho_r _ _ : dot _ _ = 0). ring.
      - transitivity (det3 (e_maj (c_bot c)) (e_min (c_bot c)) (e_n (c_bot c)) - dot (e_n (c_bot c)) (e_n (c_bot c))); [clear; coords; ring|].
        unfold unit3 in B3. rewrite B7, B3. ring. }
    rewrite Ed. set (n := pl_n (face_plane f)).
    replace (dot v (pscale k n)) with (k * dot n v) by (clear; coords; ring).
    split; intros E; [rewrite E; ring|]. apply Rmult_integral in E. tauto.
  - intros x y. unfold ortho in B5, B6. rewrite B5, B6. unfold cyl_radius in *. set (r := e_a (c_bot c)) in *.
    replace ((x / r) ^ 2 + (y / r) ^ 2) with ((x * x + y * y) / (r * r)) by (field; lra).
    split; intros E.
    + assert (x * x + y * y = (x * x + y * y) / (r * r) * (r * r)) as -> by (field; lra). rewrite E. ring.
    + replace (x * x + y * y) with (r * r) by lra. field. lra.
Qed.

(** oblique faces *)
Lemma unit_dot_bound (n d : pt) : unit3 n -> unit3 d -> -1 <= dot n d <= 1.
Proof. intros Hn Hd. pose proof (cauchy n d) as C. unfold unit3 in *. rewrite Hn, Hd in C. nra. Qed.
Lemma angle_units (n d : pt) : unit3 n -> unit3 d -> angle n d = acos (dot n d).
Proof. intros Hn Hd. unfold angle. rewrite !norm_unit by assumption. f_equal. field. Qed.
Lemma cos_angle (n d : pt) : unit3 n -> unit3 d -> cos (angle n d) = dot n d.
Proof. intros Hn Hd. rewrite angle_units by assumption. apply cos_acos, unit_dot_bound; assumption. Qed.

Lemma to_dir_pos (k : R) (v : pt) : 0 < k -> v <> zero3 -> to_dir (pscale k v) = to_dir v.
Proof.
  intros Hk Hv. assert (pscale k v <> zero3) as Hkv.
  { intros E. apply Hv. apply dot_zero. assert (k * k * dot v v = 0) as Z.
    { transitivity (dot (pscale k v) (pscale k v)); [clear; coords; ring|rewrite E; clear; coords; ring]. }
    apply Rmult_integral in Z. destruct Z as [Z|Z]; [nra|exact Z]. }
  rewrite !to_dir_scale by assumption. rewrite scale_norm by lra. pose proof (norm_pos v Hv).
  apply v3_eq; unfold pscale; cbn [vx vy vz]; field; lra.
Qed.

Lemma ellipse_slanted K c f L eps : tube_ok c -> unit3 (pl_n (face_plane f)) -> plane_pts (face_plane f) (face_center f) ->
  slanted c f -> axis_met K c f -> 0 < L -> 0 < eps ->
  exists e, inf_ellipse K c f L eps = Ok (Some e) /\ section_of c f e /\ framed c f e /\ slope_axes c f e.
Proof.
  intros (Hc & He & Hb) Un Hp [Ho Hl] Hm HL Heps. pose proof Hc as (Ud & Hh & _). pose proof (ea _ He) as Hr.
  unfold inf_ellipse, lies_across, lies_along, cyl_dir.
  rewrite (gp_parallel_false _ _ Ho).
  assert (gp_normal (pl_n (face_plane f)) (e_n (c_bot c)) angular = false) as ->.
  { apply not_true_iff_false. rewrite gp_normal_iff. lra. }
  cbn [negb]. rewrite gp_angle_eq.
  assert (plane_line K (face_plane f) (seg_line (cyl_axis c)) eps = plane_line K (face_plane f) (axis_line c) eps) as ->.
  { f_equal. rewrite (cyl_seg c Hc). unfold seg_line, axis_line. rewrite (ax_dir _ _ _ Ud Hh). reflexivity. }
  assert (exists p, plane_line K (face_plane f) (axis_line c) eps = Ok (IsPoint p) /\ plane_pts (face_plane f) p /\ line_pts (axis_line c) p)
    as (p & -> & P1 & P2).
  { destruct Hm as (p & Ep & P1 & P2). exists p. split; [|auto]. unfold plane_line.
    assert (gp_normal (l_dir (axis_line c)) (pl_n (face_plane f)) angular = false) as ->.
    { apply not_true_iff_false. rewrite gp_normal_iff. cbn [axis_line l_dir].
      replace (angle (e_n (c_bot c)) (pl_n (face_plane f))) with (angle (pl_n (face_plane f)) (e_n (c_bot c))) by
        (unfold angle; rewrite dot_comm, (Rmult_comm (norm _)); reflexivity). lra. }
    cbn [negb]. rewrite Ep.
    assert (plane_contains (face_plane f) p eps = true) as ->; [|reflexivity].
    apply (plane_contains_dist _ p eps 0 Un); [|exact Heps]. split; [exists p; split; [exact P1|apply dist_self]|].
    intros. apply dist_nonneg. }
  cbn [obind]. eexists. split; [reflexivity|].
  pose proof (cos_angle _ _ Un Ud) as Hcos. pose proof (unit_dot_bound _ _ Un Ud) as Hbd.
  rewrite (angle_units _ _ Un Ud) in Hl. cbn [ncos R_trig]. rewrite Hcos. unfold oblique in Ho. rewrite (angle_units _ _ Un Ud) in Ho.
  set (n := pl_n (face_plane f)) in *. set (d := e_n (c_bot c)) in *. set (k := dot n d) in *.
  assert (ang_tol_pos : 0 < ang_tol) by (unfold ang_tol; lra).
  assert (Hk0 : k <> 0).
  { intros E. rewrite E, acos_0 in Hl. replace (PI / 2 - PI / 2) with 0 in Hl by ring. rewrite Rabs_R0 in Hl. lra. }
  assert (Hk1 : k * k < 1).
  { assert (k <> 1) by (intros E; rewrite E, acos_1 in Ho; lra).
    assert (k <> -1). { intros E. rewrite E in Ho. replace (-1) with (- (1)) in Ho by ring. rewrite acos_opp, acos_1 in Ho. lra. }
    nra. }
  set (s := sqrt (1 - k * k)). assert (Hs : 0 < s) by (apply sqrt_lt_R0; lra).
  assert (Hss : s * s = 1 - k * k) by (apply sqrt_sqrt; lra).
  set (q := psub d (pscale k n)).
  assert (Hq : dot q q = s * s).
  { rewrite Hss. unfold q. transitivity (dot d d - 2 * k * dot n d + k * k * dot n n); [clear; coords; ring|].
    fold k. unfold unit3 in *. rewrite Un, Ud. ring. }
  assert (Hq0 : q <> zero3) by (intros E; rewrite E in Hq; replace (dot zero3 zero3) with 0 in Hq by (clear; coords; ring); nra).
  assert (Hqn : norm q = s) by (apply norm_eq_sq; assumption).
  assert (vec_to (face_center f) (plane_proj (face_plane f) (vadd (face_center f) (vscale d L))) = pscale L q) as ->.
  { rewrite vec_to_psub, vadd_padd, vscale_pscale, plane_proj_eq. fold n. unfold plane_pts, on_plane in Hp. fold n in Hp.
    assert (dot n (psub (padd (face_center f) (pscale L d)) (pl_sup (face_plane f))) = L * k) as ->.
    { transitivity (dot n (psub (face_center f) (pl_sup (face_plane f))) + L * dot n d); [clear; coords; ring|]. fold k. rewrite Hp. ring. }
    unfold q. clearbody k n d. clear. apply v3_eq; coords; ring. }
  rewrite (to_dir_pos L q HL Hq0). set (maj := to_dir q).
  assert (Umaj : unit3 maj) by (apply to_dir_unit, Hq0).
  assert (Emaj : maj = pscale (/ s) q) by (unfold maj; rewrite to_dir_scale, Hqn by assumption; reflexivity).
  assert (Hnq : dot n q = 0).
  { unfold q. transitivity (dot n d - k * dot n n); [clear; coords; ring|]. unfold unit3 in Un. rewrite Un. fold k. ring. }
  assert (Omn : ortho maj n).
  { unfold ortho. rewrite Emaj. transitivity (/ s * dot n q); [clear; coords; ring|]. rewrite Hnq. ring. }
  assert (Hmd : dot maj d = s).
  { rewrite Emaj. transitivity (/ s * (dot d d - k * dot n d)); [unfold q; clear; coords; ring|].
    fold k. unfold unit3 in Ud. rewrite Ud. rewrite <- Hss. field. lra. }
  destruct (basis_from n maj Un Umaj Omn) as (_ & Umin & _ & Omm & _ & Onm & Hdet).
  set (min := to_dir (cross n maj)) in *.
  assert (Unm : unit3 (cross n maj)) by (apply cross_unit; [exact Un|exact Umaj|unfold ortho in *; rewrite dot_comm; exact Omn]).
  assert (Emin : min = cross n maj) by (apply to_dir_of_unit, Unm).
  assert (Hmin : dot min d = 0).
  { rewrite Emin, Emaj. unfold q. clear. coords. ring. }
  assert (is_right_hand maj min n = true) as ->.
  { unfold is_right_hand. rewrite box_det, Hdet. rn. apply Rltb_true. lra. }
  cbn [negb]. unfold cyl_radius. cbn [nabs ndiv R_num]. set (r := e_a (c_bot c)) in *.
  assert (Ha : 0 < Rabs (r / k)).
  { apply Rabs_pos_lt. unfold Rdiv. apply Rmult_integral_contrapositive_currified; [lra|apply Rinv_neq_0_compat, Hk0]. }
  assert (Hok : ell_ok (make_ell p maj min (Rabs (r / k)) r)) by (apply make_ell_ok; assumption).
  split.
  2: { unfold framed, slope_axes, make_ell; cbn [e_c e_maj e_min e_n e_a e_b]. unfold flat_axis. fold n d k q r. rewrite Hqn.
    repeat match goal with |- _ /\ _ => split end; try assumption; try reflexivity.
    - apply to_dir_of_unit, cross_unit; assumption.
    - unfold Rdiv. rewrite Rabs_mult, Rabs_inv. rewrite (Rabs_pos_eq r) by lra. field. apply Rabs_no_R0, Hk0. }
  apply section_char; try assumption; unfold make_ell; cbn [e_c e_maj e_min e_n e_a e_b].
  - intros v. rewrite (to_dir_of_unit _ (cross_unit _ _ Umaj Umin Omm)).
    assert (cross maj min = n) as ->; [|fold n; apply same_normal].
    rewrite Emin. transitivity (psub (pscale (dot maj maj) n) (pscale (dot maj n) maj)); [clear; apply v3_eq; coords; ring|].
    unfold ortho, unit3 in *. rewrite Umaj, Omn. clear. apply v3_eq; coords; ring.
  - fold d. rewrite Hmd, Hmin. intros x y.
    assert ((x / Rabs (r / k)) ^ 2 = (x / (r / k)) ^ 2) as ->.
    { assert (r / k <> 0) as Z by (intros Z; rewrite Z, Rabs_R0 in Ha; lra). revert Z. generalize (r / k). intros t Z.
      unfold Rabs. destruct (Rcase_abs t); [field; lra|reflexivity]. }
    fold r. replace ((x / (r / k)) ^ 2 + (y / r) ^ 2) with ((x * x * (k * k) + y * y) / (r * r)) by (field; split; lra || assumption).
    replace (x * x + y * y - (x * s + y * 0) ^ 2) with (x * x * (1 - s * s) + y * y) by ring. rewrite Hss.
    replace (1 - (1 - k * k)) with (k * k) by ring.
    split; intros E.
    + assert (x * x * (k * k) + y * y = (x * x * (k * k) + y * y) / (r * r) * (r * r)) as -> by (field; lra). rewrite E. ring.
    + rewrite E. field. lra.
Qed.

(** faces along the axis *)
Lemma ellipse_along K c f L eps : along c f -> inf_ellipse K c f L eps = Ok None.
Proof.
  intros Ha. unfold along in Ha. unfold inf_ellipse, lies_across, lies_along, cyl_dir.
  set (n := pl_n (face_plane f)) in *. set (d := e_n (c_bot c)) in *.
  assert (gp_normal n d angular = true) as -> by (apply gp_normal_iff, Ha).
  rewrite gp_parallel_false; [reflexivity|]. unfold oblique. pose proof PI2_3_2. unfold ang_tol in *.
  assert (A := Rle_abs (PI / 2 - angle n d)). assert (B := Rle_abs (- (PI / 2 - angle n d))). rewrite Rabs_Ropp in B. lra.
Qed.

(** * Arcs of wires *)
Lemma first_arc_true Es edges (m c2 : pt) eps : 0 < eps -> Forall2 projects Es edges ->
  (exists E, In E Es /\ E m) -> (forall E x, In E Es -> E x -> eps <= dist c2 x) ->
  first_arc edges m c2 eps = true.
Proof.
  intros He HF. induction HF as [|E ed Es edges [P1 P2] HF IH]; intros (E' & HE & Hm) Hfar; [destruct HE|].
  cbn [first_arc]. assert (is_close (ed c2) eps = false) as ->.
  { unfold is_close. destruct (ed c2) as [x|] eqn:D; [|reflexivity]. destruct (P2 _ _ D) as (y & Hy & ->). rn.
    apply Rltb_false. apply (Hfar E); [left; reflexivity|exact Hy]. }
  destruct (is_close (ed m) eps) eqn:Cm; [reflexivity|]. destruct HE as [<-|HE].
  - exfalso. rewrite (P1 m Hm) in Cm. cbn [is_close] in Cm. rn. apply Rltb_false in Cm. lra.
  - apply IH; [exists E'; auto|]. intros E0 x H0. apply Hfar. right. exact H0.
Qed.
Lemma first_arc_false Es edges (c1 m : pt) eps : Forall2 projects Es edges ->
  (forall E x, In E Es -> E x -> eps <= dist c1 x) -> first_arc edges c1 m eps = false.
Proof.
  intros HF. induction HF as [|E ed Es edges [P1 P2] HF IH]; intros Hfar; [reflexivity|].
  cbn [first_arc]. assert (is_close (ed c1) eps = false) as ->.
  { unfold is_close. destruct (ed c1) as [x|] eqn:D; [|reflexivity]. destruct (P2 _ _ D) as (y & Hy & ->). rn.
    apply Rltb_false. apply (Hfar E); [left; reflexivity|exact Hy]. }
  destruct (is_close (ed m) eps); [reflexivity|]. apply IH. intros E0 x H0. apply Hfar. right. exact H0.
Qed.

Lemma arc_point_at (a : arc R) tau : arc_point a tau = arc_at (a_ell a) (a_s a) (a_t a) tau.
Proof.
  unfold arc_point, arc_at, arc_delta. rewrite ell_angle_point_eq. rn. unfold Rltb.
  destruct (Rlt_dec (a_s a) (a_t a)); reflexivity.
Qed.
Lemma half_lit : nlit 1 2 = 1 / 2 :> R.
Proof. rn. lra. Qed.

Lemma proper_arc e s t : ell_ok e -> 0 <= s < 2 * PI -> 0 <= t < 2 * PI -> unsnapped s -> unsnapped t ->
  e_a e * (1 / 10 ^ 7) <= dist (ell_at e s) (ell_at e t) ->
  exists a, make_arc e (ell_at e s) (ell_at e t) = Ok a /\ a_ell a = e /\ a_s a = s /\ a_t a = t /\ a_full a = false.
Proof.
  intros He Hs Ht Us Ut Hd. destruct (make_arc_ok e He (ell_at e s) (ell_at e t)) as [a Ha]; [eexists; reflexivity..|].
  exists a. destruct (make_arc_inv e He _ _ _ Ha) as (E1 & _ & _ & Hf & _).
  assert (a_full a = false) as F. { apply not_true_iff_false. rewrite Hf. lra. }
  destruct (arc_ends e He s t a Hs Ht Us Ut Ha F) as (E2 & E3 & _). auto.
Qed.

Lemma wire_arc_ok e eps w s t : ell_ok e -> 0 < eps -> follows_arc e eps w s t ->
  exists a, wire_arc w e eps = Ok a /\ make_arc e (ell_at e s) (ell_at e t) = Ok a /\
    a_ell a = e /\ a_s a = s /\ a_t a = t /\ a_full a = false.
Proof.
  intros He Heps (Rs & Rt & Hne & Us & Ut & Hd & Htips & (Es & HF & HE) & Hfar).
  destruct (proper_arc e s t He Rs Rt Us Ut Hd) as (a & Ha & A1 & A2 & A3 & A4).
  assert (Hd' : e_a e * (1 / 10 ^ 7) <= dist (ell_at e t) (ell_at e s)) by (rewrite dist_sym; exact Hd).
  destruct (proper_arc e t s He Rt Rs Ut Us Hd') as (b & Hb & B1 & B2 & B3 & B4).
  exists a. split; [|auto 10]. unfold wire_arc.
  assert (Hm : exists E, In E Es /\ E (arc_at e s t (1 / 2))) by (apply HE; exists (1 / 2); split; [lra|reflexivity]).
  assert (Hf : forall E x, In E Es -> E x -> eps <= dist (arc_at e t s (1 / 2)) x).
  { intros E x H1 H2. apply Hfar, HE. exists E. auto. }
  destruct Htips as [[-> ->]|[-> ->]]; rewrite Ha, Hb; cbn [obind]; rewrite !arc_point_at, half_lit, A1, A2, A3, B1, B2, B3.
  - rewrite (first_arc_true Es) by assumption. reflexivity.
  - rewrite (first_arc_false Es) by assumption. reflexivity.
Qed.

(** * The pieces *)
Definition arc_of (e : ell R) (tr : track) (a : arc R) : Prop :=
  exists s t, tr = TArc s t /\ 0 <= s < 2 * PI /\ 0 <= t < 2 * PI /\ s <> t /\
    make_arc e (ell_at e s) (ell_at e t) = Ok a /\ a_ell a = e /\ a_s a = s /\ a_t a = t /\ a_full a = false.
Definition seg_of (tr : track) (sg : segment R) : Prop := exists p q, tr = TSeg p q /\ p <> q /\ sg = mkSeg p q.

Lemma follows_some e eps w tr : ell_ok e -> 0 < eps -> follows (Some e) eps w tr ->
  w_closed w = false /\ exists a, wire_arc w e eps = Ok a /\ arc_of e tr a.
Proof.
  intros He Heps [Hc H]. split; [exact Hc|]. destruct tr as [s t|p q]; [|destruct H].
  destruct (wire_arc_ok e eps w s t He Heps H) as (a & H1 & H2 & H3 & H4 & H5 & H6).
  exists a. split; [exact H1|]. exists s, t. destruct H as (R1 & R2 & R3 & _). auto 10.
Qed.
Lemma follows_none eps w tr : follows None eps w tr -> w_closed w = false /\ seg_of tr (wire_seg w).
Proof.
  intros [Hc H]. split; [exact Hc|]. destruct tr as [s t|p q]; [destruct H|]. destruct H as (Hne & E1 & E2).
  exists p, q. split; [reflexivity|]. split; [exact Hne|]. unfold wire_seg. rewrite E1, E2. reflexivity.
Qed.

Definition pieces_of (el : option (ell R)) (trs : list track) (segs : list (segment R)) (arcs : list (arc R)) : Prop :=
  match el with
  | Some e => segs = [] /\ Forall2 (arc_of e) trs arcs
  | None => arcs = [] /\ Forall2 seg_of trs segs
  end.
Definition el_ok (el : option (ell R)) : Prop := forall e, el = Some e -> ell_ok e.

Lemma parse_ok el ws trs eps : el_ok el -> 0 < eps -> Forall2 (follows el eps) ws trs ->
  exists segs arcs, parse_wires el ws eps = Ok (Some (segs, arcs)) /\ pieces_of el trs segs arcs.
Proof.
  intros Hel Heps HF. induction HF as [|w tr ws trs H HF IH]; cbn [parse_wires].
  - exists [], []. split; [reflexivity|]. destruct el; cbn; auto.
  - destruct IH as (segs & arcs & E & HP). rewrite E. destruct el as [e|].
    + destruct (follows_some e eps w tr (Hel e eq_refl) Heps H) as [-> (a & -> & Ha)]. cbn.
      exists segs, (a :: arcs). split; [reflexivity|]. destruct HP as [-> HP]. split; [reflexivity|]. constructor; assumption.
    + destruct (follows_none eps w tr H) as [-> Hs]. cbn. exists (wire_seg w :: segs), arcs. split; [reflexivity|].
      destruct HP as [-> HP]. split; [reflexivity|]. constructor; assumption.
Qed.
Lemma outer_ok el ws trs eps : el_ok el -> 0 < eps -> Forall2 (follows el eps) ws trs ->
  exists segs arcs, outer_pieces el ws eps = Ok (map PcSeg segs ++ map PcArc arcs) /\ pieces_of el trs segs arcs.
Proof.
  intros Hel Heps HF. induction HF as [|w tr ws trs H HF IH]; cbn [outer_pieces].
  - exists [], []. split; [reflexivity|]. destruct el; cbn; auto.
  - destruct IH as (segs & arcs & E & HP). rewrite E. destruct el as [e|].
    + destruct (follows_some e eps w tr (Hel e eq_refl) Heps H) as [_ (a & -> & Ha)]. cbn.
      destruct HP as [-> HP]. exists [], (a :: arcs). split; [reflexivity|]. split; [reflexivity|]. constructor; assumption.
    + destruct (follows_none eps w tr H) as [_ Hs]. cbn. destruct HP as [-> HP]. exists (wire_seg w :: segs), [].
      split; [reflexivity|]. split; [reflexivity|]. constructor; assumption.
Qed.

Lemma arc_of_pts e tr a x : arc_of e tr a -> (piece_pts (PcArc a) x <-> track_pts (Some e) tr x).
Proof. intros (s & t & -> & _ & _ & _ & _ & E1 & E2 & E3 & _). cbn. rewrite E1, E2, E3. tauto. Qed.
Lemma seg_of_pts tr sg x : seg_of tr sg -> (piece_pts (PcSeg sg) x <-> track_pts None tr x).
Proof. intros (p & q & -> & _ & ->). cbn. tauto. Qed.
Lemma forall2_ex {X Y} (P : X -> Y -> Prop) (Q : X -> Prop) (Q' : Y -> Prop) xs ys :
  Forall2 P xs ys -> (forall x y, P x y -> (Q' y <-> Q x)) -> (exists y, In y ys /\ Q' y) <-> (exists x, In x xs /\ Q x).
Proof.
  intros HF HP. induction HF as [|x y xs ys H HF IH]; [split; intros (? & [] & _)|]. specialize (HP x y H).
  split; intros (z & [<-|Hz] & HQ).
  - exists x. cbn. tauto.
  - destruct (proj1 IH) as (x' & ? & ?); [exists z; auto|]. exists x'. cbn. auto.
  - exists y. cbn. tauto.
  - destruct (proj2 IH) as (y' & ? & ?); [exists z; auto|]. exists y'. cbn. auto.
Qed.
Lemma pieces_pts el trs segs arcs x : pieces_of el trs segs arcs ->
  ((exists i, In i (map PcSeg segs ++ map PcArc arcs) /\ piece_pts i x) <-> exists tr, In tr trs /\ track_pts el tr x).
Proof.
  intros H. assert (forall (B : Type) (g : B -> apiece R) l, (exists i, In i (map g l) /\ piece_pts i x) <-> exists y, In y l /\ piece_pts (g y) x) as M.
  { intros B g l. split.
    - intros (i & Hi & Hx). apply in_map_iff in Hi. destruct Hi as (y & <- & Hy). eauto.
    - intros (y & Hy & Hx). exists (g y). split; [apply in_map, Hy|exact Hx]. }
  destruct el as [e|]; destruct H as [-> HF]; cbn [map app].
  - rewrite M. apply (forall2_ex (arc_of e)); [exact HF|]. intros tr a Ha. apply (arc_of_pts e tr a x Ha).
  - rewrite app_nil_r, M. apply (forall2_ex seg_of); [exact HF|]. intros tr a Ha. apply (seg_of_pts tr a x Ha).
Qed.

(** ** touching points *)
Lemma touch_fold c (S : pt -> Prop) eps vs : 0 < eps -> forall found,
  (forall v, In v vs -> (S v <-> surf_contains c v eps = true)) ->
  (forall v w, In v (found ++ vs) -> In w (found ++ vs) -> v = w \/ eps <= dist v w) ->
  forall x, In x (fold_left (fun found p =>
      if surf_contains c p eps && negb (existsb (fun tp => pt_eq tp p eps) found) then found ++ [p] else found) vs found)
    <-> In x found \/ (In x vs /\ S x).
Proof.
  intros Heps. induction vs as [|p vs IH]; intros found HS Hd x; cbn [fold_left]; [cbn; tauto|].
  assert (HS' : forall v, In v vs -> (S v <-> surf_contains c v eps = true)) by (intros v Hv; apply HS; right; exact Hv).
  assert (Hd' : forall v w, In v (found ++ vs) -> In w (found ++ vs) -> v = w \/ eps <= dist v w).
  { intros v w Hv Hw. apply Hd; rewrite in_app_iff in *; cbn; tauto. }
  pose proof (HS p (or_introl eq_refl)) as Hp.
  destruct (surf_contains c p eps) eqn:Es; cbn [andb].
  - assert (S p) as Sp by tauto. destruct (existsb (fun tp => pt_eq tp p eps) found) eqn:Ex; cbn [negb].
    + rewrite (IH found HS' Hd'). apply existsb_exists in Ex. destruct Ex as (tp & Htp & E).
      apply pt_eq_spec in E; [|lra]. assert (tp = p) as ->.
      { destruct (Hd tp p) as [->|C]; [rewrite in_app_iff; auto|rewrite in_app_iff; cbn; auto|reflexivity|lra]. }
      cbn. split; [tauto|]. intros [H|[[<-|H] H']]; auto.
    + rewrite (IH (found ++ [p]) HS').
      * rewrite in_app_iff. cbn. split; [|intros [H|[[<-|H] H']]; auto]. intros [[H|[<-|[]]]|H]; auto; tauto.
      * intros v w Hv Hw. apply Hd; rewrite !in_app_iff in *; cbn in *; tauto.
  - rewrite (IH found HS' Hd'). cbn. split; [tauto|]. intros [H|[[<-|H] H']]; auto. apply Hp in H'. discriminate.
Qed.
Lemma touch_ok c f eps vs : cyl_ok c -> 0 < eps -> sharp c eps (common_set c f) vs ->
  forall x, In x (touch_candidates c vs eps) <-> In x vs /\ common_set c f x.
Proof.
  intros Hc Heps [H1 H2] x. unfold touch_candidates. rewrite (touch_fold c (common_set c f) eps vs Heps); [cbn; tauto| |exact H2].
  intros v Hv. split.
  - intros [_ HL]. apply (surf_contains_all c v Hc); assumption.
  - intros E. destruct (H1 v Hv) as [H|H]; [exact H|]. exfalso.
    destruct (surf_contains_near c v eps Hc Heps E) as (q & Hq & Hd). specialize (H q Hq). lra.
Qed.

(** ** points on arcs and segments *)
Lemma on_track_arc e tr a v eps : ell_ok e -> 0 < eps -> arc_of e tr a -> track_pts (Some e) tr v -> arc_contains a v eps true = Ok true.
Proof.
  intros He Heps (s & t & -> & Rs & Rt & Hne & Hm & E1 & E2 & E3 & E4) (tau & Htau & ->).
  pose proof (arc_points e He (ell_at e s) (ell_at e t) a tau eps true) as P. rewrite arc_point_at, E1, E2, E3 in P.
  apply P; try assumption; try (eexists; reflexivity).
Qed.
Lemma off_track_arc e tr a v eps : ell_ok e -> 0 < eps -> arc_of e tr a -> off_track (Some e) eps tr v -> arc_contains a v eps true = Ok false.
Proof.
  intros He Heps (s & t & -> & Rs & Rt & Hne & Hm & E1 & E2 & E3 & E4) (phi & Hr & Hu & -> & H).
  rewrite (arc_contains_at e He a phi eps true E1 Heps Hr). f_equal. rewrite (unsnapped_snap phi Hr Hu), E2, E3.
  destruct (Rltb_spec t s) as [L|L]; destruct (Rleb_spec (s - eps) phi); destruct (Rleb_spec phi (t + eps)); cbn; try reflexivity; exfalso; lra.
Qed.
Lemma arcs_spec e trs arcs v eps : ell_ok e -> 0 < eps -> Forall2 (arc_of e) trs arcs ->
  (forall tr, In tr trs -> track_pts (Some e) tr v \/ off_track (Some e) eps tr v) ->
  exists b, on_an_arc arcs v eps = Ok b /\ (b = true <-> exists tr, In tr trs /\ track_pts (Some e) tr v).
Proof.
  intros He Heps HF. induction HF as [|tr a trs arcs H HF IH]; intros Hv; cbn [on_an_arc].
  - exists false. split; [reflexivity|]. split; [discriminate|]. intros (? & [] & _).
  - destruct IH as (b & E & Hb); [intros; apply Hv; right; assumption|]. destruct (Hv tr (or_introl eq_refl)) as [On|Off].
    + rewrite (on_track_arc e tr a v eps He Heps H On). cbn. exists true. split; [reflexivity|]. split; [|reflexivity]. intros _. exists tr. cbn. auto.
    + rewrite (off_track_arc e tr a v eps He Heps H Off). cbn. exists b. split; [exact E|]. rewrite Hb. split.
      * intros (tr' & ? & ?). exists tr'. cbn. auto.
      * intros (tr' & [<-|H'] & Ht); [|exists tr'; auto]. exfalso.
        pose proof (on_track_arc e tr a v eps He Heps H Ht) as C. rewrite (off_track_arc e tr a v eps He Heps H Off) in C. discriminate.
Qed.
Lemma segs_spec trs segs v eps : 0 < eps -> Forall2 seg_of trs segs ->
  (forall tr, In tr trs -> track_pts None tr v \/ off_track None eps tr v) ->
  (existsb (fun s => seg_contains s v eps true) segs = true <-> exists tr, In tr trs /\ track_pts None tr v).
Proof.
  intros Heps HF Hv. rewrite existsb_exists. apply (forall2_ex (fun tr s => In tr trs /\ seg_of tr s)).
  - assert (forall l l', Forall2 seg_of l l' -> incl l trs -> Forall2 (fun tr s => In tr trs /\ seg_of tr s) l l') as M.
    { intros l l' H. induction H as [|? ? ? ? ? ? IH]; intros Hi; constructor; [split; [apply Hi; left; reflexivity|assumption]|].
      apply IH. intros z Hz. apply Hi. right. exact Hz. }
    apply M; [exact HF|apply incl_refl].
  - intros tr s [Hin (p & q & -> & Hne & ->)]. cbn [track_pts].
    assert (s_src (mkSeg p q) <> s_tgt (mkSeg p q)) as Hne' by exact Hne.
    destruct (seg_dist_exists (mkSeg p q) v Hne') as [d Hd]. rewrite (seg_contains_iff (mkSeg p q) v Hne' eps d Heps Hd).
    destruct Hd as [(y & Hy & Ey) Hmin]. cbn [s_src s_tgt] in *. split.
    + intros Hlt. destruct (Hv _ Hin) as [H|H]; [exact H|]. specialize (H y Hy). lra.
    + intros H. specialize (Hmin v H). rewrite dist_self in Hmin. lra.
Qed.

Lemma isolated_ok el trs segs arcs eps vs : el_ok el -> 0 < eps -> pieces_of el trs segs arcs ->
  (forall v, In v vs -> forall tr, In tr trs -> track_pts el tr v \/ off_track el eps tr v) ->
  exists ps, isolated segs arcs vs eps = Ok ps /\
    forall x, In x ps <-> In x vs /\ ~ exists tr, In tr trs /\ track_pts el tr x.
Proof.
  intros Hel Heps HP. induction vs as [|v vs IH]; intros Hv; cbn [isolated].
  - exists []. split; [reflexivity|]. cbn. tauto.
  - destruct IH as (ps & E & Hps); [intros; apply Hv; [right|]; assumption|]. rewrite E.
    assert (exists b, on_an_arc arcs v eps = Ok b /\
      (existsb (fun s => seg_contains s v eps true) segs || b = true <-> exists tr, In tr trs /\ track_pts el tr v)) as (b & -> & Hb).
    { destruct el as [e|]; destruct HP as [-> HF].
      - destruct (arcs_spec e trs arcs v eps (Hel e eq_refl) Heps HF) as (b & -> & Hb); [apply Hv; left; reflexivity|]. exists b. auto.
      - exists false. split; [reflexivity|]. rewrite orb_false_r. apply segs_spec; auto. apply Hv. left. reflexivity. }
    cbn [obind]. eexists. split; [reflexivity|]. intros x. rewrite <- negb_orb.
    destruct (existsb (fun s => seg_contains s v eps true) segs || b); cbn [negb].
    + rewrite Hps. cbn. split; [tauto|]. intros [[<-|H] H']; [|tauto]. exfalso. apply H', Hb. reflexivity.
    + cbn. rewrite Hps. split.
      * intros [<-|[H H']]; [|tauto]. split; [auto|]. intros H. apply Hb in H. discriminate.
      * intros [[<-|H] H']; auto.
Qed.

(** ** the result *)
Lemma covers_list (is : list (apiece R)) (S : pt -> Prop) : (forall i, In i is -> i <> PcEmpty) ->
  (forall x, S x <-> exists i, In i is /\ piece_pts i x) ->
  covers (match is with [] => Ok [PcEmpty] | i :: is => Ok (i :: is) end) S.
Proof.
  intros Hne HS. destruct is as [|i is].
  - exists [PcEmpty]. split; [reflexivity|]. split; [|auto]. intros x. rewrite HS. split; [intros (? & [] & _)|].
    intros (i & [<-|[]] & []).
  - exists (i :: is). split; [reflexivity|]. split; [exact HS|]. right. split; [discriminate|exact Hne].
Qed.
Lemma pieces_not_empty (segs : list (segment R)) (arcs : list (arc R)) i : In i (map PcSeg segs ++ map PcArc arcs) -> i <> PcEmpty.
Proof. rewrite in_app_iff, !in_map_iff. intros [(? & <- & _)|(? & <- & _)]; discriminate. Qed.
Lemma points_pts (ps : list pt) x : (exists i, In i (map PcPoint ps) /\ piece_pts i x) <-> In x ps.
Proof.
  split.
  - intros (i & Hi & Hx). apply in_map_iff in Hi. destruct Hi as (p & <- & Hp). cbn in Hx. subst. exact Hp.
  - intros H. exists (PcPoint x). split; [apply in_map, H|reflexivity].
Qed.
Lemma tenth_lit (eps : R) : (nlit 1 10 * eps)%num = 1 / 10 * eps.
Proof. rn. lra. Qed.

Lemma cyl_planar_exact K C c f L eps el : cyl_ok c -> 0 < eps -> inf_ellipse K c f L eps = Ok el -> el_ok el ->
  splits C c f eps el -> covers (cyl_planar K C c f L eps) (common_set c f).
Proof.
  intros Hc Heps Hi Hel HS. unfold cyl_planar. rewrite Hi. cbn [obind]. rewrite tenth_lit.
  destruct HS as [(H0 & trs & Hne & HF & HS)|[(H0 & Ho & Hsh & HS)|[(H0 & (w & Hw & Hcl) & e & -> & HS)|(H0 & Hsh & trs & HF & HS & Hv)]]].
  - rewrite H0. cbn [Nat.eqb]. destruct (outer_ok el _ trs eps Hel Heps HF) as (segs & arcs & E & HP).
    destruct (ck_outer C c f (1 / 10 * eps)) as [|w ws] eqn:Ew; [inversion HF; subst; tauto|]. rewrite E.
    assert (map PcSeg segs ++ map PcArc arcs <> []) as Hn.
    { destruct trs as [|tr trs]; [tauto|]. destruct el; destruct HP as [-> HP]; inversion HP; subst; discriminate. }
    pose proof (covers_list (map PcSeg segs ++ map PcArc arcs) (common_set c f) (pieces_not_empty segs arcs)) as Q.
    destruct (map PcSeg segs ++ map PcArc arcs) eqn:Em; [tauto|]. apply Q. intros x. rewrite <- Em, (pieces_pts el trs segs arcs x HP). apply HS.
  - rewrite H0, Ho. cbn [Nat.eqb].
    pose proof (touch_ok c f eps _ Hc Heps Hsh) as HT. set (ps := touch_candidates c (ck_cut C c f (1 / 10 * eps)) eps) in *.
    assert (covers (match map PcPoint ps with [] => Ok [PcEmpty] | r => Ok r end) (common_set c f)) as Q.
    { apply covers_list; [intros i Hi'; apply in_map_iff in Hi'; destruct Hi' as (? & <- & _); discriminate|].
      intros x. rewrite points_pts, HT. split; [|tauto]. intros H. split; [apply HS, H|exact H]. }
    destruct ps; exact Q.
  - apply Nat.eqb_neq in H0. rewrite H0, Hw. cbn [parse_wires]. rewrite Hcl. cbn [obind].
    exists [PcEll e]. split; [reflexivity|]. split.
    + intros x. rewrite HS. cbn. split; [intros H; exists (PcEll e); auto|]. intros (i & [<-|[]] & H). exact H.
    + right. split; [discriminate|]. intros i [<-|[]]. discriminate.
  - apply Nat.eqb_neq in H0. rewrite H0. destruct (parse_ok el _ trs eps Hel Heps HF) as (segs & arcs & -> & HP). cbn [obind].
    pose proof (touch_ok c f eps _ Hc Heps Hsh) as HT. set (vs := touch_candidates c (ck_cut C c f (1 / 10 * eps)) eps) in *.
    destruct (isolated_ok el trs segs arcs eps vs Hel Heps HP) as (ps & -> & Hps).
    { intros v Hin. apply HT in Hin. apply Hv; tauto. }
    cbn [obind].
    assert (forall i, In i (map PcPoint ps ++ map PcSeg segs ++ map PcArc arcs) <-> In i (map PcPoint ps) \/ In i (map PcSeg segs ++ map PcArc arcs)) as A
      by (intros; apply in_app_iff).
    apply covers_list.
    + intros i Hi'. apply A in Hi'. destruct Hi' as [Hi'|Hi']; [|apply (pieces_not_empty segs arcs), Hi'].
      apply in_map_iff in Hi'. destruct Hi' as (? & <- & _). discriminate.
    + intros x. transitivity (In x ps \/ exists tr, In tr trs /\ track_pts el tr x).
      * rewrite Hps, HT. split; [|intros [H|H]; [tauto|apply HS; auto]].
        intros Hx. destruct (proj1 (HS x) Hx) as [H|H]; [auto|]. destruct (Classical_Prop.classic (exists tr, In tr trs /\ track_pts el tr x)); tauto.
      * rewrite <- (points_pts ps x), <- (pieces_pts el trs segs arcs x HP). split.
        -- intros [(i & Hi' & Hx)|(i & Hi' & Hx)]; exists i; rewrite A; auto.
        -- intros (i & Hi' & Hx). apply A in Hi'. destruct Hi' as [Hi'|Hi']; [left|right]; exists i; auto.
Qed.

(** ** the ellipse is determined *)
Lemma axis_plane_one c f p q : dot (pl_n (face_plane f)) (e_n (c_bot c)) <> 0 ->
  plane_pts (face_plane f) p -> plane_pts (face_plane f) q -> line_pts (axis_line c) p -> line_pts (axis_line c) q -> p = q.
Proof.
  unfold plane_pts, on_plane, line_pts, axis_line. cbn [l_sup l_dir]. set (n := pl_n (face_plane f)). set (d := e_n (c_bot c)).
  intros Hk P Q (t & ->) (u & ->). enough (t = u) as -> by reflexivity.
  assert ((t - u) * dot n d = 0) as Z.
  { transitivity (dot n (psub (padd (e_c (c_bot c)) (pscale t d)) (pl_sup (face_plane f))) -
                  dot n (psub (padd (e_c (c_bot c)) (pscale u d)) (pl_sup (face_plane f)))); [clear; coords; ring|]. rewrite P, Q. ring. }
  apply Rmult_integral in Z. destruct Z; [lra|contradiction].
Qed.
Lemma framed_unique c f e e' : 0 < e_a (c_bot c) -> framed c f e -> framed c f e' -> e_maj e = e_maj e' -> e_min e = e_min e' -> e = e'.
Proof.
  intros Hr (A1 & A2 & A3 & A4 & A5) (B1 & B2 & B3 & B4 & B5) E1 E2.
  set (k := Rabs (dot (pl_n (face_plane f)) (e_n (c_bot c)))) in *.
  assert (Hk : k <> 0) by (intros E; rewrite E in A5; lra).
  assert (e_c e = e_c e') as E3.
  { apply (axis_plane_one c f); try assumption. intros E. apply Hk. unfold k. rewrite E. apply Rabs_R0. }
  assert (e_a e = e_a e') as E4 by (apply (Rmult_eq_reg_r k); [congruence|exact Hk]).
  destruct e, e'; cbn in *; subst. reflexivity.
Qed.

Lemma center_in f : face_ok f -> plane_pts (face_plane f) (face_center f).
Proof.
  intros Hf. apply (face_in f _ Hf). destruct f as [d|q|p]; cbn [face_set face_center].
  - exists 0, 0. split; [lra|]. unfold at_coords. apply v3_eq; coords; ring.
  - destruct Hf as (N & p0 & p1 & p2 & p3 & HC & ->). apply (quad_center_hull N _ _ _ _ HC).
  - destruct Hf as (N & cs & HC & E & _). pose proof (poly_center_hull N cs p HC E) as Hh.
    unfold make_poly in E. destruct (length cs <? 3)%nat; [discriminate|]. injection E as <-. exact Hh.
Qed.

(** ** the interface *)
Lemma cyl_face_planar K C c f eps : 0 < eps -> face_ok f -> larger f eps ->
  exists L, 0 < L /\ cyl_face K C c f eps = cyl_planar K C c f L eps.
Proof.
  intros Heps Hf HL. destruct f as [d|q|p]; cbn [cyl_face].
  - exists (e_a d). split; [apply disk_size, Hf|reflexivity].
  - rewrite (face_quad_convex q Hf). cbn [negb]. eexists. split; [|reflexivity]. cbn [nsqrt R_num].
    destruct (max_from_ge (quad_sq_edges q) n0) as [_ M].
    pose proof (larger_reach _ _ _ HL (reach_quad q _ Hf M)). lra.
  - rewrite (face_poly_convex p Hf). cbn [negb]. eexists. split; [|reflexivity]. cbn [nsqrt R_num].
    set (tw := map (fun x : R => (nlit 2 1 * x)%num)). set (m := max_from n0 (tw (poly_sq_radii p))).
    destruct (max_from_ge (tw (poly_sq_radii p)) n0) as [_ M]. fold m in M.
    assert (forall y, In y (poly_sq_radii p) -> y <= m) as M'.
    { intros y Hy. pose proof (sq_pos_radii p y Hy).
      assert (Hy2 : 2 * y <= m). { apply M. unfold tw. apply in_map_iff. exists y. split; [rn; lra|exact Hy]. } lra. }
    pose proof (larger_reach _ _ _ HL (reach_poly p _ M')). lra.
Qed.

Lemma inf_canonical K c f L eps el : tube_ok c -> face_ok f -> (slanted c f -> axis_met K c f) -> 0 < L -> 0 < eps ->
  canonical c f el -> inf_ellipse K c f L eps = Ok el /\ forall e, el = Some e -> section_of c f e.
Proof.
  intros Hc Hf Hm HL Heps Hcan. pose proof (face_unit f Hf) as Un.
  assert (Hr : 0 < e_a (c_bot c)) by (destruct Hc as (_ & He & _); apply (ea _ He)).
  destruct el as [e|]; [|split; [apply ellipse_along, Hcan|discriminate]].
  destruct Hcan as [Hfr [[Ha [E1 E2]]|[Hs [E1 E2]]]].
  - destruct (ellipse_across K c f L eps Hc Un Ha) as (e' & -> & S & F & G1 & G2).
    assert (e' = e) as -> by (apply (framed_unique c f); congruence || assumption). split; [reflexivity|]. intros ? [= <-]. exact S.
  - destruct (ellipse_slanted K c f L eps Hc Un (center_in f Hf) Hs (Hm Hs) HL Heps) as (e' & -> & S & F & G1 & G2).
    assert (e' = e) as -> by (apply (framed_unique c f); congruence || assumption). split; [reflexivity|]. intros ? [= <-]. exact S.
Qed.

Definition point_kernel (p : pt) : kernel R :=
  mkKernel R (fun _ _ _ => None) (fun _ _ => Some p) (fun _ _ _ => []) (fun _ _ _ => []) (fun _ _ _ => [])
    (fun _ => mkBox p p) (fun _ => mkBox p p).
Lemma canonical_section c f e : tube_ok c -> face_ok f -> canonical c f (Some e) -> section_of c f e.
Proof.
  intros Hc Hf Hcan. pose proof Hcan as [(P & A & _) _].
  destruct (inf_canonical (point_kernel (e_c e)) c f 1 1 (Some e) Hc Hf) as [_ H]; try lra; auto.
  intros _. exists (e_c e). auto.
Qed.

Lemma int_cyl_exact K C c f eps el : 0 < eps -> tube_ok c -> face_ok f -> larger f eps -> boxed K f -> tube_boxed C c ->
  (slanted c f -> axis_met K c f) -> canonical c f el -> splits C c f eps el ->
  covers (int_cyl_face K C c f eps) (common_set c f).
Proof.
  intros Heps Hc Hf HL HB HT Hm Hcan HS. unfold int_cyl_face.
  destruct (do_intersect (ck_box C c) (k_face_box K f) eps) eqn:D; cbn [negb].
  - destruct (cyl_face_planar K C c f eps Heps Hf HL) as (L & HL' & ->).
    destruct (inf_canonical K c f L eps el Hc Hf Hm HL' Heps Hcan) as [E Sec].
    apply (cyl_planar_exact K C c f L eps el); try assumption; [apply Hc|]. intros e He. apply (Sec e He).
  - exists [PcEmpty]. split; [reflexivity|]. split; [|auto]. intros x. split.
    + intros [H1 H2]. assert (do_intersect (ck_box C c) (k_face_box K f) eps = true)
        by (apply (do_intersect_shared _ _ eps x); auto). congruence.
    + intros (i & [<-|[]] & []).
Qed.
