(** The constraints on planar faces: examples. *)

From Coq Require Import Reals List Lra Psatz Bool ZArith.
From Coquelicot Require Import Coquelicot.
From Verif Require Import Base ConstraintsModel ConstraintsSpec.
From Verif Require Import NumModel VecModel LinModel RoundModel PolyModel DistModel IntModel AngModel CylIntModel EvalModel
  GeoSpec LinSpec RoundSpec PolySpec DistSpec IntSpec AngSpec CylIntSpec EvalSpec
  GeoLemmas LinProofs DistProofs LenProofs PolyProofs IntProofs FaceIntProofs AngProofs2 IntExamples PolyBridge QuadProofs EllProofs CylProofs CylIntProofs CylIntExamples EvalProofs.
Import ListNotations.
Local Open Scope R_scope.

(** the distance of a point from an ellipse *)
Definition ell_dist (p : pt) (e : ell R) : R := real (Glb_Rbar (fun d => exists x, on_ellipse e x /\ d = dist p x)).
Lemma ell_dist_eq p e d : dist_to (on_ellipse e) p d -> ell_dist p e = d.
Proof.
  intros [(y & Hy & Ey) Hm]. unfold ell_dist. rewrite (is_glb_Rbar_unique _ (Finite d)); [reflexivity|]. split.
  - intros x (z & Hz & ->). cbn. apply Hm, Hz.
  - intros b Hb. specialize (Hb d). apply Hb. exists y. auto.
Qed.
Definition xo : ent_ops R := mkEntOps R xk (ops 0 [] [] []) (fun _ _ => Ok 0) (fun p e => Ok (ell_dist p e)) (fun _ _ => Ok 0) (fun _ => Ok 0).
Lemma xo_curves f : (exists d, f = FDisk d) -> curve_ok xo f.
Proof.
  intros [d ->] p x Hx. cbn [eo_point_curve xo]. f_equal. apply ell_dist_eq.
  destruct Hx as [(y & Hy & Ey) Hm]. split; [exists y; split; [apply disk_set, Hy|exact Ey]|]. intros z Hz. apply Hm, disk_set, Hz.
Qed.
Lemma met_dist (S T : pt -> Prop) x : S x -> T x -> set_dist S T 0.
Proof.
  intros HS HT. split; [exists x, x; split; [exact HS|split; [exact HT|symmetry; apply dist_self]]|].
  intros y z _ _. unfold dist, norm. apply sqrt_pos.
Qed.

(** distances within a box of edge length 20 *)
Lemma box_dist (x y : pt) : (forall i, In i [vx x; vy x; vz x; vx y; vy y; vz y] -> -10 <= i <= 10) -> dist x y <= 100.
Proof.
  intros H. unfold dist, norm. rewrite <- (sqrt_square 100) by lra. apply sqrt_le_1_alt. unfold dot, psub. cbn [vx vy vz].
  pose proof (H (vx x)). pose proof (H (vy x)). pose proof (H (vz x)). pose proof (H (vx y)). pose proof (H (vy y)). pose proof (H (vz y)).
  cbn [In] in *. assert (A : forall a b, -10 <= a <= 10 -> -10 <= b <= 10 -> (a - b) * (a - b) <= 400) by (intros; nra).
  pose proof (A (vx x) (vx y) ltac:(auto 10) ltac:(auto 10)). pose proof (A (vy x) (vy y) ltac:(auto 10) ltac:(auto 10)).
  pose proof (A (vz x) (vz y) ltac:(auto 10) ltac:(auto 10)). rn. lra.
Qed.

(** two quadrilaterals with a common segment *)
Definition qa : face R := sq_xy 0 2 1.
Definition qb : face R := sq_xz (1 / 2) 1 3.
Definition ta : R := eps_quad (make_quad (mkV3 0 (-1) 0) (mkV3 2 (-1) 0) (mkV3 0 1 0) (mkV3 2 1 0)).
Definition tb : R := eps_quad (make_quad (mkV3 (1 / 2) 0 (-3)) (mkV3 1 0 (-3)) (mkV3 (1 / 2) 0 3) (mkV3 1 0 3)).
(** the constraints, the last call first *)
Definition calls (m d : R) : list (cop R) :=
  [SetMinIsDistance d; SetMinMagnitude m; SetMinAngle 1; SetMinDistance 1; SetEps (1 / 10)].

Lemma corner_box (cs : list pt) x : (forall c, In c cs -> in_box (mkBox (mkV3 (-10) (-10) (-10)) (mkV3 10 10 10)) c) -> hull cs x ->
  forall i, In i [vx x; vy x; vz x] -> -10 <= i <= 10.
Proof. intros Hc Hx. pose proof (hull_box _ _ _ _ Hc Hx) as B. unfold in_box in B. cbn in *. intuition (subst; lra). Qed.
Lemma edge_hull cs x : boundary cs x -> hull cs x.
Proof.
  intros (ab & He & Hs). destruct ab as [a b]. destruct (edges_in _ _ _ He) as [Ha Hb]. apply (hull_between _ a b); [apply hull_corner, Ha|apply hull_corner, Hb|exact Hs].
Qed.

Ltac in_corners := let c := fresh in let H := fresh in intros c H; cbn in H; repeat (destruct H as [<-|H]; [unfold in_box; cbn; lra|]); destruct H.
Ltac edge_cases He := cbn in He; repeat (destruct He as [<-|He]); [..|destruct He].

Lemma calls_active m d : ~ no_constraint (calls m d).
Proof. intros (H & _). discriminate H. Qed.
Lemma qa_fit : edges_fit 6 qa.
Proof.
  split; [lra|]. split.
  - intros ab He. edge_cases He; cbn [fst snd]; intros E; injection E; lra.
  - intros ab He. edge_cases He; cbn [fst snd]; unfold dist, norm, dot, psub; cbn [vx vy vz]; rn; rewrite <- (sqrt_square 6) by lra; apply sqrt_le_1_alt; lra.
Qed.
Lemma qb_fit : edges_fit 6 qb.
Proof.
  split; [lra|]. split.
  - intros ab He. edge_cases He; cbn [fst snd]; intros E; injection E; lra.
  - intros ab He. edge_cases He; cbn [fst snd]; unfold dist, norm, dot, psub; cbn [vx vy vz]; rn; rewrite <- (sqrt_square 6) by lra; apply sqrt_le_1_alt; lra.
Qed.
Lemma quad_within f cs : face_set f = hull cs -> edge_set f = boundary cs ->
  (forall c, In c cs -> in_box (mkBox (mkV3 (-10) (-10) (-10)) (mkV3 10 10 10)) c) -> within 1000 f.
Proof.
  intros E1 E2 Hc x y Hx Hy. rewrite E1 in Hx. rewrite E2 in Hy. apply edge_hull in Hy. apply Rle_trans with 100; [|lra]. apply box_dist.
  pose proof (corner_box _ _ Hc Hx) as P. pose proof (corner_box _ _ Hc Hy) as Q. cbn [In] in *.
  intros i [<-|[<-|[<-|[<-|[<-|[<-|[]]]]]]]; auto.
Qed.
Lemma quad_boxed f cs : face_set f = hull cs ->
  (forall c, In c cs -> in_box (mkBox (mkV3 (-10) (-10) (-10)) (mkV3 10 10 10)) c) -> boxed xk f.
Proof. intros E Hc. apply boxed_xk. intros x Hx. rewrite E in Hx. pose proof (hull_box _ _ _ _ Hc Hx) as B. unfold in_box in *. cbn in *. lra. Qed.
Lemma quads_common : on_x (both (face_set qa) (face_set qb)) (1 / 2) 1.
Proof.
  destruct (sq_xy_fair 0 2 1 ltac:(lra) ltac:(lra)) as [_ XA]. destruct (sq_xz_fair (1 / 2) 1 3 ltac:(lra) ltac:(lra)) as [_ XB].
  rewrite sq_xy_ivl in XA. rewrite sq_xz_ivl in XB. cbn [fst snd] in *.
  intros x. split.
  - intros [A B]. assert (L : line_pts xaxis x).
    { apply (xk_meet qa qb); [left; split; [apply sq_xy_in; lra|apply sq_xz_in; lra]|].
      split; [apply (face_in qa x); [apply sq_xy_ok; lra|exact A]|apply (face_in qb x); [apply sq_xz_ok; lra|exact B]]. }
    apply (XB x). split; assumption.
  - intros (t & -> & Ht). split.
    + apply (on_x_at _ _ _ t XA). lra.
    + apply (on_x_at _ _ _ t XB). lra.
Qed.
Lemma quads_ok m d : pair_ok 1000 xo (calls m d) qa qb ta tb 6.
Proof.
  constructor.
  - exact quads_crossing.
  - cbn. lra.
  - apply (quad_boxed qa (corners qa) eq_refl). in_corners.
  - apply (quad_boxed qb (corners qb) eq_refl). in_corners.
  - reflexivity.
  - reflexivity.
  - exact qa_fit.
  - exact qb_fit.
  - exact I.
  - exact I.
  - apply (quad_within qa (corners qa) eq_refl eq_refl). in_corners.
  - apply (quad_within qb (corners qb) eq_refl eq_refl). in_corners.
  - exists 0. split; [|reflexivity].
    destruct (proj2 (quads_common (ox 1))) as [A B]; [exists 1; split; [reflexivity|lra]|]. exact (met_dist _ _ _ A B).
Qed.
Lemma quads_seg s : is_seg s (both (face_set qa) (face_set qb)) ->
  (s_src s = ox (1 / 2) /\ s_tgt s = ox 1) \/ (s_src s = ox 1 /\ s_tgt s = ox (1 / 2)).
Proof.
  intros Hs. pose proof (seg_ends_of _ _ _ _ quads_common ltac:(lra) Hs) as E. destruct Hs as [Hn _].
  destruct (E (s_src s) (or_introl eq_refl)) as [E1|E1], (E (s_tgt s) (or_intror eq_refl)) as [E2|E2]; auto; destruct Hn; congruence.
Qed.
Lemma ox_dist a b : dist (ox a) (ox b) = Rabs (a - b).
Proof.
  unfold dist, norm, dot, psub, ox. cbn [vx vy vz]. rn.
  replace ((a - b) * (a - b) + (0 - 0) * (0 - 0) + (0 - 0) * (0 - 0)) with (Rsqr (a - b)) by (unfold Rsqr; ring). apply sqrt_Rsqr_abs.
Qed.
Lemma qa_edge y : edge_set qa y -> vx y = 0 \/ vx y = 2 \/ vy y = 1 \/ vy y = -1.
Proof. intros (ab & He & (t & Ht & ->)). edge_cases He; cbn; rn; lra. Qed.
Lemma qa_off a y : a = 1 / 2 \/ a = 1 -> edge_set qa y -> 1 / 2 <= dist (ox a) y.
Proof.
  intros Ha Hy. unfold dist, norm. apply (Rle_trans _ (sqrt (1 / 2 * (1 / 2)))); [right; rewrite sqrt_square; lra|].
  apply sqrt_le_1_alt. apply qa_edge in Hy. unfold dot, psub, ox; cbn [vx vy vz]; rn.
  pose proof (Rle_0_sqr (a - vx y)) as S1. pose proof (Rle_0_sqr (0 - vy y)) as S2. pose proof (Rle_0_sqr (0 - vz y)) as S3. unfold Rsqr in *.
  destruct Ha as [-> | ->], Hy as [E|[E|[E|E]]]; rewrite E in *; lra.
Qed.
(** the ends of the segment are at least 1/2 away from the boundary of the first quadrilateral ... *)
Lemma qa_far a d : a = 1 / 2 \/ a = 1 -> dist_to (edge_set qa) (ox a) d -> 1 / 2 <= d.
Proof.
  intros Ha [(y & Hy & <-) _]. apply qa_off; assumption.
Qed.
(** ... and on that of the second one *)
Lemma qb_on a d : a = 1 / 2 \/ a = 1 -> dist_to (edge_set qb) (ox a) d -> d <= 0.
Proof.
  intros Ha [_ Hm]. rewrite <- (dist_self (ox a)). apply Hm. destruct Ha as [-> | ->].
  - exists (mkV3 (1 / 2) 0 3, mkV3 (1 / 2) 0 (-3)). split; [cbn; auto|]. exists (1 / 2). split; [lra|]. apply v3_eq; cbn; rn; lra.
  - exists (mkV3 1 0 (-3), mkV3 1 0 3). split; [cbn; auto|]. exists (1 / 2). split; [lra|]. apply v3_eq; cbn; rn; lra.
Qed.
Lemma tb_pos : 0 < tb.
Proof.
  apply eps_quad_pos. left. unfold noncollinear. intros E. injection E. unfold cross, psub. cbn. intros. rn. lra.
Qed.
Lemma quads_angle theta : angle_between (face_normal qa) (face_normal qb) theta -> 1 <= theta.
Proof.
  intros [H1 H2]. rewrite <- !face_plane_normal in H2. unfold qa, qb in H2. rewrite (proj2 (sq_xy_plane 0 2 1 ltac:(lra) ltac:(lra))), (proj2 (sq_xz_plane (1 / 2) 1 3 ltac:(lra) ltac:(lra))) in H2.
  assert (dot e3 e2n = 0) as E by (unfold dot, e3, e2n; cbn; ring). rewrite E, Rabs_R0 in H2.
  assert (norm e3 = 1) as E3 by (apply norm_unit; unfold unit3, dot, e3; cbn; ring).
  assert (norm e2n = 1) as E2 by (apply norm_unit; unfold unit3, dot, e2n; cbn; ring). rewrite E3, E2 in H2.
  assert (cos theta = 0) as C by lra. pose proof PI2_1. pose proof PI_RGT_0.
  assert (theta = PI / 2) as -> by (apply cos_inj; try lra; rewrite cos_PI2; exact C). lra.
Qed.
Lemma quads_kept m d a b : m <= 1 / 2 -> d + b <= 1 / 2 -> 0 <= a -> kept (calls m d) ta tb a b qa qb.
Proof.
  intros Hm Hd Ha. unfold kept. cbn [calls active_distance active_magnitude active_is_distance active_angle holds_if_set angle_kept end_kept].
  split; [|split].
  - intros X. exfalso. apply (X (ox 1)), quads_common. exists 1. split; [reflexivity|lra].
  - intros p Hp. exfalso. assert (E : ox 1 = ox (1 / 2)).
    { transitivity p; [|symmetry]; apply Hp, quads_common; eexists; (split; [reflexivity|lra]). }
    apply ox_inj in E. lra.
  - intros s Hs. assert (F : forall x, x = 1 / 2 \/ x = 1 ->
      keeps_off ta d a b (edge_set qa) (ox x) /\ keeps_off tb d a b (edge_set qb) (ox x)).
    { intros x Hx. split; intros y Hy; [right; pose proof (qa_far _ _ Hx Hy); lra|left; pose proof (qb_on _ _ Hx Hy); pose proof tb_pos; lra]. }
    split; [|split; [exact quads_angle|]].
    + assert (E : dist (s_src s) (s_tgt s) = 1 / 2).
      { destruct (quads_seg s Hs) as [[-> ->]|[-> ->]]; rewrite ox_dist; [rewrite Rabs_left|rewrite Rabs_right]; lra. }
      rewrite E. exact Hm.
    + unfold end_kept. cbn [calls active_is_distance holds_if_set]. destruct (quads_seg s Hs) as [[-> ->]|[-> ->]]; auto.
Qed.
Lemma quads_short m d a b : 1 / 2 < m -> ~ kept (calls m d) ta tb a b qa qb.
Proof.
  intros Hm (_ & _ & X). destruct (X (mkSeg (ox (1 / 2)) (ox 1))) as [Y _].
  - apply on_x_seg; [exact quads_common|lra].
  - cbn [calls active_magnitude holds_if_set s_src s_tgt] in Y. rewrite ox_dist, Rabs_left in Y; lra.
Qed.
Lemma quads_close m d a b : 1 < d -> ta + a <= 1 / 2 -> ~ kept (calls m d) ta tb a b qa qb \/ b < 0.
Proof.
  intros Hd Ht. destruct (Rlt_le_dec b 0) as [|Hb]; [auto|]. left. intros (_ & _ & X). destruct (X (mkSeg (ox (1 / 2)) (ox 1))) as (_ & _ & [Y _] & _).
  - apply on_x_seg; [exact quads_common|lra].
  - cbn [calls active_is_distance holds_if_set s_src s_tgt] in Y.
    assert (D : dist_to (edge_set qa) (ox (1 / 2)) (1 / 2)).
    { split.
      - exists (ox 0). split; [|rewrite ox_dist, Rabs_right; lra].
        exists (mkV3 0 1 0, mkV3 0 (-1) 0). split; [cbn; auto|]. exists (1 / 2). split; [lra|]. apply v3_eq; cbn; rn; lra.
      - intros y Hy. apply qa_off; auto. }
    destruct (Y _ D); lra.
Qed.
Lemma quads_accepted : ent_evaluate 1000 xo (crun 0 (rev (calls (1 / 4) (1 / 4)))) (EFace qa) (EFace qb) = Ok true.
Proof.
  destruct (eval_faces 1000 xo (calls (1 / 4) (1 / 4)) qa qb ta tb 6 (calls_active _ _) (quads_ok _ _)) as (b & -> & A & _).
  rewrite A; [reflexivity|]. apply quads_kept; lra.
Qed.
Lemma quads_rejected : ent_evaluate 1000 xo (crun 0 (rev (calls 1 (1 / 4)))) (EFace qa) (EFace qb) = Ok false.
Proof.
  destruct (eval_faces 1000 xo (calls 1 (1 / 4)) qa qb ta tb 6 (calls_active _ _) (quads_ok _ _)) as (b & -> & _ & A).
  destruct b; [|reflexivity]. exfalso. apply (quads_short 1 (1 / 4) (6 / 10000000) 0); [lra|exact (A eq_refl)].
Qed.

(** two disks: there are no edges, the result is exact (M = 0) *)
Definition da : face R := disk_xy 0 0 1.
Definition db : face R := disk_xz 1 0 1.
Lemma disk_coords e x : in_disk 1 e x -> 0 < e_a e -> 0 < e_b e -> exists a b, a * a <= e_a e * e_a e /\ b * b <= e_b e * e_b e /\ x = at_coords (e_c e) (e_maj e) (e_min e) a b.
Proof.
  intros (a & b & H & ->) Ha Hb. exists a, b.
  assert (S : forall u r, 0 < r -> (u / (1 * r)) ^ 2 <= 1 -> u * u <= r * r).
  { intros u r Hr Hu. assert (E : (u / (1 * r)) ^ 2 = (u * u) / (r * r)) by (field; lra). rewrite E in Hu.
    assert (0 < r * r) by nra. apply (Rmult_le_compat_r (r * r)) in Hu; [|lra]. unfold Rdiv in Hu. rewrite Rmult_assoc, Rinv_l in Hu; lra. }
  pose proof (pow2_ge_0 (a / (1 * e_a e))). pose proof (pow2_ge_0 (b / (1 * e_b e))).
  split; [apply S; lra|]. split; [apply S; lra|]. reflexivity.
Qed.
Lemma edge_disk e x : on_ellipse e x -> 0 < e_a e -> 0 < e_b e -> in_disk 1 e x.
Proof.
  intros (phi & ->) Ha Hb. exists (e_a e * cos phi), (e_b e * sin phi). split; [|reflexivity].
  replace ((e_a e * cos phi / (1 * e_a e)) ^ 2 + (e_b e * sin phi / (1 * e_b e)) ^ 2) with (Rsqr (sin phi) + Rsqr (cos phi)) by (unfold Rsqr; field; lra).
  rewrite sin2_cos2. lra.
Qed.
Lemma unit_bound a : a * a <= 1 * 1 -> -1 <= a <= 1.
Proof. intros; nra. Qed.
Lemma da_within : within 1000 da.
Proof.
  intros x y Hx Hy. apply Rle_trans with 100; [|lra]. apply edge_disk in Hy; [|cbn; lra|cbn; lra]. cbn [face_set da disk_xy] in Hx.
  apply disk_coords in Hx as (a & b & Ha & Hb & ->); [|cbn; lra|cbn; lra]. apply disk_coords in Hy as (a' & b' & Ha' & Hb' & ->); [|cbn; lra|cbn; lra].
  cbn in Ha, Hb, Ha', Hb'. apply unit_bound in Ha, Hb, Ha', Hb'. apply box_dist. unfold at_coords, padd, pscale, disk_xy, e1, e2. cbn. intros i Hi. rn.
  repeat (destruct Hi as [<-|Hi]; [lra|]). destruct Hi.
Qed.
Lemma db_within : within 1000 db.
Proof.
  intros x y Hx Hy. apply Rle_trans with 100; [|lra]. apply edge_disk in Hy; [|cbn; lra|cbn; lra]. cbn [face_set db disk_xz] in Hx.
  apply disk_coords in Hx as (a & b & Ha & Hb & ->); [|cbn; lra|cbn; lra]. apply disk_coords in Hy as (a' & b' & Ha' & Hb' & ->); [|cbn; lra|cbn; lra].
  cbn in Ha, Hb, Ha', Hb'. apply unit_bound in Ha, Hb, Ha', Hb'. apply box_dist. unfold at_coords, padd, pscale, disk_xz, e1, e3. cbn. intros i Hi. rn.
  repeat (destruct Hi as [<-|Hi]; [lra|]). destruct Hi.
Qed.
Lemma disks_ok m d : pair_ok 1000 xo (calls m d) da db (eps_disk (mkEll (mkV3 0 0 0) e1 e2 e3 1 1)) (eps_disk (mkEll (mkV3 1 0 0) e3 e1 e2 1 1)) 0.
Proof.
  assert (F : forall f, corners f = [] -> edges_fit 0 f).
  { intros f E. unfold edges_fit. rewrite E. split; [lra|]. split; intros ab []. }
  constructor.
  - exact disks_crossing.
  - cbn. lra.
  - apply disk_xy_boxed; lra.
  - apply disk_xz_boxed; lra.
  - reflexivity.
  - reflexivity.
  - apply F. reflexivity.
  - apply F. reflexivity.
  - apply xo_curves. eexists. reflexivity.
  - apply xo_curves. eexists. reflexivity.
  - exact da_within.
  - exact db_within.
  - exists 0. split; [|reflexivity]. apply (met_dist _ _ (ox 1)).
    + destruct (disk_xy_fair 0 0 1 ltac:(lra) ltac:(lra)) as [_ X]. rewrite ivl_xy in X by lra. apply (on_x_at _ _ _ 1 X). cbn. lra.
    + destruct (disk_xz_fair 1 0 1 ltac:(lra) ltac:(lra)) as [_ X]. rewrite ivl_xz in X by lra. apply (on_x_at _ _ _ 1 X). cbn. lra.
Qed.

(** overlapping disks in one plane *)
Lemma coplanar_case b : ent_evaluate 1000 xo (crun 0 [SetEps (1 / 10); SetMinDistance 0; AllowEquiDim b]) (EFace (disk_xy 0 0 1)) (EFace (disk_xy 1 0 1)) = Throw RuntimeError.
Proof.
  apply (eval_coplanar 1000 xo [AllowEquiDim b; SetMinDistance 0; SetEps (1 / 10)] (disk_xy 0 0 1) (disk_xy 1 0 1) _ _ (ox 1) ltac:(intros (H & _); discriminate H) eq_refl eq_refl).
  - cbn. lra.
  - apply disk_xy_ok; lra.
  - apply disk_xy_ok; lra.
  - apply disk_xy_boxed; lra.
  - apply disk_xy_boxed; lra.
  - split; [exists 1; split; [lra|]|]; unfold plane_pts, on_plane, dot, psub, pscale; cbn; [unfold e3; cbn; f_equal|]; ring.
  - split.
    + destruct (disk_xy_fair 0 0 1 ltac:(lra) ltac:(lra)) as [_ X]. rewrite ivl_xy in X by lra. apply (on_x_at _ _ _ 1 X). cbn. lra.
    + destruct (disk_xy_fair 1 0 1 ltac:(lra) ltac:(lra)) as [_ X]. rewrite ivl_xy in X by lra. apply (on_x_at _ _ _ 1 X). cbn. lra.
Qed.

(** disks that touch in one point at a right angle pass any minimum angle *)
Lemma touching_case thr : both (face_set (disk_xy 0 1 1)) (face_set (disk_xz 0 1 1)) (ox 0) /\
  ent_evaluate 1000 xo (crun 0 [SetEps (1 / 10); SetMinAngle thr]) (EFace (disk_xy 0 1 1)) (EFace (disk_xz 0 1 1)) = Ok true.
Proof.
  destruct touching_points as [P1 P2].
  apply (eval_points 1000 xo [SetMinAngle thr; SetEps (1 / 10)] (disk_xy 0 1 1) (disk_xz 0 1 1) _ _ (ox 0) ltac:(intros (_ & H & _); discriminate H) eq_refl eq_refl).
  - cbn. lra.
  - apply disks_facing; lra.
  - exact P1.
  - exact P2.
  - reflexivity.
Qed.

(** a square around the cylinder *)
Definition slab : face R := FQuad (make_quad (mkV3 (-4) (-4) 5) (mkV3 4 (-4) 5) (mkV3 (-4) 4 5) (mkV3 4 4 5)).
Definition slab_ops : ent_ops R := mkEntOps R (one_kernel (mkV3 0 0 5)) ramp_ops (fun _ _ => Ok 0) (fun _ _ => Ok 0) (fun _ _ => Ok 0) (fun _ => Ok 0).
Lemma slab_convex : convex_ccw e3 (around (mkV3 (-4) (-4) 5) (mkV3 4 (-4) 5) (mkV3 (-4) 4 5) (mkV3 4 4 5)).
Proof.
  apply quad_convex_ccw. split; [unfold unit3, dot, e3; cbn; ring|]. split.
  - intros u v Hu Hv. unfold around in *. cbn in Hu, Hv. unfold dot, psub, e3.
    destruct Hu as [<-|[<-|[<-|[<-|[]]]]]; destruct Hv as [<-|[<-|[<-|[<-|[]]]]]; cbn; ring.
  - unfold orient, det3, psub, e3. cbn. repeat match goal with |- _ /\ _ => split end; lra.
Qed.
Lemma slab_ok : face_ok slab.
Proof. exists e3. do 4 eexists. split; [exact slab_convex|reflexivity]. Qed.
Lemma slab_plane : pl_n (face_plane slab) = e3 /\ pl_sup (face_plane slab) = mkV3 (-4) (-4) 5.
Proof.
  pose proof slab_convex as HC. apply quad_convex_ccw in HC as (HU & HP & HF & _).
  destruct (planar_quad _ _ _ _ _ HP) as (H1 & H2 & _). split; [apply (plane_3p_normal e3 _ _ _ HU H1 H2 HF)|reflexivity].
Qed.
Lemma slab_point x y : -4 <= x <= 4 -> -4 <= y <= 4 -> face_set slab (mkV3 x y 5).
Proof.
  intros Hx Hy. cbn [face_set slab make_quad q_0 q_1 q_2 q_3].
  apply (hull_between _ (mkV3 x (-4) 5) (mkV3 x 4 5)).
  - apply (hull_between _ (mkV3 (-4) (-4) 5) (mkV3 4 (-4) 5)); [apply hull_corner; cbn; auto..|]. exists ((x + 4) / 8). split; [lra|]. apply v3_eq; cbn; rn; lra.
  - apply (hull_between _ (mkV3 (-4) 4 5) (mkV3 4 4 5)); [apply hull_corner; cbn; auto..|]. exists ((x + 4) / 8). split; [lra|]. apply v3_eq; cbn; rn; lra.
  - exists ((y + 4) / 8). split; [lra|]. apply v3_eq; cbn; rn; lra.
Qed.
Lemma slab_canonical : canonical rod slab (Some half_ell).
Proof.
  destruct rod_bot as [E _]. destruct slab_plane as [En Es]. unfold canonical, framed, rim_axes, across, axis_line.
  unfold plane_pts. rewrite En, Es, E. cbn [e_c e_n e_a half_ell e_maj e_min e_b]. unfold e3.
  split.
  - split; [unfold on_plane; coords; lra|]. split; [unfold line_pts; cbn [l_sup l_dir]; exists 5; apply v3_eq; coords; ring|].
    split; [apply v3_eq; coords; ring|]. split; [reflexivity|]. replace (dot (mkV3 0 0 1) (mkV3 0 0 1)) with 1 by (coords; ring). rewrite Rabs_R1. ring.
  - left. split; [exists 1; split; [lra|apply v3_eq; coords; ring]|auto].
Qed.
Lemma slab_boxed : boxed (one_kernel (mkV3 0 0 5)) slab.
Proof.
  intros x Hx. cbn [k_face_box one_kernel]. cbn [face_set slab make_quad q_0 q_1 q_2 q_3] in Hx.
  apply (hull_box (around (mkV3 (-4) (-4) 5) (mkV3 4 (-4) 5) (mkV3 (-4) 4 5) (mkV3 4 4 5))); [in_corners|exact Hx].
Qed.
Lemma slab_case thr : (exists x, common_set rod slab x) /\
  (forall x y, common_set rod slab x -> edge_set slab y -> 3 <= dist x y) /\
  ent_evaluate 1000 slab_ops (crun 0 [SetEps (1 / 10); SetMinIsDistance thr]) (EFace slab) (ESurf rod) = Throw RuntimeError.
Proof.
  assert (X : common_set rod slab (mkV3 1 0 5)) by (split; [apply slab_point; lra|apply rod_lat; cbn; lra]).
  split; [exists (mkV3 1 0 5); exact X|]. split.
  - intros x y [_ H1] Hy. apply rod_lat in H1 as [_ H1]. destruct Hy as (ab & He & (t & Ht & ->)).
    assert (B1 : -1 <= vx x <= 1) by nra. assert (B2 : -1 <= vy x <= 1) by nra.
    edge_cases He; cbn [fst snd].
    + apply far_x; [lra|]. cbn. rn. rewrite Rabs_right; lra.
    + apply far_y; [lra|]. cbn. rn. rewrite Rabs_right; lra.
    + apply far_x; [lra|]. cbn. rn. rewrite Rabs_left; lra.
    + apply far_y; [lra|]. cbn. rn. rewrite Rabs_left; lra.
  - apply (eval_ellipse 1000 slab_ops [SetMinIsDistance thr; SetEps (1 / 10)] rod slab _ _ (1 / 10) half_ell (mkV3 1 0 5) thr eq_refl eq_refl).
    + reflexivity.
    + lra.
    + exact rod_ok.
    + exact slab_ok.
    + exists (mkV3 0 0 5), (mkV3 1 0 5). split; [apply slab_point; lra|]. split; [apply slab_point; lra|].
      apply Rle_trans with 1; [lra|]. apply far_x; [lra|]. cbn. rewrite Rabs_left; lra.
    + exact slab_boxed.
    + apply ops_boxed.
    + intros _. exists (mkV3 0 0 5). split; [reflexivity|]. split; [apply slab_canonical|apply (proj1 slab_canonical)].
    + exact slab_canonical.
    + exact X.
    + discriminate.
    + eexists. split; reflexivity.
    + reflexivity.
    + reflexivity.
    + reflexivity.
    + exact I.
Qed.

(** a disk around the cylinder *)
Definition wide_ell : ell R := dk (mkV3 0 0 5) (mkV3 1 0 0) (mkV3 0 1 0) 4.
Definition wide : face R := FDisk wide_ell.
Definition wide_ops : ent_ops R := mkEntOps R (one_kernel (mkV3 0 0 5)) ramp_ops (fun _ _ => Ok 0) (fun _ _ => Ok 0)
  (fun _ e => Ok (if Req_EM_T (vz (e_c e)) 5 then 3 else 5)) (fun _ => Ok 0).
Lemma circle_at c r phi : ell_at (mkEll c (mkV3 1 0 0) (mkV3 0 1 0) (mkV3 0 0 1) r r) phi = mkV3 (vx c + r * cos phi) (vy c + r * sin phi) (vz c).
Proof. unfold ell_at, at_coords. cbn [e_c e_maj e_min e_a e_b]. apply v3_eq; coords; ring. Qed.
Lemma wide_form : disk_ellipse wide_ell = mkEll (mkV3 0 0 5) (mkV3 1 0 0) (mkV3 0 1 0) (mkV3 0 0 1) 4 4.
Proof.
  unfold disk_ellipse, wide_ell, dk, make_ell. cbn [e_c e_maj e_min e_a e_b].
  replace (cross (mkV3 1 0 0) (mkV3 0 1 0)) with (mkV3 0 0 1 : pt) by (apply v3_eq; coords; ring). rewrite to_dir_z. reflexivity.
Qed.
Lemma rod_top : c_top rod = mkEll (mkV3 0 0 10) (mkV3 1 0 0) (mkV3 0 1 0) (mkV3 0 0 1) 1 1.
Proof.
  unfold rod, make_cyl_z, make_ell. cbn [c_top].
  assert ((n0 : R) = 0) as -> by (rn; lra). assert ((n1 : R) = 1) as -> by (rn; lra). rewrite to_dir_x, to_dir_y.
  replace (cross (mkV3 1 0 0) (mkV3 0 1 0)) with (mkV3 0 0 1 : pt) by (apply v3_eq; coords; ring). rewrite to_dir_z. f_equal. apply v3_eq; rn; cbn; lra.
Qed.
Lemma root_is (x y : pt) d : 0 <= d -> dot (psub x y) (psub x y) = d * d -> d = dist x y.
Proof. intros Hd E. unfold dist, norm. rewrite E. symmetry. apply sqrt_square, Hd. Qed.
Lemma root_above (x y : pt) d : 0 <= d -> d * d <= dot (psub x y) (psub x y) -> d <= dist x y.
Proof. intros Hd E. unfold dist, norm. rewrite <- (sqrt_square d Hd). apply sqrt_le_1_alt, E. Qed.
Lemma wide_curves r : In r [disk_ellipse wide_ell; c_bot rod; c_top rod] -> curves_ok wide_ops half_ell r.
Proof.
  destruct rod_bot as [Eb _]. rewrite wide_form, Eb, rod_top. unfold half_ell, curves_ok. cbn [eo_curve_curve wide_ops].
  intros [<-|[<-|[<-|[]]]]; cbn [e_c vz].
  - exists 3. destruct (Req_EM_T 5 5); [|lra]. split; [|reflexivity]. split.
    + eexists _, _. split; [exists 0; reflexivity|]. split; [exists 0; reflexivity|]. rewrite !circle_at, cos_0, sin_0. cbn [vx vy vz].
      apply root_is; [lra|]. coords. rn. ring.
    + intros x y (a & ->) (b & ->). rewrite !circle_at. cbn [vx vy vz]. apply root_above; [lra|]. coords. rn.
      pose proof (sin2_cos2 a) as S1. pose proof (sin2_cos2 b) as S2. unfold Rsqr in *.
      pose proof (Rle_0_sqr (cos a - cos b)). pose proof (Rle_0_sqr (sin a - sin b)). unfold Rsqr in *. nra.
  - exists 5. destruct (Req_EM_T 0 5); [lra|]. split; [|reflexivity]. split.
    + eexists _, _. split; [exists 0; reflexivity|]. split; [exists 0; reflexivity|]. rewrite !circle_at, cos_0, sin_0. cbn [vx vy vz].
      apply root_is; [lra|]. coords. rn. ring.
    + intros x y (a & ->) (b & ->). rewrite !circle_at. cbn [vx vy vz]. apply root_above; [lra|]. coords. rn.
      pose proof (Rle_0_sqr (cos a - cos b)). pose proof (Rle_0_sqr (sin a - sin b)). unfold Rsqr in *. nra.
  - exists 5. destruct (Req_EM_T 10 5); [lra|]. split; [|reflexivity]. split.
    + eexists _, _. split; [exists 0; reflexivity|]. split; [exists 0; reflexivity|]. rewrite !circle_at, cos_0, sin_0. cbn [vx vy vz].
      apply root_is; [lra|]. coords. rn. ring.
    + intros x y (a & ->) (b & ->). rewrite !circle_at. cbn [vx vy vz]. apply root_above; [lra|]. coords. rn.
      pose proof (Rle_0_sqr (cos a - cos b)). pose proof (Rle_0_sqr (sin a - sin b)). unfold Rsqr in *. nra.
Qed.
Lemma wide_canonical : canonical rod wide (Some half_ell).
Proof.
  destruct rod_bot as [E _]. unfold canonical, framed, rim_axes, across, axis_line. unfold wide, wide_ell. cbn [face_plane]. unfold ell_plane, plane_basis.
  cbn [pl_n pl_sup dk e_n e_c e_maj e_min]. rewrite E. cbn [e_c e_n e_a half_ell e_maj e_min e_b].
  assert (cross (mkV3 1 0 0) (mkV3 0 1 0) = mkV3 0 0 1 :> pt) as EC by (apply v3_eq; coords; ring). rewrite EC.
  split.
  - split; [unfold plane_pts, on_plane; cbn [pl_n pl_sup]; coords; lra|]. split; [unfold line_pts; cbn [l_sup l_dir]; exists 5; apply v3_eq; coords; ring|]. split; [reflexivity|].
    split; [reflexivity|]. replace (dot (mkV3 0 0 1) (mkV3 0 0 1)) with 1 by (coords; ring). rewrite Rabs_R1. ring.
  - left. split; [exists 1; split; [lra|apply v3_eq; coords; ring]|auto].
Qed.
Lemma wide_case thr : exists b, ent_evaluate 1000 wide_ops (crun 0 [SetEps (1 / 10); SetMinIsDistance thr]) (EFace wide) (ESurf rod) = Ok b /\
    (b = true <-> forall r y z, In r [wide_ell; c_bot rod; c_top rod] -> on_ellipse half_ell y -> on_ellipse r z -> thr <= dist y z).
Proof.
  destruct axes as (A & B & _ & D & _).
  assert (X : common_set rod wide (mkV3 1 0 5)).
  { split; [|apply rod_lat; cbn; lra]. apply dk_char; [assumption..|lra|]. split; coords; lra. }
  apply (eval_ellipse_disk 1000 wide_ops [SetMinIsDistance thr; SetEps (1 / 10)] rod wide_ell _ _ (1 / 10) half_ell (mkV3 1 0 5) thr eq_refl eq_refl).
  - reflexivity.
  - lra.
  - exact rod_ok.
  - unfold wide_ell. apply dk_face; try assumption; lra.
  - unfold wide_ell. apply dk_larger; try assumption; lra.
  - intros x Hx. cbn [k_face_box one_kernel eo_int wide_ops]. apply dk_char in Hx; [|assumption..|lra]. destruct Hx as [_ Hx].
    unfold in_box, rod_box. revert Hx. coords. intros Hx.
    pose proof (Rle_0_sqr (vx x - 0)) as S1. pose proof (Rle_0_sqr (vy x - 0)) as S2. pose proof (Rle_0_sqr (vz x - 5)) as S3. unfold Rsqr in *.
    assert (Q : forall u, u * u <= 4 * 4 -> -4 <= u <= 4) by (intros; nra).
    pose proof (Q (vx x - 0) ltac:(lra)). pose proof (Q (vy x - 0) ltac:(lra)). pose proof (Q (vz x - 5) ltac:(lra)). cbn. lra.
  - apply ops_boxed.
  - intros _. exists (mkV3 0 0 5). split; [reflexivity|]. split; [apply wide_canonical|apply (proj1 wide_canonical)].
  - exact wide_canonical.
  - exact X.
  - discriminate.
  - eexists. split; reflexivity.
  - reflexivity.
  - reflexivity.
  - reflexivity.
  - exact wide_curves.
Qed.

(** a disk and another one two above it *)
Definition above : face R := FDisk (mkEll (mkV3 0 0 2) e1 e2 e3 1 1).
Definition above_ops : ent_ops R := mkEntOps R xk ramp_ops (fun _ _ => Ok 2) (fun _ _ => Ok 0) (fun _ _ => Ok 0) (fun _ => Ok 0).
Lemma above_dist : set_dist (face_set da) (face_set above) 2.
Proof.
  assert (C : forall e x, in_disk 1 e x -> e_maj e = e1 -> e_min e = e2 -> vz x = vz (e_c e)).
  { intros e x (a & b & _ & ->) -> ->. unfold at_coords, e1, e2. coords. ring. }
  split.
  - exists (mkV3 0 0 0), (mkV3 0 0 2). split; [|split].
    + exists 0, 0. split; [cbn [da disk_xy e_a e_b]; unfold Rdiv; rewrite !Rmult_0_l; lra|]. apply v3_eq; cbn; ring.
    + exists 0, 0. split; [cbn [above e_a e_b]; unfold Rdiv; rewrite !Rmult_0_l; lra|]. apply v3_eq; cbn; ring.
    + apply root_is; [lra|]. coords. rn. ring.
  - intros x y Hx Hy. apply C in Hx; [|reflexivity..]. apply C in Hy; [|reflexivity..]. cbn in Hx, Hy. apply root_above; [lra|]. coords. rewrite Hx, Hy.
    pose proof (Rle_0_sqr (vx x - vx y)). pose proof (Rle_0_sqr (vy x - vy y)). unfold Rsqr in *. lra.
Qed.
Lemma above_case thr : exists b,
  ent_evaluate 1000 above_ops (crun 0 [SetEps (1 / 10); SetMinDistance thr]) (EFace da) (EFace above) = Ok b /\ (b = true <-> thr <= 2).
Proof.
  destruct (eval_apart 1000 above_ops [SetMinDistance thr; SetEps (1 / 10)] da above _ _ ltac:(intros (H & _); discriminate H) eq_refl eq_refl) as (b & E & Q).
  - cbn. lra.
  - apply disk_xy_ok; lra.
  - split; [|cbn; lra]. destruct (disk_xy_ok 0 0 1 ltac:(lra)) as [H _]. exact H.
  - exact I.
  - split; [exists 1; split; [lra|cbn; apply v3_eq; cbn; ring]|]. intros q Hq. apply Rle_trans with 2; [cbn; lra|]. apply root_above; [lra|].
    revert Hq. unfold plane_pts, on_plane, da, above, disk_xy, face_plane, ell_plane, plane_basis. cbn [pl_n pl_sup e_n e_c]. unfold e3. coords. intros Hq.
    assert (vz q = 0) as -> by lra. pose proof (Rle_0_sqr (0 - vx q)). pose proof (Rle_0_sqr (0 - vy q)). unfold Rsqr in *. lra.
  - exists 2. split; [exact above_dist|reflexivity].
  - exists b. split; [exact E|]. rewrite Q. cbn [active_distance holds_if_set]. split.
    + intros H. apply H, above_dist.
    + intros H d Hd. rewrite (set_dist_unique _ _ _ _ Hd above_dist). exact H.
Qed.
