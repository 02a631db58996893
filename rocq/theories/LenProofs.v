(** Proofs about default tolerances, the boundary of boxes and lengths. *)

From Coq Require Import Reals Lra Lia Psatz List Bool Machin.
From Coquelicot Require Import Coquelicot.
From Verif Require Import Base NumModel VecModel LinModel RoundModel PolyModel DistModel GeoSpec LinSpec
  PolySpec DistSpec GeoLemmas LinProofs BoxProofs PolyProofs PolyBridge QuadProofs PolyExamples DistProofs.
Import ListNotations.
Local Open Scope R_scope.

(** *** The boundary of boxes *)
Lemma box_quads (b : box R) : exists qs, map (box_face_quad b) (seq 0 6) = map Ok qs /\
  forall q, In q qs -> exists i, box_face_quad b i = Ok q.
Proof.
  eexists [_; _; _; _; _; _]. split; [reflexivity|].
  intros q [<-|[<-|[<-|[<-|[<-|[<-|[]]]]]]];
    [exists 0%nat|exists 1%nat|exists 2%nat|exists 3%nat|exists 4%nat|exists 5%nat]; reflexivity.
Qed.
Lemma box_face_quad_inv (b : box R) i q : box_face_quad b i = Ok q ->
  exists p3, box_face b i = Ok (q_0 q, q_1 q, q_2 q, p3).
Proof.
  unfold box_face_quad. destruct (box_face b i) as [[[[p0 p1] p2] p3]| | |]; cbn; try discriminate.
  intros E. injection E as <-. exists p3. reflexivity.
Qed.
Lemma box_boundary_dist (b : box R) p top fd d : box_ok b ->
  (forall i f, box_face_quad b i = Ok f -> dist_to (on_parallelogram (q_0 f) (q_1 f) (q_2 f)) p (fd f p)) ->
  dist_to (on_bounding_face b) p d -> d <= top -> dist_box_boundary top fd p b = Ok d.
Proof.
  intros Hb Hf [(y & Hy & Ed) Hm] Ht. destruct (box_quads b) as (qs & Eq & Hq).
  unfold dist_box_boundary. rewrite (fold_nmin_ext (box_face_quad b) (fun f => fd f p)).
  rewrite (fold_ok Rmin (box_face_quad b) (fun f => fd f p) _ _ _ Eq). f_equal.
  set (ds := map (fun f => fd f p) qs). destruct (fold_min_le ds top) as [H1 H2].
  assert (Hl : forall x, In x ds -> d <= x).
  { intros x Hx. apply in_map_iff in Hx as (q & <- & Hi). destruct (Hq q Hi) as [i Ei].
    destruct (Hf i q Ei) as [(z & Hz & <-) _]. apply Hm.
    destruct (box_face_quad_inv b i q Ei) as [p3 E3]. apply (box_face_sound b i _ _ _ _ z Hb E3), Hz. }
  assert (Hu : exists x, In x ds /\ x <= d).
  { destruct (box_face_complete b y Hb Hy) as (i & p0 & p1 & p2 & p3 & Ei & Hp).
    assert (E : box_face_quad b i = Ok (make_quad p0 p1 p2 p3)) by (unfold box_face_quad; rewrite Ei; reflexivity).
    exists (fd (make_quad p0 p1 p2 p3) p). split.
    - apply in_map_iff. eexists. split; [reflexivity|].
      assert (Hi : (i < 6)%nat).
      { destruct (Nat.lt_ge_cases i 6); [assumption|]. destruct (box_face_total b i) as [_ X]. rewrite (X H) in Ei. discriminate. }
      assert (In (box_face_quad b i) (map Ok qs)).
      { rewrite <- Eq. apply in_map, in_seq. lia. }
      apply in_map_iff in H as (q & E' & Hq'). rewrite E in E'. injection E' as <-. exact Hq'.
    - destruct (Hf i _ E) as [_ M]. rewrite <- Ed. apply M. exact Hp. }
  destruct Hu as (x & Hx & Hxd). specialize (H2 x Hx).
  destruct (fold_min_in ds top) as [Et|Hi]; [lra|]. specialize (Hl _ Hi). lra.
Qed.

(** *** Default tolerances *)
Lemma psub_scale k (a b : pt) : psub (pscale k a) (pscale k b) = pscale k (psub a b).
Proof. destruct a, b. coords. v3; ring. Qed.
Lemma norm_scale k (a : pt) : 0 <= k -> norm (pscale k a) = k * norm a.
Proof.
  intros Hk. unfold norm. transitivity (sqrt (k * k) * sqrt (dot a a)); [|rewrite sqrt_square by exact Hk; reflexivity].
  rewrite <- sqrt_mult by (try apply dot_nonneg; nra).
  f_equal. destruct a. coords. ring.
Qed.
Lemma dist_scale k (a b : pt) : 0 <= k -> dist (pscale k a) (pscale k b) = k * dist a b.
Proof. intros Hk. unfold dist. rewrite psub_scale. apply norm_scale, Hk. Qed.
Lemma orient_scale k N a b c : orient N (pscale k a) (pscale k b) (pscale k c) = k * k * orient N a b c.
Proof. unfold orient. destruct N, a, b, c. coords. ring. Qed.
Lemma area3_scale k a b c : area3 (pscale k a) (pscale k b) (pscale k c) = k * k * area3 a b c.
Proof.
  unfold area3.
  rewrite !psub_scale.
  replace (cross (pscale k (psub b a)) (pscale k (psub c a))) with (pscale (k * k) (cross (psub b a) (psub c a)))
    by (destruct a, b, c; coords; v3; ring).
  rewrite norm_scale by nra. lra.
Qed.

Lemma eps_positive :
  (forall s : segment R, s_src s <> s_tgt s -> 0 < eps_segment s) /\
  (forall c : ell R, 0 < e_a c -> 0 < eps_circle c) /\
  (forall e : ell R, 0 < e_a e -> 0 < e_b e -> 0 < eps_ellipse e /\ 0 < eps_disk e) /\
  (forall c : cyl R, 0 < cyl_radius c -> 0 < c_h c -> 0 < eps_surf c) /\
  (forall b : box R, b_min b <> b_max b -> exists e, eps_box b = Ok e /\ 0 < e) /\
  (forall s : sphere R, 0 < sp_r s -> 0 < eps_sphere s).
Proof.
  unfold eps_segment, eps_circle, eps_disk, eps_ellipse, eps_surf, eps_sphere. rewrite !confusion_R. rn.
  split; [|split; [|split; [|split; [|split]]]].
  - intros s Hs. rewrite seg_len_eq. apply Rmult_lt_0_compat; [lra|]. apply norm_pos. intros E. apply Hs.
    symmetry in E. apply dist_zero. unfold dist. rewrite <- E. unfold norm. replace (dot zero3 zero3) with 0 by (coords; ring). apply sqrt_0.
  - intros c Hc. lra.
  - intros e Ha Hb. cbn [disk_ellipse make_ell e_a e_b]. split; lra.
  - intros c Hr Hh. nra.
  - intros b Hb. unfold eps_box. cbn [box_corner obind]. rn. eexists. split; [reflexivity|].
    rewrite seg_len_eq. rewrite confusion_R. apply Rmult_lt_0_compat; [lra|]. cbn [s_src s_tgt].
    apply norm_pos. intros E. apply Hb. destruct (b_min b) as [x y z], (b_max b) as [x' y' z']. coords.
    injection E as E1 E2 E3. v3; lra.
  - intros s Hs. lra.
Qed.

Lemma eps_scaling k : 0 < k ->
  (forall s : segment R, eps_segment (scaled_seg k s) = k * eps_segment s) /\
  (forall c : ell R, eps_circle (scaled_ell k c) = k * eps_circle c) /\
  (forall e : ell R, eps_ellipse (scaled_ell k e) = k * eps_ellipse e /\
                     eps_disk (scaled_ell k e) = k * eps_disk e) /\
  (forall c : cyl R, eps_surf (scaled_cyl k c) = k * eps_surf c) /\
  (forall b : box R, eps_box (scaled_box k b) = omapo (Rmult k) (eps_box b)) /\
  (forall s : sphere R, eps_sphere (scaled_sphere k s) = k * eps_sphere s).
Proof.
  intros Hk. unfold eps_segment, eps_circle, eps_disk, eps_ellipse, eps_surf, eps_sphere. rewrite !confusion_R. rn.
  split; [|split; [|split; [|split; [|split]]]].
  - intros s. rewrite !seg_len_eq. cbn [scaled_seg s_src s_tgt]. rewrite dist_scale by lra. lra.
  - intros c. cbn [scaled_ell e_a]. lra.
  - intros e. cbn [disk_ellipse make_ell scaled_ell e_a e_b]. split; lra.
  - intros c. unfold cyl_radius. cbn [scaled_cyl scaled_ell c_bot c_h e_a]. lra.
  - intros b. unfold eps_box. cbn [box_corner obind omapo]. rewrite !seg_len_eq, confusion_R. rn. cbn [s_src s_tgt scaled_box b_min b_max].
    f_equal. rewrite <- (Rmult_assoc k), (Rmult_comm k), Rmult_assoc. f_equal. rewrite <- dist_scale by lra.
    f_equal.
  - intros s. cbn [scaled_sphere sp_r]. lra.
Qed.

Lemma eps_quad_pos p0 p1 p2 p3 : noncollinear p0 p1 p3 \/ noncollinear p0 p3 p2 ->
  0 < eps_quad (make_quad p0 p1 p2 p3).
Proof.
  intros Hc. unfold eps_quad. rewrite confusion_R, quad_area_eq. rn.
  assert (Hp : forall a b c, noncollinear a b c -> 0 < area3 a b c).
  { intros a b c Hn. unfold area3. pose proof (norm_pos _ Hn). lra. }
  assert (0 < sqrt (area3 p0 p1 p3 + area3 p0 p3 p2)); [|lra]. apply sqrt_lt_R0.
  pose proof (area3_nonneg p0 p1 p3). pose proof (area3_nonneg p0 p3 p2).
  destruct Hc as [Hc|Hc]; specialize (Hp _ _ _ Hc); lra.
Qed.
Lemma sqrt_scale k x : 0 <= k -> 0 <= x -> sqrt (k * k * x) = k * sqrt x.
Proof. intros Hk Hx. rewrite sqrt_mult by nra. rewrite sqrt_square by assumption. reflexivity. Qed.
Lemma eps_quad_scale k p0 p1 p2 p3 : 0 < k ->
  eps_quad (make_quad (pscale k p0) (pscale k p1) (pscale k p2) (pscale k p3)) = k * eps_quad (make_quad p0 p1 p2 p3).
Proof.
  intros Hk. unfold eps_quad. rewrite confusion_R, !quad_area_eq, !area3_scale. rn.
  rewrite <- Rmult_plus_distr_l, sqrt_scale; [lra|lra|].
  pose proof (area3_nonneg p0 p1 p3). pose proof (area3_nonneg p0 p3 p2). lra.
Qed.

Section PolyEps.
Variables (N : pt) (cs : list pt) (pg : poly R).
Hypothesis HC : convex_ccw N cs.
Hypothesis HP : proper_edges cs.
Hypothesis E : make_poly cs = Ok pg.
Lemma eps_poly_eq : eps_poly pg = Ok (1 / 2 * sqrt (shoelace N cs) * (1 / 10000000)) /\
  0 < 1 / 2 * sqrt (shoelace N cs) * (1 / 10000000).
Proof.
  destruct (poly_area_ok N cs pg HC HP E) as [H1 H2]. unfold eps_poly. rewrite H1. cbn [obind]. rewrite confusion_R. rn.
  split; [reflexivity|]. pose proof (sqrt_lt_R0 _ H2). lra.
Qed.
End PolyEps.
Lemma eps_poly_pos N cs pg : convex_ccw N cs -> proper_edges cs -> make_poly cs = Ok pg ->
  exists e, eps_poly pg = Ok e /\ 0 < e.
Proof. intros HC HP E. eexists. apply (eps_poly_eq N cs pg HC HP E). Qed.

Lemma chain_map f (l : list pt) : chain (map f l) = map (fun ab => (f (fst ab), f (snd ab))) (chain l).
Proof.
  induction l as [|a l IH]; [reflexivity|]. destruct l as [|b l]; [reflexivity|].
  change (chain (map f (a :: b :: l))) with ((f a, f b) :: chain (map f (b :: l))). rewrite IH. reflexivity.
Qed.
Lemma edges_map f (l : list pt) : edges (map f l) = map (fun ab => (f (fst ab), f (snd ab))) (edges l).
Proof. unfold edges. rewrite <- chain_map. f_equal. rewrite map_app, firstn_map. reflexivity. Qed.
Lemma pscale_inj k (a b : pt) : k <> 0 -> pscale k a = pscale k b -> a = b.
Proof.
  intros Hk. destruct a as [x y z], b as [x' y' z']. unfold pscale. cbn [vx vy vz]. intros E. injection E as E1 E2 E3.
  f_equal; eapply Rmult_eq_reg_l; eassumption.
Qed.
Lemma pscale_zero k : pscale k zero3 = zero3.
Proof. coords. v3; ring. Qed.
Lemma proper_scale k cs : 0 < k -> proper_edges cs -> proper_edges (map (pscale k) cs).
Proof.
  intros Hk H ab Hab. rewrite edges_map in Hab. apply in_map_iff in Hab as (cd & <- & Hcd). cbn [fst snd].
  intros X. apply (H cd Hcd). eapply pscale_inj; [|exact X]. lra.
Qed.
Lemma convex_scale k N cs : 0 < k -> convex_ccw N cs -> convex_ccw N (map (pscale k) cs).
Proof.
  intros Hk (H1 & H2 & H3 & H4 & H5). repeat split.
  - exact H1.
  - intros a b Ha Hb. apply in_map_iff in Ha as (a' & <- & Ha). apply in_map_iff in Hb as (b' & <- & Hb).
    rewrite psub_scale. transitivity (k * dot N (psub b' a')); [|rewrite (H2 a' b' Ha Hb); ring].
    generalize (psub b' a'). clear. intros [x y z]. destruct N. coords. ring.
  - rewrite map_length. exact H3.
  - intros i j l Hi Hl. rewrite map_length in Hl. rewrite <- (pscale_zero k), !map_nth, orient_scale.
    specialize (H4 i j l Hi Hl). nra.
  - rewrite <- (pscale_zero k), !map_nth, orient_scale. apply Rmult_lt_0_compat; [nra|exact H5].
Qed.
Lemma sum_scale k l : sum (map (Rmult k) l) = k * sum l.
Proof. induction l as [|a l IH]; cbn; [lra|]. unfold sum in IH. rewrite IH. lra. Qed.
Lemma shoelace_scale k N cs : shoelace N (map (pscale k) cs) = k * k * shoelace N cs.
Proof.
  unfold shoelace. rewrite edges_map, map_map.
  replace (map _ (edges cs)) with (map (Rmult (k * k)) (map (fun ab => det3 (fst ab) (snd ab) N) (edges cs))).
  - rewrite sum_scale. lra.
  - rewrite map_map. apply map_ext. intros [a b]. cbn [fst snd]. destruct a, b, N. coords. ring.
Qed.
Lemma eps_poly_scale k N cs pg pg' : 0 < k -> convex_ccw N cs -> proper_edges cs -> make_poly cs = Ok pg ->
  make_poly (map (pscale k) cs) = Ok pg' -> eps_poly pg' = omapo (Rmult k) (eps_poly pg).
Proof.
  intros Hk HC HP E E'. rewrite (proj1 (eps_poly_eq N cs pg HC HP E)).
  rewrite (proj1 (eps_poly_eq N _ pg' (convex_scale k N cs Hk HC) (proper_scale k cs Hk HP) E')).
  rewrite shoelace_scale. pose proof (shoelace_pos N cs HC). rewrite sqrt_scale by lra. unfold omapo. cbn [obind]. f_equal. field.
Qed.
Lemma eps_poly_throws (cs : list pt) pg : make_poly cs = Ok pg -> po_convex pg = false ->
  eps_poly pg = Throw RuntimeError /\ forall p, on_poly_boundary_default p pg = Throw RuntimeError.
Proof. intros _ H. unfold on_poly_boundary_default, eps_poly, poly_get_area. rewrite H. auto. Qed.
Lemma eps_generic_const {G} (g : G) : eps_generic g = 1 / 10000000.
Proof. reflexivity. Qed.

(** *** Lengths *)
Lemma speed_continuous a b t : continuous (speed a b) t.
Proof.
  unfold speed, Rsqr. apply (continuous_comp (fun t => a * sin t * (a * sin t) + b * cos t * (b * cos t)) sqrt); [|apply continuous_sqrt].
  apply (ex_derive_continuous (V := R_NormedModule)). auto_derive. trivial.
Qed.
Lemma speed_int a b u v : ex_RInt (speed a b) u v.
Proof. apply (ex_RInt_continuous (V := R_CompleteNormedModule)). intros; apply speed_continuous. Qed.

Lemma perimeter_circle r : 0 <= r -> perimeter r r = 2 * PI * r.
Proof.
  intros Hr. unfold perimeter. rewrite (RInt_ext _ (fun _ => r)).
  - rewrite RInt_const. unfold scal. cbn. unfold mult. cbn. ring.
  - intros x _. unfold speed. replace (_ + _) with (r * r * (Rsqr (sin x) + Rsqr (cos x))) by (unfold Rsqr; ring).
    rewrite sin2_cos2, Rmult_1_r. apply sqrt_square, Hr.
Qed.

(** a lower bound with a simple antiderivative *)
Definition low (a b t : R) : R := a * Rsqr (sin t) + b * Rsqr (cos t).
Lemma low_le a b t : 0 <= a -> 0 <= b -> low a b t <= speed a b t.
Proof.
  intros Ha Hb. unfold low, speed. rewrite <- (sqrt_square (a * _ + _)).
  - apply sqrt_le_1_alt. pose proof (sin2_cos2 t) as E. set (s2 := Rsqr (sin t)) in *. set (c2 := Rsqr (cos t)) in *.
    rewrite !Rsqr_mult. fold s2 c2. assert (0 <= s2) by apply Rle_0_sqr. assert (0 <= c2) by apply Rle_0_sqr.
    unfold Rsqr. replace (a * a * s2 + b * b * c2) with ((a * a * s2 + b * b * c2) * (s2 + c2)) by (rewrite E; ring).
    assert (0 <= s2 * c2 * ((a - b) * (a - b))) by (apply Rmult_le_pos; [apply Rmult_le_pos; assumption|apply Rle_0_sqr]).
    assert ((a * a * s2 + b * b * c2) * (s2 + c2) - (a * s2 + b * c2) * (a * s2 + b * c2) = s2 * c2 * ((a - b) * (a - b))) by ring. lra.
  - pose proof (Rle_0_sqr (sin t)). pose proof (Rle_0_sqr (cos t)). nra.
Qed.
Lemma low_lt a b t : 0 < a -> 0 < b -> a <> b -> sin t <> 0 -> cos t <> 0 -> low a b t < speed a b t.
Proof.
  intros Ha Hb Hab Hs Hc. unfold low, speed. rewrite <- (sqrt_square (a * _ + _)).
  - apply sqrt_lt_1_alt. pose proof (sin2_cos2 t) as E. pose proof (Rlt_0_sqr _ Hs). pose proof (Rlt_0_sqr _ Hc).
    set (s2 := Rsqr (sin t)) in *. set (c2 := Rsqr (cos t)) in *. split; [apply Rle_0_sqr|].
    rewrite !Rsqr_mult. fold s2 c2. unfold Rsqr.
    replace (a * a * s2 + b * b * c2) with ((a * a * s2 + b * b * c2) * (s2 + c2)) by (rewrite E; ring).
    assert (0 < (a - b) * (a - b)) by (apply Rsqr_pos_lt; lra).
    assert (0 < s2 * c2 * ((a - b) * (a - b))) by (apply Rmult_lt_0_compat; [apply Rmult_lt_0_compat|]; assumption).
    assert ((a * a * s2 + b * b * c2) * (s2 + c2) - (a * s2 + b * c2) * (a * s2 + b * c2) = s2 * c2 * ((a - b) * (a - b))) by ring. lra.
  - pose proof (Rle_0_sqr (sin t)). pose proof (Rle_0_sqr (cos t)). nra.
Qed.
Lemma low_continuous a b t : continuous (low a b) t.
Proof. unfold low, Rsqr. apply (ex_derive_continuous (V := R_NormedModule)). auto_derive. trivial. Qed.
Lemma low_int a b : is_RInt (low a b) 0 (2 * PI) (PI * (a + b)).
Proof.
  set (F := fun t => a * ((t - sin t * cos t) / 2) + b * ((t + sin t * cos t) / 2)).
  replace (PI * (a + b)) with (minus (F (2 * PI)) (F 0)).
  - apply (is_RInt_derive (V := R_CompleteNormedModule)).
    + intros x _. unfold F, low. auto_derive; [trivial|]. pose proof (sin2_cos2 x) as E. unfold Rsqr in *.
      replace (cos x * cos x) with (1 - sin x * sin x) by lra. field_simplify.
      replace (cos x ^ 2) with (1 - sin x * sin x) by (rewrite <- E; ring). field.
    + intros x _. apply low_continuous.
  - unfold F, minus, plus, opp. cbn. rewrite sin_2PI, sin_0. field.
Qed.
Lemma perimeter_lt a b : 0 < a -> 0 < b -> a <> b -> PI * (a + b) < perimeter a b.
Proof.
  intros Ha Hb Hab. unfold perimeter. pose proof PI_RGT_0 as HPI.
  rewrite <- (is_RInt_unique _ _ _ _ (low_int a b)).
  assert (Hi : forall u v, ex_RInt (low a b) u v).
  { intros. apply (ex_RInt_continuous (V := R_CompleteNormedModule)). intros; apply low_continuous. }
  rewrite <- (RInt_Chasles (low a b) 0 (PI / 2) (2 * PI)) by apply Hi.
  rewrite <- (RInt_Chasles (speed a b) 0 (PI / 2) (2 * PI)) by apply speed_int.
  unfold plus. cbn. apply Rplus_lt_le_compat.
  - apply RInt_lt; [lra|intros; apply speed_continuous|intros; apply low_continuous|].
    intros x Hx. apply low_lt; try assumption.
    + apply Rgt_not_eq, sin_gt_0; lra.
    + apply Rgt_not_eq, cos_gt_0; lra.
  - apply RInt_le; [lra|apply Hi|apply speed_int|]. intros x _. apply low_le; lra.
Qed.
Lemma perimeter_big a b : 0 < a -> 0 <= b -> 4 * a <= perimeter a b.
Proof.
  intros Ha Hb. unfold perimeter. pose proof PI_RGT_0 as HPI.
  assert (Hs : forall u v, is_RInt (fun t => a * sin t) u v (a * cos u - a * cos v)).
  { intros u v. replace (a * cos u - a * cos v) with (minus ((fun t => - (a * cos t)) v) ((fun t => - (a * cos t)) u))
      by (unfold minus, plus, opp; cbn; ring).
    apply (is_RInt_derive (V := R_CompleteNormedModule) (fun t => - (a * cos t))).
    - intros x _. auto_derive; [trivial|ring].
    - intros x _. apply (ex_derive_continuous (V := R_NormedModule)). auto_derive. trivial. }
  assert (Hs' : forall u v, is_RInt (fun t => - (a * sin t)) u v (a * cos v - a * cos u)).
  { intros u v. apply (is_RInt_derive (V := R_CompleteNormedModule) (fun t => a * cos t)).
    - intros x _. auto_derive; [trivial|ring].
    - intros x _. apply (ex_derive_continuous (V := R_NormedModule)). auto_derive. trivial. }
  rewrite <- (RInt_Chasles (speed a b) 0 PI (2 * PI)) by apply speed_int. unfold plus. cbn.
  assert (Hle : forall t, Rabs (a * sin t) <= speed a b t).
  { intros t. unfold speed. rewrite <- sqrt_Rsqr_abs. apply sqrt_le_1_alt. pose proof (Rle_0_sqr (b * cos t)). lra. }
  assert (2 * a <= RInt (speed a b) 0 PI).
  { replace (2 * a) with (RInt (fun t => a * sin t) 0 PI).
    - apply RInt_le; [lra|eexists; apply Hs|apply speed_int|]. intros x _. eapply Rle_trans; [apply Rle_abs|apply Hle].
    - rewrite (is_RInt_unique _ _ _ _ (Hs 0 PI)), cos_0, cos_PI.
      match goal with |- ?x = ?y => change (@eq R x y) end. ring. }
  assert (2 * a <= RInt (speed a b) PI (2 * PI)).
  { replace (2 * a) with (RInt (fun t => - (a * sin t)) PI (2 * PI)).
    - apply RInt_le; [lra|eexists; apply Hs'|apply speed_int|].
      intros x _. eapply Rle_trans; [|apply Hle]. rewrite <- Rabs_Ropp. apply Rle_abs.
    - rewrite (is_RInt_unique _ _ _ _ (Hs' PI (2 * PI))).
      rewrite cos_2PI, cos_PI. unfold opp. cbn.
      match goal with |- ?x = ?y => change (@eq R x y) end. ring. }
  apply Rle_trans with (2 * a + 2 * a); [lra|]. apply Rplus_le_compat; assumption.
Qed.

Lemma circle_length (c n : pt) r : 0 <= r -> length_circle (make_circle c n r) = perimeter r r.
Proof. intros Hr. rewrite perimeter_circle by assumption. unfold length_circle. rn. reflexivity. Qed.
Lemma ellipse_length (e : ell R) : 0 < e_a e -> 0 < e_b e -> e_a e <> e_b e ->
  length_ellipse e < perimeter (e_a e) (e_b e).
Proof. intros. unfold length_ellipse. rn. apply perimeter_lt; assumption. Qed.
Lemma full_arc_length (c : arc R) : 0 < e_a (a_ell c) -> 0 < e_b (a_ell c) -> e_a (a_ell c) <> e_b (a_ell c) ->
  length_full_arc c < perimeter (e_a (a_ell c)) (e_b (a_ell c)).
Proof. intros. unfold length_full_arc. rn. apply perimeter_lt; assumption. Qed.
Lemma thin_ellipse_length (e : ell R) : 0 < e_a e -> 0 < e_b e <= e_a e / 100 ->
  length_ellipse e < 8 / 10 * perimeter (e_a e) (e_b e).
Proof.
  intros Ha Hb. pose proof (perimeter_big (e_a e) (e_b e) Ha ltac:(lra)).
  assert (length_ellipse e < 32 / 10 * e_a e); [|lra]. unfold length_ellipse. rn.
  pose proof PI_RGT_0. assert (HP : PI < 316 / 100).
  { pose proof (PI_2_3_7_ineq 1) as [_ H']. unfold tg_alt, PI_2_3_7_tg, Ratan_seq in H'. cbn in H'. lra. }
  apply Rle_lt_trans with (PI * (e_a e * (101 / 100))); [apply Rmult_le_compat_l; lra|]. nra.
Qed.
Lemma contained_sum {G P} dim (pieces : G -> list P) mag (g : G) : (0 < dim)%nat ->
  contained_magnitude dim pieces mag g = sum (map mag (pieces g)).
Proof.
  intros Hd. destruct dim as [|dim]; [lia|]. cbn [contained_magnitude].
  assert (H : forall l m, fold_left (fun m x => m + mag x) l m = m + sum (map mag l)).
  { induction l as [|a l IH]; intros m; cbn [fold_left map]; [cbn; lra|]. rewrite IH. cbn. unfold sum. lra. }
  destruct (pieces g) as [|x l]; [reflexivity|]. rn. rewrite H. cbn [IZR]. lra.
Qed.

(** *** Examples *)
Lemma dist_3d (a b c x y z d : R) : 0 <= d -> (a - x) * (a - x) + (b - y) * (b - y) + (c - z) * (c - z) = d * d ->
  dist (mkV3 a b c) (mkV3 x y z) = d.
Proof. intros Hd E. unfold dist, norm. coords. rewrite E. apply sqrt_square, Hd. Qed.

(** a point that is 5 away from an end point, and one closer to the line through the segment *)
Lemma dist_case : let s := mkSeg (mkV3 0 0 0) (mkV3 4 0 0) in
  dist_segment (mkV3 7 4 0) s = 5 /\ dist_segment (mkV3 1 2 0) s = 2.
Proof.
  cbn zeta. assert (Hne : s_src (mkSeg (mkV3 0 0 0) (mkV3 4 0 0 : pt)) <> s_tgt (mkSeg (mkV3 0 0 0) (mkV3 4 0 0))).
  { cbn. intros E. injection E. lra. }
  assert (Hl : forall p x, closest (on_line (mkV3 0 0 0) (psub (mkV3 4 0 0) (mkV3 0 0 0))) p x -> x = mkV3 (vx p) 0 0).
  { intros [px py pz] x [[t ->] Hm]. cbn [vx].
    specialize (Hm (mkV3 px 0 0)).
    assert (Hi : on_line (mkV3 0 0 0) (psub (mkV3 4 0 0) (mkV3 0 0 0)) (mkV3 px 0 0)).
    { exists (px / 4). coords. v3; field. }
    specialize (Hm Hi). rewrite dist_le_iff in Hm. coords. v3; try ring. nra. }
  assert (L4 : dist (mkV3 0 0 0 : pt) (mkV3 4 0 0) = 4) by (apply dist_3d; lra).
  split; apply dist_segment_exact; try exact Hne; cbn [s_src s_tgt].
  - apply seg_case.
  - intros x Hx. apply Hl in Hx. subst x. right. intros y (t & Ht & ->). rewrite L4. cbn [vx].
    unfold dist, norm. apply Rle_trans with (sqrt (3 * 3)); [rewrite sqrt_square; lra|]. apply sqrt_le_1_alt. coords. nra.
  - split; [exists (mkV3 1 0 0); split; [exists (1 / 4); split; [lra|coords; v3; lra]|apply dist_3d; lra]|].
    intros y (t & Ht & ->). unfold dist, norm. rewrite <- (sqrt_square 2) at 1 by lra. apply sqrt_le_1_alt. coords.
    pose proof (Rle_0_sqr (1 - 4 * t)) as X. unfold Rsqr in X. lra.
  - intros x Hx. apply Hl in Hx. subst x. left. exists (1 / 4). split; [lra|]. coords. v3; lra.
Qed.

(** the tolerance of the containment test is visible: a point beyond the end of the segment has
    distance zero *)
Lemma dist_tolerance : let s := mkSeg (mkV3 0 0 0) (mkV3 1000000 0 0) in
  let p := mkV3 (1000000 + 5 / 100) 0 0 in
  dist_segment p s = 0 /\ forall y, on_segment (s_src s) (s_tgt s) y -> 5 / 100 <= dist p y.
Proof.
  cbn zeta. set (s := mkSeg (mkV3 0 0 0 : pt) (mkV3 1000000 0 0)).
  assert (Hne : s_src s <> s_tgt s) by (cbn; intros E; injection E; lra).
  assert (L : dist (s_src s) (s_tgt s) = 1000000) by (apply dist_3d; lra).
  assert (EL : norm (psub (s_tgt s) (s_src s)) = 1000000).
  { change (dist (s_tgt s) (s_src s) = 1000000). rewrite dist_sym. exact L. }
  assert (Ed : seg_dir s = mkV3 1 0 0).
  { unfold seg_dir. rewrite vec_to_psub, to_dir_scale by (apply seg_nondeg, Hne). rewrite EL. cbn. coords. v3; field. }
  set (p := mkV3 (1000000 + 5 / 100) 0 0 : pt).
  assert (Eq : line_proj (seg_line s) p = p).
  { rewrite line_proj_eq. cbn [seg_line l_sup l_dir]. rewrite Ed. unfold p, s. cbn [s_src]. coords. v3; lra. }
  split.
  - rewrite (res_eq s p Hne).
    replace (seg_contains_default s (line_proj (seg_line s) p) true) with true.
    + rewrite Eq. replace (dot (psub p p) (psub p p)) with 0 by (unfold p; coords; ring). apply sqrt_0.
    + symmetry. apply (q_contained s p Hne). rewrite EL, Ed. right. right. unfold p, s. cbn [s_src]. coords.
      apply Rabs_def1; lra.
  - intros y (t & Ht & ->). unfold dist, norm. rewrite <- (sqrt_square (5 / 100)) by lra. apply sqrt_le_1_alt.
    unfold p, s. cbn [s_src s_tgt]. coords. nra.
Qed.

Lemma square_edges : edges square = [(fl 0 0, fl 1 0); (fl 1 0, fl 1 1); (fl 1 1, fl 0 1); (fl 0 1, fl 0 0)].
Proof. reflexivity. Qed.
Lemma boundary_case : edges_below 1 square /\ boundary square (fl (1 / 2) 0).
Proof.
  split.
  - intros ab Hab. rewrite square_edges in Hab. apply Req_le.
    destruct Hab as [<-|[<-|[<-|[<-|[]]]]]; cbn [fst snd]; unfold fl; apply dist_3d; lra.
  - exists (fl 0 0, fl 1 0). split; [left; reflexivity|]. exists (1 / 2). split; [lra|]. unfold fl. cbn [fst snd]. coords. v3; lra.
Qed.

Definition cube : box R := mkBox (mkV3 0 0 0) (mkV3 1 1 1).
Definition mid : pt := mkV3 (1 / 2) (1 / 2) (1 / 2).
Lemma mid_low (y : pt) : vx y = 0 \/ vx y = 1 \/ vy y = 0 \/ vy y = 1 \/ vz y = 0 \/ vz y = 1 -> 1 / 2 <= dist mid y.
Proof.
  intros H. unfold dist, norm. rewrite <- (sqrt_square (1 / 2)) by lra. apply sqrt_le_1_alt.
  destruct y as [x y z]. unfold mid. coords.
  pose proof (Rle_0_sqr (1 / 2 - x)) as X. pose proof (Rle_0_sqr (1 / 2 - y)) as Y. pose proof (Rle_0_sqr (1 / 2 - z)) as Z.
  unfold Rsqr in *. destruct H as [->|[->|[->|[->|[->| ->]]]]]; lra.
Qed.
Lemma cube_case : box_ok cube /\ dist_to (on_bounding_face cube) mid (1 / 2) /\
  forall i f, box_face_quad cube i = Ok f -> dist_to (on_parallelogram (q_0 f) (q_1 f) (q_2 f)) mid (1 / 2).
Proof.
  assert (Hb : box_ok cube) by (unfold box_ok, cube; cbn; lra). split; [exact Hb|]. split.
  - split.
    + exists (mkV3 0 (1 / 2) (1 / 2)). split; [|apply dist_3d; lra]. unfold on_bounding_face, in_box, cube. cbn. lra.
    + intros y [_ Hy]. apply mid_low. unfold cube in Hy. cbn in Hy. tauto.
  - intros i f E. destruct (box_face_quad_inv cube i f E) as [p3 E3]. split.
    + exists (padd (q_0 f) (padd (pscale (1 / 2) (psub (q_1 f) (q_0 f))) (pscale (1 / 2) (psub (q_2 f) (q_0 f))))). split.
      { exists (1 / 2), (1 / 2). split; [lra|]. split; [lra|reflexivity]. }
      unfold box_face in E3. destruct i as [|[|[|[|[|[|i]]]]]]; cbn in E3; try discriminate;
        injection E3 as <- <- <- <-; coords; unfold mid; cbn [vx vy vz];
        (transitivity (sqrt (1 / 2 * (1 / 2))); [f_equal; field|apply sqrt_square; lra]).
    + intros y Hy. apply (box_face_sound cube i _ _ _ _ y Hb E3) in Hy as [_ Hy]. apply mid_low. unfold cube in Hy. cbn in Hy. tauto.
Qed.

(** the dart with the reflex corner in third place is not taken for convex *)
Definition dart3 : list pt := [fl 0 0; fl 4 0; fl 1 1; fl 0 4].
Lemma dart3_flag : exists pg, make_poly dart3 = Ok pg /\ po_convex pg = false.
Proof.
  destruct (make_poly_eq dart3 ltac:(cbn; lia)) as (pg & E & _ & H2 & _). exists pg. split; [exact E|]. rewrite H2.
  unfold corners_convex. cbn zeta. cbn [length Nat.sub dart3 seq forallb]. rewrite !corners_edge_dir.
  cbn [length dart3 Nat.modulo Nat.divmod fst snd Nat.sub nth].
  flat_turn_at E0 0 4 0 0 4 0. flat_turn_at E2 4 0 1 1 0 4.
  rewrite E0, E2, flat_product. rn.
  assert (Hs : forall x, x < 0 -> Rltb x 0 = true) by (intros; apply Rltb_true; assumption).
  rewrite (Hs (k0 * _ * _)) by nra. reflexivity.
Qed.
Lemma eps_case : 0 < eps_segment (mkSeg (mkV3 0 0 0) (mkV3 4 0 0)).
Proof. apply (proj1 eps_positive). cbn. intros E. injection E. lra. Qed.
Lemma length_case : length_ellipse (make_ell zero3 (mkV3 1 0 0) (mkV3 0 1 0) 100 1) < 8 / 10 * perimeter 100 1 /\
  length_segment (mkSeg (mkV3 0 0 0) (mkV3 3 4 0)) = 5 /\
  contained_magnitude 1 (fun l : list R => l) (fun x => x) [1; 2; 4] = 7.
Proof.
  split; [|split].
  - apply (thin_ellipse_length (make_ell zero3 (mkV3 1 0 0) (mkV3 0 1 0) 100 1)); cbn [make_ell e_a e_b]; lra.
  - change (seg_len (mkSeg (mkV3 0 0 0) (mkV3 3 4 0)) = 5). rewrite seg_len_eq. cbn [s_src s_tgt]. apply dist_3d; lra.
  - rewrite contained_sum by lia. cbn. lra.
Qed.
