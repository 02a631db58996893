(** Proofs about the intersection of disks, quadrilaterals and polygons. *)

From Coq Require Import Reals Lra Lia Psatz List Bool ZArith.
From Verif Require Import Base NumModel VecModel LinModel RoundModel PolyModel IntModel
  GeoSpec LinSpec RoundSpec PolySpec IntSpec GeoLemmas LinProofs BoxProofs EllProofs PolyProofs PolyBridge QuadProofs
  SegIntProofs SegIntProofs2 IntProofs.
Import ListNotations.
Local Open Scope R_scope.

(** ** the faces lie in their planes and around their centers *)
Lemma dist_triangle (a b c : pt) : dist a c <= dist a b + dist b c.
Proof.
  unfold dist. replace (psub a c) with (padd (psub a b) (psub b c)) by (pq; ring). apply norm_triangle.
Qed.
Lemma hull_ball cs m r x : (forall c, In c cs -> dist m c <= r) -> hull cs x -> dist m x <= r.
Proof.
  intros Hc. induction 1 as [c Hi|a b x Ha IHa Hb IHb (t & Ht & ->)]; [auto|]. unfold dist in *.
  replace (psub m (padd (pscale (1 - t) a) (pscale t b))) with
    (padd (pscale (1 - t) (psub m a)) (pscale t (psub m b))) by (pq; ring).
  eapply Rle_trans; [apply norm_triangle|]. rewrite !norm_pscale by lra. nra.
Qed.

Lemma face_unit f : face_ok f -> unit3 (pl_n (face_plane f)).
Proof.
  destruct f as [d|q|p]; cbn [face_ok face_plane].
  - intros [[(_ & _ & U & _) _] _]. exact U.
  - intros (N & p0 & p1 & p2 & p3 & HC & ->). apply quad_convex_ccw in HC as (HU & HP & HF & _).
    destruct (planar_quad _ _ _ _ _ HP) as (H1 & H2 & _). cbn [q_plane make_quad].
    rewrite (plane_3p_normal N p0 p1 p2 HU H1 H2 HF). exact HU.
  - intros (N & cs & HC & E & _). pose proof HC as (HU & HP & HL & _ & HF).
    destruct (make_poly_eq cs HL) as (pg & E' & _ & _ & Ep & _). rewrite E in E'. injection E' as <-. rewrite Ep.
    rewrite (plane_3p_normal N); [exact HU|exact HU| | |exact HF]; apply HP; apply nth_In; lia.
Qed.
Lemma face_in f x : face_ok f -> face_set f x -> plane_pts (face_plane f) x.
Proof.
  destruct f as [d|q|p]; cbn [face_ok face_plane face_set].
  - intros [[(U1 & U2 & U & O1 & O2 & O3 & _) _] _] (a & b & _ & ->). unfold plane_pts, on_plane, ell_plane, plane_basis, at_coords.
    cbn [pl_n pl_sup]. unfold ortho in *. 
    replace (dot (e_n d) _) with (a * dot (e_maj d) (e_n d) + b * dot (e_min d) (e_n d)) by (clear; coords; ring).
    rewrite O2, O3. ring.
  - intros (N & p0 & p1 & p2 & p3 & HC & ->) Hx. pose proof HC as HC'. apply quad_convex_ccw in HC as (HU & HP & HF & _).
    destruct (planar_quad _ _ _ _ _ HP) as (H1 & H2 & _). unfold plane_pts, on_plane. cbn [q_plane make_quad].
    rewrite (plane_3p_normal N p0 p1 p2 HU H1 H2 HF). cbn [plane_3p pl_sup].
    apply (hull_plane N _ HC' p0); [unfold around; cbn; auto|exact Hx].
  - intros (N & cs & HC & E & _) Hx. pose proof HC as (HU & HP & HL & _ & HF).
    destruct (make_poly_eq cs HL) as (pg & E' & Ecs & _ & Ep & _). rewrite E in E'. injection E' as <-.
    unfold plane_pts, on_plane. rewrite Ep. rewrite (plane_3p_normal N); [|exact HU| | |exact HF];
      [|apply HP; apply nth_In; lia|apply HP; apply nth_In; lia].
    cbn [plane_3p pl_sup]. rewrite Ecs in Hx. apply (hull_plane N _ HC); [apply nth_In; lia|exact Hx].
Qed.

Lemma disk_radius d x : face_ok (FDisk d) -> face_set (FDisk d) x -> dist (e_c d) x <= e_a d.
Proof.
  cbn [face_ok face_set]. intros [[(U1 & U2 & _ & O & _) [Ha Hb]] Hab] (u & v & H & ->).
  unfold dist, at_coords. apply sq_le_iff; [apply sqrt_pos|lra|]. rewrite norm_sq.
  assert (E : dot (psub (e_c d) (padd (e_c d) (padd (pscale u (e_maj d)) (pscale v (e_min d)))))
     (psub (e_c d) (padd (e_c d) (padd (pscale u (e_maj d)) (pscale v (e_min d))))) = u * u + v * v).
  { unfold unit3, ortho in *.
    transitivity (u * u * dot (e_maj d) (e_maj d) + v * v * dot (e_min d) (e_min d) + 2 * u * v * dot (e_maj d) (e_min d)).
    - clear. coords. ring.
    - rewrite U1, U2, O. ring. }
  rewrite E. rewrite !Rmult_1_l in H.
  assert (Hu : u = (u / e_a d) * e_a d) by (field; lra). assert (Hv : v = (v / e_b d) * e_b d) by (field; lra).
  set (s := u / e_a d) in *. set (t := v / e_b d) in *. clearbody s t. subst u v.
  assert (t * t * (e_b d * e_b d) <= t * t * (e_a d * e_a d)) by (apply Rmult_le_compat_l; nra).
  assert ((s * s + t * t) * (e_a d * e_a d) <= 1 * (e_a d * e_a d)) by (apply Rmult_le_compat_r; nra). nra.
Qed.
Lemma quad_radius q r x : face_ok (FQuad q) -> dist (q_0 q) (q_1 q) <= r -> dist (q_1 q) (q_3 q) <= r ->
  dist (q_0 q) (q_2 q) <= r -> dist (q_2 q) (q_3 q) <= r -> face_set (FQuad q) x -> dist (q_c q) x <= 2 * r.
Proof.
  cbn [face_ok face_set]. intros (N & p0 & p1 & p2 & p3 & HC & E) D01 D13 D02 D23 Hx.
  assert (Hc : hull (around (q_0 q) (q_1 q) (q_2 q) (q_3 q)) (q_c q)).
  { rewrite E. apply (quad_center_hull N). exact HC. }
  clear E. set (a := q_0 q) in *. set (b := q_1 q) in *. set (c := q_2 q) in *. set (e := q_3 q) in *.
  pose proof (dist_nonneg a b).
  assert (Hall : forall u v, In u (around a b c e) -> In v (around a b c e) -> dist u v <= 2 * r).
  { assert (X1 := dist_triangle a b e). assert (X2 := dist_triangle b a c).
    assert (dist b a <= r /\ dist e b <= r /\ dist c a <= r /\ dist e c <= r) as (? & ? & ? & ?)
      by (rewrite (dist_sym b a), (dist_sym e b), (dist_sym c a), (dist_sym e c); auto).
    assert (dist e a <= 2 * r) by (rewrite dist_sym; lra). assert (dist c b <= 2 * r) by (rewrite dist_sym; lra).
    unfold around. cbn. intros u v [<-|[<-|[<-|[<-|[]]]]] [<-|[<-|[<-|[<-|[]]]]]; rewrite ?dist_self; lra. }
  apply (hull_ball (around a b c e)); [|exact Hx]. intros u Hu. rewrite dist_sym.
  apply (hull_ball (around a b c e)); [|exact Hc]. intros v Hv. apply Hall; assumption.
Qed.
Lemma poly_radius p r x : (forall c, In c (po_cs p) -> dist (po_c p) c <= r) -> face_set (FPoly p) x -> dist (po_c p) x <= r.
Proof. cbn. apply hull_ball. Qed.

(** ** the largest entry *)
Lemma nmax_R (a b : R) : a <= nmax a b /\ b <= nmax a b.
Proof. unfold nmax. cbn [nltb R_num]. destruct (Rltb a b) eqn:E; [apply Rltb_true in E|apply Rltb_false in E]; lra. Qed.
Lemma max_from_ge l : forall m : R, m <= max_from m l /\ forall x, In x l -> x <= max_from m l.
Proof.
  unfold max_from. induction l as [|y l IH]; intros m; cbn [fold_left]; [split; [lra|intros x []]|].
  destruct (IH (nmax m y)) as [H1 H2]. destruct (nmax_R m y) as [H3 H4]. split; [lra|].
  intros x [<-|Hx]; [lra|apply H2, Hx].
Qed.
Lemma max_from_mem l : forall m : R, max_from m l = m \/ In (max_from m l) l.
Proof.
  unfold max_from. induction l as [|y l IH]; intros m; cbn [fold_left]; [auto|].
  destruct (IH (nmax m y)) as [->|H]; [|right; right; exact H].
  unfold nmax. destruct (nltb m y); [right; left; reflexivity|left; reflexivity].
Qed.
Lemma quad_edges_le (q : quad R) m : (forall y, In y (quad_sq_edges q) -> y <= m) ->
  dist (q_0 q) (q_1 q) <= sqrt m /\ dist (q_1 q) (q_3 q) <= sqrt m /\ dist (q_0 q) (q_2 q) <= sqrt m /\ dist (q_2 q) (q_3 q) <= sqrt m.
Proof.
  intros H. unfold quad_sq_edges in H. cbn [seq map quad_edge] in H.
  assert (X : forall a b : pt, seg_sqlen (mkSeg a b) <= m -> dist a b <= sqrt m).
  { intros a b. unfold seg_sqlen. cbn [s_src s_tgt]. rewrite vec_to_psub, sqlen_dot. intros Hx. unfold dist.
    replace (dot (psub b a) (psub b a)) with (dot (psub a b) (psub a b)) in Hx by (clear; coords; ring).
    apply sqrt_le_1_alt, Hx. }
  split; [|split; [|split]]; apply X, H; cbn; auto.
Qed.
Lemma quad_lens_le (q : quad R) m : (forall y, In y (quad_edge_lens q) -> y <= m) ->
  dist (q_0 q) (q_1 q) <= m /\ dist (q_1 q) (q_3 q) <= m /\ dist (q_0 q) (q_2 q) <= m /\ dist (q_2 q) (q_3 q) <= m.
Proof.
  intros H. unfold quad_edge_lens in H. cbn [seq map quad_edge] in H.
  assert (X : forall a b : pt, seg_len (mkSeg a b) <= m -> dist a b <= m).
  { intros a b. unfold seg_len. cbn [s_src s_tgt]. rewrite vec_to_psub, vlen_norm. intros Hx. rewrite dist_sym. exact Hx. }
  split; [|split; [|split]]; apply X, H; cbn; auto.
Qed.
Lemma poly_radii_le (p : poly R) m : (forall y, In y (poly_sq_radii p) -> y <= m) ->
  forall c, In c (po_cs p) -> dist (po_c p) c <= sqrt m.
Proof.
  intros H c Hc. specialize (H (seg_sqlen (mkSeg (po_c p) c))).
  assert (seg_sqlen (mkSeg (po_c p) c) <= m) as Hx.
  { apply H. unfold poly_sq_radii. apply in_map_iff. exists c. auto. }
  unfold seg_sqlen in Hx. cbn [s_src s_tgt] in Hx. rewrite vec_to_psub, sqlen_dot in Hx. unfold dist.
  replace (dot (psub c (po_c p)) (psub c (po_c p))) with (dot (psub (po_c p) c) (psub (po_c p) c)) in Hx by (clear; coords; ring).
  apply sqrt_le_1_alt, Hx.
Qed.

(** ** the search segment is long enough *)
Definition reach (f : face R) (r : R) : Prop := forall x, face_set f x -> dist (face_center f) x <= r.
Lemma larger_reach f eps r : larger f eps -> reach f r -> eps <= 2 * r.
Proof.
  intros (x & y & Hx & Hy & Hd) HR. pose proof (dist_triangle x (face_center f) y). pose proof (HR x Hx) as A.
  rewrite dist_sym in A. pose proof (HR y Hy). lra.
Qed.

(** ** symmetry of the hypotheses *)
Lemma acos_sym u v : angle u v = angle v u.
Proof. unfold angle. rewrite dot_comm, (Rmult_comm (norm u)). reflexivity. Qed.
Lemma oblique_sym t u v : oblique t u v -> oblique t v u.
Proof. unfold oblique. rewrite (acos_sym v u). auto. Qed.
Lemma parallel_sym u v : parallel u v -> parallel v u.
Proof.
  intros (c & Hc & ->). exists (/ c). split; [apply Rinv_neq_0_compat, Hc|]. pq; field; exact Hc.
Qed.
Lemma touch_sym s1 s2 p : touch_at s1 s2 p -> touch_at s2 s1 p.
Proof.
  intros [HP HT]. split; [apply parallel_sym, HP|]. intros x. rewrite <- HT. unfold both. tauto.
Qed.
Lemma clean_sym f1 f2 eps : clean_faces f1 f2 eps -> clean_faces f2 f1 eps.
Proof.
  unfold clean_faces, clean. generalize (both (face_set f1) (plane_pts (face_plane f2))) (both (face_set f2) (plane_pts (face_plane f1))).
  intros I J (C1 & C2 & C3). split; [|split].
  - intros s1 s2 H1 H2. destruct (C1 s2 s1 H2 H1) as [[A B] C]. split; [split; assumption|].
    intros p Hp. apply (C p), touch_sym, Hp.
  - intros p s [[A B]|[A B]]; apply C2; auto.
  - intros p q A B E. exact (C3 q p B A (eq_sym E)).
Qed.
Lemma describes_both r S T : describes r (both S T) -> describes r (both T S).
Proof. apply describes_ext. unfold both. tauto. Qed.

(** ** the algorithms *)
Lemma reach_disk d r : face_ok (FDisk d) -> e_a d <= r -> reach (FDisk d) r.
Proof. intros Hf Hr x Hx. pose proof (disk_radius d x Hf Hx). cbn [face_center]. lra. Qed.
Lemma reach_quad q m : face_ok (FQuad q) -> (forall y, In y (quad_sq_edges q) -> y <= m) -> reach (FQuad q) (2 * sqrt m).
Proof.
  intros Hf Hm x Hx. destruct (quad_edges_le q m Hm) as (A & B & C & D). apply quad_radius; assumption.
Qed.
Lemma reach_poly p m : (forall y, In y (poly_sq_radii p) -> y <= m) -> reach (FPoly p) (sqrt m).
Proof. intros Hm x Hx. apply poly_radius; [|exact Hx]. apply poly_radii_le, Hm. Qed.
Lemma face_quad_convex q : face_ok (FQuad q) -> q_convex q = true.
Proof.
  intros (N & p0 & p1 & p2 & p3 & HC & ->). destruct (convex_normal_unique _ _ _ _ _ HC) as (Hn & -> & Hp).
  apply (convex_flag_iff _ _ _ _ Hn Hp), HC.
Qed.
Lemma face_poly_convex p : face_ok (FPoly p) -> po_convex p = true.
Proof. intros (N & cs & _ & _ & H). exact H. Qed.

Lemma disk_size d : face_ok (FDisk d) -> 0 < e_a d.
Proof. intros [[_ [H _]] _]. exact H. Qed.

Lemma sq_pos_radii (p : poly R) y : In y (poly_sq_radii p) -> 0 <= y.
Proof.
  unfold poly_sq_radii. rewrite in_map_iff. intros (c & <- & _). unfold seg_sqlen. rewrite sqlen_dot. apply dot_nonneg.
Qed.

Definition cover (f : face R) (eps L : R) : Prop := forall x, face_set f x -> dist (face_center f) x + eps <= 20 * L.
Definition uses (K : kernel R) (f1 f2 g1 g2 : face R) (eps L : R) : Prop :=
  exists c1 c2, int_faces K f1 f2 eps = if negb (do_intersect (k_face_box K g1) (k_face_box K g2) eps) then Ok IsEmpty
                            else planar_planar K g1 g2 L c1 c2 eps.
Definition ordered (f1 f2 g1 g2 : face R) : Prop := (g1 = f1 /\ g2 = f2) \/ (g1 = f2 /\ g2 = f1).

Lemma reach_cover f eps L r : reach f r -> r + eps <= 20 * L -> cover f eps L.
Proof. intros HR H x Hx. specialize (HR x Hx). lra. Qed.

(** the length of the search segments is sufficient *)
Lemma int_faces_cover K f1 f2 eps : 0 < eps -> face_ok f1 -> face_ok f2 -> supported f1 f2 ->
  larger f1 eps -> larger f2 eps -> fits f1 f2 eps ->
  exists g1 g2 L, ordered f1 f2 g1 g2 /\ uses K f1 f2 g1 g2 eps L /\ 0 < L /\ cover g1 eps L /\ cover g2 eps L.
Proof.
  intros He F1 F2 HS L1 L2 HF.
  assert (two : forall f g L, larger f eps -> reach f (2 * L) -> reach g (2 * L) -> 0 < L /\ cover f eps L /\ cover g eps L).
  { intros f g L HL R1 R2. pose proof (larger_reach _ _ _ HL R1).
    split; [lra|]. split; eapply reach_cover; eauto; lra. }
  assert (QD : forall q d, face_ok (FQuad q) -> face_ok (FDisk d) -> larger (FQuad q) eps ->
     let L := nsqrt (max_from (e_a d * e_a d)%num (quad_sq_edges q)) in 0 < L /\ cover (FQuad q) eps L /\ cover (FDisk d) eps L).
  { intros q d Fq Fd HL L. unfold L. rn. set (m := max_from _ _).
    destruct (max_from_ge (quad_sq_edges q) (e_a d * e_a d)) as [M1 M2]. fold m in M1, M2. pose proof (disk_size _ Fd).
    apply two; [exact HL|apply reach_quad; auto|]. apply reach_disk; [auto|].
    assert (e_a d <= sqrt m). { rewrite <- (sqrt_square (e_a d)) by lra. apply sqrt_le_1_alt, M1. }
    pose proof (sqrt_pos m). lra. }
  assert (PD : forall p d, face_ok (FPoly p) -> face_ok (FDisk d) -> larger (FPoly p) eps -> fits (FPoly p) (FDisk d) eps ->
     let L := nsqrt (max_from n0 (poly_sq_radii p)) in 0 < L /\ cover (FPoly p) eps L /\ cover (FDisk d) eps L).
  { intros p d Fp Fd HL (c & Hc & Hd) L. unfold L. cbn [nsqrt R_num]. set (m := max_from _ _).
    destruct (max_from_ge (poly_sq_radii p) n0) as [M1 M2]. fold m in M1, M2.
    pose proof (reach_poly p m M2) as RP. pose proof (larger_reach _ _ _ HL RP).
    assert (dist (po_c p) c <= sqrt m) by (apply RP; cbn; apply hull_corner, Hc). pose proof (disk_size _ Fd).
    split; [lra|]. split; [eapply reach_cover; [exact RP|lra]|].
    eapply reach_cover; [apply reach_disk; [exact Fd|apply Rle_refl]|lra]. }
  destruct f1 as [d1|q1|p1], f2 as [d2|q2|p2]; try contradiction; unfold uses, int_faces; cbn zeta.
  - exists (FDisk d1), (FDisk d2). eexists. split; [left; auto|]. split; [do 2 eexists; reflexivity|].
    destruct (nmax_R (e_a d1) (e_a d2)) as [M1 M2]. pose proof (disk_size _ F1).
    apply two; [exact L1|apply reach_disk; auto; lra|apply reach_disk; auto; lra].
  - exists (FQuad q2), (FDisk d1). eexists. split; [right; auto|]. split; [do 2 eexists; reflexivity|]. apply QD; auto.
  - exists (FPoly p2), (FDisk d1). eexists. split; [right; auto|]. split; [do 2 eexists; reflexivity|]. apply PD; auto.
  - exists (FQuad q1), (FDisk d2). eexists. split; [left; auto|]. split; [do 2 eexists; reflexivity|]. apply QD; auto.
  - exists (FQuad q1), (FQuad q2). eexists. split; [left; auto|].
    unfold quad_quad. rewrite !face_quad_convex by assumption. cbn [negb orb]. split; [do 2 eexists; reflexivity|].
    set (m1 := max_from n0 (quad_sq_edges q1)). destruct (max_from_ge (quad_sq_edges q2) m1) as [M1 M2].
    destruct (max_from_ge (quad_sq_edges q1) n0) as [_ M3]. cbn [nsqrt R_num].
    apply two; [exact L1|apply reach_quad|apply reach_quad]; auto. intros y Hy. specialize (M3 y Hy). fold m1 in M3. lra.
  - exists (FPoly p1), (FDisk d2). eexists. split; [left; auto|]. split; [do 2 eexists; reflexivity|]. apply PD; auto.
  - exists (FPoly p1), (FPoly p2). eexists. split; [left; auto|].
    unfold poly_poly. rewrite !face_poly_convex by assumption. cbn [negb orb]. split; [do 2 eexists; reflexivity|].
    set (tw := map (fun x : R => (nlit 2 1 * x)%num)). set (m1 := max_from n0 (tw (poly_sq_radii p1))).
    destruct (max_from_ge (tw (poly_sq_radii p2)) m1) as [M1 M2]. set (m := max_from m1 (tw (poly_sq_radii p2))) in *.
    destruct (max_from_ge (tw (poly_sq_radii p1)) n0) as [M0 M3]. fold m1 in M0, M3. change (n0 : R) with 0 in M0. cbn [nsqrt R_num].
    assert (T : forall p, (forall x, In x (tw (poly_sq_radii p)) -> x <= m) -> reach (FPoly p) (2 * sqrt m)).
    { intros p Hp x Hx. pose proof (sqrt_pos m). enough (dist (face_center (FPoly p)) x <= sqrt m) by lra.
      revert x Hx. apply reach_poly. intros y Hy. pose proof (sq_pos_radii p y Hy).
      assert (Hy2 : 2 * y <= m). { apply Hp. unfold tw. apply in_map_iff. exists y. split; [rn; lra|exact Hy]. } lra. }
    apply two; [exact L1|apply T; auto|apply T; auto]. intros x Hx. specialize (M3 x Hx). lra.
Qed.

(** ** the interface: bounding boxes and argument order *)
Lemma boxed_exact K f1 f2 eps r (S : pt -> Prop) : 0 < eps -> boxed K f1 -> boxed K f2 ->
  (forall x, S x -> face_set f1 x /\ face_set f2 x) -> exact_result r S ->
  exact_result (if negb (do_intersect (k_face_box K f1) (k_face_box K f2) eps) then Ok IsEmpty else r) S.
Proof.
  intros He B1 B2 HS Hr. destruct (do_intersect _ _ eps) eqn:D; cbn [negb]; [exact Hr|].
  exists IsEmpty. split; [reflexivity|]. split; [|auto]. cbn. intros x Hx. destruct (HS x Hx) as [A B].
  assert (do_intersect (k_face_box K f1) (k_face_box K f2) eps = true)
    by (apply (do_intersect_shared _ _ eps x); auto). congruence.
Qed.

Lemma exact_swap r S T : exact_result r (both T S) -> exact_result r (both S T).
Proof. intros (i & E & D & k). exists i. split; [exact E|]. split; [apply describes_both, D|exact k]. Qed.

Lemma facing_sym K f1 f2 eps : facing K f1 f2 eps -> facing K f2 f1 eps.
Proof.
  intros (F1 & F2 & HS & HO & K12 & K21 & L1 & L2 & HF). split; [exact F2|]. split; [exact F1|].
  split; [destruct f1, f2; cbn in *; tauto|]. split; [apply oblique_sym, HO|]. split; [exact K21|]. split; [exact K12|].
  split; [exact L2|]. split; [exact L1|]. destruct f1, f2; cbn in *; tauto.
Qed.
Lemma facing_uses K f1 f2 eps : 0 < eps -> facing K f1 f2 eps ->
  exists g1 g2 L, ordered f1 f2 g1 g2 /\ uses K f1 f2 g1 g2 eps L /\ facing K g1 g2 eps /\
    0 < L /\ cover g1 eps L /\ cover g2 eps L.
Proof.
  intros He HA. pose proof HA as (F1 & F2 & HS & HO & K12 & K21 & L1 & L2 & HF).
  destruct (int_faces_cover K f1 f2 eps He F1 F2 HS L1 L2 HF) as (g1 & g2 & L & Hg & HU & HC).
  exists g1, g2, L. split; [exact Hg|]. split; [exact HU|]. split; [|exact HC].
  destruct Hg as [[-> ->]|[-> ->]]; [exact HA|apply facing_sym, HA].
Qed.

Lemma int_faces_exact K f1 f2 eps : 0 < eps -> boxed K f1 -> boxed K f2 -> crossing K f1 f2 eps ->
  exact_result (int_faces K f1 f2 eps) (both (face_set f1) (face_set f2)).
Proof.
  intros He B1 B2 [HA HC].
  destruct (facing_uses K f1 f2 eps He HA) as (g1 & g2 & L & Hg & (c1 & c2 & ->) & HG & HL & C1 & C2).
  destruct HG as (G1 & G2 & _ & HO & HK & _).
  assert (HC' : clean_faces g1 g2 eps) by (destruct Hg as [[-> ->]|[-> ->]]; [exact HC|apply clean_sym, HC]).
  assert (HX : exact_result (planar_planar K g1 g2 L c1 c2 eps) (both (face_set g1) (face_set g2))).
  { apply planar_planar_exact; auto using face_unit, face_in. }
  destruct Hg as [[-> ->]|[-> ->]].
  - apply boxed_exact; [exact He|exact B1|exact B2|intros x Hx; exact Hx|exact HX].
  - apply boxed_exact; [exact He|exact B2|exact B1|intros x [Hx Hy]; split; assumption|apply exact_swap, HX].
Qed.

(** both faces touch the line in the same point *)
Lemma int_faces_points K f1 f2 eps p : 0 < eps -> facing K f1 f2 eps ->
  is_point p (both (face_set f1) (plane_pts (face_plane f2))) ->
  is_point p (both (face_set f2) (plane_pts (face_plane f1))) ->
  int_faces K f1 f2 eps = Ok IsEmpty /\ face_set f1 p /\ face_set f2 p.
Proof.
  intros He HA P1 P2.
  assert (FP : face_set f1 p /\ face_set f2 p).
  { split; [apply (proj2 (P1 p) eq_refl)|apply (proj2 (P2 p) eq_refl)]. }
  split; [|exact FP].
  destruct (facing_uses K f1 f2 eps He HA) as (g1 & g2 & L & Hg & (c1 & c2 & ->) & HG & HL & C1 & C2).
  destruct negb; [reflexivity|]. destruct HG as (G1 & G2 & _ & HO & HK & _).
  apply (planar_points K g1 g2 L c1 c2 eps) with (p := p); auto using face_unit, face_in;
    destruct Hg as [[-> ->]|[-> ->]]; assumption.
Qed.
Lemma clear_sym s1 s2 eps : clear s1 s2 eps -> clear s2 s1 eps.
Proof. unfold clear. tauto. Qed.
(** both parts are segments that touch *)
Lemma int_faces_touch K f1 f2 eps s1 s2 p : 0 < eps -> facing K f1 f2 eps -> boxed K f1 -> boxed K f2 ->
  is_seg s1 (both (face_set f1) (plane_pts (face_plane f2))) ->
  is_seg s2 (both (face_set f2) (plane_pts (face_plane f1))) -> clear s1 s2 eps -> touch_at s1 s2 p ->
  exists s, int_faces K f1 f2 eps = Ok (IsSeg s) /\ s_src s = s_tgt s.
Proof.
  intros He HA B1 B2 S1 S2 HCl HT.
  destruct (proj2 (proj2 HT p) eq_refl) as [T1 T2]. unfold seg_pts in T1, T2.
  apply (proj2 S1) in T1. apply (proj2 S2) in T2.
  destruct (facing_uses K f1 f2 eps He HA) as (g1 & g2 & L & Hg & (c1 & c2 & ->) & HG & HL & C1 & C2).
  assert (do_intersect (k_face_box K g1) (k_face_box K g2) eps = true) as ->.
  { apply (do_intersect_shared _ _ eps p He); destruct Hg as [[-> ->]|[-> ->]]; first [apply B1, T1|apply B2, T2]. }
  cbn [negb]. destruct HG as (G1 & G2 & _ & HO & HK & _).
  destruct Hg as [[-> ->]|[-> ->]].
  - apply (planar_touch K f1 f2 L c1 c2 eps) with (s1 := s1) (s2 := s2) (p := p); auto using face_unit, face_in.
  - apply (planar_touch K f2 f1 L c1 c2 eps) with (s1 := s2) (s2 := s1) (p := p); auto using face_unit, face_in, clear_sym, touch_sym.
Qed.

(** parallel planes *)
Lemma far_sym p1 p2 eps : unit3 (pl_n p1) -> unit3 (pl_n p2) -> apart_planes p1 p2 eps -> apart_planes p2 p1 eps.
Proof.
  intros U1 U2 [HP HF]. split; [apply parallel_sym, HP|]. destruct HP as (c & Hc & E).
  assert (C1 : c * c = 1). { unfold unit3 in *. rewrite E in U2. transitivity (dot (pscale c (pl_n p1)) (pscale c (pl_n p1)));
    [|exact U2]. replace (dot (pscale c (pl_n p1)) (pscale c (pl_n p1))) with (c * c * dot (pl_n p1) (pl_n p1)) by (clear; coords; ring).
    rewrite U1. ring. }
  specialize (HF _ (plane_proj_on p1 (pl_sup p2) U1)). intros q Hq. eapply Rle_trans; [exact HF|].
  rewrite plane_dist by exact U1. unfold plane_pts, on_plane in Hq. rewrite E in Hq.
  assert (Hq' : dot (pl_n p1) (psub q (pl_sup p2)) = 0).
  { apply Rmult_eq_reg_l with c; [|exact Hc]. rewrite Rmult_0_r, <- Hq. clear; coords; ring. }
  replace (dot (pl_n p1) (psub (pl_sup p2) (pl_sup p1))) with (dot (pl_n p1) (psub q (pl_sup p1)) - dot (pl_n p1) (psub q (pl_sup p2)))
    by (clear; coords; ring). rewrite Hq', Rminus_0_r.
  unfold dist. pose proof (cauchy_norm (pl_n p1) (psub q (pl_sup p1))) as HCy. rewrite (norm_unit _ U1) in HCy.
  replace (norm (psub (pl_sup p1) q)) with (norm (psub q (pl_sup p1))) by apply dist_sym. lra.
Qed.
Lemma same_sym p1 p2 : same_plane p1 p2 -> same_plane p2 p1.
Proof.
  intros [HP HS]. split; [apply parallel_sym, HP|]. destruct HP as (c & Hc & E). unfold plane_pts, on_plane in *. rewrite E.
  replace (dot (pscale c (pl_n p1)) (psub (pl_sup p1) (pl_sup p2))) with (- c * dot (pl_n p1) (psub (pl_sup p2) (pl_sup p1)))
    by (clear; coords; ring). rewrite HS. ring.
Qed.
Lemma int_faces_shape K f1 f2 eps : face_ok f1 -> face_ok f2 -> supported f1 f2 ->
  exists g1 g2 L c1 c2, ((g1 = f1 /\ g2 = f2) \/ (g1 = f2 /\ g2 = f1)) /\
    int_faces K f1 f2 eps = if negb (do_intersect (k_face_box K g1) (k_face_box K g2) eps) then Ok IsEmpty
                            else planar_planar K g1 g2 L c1 c2 eps.
Proof.
  intros F1 F2 HS. destruct f1 as [d1|q1|p1], f2 as [d2|q2|p2]; try contradiction; unfold int_faces; cbn zeta;
    unfold disk_disk, quad_disk, poly_disk, quad_quad, poly_poly;
    rewrite ?face_quad_convex, ?face_poly_convex by assumption; cbn [negb orb];
    do 5 eexists; (split; [|reflexivity]); auto.
Qed.
Lemma int_faces_apart K f1 f2 eps : 0 < eps -> face_ok f1 -> face_ok f2 -> supported f1 f2 ->
  apart_planes (face_plane f1) (face_plane f2) eps ->
  int_faces K f1 f2 eps = Ok IsEmpty /\ forall x, ~ both (face_set f1) (face_set f2) x.
Proof.
  intros He F1 F2 HS HA. pose proof (face_unit _ F1) as U1. pose proof (face_unit _ F2) as U2. split.
  - destruct (int_faces_shape K f1 f2 eps F1 F2 HS) as (g1 & g2 & L & c1 & c2 & Hg & ->).
    destruct negb; [reflexivity|]. destruct Hg as [[-> ->]|[-> ->]].
    + apply (planar_planar_apart K f1 f2 L c1 c2 eps He U1 U2); auto using face_in.
    + apply (planar_planar_apart K f2 f1 L c1 c2 eps He U2 U1); auto using face_in, far_sym.
  - destruct (planar_planar_apart K f1 f2 0 0 0 eps He U1 U2) as [_ D]; auto using face_in.
Qed.
Lemma int_faces_same K f1 f2 eps : 0 < eps -> face_ok f1 -> face_ok f2 -> supported f1 f2 ->
  same_plane (face_plane f1) (face_plane f2) ->
  do_intersect (k_face_box K f1) (k_face_box K f2) eps = true -> do_intersect (k_face_box K f2) (k_face_box K f1) eps = true ->
  int_faces K f1 f2 eps = Throw RuntimeError.
Proof.
  intros He F1 F2 HS HP D1 D2. pose proof (face_unit _ F1) as U1. pose proof (face_unit _ F2) as U2.
  destruct (int_faces_shape K f1 f2 eps F1 F2 HS) as (g1 & g2 & L & c1 & c2 & [[-> ->]|[-> ->]] & ->).
  - rewrite D1. cbn [negb]. destruct HP. apply planar_planar_same; assumption.
  - rewrite D2. cbn [negb]. destruct (same_sym _ _ HP). apply planar_planar_same; assumption.
Qed.
Lemma int_faces_same_common K f1 f2 eps x : 0 < eps -> face_ok f1 -> face_ok f2 -> supported f1 f2 -> boxed K f1 -> boxed K f2 ->
  same_plane (face_plane f1) (face_plane f2) -> face_set f1 x -> face_set f2 x ->
  int_faces K f1 f2 eps = Throw RuntimeError.
Proof.
  intros He F1 F2 HS B1 B2 HP X1 X2. apply int_faces_same; auto; apply (do_intersect_shared _ _ eps x); auto.
Qed.
Lemma int_faces_unsupported K f1 f2 eps : ~ supported f1 f2 -> int_faces K f1 f2 eps = Throw RuntimeError.
Proof. destruct f1, f2; cbn; tauto. Qed.
