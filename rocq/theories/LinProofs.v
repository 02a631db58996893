(** Proofs about lines, planes, segments and boxes over the reals. *)

From Coq Require Import Reals Lra Psatz Nsatz Bool List.
From Verif Require Import Base NumModel VecModel LinModel GeoSpec LinSpec GeoLemmas MathProofs.
Local Open Scope R_scope.

Ltac pts := repeat match goal with p : V3 R |- _ => destruct p end.

(** ** lines *)
Lemma line_proj_eq (l : line R) p :
  line_proj l p = padd (l_sup l) (pscale (dot (l_dir l) (psub p (l_sup l))) (l_dir l)).
Proof. unfold line_proj. rewrite sprod_dot, vec_to_psub, vscale_pscale, vadd_padd. reflexivity. Qed.

(** Pythagoras for the projection onto a line *)
Lemma line_pyth (s d p : pt) t : unit3 d ->
  let q := padd s (pscale (dot d (psub p s)) d) in
  let z := padd s (pscale t d) in
  dot (psub p z) (psub p z)
  = dot (psub p q) (psub p q) + (t - dot d (psub p s)) * (t - dot d (psub p s)).
Proof. intros Hd. cbv zeta. destruct s, d, p. coords. nsatz. Qed.

Lemma line_proj_closest (l : line R) p : unit3 (l_dir l) ->
  closest (on_line (l_sup l) (l_dir l)) p (line_proj l p).
Proof.
  intros Hd. rewrite line_proj_eq. split.
  - eexists. reflexivity.
  - intros z [t ->]. apply dist_le_iff. rewrite (line_pyth _ _ p t Hd).
    pose proof (Rle_0_sqr (t - dot (l_dir l) (psub p (l_sup l)))) as Hsq. unfold Rsqr in Hsq. lra.
Qed.

Lemma line_contains_eq (l : line R) p eps : 0 <= eps ->
  (line_contains l p eps = true <-> dist p (line_proj l p) < eps).
Proof.
  intros He. rewrite dist_sym. rewrite <- (pt_eq_spec _ _ _ He).
  unfold line_contains, pt_eq. rn. rewrite !Rltb_true, !sqlen_dot.
  set (q := line_proj l p). clearbody q. replace (dot (vec_to q p) (vec_to q p)) with (dot (vec_to p q) (vec_to p q)).
  - reflexivity.
  - destruct p, q. coords. ring.
Qed.

Lemma line_contains_dist (l : line R) p eps d : unit3 (l_dir l) -> 0 <= eps ->
  dist_to (on_line (l_sup l) (l_dir l)) p d ->
  (line_contains l p eps = true <-> d < eps).
Proof.
  intros Hd He [[y [Hy Ey]] Hmin]. rewrite line_contains_eq by assumption.
  destruct (line_proj_closest l p Hd) as [H1 H2].
  pose proof (Hmin _ H1). pose proof (H2 _ Hy). split; lra.
Qed.

(** ** planes *)
Lemma plane_proj_eq (pl : plane R) p :
  plane_proj pl p = padd p (pscale (- dot (pl_n pl) (psub p (pl_sup pl))) (pl_n pl)).
Proof.
  unfold plane_proj. rewrite sprod_dot, vec_to_psub, !vscale_pscale, vadd_padd.
  f_equal. rn. unfold pscale. cbn [vx vy vz]. f_equal; ring.
Qed.

Lemma plane_proj_on (pl : plane R) p : unit3 (pl_n pl) ->
  on_plane (pl_sup pl) (pl_n pl) (plane_proj pl p).
Proof.
  intros Hn. rewrite plane_proj_eq. destruct pl as [s b1 b2 n]. cbn in *.
  destruct s, n, p. coords. nsatz.
Qed.

Lemma plane_pyth (s n p z : pt) : unit3 n -> on_plane s n z ->
  let q := padd p (pscale (- dot n (psub p s)) n) in
  dot (psub p z) (psub p z) = dot (psub p q) (psub p q) + dot (psub q z) (psub q z).
Proof. intros Hn Hz. cbv zeta. destruct s, n, p, z. coords. nsatz. Qed.

Lemma plane_proj_closest (pl : plane R) p : unit3 (pl_n pl) ->
  closest (on_plane (pl_sup pl) (pl_n pl)) p (plane_proj pl p).
Proof.
  intros Hn. split; [apply plane_proj_on; assumption|].
  intros z Hz. rewrite plane_proj_eq. apply dist_le_iff. rewrite (plane_pyth _ _ p z Hn Hz).
  pose proof (dot_nonneg (psub (padd p (pscale (- dot (pl_n pl) (psub p (pl_sup pl))) (pl_n pl))) z)). lra.
Qed.

Lemma plane_dist (pl : plane R) p : unit3 (pl_n pl) ->
  dist p (plane_proj pl p) = Rabs (dot (pl_n pl) (psub p (pl_sup pl))).
Proof.
  intros Hn. rewrite plane_proj_eq. unfold dist, norm.
  rewrite <- sqrt_Rsqr_abs. f_equal. unfold Rsqr. destruct pl as [s b1 b2 n]. cbn in *.
  destruct s, n, p. coords. nsatz.
Qed.

Lemma plane_contains_eq (pl : plane R) p eps : unit3 (pl_n pl) ->
  (plane_contains pl p eps = true <-> dist p (plane_proj pl p) < eps).
Proof.
  intros Hn. rewrite plane_dist by assumption. unfold plane_contains. rn.
  rewrite Rltb_true, sprod_dot, vec_to_psub, dot_comm. reflexivity.
Qed.

Lemma plane_contains_dist (pl : plane R) p eps d : unit3 (pl_n pl) ->
  dist_to (on_plane (pl_sup pl) (pl_n pl)) p d ->
  (plane_contains pl p eps = true <-> d < eps).
Proof.
  intros Hn [[y [Hy Ey]] Hmin]. rewrite plane_contains_eq by assumption.
  destruct (plane_proj_closest pl p Hn) as [H1 H2].
  pose proof (Hmin _ H1). pose proof (H2 _ Hy). split; lra.
Qed.

(** the basis *)
Lemma cross_unit (u v : pt) : unit3 u -> unit3 v -> ortho u v -> unit3 (cross u v).
Proof.
  intros Hu Hv Ho. unfold unit3, ortho in *. rewrite lagrange, Hu, Hv, Ho. ring.
Qed.

Lemma basis_from (n b : pt) : unit3 n -> unit3 b -> ortho b n ->
  ortho_basis b (to_dir (cross n b)) n.
Proof.
  intros Hn Hb Ho.
  assert (unit3 (cross n b)) as Hc.
  { apply cross_unit; auto. unfold ortho in *. rewrite dot_comm. exact Ho. }
  rewrite (to_dir_of_unit _ Hc). unfold ortho_basis. repeat split; auto.
  - unfold ortho. rewrite dot_comm. apply cross_ortho_r.
  - apply cross_ortho_l.
  - destruct n, b. coords. nsatz.
Qed.

Lemma to_dir_ortho (u v : pt) : u <> zero3 -> ortho u v -> ortho (to_dir u) v.
Proof.
  intros Hu Ho. rewrite to_dir_scale by assumption. unfold ortho in *.
  replace (dot (pscale (/ norm u) u) v) with (/ norm u * dot u v) by (coords; ring). rewrite Ho. ring.
Qed.

Lemma plane_pn_basis (p n : pt) : unit3 n ->
  let pl := plane_pn p n in
  pl_sup pl = p /\ pl_n pl = n /\ ortho_basis (pl_b1 pl) (pl_b2 pl) (pl_n pl).
Proof.
  intros Hn. cbv zeta. unfold plane_pn. cbn. split; [reflexivity|]. split; [reflexivity|].
  apply basis_from; auto.
  - apply to_dir_unit. apply (make_orthogonal_ok n).
  - apply to_dir_ortho; apply (make_orthogonal_ok n).
Qed.

Lemma noncollinear_ne p1 p2 p3 : cross (psub p2 p1) (psub p3 p1) <> zero3 -> psub p2 p1 <> zero3.
Proof. intros H E. apply H. rewrite E. coords. f_equal; ring. Qed.

Lemma cross_scale_l c u v : cross (pscale c u) v = pscale c (cross u v).
Proof. coords. f_equal; ring. Qed.

Lemma ortho_zero_scale c u v : c <> 0 -> dot (pscale c u) v = 0 -> dot u v = 0.
Proof.
  intros Hc. replace (dot (pscale c u) v) with (c * dot u v) by (coords; ring).
  intros E. apply Rmult_integral in E. destruct E; [contradiction|assumption].
Qed.

Lemma plane_3p_ok (p1 p2 p3 : pt) : cross (psub p2 p1) (psub p3 p1) <> zero3 ->
  let pl := plane_3p p1 p2 p3 in
  pl_sup pl = p1 /\ ortho_basis (pl_b1 pl) (pl_b2 pl) (pl_n pl) /\
  (exists c, 0 < c /\ pl_n pl = pscale c (cross (psub p2 p1) (psub p3 p1))) /\
  (exists c, 0 < c /\ pl_b1 pl = pscale c (psub p2 p1)).
Proof.
  intros H. cbv zeta. unfold plane_3p. cbn [pl_sup pl_b1 pl_b2 pl_n].
  rewrite !vec_to_psub.
  pose proof (noncollinear_ne _ _ _ H) as H1.
  pose proof (norm_pos _ H1) as Hp1.
  assert (0 < / norm (psub p2 p1)) as Hi1 by (apply Rinv_0_lt_compat; assumption).
  assert (cross (to_dir (psub p2 p1)) (psub p3 p1) <> zero3) as H2.
  { rewrite (to_dir_scale _ H1), cross_scale_l. apply pscale_nonzero; [lra|assumption]. }
  pose proof (norm_pos _ H2) as Hp2.
  assert (0 < / norm (cross (to_dir (psub p2 p1)) (psub p3 p1))) as Hi2 by (apply Rinv_0_lt_compat; assumption).
  split; [reflexivity|]. split; [|split].
  - apply basis_from.
    + apply to_dir_unit; assumption.
    + apply to_dir_unit; assumption.
    + unfold ortho. rewrite dot_comm. apply to_dir_ortho; [assumption|apply cross_ortho_l].
  - exists (/ norm (cross (to_dir (psub p2 p1)) (psub p3 p1)) * / norm (psub p2 p1)). split; [nra|].
    rewrite (to_dir_scale _ H2). rewrite (to_dir_scale _ H1) at 2. rewrite cross_scale_l.
    unfold pscale. cbn [vx vy vz]. f_equal; ring.
  - exists (/ norm (psub p2 p1)). split; [assumption|]. apply to_dir_scale; assumption.
Qed.

Lemma plane_3p_contains (p1 p2 p3 : pt) : cross (psub p2 p1) (psub p3 p1) <> zero3 ->
  let pl := plane_3p p1 p2 p3 in
  on_plane (pl_sup pl) (pl_n pl) p1 /\ on_plane (pl_sup pl) (pl_n pl) p2 /\
  on_plane (pl_sup pl) (pl_n pl) p3.
Proof.
  intros H. cbv zeta. destruct (plane_3p_ok _ _ _ H) as (E & _ & [c [_ En]] & _).
  rewrite E, En. unfold on_plane. destruct p1, p2, p3. coords. repeat split; ring.
Qed.

(** projection of lines and segments *)
Lemma plane_proj_affine (pl : plane R) p d t :
  plane_proj pl (padd p (pscale t d))
  = padd (plane_proj pl p) (pscale t (psub (plane_proj pl (padd p d)) (plane_proj pl p))).
Proof.
  rewrite !plane_proj_eq. destruct pl as [s b1 b2 n]. cbn. destruct s, n, p, d. coords.
  f_equal; ring.
Qed.

Lemma proj_dir_eq (pl : plane R) p d k :
  psub (plane_proj pl (padd p (pscale k d))) (plane_proj pl p)
  = pscale k (psub d (pscale (dot (pl_n pl) d) (pl_n pl))).
Proof.
  rewrite !plane_proj_eq. destruct pl as [s b1 b2 n]. cbn. destruct s, n, p, d. coords.
  f_equal; ring.
Qed.

Lemma proj_dir_nonzero (n d : pt) : unit3 n -> unit3 d -> cross n d <> zero3 ->
  psub d (pscale (dot n d) n) <> zero3.
Proof.
  intros Hn Hd Hc E. apply Hc. apply dot_zero.
  assert (dot (psub d (pscale (dot n d) n)) (psub d (pscale (dot n d) n)) = 0) as Hz
    by (rewrite E; coords; ring).
  replace (dot (psub d (pscale (dot n d) n)) (psub d (pscale (dot n d) n)))
    with (dot d d - dot n d * dot n d * (2 - dot n n)) in Hz by (clear; coords; ring).
  rewrite lagrange. unfold unit3 in *. rewrite Hn, Hd in *. lra.
Qed.

Lemma plane_proj_line_image (pl : plane R) (l : line R) :
  unit3 (pl_n pl) -> unit3 (l_dir l) -> cross (pl_n pl) (l_dir l) <> zero3 ->
  let l' := plane_proj_line pl l in
  unit3 (l_dir l') /\
  forall y, on_line (l_sup l') (l_dir l') y
            <-> exists x, on_line (l_sup l) (l_dir l) x /\ y = plane_proj pl x.
Proof.
  intros Hn Hd Hc. cbv zeta.
  set (v := psub (l_dir l) (pscale (dot (pl_n pl) (l_dir l)) (pl_n pl))).
  assert (v <> zero3) as Hv by (apply proj_dir_nonzero; assumption).
  assert (exists k, 0 < k /\ l_dir (plane_proj_line pl l) = pscale k v
          /\ l_sup (plane_proj_line pl l) = plane_proj pl (l_sup l)) as (k & Hk & Ek & Es).
  { unfold plane_proj_line. cbn [l_dir l_sup].
    destruct (pt_eq_default _ _).
    - replace (vadd (vadd (l_sup l) (l_dir l)) (l_dir l)) with (padd (l_sup l) (pscale 2 (l_dir l)))
        by (coords; f_equal; ring).
      rewrite vec_to_psub, proj_dir_eq. fold v.
      assert (pscale 2 v <> zero3) as H2 by (apply pscale_nonzero; [lra|assumption]).
      exists (/ norm (pscale 2 v) * 2). pose proof (norm_pos _ H2) as Hp.
      apply Rinv_0_lt_compat in Hp. split; [lra|]. split; [|reflexivity].
      rewrite (to_dir_scale _ H2). unfold pscale. cbn [vx vy vz]. f_equal; ring.
    - replace (vadd (l_sup l) (l_dir l)) with (padd (l_sup l) (pscale 1 (l_dir l)))
        by (coords; f_equal; ring).
      rewrite vec_to_psub, proj_dir_eq. fold v.
      assert (pscale 1 v <> zero3) as H2 by (apply pscale_nonzero; [lra|assumption]).
      exists (/ norm (pscale 1 v) * 1). pose proof (norm_pos _ H2) as Hp.
      apply Rinv_0_lt_compat in Hp. split; [lra|]. split; [|reflexivity].
      rewrite (to_dir_scale _ H2). unfold pscale. cbn [vx vy vz]. f_equal; ring. }
  split.
  - unfold plane_proj_line. cbn [l_dir l_sup]. apply to_dir_unit.
    destruct (pt_eq_default _ _).
    + replace (vadd (vadd (l_sup l) (l_dir l)) (l_dir l)) with (padd (l_sup l) (pscale 2 (l_dir l)))
        by (coords; f_equal; ring).
      rewrite vec_to_psub, proj_dir_eq. fold v. apply pscale_nonzero; [lra|assumption].
    + replace (vadd (l_sup l) (l_dir l)) with (padd (l_sup l) (pscale 1 (l_dir l)))
        by (coords; f_equal; ring).
      rewrite vec_to_psub, proj_dir_eq. fold v. apply pscale_nonzero; [lra|assumption].
  - rewrite Ek, Es. intros y. split.
    + intros [t ->]. exists (padd (l_sup l) (pscale (t * k) (l_dir l))). split; [eexists; reflexivity|].
      replace (pscale t (pscale k v)) with (pscale (t * k) v) by (unfold pscale; cbn [vx vy vz]; f_equal; ring).
      unfold v. rewrite <- (proj_dir_eq pl (l_sup l) (l_dir l) (t * k)). unfold padd, psub. cbn [vx vy vz].
      apply v3_eq; cbn [vx vy vz]; ring.
    + intros (x & [t ->] & ->). exists (t / k).
      replace (pscale (t / k) (pscale k v)) with (pscale t v)
        by (unfold pscale; cbn [vx vy vz]; f_equal; field; lra).
      unfold v. rewrite <- (proj_dir_eq pl (l_sup l) (l_dir l) t). unfold padd, psub. cbn [vx vy vz].
      apply v3_eq; cbn [vx vy vz]; ring.
Qed.

Lemma plane_proj_seg_image (pl : plane R) (s : segment R) :
  let s' := plane_proj_seg pl s in
  forall y, on_segment (s_src s') (s_tgt s') y
            <-> exists x, on_segment (s_src s) (s_tgt s) x /\ y = plane_proj pl x.
Proof.
  cbv zeta. unfold plane_proj_seg. cbn [s_src s_tgt]. intros y.
  assert (forall t, padd (pscale (1 - t) (plane_proj pl (s_src s))) (pscale t (plane_proj pl (s_tgt s)))
                    = plane_proj pl (padd (pscale (1 - t) (s_src s)) (pscale t (s_tgt s)))) as K.
  { intros t. rewrite !plane_proj_eq. destruct pl as [sp b1 b2 n], s as [p q]. cbn.
    destruct sp, n, p, q. coords. f_equal; ring. }
  split.
  - intros (t & Ht & ->). eexists. split; [exists t; split; [exact Ht|reflexivity]|]. apply K.
  - intros (x & (t & Ht & ->) & ->). exists t. split; [exact Ht|]. symmetry. apply K.
Qed.

(** ** segments *)
Lemma seg_point_on (s : segment R) t : 0 <= t <= 1 -> on_segment (s_src s) (s_tgt s) (seg_point s t).
Proof.
  intros Ht. exists t. split; [exact Ht|]. unfold seg_point. coords. f_equal; ring.
Qed.
Lemma on_seg_point (s : segment R) x : on_segment (s_src s) (s_tgt s) x ->
  exists t, 0 <= t <= 1 /\ x = seg_point s t.
Proof.
  intros (t & Ht & ->). exists t. split; [exact Ht|]. unfold seg_point. coords. f_equal; ring.
Qed.
Lemma on_segment_sym p q x : on_segment p q x <-> on_segment q p x.
Proof.
  assert (forall a b, on_segment a b x -> on_segment b a x) as K.
  { intros a b (t & Ht & ->). exists (1 - t). split; [lra|]. coords. f_equal; ring. }
  split; apply K.
Qed.

Lemma seg_nondeg (s : segment R) : s_src s <> s_tgt s -> psub (s_tgt s) (s_src s) <> zero3.
Proof.
  intros H E. apply H. destruct s as [p q]. cbn in *. destruct p, q. unfold psub, zero3 in E. cbn in E.
  injection E as e1 e2 e3. f_equal; lra.
Qed.

(** The whole picture in one dimension: with u the unit direction, L the length, tau the
    coordinate of the projection of p along the segment and h its squared distance from the
    line, the squared distance of p from the point at coordinate r is h + (r - tau)^2. *)
Ltac rnot := repeat match goal with H : ~ (_ <= _) |- _ => apply Rnot_le_lt in H end.
Lemma clamp_aux (L tau r : R) : 0 < L -> 0 <= r <= L ->
  (Rmax 0 (Rmin L tau) - tau) * (Rmax 0 (Rmin L tau) - tau) <= (r - tau) * (r - tau).
Proof.
  intros HL Hr. pose proof (Rle_0_sqr (r - tau)) as Hsq. unfold Rsqr in Hsq. unfold Rmin.
  destruct Rle_dec; unfold Rmax; destruct Rle_dec; rnot; nra. Qed.
Lemma clamp_lt_aux (h L tau e : R) : 0 <= h -> 0 < L -> 0 < e ->
  (((true = true -> h < e * e) /\
    (0 <= tau < L \/ h + tau * tau < e * e \/ h + (L - tau) * (L - tau) < e * e)) <->
   h + (Rmax 0 (Rmin L tau) - tau) * (Rmax 0 (Rmin L tau) - tau) < e * e).
Proof.
  intros Hh HL He. unfold Rmin. destruct Rle_dec; unfold Rmax; destruct Rle_dec; rnot; split; intros Hx.
  all: try (destruct Hx as [Hx1 Hx2]; specialize (Hx1 eq_refl)).
  all: try (split; [intros _; nra|]).
  all: try nra.
  all: destruct (Rlt_le_dec tau L); try lra; try (left; lra); right; right; nra.
Qed.

Section seg1d.
Variables (s : segment R) (p : pt).
Hypothesis Hne : s_src s <> s_tgt s.
Let L := norm (psub (s_tgt s) (s_src s)).
Let u := seg_dir s.
Let tau := dot u (psub p (s_src s)).
Let q := line_proj (seg_line s) p.
Let h := dot (psub p q) (psub p q).

Lemma sd_L : 0 < L.
Proof. apply norm_pos, seg_nondeg, Hne. Qed.
Lemma sd_u : unit3 u.
Proof. unfold u, seg_dir. apply to_dir_unit. rewrite vec_to_psub. apply seg_nondeg, Hne. Qed.
Lemma sd_tgt : s_tgt s = padd (s_src s) (pscale L u).
Proof.
  unfold u, seg_dir. rewrite vec_to_psub, to_dir_scale by (apply seg_nondeg, Hne). fold L.
  pose proof sd_L. apply v3_eq; unfold padd, pscale, psub; cbn [vx vy vz]; field; lra.
Qed.
Lemma sd_q : q = padd (s_src s) (pscale tau u).
Proof. unfold q. rewrite line_proj_eq. reflexivity. Qed.
Lemma sd_dist r : dot (psub p (padd (s_src s) (pscale r u))) (psub p (padd (s_src s) (pscale r u)))
  = h + (r - tau) * (r - tau).
Proof. unfold h. rewrite sd_q. apply line_pyth. apply sd_u. Qed.
Lemma sd_on x : on_segment (s_src s) (s_tgt s) x <-> exists r, 0 <= r <= L /\ x = padd (s_src s) (pscale r u).
Proof.
  pose proof sd_L as HL. rewrite sd_tgt. split.
  - intros (t & Ht & ->). exists (t * L). split; [nra|]. unfold padd, pscale. cbn [vx vy vz]. f_equal; ring.
  - intros (r & Hr & ->). exists (r / L). split.
    + split; [apply Rmult_le_pos; [lra|]; left; apply Rinv_0_lt_compat; lra|].
      apply (Rmult_le_reg_r L); [lra|]. unfold Rdiv. rewrite Rmult_assoc, Rinv_l by lra. lra.
    + unfold padd, pscale. cbn [vx vy vz]. f_equal; field; lra.
Qed.
Lemma sd_h : 0 <= h.
Proof. apply dot_nonneg. Qed.

(** the coordinate of the closest point *)
Definition clamp : R := Rmax 0 (Rmin L tau).
Lemma clamp_range : 0 <= clamp <= L.
Proof.
  unfold clamp. pose proof sd_L. split; [apply Rmax_l|]. apply Rmax_lub; [lra|apply Rmin_l].
Qed.
Lemma clamp_min r : 0 <= r <= L -> (clamp - tau) * (clamp - tau) <= (r - tau) * (r - tau).
Proof.
  intros Hr. apply clamp_aux; [apply sd_L|assumption].
Qed.
Lemma seg_dist_val : dist_to (on_segment (s_src s) (s_tgt s)) p (sqrt (h + (clamp - tau) * (clamp - tau))).
Proof.
  split.
  - exists (padd (s_src s) (pscale clamp u)). split.
    + apply sd_on. exists clamp. split; [apply clamp_range|reflexivity].
    + unfold dist, norm. rewrite sd_dist. reflexivity.
  - intros y Hy. apply sd_on in Hy. destruct Hy as (r & Hr & ->). unfold dist, norm. rewrite sd_dist.
    apply sqrt_le_1_alt. pose proof (clamp_min r Hr). lra.
Qed.

Lemma seg_contains_1d eps chk : 0 < eps ->
  (seg_contains s p eps chk = true <->
   (chk = true -> h < eps * eps) /\
   (0 <= tau < L \/ h + tau * tau < eps * eps \/ h + (L - tau) * (L - tau) < eps * eps)).
Proof.
  intros He. unfold seg_contains. pose proof sd_L as HL. pose proof sd_h as Hh.
  assert (line_contains (seg_line s) p eps = true <-> h < eps * eps) as Hl.
  { rewrite line_contains_eq by lra. fold q. rewrite dist_lt_eps by lra. reflexivity. }
  assert (sqlen (vec_to (s_src s) p) = h + tau * tau) as E1.
  { rewrite sqlen_dot, vec_to_psub. pose proof (sd_dist 0) as E.
    replace (padd (s_src s) (pscale 0 u)) with (s_src s) in E.
    - rewrite E. ring.
    - destruct (s_src s). unfold padd, pscale. cbn. f_equal; ring. }
  assert (sqlen (vec_to (s_tgt s) p) = h + (L - tau) * (L - tau)) as E2.
  { rewrite sqlen_dot, vec_to_psub. rewrite sd_tgt at 1 2. rewrite sd_dist. ring. }
  assert (sprod (l_dir (seg_line s)) (vec_to (s_src s) p) = tau) as E3.
  { rewrite sprod_dot, vec_to_psub. reflexivity. }
  assert (sprod (l_dir (seg_line s)) (vec_to (s_tgt s) p) = tau - L) as E4.
  { rewrite sprod_dot, vec_to_psub. rewrite sd_tgt. cbn [seg_line l_dir]. fold u.
    pose proof sd_u as Hu. unfold tau. destruct p, u, (s_src s). coords. nsatz. }
  rewrite E1, E2, E3, E4. cbn [nsign nmul nltb R_num].
  destruct chk; cbn [andb].
  - destruct (line_contains (seg_line s) p eps) eqn:El; cbn [negb].
    + assert (h < eps * eps) by (apply Hl; reflexivity).
      repeat rcmp; cbn [xorb]; split; intros; try discriminate; try reflexivity;
        try (split; [intros; assumption|lra]); exfalso; lra.
    + assert (~ h < eps * eps) by (intros C; apply Hl in C; discriminate).
      split; [discriminate|]. intros [C _]. specialize (C eq_refl). lra.
  - repeat rcmp; cbn [xorb]; split; intros; try discriminate; try reflexivity;
      try (split; [intros; discriminate|lra]); exfalso; lra.
Qed.

Lemma seg_contains_iff eps d : 0 < eps ->
  dist_to (on_segment (s_src s) (s_tgt s)) p d ->
  (seg_contains s p eps true = true <-> d < eps).
Proof.
  intros He Hd. rewrite seg_contains_1d by assumption.
  assert (d = sqrt (h + (clamp - tau) * (clamp - tau))) as ->.
  { destruct Hd as [[y [Hy <-]] Hm]. destruct seg_dist_val as [[y' [Hy' E']] Hm'].
    pose proof (Hm _ Hy'). pose proof (Hm' _ Hy). lra. }
  pose proof sd_h. pose proof sd_L.
  pose proof (Rle_0_sqr (clamp - tau)) as Hsq. unfold Rsqr in Hsq.
  rewrite sqrt_lt_sq by lra. apply clamp_lt_aux; assumption.
Qed.
End seg1d.

Lemma seg_contains_on_line (s : segment R) p eps : s_src s <> s_tgt s -> 0 < eps ->
  on_line (s_src s) (seg_dir s) p ->
  seg_contains s p eps false = seg_contains s p eps true.
Proof.
  intros Hne He [t Ht]. apply eq_true_iff_eq. rewrite !seg_contains_1d by assumption.
  set (h := dot _ _).
  assert (h = 0) as ->.
  { unfold h. rewrite line_proj_eq. cbn [seg_line l_sup l_dir]. rewrite Ht.
    pose proof (sd_u s Hne) as Hu. destruct (seg_dir s), (s_src s). coords. nsatz. }
  split; intros [_ Hx]; (split; [intros; nra|exact Hx]).
Qed.

Lemma seg_reversed_same (s : segment R) p : on_segment (s_src s) (s_tgt s) p
  <-> on_segment (s_src (seg_reversed s)) (s_tgt (seg_reversed s)) p.
Proof. cbn. apply on_segment_sym. Qed.


Lemma seg_dist_exists (s : segment R) p : s_src s <> s_tgt s ->
  exists d, dist_to (on_segment (s_src s) (s_tgt s)) p d.
Proof. intros H. eexists. apply seg_dist_val. exact H. Qed.

Lemma on_segment_line (s : segment R) p : s_src s <> s_tgt s ->
  on_segment (s_src s) (s_tgt s) p -> on_line (s_src s) (seg_dir s) p.
Proof. intros Hne Hp. apply sd_on in Hp; [|exact Hne]. destruct Hp as (r & _ & ->). exists r. reflexivity. Qed.

Lemma seg_own_points (s : segment R) p : s_src s <> s_tgt s ->
  on_segment (s_src s) (s_tgt s) p ->
  (forall eps chk, 0 < eps -> seg_contains s p eps chk = true) /\
  (forall chk, seg_contains_default s p chk = true).
Proof.
  intros Hne Hp.
  assert (forall eps chk, 0 < eps -> seg_contains s p eps chk = true) as K.
  { intros eps chk He. assert (seg_contains s p eps true = true) as Ht.
    { apply (seg_contains_iff s p Hne eps 0 He); [|exact He].
      split; [exists p; split; [exact Hp|apply dist_self]|]. intros y _. apply dist_nonneg. }
    destruct chk; [exact Ht|]. rewrite seg_contains_on_line; auto. apply on_segment_line; assumption. }
  split; [exact K|]. intros chk. unfold seg_contains_default. apply K.
  unfold seg_len, confusion. rewrite vlen_norm, vec_to_psub. rn.
  pose proof (norm_pos _ (seg_nondeg s Hne)). apply Rmult_lt_0_compat; lra.
Qed.

Lemma seg_end_points (s : segment R) :
  seg_point s 0 = s_src s /\ seg_point s 1 = s_tgt s /\ seg_len s = dist (s_src s) (s_tgt s) /\
  dist (s_src s) (seg_center s) = dist (seg_center s) (s_tgt s).
Proof.
  destruct s as [[a b c] [d e f]]. unfold seg_center, seg_point, seg_len. cbn [s_src s_tgt].
  repeat split.
  - coords. f_equal; ring.
  - coords. f_equal; ring.
  - rewrite vlen_norm, vec_to_psub. apply dist_sym.
  - unfold dist, norm. f_equal. coords. field.
Qed.

(** ** concrete cases *)
Lemma line_case : let l := mkLine (mkV3 1 1 1) (mkV3 0 1 0) in
  unit3 (l_dir l) /\ line_proj l (mkV3 5 7 1) = mkV3 1 7 1 /\
  dist_to (on_line (l_sup l) (l_dir l)) (mkV3 5 7 1) 4.
Proof.
  cbv zeta. assert (unit3 (mkV3 0 1 0)) as Hu by (coords; lra).
  assert (line_proj (mkLine (mkV3 1 1 1) (mkV3 0 1 0)) (mkV3 5 7 1) = mkV3 1 7 1) as E.
  { rewrite line_proj_eq. cbn [l_sup l_dir]. coords. f_equal; lra. }
  assert (dist (mkV3 5 7 1) (mkV3 1 7 1) = 4) as Ed.
  { unfold dist, norm. coords. replace (_ + _) with (4 * 4) by ring. apply sqrt_square. lra. }
  split; [exact Hu|]. split; [exact E|].
  pose proof (line_proj_closest (mkLine (mkV3 1 1 1) (mkV3 0 1 0)) (mkV3 5 7 1) Hu) as [H1 H2].
  rewrite E in *. split; [exists (mkV3 1 7 1); split; assumption|].
  intros y Hy. rewrite <- Ed. apply H2, Hy.
Qed.

Lemma to_dir_axis (c : R) : 0 < c ->
  to_dir (mkV3 c 0 0) = mkV3 1 0 0 /\ to_dir (mkV3 0 c 0) = mkV3 0 1 0 /\ to_dir (mkV3 0 0 c) = mkV3 0 0 1.
Proof.
  intros Hc. unfold to_dir. rewrite !vlen_norm. unfold norm, dot, vdiv. rn.
  replace (c * c + 0 * 0 + 0 * 0) with (c * c) by ring.
  replace (0 * 0 + c * c + 0 * 0) with (c * c) by ring.
  replace (0 * 0 + 0 * 0 + c * c) with (c * c) by ring.
  rewrite sqrt_square by lra. repeat split; f_equal; field; lra.
Qed.

Lemma plane_case : let p1 := mkV3 0 0 1 in let p2 := mkV3 2 0 1 in let p3 := mkV3 1 1 1 in
  cross (psub p2 p1) (psub p3 p1) <> zero3 /\
  pl_n (plane_3p p1 p2 p3) = mkV3 0 0 1 /\ pl_b2 (plane_3p p1 p2 p3) = mkV3 0 1 0.
Proof.
  cbv zeta. split.
  - coords. intros E. injection E. lra.
  - unfold plane_3p. cbn [pl_n pl_b2].
    replace (vec_to (mkV3 0 0 1) (mkV3 2 0 1)) with (mkV3 2 0 0) by (coords; f_equal; lra).
    destruct (to_dir_axis 2 ltac:(lra)) as (-> & _ & _).
    replace (cross (mkV3 1 0 0) (vec_to (mkV3 0 0 1) (mkV3 1 1 1))) with (mkV3 0 0 1) by (coords; f_equal; lra).
    destruct (to_dir_axis 1 ltac:(lra)) as (_ & E2 & ->).
    replace (cross (mkV3 0 0 1) (mkV3 1 0 0)) with (mkV3 0 1 0) by (coords; f_equal; lra).
    rewrite E2. split; reflexivity.
Qed.

Lemma seg_case : let s := mkSeg (mkV3 0 0 0) (mkV3 4 0 0) in
  s_src s <> s_tgt s /\ on_segment (s_src s) (s_tgt s) (mkV3 1 0 0) /\
  dist_to (on_segment (s_src s) (s_tgt s)) (mkV3 7 4 0) 5.
Proof.
  cbn. split; [intros E; injection E; lra|]. split.
  - exists (1 / 4). split; [lra|]. coords. f_equal; lra.
  - split.
    + exists (mkV3 4 0 0). split; [exists 1; split; [lra|]; coords; f_equal; lra|].
      unfold dist, norm. coords. replace (_ + _) with (5 * 5) by ring. apply sqrt_square. lra.
    + intros y (t & Ht & ->). unfold dist, norm. rewrite <- (sqrt_square 5) by lra.
      apply sqrt_le_1_alt. coords. nra.
Qed.
