(** Cylinders, hollow cylinders, cylinder surfaces and spheres: proofs. *)

From Coq Require Import Reals Lra Psatz Nsatz Bool List.
From Verif Require Import Base NumModel VecModel LinModel RoundModel GeoSpec LinSpec RoundSpec
  GeoLemmas MathProofs LinProofs EllProofs ArcProofs.
Local Open Scope R_scope.

(** * The axis *)
Section Axis.
Variables (c n : pt) (h : R).
Hypothesis Hn : unit3 n.
Hypothesis Hh : 0 < h.
Let seg := mkSeg c (padd c (pscale h n)).

Lemma ax_sub : psub (s_tgt seg) (s_src seg) = pscale h n.
Proof. apply v3_eq; cbn [seg s_src s_tgt]; coords; ring. Qed.
Lemma ax_norm : norm (pscale h n) = h.
Proof.
  unfold norm. replace (dot (pscale h n) (pscale h n)) with (Rsqr h).
  - apply sqrt_Rsqr. lra.
  - unfold Rsqr. transitivity (h * h * dot n n); [unfold unit3 in Hn; rewrite Hn; ring|coords; ring].
Qed.
Lemma ax_ne : s_src seg <> s_tgt seg.
Proof.
  intros E. pose proof ax_sub as S. rewrite E in S.
  assert (pscale h n = zero3) as Z by (rewrite <- S; apply v3_eq; coords; ring).
  pose proof ax_norm as N. rewrite Z in N. unfold norm in N. replace (dot zero3 zero3) with 0 in N by (coords; ring).
  rewrite sqrt_0 in N. lra.
Qed.
Lemma ax_dir : seg_dir seg = n.
Proof.
  unfold seg_dir. rewrite vec_to_psub, ax_sub, to_dir_scale.
  - rewrite ax_norm. apply v3_eq; coords; field; lra.
  - rewrite <- ax_sub. apply seg_nondeg, ax_ne.
Qed.
Definition axz (p : pt) : R := dot n (psub p c).
Definition axw (p : pt) : pt := psub p (padd c (pscale (axz p) n)).
Lemma ax_proj p : line_proj (seg_line seg) p = padd c (pscale (axz p) n).
Proof. rewrite line_proj_eq. cbn [seg_line l_sup l_dir]. rewrite ax_dir. reflexivity. Qed.
Lemma ax_ortho p : ortho (axw p) n.
Proof.
  unfold ortho, axw. transitivity (axz p - axz p * dot n n); [unfold axz; coords; ring|].
  unfold unit3 in Hn. rewrite Hn. ring.
Qed.
Lemma ax_split p : p = padd c (padd (pscale (axz p) n) (axw p)).
Proof. unfold axw. apply v3_eq; coords; ring. Qed.
Lemma ax_unique z w p : ortho w n -> p = padd c (padd (pscale z n) w) -> axz p = z /\ axw p = w.
Proof.
  intros Ho ->. assert (axz (padd c (padd (pscale z n) w)) = z) as E.
  { unfold axz. transitivity (z * dot n n + dot w n); [coords; ring|]. unfold unit3, ortho in *. rewrite Hn, Ho. ring. }
  split; [exact E|]. unfold axw. rewrite E. apply v3_eq; coords; ring.
Qed.
Lemma ax_seg_contains p eps : 0 < eps ->
  (seg_contains seg (line_proj (seg_line seg) p) eps true = true <-> - eps < axz p < h + eps).
Proof.
  intros He. rewrite (seg_contains_1d seg _ ax_ne) by exact He.
  rewrite ax_sub, ax_norm, ax_dir. set (q := line_proj (seg_line seg) p).
  assert (line_proj (seg_line seg) q = q) as E.
  { unfold q. rewrite (ax_proj p), ax_proj. f_equal. f_equal. unfold axz at 1.
    transitivity (axz p * dot n n); [coords; ring|]. unfold unit3 in Hn. rewrite Hn. ring. }
  rewrite E. replace (dot (psub q q) (psub q q)) with 0 by (coords; ring).
  replace (dot n (psub q (s_src seg))) with (axz p).
  - split.
    + intros [_ [H|[H|H]]]; nra.
    + intros H. split; [intros; nra|].
      destruct (Rlt_dec (axz p) 0); [right; left; nra|]. destruct (Rlt_dec (axz p) h); [left; lra|right; right; nra].
  - unfold q. rewrite ax_proj. transitivity (axz p * dot n n); [unfold unit3 in Hn; rewrite Hn; ring|cbn [seg s_src s_tgt]; coords; ring].
Qed.
Lemma ax_vec p : vec_to (line_proj (seg_line seg) p) p = axw p.
Proof. rewrite vec_to_psub, ax_proj. reflexivity. Qed.
Lemma cyl_set_char P p : cyl_set c n h P p <-> 0 <= axz p <= h /\ P (norm (axw p)).
Proof.
  split.
  - intros (z & w & Hz & Ho & HP & E). destruct (ax_unique z w p Ho E) as [-> ->]. auto.
  - intros [Hz HP]. exists (axz p), (axw p). split; [exact Hz|]. split; [apply ax_ortho|]. split; [exact HP|apply ax_split].
Qed.

(** moving a point to the set *)
Lemma ax_dist p z w : ortho w n ->
  dist p (padd c (padd (pscale z n) w)) = sqrt (Rsqr (axz p - z) + Rsqr (norm (psub (axw p) w))).
Proof.
  intros Ho. unfold dist, norm at 1. f_equal. unfold Rsqr. rewrite norm_sq.
  set (v := psub (axw p) w).
  assert (dot v n = 0) as Hv.
  { unfold v. transitivity (dot (axw p) n - dot w n); [coords; ring|]. unfold ortho in Ho. rewrite (ax_ortho p), Ho. ring. }
  replace (psub p (padd c (padd (pscale z n) w))) with (padd (pscale (axz p - z) n) v).
  - transitivity ((axz p - z) * (axz p - z) * dot n n + 2 * (axz p - z) * dot v n + dot v v); [coords; ring|].
    unfold unit3 in Hn. rewrite Hn, Hv. ring.
  - unfold v, axw. apply v3_eq; coords; ring.
Qed.

Lemma sqrt2_bound a b eps : 0 <= eps -> Rabs a <= eps -> Rabs b <= eps -> sqrt (Rsqr a + Rsqr b) <= sqrt 2 * eps.
Proof.
  intros He Ha Hb. rewrite <- (sqrt_Rsqr eps) by exact He. rewrite <- sqrt_mult by (try lra; apply Rle_0_sqr).
  apply sqrt_le_1_alt. rewrite (Rsqr_abs a), (Rsqr_abs b).
  pose proof (Rabs_pos a). pose proof (Rabs_pos b). unfold Rsqr. nra.
Qed.

Lemma ax_near (P : R -> Prop) p eps w : 0 <= eps -> - eps < axz p < h + eps -> ortho w n -> P (norm w) ->
  norm (psub (axw p) w) <= eps -> exists q, cyl_set c n h P q /\ dist p q <= sqrt 2 * eps.
Proof.
  intros He Hz Ho HP Hd.
  set (z := Rmax 0 (Rmin h (axz p))).
  assert (0 <= z <= h /\ Rabs (axz p - z) <= eps) as [Hz1 Hz2].
  { unfold z. destruct (Rle_dec h (axz p)).
    - rewrite Rmin_left, Rmax_right by lra. split; [lra|]. rewrite Rabs_right; lra.
    - rewrite Rmin_right by lra. destruct (Rle_dec 0 (axz p)).
      + rewrite Rmax_right by lra. split; [lra|]. replace (axz p - axz p) with 0 by ring. rewrite Rabs_R0. lra.
      + rewrite Rmax_left by lra. split; [lra|]. rewrite Rabs_left1; lra. }
  exists (padd c (padd (pscale z n) w)). split; [exists z, w; auto|].
  rewrite ax_dist by exact Ho. apply sqrt2_bound; [exact He|exact Hz2|].
  rewrite Rabs_right; [exact Hd|]. apply Rle_ge, norm_nonneg.
Qed.

(** scaling the offset *)
Lemma scale_norm k (w : pt) : 0 <= k -> norm (pscale k w) = k * norm w.
Proof.
  intros Hk. unfold norm. replace (dot (pscale k w) (pscale k w)) with (Rsqr k * dot w w) by (unfold Rsqr; coords; ring).
  rewrite sqrt_mult by (try apply Rle_0_sqr; apply dot_nonneg). rewrite sqrt_Rsqr by exact Hk. reflexivity.
Qed.
Lemma offset_to r (w : pt) : 0 <= r -> ortho w n -> exists w', ortho w' n /\ norm w' = r /\ norm (psub w w') = Rabs (norm w - r).
Proof.
  intros Hr Ho. destruct (Req_dec (norm w) 0) as [Z|Z].
  - assert (w = zero3) by (apply norm_zero; exact Z). subst w.
    destruct (make_orthogonal_ok n) as [Mo Mz]. set (m := to_dir (make_orthogonal n)).
    exists (pscale r m).
    assert (norm m = 1) as Nm by (apply norm_unit, to_dir_unit, Mz).
    assert (ortho m n) as Om by (apply to_dir_ortho; assumption).
    split; [|split].
    + unfold ortho in *. transitivity (r * dot m n); [coords; ring|rewrite Om; ring].
    + rewrite scale_norm, Nm by exact Hr. ring.
    + rewrite Z. replace (psub zero3 (pscale r m)) with (pscale (-1) (pscale r m)) by (apply v3_eq; coords; ring).
      rewrite norm_opp, scale_norm, Nm by exact Hr. rewrite Rabs_left1; lra.
  - pose proof (norm_nonneg w) as N. assert (0 < norm w) as Np by lra.
    exists (pscale (r / norm w) w).
    assert (0 <= r / norm w) as Hk by (apply Rmult_le_pos; [exact Hr|left; apply Rinv_0_lt_compat; exact Np]).
    split; [|split].
    + unfold ortho in *. transitivity (r / norm w * dot w n); [coords; ring|rewrite Ho; ring].
    + rewrite scale_norm by exact Hk. field. lra.
    + destruct (Rle_dec r (norm w)) as [A|A].
      * assert (0 <= 1 - r / norm w) as B.
        { apply Rmult_le_reg_r with (norm w); [exact Np|]. replace ((1 - r / norm w) * norm w) with (norm w - r) by (field; lra). lra. }
        replace (psub w (pscale (r / norm w) w)) with (pscale (1 - r / norm w) w) by (apply v3_eq; unfold psub, pscale; cbn [vx vy vz]; ring).
        rewrite scale_norm by exact B. rewrite Rabs_right by lra. field. lra.
      * assert (0 <= r / norm w - 1) as B.
        { apply Rmult_le_reg_r with (norm w); [exact Np|]. replace ((r / norm w - 1) * norm w) with (r - norm w) by (field; lra). lra. }
        replace (psub w (pscale (r / norm w) w)) with (pscale (-1) (pscale (r / norm w - 1) w)) by (apply v3_eq; unfold psub, pscale; cbn [vx vy vz]; ring).
        rewrite norm_opp, scale_norm by exact B. rewrite Rabs_left1 by lra. field. lra.
Qed.

Lemma tol_up r d eps : 0 <= r -> 0 <= d -> 0 <= eps -> d * d <= r * r + eps * eps -> d <= r + eps.
Proof. intros. nra. Qed.
Lemma tol_down r d eps : 0 <= r -> 0 <= d -> 0 <= eps -> r * r - eps * eps <= d * d -> r - eps <= d.
Proof. intros. nra. Qed.
End Axis.

Lemma cyl_seg cy : cyl_ok cy ->
  cyl_axis cy = mkSeg (e_c (c_bot cy)) (padd (e_c (c_bot cy)) (pscale (c_h cy) (e_n (c_bot cy)))).
Proof. intros (_ & _ & _ & E). unfold cyl_axis. rewrite E. reflexivity. Qed.

(** * Cylinders *)
Lemma cyl_contains_char cy p eps : cyl_ok cy -> 0 < eps ->
  let c := e_c (c_bot cy) in let n := e_n (c_bot cy) in let r := e_a (c_bot cy) in
  (cyl_contains cy p eps = true <->
   - eps < axz c n p < c_h cy + eps /\ norm (axw c n p) * norm (axw c n p) <= r * r + eps * eps).
Proof.
  intros Hok He c n r. unfold cyl_contains. rewrite (cyl_seg cy Hok). fold c n.
  destruct Hok as (Hn & Hh & Hr & _). fold n in Hn.
  rewrite (ax_vec c n _ Hn Hh). pose proof (ax_seg_contains c n _ Hn Hh p eps He) as Hs.
  rewrite norm_sq, sqlen_dot. unfold cyl_radius. fold r. rn.
  destruct (seg_contains _ _ eps true); cbn [negb].
  - rewrite Rleb_true. intuition.
  - split; [discriminate|]. intros [C _]. apply Hs in C. discriminate.
Qed.

Lemma cyl_contains_solid cy p eps : cyl_ok cy -> 0 < eps -> cyl_solid cy p -> cyl_contains cy p eps = true.
Proof.
  intros Hok He H. apply (cyl_contains_char cy p eps Hok He). pose proof Hok as (Hn & Hh & Hr & _).
  apply (cyl_set_char _ _ _ Hn) in H. destruct H as [Hz Hw]. split; [lra|].
  pose proof (norm_nonneg (axw (e_c (c_bot cy)) (e_n (c_bot cy)) p)). nra.
Qed.

Lemma all_eps_le x y : (forall eps, 0 < eps -> x <= y + eps) -> x <= y.
Proof. intros H. apply Rnot_lt_le. intros C. specialize (H ((x - y) / 2) ltac:(lra)). lra. Qed.
Lemma all_eps_sq_le x y : (forall eps, 0 < eps -> x <= y + eps * eps) -> x <= y.
Proof.
  intros H. apply all_eps_le. intros eps He. destruct (Rle_dec eps 1).
  - specialize (H eps He). nra.
  - specialize (H 1 ltac:(lra)). lra.
Qed.

Lemma cyl_contains_all cy p : cyl_ok cy ->
  (forall eps, 0 < eps -> cyl_contains cy p eps = true) <-> cyl_solid cy p.
Proof.
  intros Hok. split; [|intros H eps He; apply cyl_contains_solid; assumption].
  intros H. pose proof Hok as (Hn & Hh & Hr & _). apply (cyl_set_char _ _ _ Hn).
  assert (forall eps, 0 < eps -> - eps < axz (e_c (c_bot cy)) (e_n (c_bot cy)) p < c_h cy + eps /\
    norm (axw (e_c (c_bot cy)) (e_n (c_bot cy)) p) * norm (axw (e_c (c_bot cy)) (e_n (c_bot cy)) p) <= e_a (c_bot cy) * e_a (c_bot cy) + eps * eps) as K.
  { intros eps He. apply (cyl_contains_char cy p eps Hok He), H, He. }
  split; [split|].
  - apply all_eps_le. intros eps He. destruct (K eps He). lra.
  - apply all_eps_le. intros eps He. destruct (K eps He). lra.
  - apply sq_le_iff; [apply norm_nonneg|exact Hr|]. apply all_eps_sq_le. intros eps He. apply K, He.
Qed.

Lemma cyl_contains_near cy p eps : cyl_ok cy -> 0 < eps -> cyl_contains cy p eps = true ->
  exists q, cyl_solid cy q /\ dist p q <= sqrt 2 * eps.
Proof.
  intros Hok He H. apply (cyl_contains_char cy p eps Hok He) in H. destruct H as [Hz Hw].
  pose proof Hok as (Hn & Hh & Hr & _). unfold cyl_solid, solid_cyl.
  set (c := e_c (c_bot cy)) in *. set (n := e_n (c_bot cy)) in *. set (r := e_a (c_bot cy)) in *.
  set (w := axw c n p) in *. pose proof (ax_ortho c n Hn p) as Ho. fold w in Ho.
  destruct (Rle_dec (norm w) r) as [A|A].
  - apply (ax_near c n _ Hn Hh _ p eps w); auto; [lra|]. fold w.
    replace (psub w w) with zero3 by (apply v3_eq; coords; ring).
    replace (norm zero3) with 0; [lra|]. symmetry. unfold norm. replace (dot zero3 zero3) with 0 by (coords; ring). apply sqrt_0.
  - destruct (offset_to n r w Hr Ho) as (w' & Ho' & Nw & Nd).
    apply (ax_near c n _ Hn Hh _ p eps w'); auto; [lra|rewrite Nw; lra|]. fold w. rewrite Nd.
    pose proof (tol_up r (norm w) eps Hr (norm_nonneg w) ltac:(lra) Hw). rewrite Rabs_right; lra.
Qed.

Lemma cyl_default_eps cy : cyl_ok cy -> 0 < cyl_eps cy.
Proof.
  intros (_ & Hh & Hr & _). unfold cyl_eps, cyl_radius. rewrite kk_eq. pose proof kk_pos. rn. nra.
Qed.

(** * Surfaces *)
Lemma surf_contains_char cy p eps : cyl_ok cy -> 0 < eps ->
  let c := e_c (c_bot cy) in let n := e_n (c_bot cy) in let r := e_a (c_bot cy) in
  (surf_contains cy p eps = true <->
   - eps < axz c n p < c_h cy + eps /\ Rabs (norm (axw c n p) - r) < eps).
Proof.
  intros Hok He c n r. unfold surf_contains. rewrite (cyl_seg cy Hok). fold c n.
  destruct Hok as (Hn & Hh & Hr & _). fold n in Hn.
  rewrite (ax_vec c n _ Hn Hh). pose proof (ax_seg_contains c n _ Hn Hh p eps He) as Hs.
  rewrite vlen_norm. unfold cyl_radius. fold r. rn.
  destruct (seg_contains _ _ eps true); cbn [negb].
  - rewrite Rltb_true. intuition.
  - split; [discriminate|]. intros [C _]. apply Hs in C. discriminate.
Qed.

Lemma surf_contains_all cy p : cyl_ok cy ->
  (forall eps, 0 < eps -> surf_contains cy p eps = true) <-> cyl_lateral_set cy p.
Proof.
  intros Hok. pose proof Hok as (Hn & Hh & Hr & _). unfold cyl_lateral_set, lateral_cyl.
  rewrite (cyl_set_char _ _ _ Hn).
  set (c := e_c (c_bot cy)) in *. set (n := e_n (c_bot cy)) in *.
  split.
  - intros H. 
    assert (forall eps, 0 < eps -> - eps < axz c n p < c_h cy + eps /\ Rabs (norm (axw c n p) - e_a (c_bot cy)) < eps) as K.
    { intros eps He. apply (surf_contains_char cy p eps Hok He), H, He. }
    split; [split|].
    + apply all_eps_le. intros eps He. destruct (K eps He). lra.
    + apply all_eps_le. intros eps He. destruct (K eps He). lra.
    + apply Rminus_diag_uniq, small_abs_zero. intros eps He. apply K, He.
  - intros [Hz Hw] eps He. apply (surf_contains_char cy p eps Hok He). fold c n. rewrite Hw.
    replace (e_a (c_bot cy) - e_a (c_bot cy)) with 0 by ring. rewrite Rabs_R0. lra.
Qed.

Lemma surf_contains_near cy p eps : cyl_ok cy -> 0 < eps -> surf_contains cy p eps = true ->
  exists q, cyl_lateral_set cy q /\ dist p q <= sqrt 2 * eps.
Proof.
  intros Hok He H. apply (surf_contains_char cy p eps Hok He) in H. destruct H as [Hz Hw].
  pose proof Hok as (Hn & Hh & Hr & _). unfold cyl_lateral_set, lateral_cyl.
  set (c := e_c (c_bot cy)) in *. set (n := e_n (c_bot cy)) in *. set (r := e_a (c_bot cy)) in *.
  pose proof (ax_ortho c n Hn p) as Ho.
  destruct (offset_to n r _ Hr Ho) as (w' & Ho' & Nw & Nd).
  apply (ax_near c n _ Hn Hh _ p eps w'); auto; lra.
Qed.

(** * Hollow cylinders *)
Lemma hollow_seg hc : hollow_ok hc ->
  hollow_axis hc = mkSeg (e_c (h_bot hc)) (padd (e_c (h_bot hc)) (pscale (h_h hc) (e_n (h_bot hc)))).
Proof. intros (_ & _ & _ & E). unfold hollow_axis. rewrite E. reflexivity. Qed.

Lemma hollow_contains_char hc p eps : hollow_ok hc -> 0 < eps ->
  let c := e_c (h_bot hc) in let n := e_n (h_bot hc) in let d := norm (axw c n p) in
  (hollow_contains hc p eps = true <->
   - eps < axz c n p < h_h hc + eps /\
   e_a (h_bot hc) * e_a (h_bot hc) - eps * eps <= d * d <= h_outer hc * h_outer hc + eps * eps).
Proof.
  intros Hok He c n d. unfold hollow_contains. rewrite (hollow_seg hc Hok). fold c n.
  destruct Hok as (Hn & Hh & Hr & _). fold n in Hn.
  rewrite (ax_vec c n _ Hn Hh). pose proof (ax_seg_contains c n _ Hn Hh p eps He) as Hs.
  unfold d. rewrite norm_sq, sqlen_dot. unfold hollow_inner. rn.
  destruct (seg_contains _ _ eps true); cbn [negb].
  - rewrite andb_true_iff, !Rleb_true. intuition.
  - split; [discriminate|]. intros [C _]. apply Hs in C. discriminate.
Qed.

Lemma hollow_contains_all hc p : hollow_ok hc ->
  (forall eps, 0 < eps -> hollow_contains hc p eps = true) <-> hollow_solid hc p.
Proof.
  intros Hok. pose proof Hok as (Hn & Hh & Hr & _). unfold hollow_solid, hollow_cyl.
  rewrite (cyl_set_char _ _ _ Hn).
  set (c := e_c (h_bot hc)) in *. set (n := e_n (h_bot hc)) in *.
  pose proof (norm_nonneg (axw c n p)) as Nn.
  split.
  - intros H.
    assert (forall eps, 0 < eps -> - eps < axz c n p < h_h hc + eps /\
      e_a (h_bot hc) * e_a (h_bot hc) - eps * eps <= norm (axw c n p) * norm (axw c n p) <= h_outer hc * h_outer hc + eps * eps) as K.
    { intros eps He. apply (hollow_contains_char hc p eps Hok He), H, He. }
    split; [split|split].
    + apply all_eps_le. intros eps He. destruct (K eps He). lra.
    + apply all_eps_le. intros eps He. destruct (K eps He). lra.
    + apply sq_le_iff; [lra|exact Nn|]. apply all_eps_sq_le. intros eps He. destruct (K eps He). lra.
    + apply sq_le_iff; [exact Nn|lra|]. apply all_eps_sq_le. intros eps He. destruct (K eps He). lra.
  - intros [Hz Hw] eps He. apply (hollow_contains_char hc p eps Hok He). fold c n. split; [lra|]. nra.
Qed.

Lemma norm_zero3 : norm zero3 = 0.
Proof. unfold norm. replace (dot zero3 zero3) with 0 by (coords; ring). apply sqrt_0. Qed.

Lemma hollow_contains_near hc p eps : hollow_ok hc -> 0 < eps -> hollow_contains hc p eps = true ->
  exists q, hollow_solid hc q /\ dist p q <= sqrt 2 * eps.
Proof.
  intros Hok He H. apply (hollow_contains_char hc p eps Hok He) in H. destruct H as [Hz [Hw1 Hw2]].
  pose proof Hok as (Hn & Hh & Hr & _). unfold hollow_solid, hollow_cyl.
  set (c := e_c (h_bot hc)) in *. set (n := e_n (h_bot hc)) in *. set (ri := e_a (h_bot hc)) in *. set (ro := h_outer hc) in *.
  set (w := axw c n p) in *. pose proof (ax_ortho c n Hn p) as Ho. fold w in Ho.
  pose proof (tol_up ro (norm w) eps ltac:(lra) (norm_nonneg w) ltac:(lra) Hw2).
  pose proof (tol_down ri (norm w) eps ltac:(lra) (norm_nonneg w) ltac:(lra) Hw1).
  destruct (Rlt_dec ro (norm w)) as [A|A]; [|destruct (Rlt_dec (norm w) ri) as [B|B]].
  - destruct (offset_to n ro w ltac:(lra) Ho) as (w' & Ho' & Nw & Nd).
    apply (ax_near c n _ Hn Hh _ p eps w'); auto; [lra|rewrite Nw; lra|]. fold w. rewrite Nd. rewrite Rabs_right; lra.
  - destruct (offset_to n ri w ltac:(lra) Ho) as (w' & Ho' & Nw & Nd).
    apply (ax_near c n _ Hn Hh _ p eps w'); auto; [lra|rewrite Nw; lra|]. fold w. rewrite Nd. rewrite Rabs_left; lra.
  - apply (ax_near c n _ Hn Hh _ p eps w); auto; [lra|lra|]. fold w.
    replace (psub w w) with zero3 by (apply v3_eq; coords; ring). rewrite norm_zero3. lra.
Qed.

(** the core is excluded *)
Lemma hollow_core hc p eps : hollow_ok hc -> 0 < eps ->
  solid_cyl (e_c (h_bot hc)) (e_n (h_bot hc)) (e_a (h_bot hc) - 2 * eps) (h_h hc) p ->
  hollow_contains hc p eps = false.
Proof.
  intros Hok He H. apply not_true_is_false. intros C. apply (hollow_contains_char hc p eps Hok He) in C.
  destruct C as [_ [C _]]. pose proof Hok as (Hn & Hh & Hr & _).
  apply (cyl_set_char _ _ _ Hn) in H. destruct H as [_ H].
  set (d := norm _) in *. assert (0 <= d) by apply norm_nonneg. nra.
Qed.

(** * Spheres *)
Lemma sphere_contains_char s p eps : 0 <= sp_r s ->
  (sphere_contains s p eps = true <-> dist p (sp_c s) * dist p (sp_c s) < sp_r s * sp_r s + eps * eps).
Proof.
  intros Hr. unfold sphere_contains. rewrite sqlen_dot, vec_to_psub. unfold dist. rewrite norm_sq. rn.
  rewrite Rltb_true. split; lra.
Qed.
Lemma sphere_contains_all s p : 0 <= sp_r s ->
  (forall eps, 0 < eps -> sphere_contains s p eps = true) <-> ball (sp_c s) (sp_r s) p.
Proof.
  intros Hr. unfold ball. pose proof (dist_nonneg p (sp_c s)) as Hd. split.
  - intros H. apply sq_le_iff; [exact Hd|exact Hr|]. apply all_eps_sq_le. intros eps He.
    apply Rlt_le, (sphere_contains_char s p eps Hr), H, He.
  - intros H eps He. apply (sphere_contains_char s p eps Hr). nra.
Qed.
Lemma sphere_contains_near s p eps : 0 <= sp_r s -> 0 < eps -> sphere_contains s p eps = true ->
  dist p (sp_c s) < sp_r s + eps.
Proof.
  intros Hr He H. apply (sphere_contains_char s p eps Hr) in H. pose proof (dist_nonneg p (sp_c s)). nra.
Qed.

(** * Constructors *)
Lemma make_cyl_disk_spec d h : ell_ok d -> 0 < h ->
  (e_a d * (1 / 10 ^ 7) < Rabs (e_a d - e_b d) -> make_cyl_disk d h = Throw RuntimeError) /\
  (Rabs (e_a d - e_b d) <= e_a d * (1 / 10 ^ 7) -> exists cy, make_cyl_disk d h = Ok cy /\ cyl_ok cy /\
     c_bot cy = d /\ c_h cy = h /\ e_c (c_top cy) = padd (e_c d) (pscale h (e_n d)) /\
     e_n (c_top cy) = e_n d /\ e_maj (c_top cy) = e_maj d /\ e_min (c_top cy) = e_min d /\
     e_a (c_top cy) = e_a d /\ e_b (c_top cy) = e_b d).
Proof.
  intros Hok Hh. unfold make_cyl_disk. rewrite kk_eq. rn. fold kk.
  destruct Hok as [Hb [Ha Hb0]]. pose proof Hb as (Hu & Hv & Hn & Huv & Hun & Hvn & Hd).
  destruct (Rltb_spec (e_a d * kk) (Rabs (e_a d - e_b d))) as [C|C].
  - split; [reflexivity|]. intros D. lra.
  - split; [intros D; contradiction|]. intros _. eexists. split; [reflexivity|].
    assert (vadd (e_c d) (vscale (e_n d) h) = padd (e_c d) (pscale h (e_n d))) as E
      by (apply v3_eq; coords; ring).
    assert (to_dir (cross (e_maj d) (e_min d)) = e_n d) as En.
    { pose proof (cross_basis _ _ Hu Hv Huv) as (_ & _ & Hn' & _ & _ & _ & Hd').
      set (m := to_dir (cross (e_maj d) (e_min d))) in *.
      assert (cross (e_maj d) (e_min d) = m) as Em by (symmetry; apply to_dir_of_unit, cross_unit; assumption).
      assert (dot m (e_n d) = 1) as D1 by (rewrite <- Em, <- Hd; coords; ring).
      apply psub_zero, dot_zero. transitivity (dot m m - 2 * dot m (e_n d) + dot (e_n d) (e_n d)); [coords; ring|].
      unfold unit3 in *. rewrite Hn', D1, Hn. ring. }
    unfold make_top_disk, make_ell. cbn [c_bot c_top c_h e_c e_n e_maj e_min e_a e_b]. rewrite E, En.
    split; [|repeat split; reflexivity]. split; [exact Hn|]. split; [exact Hh|]. split; [change (0 <= e_a d); lra|cbn [c_top c_bot c_h e_c]; reflexivity].
Qed.

Lemma make_ell_circle c n r : unit3 n -> 0 < r ->
  let e := make_circle c n r in
  make_ell (e_c e) (e_maj e) (e_min e) (e_a e) (e_a e) = e.
Proof. intros Hn Hr e. reflexivity. Qed.

Lemma make_cyl_circle_spec c n r h : unit3 n -> 0 < r -> 0 < h ->
  exists cy, make_cyl_circle (make_circle c n r) h = Ok cy /\ cyl_ok cy /\
    forall p, cyl_solid cy p <-> solid_cyl c n r h p.
Proof.
  intros Hn Hr Hh. unfold make_cyl_circle. rewrite (make_ell_circle c n r Hn Hr).
  destruct (make_circle_ok c n r Hn Hr) as (Hok & Ec & En & Ea & Eb).
  destruct (make_cyl_disk_spec (make_circle c n r) h Hok Hh) as [_ H].
  destruct H as (cy & E & Hc & Eb' & Eh & _).
  - rewrite Ea, Eb. replace (r - r) with 0 by ring. rewrite Rabs_R0. pose proof kk_pos. unfold kk in *. nra.
  - exists cy. split; [exact E|]. split; [exact Hc|]. intros p. unfold cyl_solid. rewrite Eb', Eh, Ec, En, Ea. reflexivity.
Qed.

Lemma to_dir_x : to_dir (mkV3 1 0 0) = mkV3 1 0 0 :> pt.
Proof. apply to_dir_of_unit. unfold unit3, dot. cbn. ring. Qed.
Lemma to_dir_y : to_dir (mkV3 0 1 0) = mkV3 0 1 0 :> pt.
Proof. apply to_dir_of_unit. unfold unit3, dot. cbn. ring. Qed.
Lemma to_dir_z : to_dir (mkV3 0 0 1) = mkV3 0 0 1 :> pt.
Proof. apply to_dir_of_unit. unfold unit3, dot. cbn. ring. Qed.

Lemma make_cyl_z_spec r h z0 : 0 < r -> 0 < h ->
  cyl_ok (make_cyl_z r h z0) /\
  forall p, cyl_solid (make_cyl_z r h z0) p <-> z0 <= vz p <= z0 + h /\ vx p * vx p + vy p * vy p <= r * r.
Proof.
  intros Hr Hh.
  assert (e_n (c_bot (make_cyl_z r h z0)) = mkV3 0 0 1) as En.
  { unfold make_cyl_z, make_ell. cbn [c_bot e_n]. rn. rewrite to_dir_x, to_dir_y.
    replace (cross (mkV3 1 0 0) (mkV3 0 1 0)) with (mkV3 0 0 1 : pt) by (apply v3_eq; coords; ring). apply to_dir_z. }
  assert (cyl_ok (make_cyl_z r h z0)) as Hok.
  { split; [rewrite En; unfold unit3, dot; cbn; ring|]. split; [exact Hh|]. split; [cbn; lra|].
    rewrite En. unfold make_cyl_z. cbn [c_bot c_top c_h e_c make_ell]. rn. apply v3_eq; coords; ring. }
  split; [exact Hok|]. intros p. destruct Hok as (Hn & _).
  unfold cyl_solid, solid_cyl. rewrite (cyl_set_char _ _ _ Hn). rewrite En.
  change (e_c (c_bot (make_cyl_z r h z0))) with (mkV3 0 0 z0 : pt).
  change (c_h (make_cyl_z r h z0)) with h. change (e_a (c_bot (make_cyl_z r h z0))) with r.
  assert (axz (mkV3 0 0 z0) (mkV3 0 0 1) p = vz p - z0) as Ez by (unfold axz; coords; ring).
  rewrite Ez.
  assert (norm (axw (mkV3 0 0 z0) (mkV3 0 0 1) p) * norm (axw (mkV3 0 0 z0) (mkV3 0 0 1) p) = vx p * vx p + vy p * vy p) as En2.
  { rewrite norm_sq. unfold axw. rewrite Ez. coords. ring. }
  rewrite <- En2, sq_le_iff by (try apply norm_nonneg; lra). split; intros [A B]; split; auto; lra.
Qed.

Lemma make_hollow_circles c n ri ro h hc : unit3 n -> 0 < ri -> make_hollow c n ri ro h = Ok hc ->
  is_circle (h_bot hc) c n ri /\ is_circle (h_top hc) (padd c (pscale h n)) n ri /\
  is_circle (hollow_bot_outer hc) c n ro /\ is_circle (hollow_top_outer hc) (padd c (pscale h n)) n ro.
Proof.
  intros Hn Hr. unfold make_hollow. rn. destruct (Rltb_spec ro ri) as [C|C]; [discriminate|]. intros E. injection E as <-.
  assert (0 < ro) as Hro by lra.
  assert (vadd c (vscale n h) = padd c (pscale h n)) as E by (apply v3_eq; coords; ring). rewrite E.
  unfold is_circle, hollow_bot_outer, hollow_top_outer. cbn [h_bot h_top h_outer].
  destruct (make_circle_ok c n ri Hn Hr) as (A0 & A1 & A2 & A3 & A4). rewrite A2, A1.
  destruct (make_circle_ok (padd c (pscale h n)) n ri Hn Hr) as (B0 & B1 & B2 & B3 & B4). rewrite B1.
  destruct (make_circle_ok c n ro Hn Hro) as (C0 & C1 & C2 & C3 & C4).
  destruct (make_circle_ok (padd c (pscale h n)) n ro Hn Hro) as (D0 & D1 & D2 & D3 & D4).
  auto 20.
Qed.

Lemma make_hollow_spec c n ri ro h : unit3 n -> 0 < ri -> 0 < h ->
  (ro < ri -> make_hollow c n ri ro h = Throw RuntimeError) /\
  (ri <= ro -> exists hc, make_hollow c n ri ro h = Ok hc /\ hollow_ok hc /\
     (forall p, hollow_solid hc p <-> hollow_cyl c n ri ro h p) /\
     (exists full, hollow_full hc = Ok full /\ cyl_ok full /\ forall p, cyl_solid full p <-> solid_cyl c n ro h p) /\
     (cyl_ok (hollow_inner_face hc) /\ forall p, cyl_lateral_set (hollow_inner_face hc) p <-> lateral_cyl c n ri h p) /\
     (cyl_ok (hollow_outer_face hc) /\ forall p, cyl_lateral_set (hollow_outer_face hc) p <-> lateral_cyl c n ro h p)).
Proof.
  intros Hn Hr Hh. unfold make_hollow. rn.
  destruct (Rltb_spec ro ri) as [C|C].
  - split; [reflexivity|]. intros D. lra.
  - split; [intros D; contradiction|]. intros Hro. eexists. split; [reflexivity|].
    destruct (make_circle_ok c n ri Hn Hr) as (Hok & Ec & En & Ea & Eb).
    assert (0 < ro) as Hro' by lra.
    destruct (make_circle_ok c n ro Hn Hro') as (Hok2 & Ec2 & En2 & Ea2 & Eb2).
    assert (vadd c (vscale n h) = padd c (pscale h n)) as E by (apply v3_eq; coords; ring).
    assert (forall r, 0 < r -> cyl_ok (make_surf (make_circle c n r) h) /\
        forall p, cyl_lateral_set (make_surf (make_circle c n r) h) p <-> lateral_cyl c n r h p) as Hsurf.
    { intros r Hr0. destruct (make_circle_ok c n r Hn Hr0) as (_ & Ec0 & En0 & Ea0 & _).
      split.
      - unfold make_surf, cyl_ok. cbn [c_bot c_top c_h]. unfold make_top_circle. rewrite En0, Ec0, Ea0.
        split; [exact Hn|]. split; [exact Hh|]. split; [lra|]. change (e_c (make_circle ?c _ _)) with c. exact E.
      - intros p. unfold cyl_lateral_set, make_surf. cbn [c_bot c_h]. rewrite En0, Ec0, Ea0. reflexivity. }
    set (hc := mkHollow _ _ _ _).
    assert (hollow_bot_outer hc = make_circle c n ro) as Eo.
    { unfold hollow_bot_outer, hc. cbn [h_bot h_outer]. rewrite Ec, En. reflexivity. }
    split; [|split; [|split; [|split]]].
    + unfold hollow_ok, hc. cbn [h_bot h_top h_h h_outer]. rewrite En, Ea, Ec.
      split; [exact Hn|]. split; [exact Hh|]. split; [lra|]. change (e_c (make_circle ?c _ _)) with c. exact E.
    + intros p. unfold hollow_solid, hc. cbn [h_bot h_top h_h h_outer]. rewrite En, Ea, Ec. reflexivity.
    + unfold hollow_full, hc. cbn [h_bot h_top h_h h_outer]. rewrite En, Ec. apply make_cyl_circle_spec; assumption.
    + apply Hsurf. exact Hr.
    + unfold hollow_outer_face. rewrite Eo. apply Hsurf. exact Hro'.
Qed.

(** * Faces *)
Lemma cyl_lateral_spec cy : cyl_ok cy -> 0 < e_a (c_bot cy) ->
  cyl_ok (cyl_lateral cy) /\ (forall p, cyl_lateral_set (cyl_lateral cy) p <-> cyl_lateral_set cy p) /\
  cyl_axis (cyl_lateral cy) = cyl_axis cy /\ cyl_radius (cyl_lateral cy) = cyl_radius cy.
Proof.
  intros (Hn & Hh & Hr & Et) Ha. unfold cyl_lateral.
  destruct (make_circle_ok (e_c (c_bot cy)) _ _ Hn Ha) as (Hok & Ec & En & Ea & Eb).
  assert (vadd (e_c (c_bot cy)) (vscale (e_n (c_bot cy)) (c_h cy)) = e_c (c_top cy)) as E
    by (rewrite Et; apply v3_eq; coords; ring).
  split; [|split; [|split]].
  - unfold make_surf, cyl_ok. cbn [c_bot c_top c_h]. unfold make_top_circle. rewrite En, Ec, Ea.
    split; [exact Hn|]. split; [exact Hh|]. split; [lra|].
    change (e_c (make_circle ?c _ _)) with c. rewrite E. exact Et.
  - intros p. unfold cyl_lateral_set, make_surf. cbn [c_bot c_h]. rewrite En, Ec, Ea. reflexivity.
  - unfold cyl_axis, make_surf. cbn [c_bot c_top]. unfold make_top_circle. rewrite En, Ec.
    change (e_c (make_circle ?c _ _)) with c. rewrite E. reflexivity.
  - unfold cyl_radius, make_surf. cbn [c_bot]. exact Ea.
Qed.

(** a disk with equal axes lengths, moved along the normal *)
Lemma disk_offset (e : ell R) z p : ell_ok e -> e_a e = e_b e ->
  let c := padd (e_c e) (pscale z (e_n e)) in
  (in_disk 1 (mkEll c (e_maj e) (e_min e) (e_n e) (e_a e) (e_b e)) p <->
   axz (e_c e) (e_n e) p = z /\ norm (axw (e_c e) (e_n e) p) <= e_a e).
Proof.
  intros Hok Eab c. set (d := mkEll c _ _ _ _ _).
  assert (ell_ok d) as Hd by exact Hok.
  rewrite (in_disk_char d Hd) by lra. unfold quad_form. cbn [d e_c e_maj e_min e_n e_a e_b].
  destruct Hok as [Hb [Ha Hbp]]. pose proof Hb as (Hu & Hv & Hn & Huv & Hun & Hvn & _).
  unfold unit3, ortho in *.
  set (n := e_n e) in *. set (u := e_maj e) in *. set (v := e_min e) in *.
  set (zz := axz (e_c e) n p). set (w := axw (e_c e) n p).
  assert (dot (psub p c) n = zz - z) as E1.
  { unfold zz, axz, c. transitivity (dot n (psub p (e_c e)) - z * dot n n); [coords; ring|]. rewrite Hn. ring. }
  assert (dot (psub p c) u = dot w u) as E2.
  { unfold w, axw, c. fold zz. transitivity (dot (psub p (e_c e)) u - z * dot u n); [coords; ring|].
    transitivity (dot (psub p (e_c e)) u - zz * dot u n); [rewrite Hun; ring|coords; ring]. }
  assert (dot (psub p c) v = dot w v) as E3.
  { unfold w, axw, c. fold zz. transitivity (dot (psub p (e_c e)) v - z * dot v n); [coords; ring|].
    transitivity (dot (psub p (e_c e)) v - zz * dot v n); [rewrite Hvn; ring|coords; ring]. }
  assert (dot w n = 0) as E4.
  { apply ax_ortho. exact Hn. }
  assert (norm w * norm w = dot w u * dot w u + dot w v * dot w v) as E5.
  { rewrite norm_sq. pose proof (basis_coords u v n w Hb) as E. rewrite E4 in E.
    set (x := dot w u) in *. set (y := dot w v) in *. rewrite E at 1 2.
    transitivity (x * x * dot u u + y * y * dot v v + 2 * x * y * dot u v).
    - clearbody x y u v n. coords. ring.
    - rewrite Hu, Hv, Huv. ring. }
  rewrite E1, E2, E3, <- Eab. 
  replace ((dot w u / e_a e) ^ 2 + (dot w v / e_a e) ^ 2) with (norm w * norm w / (e_a e * e_a e)) by (rewrite E5; field; lra).
  pose proof (norm_nonneg w) as Nw.
  assert (norm w * norm w / (e_a e * e_a e) <= 1 * 1 <-> norm w <= e_a e) as E6.
  { rewrite <- (sq_le_iff (norm w) (e_a e)) by lra. split; intros C.
    - apply (Rmult_le_compat_r (e_a e * e_a e)) in C; [|nra]. unfold Rdiv in C. rewrite Rmult_assoc, Rinv_l in C by nra. lra.
    - apply (Rmult_le_reg_r (e_a e * e_a e)); [nra|]. unfold Rdiv. rewrite Rmult_assoc, Rinv_l by nra. lra. }
  rewrite E6. split; intros [A B]; split; auto; lra.
Qed.

Lemma faces_bound d h cy p : ell_ok d -> e_a d = e_b d -> 0 < h -> make_cyl_disk d h = Ok cy ->
  let z := axz (e_c d) (e_n d) p in
  (in_disk 1 (c_bot cy) p <-> cyl_solid cy p /\ z = 0) /\
  (in_disk 1 (c_top cy) p <-> cyl_solid cy p /\ z = h).
Proof.
  intros Hok Eab Hh Hm z. destruct (make_cyl_disk_spec d h Hok Hh) as [_ H].
  destruct H as (cy' & E & Hc & Eb & Eh & Et & E1 & E2 & E3 & E4 & E5).
  { replace (e_a d - e_b d) with 0 by lra. rewrite Rabs_R0. pose proof kk_pos. destruct Hok as (_ & Ha & _). unfold kk in *. nra. }
  rewrite E in Hm. injection Hm as <-.
  assert (unit3 (e_n d)) as Hn by apply Hok.
  unfold cyl_solid, solid_cyl. rewrite (cyl_set_char _ _ _ (proj1 Hc)). rewrite Eb, Eh. fold z.
  split.
  - pose proof (disk_offset d 0 p Hok Eab) as D. cbv zeta in D.
    replace (padd (e_c d) (pscale 0 (e_n d))) with (e_c d) in D by (apply v3_eq; coords; ring).
    destruct d as [dc du dv dn da db]. cbn [e_c e_n e_maj e_min e_a e_b] in *. rewrite D. fold z. split.
    + intros [A B]. split; [split; [lra|exact B]|exact A].
    + intros [[A B] C]. auto.
  - pose proof (disk_offset d h p Hok Eab) as D. cbv zeta in D. rewrite <- Et in D.
    replace (c_top cy') with (mkEll (e_c (c_top cy')) (e_maj d) (e_min d) (e_n d) (e_a d) (e_b d)).
    + rewrite D. fold z. split.
      * intros [A B]. split; [split; [lra|exact B]|exact A].
      * intros [[A B] C]. auto.
    + rewrite <- E1, <- E2, <- E3, <- E4, <- E5. destruct (c_top cy'); reflexivity.
Qed.

(** the cylinder of a surface *)
Lemma surf_cylinder_spec c n r h : unit3 n -> 0 < r -> 0 < h ->
  exists cy, surf_cylinder (make_surf (make_circle c n r) h) = Ok cy /\ cyl_ok cy /\
    forall p, cyl_solid cy p <-> solid_cyl c n r h p.
Proof. intros. apply make_cyl_circle_spec; assumption. Qed.

(** the tangent plane touches the (infinite) cylinder at the point *)
Lemma surf_tangent_spec cy p : cyl_ok cy -> 0 < e_a (c_bot cy) -> cyl_lateral_set cy p ->
  let pl := surf_tangent cy p in
  pl_sup pl = p /\ unit3 (pl_n pl) /\ ortho (pl_n pl) (e_n (c_bot cy)) /\
  (forall q, cyl_solid cy q -> dot (pl_n pl) (psub q p) <= 0).
Proof.
  intros Hok Ha Hp pl. pose proof Hok as (Hn & Hh & Hr & _).
  unfold cyl_lateral_set, lateral_cyl in Hp. rewrite (cyl_set_char _ _ _ Hn) in Hp. destruct Hp as [Hz Hw].
  unfold pl, surf_tangent. rewrite (cyl_seg cy Hok), (ax_vec _ _ _ Hn Hh). cbn [plane_pn pl_sup pl_n].
  set (c := e_c (c_bot cy)) in *. set (n := e_n (c_bot cy)) in *. set (r := e_a (c_bot cy)) in *.
  set (w := axw c n p) in *.
  assert (w <> zero3) as Wz by (intros E; rewrite E, norm_zero3 in Hw; lra).
  pose proof (ax_ortho c n Hn p) as Wo. fold w in Wo.
  split; [reflexivity|]. split; [apply to_dir_unit; exact Wz|]. split; [apply to_dir_ortho; assumption|].
  intros q Hq. unfold cyl_solid, solid_cyl in Hq. fold c n r in Hq. rewrite (cyl_set_char _ _ _ Hn) in Hq. destruct Hq as [_ Hq].
  pose proof (ax_ortho c n Hn q) as Vo. set (v := axw c n q) in *.
  rewrite to_dir_scale by exact Wz. rewrite Hw.
  assert (psub q p = padd (pscale (axz c n q - axz c n p) n) (psub v w)) as E.
  { unfold v, w, axw. apply v3_eq; coords; ring. }
  rewrite E. apply Rle_trans with (/ r * (dot w v - dot w w)).
  - apply Req_le. transitivity (/ r * ((axz c n q - axz c n p) * dot w n + dot w v - dot w w)); [coords; ring|].
    unfold ortho in Wo. rewrite Wo. ring.
  - pose proof (cauchy_norm w v) as Cn. pose proof (Rle_abs (dot w v)). pose proof (norm_nonneg v).
    rewrite <- (norm_sq w), Hw. rewrite Hw in Cn. assert (0 < / r) by (apply Rinv_0_lt_compat; exact Ha). assert (dot w v <= r * r) by nra. clear - H1 H2. nra.
Qed.

(** the bound sqrt 2 eps is needed: a contained point farther than eps *)
Lemma corner_case : let cy := make_cyl_z 1 1 0 in let p := mkV3 4 0 (-39 / 10) in
  cyl_ok cy /\ cyl_contains cy p 4 = true /\ forall q, cyl_solid cy q -> 4 < dist p q.
Proof.
  intros cy p. destruct (make_cyl_z_spec 1 1 0 ltac:(lra) ltac:(lra)) as [Hok Hs]. fold cy in Hok, Hs.
  assert (e_n (c_bot cy) = mkV3 0 0 1) as En.
  { unfold cy, make_cyl_z, make_ell. cbn [c_bot e_n]. rn. rewrite to_dir_x, to_dir_y.
    replace (cross (mkV3 1 0 0) (mkV3 0 1 0)) with (mkV3 0 0 1 : pt) by (apply v3_eq; coords; ring). apply to_dir_z. }
  split; [exact Hok|]. split.
  - apply (cyl_contains_char cy p 4 Hok); [lra|]. rewrite En.
    change (e_c (c_bot cy)) with (mkV3 0 0 0 : pt). change (c_h cy) with 1. change (e_a (c_bot cy)) with 1.
    rewrite norm_sq. unfold axw, axz, p. coords. split; lra.
  - intros q Hq. apply Hs in Hq. destruct q as [x y z]. cbn [vx vy vz] in Hq. unfold dist, norm.
    apply Rlt_le_trans with (sqrt (Rsqr (4 + 1 / 100))).
    + rewrite sqrt_Rsqr; lra.
    + apply sqrt_le_1_alt. unfold p, Rsqr. coords. assert (x <= 1) by nra.
      assert (9 <= (4 - x) * (4 - x)) by nra. assert (15 <= (-39 / 10 - z) * (-39 / 10 - z)) by nra. nra.
Qed.

(** all solids at their default tolerance *)
Lemma cyl_default cy p : cyl_ok cy -> cyl_solid cy p -> cyl_contains_default cy p = true.
Proof. intros Hok H. apply cyl_contains_solid; auto. apply cyl_default_eps, Hok. Qed.
Lemma surf_default cy p : cyl_ok cy -> cyl_lateral_set cy p -> surf_contains_default cy p = true.
Proof. intros Hok H. apply (surf_contains_all cy p Hok); auto. apply cyl_default_eps, Hok. Qed.
Lemma hollow_default hc p : hollow_ok hc -> hollow_solid hc p -> hollow_contains_default hc p = true.
Proof.
  intros Hok H. apply (hollow_contains_all hc p Hok); auto. destruct Hok as (_ & Hh & Hr & _).
  unfold hollow_eps. rewrite kk_eq. pose proof kk_pos. rn. nra.
Qed.
Lemma sphere_default s p : 0 < sp_r s -> ball (sp_c s) (sp_r s) p -> sphere_contains_default s p = true.
Proof.
  intros Hr H. apply (sphere_contains_all s p); auto; [lra|]. rewrite kk_eq. pose proof kk_pos. rn. nra.
Qed.

(** concrete cases *)
Lemma ell_case : ell_ok (make_ell (mkV3 1 2 3) (mkV3 1 0 0) (mkV3 0 1 0) 3 2).
Proof. apply make_ell_ok; try lra; coords; ring. Qed.

Lemma at_quarter (e : ell R) : ell_at e (PI / 2) = padd (e_c e) (pscale (e_b e) (e_min e)).
Proof. unfold ell_at, at_coords. rewrite cos_PI2, sin_PI2. apply v3_eq; coords; ring. Qed.

Lemma unsnapped_quarter : unsnapped (PI / 2).
Proof.
  split; [left; apply cos_PI2|right]. rewrite sin_PI2, Rabs_R1. lra.
Qed.
Lemma unsnapped_3quarter : unsnapped (3 * PI / 2).
Proof.
  replace (3 * PI / 2) with (3 * (PI / 2)) by field.
  split; [left; apply cos_3PI2|right]. rewrite sin_3PI2, Rabs_m1. lra.
Qed.
Lemma unsnapped_0 : unsnapped 0.
Proof.
  split; [right; rewrite cos_0, Rabs_R1; lra|left; apply sin_0].
Qed.

(** an arc that wraps around: from 3 pi / 2 to pi / 2 through 0 *)
Lemma arc_case : let e := make_ell (mkV3 1 2 3) (mkV3 1 0 0) (mkV3 0 1 0) 3 2 in exists c,
  ell_ok e /\ make_arc e (ell_at e (3 * PI / 2)) (ell_at e (PI / 2)) = Ok c /\ a_full c = false /\ a_s c <> a_t c /\
  arc_point c 0 = ell_at e (3 * PI / 2) /\ arc_point c 1 = ell_at e (PI / 2) /\
  (forall eps, 0 < eps -> arc_contains c (ell_at e 0) eps true = Ok true) /\
  arc_contains_default c (ell_at e PI) true = Ok false.
Proof.
  intros e. pose proof ell_case as Hok. fold e in Hok. pose proof PI_RGT_0 as HP. pose proof PI2_3_2 as H32.
  assert (on_ellipse e (ell_at e (3 * PI / 2))) as Hs by (eexists; reflexivity).
  assert (on_ellipse e (ell_at e (PI / 2))) as Ht by (eexists; reflexivity).
  destruct (make_arc_ok e Hok _ _ Hs Ht) as [c Hm]. exists c. split; [exact Hok|]. split; [exact Hm|].
  destruct (make_arc_inv e Hok _ _ _ Hm) as (Ee & _ & _ & Hf & _).
  assert (a_full c = false) as F.
  { destruct (a_full c); [|reflexivity]. exfalso. destruct Hf as [Hf _]. specialize (Hf eq_refl). revert Hf.
    apply Rle_not_lt. rewrite at_quarter. unfold ell_at, at_coords. replace (3 * PI / 2) with (3 * (PI / 2)) by field.
    rewrite cos_3PI2, sin_3PI2. destruct Hok as [(Hu & Hv & _) [Ha Hb]].
    unfold dist. replace (psub _ _) with (pscale (-1) (pscale (2 * e_b e) (e_min e))) by (apply v3_eq; coords; ring).
    rewrite norm_opp, scale_norm by lra. rewrite (norm_unit _ Hv).
    change (e_a e) with 3. change (e_b e) with 2. lra. }
  destruct (arc_ends e Hok (3 * PI / 2) (PI / 2) c ltac:(lra) ltac:(lra) unsnapped_3quarter unsnapped_quarter Hm F) as (Es & Et & P0 & P1).
  split; [exact F|]. split; [rewrite Es, Et; lra|]. split; [exact P0|]. split; [exact P1|]. split.
  - intros eps He. rewrite (arc_contains_at e Hok c 0 eps true Ee He) by lra. rewrite Es, Et, snap_0.
    f_equal. destruct (Rltb_spec (PI / 2) (3 * PI / 2)); [|lra]. apply orb_true_iff. right. apply Rleb_true. lra.
  - unfold arc_contains_default. rewrite angular_eq. rewrite (arc_contains_at e Hok c PI _ true Ee) by lra.
    assert (snap PI = PI) as ->.
    { unfold snap. rewrite cos_PI, sin_PI, Rabs_m1, Rabs_R0. pose proof kk_pos. destruct (Rlt_dec 1 kk); [lra|].
      destruct (Rlt_dec 0 kk); [|lra]. destruct (Rlt_dec (-1) 0); [reflexivity|lra]. }
    rewrite Es, Et. f_equal. destruct (Rltb_spec (PI / 2) (3 * PI / 2)); [|lra].
    apply orb_false_iff. rewrite !Rleb_false. split; lra.
Qed.

(** packaged statements *)
Lemma ell_points (e : ell R) : ell_ok e -> forall phi t eps chk, 0 < eps ->
  ell_angle_point e phi = ell_at e phi /\ ell_point e t = ell_at e (2 * PI * t) /\
  ell_contains e (ell_angle_point e phi) eps chk = true /\ ell_contains e (ell_point e t) eps chk = true.
Proof.
  intros Hok phi t eps chk He. unfold ell_point. rewrite !ell_angle_point_eq. rn.
  repeat split; apply on_ellipse_contains; auto; eexists; reflexivity.
Qed.

Lemma get_angle_inverse (e : ell R) : ell_ok e -> forall phi chk, 0 <= phi < 2 * PI -> off_axes phi ->
  ell_get_angle e (ell_angle_point e phi) chk = Ok phi /\
  ell_get_param e (ell_angle_point e phi) chk = Ok (phi / (2 * PI)) /\
  ell_point e (phi / (2 * PI)) = ell_angle_point e phi.
Proof.
  intros Hok phi chk H Ho. pose proof PI_RGT_0.
  unfold ell_get_param, ell_point. rewrite !ell_angle_point_eq, (get_angle_at e Hok phi chk H), (snap_off phi Ho). cbn [obind]. rn.
  repeat split. f_equal. field. lra.
Qed.

Lemma get_angle_band (e : ell R) : ell_ok e -> forall phi chk, 0 <= phi < 2 * PI ->
  (Rabs (cos phi) < 1 / 10 ^ 7 ->
   ell_get_angle e (ell_angle_point e phi) chk = Ok (if Rlt_dec (sin phi) 0 then 3 * PI / 2 else PI / 2)) /\
  (Rabs (sin phi) < 1 / 10 ^ 7 ->
   ell_get_angle e (ell_angle_point e phi) chk = Ok (if Rlt_dec (cos phi) 0 then PI else 0)).
Proof.
  intros Hok phi chk H. rewrite !ell_angle_point_eq, (get_angle_at e Hok phi chk H). unfold snap. fold kk. pose proof kk_pos.
  split; intros C.
  - destruct (Rlt_dec (Rabs (cos phi)) kk); [reflexivity|contradiction].
  - destruct (Rlt_dec (Rabs (cos phi)) kk) as [D|D].
    + exfalso. destruct (Rabs_def2 _ _ C). destruct (Rabs_def2 _ _ D). pose proof (sc1 phi). nra.
    + destruct (Rlt_dec (Rabs (sin phi)) kk); [reflexivity|contradiction].
Qed.

Lemma get_ranges (e : ell R) : ell_ok e -> forall p chk,
  (forall phi, ell_get_angle e p chk = Ok phi -> 0 <= phi < 2 * PI) /\
  (forall t, ell_get_param e p chk = Ok t -> 0 <= t < 1).
Proof. intros Hok p chk. split; [apply get_angle_range|apply get_param_range]; exact Hok. Qed.

Lemma off_axes_case : off_axes (PI / 4).
Proof.
  assert (0 < sqrt 2) by (apply sqrt_lt_R0; lra). assert (sqrt 2 * sqrt 2 = 2) by (apply sqrt_sqrt; lra).
  assert (1 / 2 <= 1 / sqrt 2).
  { apply (Rmult_le_reg_r (sqrt 2)); [lra|]. unfold Rdiv at 2. rewrite Rmult_assoc, Rinv_l by lra. nra. }
  split; [rewrite cos_PI4|rewrite sin_PI4]; rewrite Rabs_right; lra.
Qed.

Lemma disk_point_outside (e : ell R) : ell_ok e -> forall t1 t2, 0 < t2 ->
  ~ in_disk 1 e (disk_point e t1 t2) /\ disk_contains_default e (disk_point e t1 1) true = false.
Proof.
  intros Hok t1 t2 Ht. split.
  - rewrite (in_disk_char e Hok) by lra. destruct (disk_point_form e Hok t1 t2) as [_ ->]. nra.
  - apply Bool.not_true_is_false. intros C. apply (disk_contains_char e Hok) in C. destruct C as [_ C].
    destruct (disk_point_form e Hok t1 1) as [_ E]. rewrite E, kk_eq in C. pose proof kk_pos. nra.
Qed.
Lemma disk_point_rim (e : ell R) : ell_ok e -> forall t1, on_ellipse e (disk_point e t1 0).
Proof.
  intros Hok t1. rewrite disk_point_eq. exists (2 * PI * t1). unfold ell_at. f_equal; ring.
Qed.
Lemma disk_case : let e := make_ell (mkV3 1 2 3) (mkV3 1 0 0) (mkV3 0 1 0) 3 2 in
  ell_ok e /\ in_disk 1 e (mkV3 2 3 3) /\ disk_point e 0 1 = mkV3 7 2 3.
Proof.
  intros e. split; [apply ell_case|]. split.
  - exists 1, 1. cbn [e make_ell e_a e_b e_c e_maj e_min]. split; [lra|]. unfold at_coords. apply v3_eq; coords; ring.
  - rewrite disk_point_eq. cbn [e make_ell e_a e_b e_c e_maj e_min]. rewrite Rmult_0_r, cos_0, sin_0.
    unfold at_coords. apply v3_eq; coords; ring.
Qed.
Lemma cyl_case : let cy := make_cyl_z 1 2 0 in
  cyl_ok cy /\ cyl_solid cy (mkV3 0 1 2) /\ ~ cyl_solid cy (mkV3 1 1 1) /\
  unit3 (mkV3 0 0 1) /\ exists hc, make_hollow (mkV3 0 0 0) (mkV3 0 0 1) 1 2 3 = Ok hc /\ hollow_ok hc.
Proof.
  intros cy. destruct (make_cyl_z_spec 1 2 0 ltac:(lra) ltac:(lra)) as [Hok Hs]. fold cy in Hok, Hs.
  assert (unit3 (mkV3 0 0 1)) as Hu by (unfold unit3, dot; cbn; ring).
  split; [exact Hok|]. rewrite !Hs. cbn [vx vy vz]. split; [lra|]. split; [lra|]. split; [exact Hu|].
  destruct (make_hollow_spec (mkV3 0 0 0) (mkV3 0 0 1) 1 2 3 Hu ltac:(lra) ltac:(lra)) as [_ H].
  destruct (H ltac:(lra)) as (hc & E & Hh & _). exists hc. auto.
Qed.
Lemma area_case : disk_area (make_ell (mkV3 1 2 3) (mkV3 1 0 0) (mkV3 0 1 0) 3 2) = 6 * PI /\
  sphere_volume (mkSphere (mkV3 0 0 0) 3) = 36 * PI.
Proof. unfold disk_area, sphere_volume. cbn [make_ell e_a e_b sp_r]. rn. split; field. Qed.

Lemma circle_default_char (c n : pt) r p : unit3 n ->
  (circle_contains_default (make_circle c n r) p = true <->
   Rabs (dot (psub p c) n) < r / 10000000 /\ Rabs (dist p c - r) < r / 10000000).
Proof.
  intros Hn. unfold circle_contains_default. rewrite (circle_contains_char c n r p _ Hn).
  replace (confusion * e_a (make_circle c n r))%num with (r / 10000000); [reflexivity|].
  unfold confusion. rn. cbn [make_circle make_ell e_a]. lra.
Qed.
