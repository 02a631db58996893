(** Proofs about math.hh, vector.hh and direction.hh over the reals. *)

From Coq Require Import Reals Lra Psatz Nsatz Bool List.
From Verif Require Import NumModel VecModel GeoSpec GeoLemmas.
Import ListNotations.
Local Open Scope R_scope.

(** ** intervals *)
Lemma overlap_near (i1 i2 : R * R) eps x y :
  0 < eps -> in_interval i1 x -> in_interval i2 y -> Rabs (x - y) < eps ->
  intervals_overlap i1 i2 eps = true.
Proof.
  destruct i1 as [a b], i2 as [c d]. unfold in_interval, intervals_overlap. rn.
  intros He Hx Hy Hxy. apply Rabs_def2 in Hxy.
  repeat rcmp; try reflexivity; lra.
Qed.

Lemma overlap_far (i1 i2 : R * R) eps :
  fst i1 <= snd i1 -> fst i2 <= snd i2 -> 0 <= eps ->
  (forall x y, in_interval i1 x -> in_interval i2 y -> eps < Rabs (x - y)) ->
  intervals_overlap i1 i2 eps = false.
Proof.
  destruct i1 as [a b], i2 as [c d]. unfold in_interval, intervals_overlap. rn.
  intros H1 H2 He H.
  assert (b < c \/ d < a) as Hdis.
  { destruct (Rlt_le_dec b c) as [?|Hbc]; [left; assumption|].
    destruct (Rlt_le_dec d a) as [?|Hda]; [right; assumption|].
    exfalso. pose (x := Rmax a c).
    pose proof (Rmax_l a c). pose proof (Rmax_r a c).
    assert (x <= b) by (apply Rmax_lub; lra). assert (x <= d) by (apply Rmax_lub; lra).
    specialize (H x x). unfold Rminus in H. rewrite Rplus_opp_r, Rabs_R0 in H.
    assert (eps < 0) by (apply H; split; assumption). lra. }
  destruct Hdis as [Hd|Hd].
  - specialize (H b c ltac:(lra) ltac:(lra)). rewrite Rabs_left in H by lra.
    repeat rcmp; try reflexivity; lra.
  - specialize (H a d ltac:(lra) ltac:(lra)). rewrite Rabs_right in H by lra.
    repeat rcmp; try reflexivity; lra.
Qed.

Lemma overlap_sym (i1 i2 : R * R) eps :
  fst i1 <= snd i1 -> fst i2 <= snd i2 -> 0 < eps ->
  fst i1 - snd i2 <> eps -> fst i2 - snd i1 <> eps ->
  intervals_overlap i1 i2 eps = intervals_overlap i2 i1 eps.
Proof.
  destruct i1 as [a b], i2 as [c d]. unfold intervals_overlap. rn.
  intros. repeat rcmp; try reflexivity; exfalso; lra.
Qed.

(** ** makeOrthogonalVector *)
Lemma make_orthogonal_ok (v : pt) : ortho (make_orthogonal v) v /\ make_orthogonal v <> zero3.
Proof.
  unfold make_orthogonal. rn. repeat rcmp; split; try (coords; nra);
    unfold zero3; intros E; injection E; intros; lra.
Qed.

(** ** rotation *)
Lemma rotate_rodrigues (v a : pt) phi :
  rotate v a phi = padd (padd (pscale (cos phi) v) (pscale (sin phi) (cross a v)))
                        (pscale ((1 - cos phi) * dot a v) a).
Proof.
  unfold rotate, rot_rows, apply_rows. coords. v3; ring.
Qed.

Lemma sc1 phi : sin phi * sin phi + cos phi * cos phi = 1.
Proof. pose proof (sin2_cos2 phi) as H. unfold Rsqr in H. exact H. Qed.

Lemma rotate_dot (v w a : pt) phi : unit3 a -> dot (rotate v a phi) (rotate w a phi) = dot v w.
Proof.
  intros Ha. rewrite !rotate_rodrigues. pose proof (sc1 phi) as Hsc.
  destruct v as [v1 v2 v3], w as [w1 w2 w3], a as [a1 a2 a3]. coords.
  set (s := sin phi) in *. set (c := cos phi) in *. clearbody s c. nsatz.
Qed.

Lemma rotate_cross (v w a : pt) phi : unit3 a ->
  cross (rotate v a phi) (rotate w a phi) = rotate (cross v w) a phi.
Proof.
  intros Ha. rewrite !rotate_rodrigues. pose proof (sc1 phi) as Hsc.
  destruct v as [v1 v2 v3], w as [w1 w2 w3], a as [a1 a2 a3]. coords.
  set (s := sin phi) in *. set (c := cos phi) in *. clearbody s c. v3; nsatz.
Qed.

Lemma det_dot_cross (u v w : pt) : det3 u v w = dot u (cross v w).
Proof. coords. ring. Qed.

Lemma rotate_det (u v w a : pt) phi : unit3 a ->
  det3 (rotate u a phi) (rotate v a phi) (rotate w a phi) = det3 u v w.
Proof. intros Ha. rewrite !det_dot_cross, rotate_cross, rotate_dot by assumption. reflexivity. Qed.

Lemma rotate_norm (v a : pt) phi : unit3 a -> norm (rotate v a phi) = norm v.
Proof. intros Ha. unfold norm. rewrite rotate_dot by assumption. reflexivity. Qed.

Lemma rotate_axis (a : pt) phi : unit3 a -> rotate a a phi = a.
Proof.
  intros Ha. rewrite rotate_rodrigues. destruct a as [a1 a2 a3]. coords.
  set (s := sin phi) in *. set (c := cos phi) in *. clearbody s c. v3; nsatz.
Qed.

Lemma rotate_zero (v a : pt) : rotate v a 0 = v.
Proof.
  rewrite rotate_rodrigues, sin_0, cos_0. destruct v, a. coords. v3; ring.
Qed.

Lemma rotate_add (v a : pt) phi psi : unit3 a ->
  rotate (rotate v a phi) a psi = rotate v a (phi + psi).
Proof.
  intros Ha. rewrite !rotate_rodrigues, sin_plus, cos_plus.
  destruct v as [v1 v2 v3], a as [a1 a2 a3]. coords.
  set (s := sin phi) in *. set (c := cos phi) in *.
  set (s' := sin psi) in *. set (c' := cos psi) in *. clearbody s c s' c'. v3; nsatz.
Qed.

Lemma rotate_period (v a : pt) phi : rotate v a (phi + 2 * PI) = rotate v a phi.
Proof.
  rewrite !rotate_rodrigues. rewrite sin_plus, cos_plus, sin_2PI, cos_2PI.
  rewrite !Rmult_1_r, !Rmult_0_r, Rplus_0_r, Rminus_0_r. reflexivity.
Qed.

Lemma rotate_angle (v a : pt) phi : unit3 a -> ortho v a ->
  dot v (rotate v a phi) = cos phi * dot v v /\
  cross v (rotate v a phi) = pscale (sin phi * dot v v) a.
Proof.
  intros Ha Ho. rewrite !rotate_rodrigues.
  destruct v as [v1 v2 v3], a as [a1 a2 a3]. coords.
  set (s := sin phi) in *. set (c := cos phi) in *. clearbody s c.
  split; [nsatz|]. v3; nsatz.
Qed.

(** ** isParallel *)
Lemma acos_one : acos 1 = 0.
Proof. apply acos_1. Qed.

Definition cos_between (v w : pt) : R := dot v w / (norm v * norm w).

Lemma parallel_arg (v w : pt) : v <> zero3 -> w <> zero3 ->
  (sprod v w / vlen v / vlen w)%num = cos_between v w.
Proof.
  intros Hv Hw. rewrite sprod_dot, !vlen_norm. rn. unfold cos_between.
  pose proof (norm_pos _ Hv). pose proof (norm_pos _ Hw). field. split; lra.
Qed.

Lemma cos_between_bounds v w : v <> zero3 -> w <> zero3 -> -1 <= cos_between v w <= 1.
Proof.
  intros Hv Hw. pose proof (norm_pos _ Hv). pose proof (norm_pos _ Hw).
  pose proof (cauchy_norm v w) as C. unfold cos_between.
  assert (0 < norm v * norm w) as Hp by nra.
  assert (- (norm v * norm w) <= dot v w <= norm v * norm w) as [L U].
  { destruct (Rcase_abs (dot v w)) as [?|?]; [rewrite Rabs_left in C|rewrite Rabs_right in C]; lra. }
  split; apply (Rmult_le_reg_r (norm v * norm w)); auto;
    unfold Rdiv; rewrite Rmult_assoc, Rinv_l, Rmult_1_r by lra; lra.
Qed.

Lemma is_parallel_angle (v w : pt) eps : v <> zero3 -> w <> zero3 -> eps <= PI / 2 ->
  (is_parallel v w eps = true <-> acos (cos_between v w) < eps).
Proof.
  intros Hv Hw He. unfold is_parallel. rewrite parallel_arg by assumption. rn.
  rewrite orb_true_iff, !Rltb_true.
  pose proof (acos_bound (cos_between v w)) as [Hb _].
  rewrite (Rabs_right (acos _)) by lra.
  pose proof PI_RGT_0. split; [intros [E|E]|intros E; left]; auto.
  rewrite Rabs_left in E by lra. lra.
Qed.

Lemma cos_between_scale v c : v <> zero3 -> 0 < c -> cos_between v (pscale c v) = 1.
Proof.
  intros Hv Hc. pose proof (norm_pos _ Hv). unfold cos_between.
  replace (norm (pscale c v)) with (c * norm v).
  2:{ unfold norm. rewrite <- (sqrt_square c) at 1 by lra. rewrite <- sqrt_mult by (try apply dot_nonneg; nra).
      f_equal. coords. ring. }
  replace (dot v (pscale c v)) with (c * dot v v) by (coords; ring). rewrite <- norm_sq. field. split; lra.
Qed.
Lemma cos_between_opp v w : cos_between v (pscale (-1) w) = - cos_between v w.
Proof.
  unfold cos_between. replace (norm (pscale (-1) w)) with (norm w).
  - replace (dot v (pscale (-1) w)) with (- dot v w) by (coords; ring). unfold Rdiv. ring.
  - unfold norm. f_equal. coords. ring.
Qed.
Lemma pscale_nonzero c v : c <> 0 -> v <> zero3 -> pscale c v <> zero3.
Proof.
  intros Hc Hv E. apply Hv. apply dot_zero.
  assert (dot (pscale c v) (pscale c v) = 0) as Hz by (rewrite E; coords; ring).
  replace (dot (pscale c v) (pscale c v)) with ((c * c) * dot v v) in Hz by (coords; ring).
  destruct (Rmult_integral _ _ Hz) as [H|H]; [|exact H]. nra.
Qed.

Lemma is_parallel_same v c eps : v <> zero3 -> 0 < c -> 0 < eps <= PI / 2 ->
  is_parallel v (pscale c v) eps = true.
Proof.
  intros Hv Hc He. apply is_parallel_angle; auto; [apply pscale_nonzero; auto; lra|lra|].
  rewrite cos_between_scale, acos_1 by auto. lra.
Qed.
Lemma is_parallel_anti v c eps : v <> zero3 -> c < 0 -> 0 < eps <= PI / 2 ->
  is_parallel v (pscale c v) eps = false.
Proof.
  intros Hv Hc He. apply not_true_iff_false. rewrite is_parallel_angle; auto;
    [|apply pscale_nonzero; auto; lra|lra].
  replace (pscale c v) with (pscale (-1) (pscale (-c) v)) by (coords; v3; ring).
  rewrite cos_between_opp, cos_between_scale, acos_opp, acos_1 by (auto; lra).
  pose proof PI_RGT_0. lra.
Qed.
Lemma is_parallel_ortho v w eps : v <> zero3 -> w <> zero3 -> ortho v w -> 0 < eps <= PI / 2 ->
  is_parallel v w eps = false.
Proof.
  intros Hv Hw Ho He. apply not_true_iff_false. rewrite is_parallel_angle; auto; [|lra].
  unfold cos_between, ortho in *. rewrite Ho. unfold Rdiv. rewrite Rmult_0_l, acos_0. lra.
Qed.

(** ** conversions *)
Lemma deg_rad x : to_degrees (to_radians x) = x.
Proof. unfold to_degrees, to_radians. rn. pose proof PI_RGT_0. field. lra. Qed.
Lemma rad_deg x : to_radians (to_degrees x) = x.
Proof. unfold to_degrees, to_radians. rn. pose proof PI_RGT_0. field. lra. Qed.

(** ** invert *)
Lemma invert_invert (d : pt) : dir_invert (dir_invert d) = d.
Proof. unfold dir_invert. coords. destruct d. v3; ring. Qed.
Lemma invert_opp (d : pt) : dir_invert d = pscale (-1) d.
Proof. unfold dir_invert. apply vscale_pscale. Qed.

(** ** the products *)
Lemma cross_ortho_l (u v : pt) : ortho (cross u v) u.
Proof. coords. ring. Qed.
Lemma cross_ortho_r (u v : pt) : ortho (cross u v) v.
Proof. coords. ring. Qed.
Lemma cross_anti (u v : pt) : cross u v = pscale (-1) (cross v u).
Proof. coords. v3; ring. Qed.
Lemma cross_zero_iff (u v : pt) : u <> zero3 -> (cross u v = zero3 <-> exists c, v = pscale c u).
Proof.
  intros Hu. split.
  - intros E. exists (dot u v / dot u u). pose proof (dot_pos _ Hu) as Hp.
    assert (forall w : pt, pscale (dot u u) v = pscale (dot u v) u -> v = pscale (dot u v / dot u u) u) as K.
    { intros _ Heq. unfold pscale in Heq |- *. injection Heq as e1 e2 e3.
      destruct v as [v1 v2 v3]. cbn [vx vy vz] in *.
      f_equal; unfold Rdiv; apply (Rmult_eq_reg_l (dot u u)); try lra.
      - rewrite e1. field. lra.
      - rewrite e2. field. lra.
      - rewrite e3. field. lra. }
    apply (K zero3). unfold zero3, cross in E. rn. injection E as e1 e2 e3.
    clear K. destruct u as [u1 u2 u3], v as [v1 v2 v3]. cbn [vx vy vz] in *.
    unfold pscale, dot. cbn [vx vy vz]. f_equal; apply Rminus_diag_uniq.
    + transitivity (- u2 * (u1 * v2 - u2 * v1) + u3 * (u3 * v1 - u1 * v3)); [ring|]. rewrite e2, e3. ring.
    + transitivity (u1 * (u1 * v2 - u2 * v1) - u3 * (u2 * v3 - u3 * v2)); [ring|]. rewrite e1, e3. ring.
    + transitivity (- u1 * (u3 * v1 - u1 * v3) + u2 * (u2 * v3 - u3 * v2)); [ring|]. rewrite e1, e2. ring.
  - intros [c ->]. coords. f_equal; ring.
Qed.

Lemma right_hand_iff (u v w : pt) : is_right_hand u v w = true <-> 0 < det3 u v w.
Proof. unfold is_right_hand. rewrite box_det. rn. apply Rltb_true. Qed.

Lemma rotate_all_spec (vs : list pt) (axis : pt) phi :
  length (rotate_all vs axis phi) = length vs /\
  forall i v, nth_error vs i = Some v -> nth_error (rotate_all vs axis phi) i = Some (rotate v axis phi).
Proof.
  unfold rotate_all. split; [apply map_length|]. intros i v E.
  rewrite nth_error_map, E. reflexivity.
Qed.

Lemma half_turn : to_radians 180 = PI /\ to_degrees PI = 180.
Proof. unfold to_degrees, to_radians. rn. pose proof PI_RGT_0. split; field. lra. Qed.
Lemma to_radians_linear x c : to_radians (c * x) = c * to_radians x.
Proof. unfold to_radians. rn. field. Qed.

Lemma angular_range (v w : pt) :
  is_parallel_default v w = is_parallel v w angular /\ 0 < (angular : R) <= PI / 2.
Proof.
  split; [reflexivity|]. unfold angular. rn. pose proof PI2_1. pose proof PI_RGT_0. lra.
Qed.

Lemma to_dir_spec (v : pt) : v <> zero3 -> unit3 (to_dir v) /\ exists c, 0 < c /\ v = pscale c (to_dir v).
Proof.
  intros H. split; [apply to_dir_unit, H|]. exists (norm v). pose proof (norm_pos v H) as Hp.
  split; [exact Hp|]. rewrite to_dir_scale by exact H. destruct v as [a b c]. unfold pscale. cbn [vx vy vz].
  f_equal; field; lra.
Qed.

Lemma invert_spec (d : pt) :
  dir_invert (dir_invert d) = d /\ dir_invert d = pscale (-1) d /\ (unit3 d -> unit3 (dir_invert d)).
Proof.
  split; [apply invert_invert|]. split; [apply invert_opp|]. intros H. rewrite invert_opp. coords. lra.
Qed.

Lemma cross_orientation (u v : pt) : det3 u v (cross u v) = dot (cross u v) (cross u v).
Proof. coords. ring. Qed.

Lemma rotate_isometry (u v w axis : pt) phi : unit3 axis ->
  dot (rotate v axis phi) (rotate w axis phi) = dot v w /\
  norm (rotate v axis phi) = norm v /\
  det3 (rotate u axis phi) (rotate v axis phi) (rotate w axis phi) = det3 u v w.
Proof.
  intros H. split; [apply rotate_dot, H|]. split; [apply rotate_norm, H|apply rotate_det, H].
Qed.
