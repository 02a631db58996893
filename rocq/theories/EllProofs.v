(** Circles, ellipses, arcs and disks: proofs. *)

From Coq Require Import Reals Lra Psatz Nsatz Bool List.
From Verif Require Import Base NumModel VecModel LinModel RoundModel GeoSpec LinSpec RoundSpec
  GeoLemmas MathProofs LinProofs.
Local Open Scope R_scope.

Lemma mul_neg_iff a b : 0 < a -> (a * b < 0 <-> b < 0).
Proof. intros; split; intros; nra. Qed.

Lemma Rabs_m1 : Rabs (-1) = 1.
Proof. rewrite Rabs_left; lra. Qed.

(** * Local coordinates *)
Lemma psub_zero (a b : pt) : psub a b = zero3 -> a = b.
Proof.
  destruct a as [a1 a2 a3], b as [b1 b2 b3]. unfold psub, zero3. cbn [vx vy vz]. intros [= H1 H2 H3].
  f_equal; lra.
Qed.
Lemma psub_shift (p c s : pt) : psub p c = s -> p = padd c s.
Proof. intros <-. apply v3_eq; unfold psub, padd; cbn [vx vy vz]; ring. Qed.

Lemma basis_complete (u v n w : pt) : ortho_basis u v n ->
  dot w u = 0 -> dot w v = 0 -> dot w n = 0 -> w = zero3.
Proof.
  intros (_ & _ & _ & _ & _ & _ & Hd) H1 H2 H3.
  assert (pscale (det3 u v n) w =
    padd (pscale (dot w u) (cross v n)) (padd (pscale (dot w v) (cross n u)) (pscale (dot w n) (cross u v)))) as E.
  { apply v3_eq; coords; ring. }
  rewrite Hd, H1, H2, H3 in E. transitivity (pscale 1 w).
  - apply v3_eq; coords; ring.
  - rewrite E. apply v3_eq; coords; ring.
Qed.

Lemma basis_coords (u v n d : pt) : ortho_basis u v n ->
  d = padd (padd (pscale (dot d u) u) (pscale (dot d v) v)) (pscale (dot d n) n).
Proof.
  intros Hb. pose proof Hb as (Hu & Hv & Hn & Huv & Hun & Hvn & _).
  set (x := dot d u). set (y := dot d v). set (z := dot d n).
  set (s := padd (padd (pscale x u) (pscale y v)) (pscale z n)).
  assert (psub d s = zero3) as E.
  { apply (basis_complete u v n); [exact Hb| | |].
    - replace (dot (psub d s) u) with (x - (x * dot u u + y * dot u v + z * dot u n)) by (unfold s; transitivity (dot d u - (x * dot u u + y * dot u v + z * dot u n)); [reflexivity|clearbody x y z; coords; ring]).
      unfold unit3, ortho in *. rewrite Hu, Huv, Hun. ring.
    - replace (dot (psub d s) v) with (y - (x * dot u v + y * dot v v + z * dot v n)) by (unfold s; transitivity (dot d v - (x * dot u v + y * dot v v + z * dot v n)); [reflexivity|clearbody x y z; coords; ring]).
      unfold unit3, ortho in *. rewrite Hv, Huv, Hvn. ring.
    - replace (dot (psub d s) n) with (z - (x * dot u n + y * dot v n + z * dot n n)) by (unfold s; transitivity (dot d n - (x * dot u n + y * dot v n + z * dot n n)); [reflexivity|clearbody x y z; coords; ring]).
      unfold unit3, ortho in *. rewrite Hn, Hun, Hvn. ring. }
  apply psub_zero, E.
Qed.

Lemma local_coords (u v n c : pt) x y : ortho_basis u v n ->
  dot (psub (at_coords c u v x y) c) u = x /\
  dot (psub (at_coords c u v x y) c) v = y /\
  dot (psub (at_coords c u v x y) c) n = 0.
Proof.
  intros (Hu & Hv & Hn & Huv & Hun & Hvn & _). unfold unit3, ortho, at_coords in *.
  split; [|split].
  - transitivity (x * dot u u + y * dot u v); [coords; ring|]. rewrite Hu, Huv. ring.
  - transitivity (x * dot u v + y * dot v v); [coords; ring|]. rewrite Hv, Huv. ring.
  - transitivity (x * dot u n + y * dot v n); [coords; ring|]. rewrite Hun, Hvn. ring.
Qed.

Lemma at_coords_of (u v n c p : pt) : ortho_basis u v n -> dot (psub p c) n = 0 ->
  p = at_coords c u v (dot (psub p c) u) (dot (psub p c) v).
Proof.
  intros Hb Hn. pose proof (basis_coords u v n (psub p c) Hb) as E. rewrite Hn in E.
  apply psub_shift in E. rewrite E at 1. unfold at_coords. apply v3_eq; unfold padd, pscale; cbn [vx vy vz]; ring.
Qed.

(** * Constructors *)
Lemma cross_basis (u v : pt) : unit3 u -> unit3 v -> ortho u v -> ortho_basis u v (to_dir (cross u v)).
Proof.
  intros Hu Hv Ho. rewrite (to_dir_of_unit _ (cross_unit u v Hu Hv Ho)).
  split; [exact Hu|]. split; [exact Hv|]. split; [apply cross_unit; auto|]. split; [exact Ho|].
  split; [unfold ortho; rewrite dot_comm; apply cross_ortho_l|].
  split; [unfold ortho; rewrite dot_comm; apply cross_ortho_r|].
  rewrite cross_orientation, lagrange. unfold unit3, ortho in *. rewrite Hu, Hv, Ho. ring.
Qed.

Lemma make_ell_ok (c u v : pt) a b : unit3 u -> unit3 v -> ortho u v -> 0 < a -> 0 < b ->
  ell_ok (make_ell c u v a b).
Proof. intros. split; [apply cross_basis; auto|]. split; assumption. Qed.

Lemma make_circle_basis (c n : pt) r : unit3 n ->
  let e := make_circle c n r in
  ortho_basis (e_maj e) (e_min e) n /\ e_n e = n.
Proof.
  intros Hn e. destruct (make_orthogonal_ok n) as [Ho Hz].
  pose proof (basis_from n (to_dir (make_orthogonal n)) Hn (to_dir_unit _ Hz) (to_dir_ortho _ _ Hz Ho)) as Hb.
  unfold e, make_circle, make_ell. cbn [e_maj e_min e_n].
  split; [exact Hb|]. set (u := to_dir (make_orthogonal n)) in *. set (v := to_dir (cross n u)) in *.
  destruct Hb as (Hu & Hv & _ & Huv & Hun & Hvn & Hd).
  rewrite (to_dir_of_unit _ (cross_unit u v Hu Hv Huv)).
  assert (unit3 (cross u v)) as Hc by (apply cross_unit; auto).
  assert (dot (cross u v) n = 1) as E by (rewrite <- Hd; coords; ring).
  assert (dot (psub (cross u v) n) (psub (cross u v) n) = 0) as Z.
  { transitivity (dot (cross u v) (cross u v) - 2 * dot (cross u v) n + dot n n); [coords; ring|].
    unfold unit3 in *. rewrite Hc, E, Hn. ring. }
  apply dot_zero in Z. apply psub_zero, Z.
Qed.

Lemma make_circle_ok (c n : pt) r : unit3 n -> 0 < r ->
  let e := make_circle c n r in
  ell_ok e /\ e_c e = c /\ e_n e = n /\ e_a e = r /\ e_b e = r.
Proof.
  intros Hn Hr e. destruct (make_circle_basis c n r Hn) as [Hb En]. fold e in Hb, En.
  split; [|repeat split; assumption]. split; [rewrite En; exact Hb|]. split; exact Hr.
Qed.

(** * Containment in ellipses *)
Section Ell.
Variable e : ell R.
Hypothesis Hok : ell_ok e.
Let X p := dot (psub p (e_c e)) (e_maj e).
Let Y p := dot (psub p (e_c e)) (e_min e).
Let Z p := dot (psub p (e_c e)) (e_n e).

Lemma eb : ortho_basis (e_maj e) (e_min e) (e_n e).
Proof. apply Hok. Qed.
Lemma ea : 0 < e_a e. Proof. apply Hok. Qed.
Lemma ebb : 0 < e_b e. Proof. apply Hok. Qed.

Lemma ell_plane_contains p eps : plane_contains (ell_plane e) p eps = true <-> Rabs (Z p) < eps.
Proof.
  unfold plane_contains, ell_plane, plane_basis. cbn [pl_sup pl_n]. rewrite sprod_dot, vec_to_psub.
  cbn [nabs nltb R_num]. apply Rltb_true.
Qed.

Definition quad_form (x y : R) : R := (x / e_a e) ^ 2 + (y / e_b e) ^ 2.
Lemma quad_form_eq x y : x * x / (e_a e * e_a e) + y * y / (e_b e * e_b e) = quad_form x y.
Proof. pose proof ea. pose proof ebb. unfold quad_form. field. lra. Qed.

Lemma ell_contains_char p eps chk : ell_contains e p eps chk = true <->
  (chk = true -> Rabs (Z p) < eps) /\ Rabs (quad_form (X p) (Y p) - 1) < eps.
Proof.
  unfold ell_contains. rewrite !sprod_dot, !vec_to_psub. cbn [nabs nltb nadd nsub nmul ndiv nlit R_num Rlit].
  rewrite quad_form_eq. fold (X p). fold (Y p).
  pose proof (ell_plane_contains p eps) as Hp.
  destruct chk; cbn [andb].
  - destruct (plane_contains (ell_plane e) p eps); cbn [negb].
    + rewrite Rltb_true. intuition.
    + split; [discriminate|]. intros [C _]. apply Hp in C; [discriminate|reflexivity].
  - rewrite Rltb_true. intuition discriminate.
Qed.

Lemma ell_at_coords phi : X (ell_at e phi) = e_a e * cos phi /\ Y (ell_at e phi) = e_b e * sin phi /\ Z (ell_at e phi) = 0.
Proof. apply local_coords. apply eb. Qed.
Lemma quad_form_at phi : quad_form (e_a e * cos phi) (e_b e * sin phi) = 1.
Proof.
  pose proof ea. pose proof ebb. unfold quad_form. pose proof (sc1 phi).
  replace (e_a e * cos phi / e_a e) with (cos phi) by (field; lra).
  replace (e_b e * sin phi / e_b e) with (sin phi) by (field; lra). lra.
Qed.

Lemma ell_angle_point_eq phi : ell_angle_point e phi = ell_at e phi.
Proof.
  unfold ell_angle_point, ell_at, at_coords. apply v3_eq; coords; ring.
Qed.

Lemma on_ellipse_contains p eps chk : 0 < eps -> on_ellipse e p -> ell_contains e p eps chk = true.
Proof.
  intros He [phi ->]. apply ell_contains_char. destruct (ell_at_coords phi) as (-> & -> & ->).
  rewrite quad_form_at, Rabs_R0. replace (1 - 1) with 0 by ring. rewrite Rabs_R0. auto.
Qed.

Lemma unit_circle_angle x y : x ^ 2 + y ^ 2 = 1 -> exists phi, 0 <= phi < 2 * PI /\ x = cos phi /\ y = sin phi.
Proof.
  intros H. pose proof PI_RGT_0 as HP. assert (-1 <= x <= 1) as Hx by nra.
  pose proof (acos_bound x) as Hb. pose proof (cos_acos x Hx) as Hc. pose proof (sin_acos x Hx) as Hs.
  assert (1 - x ^ 2 = y ^ 2) as Hy by lra.
  replace (1 - x²) with (Rsqr y) in Hs by (unfold Rsqr in *; lra). rewrite sqrt_Rsqr_abs in Hs.
  destruct (Rle_dec 0 y) as [Hp|Hn].
  - exists (acos x). rewrite Hc, Hs, Rabs_right by lra. repeat split; lra.
  - exists (2 * PI - acos x).
    assert (0 < acos x).
    { destruct (Rtotal_order 0 (acos x)) as [C|[C|C]]; [exact C| |lra].
      rewrite <- C in Hs. rewrite sin_0 in Hs. rewrite Rabs_left in Hs by lra. lra. }
    split; [lra|]. split.
    + replace (2 * PI - acos x) with (- acos x + 2 * INR 1 * PI) by (cbn; ring).
      rewrite cos_period, cos_neg, Hc. reflexivity.
    + replace (2 * PI - acos x) with (- acos x + 2 * INR 1 * PI) by (cbn; ring).
      rewrite sin_period, sin_neg, Hs, Rabs_left by lra. ring.
Qed.

Lemma on_ellipse_char p : on_ellipse e p <-> Z p = 0 /\ quad_form (X p) (Y p) = 1.
Proof.
  pose proof ea as Ha. pose proof ebb as Hb. split.
  - intros [phi ->]. destruct (ell_at_coords phi) as (-> & -> & ->). split; [reflexivity|apply quad_form_at].
  - intros [Hz Hq]. unfold quad_form in Hq. apply unit_circle_angle in Hq. destruct Hq as (phi & _ & Hx & Hy).
    exists phi. unfold ell_at. rewrite <- Hx, <- Hy.
    replace (e_a e * (X p / e_a e)) with (X p) by (field; lra).
    replace (e_b e * (Y p / e_b e)) with (Y p) by (field; lra).
    apply (at_coords_of _ _ (e_n e)); [apply eb|exact Hz].
Qed.

Lemma on_ellipse_range p : on_ellipse e p -> exists phi, 0 <= phi < 2 * PI /\ p = ell_at e phi.
Proof.
  intros H. apply on_ellipse_char in H. destruct H as [Hz Hq]. pose proof ea as Ha. pose proof ebb as Hb.
  unfold quad_form in Hq. apply unit_circle_angle in Hq. destruct Hq as (phi & Hr & Hx & Hy).
  exists phi. split; [exact Hr|]. unfold ell_at. rewrite <- Hx, <- Hy.
  replace (e_a e * (X p / e_a e)) with (X p) by (field; lra).
  replace (e_b e * (Y p / e_b e)) with (Y p) by (field; lra).
  apply (at_coords_of _ _ (e_n e)); [apply eb|exact Hz].
Qed.

Lemma small_abs_zero r : (forall eps, 0 < eps -> Rabs r < eps) -> r = 0.
Proof.
  intros H. destruct (Req_dec r 0) as [E|E]; [exact E|].
  pose proof (Rabs_pos_lt r E). specialize (H (Rabs r) H0). lra.
Qed.

Lemma ell_contains_all p : (forall eps, 0 < eps -> ell_contains e p eps true = true) <-> on_ellipse e p.
Proof.
  split.
  - intros H. apply on_ellipse_char.
    split; apply small_abs_zero || apply Rminus_diag_uniq, small_abs_zero; intros eps He; specialize (H eps He);
      apply ell_contains_char in H; apply H; reflexivity.
  - intros H eps He. apply on_ellipse_contains; assumption.
Qed.

(** * Angles *)
Definition kk : R := 1 / 10 ^ 7.
Definition snap (phi : R) : R :=
  if Rlt_dec (Rabs (cos phi)) kk then (if Rlt_dec (sin phi) 0 then 3 * PI / 2 else PI / 2)
  else if Rlt_dec (Rabs (sin phi)) kk then (if Rlt_dec (cos phi) 0 then PI else 0)
  else phi.

Lemma kk_eq : @confusion R _ = kk.
Proof. unfold confusion, kk. rn. replace (10 ^ 7) with 10000000 by ring. reflexivity. Qed.
Lemma kk_pos : 0 < kk < 1 / 2.
Proof. unfold kk. replace (10 ^ 7) with 10000000 by ring. lra. Qed.

Lemma quadrant phi : 0 <= phi < 2 * PI -> cos phi <> 0 ->
  (phi < PI / 2 /\ 0 < cos phi) \/ (PI / 2 < phi < 3 * PI / 2 /\ cos phi < 0) \/ (3 * PI / 2 < phi /\ 0 < cos phi).
Proof.
  intros H Hc. pose proof PI_RGT_0 as HP.
  destruct (Rtotal_order phi (PI / 2)) as [C|[C|C]].
  - left. split; [lra|]. apply cos_gt_0; lra.
  - subst. rewrite cos_PI2 in Hc. lra.
  - right. destruct (Rtotal_order phi (3 * PI / 2)) as [D|[D|D]].
    + left. split; [lra|]. apply cos_lt_0; lra.
    + exfalso. apply Hc. rewrite D. replace (3 * PI / 2) with (3 * (PI / 2)) by field. apply cos_3PI2.
    + right. split; [lra|]. replace phi with ((phi - 2 * PI) + 2 * INR 1 * PI) by (cbn; ring).
      rewrite cos_period. apply cos_gt_0; lra.
Qed.

Lemma tan_period_pi phi : cos phi <> 0 -> tan (phi - PI) = tan phi.
Proof.
  intros H. unfold tan. replace (phi - PI) with (- (PI - phi)) by ring.
  rewrite sin_neg, cos_neg, sin_PI_x.
  assert (cos (PI - phi) = - cos phi) as -> by (rewrite cos_minus, cos_PI, sin_PI; ring).
  field. exact H.
Qed.
Lemma tan_period_2pi phi : tan (phi - 2 * PI) = tan phi.
Proof.
  unfold tan. replace phi with ((phi - 2 * PI) + 2 * INR 1 * PI) at 3 4 by (cbn; ring).
  rewrite sin_period, cos_period. reflexivity.
Qed.

Lemma sin_sign phi : 0 <= phi < 2 * PI -> (sin phi < 0 <-> PI < phi).
Proof.
  intros H. pose proof PI_RGT_0. split; intros C.
  - destruct (Rle_dec phi PI) as [D|D]; [|lra]. pose proof (sin_ge_0 phi). lra.
  - apply sin_lt_0; lra.
Qed.

Lemma ell_angle_at phi : 0 <= phi < 2 * PI -> ell_angle e (ell_at e phi) = snap phi.
Proof.
  intros H. pose proof ea as Ha. pose proof ebb as Hb. pose proof PI_RGT_0 as HP. pose proof kk_pos as Hk.
  unfold ell_angle. rewrite !sprod_dot, !vec_to_psub, kk_eq.
  destruct (ell_at_coords phi) as (E1 & E2 & _). unfold X, Y in E1, E2. rewrite E1, E2. clear E1 E2.
  unfold snap. rn. rewrite !Rabs_mult, (Rabs_right (e_a e)), (Rabs_right (e_b e)) by lra.
  destruct (Rlt_dec (Rabs (cos phi)) kk) as [C|C].
  { destruct (Rltb_spec (e_a e * Rabs (cos phi)) (e_a e * kk)); [|exfalso; nra].
    destruct (Rltb_spec (e_b e * sin phi) 0); destruct (Rlt_dec (sin phi) 0); try reflexivity; exfalso; nra. }
  destruct (Rltb_spec (e_a e * Rabs (cos phi)) (e_a e * kk)); [exfalso; nra|].
  destruct (Rlt_dec (Rabs (sin phi)) kk) as [D|D].
  { destruct (Rltb_spec (e_b e * Rabs (sin phi)) (e_b e * kk)); [|exfalso; nra].
    destruct (Rltb_spec (e_a e * cos phi) 0); destruct (Rlt_dec (cos phi) 0); try reflexivity; exfalso; nra. }
  destruct (Rltb_spec (e_b e * Rabs (sin phi)) (e_b e * kk)); [exfalso; nra|].
  assert (cos phi <> 0) as Hc by (intros Z0; rewrite Z0, Rabs_R0 in C; lra).
  replace (e_b e * sin phi * (e_a e / e_b e) / (e_a e * cos phi)) with (tan phi) by (unfold tan; field; repeat split; lra).
  pose proof (sin_sign phi H) as Hs.
  pose proof (mul_neg_iff _ (sin phi) Hb) as Is. pose proof (mul_neg_iff _ (cos phi) Ha) as Ic.
  destruct (Rltb_spec (e_b e * sin phi) 0) as [S|S]; destruct (Rltb_spec (e_a e * cos phi) 0) as [T|T];
    cbn [negb andb]; rewrite Is, Hs in S; rewrite Ic in T;
    destruct (quadrant phi H Hc) as [[Q Qc]|[[Q Qc]|[Q Qc]]]; try (exfalso; lra).
  - rewrite <- (tan_period_pi phi Hc), atan_tan by lra. ring.
  - rewrite <- (tan_period_2pi phi), atan_tan by lra. ring.
  - rewrite <- (tan_period_pi phi Hc), atan_tan by lra. ring.
  - apply atan_tan. lra.
Qed.

Lemma snap_off phi : off_axes phi -> snap phi = phi.
Proof.
  intros [H1 H2]. unfold snap. fold kk in H1, H2.
  destruct (Rlt_dec (Rabs (cos phi)) kk); [lra|]. destruct (Rlt_dec (Rabs (sin phi)) kk); [lra|]. reflexivity.
Qed.

Lemma ell_contains_default_at phi chk : ell_contains_default e (ell_at e phi) chk = true.
Proof.
  apply on_ellipse_contains; [|eexists; reflexivity]. rewrite kk_eq. apply kk_pos.
Qed.

Lemma get_angle_at phi chk : 0 <= phi < 2 * PI -> ell_get_angle e (ell_at e phi) chk = Ok (snap phi).
Proof.
  intros H. unfold ell_get_angle. rewrite ell_contains_default_at, andb_false_r.
  rewrite ell_angle_at by assumption. reflexivity.
Qed.

(** the values lie in [0, 2 pi) for every point *)
Lemma ell_angle_range p : 0 <= ell_angle e p < 2 * PI.
Proof.
  pose proof PI_RGT_0 as HP. pose proof ea as Ha. pose proof ebb as Hb. pose proof kk_pos as Hk.
  unfold ell_angle. rewrite !sprod_dot, !vec_to_psub, kk_eq. fold (X p) (Y p). rn.
  destruct (Rltb_spec (Rabs (X p)) (e_a e * kk)) as [B1|B1]; [rcmp; lra|].
  destruct (Rltb_spec (Rabs (Y p)) (e_b e * kk)) as [B2|B2]; [rcmp; lra|].
  assert (X p <> 0) as Hx by (intros E0; apply B1; rewrite E0, Rabs_R0; nra).
  assert (Y p <> 0) as Hy by (intros E0; apply B2; rewrite E0, Rabs_R0; nra).
  assert (0 < e_a e / e_b e) as Hq by (apply Rdiv_lt_0_compat; assumption).
  set (q := e_a e / e_b e) in *. set (r := Y p * q / X p). pose proof (atan_bound r) as Hr.
  destruct (Rltb_spec (Y p) 0) as [S|S]; destruct (Rltb_spec (X p) 0) as [T|T]; cbn [negb andb]; try lra.
  - assert (r < 0) as Hn.
    { unfold r, Rdiv. assert (0 < / X p) by (apply Rinv_0_lt_compat; lra).
      assert (Y p * q < 0) by nra. nra. }
    apply atan_increasing in Hn. rewrite atan_0 in Hn. lra.
  - assert (0 < r) as Hn.
    { unfold r, Rdiv. assert (0 < / X p) by (apply Rinv_0_lt_compat; lra).
      assert (0 < Y p * q) by nra. nra. }
    apply atan_increasing in Hn; rewrite atan_0 in Hn; lra.
Qed.

Lemma get_angle_range p chk phi : ell_get_angle e p chk = Ok phi -> 0 <= phi < 2 * PI.
Proof.
  unfold ell_get_angle. destruct (_ && _); [discriminate|]. intros [= <-]. apply ell_angle_range.
Qed.

Lemma get_param_range p chk t : ell_get_param e p chk = Ok t -> 0 <= t < 1.
Proof.
  unfold ell_get_param. destruct (ell_get_angle e p chk) as [phi| | |] eqn:E; try discriminate.
  apply get_angle_range in E. cbn. intros [= <-]. rn. pose proof PI_RGT_0. split.
  - apply Rmult_le_pos; [lra|]. left. apply Rinv_0_lt_compat. lra.
  - apply (Rmult_lt_reg_r (2 * PI)); [lra|]. unfold Rdiv. rewrite Rmult_assoc, Rinv_l by lra. lra.
Qed.

Lemma get_angle_throw p : ell_get_angle e p true = Throw RuntimeError <->
  ~ (Rabs (Z p) < 1 / 10 ^ 7 /\ Rabs (quad_form (X p) (Y p) - 1) < 1 / 10 ^ 7).
Proof.
  unfold ell_get_angle, ell_contains_default. rewrite kk_eq. pose proof (ell_contains_char p kk true) as Hc.
  fold kk. destruct (ell_contains e p kk true); cbn [andb negb].
  - split; [discriminate|]. intros H. exfalso. apply H. destruct (proj1 Hc eq_refl) as [A1 A2]. auto.
  - split; [|reflexivity]. intros _ [A1 A2]. assert (false = true) by (apply Hc; auto). discriminate.
Qed.

(** the snapped value is close to the angle *)
Lemma snap_unsnapped phi : 0 <= phi < 2 * PI -> snap (snap phi) = snap phi.
Proof.
  intros H. pose proof kk_pos as Hk. unfold snap at 2 3.
  assert (cos (3 * PI / 2) = 0 /\ sin (3 * PI / 2) = -1) as [C1 S1].
  { replace (3 * PI / 2) with (3 * (PI / 2)) by field. split; [apply cos_3PI2|apply sin_3PI2]. }
  destruct (Rlt_dec (Rabs (cos phi)) kk) as [C|C].
  { destruct (Rlt_dec (sin phi) 0); unfold snap.
    - rewrite C1, S1, Rabs_R0. destruct (Rlt_dec 0 kk); [|lra]. destruct (Rlt_dec (-1) 0); [reflexivity|lra].
    - rewrite cos_PI2, sin_PI2, Rabs_R0. destruct (Rlt_dec 0 kk); [|lra]. destruct (Rlt_dec 1 0); [lra|reflexivity]. }
  destruct (Rlt_dec (Rabs (sin phi)) kk) as [D|D].
  { destruct (Rlt_dec (cos phi) 0); unfold snap.
    - rewrite cos_PI, sin_PI, Rabs_R0, Rabs_m1. destruct (Rlt_dec 1 kk); [lra|].
      destruct (Rlt_dec 0 kk); [|lra]. destruct (Rlt_dec (-1) 0); [reflexivity|lra].
    - rewrite cos_0, sin_0, Rabs_R0, Rabs_R1. destruct (Rlt_dec 1 kk); [lra|].
      destruct (Rlt_dec 0 kk); [|lra]. destruct (Rlt_dec 1 0); [lra|reflexivity]. }
  unfold snap. destruct (Rlt_dec (Rabs (cos phi)) kk); [lra|]. destruct (Rlt_dec (Rabs (sin phi)) kk); [lra|]. reflexivity.
Qed.

Lemma cos_range_bound phi : 0 <= phi < 2 * PI -> Rabs (cos phi) < kk -> ~ sin phi < 0 -> 0 < phi < PI.
Proof.
  intros H C S. pose proof PI_RGT_0. pose proof kk_pos. pose proof (sin_sign phi H) as Hs.
  split.
  - destruct H as [[H|H] _]; [exact H|]. rewrite <- H, cos_0, Rabs_R1 in C. lra.
  - destruct (Rtotal_order phi PI) as [D|[D|D]]; [exact D| |tauto].
    rewrite D, cos_PI, Rabs_m1 in C. lra.
Qed.

Lemma snap_le t phi : 0 <= phi < 2 * PI -> 0 <= t < 2 * PI -> snap t = t -> phi <= t -> snap phi <= t.
Proof.
  intros H Ht Et Hle. pose proof PI_RGT_0 as HP. pose proof kk_pos as Hk. unfold snap at 1.
  destruct (Rlt_dec (Rabs (cos phi)) kk) as [C|C].
  { destruct (Rlt_dec (sin phi) 0) as [S|S].
    - apply sin_sign in S; [|exact H]. destruct (Rle_dec (3 * PI / 2) t) as [D|D]; [exact D|]. exfalso.
      assert (cos phi <= cos t) by (apply cos_incr_1; lra).
      assert (cos t <= 0) by (apply cos_le_0; lra).
      assert (Rabs (cos t) < kk) by (destruct (Rabs_def2 _ _ C); apply Rabs_def1; lra).
      unfold snap in Et. destruct (Rlt_dec (Rabs (cos t)) kk); [|lra].
      destruct (Rlt_dec (sin t) 0); lra.
    - destruct (cos_range_bound phi H C S) as [B1 B2].
      destruct (Rle_dec (PI / 2) t) as [D|D]; [exact D|]. exfalso.
      assert (cos t <= cos phi) by (apply cos_decr_1; lra).
      assert (0 <= cos t) by (apply cos_ge_0; lra).
      assert (Rabs (cos t) < kk) by (destruct (Rabs_def2 _ _ C); apply Rabs_def1; lra).
      unfold snap in Et. destruct (Rlt_dec (Rabs (cos t)) kk); [|lra].
      destruct (Rlt_dec (sin t) 0); lra. }
  destruct (Rlt_dec (Rabs (sin phi)) kk) as [D|D]; [|exact Hle].
  destruct (Rlt_dec (cos phi) 0) as [S|S]; [|lra].
  assert (cos phi <> 0) as Hc by lra.
  destruct (quadrant phi H Hc) as [[Q Qc]|[[Q Qc]|[Q Qc]]]; [lra| |lra].
  destruct (Rle_dec PI t) as [E|E]; [exact E|]. exfalso.
  assert (sin t <= sin phi) by (apply sin_decr_1; lra).
  assert (0 <= sin t) by (apply sin_ge_0; lra).
  assert (Rabs (sin t) < kk) by (destruct (Rabs_def2 _ _ D); apply Rabs_def1; lra).
  unfold snap in Et. destruct (Rlt_dec (Rabs (cos t)) kk).
  - destruct (Rlt_dec (sin t) 0); lra.
  - destruct (Rlt_dec (Rabs (sin t)) kk); [|lra]. destruct (Rlt_dec (cos t) 0); lra.
Qed.

Lemma snap_ge s phi : 0 <= phi < 2 * PI -> 0 <= s < 2 * PI -> snap s = s -> s <= phi -> s <= snap phi \/ snap phi = 0.
Proof.
  intros H Ht Et Hle. pose proof PI_RGT_0 as HP. pose proof kk_pos as Hk. unfold snap at 1 2.
  destruct (Rlt_dec (Rabs (cos phi)) kk) as [C|C].
  { left. destruct (Rlt_dec (sin phi) 0) as [S|S].
    - apply sin_sign in S; [|exact H]. destruct (Rle_dec s (3 * PI / 2)) as [D|D]; [exact D|]. exfalso.
      assert (cos s <= cos phi) by (apply cos_incr_1; lra).
      assert (0 <= cos s).
      { replace s with ((s - 2 * PI) + 2 * INR 1 * PI) by (cbn; ring). rewrite cos_period. apply cos_ge_0; lra. }
      assert (Rabs (cos s) < kk) by (destruct (Rabs_def2 _ _ C); apply Rabs_def1; lra).
      unfold snap in Et. destruct (Rlt_dec (Rabs (cos s)) kk); [|lra].
      destruct (Rlt_dec (sin s) 0); lra.
    - destruct (cos_range_bound phi H C S) as [B1 B2].
      destruct (Rle_dec s (PI / 2)) as [D|D]; [exact D|]. exfalso.
      assert (cos phi <= cos s) by (apply cos_decr_1; lra).
      assert (cos s <= 0) by (apply cos_le_0; lra).
      assert (Rabs (cos s) < kk) by (destruct (Rabs_def2 _ _ C); apply Rabs_def1; lra).
      unfold snap in Et. destruct (Rlt_dec (Rabs (cos s)) kk); [|lra].
      destruct (Rlt_dec (sin s) 0); lra. }
  destruct (Rlt_dec (Rabs (sin phi)) kk) as [D|D]; [|left; exact Hle].
  destruct (Rlt_dec (cos phi) 0) as [S|S]; [|right; reflexivity]. left.
  assert (cos phi <> 0) as Hc by lra.
  destruct (quadrant phi H Hc) as [[Q Qc]|[[Q Qc]|[Q Qc]]]; [lra| |lra].
  destruct (Rle_dec s PI) as [E|E]; [exact E|]. exfalso.
  assert (sin phi <= sin s) by (apply sin_decr_1; lra).
  assert (sin s <= 0) by (apply sin_le_0; lra).
  assert (Rabs (sin s) < kk) by (destruct (Rabs_def2 _ _ D); apply Rabs_def1; lra).
  unfold snap in Et. destruct (Rlt_dec (Rabs (cos s)) kk).
  - destruct (Rlt_dec (sin s) 0); lra.
  - destruct (Rlt_dec (Rabs (sin s)) kk); [|lra]. destruct (Rlt_dec (cos s) 0); lra.
Qed.

Lemma ell_at_period phi : ell_at e (phi + 2 * PI) = ell_at e phi.
Proof.
  unfold ell_at. replace (phi + 2 * PI) with (phi + 2 * INR 1 * PI) by (cbn; ring).
  rewrite cos_period, sin_period. reflexivity.
Qed.

(** * Disks *)
Lemma disk_contains_char p eps chk : disk_contains e p eps chk = true <->
  (chk = true -> Rabs (Z p) < eps) /\ quad_form (X p) (Y p) <= 1 + eps * eps.
Proof.
  unfold disk_contains. rewrite !sprod_dot, !vec_to_psub. cbn [nleb nadd nsub nmul ndiv nlit R_num Rlit].
  rewrite quad_form_eq. fold (X p). fold (Y p).
  pose proof (ell_plane_contains p eps) as Hp.
  destruct chk; cbn [andb].
  - destruct (plane_contains (ell_plane e) p eps); cbn [negb].
    + rewrite Rleb_true. intuition.
    + split; [discriminate|]. intros [C _]. apply Hp in C; [discriminate|reflexivity].
  - rewrite Rleb_true. intuition discriminate.
Qed.

Lemma in_disk_char k p : 0 < k -> (in_disk k e p <-> Z p = 0 /\ quad_form (X p) (Y p) <= k * k).
Proof.
  intros Hk. pose proof ea as Ha. pose proof ebb as Hb.
  assert (forall x y, (x / (k * e_a e)) ^ 2 + (y / (k * e_b e)) ^ 2 = quad_form x y / (k * k)) as E.
  { intros. unfold quad_form. field. lra. }
  assert (0 < / (k * k)) as Hi by (apply Rinv_0_lt_compat; nra).
  assert (forall q, q / (k * k) <= 1 <-> q <= k * k) as E2.
  { intros q. unfold Rdiv. split; intros C.
    - apply (Rmult_le_reg_r (/ (k * k))); [exact Hi|]. rewrite Rinv_r by nra. exact C.
    - apply (Rmult_le_compat_r (/ (k * k))) in C; [|lra]. rewrite Rinv_r in C by nra. exact C. }
  split.
  - intros (x & y & Hq & ->). destruct (local_coords _ _ _ (e_c e) x y eb) as (Ex & Ey & Ez).
    unfold X, Y, Z. rewrite Ex, Ey, Ez. rewrite E in Hq. split; [reflexivity|]. apply E2. exact Hq.
  - intros [Hz Hq]. exists (X p), (Y p). split; [rewrite E; apply E2; exact Hq|].
    apply (at_coords_of _ _ (e_n e)); [apply eb|exact Hz].
Qed.

Lemma disk_contains_all p : (forall eps, 0 < eps -> disk_contains e p eps true = true) <-> in_disk 1 e p.
Proof.
  rewrite in_disk_char by lra. split.
  - intros H. split.
    + apply small_abs_zero. intros eps He. specialize (H eps He). apply disk_contains_char in H. apply H. reflexivity.
    + apply Rnot_lt_le. intros C. set (d := quad_form (X p) (Y p)) in *.
      set (eps := Rmin 1 (d - 1)).
      assert (0 < eps <= 1 /\ eps <= d - 1) as [He1 He2].
      { unfold eps. split; [|apply Rmin_r]. split; [apply Rmin_glb_lt; lra|apply Rmin_l]. }
      specialize (H (eps / 2) ltac:(lra)). apply disk_contains_char in H. destruct H as [_ H]. fold d in H. nra.
  - intros [Hz Hq] eps He. apply disk_contains_char. rewrite Hz, Rabs_R0. split; [auto|]. nra.
Qed.

Lemma disk_contains_iff p eps : 0 < eps ->
  (disk_contains e p eps true = true <->
   exists q, in_disk (sqrt (1 + eps * eps)) e q /\ closest (on_plane (e_c e) (e_n e)) p q /\ dist p q < eps).
Proof.
  intros He. rewrite disk_contains_char.
  assert (0 <= 1 + eps * eps) as H0 by nra.
  assert (0 < sqrt (1 + eps * eps)) as H1 by (apply sqrt_lt_R0; nra).
  pose proof (sqrt_sqrt _ H0) as Hs.
  destruct eb as (Hu & Hv & Hn & Huv & Hun & Hvn & Hd).
  set (pl := ell_plane e). assert (unit3 (pl_n pl)) as Hpn by exact Hn.
  set (q := plane_proj pl p).
  pose proof (plane_proj_closest pl p Hpn) as Hq. fold q in Hq. change (pl_sup pl) with (e_c e) in Hq. change (pl_n pl) with (e_n e) in Hq.
  assert (X q = X p /\ Y q = Y p /\ Z q = 0) as (Ex & Ey & Ez).
  { unfold q. rewrite plane_proj_eq. cbn [pl ell_plane plane_basis pl_sup pl_n].
    assert (forall w, dot (psub (padd p (pscale (- Z p) (e_n e))) (e_c e)) w = dot (psub p (e_c e)) w - Z p * dot w (e_n e)) as EW
      by (intros; coords; ring).
    unfold X, Y, Z in *. unfold unit3, ortho in *.
    replace (dot (e_n e) (psub p (e_c e))) with (dot (psub p (e_c e)) (e_n e)) by apply dot_comm.
    rewrite !EW, Hun, Hvn, Hn. repeat split; ring. }
  assert (dist p q = Rabs (Z p)) as Ed.
  { unfold q. rewrite (plane_dist pl p Hpn). cbn [pl ell_plane plane_basis pl_sup pl_n].
    unfold Z. rewrite dot_comm. reflexivity. }
  split.
  - intros [Hz Hf]. exists q. split; [apply in_disk_char; [exact H1|]; rewrite Ex, Ey, Hs; split; assumption|].
    split; [exact Hq|]. rewrite Ed. apply Hz. reflexivity.
  - intros (q' & Hin & Hcl & Hdist).
    assert (q' = q) as ->.
    { destruct Hq as [Hq1 Hq2]. destruct Hcl as [Hc1 Hc2]. pose proof (Hq2 _ Hc1). pose proof (Hc2 _ Hq1).
      apply dist_zero.
      assert (dist p q' = dist p q) as E by lra.
      assert (dot (psub p q') (psub p q') = dot (psub p q) (psub p q)) as E'.
      { rewrite <- !norm_sq. unfold dist in E. rewrite E. reflexivity. }
      assert (dot (psub p q) (psub q q') = 0) as Eo.
      { unfold on_plane in Hq1, Hc1. unfold q at 1. rewrite plane_proj_eq. cbn [pl ell_plane plane_basis pl_sup pl_n].
        set (z := dot (e_n e) (psub p (e_c e))).
        transitivity (z * (dot (e_n e) (psub q (e_c e)) - dot (e_n e) (psub q' (e_c e)))); [coords; ring|].
        rewrite Hq1, Hc1. ring. }
      unfold dist, norm. replace (dot (psub q' q) (psub q' q)) with 0; [apply sqrt_0|].
      assert (dot (psub p q') (psub p q') = dot (psub p q) (psub p q) + 2 * dot (psub p q) (psub q q') + dot (psub q' q) (psub q' q)) as E3
        by (coords; ring).
      lra. }
    rewrite Ed in Hdist. apply in_disk_char in Hin; [|exact H1]. destruct Hin as [_ Hf]. rewrite Ex, Ey, Hs in Hf.
    split; [auto|exact Hf].
Qed.

Lemma disk_point_eq t1 t2 : disk_point e t1 t2 =
  at_coords (e_c e) (e_maj e) (e_min e) ((1 + t2) * (e_a e * cos (2 * PI * t1))) ((1 + t2) * (e_b e * sin (2 * PI * t1))).
Proof.
  unfold disk_point, ell_point, disk_ellipse, make_ell, ell_angle_point, at_coords. cbn [e_c e_maj e_min e_a e_b].
  apply v3_eq; coords; ring.
Qed.

Lemma disk_point_form t1 t2 : let p := disk_point e t1 t2 in
  Z p = 0 /\ quad_form (X p) (Y p) = (1 + t2) * (1 + t2).
Proof.
  cbv zeta. rewrite disk_point_eq. unfold X, Y, Z.
  destruct (local_coords _ _ _ (e_c e) ((1 + t2) * (e_a e * cos (2 * PI * t1))) ((1 + t2) * (e_b e * sin (2 * PI * t1))) eb) as (-> & -> & ->).
  split; [reflexivity|]. pose proof ea. pose proof ebb. pose proof (quad_form_at (2 * PI * t1)) as Q.
  unfold quad_form in *. transitivity ((1 + t2) * (1 + t2) * ((e_a e * cos (2 * PI * t1) / e_a e) ^ 2 + (e_b e * sin (2 * PI * t1) / e_b e) ^ 2)).
  - field. lra.
  - rewrite Q. ring.
Qed.
End Ell.
