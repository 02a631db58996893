(** Ellipses, circles and disks contain the points they return, in double precision. *)

From Coq Require Import ZArith Reals Floats Lra Lia Psatz Bool.
From Flocq Require Import Core.Core IEEE754.BinarySingleNaN IEEE754.PrimFloat Relative.
From Verif Require Import Base NumModel VecModel LinModel RoundModel GeoSpec LinSpec RoundSpec DblSpec GeoLemmas EllProofs
  DblLemmas DblProofs DblLen DblEq LinDblSpec LinDblBase LinDblFoot LinDblProofs LinDblSeg LinDblDist RndDblSpec RndDblProofs TrigDblSpec PtDblSpec PtDblProofs FrDblProofs DkDblSpec DkDblProofs.
Local Open Scope R_scope.

Lemma plane_has (s n p : pt) : 0 < norm n -> exists D, dist_to (on_plane s n) p D /\ D * norm n = Rabs (dot n (psub p s)).
Proof.
  intros N. pose proof (norm_sq n) as S. assert (0 < dot n n) as S0 by (rewrite <- S; apply Rmult_lt_0_compat; exact N). set (h := dot n (psub p s)). exists (Rabs h / norm n). split; [|field; lra].
  split.
  - exists (psub p (pscale (h / dot n n) n)). split.
    + unfold on_plane. replace (dot n (psub (psub p (pscale (h / dot n n) n)) s)) with (h - h / dot n n * dot n n). { field. lra. }
      unfold h. generalize (dot n (psub p s) / dot n n). intros z. clear. destruct p as [px py pz]. pts. ring.
    + unfold dist. replace (psub p (psub p (pscale (h / dot n n) n))) with (pscale (h / dot n n) n) by (generalize (h / dot n n); clear; intros z; destruct p as [px py pz]; pts; f_equal; ring).
      rewrite norm_mul. unfold Rdiv. rewrite Rabs_mult, Rabs_inv, (Rabs_pos_eq (dot n n)) by lra. rewrite <- S. field. lra.
  - intros y Hy. unfold on_plane in Hy. apply (Rmult_le_reg_r (norm n)); [exact N|]. unfold Rdiv. rewrite Rmult_assoc, Rinv_l, Rmult_1_r by lra.
    assert (h = dot n (psub p y)) as ->. { unfold h. replace (dot n (psub p s)) with (dot n (psub p y) + dot n (psub y s)); [rewrite Hy; ring|]. clear. destruct p as [px py pz], y as [qx qy qz]. pts. ring. }
    rewrite Rmult_comm. apply cauchy_norm.
Qed.

(** a point at the angle theta, up to an error d *)
Section Near.
Variables (c u v w p : pt) (a b M m theta : R).
Hypotheses (M0 : 0 < M) (m0 : 0 < m) (Nu : Rabs (norm u - 1) <= 8 * U) (Nv : Rabs (norm v - 1) <= 8 * U) (Nw : Rabs (norm w - 1) <= 8 * U)
  (Duv : Rabs (dot u v) <= 64 * U) (Duw : Rabs (dot u w) <= 64 * U) (Dvw : Rabs (dot v w) <= 64 * U)
  (Ha : m <= a <= M) (Hb : m <= b <= M)
  (Hp : dist p (frame_point c u v w (a * cos theta) (b * sin theta) 0) <= 128 * (U * M)).
Let X := a * cos theta.
Let Y := b * sin theta.
Let d := psub p (frame_point c u v w X Y 0).
Lemma XY_le : Rabs X <= M /\ Rabs Y <= M /\ Rabs (cos theta) <= 1 /\ Rabs (sin theta) <= 1.
Proof.
  assert (Rabs (cos theta) <= 1 /\ Rabs (sin theta) <= 1) as [A B] by (split; apply Rabs_le; [destruct (COS_bound theta)|destruct (SIN_bound theta)]; lra).
  pose proof (Rabs_pos (cos theta)). pose proof (Rabs_pos (sin theta)).
  unfold X, Y. rewrite !Rabs_mult, (Rabs_pos_eq a), (Rabs_pos_eq b) by lra. repeat split; try assumption; rewrite <- (Rmult_1_r M); apply Rmult_le_compat; lra.
Qed.
Lemma p_is : psub p c = padd (padd (pscale X u) (pscale Y v)) d.
Proof. unfold d, frame_point. generalize X Y. clear. intros X Y. destruct p as [px py pz]. pts. f_equal; ring. Qed.
Lemma norm_1 (n : pt) : Rabs (norm n - 1) <= 8 * U -> Rabs (dot n n - 1) <= 17 * U /\ 99 / 100 <= norm n <= 1001 / 1000.
Proof.
  intros H. apply Rabs_def2_le in H. pose proof U_pos as [U0 U1]. split; [|lra]. rewrite <- norm_sq. set (k := norm n - 1). replace (norm n * norm n - 1) with (2 * k + k * k) by (unfold k; ring).
  assert (Rabs k <= 8 * U) as K by (apply Rabs_le; unfold k; lra). assert (Rabs (k * k) <= 8 * U * (8 * U)) as K2 by (apply prod_le; exact K). apply Rabs_def2_le in K, K2. apply Rabs_le. unfold U in *. lra.
Qed.
Lemma d_dot (n : pt) : Rabs (norm n - 1) <= 8 * U -> Rabs (dot n d) <= 129 * (U * M).
Proof.
  intros H. destruct (norm_1 n H) as [_ N]. eapply Rle_trans; [apply cauchy_norm|]. change (dist p _) with (norm d) in Hp. pose proof (norm_nonneg d). pose proof U_pos as [U0 _]. assert (0 <= U * M) by (apply Rmult_le_pos; lra).
  apply Rle_trans with (1001 / 1000 * (128 * (U * M))); [apply Rmult_le_compat; lra|lra].
Qed.
Lemma small_prod x D k : Rabs x <= M -> Rabs D <= k * U -> Rabs (x * D) <= k * (U * M).
Proof. intros A B. rewrite Rabs_mult. replace (k * (U * M)) with (M * (k * U)) by ring. apply Rmult_le_compat; try apply Rabs_pos; assumption. Qed.
Lemma dots : Rabs (dot u (psub p c) - X) <= 210 * (U * M) /\ Rabs (dot v (psub p c) - Y) <= 210 * (U * M) /\ Rabs (dot w (psub p c)) <= 257 * (U * M).
Proof.
  destruct XY_le as (BX & BY & _). destruct (norm_1 u Nu) as [Su _]. destruct (norm_1 v Nv) as [Sv _].
  pose proof (d_dot u Nu) as Eu. pose proof (d_dot v Nv) as Ev. pose proof (d_dot w Nw) as Ew. rewrite p_is.
  replace (dot u (padd (padd (pscale X u) (pscale Y v)) d) - X) with (X * (dot u u - 1) + Y * dot u v + dot u d) by (generalize X Y d; clear; intros; pts; ring).
  replace (dot v (padd (padd (pscale X u) (pscale Y v)) d) - Y) with (Y * (dot v v - 1) + X * dot u v + dot v d) by (generalize X Y d; clear; intros; pts; ring).
  replace (dot w (padd (padd (pscale X u) (pscale Y v)) d)) with (X * dot u w + Y * dot v w + dot w d) by (generalize X Y d; clear; intros; pts; ring).
  pose proof (small_prod _ _ _ BX Su) as P1. pose proof (small_prod _ _ _ BY Duv) as P2. pose proof (small_prod _ _ _ BY Sv) as P3. pose proof (small_prod _ _ _ BX Duv) as P4. pose proof (small_prod _ _ _ BX Duw) as P5. pose proof (small_prod _ _ _ BY Dvw) as P6.
  apply Rabs_def2_le in Eu, Ev, Ew, P1, P2, P3, P4, P5, P6. repeat split; apply Rabs_le; lra.
Qed.
(** its factor *)
Lemma near_factor : exists k, factor c u v a b p k /\ Rabs (k - 1) <= 364 * (U * M / m).
Proof.
  destruct dots as (E1 & E2 & _). set (x := dot u (psub p c)) in *. set (y := dot v (psub p c)) in *. pose proof U_pos as [U0 _]. assert (0 <= U * M) as UM by (apply Rmult_le_pos; lra).
  exists (norm (mkV3 (x / a) (y / b) 0)). split.
  - split; [apply norm_nonneg|]. fold x y. rewrite norm_sq. clearbody x y. unfold dot. cbn [vx vy vz]. ring.
  - assert (norm (mkV3 (cos theta) (sin theta) 0) = 1) as N1.
    { unfold norm, dot. cbn [vx vy vz]. replace (cos theta * cos theta + sin theta * sin theta + 0 * 0) with 1; [apply sqrt_1|]. pose proof (sin2_cos2 theta) as S. unfold Rsqr in S. lra. }
    rewrite <- N1 at 1. eapply Rle_trans; [apply norm_dif|].
    assert (0 <= U * M / m) as R0 by (apply Rmult_le_pos; [exact UM|left; apply Rinv_0_lt_compat; exact m0]).
    assert (forall z Z s, m <= s -> Rabs (z - s * Z) <= 210 * (U * M) -> Rabs (z / s - Z) <= 210 * (U * M / m)) as Q.
    { intros z Z s Hs E. replace (z / s - Z) with ((z - s * Z) / s) by (field; lra). unfold Rdiv. rewrite Rabs_mult, Rabs_inv, (Rabs_pos_eq s) by lra. rewrite <- Rmult_assoc.
      apply Rmult_le_compat; [apply Rabs_pos|left; apply Rinv_0_lt_compat; lra|exact E|apply Rinv_le; lra]. }
    eapply Rle_trans; [apply (norm_le _ (210 * (U * M / m))); unfold psub; cbn [vx vy vz]|lra].
    + apply Q; [lra|exact E1].
    + apply Q; [lra|exact E2].
    + rewrite Rminus_0_r, Rabs_R0. lra.
Qed.
Lemma near_plane : exists D, dist_to (on_plane c w) p D /\ D <= 260 * (U * M).
Proof.
  destruct (norm_1 w Nw) as [_ N]. destruct (plane_has c w p ltac:(lra)) as (D & HD & E). exists D. split; [exact HD|]. destruct dots as (_ & _ & W). rewrite <- E in W.
  pose proof U_pos as [U0 _]. assert (0 <= U * M) as UM by (apply Rmult_le_pos; lra). destruct (Rle_or_lt 0 D) as [D0|D0]; [nra|lra].
Qed.
Lemma near_dist : b = a -> Rabs (dist p c - a) <= 171 * (U * M).
Proof.
  intros Eb. unfold dist. rewrite p_is. set (q := padd (pscale X u) (pscale Y v)). pose proof U_pos as [U0 U1]. assert (0 <= U * M) as UM by (apply Rmult_le_pos; lra).
  assert (Rabs (norm q - a) <= 41 * (U * M)) as Nq.
  { destruct (norm_1 u Nu) as [Su _]. destruct (norm_1 v Nv) as [Sv _]. apply Rabs_def2_le in Su, Sv.
    assert (X * X + Y * Y = a * a) as XY. { unfold X, Y. rewrite Eb. pose proof (sin2_cos2 theta) as S. unfold Rsqr in S. replace (a * cos theta * (a * cos theta) + a * sin theta * (a * sin theta)) with (a * a * (sin theta * sin theta + cos theta * cos theta)) by ring. rewrite S. ring. }
    pose proof (Rle_0_sqr X) as X2. pose proof (Rle_0_sqr Y) as Y2. unfold Rsqr in X2, Y2.
    assert (Rabs (2 * (X * Y) * dot u v) <= a * a * (64 * U)) as S3.
    { rewrite Rabs_mult. apply Rmult_le_compat; try apply Rabs_pos; [|assumption].
      pose proof (Rle_0_sqr (X - Y)). pose proof (Rle_0_sqr (X + Y)). unfold Rsqr in *. apply Rabs_le. lra. }
    apply Rabs_def2_le in S3. pose proof (norm_sq q) as NQ. replace (dot q q) with (X * X * dot u u + Y * Y * dot v v + 2 * (X * Y) * dot u v) in NQ by (unfold q; generalize X Y; clear; intros; pts; ring).
    assert (a * a * (1 - 81 * U) <= norm q * norm q <= a * a * (1 + 81 * U)) as B.
    { assert (X * X * (1 - 17 * U) <= X * X * dot u u <= X * X * (1 + 17 * U)) by (split; apply Rmult_le_compat_l; lra). assert (Y * Y * (1 - 17 * U) <= Y * Y * dot v v <= Y * Y * (1 + 17 * U)) by (split; apply Rmult_le_compat_l; lra).
      assert (X * X * (17 * U) + Y * Y * (17 * U) = a * a * (17 * U)) by (rewrite <- XY; ring). split; lra. }
    pose proof (norm_nonneg q) as Q0. assert (U * a <= U * M) as UA by (apply Rmult_le_compat_l; lra).
    apply Rabs_le. split.
    - assert (a * (1 - 41 * U) <= norm q); [|lra]. apply Rsqr_incr_0_var; [|exact Q0]. unfold Rsqr. eapply Rle_trans; [|apply B]. replace (a * (1 - 41 * U) * (a * (1 - 41 * U))) with (a * a * ((1 - 41 * U) * (1 - 41 * U))) by ring.
      apply Rmult_le_compat_l; [nra|]. unfold U. lra.
    - assert (norm q <= a * (1 + 41 * U)); [|lra]. apply Rsqr_incr_0_var; [|apply Rmult_le_pos; lra]. unfold Rsqr. eapply Rle_trans; [apply B|]. replace (a * (1 + 41 * U) * (a * (1 + 41 * U))) with (a * a * ((1 + 41 * U) * (1 + 41 * U))) by ring.
      apply Rmult_le_compat_l; [nra|]. unfold U. lra. }
  pose proof (norm_dif (padd q d) q) as N2. replace (psub (padd q d) q) with d in N2 by (generalize q d; clear; intros q d; destruct q as [qx qy qz], d as [dx dy dz]; pts; f_equal; ring).
  change (dist p _) with (norm d) in Hp. apply Rabs_def2_le in Nq, N2. apply Rabs_le. lra.
Qed.
End Near.

(** a point that the library returns *)
Definition rim_point (M m : R) (e : ell PrimFloat.float) (p : V3 PrimFloat.float) : Prop :=
  exists D k, dist_to (in_plane e) (val3 p) D /\ D <= 260 * (U * M) /\ ell_factor e p k /\ Rabs (k - 1) <= 364 * (U * M / m).
Section Trip.
Context (T : Trig PrimFloat.float).
Variables (M m : R) (e : ell PrimFloat.float) (x : PrimFloat.float).
Hypotheses (HT : accurate T) (HM : moderate M) (He : ellipse_upto M e) (Hf : frame (powerRZ 2 (-47)) (e_maj e) (e_min e) (e_n e)) (Hm : axes_from m M e)
  (Nx : number x) (Bx : 0 <= val x <= 1).
Lemma M_pos : 0 < M.
Proof. pose proof (mod_sized M HM) as [S _]. pose proof (bpow_gt_0 radix2 (-900)). lra. Qed.
Lemma p47U : powerRZ 2 (-47) = 64 * U.
Proof. rewrite two_p. change (bpow radix2 (-47)) with (/ 140737488355328). unfold U. lra. Qed.
Lemma trip_near : number3 (ell_point e x) /\ rim_point M m e (ell_point e x) /\ (val (e_b e) = val (e_a e) -> Rabs (dist (val3 (ell_point e x)) (val3 (e_c e)) - val (e_a e)) <= 171 * (U * M)).
Proof.
  destruct (ell_point_dbl T M e x HT HM He Nx Bx) as [Np Ep]. split; [exact Np|]. pose proof M_pos as M0.
  destruct Hf as (Du & Dv & Dw & Duv & Duw & Dvw). rewrite p47U in Duv, Duw, Dvw. destruct Hm as (_ & Ha & Hb). destruct He as (_ & _ & _ & _ & (_ & A1 & A2) & (_ & B1 & B2)).
  destruct (m_pos e M m HM He Hm) as (_ & m0 & _).
  pose proof (proj2 (proj2 (dir_norm _ Du))) as Nu. pose proof (proj2 (proj2 (dir_norm _ Dv))) as Nv. pose proof (proj2 (proj2 (dir_norm _ Dw))) as Nw.
  replace (powerRZ 2 (-46) * M) with (128 * (U * M)) in Ep by (rewrite two_p; change (bpow radix2 (-46)) with (/ 70368744177664); unfold U; lra).
  set (theta := 2 * PI * val x) in *. split.
  - destruct (near_plane _ _ _ _ _ _ _ M m theta M0 m0 Nu Nv Nw Duv Duw Dvw (conj Ha A2) (conj Hb B2) Ep) as (D & D1 & D2).
    destruct (near_factor _ _ _ _ _ _ _ M m theta M0 m0 Nu Nv Nw Duv Duw Dvw (conj Ha A2) (conj Hb B2) Ep) as (k & k1 & k2). exists D, k. auto.
  - intros Eb. exact (near_dist _ _ _ _ _ _ _ M m theta M0 m0 Nu Nv Duv (conj Ha A2) Ep Eb).
Qed.
(** how far it can be away *)
Lemma trip_within : point_upto (4 * M) (ell_point e x).
Proof.
  destruct (ell_point_dbl T M e x HT HM He Nx Bx) as [Np Ep]. split; [exact Np|]. destruct He as ((_ & c1 & c2 & c3) & Du & Dv & Dw & (_ & A1 & A2) & (_ & B1 & B2)). pose proof M_pos as M0.
  replace (powerRZ 2 (-46) * M) with (128 * (U * M)) in Ep by (rewrite two_p; change (bpow radix2 (-46)) with (/ 70368744177664); unfold U; lra).
  destruct (comp_dir _ Du) as (u1 & u2 & u3). destruct (comp_dir _ Dv) as (v1 & v2 & v3).
  set (theta := 2 * PI * val x) in *. set (p := ell_point e x) in *.
  assert (Rabs (cos theta) <= 1 /\ Rabs (sin theta) <= 1) as [A B] by (split; apply Rabs_le; [destruct (COS_bound theta)|destruct (SIN_bound theta)]; lra).
  set (X := val (e_a e) * cos theta) in *. set (Y := val (e_b e) * sin theta) in *.
  assert (Rabs X <= M /\ Rabs Y <= M) as [BX BY].
  { unfold X, Y. rewrite !Rabs_mult, (Rabs_pos_eq (val (e_a e))), (Rabs_pos_eq (val (e_b e))) by lra. pose proof (Rabs_pos (cos theta)). pose proof (Rabs_pos (sin theta)). split; rewrite <- (Rmult_1_r M); apply Rmult_le_compat; lra. }
  assert (forall z s, Rabs z <= M -> Rabs s <= 1001 / 1000 -> Rabs (z * s) <= 1001 / 1000 * M) as PB. { intros z s Hz Hs. rewrite Rabs_mult, Rmult_comm. apply Rmult_le_compat; try apply Rabs_pos; assumption. }
  unfold dist in Ep. set (q := psub (val3 p) _) in Ep. destruct (comp_norm q) as (q1 & q2 & q3).
  assert (128 * (U * M) <= / 1000 * M) as UM by (unfold U; lra).
  assert (forall cc uu vv ww qq pp, qq = pp - (cc + (X * uu + (Y * vv + 0 * ww))) -> Rabs cc <= M -> Rabs uu <= 1001 / 1000 -> Rabs vv <= 1001 / 1000 -> Rabs qq <= norm q -> Rabs pp <= 4 * M) as G.
  { intros cc uu vv ww qq pp E C1 C2 C3 C4. pose proof (PB X uu BX C2) as P1. pose proof (PB Y vv BY C3) as P2. apply Rabs_def2_le in C1, P1, P2, C4. apply Rabs_le. lra. }
  unfold within3. split; [|split].
  - exact (G (val (vx (e_c e))) (val (vx (e_maj e))) (val (vx (e_min e))) (val (vx (e_n e))) (vx q) (val (vx p)) eq_refl c1 u1 v1 q1).
  - exact (G (val (vy (e_c e))) (val (vy (e_maj e))) (val (vy (e_min e))) (val (vy (e_n e))) (vy q) (val (vy p)) eq_refl c2 u2 v2 q2).
  - exact (G (val (vz (e_c e))) (val (vz (e_maj e))) (val (vz (e_min e))) (val (vz (e_n e))) (vz q) (val (vz p)) eq_refl c3 u3 v3 q3).
Qed.
End Trip.

Lemma m42 M m : powerRZ 2 (-42) * M = 2048 * (U * M) /\ powerRZ 2 (-42) * M / m = 2048 * (U * M / m) /\ powerRZ 2 (-47) * M = 64 * (U * M).
Proof. unfold Rdiv. rewrite !two_p. change (bpow radix2 (-42)) with (/ 4398046511104). change (bpow radix2 (-47)) with (/ 140737488355328). unfold U. repeat split; lra. Qed.
Lemma ellipse_trip : forall (T : Trig PrimFloat.float) (e : ell PrimFloat.float) x t M m chk, accurate T -> moderate M -> ellipse_upto M e -> frame (powerRZ 2 (-47)) (e_maj e) (e_min e) (e_n e) -> axes_from m M e ->
  number x -> 0 <= val x <= 1 -> within3 M (ell_point e x) -> tolerance t -> powerRZ 2 (-42) * M <= val t -> powerRZ 2 (-42) * M / m <= val t ->
  ell_contains e (ell_point e x) t chk = true.
Proof.
  intros T e x t M m chk HT HM He Hf Hm Nx Bx Wp Ht H1 H2. destruct (trip_near T M m e x HT HM He Hf Hm Nx Bx) as (Np & (D & k & D1 & D2 & K1 & K2) & _).
  destruct (ellipse_contains_dbl e (ell_point e x) t M m D k HM He (conj Np Wp) Hm Ht D1 K1) as (A & _ & B & _).
  destruct (m42 M m) as (Q1 & Q2 & Q3). rewrite Q3 in B. rewrite Q1 in H1. rewrite Q2 in H2. destruct (r_from e M m HM He Hm) as (R1 & R2 & R3). set (r := U * M / m) in *.
  assert (powerRZ 2 (-46) * M / m = 128 * r) as Q6. { unfold r, Rdiv. rewrite two_p. change (bpow radix2 (-46)) with (/ 70368744177664). unfold U. lra. } rewrite Q6 in A, B.
  pose proof U_pos as [U0 _]. pose proof (M_pos M HM) as M0. assert (0 < U * M) as UM by (apply Rmult_lt_0_compat; lra).
  apply Rabs_def2_le in K2. assert (95 / 100 <= k <= 105 / 100) as KB by lra.
  assert (Rabs (k * k - 1) + 128 * r * ((1 + k) * (1 + k)) < val t) as G.
  { apply Rlt_le_trans with (2048 * r); [|exact H2]. assert (Rabs (k * k - 1) <= 364 * r * (205 / 100)) as E.
    { replace (k * k - 1) with ((k - 1) * (k + 1)) by ring. rewrite Rabs_mult. apply Rmult_le_compat; try apply Rabs_pos; apply Rabs_le; lra. }
    assert (128 * r * ((1 + k) * (1 + k)) <= 128 * r * (205 / 100 * (205 / 100))) as E2. { apply Rmult_le_compat_l; [lra|]. apply Rmult_le_compat; lra. } lra. }
  destruct chk; [apply B; [lra|exact G]|apply A; exact G].
Qed.
Lemma disk_trip : forall (T : Trig PrimFloat.float) (e : ell PrimFloat.float) x t M m chk, accurate T -> moderate M -> ellipse_upto M e -> frame (powerRZ 2 (-47)) (e_maj e) (e_min e) (e_n e) -> axes_from m M e ->
  number x -> 0 <= val x <= 1 -> within3 M (ell_point e x) -> tolerance t -> powerRZ 2 (-42) * M <= val t -> powerRZ 2 (-42) * M / m <= val t * val t ->
  disk_contains e (ell_point (disk_ellipse e) x) t chk = true.
Proof.
  intros T e x t M m chk HT HM He Hf Hm Nx Bx Wp Ht H1 H2. change (ell_point (disk_ellipse e) x) with (ell_point e x). destruct (trip_near T M m e x HT HM He Hf Hm Nx Bx) as (Np & (D & k & D1 & D2 & K1 & K2) & _).
  destruct (disk_contains_dbl e (ell_point e x) t M m D k HM He (conj Np Wp) Hm Ht D1 K1) as (A & _ & B & _).
  destruct (m42 M m) as (Q1 & Q2 & Q3). rewrite Q3 in B. rewrite Q1 in H1. rewrite Q2 in H2. destruct (r_from e M m HM He Hm) as (R1 & R2 & R3). set (r := U * M / m) in *.
  rewrite R2, p50 in A. assert (64 * (U * M) / m = 64 * r) as E64 by (unfold r, Rdiv; ring). rewrite E64, p50 in B.
  pose proof U_pos as [U0 _]. pose proof (M_pos M HM) as M0. assert (0 < U * M) as UM by (apply Rmult_lt_0_compat; lra).
  apply Rabs_def2_le in K2.
  assert (k + 64 * r <= (1 - 8 * U) * widened 1 (val t)) as G.
  { assert (1 + 440 * r <= widened 1 (val t)) as W.
    { apply Rsqr_incr_0_var; [|apply sqrt_pos]. unfold Rsqr, widened. rewrite sqrt_sqrt by (pose proof (Rle_0_sqr (val t)) as S; unfold Rsqr in S; lra).
      assert (r * r <= r * / 8000) by (apply Rmult_le_compat_l; lra). lra. }
    apply Rle_trans with ((1 - 8 * U) * (1 + 440 * r)); [|apply Rmult_le_compat_l; [unfold U; lra|exact W]]. unfold U in *. lra. }
  destruct chk; [apply B; [lra|exact G]|apply A; exact G].
Qed.
Lemma circle_trip : forall (T : Trig PrimFloat.float) (e : ell PrimFloat.float) x t M, accurate T -> moderate M -> ellipse_upto M e -> frame (powerRZ 2 (-47)) (e_maj e) (e_min e) (e_n e) ->
  powerRZ 2 (-40) * M <= val (e_a e) -> val (e_b e) = val (e_a e) ->
  number x -> 0 <= val x <= 1 -> within3 M (ell_point e x) -> tolerance t -> powerRZ 2 (-42) * M <= val t -> circle_contains e (ell_point e x) t = true.
Proof.
  intros T e x t M HT HM He Hf Ha Hb Nx Bx Wp Ht H1. assert (axes_from (val (e_a e)) M e) as Hm by (split; [exact Ha|rewrite Hb; lra]).
  destruct (trip_near T M _ e x HT HM He Hf Hm Nx Bx) as (Np & (D & k & D1 & D2 & _) & G). specialize (G Hb).
  destruct (circle_contains_dbl e (ell_point e x) t M D HM He (conj Np Wp) Ht D1) as (B & _).
  destruct (m42 M M) as (Q1 & _ & Q3). rewrite Q3 in B. rewrite Q1 in H1. pose proof U_pos as [U0 _]. pose proof (M_pos M HM) as M0. assert (0 < U * M) as UM by (apply Rmult_lt_0_compat; lra).
  apply B; lra.
Qed.
