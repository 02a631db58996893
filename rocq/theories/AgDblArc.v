(** Angles of arbitrary points close to an ellipse, and arcs. *)

From Coq Require Import ZArith Reals Floats Lra Lia Psatz Bool.
From Flocq Require Import Core.Core IEEE754.BinarySingleNaN IEEE754.PrimFloat Relative.
From Verif Require Import Base NumModel VecModel LinModel RoundModel GeoSpec LinSpec RoundSpec DblSpec GeoLemmas EllProofs
  DblLemmas DblProofs DblLen DblEq LinDblSpec LinDblBase LinDblFoot LinDblProofs LinDblSeg LinDblDist RndDblSpec RndDblProofs TrigDblSpec PtDblSpec PtDblProofs FrDblProofs DkDblSpec DkDblProofs DkDblTrip
  AgDblSpec AgDblReal AgDblProofs AgDblPoint.
Local Open Scope R_scope.

(** ** All angles, up to the snapping *)
Lemma small_sin x s : - (PI / 2) < x < PI / 2 -> Rabs (sin x) <= s -> s <= / 1000000 -> Rabs x <= 101 / 100 * s.
Proof.
  intros B H Hs. assert (0 < cos x) as C by (apply cos_gt_0; lra). pose proof (sin2_cos2 x) as SC. unfold Rsqr in SC.
  rewrite <- (atan_tan x B). replace (atan (tan x)) with (atan (tan x) - atan 0) by (rewrite atan_0; ring). eapply Rle_trans; [apply atan_lip|].
  rewrite Rminus_0_r. unfold tan, Rdiv. rewrite Rabs_mult, Rabs_inv, (Rabs_pos_eq (cos x)) by lra.
  apply (Rmult_le_reg_r (cos x)); [exact C|]. rewrite Rmult_assoc, Rinv_l, Rmult_1_r by lra. eapply Rle_trans; [exact H|]. pose proof (Rabs_pos (sin x)).
  assert (1 - / 1000 <= cos x) as K. { apply Rnot_lt_le. intros L. apply Rabs_def2_le in H. nra. } nra.
Qed.
Lemma cos_half x : cos x = sin (PI / 2 - x).
Proof. rewrite sin_shift. reflexivity. Qed.
Lemma any_psi : forall (T : Trig PrimFloat.float) (e : ell PrimFloat.float) p phi m M, accurate T -> accurate_atan T -> moderate M -> round_ellipse m M e -> point_upto M p ->
  dist (val3 p) (true_point e phi) <= powerRZ 2 (-26) * m ->
  number (ell_angle e p) /\ exists psi, same_angle psi phi /\ Rabs psi <= 7 /\ Rabs (val (ell_angle e p) - psi) <= powerRZ 2 (-22).
Proof.
  intros T e p phi m M HT HA HM He Hp Hd. destruct (in_period phi) as (psi & Hpsi & HS). rewrite (true_same e phi psi HS) in Hd.
  assert (forall q, same_angle q psi -> same_angle q phi) as Tr by (intros q [q1 q2]; destruct HS as [s1 s2]; split; congruence).
  assert (powerRZ 2 (-22) = / 4194304 /\ powerRZ 2 (-26) = / 67108864) as [E22 E26] by (rewrite !two_p; split; reflexivity).
  pose proof pi_le as BP. pose proof U_pos as [U0 U1]. destruct (right_angles T HT) as ((N1 & E1) & (N3 & E3) & (N2 & E2)). apply Rabs_def2_le in E1, E2, E3.
  pose proof (sin2_cos2 psi) as SC. unfold Rsqr in SC. rewrite E22.
  destruct (angle_cases M m _ psi e p HM He Hp Hd Hpsi ltac:(lra) T HT HA) as [[C E]|[(C1 & C & E)|(C1 & C2 & N & E)]].
  - destruct (Rlt_dec (sin psi) 0) as [L|L].
    + apply (proj1 (sin_sign psi Hpsi)) in L. rewrite E. split; [exact N3|]. exists psi. split; [exact HS|]. split; [apply Rabs_le; lra|].
      assert (Rabs (3 * PI / 2 - psi) <= 101 / 100 * (131 / 1000000000)) as X.
      { apply small_sin; [split|replace (3 * PI / 2 - psi) with (PI / 2 - psi + PI) by field; rewrite neg_sin, <- cos_half, Rabs_Ropp; exact C|lra]; [|lra].
        lra. }
      apply Rabs_def2_le in X. cbn [nmul ndiv F_num]. apply Rabs_le. unfold U in *. lra.
    + rewrite E. split; [exact N1|]. exists psi. split; [exact HS|]. split; [apply Rabs_le; lra|].
      assert (~ PI < psi) as L2 by (intros Q; apply L, (proj2 (sin_sign psi Hpsi)); exact Q).
      assert (psi <> 0) as n0. { intros ->. rewrite cos_0, Rabs_R1 in C. lra. }
      assert (psi <> PI) as nP. { intros ->. rewrite cos_PI in C. apply Rabs_def2_le in C. lra. }
      assert (Rabs (PI / 2 - psi) <= 101 / 100 * (131 / 1000000000)) as X. { apply small_sin; [lra|rewrite <- cos_half; exact C|lra]. }
      apply Rabs_def2_le in X. cbn [nmul ndiv F_num]. apply Rabs_le. unfold U in *. lra.
  - assert (cos psi <> 0) as c0 by (intros Z; rewrite Z, Rabs_R0 in C1; lra).
    destruct (quadrant psi Hpsi c0) as [[Q Qc]|[[Q Qc]|[Q Qc]]].
    + destruct (Rlt_dec (cos psi) 0); [exfalso; lra|]. rewrite E. destruct lit_0 as [N0 V0]. split; [exact N0|]. rewrite V0. exists psi. split; [exact HS|]. split; [apply Rabs_le; lra|].
      pose proof (small_sin psi _ ltac:(lra) C ltac:(lra)) as X. apply Rabs_def2_le in X. apply Rabs_le. lra.
    + destruct (Rlt_dec (cos psi) 0); [|exfalso; lra]. rewrite E. split; [exact N2|]. exists psi. split; [exact HS|]. split; [apply Rabs_le; lra|].
      assert (Rabs (psi - PI) <= 101 / 100 * (131 / 1000000000)) as X. { apply small_sin; [lra| |lra]. replace (psi - PI) with (- (PI - psi)) by ring. rewrite sin_neg, Rabs_Ropp, sin_PI_x. exact C. }
      apply Rabs_def2_le in X. apply Rabs_le. unfold U in *. lra.
    + destruct (Rlt_dec (cos psi) 0); [exfalso; lra|]. rewrite E. destruct lit_0 as [N0 V0]. split; [exact N0|]. rewrite V0. exists (psi - 2 * PI).
      assert (same_angle (psi - 2 * PI) psi) as S2.
      { pose proof (cos_period (psi - 2 * PI) 1) as P1. pose proof (sin_period (psi - 2 * PI) 1) as P2. cbn [INR] in P1, P2. replace (psi - 2 * PI + 2 * 1 * PI) with psi in P1, P2 by ring. split; symmetry; assumption. }
      split; [apply Tr, S2|]. split; [apply Rabs_le; lra|]. destruct S2 as [_ S2]. pose proof (small_sin (psi - 2 * PI) (131 / 1000000000) ltac:(lra)) as X. rewrite S2 in X. specialize (X C ltac:(lra)). apply Rabs_def2_le in X. apply Rabs_le. lra.
  - split; [exact N|]. exists psi. split; [exact HS|]. split; [apply Rabs_le; lra|]. eapply Rle_trans; [exact E|].
    destruct (m_facts M m _ psi e p HM He Hd) as (M0 & m0 & mM & Ur & rU & d0).
    replace (powerRZ 2 (-45) * M / m) with (256 * (U * M / m)) by (rewrite two_p; change (bpow radix2 (-45)) with (/ 35184372088832); unfold U; field; lra).
    replace (powerRZ 2 (-26) * m / m) with (powerRZ 2 (-26)) by (field; lra). rewrite E26. unfold U in *. lra.
Qed.

Lemma any_dbl : forall (T : Trig PrimFloat.float) (e : ell PrimFloat.float) p phi m M, accurate T -> accurate_atan T -> moderate M -> round_ellipse m M e -> point_upto M p ->
  dist (val3 p) (true_point e phi) <= powerRZ 2 (-26) * m ->
  number (ell_angle e p) /\ exists psi, same_angle psi phi /\ Rabs (val (ell_angle e p) - psi) <= powerRZ 2 (-22).
Proof. intros T e p phi m M HT HA HM He Hp Hd. destruct (any_psi T e p phi m M HT HA HM He Hp Hd) as (N & psi & S & _ & E). split; [exact N|]. exists psi. split; assumption. Qed.
(** getPointFromAngle after getAngle *)
Lemma trig_lip x y : Rabs (cos x - cos y) <= Rabs (x - y) /\ Rabs (sin x - sin y) <= Rabs (x - y).
Proof.
  assert (forall f g : R -> R, (forall z, derivable_pt_lim f z (g z)) -> (forall z, -1 <= g z <= 1) -> forall x y, Rabs (f x - f y) <= Rabs (x - y)) as L.
  { intros f g D B. assert (forall a b, a < b -> Rabs (f b - f a) <= b - a) as L.
    { intros a b H. destruct (MVT_cor2 f g a b H) as (c & E & _); [intros c _; apply D|]. rewrite E. specialize (B c). apply Rabs_le. nra. }
    intros a b. destruct (Rtotal_order a b) as [H|[->|H]].
    - rewrite (Rabs_minus_sym (f a)), (Rabs_left1 (a - b)) by lra. pose proof (L a b H). lra.
    - rewrite !Rminus_diag_eq, Rabs_R0 by reflexivity. lra.
    - rewrite (Rabs_pos_eq (a - b)) by lra. apply L. exact H. }
  split; [apply (L cos (fun z => - sin z)); [apply derivable_pt_lim_cos|intros z; pose proof (SIN_bound z); lra]|apply (L sin cos); [apply derivable_pt_lim_sin|exact COS_bound]].
Qed.
Lemma dist_via (a b c : pt) : dist a c <= dist a b + dist b c.
Proof. unfold dist. replace (psub a c) with (padd (psub a b) (psub b c)); [apply norm_tri|]. destruct a as [a1 a2 a3], b as [b1 b2 b3], c as [c1 c2 c3]. pts. f_equal; ring. Qed.
Lemma true_lip M e x y : 0 < M -> ellipse_upto M e -> dist (true_point e x) (true_point e y) <= 2002 / 1000 * M * Rabs (x - y).
Proof.
  intros M0 (_ & Du & Dv & _ & (_ & A1 & A2) & (_ & B1 & B2)). destruct (trig_lip x y) as [C S]. destruct (dir_norm _ Du) as (_ & Nu & _). destruct (dir_norm _ Dv) as (_ & Nv & _).
  unfold true_point, dist, frame_point. set (a := val (e_a e)) in *. set (b := val (e_b e)) in *. set (u := val3 (e_maj e)) in *. set (v := val3 (e_min e)) in *. set (w := val3 (e_n e)) in *. set (c := val3 (e_c e)) in *.
  replace (psub (padd c (padd (pscale (a * cos x) u) (padd (pscale (b * sin x) v) (pscale 0 w)))) (padd c (padd (pscale (a * cos y) u) (padd (pscale (b * sin y) v) (pscale 0 w)))))
    with (padd (pscale (a * (cos x - cos y)) u) (pscale (b * (sin x - sin y)) v)) by (generalize (cos x) (cos y) (sin x) (sin y) a b; clear; intros; pts; f_equal; ring).
  eapply Rle_trans; [apply norm_tri|]. rewrite !norm_mul, !Rabs_mult, (Rabs_pos_eq a), (Rabs_pos_eq b) by lra.
  pose proof (Rabs_pos (cos x - cos y)). pose proof (Rabs_pos (sin x - sin y)). pose proof (norm_nonneg u). pose proof (norm_nonneg v). pose proof (Rabs_pos (x - y)).
  assert (a * Rabs (cos x - cos y) * norm u <= M * Rabs (x - y) * (1001 / 1000)) by (repeat apply Rmult_le_compat; try apply Rmult_le_pos; lra).
  assert (b * Rabs (sin x - sin y) * norm v <= M * Rabs (x - y) * (1001 / 1000)) by (repeat apply Rmult_le_compat; try apply Rmult_le_pos; lra).
  lra.
Qed.
Lemma back_from (T : Trig PrimFloat.float) e (t : PrimFloat.float) psi g M : accurate T -> moderate M -> ellipse_upto M e -> number t -> Rabs (val t) <= 100 -> Rabs (val t - psi) <= g ->
  dist (val3 (ell_angle_point e t)) (true_point e psi) <= 2002 / 1000 * M * g + powerRZ 2 (-48) * M.
Proof.
  intros HT HM He N B E. pose proof (sized_pos M (mod_sized M HM)) as M0. pose proof U_pos as [U0 _].
  destruct (angle_point_dbl T M e t (val t) 0 HT (mod_sized M HM) He N (in_2_20 _ B) ltac:(lra)) as [_ D]; [rewrite Rminus_diag_eq, Rabs_R0 by reflexivity; lra|].
  change (dist (val3 (ell_angle_point e t)) (true_point e (val t)) <= 1733 / 1000 * ((2002 / 1000 * (0 + 32 / 10) + 77 / 10) * (U * M))) in D.
  assert (powerRZ 2 (-48) * M = 32 * (U * M)) as Q. { rewrite two_p. change (bpow radix2 (-48)) with (/ 281474976710656). unfold U. lra. } rewrite Q.
  assert (0 < U * M) as UM by (apply Rmult_lt_0_compat; lra).
  pose proof (true_lip M e (val t) psi M0 He) as L. assert (2002 / 1000 * M * Rabs (val t - psi) <= 2002 / 1000 * M * g) as L2 by (apply Rmult_le_compat_l; [lra|exact E]).
  eapply Rle_trans; [apply (dist_via _ (true_point e (val t)))|]. lra.
Qed.
Lemma back_dbl : forall (T : Trig PrimFloat.float) (e : ell PrimFloat.float) p phi d m M, accurate T -> accurate_atan T -> moderate M -> round_ellipse m M e -> point_upto M p ->
  dist (val3 p) (true_point e phi) <= d -> d <= powerRZ 2 (-26) * m ->
  dist (val3 (ell_angle_point e (ell_angle e p))) (true_point e phi) <= powerRZ 2 (-20) * M /\
  (off (powerRZ 2 (-22)) phi -> dist (val3 (ell_angle_point e (ell_angle e p))) (true_point e phi) <= (7 * d + powerRZ 2 (-43) * M) * (M / m)).
Proof.
  intros T e p phi d m M HT HA HM He Hp Hd Hdm. pose proof (sized_pos M (mod_sized M HM)) as M0. pose proof He as (Hu & _). destruct (m_facts M m d phi e p HM He Hd) as (_ & m0 & mM & Ur & rU & d0). pose proof U_pos as [U0 _].
  assert (powerRZ 2 (-22) = / 4194304 /\ powerRZ 2 (-20) = / 1048576) as [E22 E20] by (rewrite !two_p; split; reflexivity).
  assert (powerRZ 2 (-48) * M = 32 * (U * M)) as Q. { rewrite two_p. change (bpow radix2 (-48)) with (/ 281474976710656). unfold U. lra. }
  destruct (any_psi T e p phi m M HT HA HM He Hp (Rle_trans _ _ _ Hd Hdm)) as (N & psi & S & Bp & E). assert (Rabs (val (ell_angle e p)) <= 100) as BN. { rewrite E22 in E. apply Rabs_def2_le in E. apply Rabs_def2_le in Bp. apply Rabs_le. lra. }
  split.
  - rewrite (true_same e phi psi S). eapply Rle_trans; [apply (back_from T e _ psi _ M HT HM Hu N BN E)|]. rewrite Q, E22, E20. unfold U. lra.
  - intros Hoff. destruct (in_period phi) as (th & Hth & S2). rewrite (true_same e phi th S2) in *.
    assert (off (powerRZ 2 (-22)) th) as Hoff2. { destruct S2 as [C' S']. unfold off. rewrite C', S'. exact Hoff. }
    destruct (angle_dbl T e p th d m M HT HA HM He Hp Hd Hdm Hth Hoff2) as [_ E2].
    eapply Rle_trans; [apply (back_from T e _ th _ M HT HM Hu N BN E2)|]. rewrite Q.
    replace (powerRZ 2 (-45) * M / m) with (256 * (U * M / m)) by (rewrite two_p; change (bpow radix2 (-45)) with (/ 35184372088832); unfold U; field; lra).
    replace (powerRZ 2 (-43)) with (1024 * U) by (rewrite two_p; change (bpow radix2 (-43)) with (/ 8796093022208); unfold U; lra).
    replace ((7 * d + 1024 * U * M) * (M / m)) with (M * (7 * (d / m) + 1024 * (U * M / m))) by (field; lra). set (r := U * M / m) in *.
    assert (0 <= d / m) by (apply Rmult_le_pos; [lra|left; apply Rinv_0_lt_compat; lra]). set (g := d / m) in *.
    replace (2002 / 1000 * M * (3 * g + 256 * r) + 32 * (U * M)) with (M * (2002 / 1000 * (3 * g + 256 * r) + 32 * U)) by ring. apply Rmult_le_compat_l; lra.
Qed.

(** ** Points close to the ellipse are contained *)
Lemma near_rim M m d phi (e : ell PrimFloat.float) p : moderate M -> round_ellipse m M e -> point_upto M p -> dist (val3 p) (true_point e phi) <= d ->
  exists D k, dist_to (in_plane e) (val3 p) D /\ D <= 102 / 100 * d + 131 * (U * M) /\ ell_factor e p k /\ Rabs (k - 1) <= 174 / 100 * (d / m) + 142 * (U * M / m).
Proof.
  intros HM He Hp Hd. destruct (m_facts M m d phi e p HM He Hd) as (M0 & m0 & mM & Ur & rU & d0).
  pose proof He as (Hu & Hf & H & Ha & Hb). pose proof Hu as (Hc & Du & Dv & Dw & Ra & Rb). destruct Hf as (_ & _ & _ & Duv & Duw & Dvw). rewrite p47U in Duv, Duw, Dvw.
  destruct (dir_norm _ Du) as (_ & _ & Nu). destruct (dir_norm _ Dv) as (_ & _ & Nv). destruct (dir_norm _ Dw) as (_ & _ & Nw). destruct Ra as (_ & _ & A2). destruct Rb as (_ & _ & B2).
  unfold in_plane, ell_factor. set (r := U * M / m) in *.
  set (a := val (e_a e)) in *. set (b := val (e_b e)) in *. set (u := val3 (e_maj e)) in *. set (v := val3 (e_min e)) in *. set (w := val3 (e_n e)) in *. set (c := val3 (e_c e)) in *. set (P := val3 p) in *.
  assert (true_point e phi = frame_point c u v w (a * cos phi) (b * sin phi) 0) as TP by reflexivity. rewrite TP in Hd. clear TP.
  assert (Rabs (cos phi) <= 1 /\ Rabs (sin phi) <= 1) as [C1 S1] by (split; apply Rabs_le; [destruct (COS_bound phi)|destruct (SIN_bound phi)]; lra).
  set (X := a * cos phi) in *. set (Y := b * sin phi) in *. set (dd := psub P (frame_point c u v w X Y 0)) in *. change (norm dd <= d) in Hd.
  assert (psub P c = padd (padd (pscale X u) (pscale Y v)) dd) as PI0. { unfold dd, frame_point. generalize X Y P c. clear. intros X Y P c. destruct P as [px py pz]. pts. f_equal; ring. }
  assert (forall n, Rabs (norm n - 1) <= 8 * U -> Rabs (dot n n - 1) <= 17 * U /\ Rabs (dot n dd) <= 1001 / 1000 * d) as DD.
  { intros n Hn. pose proof U_pos as [U0 U1]. pose proof Hn as Hn'. apply Rabs_def2_le in Hn. split.
    - rewrite <- norm_sq. set (k := norm n - 1). replace (norm n * norm n - 1) with (2 * k + k * k) by (unfold k; ring).
      assert (Rabs (k * k) <= 8 * U * (8 * U)) as K2 by (apply prod_le; exact Hn'). apply Rabs_def2_le in K2. apply Rabs_le. unfold k in *. unfold U in *. lra.
    - eapply Rle_trans; [apply cauchy_norm|]. pose proof (norm_nonneg dd). apply Rmult_le_compat; lra. }
  destruct (DD u Nu) as [Su Eu]. destruct (DD v Nv) as [Sv Ev]. destruct (DD w Nw) as [_ Ew].
  assert (Rabs X <= M /\ Rabs Y <= M) as [BX BY].
  { unfold X, Y. rewrite !Rabs_mult, (Rabs_pos_eq a), (Rabs_pos_eq b) by lra. pose proof (Rabs_pos (cos phi)). pose proof (Rabs_pos (sin phi)). split; rewrite <- (Rmult_1_r M); apply Rmult_le_compat; lra. }
  assert (forall x D k, Rabs x <= M -> Rabs D <= k * U -> Rabs (x * D) <= k * (U * M)) as SP.
  { intros x D k A B. rewrite Rabs_mult. replace (k * (U * M)) with (M * (k * U)) by ring. apply Rmult_le_compat; try apply Rabs_pos; assumption. }
  pose proof (SP _ _ _ BX Su) as P1. pose proof (SP _ _ _ BY Duv) as P2. pose proof (SP _ _ _ BY Sv) as P3. pose proof (SP _ _ _ BX Duv) as P4. pose proof (SP _ _ _ BX Duw) as P5. pose proof (SP _ _ _ BY Dvw) as P6.
  apply Rabs_def2_le in P1, P2, P3, P4, P5, P6, Eu, Ev, Ew.
  assert (Rabs (dot u (psub P c) - X) <= 1001 / 1000 * d + 81 * (U * M)) as Q1.
  { rewrite PI0. replace (dot u (padd (padd (pscale X u) (pscale Y v)) dd) - X) with (X * (dot u u - 1) + Y * dot u v + dot u dd) by (generalize X Y dd; clear; intros; pts; ring). apply Rabs_le. lra. }
  assert (Rabs (dot v (psub P c) - Y) <= 1001 / 1000 * d + 81 * (U * M)) as Q2.
  { rewrite PI0. replace (dot v (padd (padd (pscale X u) (pscale Y v)) dd) - Y) with (Y * (dot v v - 1) + X * dot u v + dot v dd) by (generalize X Y dd; clear; intros; pts; ring). apply Rabs_le. lra. }
  assert (Rabs (dot w (psub P c)) <= 1001 / 1000 * d + 128 * (U * M)) as Q3.
  { rewrite PI0. replace (dot w (padd (padd (pscale X u) (pscale Y v)) dd)) with (X * dot u w + Y * dot v w + dot w dd) by (generalize X Y dd; clear; intros; pts; ring). apply Rabs_le. lra. }
  pose proof U_pos as [U0 U1]. assert (0 < U * M) as UM by (apply Rmult_lt_0_compat; lra).
  assert (99 / 100 <= norm w) as W9. { apply Rabs_def2_le in Nw. lra. } assert (998 / 1000 <= norm w) as W9' by (apply Rabs_def2_le in Nw; lra).
  destruct (plane_has c w P ltac:(lra)) as (D & HD & ED). rewrite <- ED in Q3.
  assert (forall z Z s, m <= s -> Rabs (z - s * Z) <= 1001 / 1000 * d + 81 * (U * M) -> Rabs (z / s - Z) <= 1001 / 1000 * (d / m) + 81 * r) as Q.
  { intros z Z s Hs E. replace (z / s - Z) with ((z - s * Z) / s) by (field; lra). unfold Rdiv at 1. rewrite Rabs_mult, Rabs_inv, (Rabs_pos_eq s) by lra.
    replace (1001 / 1000 * (d / m) + 81 * r) with ((1001 / 1000 * d + 81 * (U * M)) * / m) by (unfold r; field; lra).
    apply Rmult_le_compat; [apply Rabs_pos|left; apply Rinv_0_lt_compat; lra|exact E|apply Rinv_le; lra]. }
  exists D, (norm (mkV3 (dot u (psub P c) / a) (dot v (psub P c) / b) 0)). split; [exact HD|]. split.
  { destruct (Rle_or_lt 0 D) as [D0|D0]; [nra|lra]. }
  split.
  { split; [apply norm_nonneg|]. rewrite norm_sq. generalize (dot u (psub P c)) (dot v (psub P c)). intros xx yy. unfold dot. cbn [vx vy vz]. ring. }
  pose proof (Q _ _ a Ha Q1) as R1. pose proof (Q _ _ b Hb Q2) as R2.
  assert (norm (mkV3 (cos phi) (sin phi) 0) = 1) as N1.
  { unfold norm, dot. cbn [vx vy vz]. replace (cos phi * cos phi + sin phi * sin phi + 0 * 0) with 1; [apply sqrt_1|]. pose proof (sin2_cos2 phi) as S. unfold Rsqr in S. lra. }
  rewrite <- N1 at 1. eapply Rle_trans; [apply norm_dif|].
  assert (0 <= d / m) as DM by (apply Rmult_le_pos; [lra|left; apply Rinv_0_lt_compat; lra]).
  eapply Rle_trans; [apply (norm_le _ (1001 / 1000 * (d / m) + 81 * r)); unfold psub; cbn [vx vy vz]|lra].
  - exact R1.
  - exact R2.
  - rewrite Rminus_0_r, Rabs_R0. lra.
Qed.
Lemma near_contains : forall (e : ell PrimFloat.float) p t d phi m M chk, moderate M -> round_ellipse m M e -> point_upto M p -> tolerance t -> dist (val3 p) (true_point e phi) <= d -> d <= powerRZ 2 (-26) * m ->
  2 * d + powerRZ 2 (-45) * M <= val t -> 4 * (d / m) + powerRZ 2 (-43) * M / m <= val t -> ell_contains e p t chk = true.
Proof.
  intros e p t d phi m M chk HM He Hp Ht Hd Hdm H1 H2. destruct (near_rim M m d phi e p HM He Hp Hd) as (D & k & D1 & D2 & K1 & K2).
  destruct (m_facts M m d phi e p HM He Hd) as (M0 & m0 & mM & Ur & rU & d0). pose proof He as (Hu & _). pose proof (axes_40 m M e HM He) as Hax.
  destruct (ellipse_contains_dbl e p t M m D k HM Hu Hp Hax Ht D1 K1) as (A & _ & B & _). destruct (m42 M m) as (_ & _ & Q3). rewrite Q3 in B.
  set (r := U * M / m) in *.
  assert (powerRZ 2 (-46) * M / m = 128 * r) as Q6. { unfold r, Rdiv. rewrite two_p. change (bpow radix2 (-46)) with (/ 70368744177664). unfold U. lra. } rewrite Q6 in A, B.
  assert (powerRZ 2 (-43) * M / m = 1024 * r) as Q7. { unfold r, Rdiv. rewrite two_p. change (bpow radix2 (-43)) with (/ 8796093022208). unfold U. lra. } rewrite Q7 in H2.
  assert (powerRZ 2 (-45) * M = 256 * (U * M)) as Q8. { rewrite two_p. change (bpow radix2 (-45)) with (/ 35184372088832). unfold U. lra. } rewrite Q8 in H1.
  rewrite two_p in Hdm. change (bpow radix2 (-26)) with (/ 67108864) in Hdm.
  assert (0 <= d / m <= / 67108864) as DM. { split; [apply Rmult_le_pos; [lra|left; apply Rinv_0_lt_compat; lra]|]. apply (Rmult_le_reg_r m); [exact m0|]. unfold Rdiv. rewrite Rmult_assoc, Rinv_l by lra. lra. }
  pose proof U_pos as [U0 _]. assert (0 < U * M) as UM by (apply Rmult_lt_0_compat; lra). assert (0 < r) as r0 by lra. assert (r <= / 8000000) as r8 by (unfold U in *; lra).
  set (g := d / m) in *. assert (99 / 100 <= k <= 101 / 100) as KB by (apply Rabs_def2_le in K2; lra).
  assert (Rabs (k * k - 1) + 128 * r * ((1 + k) * (1 + k)) < val t) as G.
  { eapply Rlt_le_trans; [|exact H2]. assert (Rabs (k * k - 1) <= (174 / 100 * g + 142 * r) * (201 / 100)) as E.
    { replace (k * k - 1) with ((k - 1) * (k + 1)) by ring. rewrite Rabs_mult. apply Rmult_le_compat; try apply Rabs_pos; [exact K2|apply Rabs_le; lra]. }
    assert (128 * r * ((1 + k) * (1 + k)) <= 128 * r * (201 / 100 * (201 / 100))) as E2. { apply Rmult_le_compat_l; [lra|]. apply Rmult_le_compat; lra. } lra. }
  destruct chk; [apply B; [lra|exact G]|apply A; exact G].
Qed.

(** ** getAngle and the arcs *)
Lemma conf_tol : tolerance (confusion : PrimFloat.float) /\ / 16777216 <= val (confusion : PrimFloat.float).
Proof.
  destruct conf_dbl as [N E]. pose proof U_pos as [U0 U1]. apply Rabs_def2_le in E. assert (9 / 100000000 <= val (confusion : PrimFloat.float) <= 1) as B by (unfold U in *; lra). split; [|lra].
  split; [exact N|]. split; rewrite two_p.
  - apply Rle_trans with (bpow radix2 (-30)); [apply bpow_le; lia|]. change (bpow radix2 (-30)) with (/ 1073741824). lra.
  - apply Rle_trans with (bpow radix2 0); [change (bpow radix2 0) with 1; lra|apply bpow_le; lia].
Qed.
Lemma get_angle_dbl : forall {T : Trig PrimFloat.float} (e : ell PrimFloat.float) p d phi m M chk, moderate M -> round_ellipse m M e -> point_upto M p -> dist (val3 p) (true_point e phi) <= d -> d <= powerRZ 2 (-26) * m ->
  (chk = true -> 2 * d + powerRZ 2 (-45) * M <= powerRZ 2 (-24) /\ 4 * (d / m) + powerRZ 2 (-43) * M / m <= powerRZ 2 (-24)) -> ell_get_angle e p chk = Ok (ell_angle e p).
Proof.
  intros T e p d phi m M chk HM He Hp Hd Hdm H. unfold ell_get_angle. destruct chk; [|reflexivity]. destruct (H eq_refl) as [H1 H2]. destruct conf_tol as [Ht Hc].
  assert (powerRZ 2 (-24) = / 16777216) as E24 by (rewrite two_p; reflexivity). rewrite E24 in H1, H2. unfold ell_contains_default.
  rewrite (near_contains e p confusion d phi m M true HM He Hp Ht Hd Hdm) by lra. reflexivity.
Qed.
Lemma compare_dbl (s eps th : PrimFloat.float) : number s -> 0 <= val s <= 7 -> number eps -> 0 <= val eps <= 1 -> number th ->
  (number (s - eps)%float /\ Rabs (val (s - eps)%float - (val s - val eps)) <= 8 * U) /\ (number (s + eps)%float /\ Rabs (val (s + eps)%float - (val s + val eps)) <= 8 * U).
Proof.
  intros Ns Bs Ne Be Nt. destruct (bounds_1000 8 ltac:(lra)) as [Z1 Z2]. destruct (sub_err s eps 8 Ns Ne Z1 Z2) as [N1 E1]; [apply Rabs_le; lra|]. destruct (add_err s eps 8 Ns Ne Z1 Z2) as [N2 E2]; [apply Rabs_le; lra|].
  rewrite Rmult_comm in E1, E2. repeat split; assumption.
Qed.
Lemma arc_dbl : forall (T : Trig PrimFloat.float) (c : arc PrimFloat.float) p eps d phi m M chk, accurate T -> accurate_atan T -> moderate M -> round_ellipse m M (a_ell c) -> point_upto M p ->
  (number (a_s c) /\ 0 <= val (a_s c) <= 7) -> (number (a_t c) /\ 0 <= val (a_t c) <= 7) -> tolerance eps -> val eps <= 1 ->
  dist (val3 p) (true_point (a_ell c) phi) <= d -> d <= powerRZ 2 (-26) * m -> 0 <= phi < 2 * PI -> off (powerRZ 2 (-22)) phi ->
  (chk = true -> (2 * d + powerRZ 2 (-45) * M <= powerRZ 2 (-24) /\ 4 * (d / m) + powerRZ 2 (-43) * M / m <= powerRZ 2 (-24)) /\
                 (2 * d + powerRZ 2 (-45) * M <= val eps /\ 4 * (d / m) + powerRZ 2 (-43) * M / m <= val eps)) ->
  let rho := 3 * (d / m) + powerRZ 2 (-44) * M / m in
  (between (val eps - rho) (val (a_s c)) (val (a_t c)) phi -> arc_contains c p eps chk = Ok true) /\
  (~ between (val eps + rho) (val (a_s c)) (val (a_t c)) phi -> arc_contains c p eps chk = Ok false).
Proof.
  intros T c p eps d phi m M chk HT HA HM He Hp (Ns & Bs) (Nt & Bt) Heps Be Hd Hdm Hphi Hoff Hchk. cbv zeta.
  destruct (angle_dbl T (a_ell c) p phi d m M HT HA HM He Hp Hd Hdm Hphi Hoff) as [Nth Eth].
  assert (ell_get_angle (a_ell c) p chk = Ok (ell_angle (a_ell c) p)) as G by (apply (get_angle_dbl (a_ell c) p d phi m M chk HM He Hp Hd Hdm); intros C; exact (proj1 (Hchk C))).
  assert ((chk && negb (ell_contains (a_ell c) p eps true))%bool = false) as C1.
  { destruct chk; [|reflexivity]. destruct (Hchk eq_refl) as [_ [H1 H2]]. rewrite (near_contains (a_ell c) p eps d phi m M true HM He Hp Heps Hd Hdm H1 H2). reflexivity. }
  unfold arc_contains. rewrite C1, G. cbn [obind]. set (th := ell_angle (a_ell c) p) in *.
  destruct (m_facts M m d phi (a_ell c) p HM He Hd) as (M0 & m0 & mM & Ur & rU & d0). set (r := U * M / m) in *.
  replace (powerRZ 2 (-45) * M / m) with (256 * r) in Eth by (unfold r; rewrite two_p; change (bpow radix2 (-45)) with (/ 35184372088832); unfold U; field; lra).
  replace (powerRZ 2 (-44) * M / m) with (512 * r) by (unfold r; rewrite two_p; change (bpow radix2 (-44)) with (/ 17592186044416); unfold U; field; lra).
  pose proof Heps as [Ne [Be0 _]]. assert (0 <= val eps) as E0. { eapply Rle_trans; [|exact Be0]. rewrite two_p. apply bpow_ge_0. }
  destruct (compare_dbl (a_s c) eps th Ns Bs Ne (conj E0 Be) Nth) as [[N1 E1] _]. destruct (compare_dbl (a_t c) eps th Nt Bt Ne (conj E0 Be) Nth) as [_ [N2 E2]].
  pose proof U_pos as [U0 _]. set (g := d / m) in *. apply Rabs_def2_le in Eth. apply Rabs_def2_le in E1. apply Rabs_def2_le in E2.
  unfold between. cbn [nltb nleb nsub nadd F_num].
  destruct (Rlt_dec (val (a_t c)) (val (a_s c))) as [L|L].
  - rewrite (proj2 (f_ltb _ _ Nt Ns) L). split.
    + intros [B|B].
      * rewrite (proj2 (f_leb _ _ N1 Nth)) by lra. reflexivity.
      * rewrite (proj2 (f_leb _ _ Nth N2)) by lra. rewrite orb_true_r. reflexivity.
    + intros B. apply Decidable.not_or in B. destruct B as [B1 B2]. apply Rnot_le_lt in B1, B2. rewrite (proj2 (f_leb_false _ _ N1 Nth)) by lra. rewrite (proj2 (f_leb_false _ _ Nth N2)) by lra. reflexivity.
  - rewrite (proj2 (f_ltb_false _ _ Nt Ns)) by lra. split.
    + intros [B1 B2]. rewrite (proj2 (f_leb _ _ N1 Nth)), (proj2 (f_leb _ _ Nth N2)) by lra. reflexivity.
    + intros B. destruct (Rle_or_lt (val (a_s c) - (val eps + (3 * g + 512 * r))) phi) as [B1|B1].
      * assert (val (a_t c) + (val eps + (3 * g + 512 * r)) < phi) as B2 by (apply Rnot_le_lt; intros Q; apply B; split; [exact B1|exact Q]). rewrite (proj2 (f_leb_false _ _ Nth N2)) by lra. rewrite andb_false_r. reflexivity.
      * rewrite (proj2 (f_leb_false _ _ N1 Nth)) by lra. reflexivity.
Qed.
(** points of the arc *)
Lemma arc_point_trip : forall (T : Trig PrimFloat.float) (c : arc PrimFloat.float) x eps m M chk, accurate T -> accurate_atan T -> moderate M -> round_ellipse m M (a_ell c) ->
  (number (a_s c) /\ 0 <= val (a_s c) <= 2 * PI) -> (number (a_t c) /\ 0 <= val (a_t c) <= 2 * PI) -> val (a_s c) <> val (a_t c) -> number x -> 0 <= val x <= 1 -> within3 M (arc_point c x) ->
  off (powerRZ 2 (-22)) (arc_angle (val (a_s c)) (val (a_t c)) (val x)) ->
  tolerance eps -> powerRZ 2 (-42) * M <= val eps -> powerRZ 2 (-42) * M / m <= val eps -> val eps <= 1 ->
  (chk = true -> powerRZ 2 (-42) * M <= powerRZ 2 (-24) /\ powerRZ 2 (-42) * M / m <= powerRZ 2 (-24)) ->
  arc_contains c (arc_point c x) eps chk = Ok true.
Proof.
  intros T c x eps m M chk HT HA HM He (Ns & Bs) (Nt & Bt) Hst Nx Bx Wp Hoff Heps H1 H2 Be Hchk. pose proof pi_le as BP. pose proof He as (Hu & _). assert (0 <= val (a_s c) <= 7) as Bs7 by lra. assert (0 <= val (a_t c) <= 7) as Bt7 by lra.
  destruct (arc_point_dbl T M c x HT HM Hu Ns Bs7 Nt Bt7 Nx Bx) as [Np Ep]. cbv zeta in Ep.
  set (theta := arc_angle (val (a_s c)) (val (a_t c)) (val x)) in *. change (dist (val3 (arc_point c x)) (true_point (a_ell c) theta) <= powerRZ 2 (-45) * M) in Ep.
  assert (powerRZ 2 (-45) * M = 256 * (U * M)) as Q8. { rewrite two_p. change (bpow radix2 (-45)) with (/ 35184372088832). unfold U. lra. }
  destruct (m_facts M m _ theta (a_ell c) (arc_point c x) HM He Ep) as (M0 & m0 & mM & Ur & rU & d0). destruct (m42 M m) as (Q1 & Q2 & _). rewrite Q1 in *. rewrite Q2 in *.
  set (r := U * M / m) in *. assert (powerRZ 2 (-24) = / 16777216) as E24 by (rewrite two_p; reflexivity). rewrite E24 in Hchk.
  assert (powerRZ 2 (-45) * M / m = 256 * r) as Q9 by (rewrite Q8; unfold r; field; lra).
  assert (powerRZ 2 (-43) * M / m = 1024 * r) as Q10. { unfold r, Rdiv. rewrite two_p. change (bpow radix2 (-43)) with (/ 8796093022208). unfold U. lra. }
  assert (powerRZ 2 (-44) * M / m = 512 * r) as Q11. { unfold r, Rdiv. rewrite two_p. change (bpow radix2 (-44)) with (/ 17592186044416). unfold U. lra. }
  assert (powerRZ 2 (-45) * M <= powerRZ 2 (-26) * m) as Hdm. { rewrite Q8. rewrite two_p. change (bpow radix2 (-26)) with (/ 67108864). pose proof He as (_ & _ & H & _). rewrite p18 in H. unfold U. lra. }
  pose proof U_pos as [U0 _]. assert (0 < U * M) as UM by (apply Rmult_lt_0_compat; lra).
  assert (exists psi, same_angle psi theta /\ 0 <= psi < 2 * PI /\ between 0 (val (a_s c)) (val (a_t c)) psi) as (psi & HS & Hpsi & HB).
  { assert (same_angle (theta - 2 * PI) theta) as S2.
    { pose proof (cos_period (theta - 2 * PI) 1) as P1. pose proof (sin_period (theta - 2 * PI) 1) as P2. cbn [INR] in P1, P2. replace (theta - 2 * PI + 2 * 1 * PI) with theta in P1, P2 by ring. split; symmetry; assumption. }
    assert (theta <> 2 * PI) as n2. { intros E. destruct Hoff as [_ O]. rewrite E, sin_2PI, Rabs_R0, two_p in O. pose proof (bpow_gt_0 radix2 (-22)). lra. }
    unfold between. destruct (Rlt_dec (val (a_t c)) (val (a_s c))) as [L|L].
    - assert (theta = val (a_s c) + (2 * PI - val (a_s c) + val (a_t c)) * val x) as Eth by (unfold theta, arc_angle; destruct Rlt_dec; [exfalso; lra|reflexivity]).
      assert (val (a_s c) <= theta <= 2 * PI + val (a_t c)) as BT. { rewrite Eth. set (k := 2 * PI - val (a_s c) + val (a_t c)). assert (0 <= k) by (unfold k; lra). assert (0 <= k * val x <= k) by (split; nra). unfold k in *. lra. }
      destruct (Rlt_or_le theta (2 * PI)) as [TL|TL].
      + exists theta. split; [split; reflexivity|]. split; [lra|]. left. lra.
      + exists (theta - 2 * PI). split; [exact S2|]. split; [lra|]. right. lra.
    - assert (theta = val (a_s c) + (val (a_t c) - val (a_s c)) * val x) as Eth by (unfold theta, arc_angle; destruct Rlt_dec; [reflexivity|exfalso; lra]).
      assert (val (a_s c) <= theta <= val (a_t c)) as BT. { rewrite Eth. set (k := val (a_t c) - val (a_s c)). assert (0 <= k) by (unfold k; lra). assert (0 <= k * val x <= k) by (split; nra). unfold k in *. lra. }
      exists theta. split; [split; reflexivity|]. split; lra. }
  assert (true_point (a_ell c) theta = true_point (a_ell c) psi) as TP by (apply true_same; exact HS). rewrite TP in Ep.
  assert (off (powerRZ 2 (-22)) psi) as Hoff'. { destruct HS as [C S]. unfold off. rewrite C, S. exact Hoff. }
  refine (proj1 (arc_dbl T c (arc_point c x) eps (powerRZ 2 (-45) * M) psi m M chk HT HA HM He (conj Np Wp) (conj Ns Bs7) (conj Nt Bt7) Heps Be Ep Hdm Hpsi Hoff' _) _).
  - intros C. destruct (Hchk C) as [C1 C2]. rewrite Q9, Q8, Q10, E24. repeat split; lra.
  - rewrite Q9, Q11. unfold between in *. destruct (Rlt_dec (val (a_t c)) (val (a_s c))) as [L|L]; [destruct HB as [HB|HB]; [left|right]; lra|lra].
Qed.
(** points of ellipses: getAngle and getParam recover the parameter *)
Lemma param_trip : forall (T : Trig PrimFloat.float) (e : ell PrimFloat.float) x m M chk, accurate T -> accurate_atan T -> moderate M -> round_ellipse m M e -> number x -> 0 <= val x <= 1 -> within3 M (ell_point e x) ->
  off (powerRZ 2 (-22)) (2 * PI * val x) -> (chk = true -> powerRZ 2 (-42) * M <= powerRZ 2 (-24) /\ powerRZ 2 (-42) * M / m <= powerRZ 2 (-24)) ->
  exists theta y, ell_get_angle e (ell_point e x) chk = Ok theta /\ number theta /\ Rabs (val theta - 2 * PI * val x) <= powerRZ 2 (-43) * M / m /\
  ell_get_param e (ell_point e x) chk = Ok y /\ number y /\ Rabs (val y - val x) <= powerRZ 2 (-44) * M / m.
Proof.
  intros T e x m M chk HT HA HM He Nx Bx Wp Hoff Hchk. pose proof pi_le as BP. pose proof He as (Hu & _).
  destruct (ell_point_dbl T M e x HT HM Hu Nx Bx) as [Np Ep]. set (phi := 2 * PI * val x) in *. change (dist (val3 (ell_point e x)) (true_point e phi) <= powerRZ 2 (-46) * M) in Ep.
  assert (powerRZ 2 (-46) * M = 128 * (U * M)) as Q8. { rewrite two_p. change (bpow radix2 (-46)) with (/ 70368744177664). unfold U. lra. }
  destruct (m_facts M m _ phi e (ell_point e x) HM He Ep) as (M0 & m0 & mM & Ur & rU & d0). destruct (m42 M m) as (Q1 & Q2 & _). rewrite Q2, Q1 in Hchk.
  set (r := U * M / m) in *. assert (powerRZ 2 (-24) = / 16777216) as E24 by (rewrite two_p; reflexivity). rewrite E24 in Hchk.
  assert (powerRZ 2 (-46) * M / m = 128 * r) as Q9 by (rewrite Q8; unfold r; field; lra).
  assert (powerRZ 2 (-45) * M = 256 * (U * M)) as Q12. { rewrite two_p. change (bpow radix2 (-45)) with (/ 35184372088832). unfold U. lra. }
  assert (powerRZ 2 (-45) * M / m = 256 * r) as Q13 by (rewrite Q12; unfold r; field; lra).
  assert (powerRZ 2 (-43) * M / m = 1024 * r) as Q10. { unfold r, Rdiv. rewrite two_p. change (bpow radix2 (-43)) with (/ 8796093022208). unfold U. lra. }
  assert (powerRZ 2 (-44) * M / m = 512 * r) as Q11. { unfold r, Rdiv. rewrite two_p. change (bpow radix2 (-44)) with (/ 17592186044416). unfold U. lra. }
  assert (powerRZ 2 (-46) * M <= powerRZ 2 (-26) * m) as Hdm. { rewrite Q8. rewrite two_p. change (bpow radix2 (-26)) with (/ 67108864). pose proof He as (_ & _ & H & _). rewrite p18 in H. unfold U. lra. }
  pose proof U_pos as [U0 _]. assert (0 < U * M) as UM by (apply Rmult_lt_0_compat; lra).
  assert (phi <> 2 * PI) as n2. { intros E. destruct Hoff as [_ O]. rewrite E, sin_2PI, Rabs_R0, two_p in O. pose proof (bpow_gt_0 radix2 (-22)). lra. }
  assert (0 <= phi < 2 * PI) as Hphi. { assert (0 <= phi <= 2 * PI) by (unfold phi; split; nra). lra. }
  destruct (angle_dbl T e (ell_point e x) phi _ m M HT HA HM He (conj Np Wp) Ep Hdm Hphi Hoff) as [Nth Eth]. rewrite Q9, Q13 in Eth.
  assert (ell_get_angle e (ell_point e x) chk = Ok (ell_angle e (ell_point e x))) as G.
  { apply (get_angle_dbl e _ (powerRZ 2 (-46) * M) phi m M chk HM He (conj Np Wp) Ep Hdm). intros C. destruct (Hchk C) as [C1 C2]. rewrite Q9, Q8, Q10, Q12, E24. split; lra. }
  set (th := ell_angle e (ell_point e x)) in *. destruct (two_pi T HT) as (N2 & E2 & _). cbn [nmul F_num] in N2, E2.
  exists th, (th / (nlit 2 1 * npi))%float. split; [exact G|]. split; [exact Nth|]. split; [rewrite Q10; eapply Rle_trans; [exact Eth|lra]|].
  unfold ell_get_param. rewrite G. cbn [obind nmul ndiv F_num]. split; [reflexivity|]. set (dn := (nlit 2 1 * npi)%float) in *.
  apply Rabs_def2_le in Eth. apply Rabs_def2_le in E2. assert (r <= / 8000000) as r8 by (unfold U in *; lra).
  assert (59 / 10 <= val dn) as D6 by (unfold U in *; lra).
  assert (Rabs (val th / val dn - val x) <= 128 * r) as EQ.
  { replace (val th / val dn - val x) with ((val th - val x * val dn) / val dn) by (field; lra). unfold Rdiv. rewrite Rabs_mult, Rabs_inv, (Rabs_pos_eq (val dn)) by lra.
    apply (Rmult_le_reg_r (val dn)); [lra|]. rewrite Rmult_assoc, Rinv_l, Rmult_1_r by lra. apply Rle_trans with (128 * r * (59 / 10)); [|apply Rmult_le_compat_l; lra].
    assert (Rabs (val x * val dn - phi) <= 11 * U) as ED. { replace (val x * val dn - phi) with (val x * (val dn - 2 * PI)) by (unfold phi; ring). apply Rabs_le. split; nra. }
    apply Rabs_def2_le in ED. apply Rabs_le. lra. }
  pose proof EQ as EQ'. apply Rabs_def2_le in EQ'. assert (Rabs (val th / val dn) <= 2) as B2 by (apply Rabs_le; lra). destruct (bounds_1000 2 ltac:(lra)) as [Z1 Z2].
  destruct (f_div th dn Nth N2 ltac:(lra)) as [Nd Vd]; [eapply Rle_trans; [exact B2|]; eapply Rle_trans; [exact Z2|apply bpow_le; lia]|].
  split; [exact Nd|]. pose proof (rnd_err _ 2 Z1 B2) as ER. rewrite <- Vd in ER. apply Rabs_def2_le in ER. rewrite Q11. apply Rabs_le. lra.
Qed.
