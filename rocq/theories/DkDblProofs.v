(** Disks, ellipses and circles contain points in double precision. *)

From Coq Require Import ZArith Reals Floats Lra Lia Psatz Bool.
From Flocq Require Import Core.Core IEEE754.BinarySingleNaN IEEE754.PrimFloat Relative.
From Verif Require Import Base NumModel VecModel LinModel RoundModel GeoSpec LinSpec RoundSpec DblSpec GeoLemmas EllProofs
  DblLemmas DblProofs DblLen DblEq LinDblSpec LinDblBase LinDblFoot LinDblProofs LinDblSeg LinDblDist RndDblSpec RndDblProofs PtDblSpec PtDblProofs FrDblProofs DkDblSpec.
Local Open Scope R_scope.

(** x x / (a a) *)
Section Term.
Variables (x a : PrimFloat.float) (B : R).
Hypotheses (Nx : number x) (Na : number a) (Bx : Rabs (val x) <= bpow radix2 405) (Ba : bpow radix2 (-440) <= val a <= bpow radix2 400)
  (Bq : Rabs (val x) <= bpow radix2 44 * val a).
Let X := val x / val a.
Lemma a_pos : 0 < val a.
Proof. pose proof (bpow_gt_0 radix2 (-440)). lra. Qed.
Lemma X_small : X * X <= bpow radix2 88.
Proof.
  pose proof a_pos as A. assert (Rabs X <= bpow radix2 44) as H.
  { unfold X. unfold Rdiv. rewrite Rabs_mult, Rabs_inv, (Rabs_pos_eq (val a)) by lra. apply (Rmult_le_reg_r (val a)); [lra|]. rewrite Rmult_assoc, Rinv_l, Rmult_1_r by lra. exact Bq. }
  rewrite <- (Rabs_pos_eq (X * X)) by apply Rle_0_sqr. change 88%Z with (44 + 44)%Z. rewrite bpow_plus. apply prod_le; assumption.
Qed.
Lemma term : number (x * x / (a * a))%float /\ 0 <= val (x * x / (a * a))%float /\
  Rabs (val (x * x / (a * a))%float - X * X) <= 4 * U * (X * X) + bpow radix2 (-190).
Proof.
  pose proof a_pos as A.
  destruct (square_mixed x Nx) as (N1 & P1 & E1); [eapply Rle_trans; [exact Bx|apply bpow_le; lia]|].
  destruct (square_mixed a Na) as (N2 & P2 & E2); [rewrite Rabs_pos_eq by lra; eapply Rle_trans; [apply Ba|apply bpow_le; lia]|].
  set (v1 := val (x * x)%float) in *. set (v2 := val (a * a)%float) in *.
  assert (bpow radix2 (-880) <= val a * val a) as A2. { change (-880)%Z with (-440 + -440)%Z. rewrite bpow_plus. pose proof (bpow_ge_0 radix2 (-440)). apply Rmult_le_compat; lra. }
  assert (tiny <= bpow radix2 (-194) * (val a * val a)) as T1. { unfold tiny. change (-1074)%Z with (-194 + -880)%Z. rewrite bpow_plus. apply Rmult_le_compat_l; [apply bpow_ge_0|exact A2]. }
  pose proof tiny_pos as T0. pose proof (bpow_gt_0 radix2 (-880)) as G8.
  assert (0 < bpow radix2 (-194) <= / 1000 * U) as T2. { split; [apply bpow_gt_0|]. apply Rle_trans with (bpow radix2 (-70)); [apply bpow_le; lia|]. change (bpow radix2 (-70)) with (/ 1180591620717411303424). unfold U. lra. }
  assert (val x * val x = X * X * (val a * val a)) as EX by (unfold X; field; lra).
  rewrite EX in E1. set (S := X * X) in *. assert (0 <= S) as S0 by apply Rle_0_sqr. pose proof X_small as SM. fold S in SM. set (A2v := val a * val a) in *.
  apply Rabs_def2_le in E1. apply Rabs_def2_le in E2.
  assert (0 < v2) as V2 by (unfold U in *; nra).
  (* the exact quotient *)
  assert (Rabs (v1 / v2 - S) <= 5 / 2 * U * S + 2 * bpow radix2 (-194)) as EQ.
  { set (g := bpow radix2 (-194)) in *. assert (v1 / v2 - S = (v1 - S * v2) / v2) as -> by (field; lra). unfold Rdiv. rewrite Rabs_mult, Rabs_inv, (Rabs_pos_eq v2) by lra.
    apply (Rmult_le_reg_r v2); [lra|]. rewrite Rmult_assoc, Rinv_l, Rmult_1_r by lra.
    assert ((1 - 2 * U) * A2v <= v2 <= (1 + 2 * U) * A2v) as V2b by (unfold U in *; nra).
    assert (tiny * S <= g * A2v * S) by (apply Rmult_le_compat_r; lra). assert (0 <= A2v * S) by (apply Rmult_le_pos; lra).
    assert (S * v2 <= S * (A2v + (U * A2v + tiny))) by (apply Rmult_le_compat_l; lra).
    assert (S * (A2v - (U * A2v + tiny)) <= S * v2) by (apply Rmult_le_compat_l; lra).
    assert (S * ((1 - 2 * U) * A2v) <= S * v2) by (apply Rmult_le_compat_l; lra).
    assert (0 <= g * A2v) by (apply Rmult_le_pos; lra).
    assert (g * A2v * S <= / 1000 * U * (A2v * S)) by (replace (g * A2v * S) with (g * (A2v * S)) by ring; apply Rmult_le_compat_r; lra).
    assert (g * ((1 - 2 * U) * A2v) <= g * v2) by (apply Rmult_le_compat_l; lra).
    apply Rabs_le. unfold U in *. split; nra. }
  assert (0 <= v1 / v2) as Q0 by (apply Rmult_le_pos; [lra|left; apply Rinv_0_lt_compat; lra]).
  assert (v1 / v2 <= bpow radix2 90) as Q1. { apply Rabs_def2_le in EQ. change 90%Z with (2 + 88)%Z. rewrite bpow_plus. change (bpow radix2 2) with 4. assert (1 <= bpow radix2 88) by (change 1 with (bpow radix2 0); apply bpow_le; lia). unfold U in *. lra. }
  destruct (f_div _ _ N1 N2) as [N3 V3]; [fold v2; lra|fold v1 v2; rewrite Rabs_pos_eq by lra; eapply Rle_trans; [exact Q1|apply bpow_le; lia]|].
  split; [exact N3|]. rewrite V3. fold v1 v2. split; [rewrite <- rnd_0; apply rnd_le; exact Q0|].
  pose proof (rnd_mixed (v1 / v2)) as E. rewrite (Rabs_pos_eq (v1 / v2)) in E by lra. apply Rabs_def2_le in E. apply Rabs_def2_le in EQ.
  assert (tiny <= bpow radix2 (-194)) as T3 by (unfold tiny; apply bpow_le; lia).
  assert (bpow radix2 (-190) = 16 * bpow radix2 (-194)) as -> by (change (-190)%Z with (4 + -194)%Z; rewrite bpow_plus; reflexivity).
  assert (U * (v1 / v2) <= U * (S + (5 / 2 * U * S + 2 * bpow radix2 (-194)))) by (apply Rmult_le_compat_l; [unfold U; lra|lra]).
  apply Rabs_le. unfold U in *. lra.
Qed.
End Term.

(** the sum of the two terms *)
Section Sum.
Variables (e : ell PrimFloat.float) (p : V3 PrimFloat.float) (M m k : R).
Hypotheses (HM : moderate M) (He : ellipse_upto M e) (Hp : point_upto M p) (Hm : axes_from m M e) (Hk : ell_factor e p k).
Definition ell_sum : PrimFloat.float :=
  let d := vec_to (e_c e) p in let x := sprod d (e_maj e) in let y := sprod d (e_min e) in
  (x * x / (e_a e * e_a e) + y * y / (e_b e * e_b e))%float.
Let r := U * M / m.
Lemma m_pos : bpow radix2 (-440) <= m /\ 0 < m /\ m <= M /\ M <= bpow radix2 40 * m.
Proof.
  destruct Hm as (H1 & H2 & H3), He as (_ & _ & _ & _ & (_ & A1 & A2) & _), HM as [M1 M2]. rewrite two_p in *.
  assert (bpow radix2 (-440) <= m). { eapply Rle_trans; [|exact H1]. change (-440)%Z with (-40 + -400)%Z. rewrite bpow_plus. apply Rmult_le_compat_l; [apply bpow_ge_0|exact M1]. }
  pose proof (bpow_gt_0 radix2 (-440)). repeat split; try lra.
  apply (Rmult_le_reg_l (bpow radix2 (-40))); [apply bpow_gt_0|]. rewrite <- Rmult_assoc, <- bpow_plus. change (bpow radix2 (-40 + 40)) with 1. lra.
Qed.
Lemma coord (d : V3 PrimFloat.float) (a : PrimFloat.float) : direction d -> radius_upto M a -> m <= val a ->
  let x := sprod (vec_to (e_c e) p) d in
  number x /\ number a /\ Rabs (val x) <= bpow radix2 405 /\ bpow radix2 (-440) <= val a <= bpow radix2 400 /\ Rabs (val x) <= bpow radix2 44 * val a /\
  Rabs (val x / val a - dot (val3 d) (psub (val3 p) (val3 (e_c e))) / val a) <= 25 * r.
Proof.
  intros Hd (Na & A1 & A2) Ha x. destruct m_pos as (m1 & m2 & m3 & m4). destruct He as ((Nc & Wc) & _). destruct Hp as (Np & Wp). pose proof (mod_sized M HM) as SM.
  destruct (dir_norm d Hd) as (D0 & D1 & _).
  destruct (along_err_r (e_c e) d p M Nc (proj1 Hd) Np SM Wc Wp D1) as [Nx Ex]. fold x in Nx, Ex.
  set (x0 := dot (val3 d) (psub (val3 p) (val3 (e_c e)))) in *.
  assert (Rabs x0 <= 4 * M) as X0.
  { unfold x0. apply Rle_trans with (norm (val3 d) * norm (psub (val3 p) (val3 (e_c e)))); [apply cauchy_norm|].
    assert (norm (psub (val3 p) (val3 (e_c e))) <= 1733 / 1000 * (2 * M)) as L.
    { destruct Wc as (c1 & c2 & c3), Wp as (p1 & p2 & p3). apply Rabs_def2_le in c1, c2, c3, p1, p2, p3. apply norm_le; unfold psub, val3; cbn [vx vy vz]; apply Rabs_le; lra. }
    pose proof (norm_nonneg (psub (val3 p) (val3 (e_c e)))). apply Rle_trans with (1001 / 1000 * (1733 / 1000 * (2 * M))); [apply Rmult_le_compat; lra|lra]. }
  assert (Rabs (val x) <= 5 * M) as X1. { apply Rabs_def2_le in X0. apply Rabs_def2_le in Ex. apply Rabs_le. unfold U in *. lra. }
  destruct HM as [M1 M2]. rewrite !two_p in *.
  split; [exact Nx|]. split; [exact Na|]. split.
  { eapply Rle_trans; [exact X1|]. change 405%Z with (5 + 400)%Z. rewrite bpow_plus. change (bpow radix2 5) with 32. pose proof (bpow_gt_0 radix2 400). lra. }
  split; [split; lra|]. split.
  { eapply Rle_trans; [exact X1|]. change 44%Z with (4 + 40)%Z. rewrite bpow_plus. change (bpow radix2 4) with 16. assert (bpow radix2 40 * m <= bpow radix2 40 * val a) by (apply Rmult_le_compat_l; [apply bpow_ge_0|lra]). pose proof (bpow_gt_0 radix2 40). nra. }
  replace (val x / val a - x0 / val a) with ((val x - x0) / val a) by (field; lra). unfold Rdiv. rewrite Rabs_mult, Rabs_inv, (Rabs_pos_eq (val a)) by lra.
  unfold r, Rdiv. replace (25 * (U * M * / m)) with (25 * (U * M) * / m) by ring. apply Rmult_le_compat; [apply Rabs_pos|left; apply Rinv_0_lt_compat; lra|exact Ex|apply Rinv_le; lra].
Qed.
(** the sum is the square of a factor that differs from k by 44 r, up to rounding errors *)
Lemma sum_dbl : exists j, 0 <= j <= bpow radix2 46 /\ Rabs (j - k) <= 44 * r /\ number ell_sum /\ 0 <= val ell_sum <= bpow radix2 100 /\ Rabs (val ell_sum - j * j) <= 6 * U * (j * j) + bpow radix2 (-180).
Proof.
  destruct Hm as (_ & Ha & Hb). destruct He as (_ & Du & Dv & _ & Ra & Rb).
  destruct (coord (e_maj e) (e_a e) Du Ra Ha) as (N1 & N2 & B1 & B2 & B3 & E1). destruct (coord (e_min e) (e_b e) Dv Rb Hb) as (N3 & N4 & B4 & B5 & B6 & E2).
  set (x := sprod (vec_to (e_c e) p) (e_maj e)) in *. set (y := sprod (vec_to (e_c e) p) (e_min e)) in *.
  pose proof (X_small x (e_a e) B2 B3) as SX. pose proof (X_small y (e_b e) B5 B6) as SY.
  destruct (term x (e_a e) N1 N2 B1 B2 B3) as (M1 & P1 & F1). destruct (term y (e_b e) N3 N4 B4 B5 B6) as (M2 & P2 & F2).
  set (X := val x / val (e_a e)) in *. set (Y := val y / val (e_b e)) in *.
  destruct Hk as [K0 K]. set (X0 := dot (val3 (e_maj e)) (psub (val3 p) (val3 (e_c e))) / val (e_a e)) in *. set (Y0 := dot (val3 (e_min e)) (psub (val3 p) (val3 (e_c e))) / val (e_b e)) in *.
  exists (norm (mkV3 X Y 0)). pose proof (norm_nonneg (mkV3 X Y 0)) as J0. pose proof (norm_sq (mkV3 X Y 0)) as J2. unfold dot in J2. cbn [vx vy vz] in J2. set (j := norm (mkV3 X Y 0)) in *.
  assert (j * j = X * X + Y * Y) as JJ by lra. pose proof (Rle_0_sqr X) as X2. pose proof (Rle_0_sqr Y) as Y2. unfold Rsqr in X2, Y2.
  split.
  { split; [exact J0|]. apply Rsqr_incr_0_var; [|apply bpow_ge_0]. unfold Rsqr. rewrite JJ, <- bpow_plus. change (46 + 46)%Z with (4 + 88)%Z. rewrite bpow_plus. change (bpow radix2 4) with 16. pose proof (bpow_gt_0 radix2 88). lra. }
  split.
  { assert (k = norm (mkV3 X0 Y0 0)) as ->. { unfold norm, dot. cbn [vx vy vz]. symmetry. apply Rsqr_inj; [apply sqrt_pos|exact K0|]. unfold Rsqr. rewrite sqrt_sqrt by (pose proof (Rle_0_sqr X0); pose proof (Rle_0_sqr Y0); unfold Rsqr in *; lra). rewrite K. ring. }
    eapply Rle_trans; [apply norm_dif|]. assert (0 <= r) as R0. { pose proof (Rabs_pos (X - X0)). lra. }
    eapply Rle_trans; [apply (norm_le _ (25 * r)); unfold psub; cbn [vx vy vz]; [exact E1|exact E2|rewrite Rminus_0_r, Rabs_R0; lra]|lra]. }
  set (t1 := (x * x / (e_a e * e_a e))%float) in *. set (t2 := (y * y / (e_b e * e_b e))%float) in *.
  apply Rabs_def2_le in F1, F2. assert (bpow radix2 (-190) <= 1) as G1 by (change 1 with (bpow radix2 0); apply bpow_le; lia). pose proof (bpow_gt_0 radix2 (-190)) as G0.
  assert (val t1 + val t2 <= 4 * bpow radix2 90) as BS. { change 90%Z with (2 + 88)%Z. rewrite bpow_plus. change (bpow radix2 2) with 4. assert (1 <= bpow radix2 88) by (change 1 with (bpow radix2 0); apply bpow_le; lia). unfold U in *. lra. }
  assert (4 * bpow radix2 90 = bpow radix2 92) as E92 by (change 92%Z with (2 + 90)%Z; rewrite bpow_plus; reflexivity).
  destruct (f_add t1 t2 M1 M2) as [NS VS]; [rewrite Rabs_pos_eq by lra; rewrite E92 in BS; eapply Rle_trans; [exact BS|apply bpow_le; lia]|].
  change ell_sum with (t1 + t2)%float. split; [exact NS|]. rewrite VS.
  destruct (rel_sum (val t1) (val t2) (val_format _) (val_format _) P1 P2) as [L1 L2].
  assert (bpow radix2 (-180) = 1024 * bpow radix2 (-190)) as -> by (change (-180)%Z with (10 + -190)%Z; rewrite bpow_plus; reflexivity).
  unfold lo, hi, U in *. set (g := bpow radix2 (-190)) in *. rewrite JJ.
  assert (0 <= val t1 + val t2 <= 4 * bpow radix2 90) as W by lra. set (ss := val t1 + val t2) in *. set (SS := X * X + Y * Y) in *.
  assert (- (4 * / 9007199254740992 * SS + 2 * g) <= ss - SS <= 4 * / 9007199254740992 * SS + 2 * g) as FS by (unfold ss, SS; lra). assert (0 <= SS) as S0 by (unfold SS; lra).
  split; [split; [lra|]|].
  - assert (8 * bpow radix2 90 <= bpow radix2 100) by (change 8 with (bpow radix2 3); rewrite <- bpow_plus; apply bpow_le; lia). lra.
  - apply Rabs_le. split; lra.
Qed.
End Sum.

Section Tests.
Variables (e : ell PrimFloat.float) (p : V3 PrimFloat.float) (t : PrimFloat.float) (M m k : R).
Hypotheses (HM : moderate M) (He : ellipse_upto M e) (Hp : point_upto M p) (Hm : axes_from m M e) (Hk : ell_factor e p k) (Ht : tolerance t).
Let r := U * M / m.
Lemma r_from : U <= r /\ powerRZ 2 (-47) * M / m = 64 * r /\ r <= / 8000.
Proof.
  destruct (m_pos e M m HM He Hm) as (_ & m0 & m1 & m2). unfold r, Rdiv. rewrite !Rmult_assoc. assert (1 <= M * / m) as Q.
  { apply (Rmult_le_reg_r m); [lra|]. rewrite Rmult_assoc, Rinv_l by lra. lra. }
  assert (M * / m <= bpow radix2 40) as Q2. { apply (Rmult_le_reg_r m); [lra|]. rewrite Rmult_assoc, Rinv_l by lra. lra. }
  rewrite two_p. change (bpow radix2 (-47)) with (/ 140737488355328). change (bpow radix2 40) with 1099511627776 in Q2. unfold U. repeat split; lra.
Qed.
Lemma small_180 : 0 < bpow radix2 (-180) <= / 1000000 * U.
Proof. split; [apply bpow_gt_0|]. apply Rle_trans with (bpow radix2 (-80)); [apply bpow_le; lia|]. change (bpow radix2 (-80)) with (/ 1208925819614629174706176). unfold U. lra. Qed.
(** 1 + t t *)
Lemma bound_dbl : let w := widened 1 (val t) in number (n1 + t * t)%float /\ 1 <= w * w /\ 0 < w /\ Rabs (val (n1 + t * t)%float - w * w) <= 3 * U * (w * w).
Proof.
  destruct Ht as (Nt & T1 & T2). rewrite two_p in *. pose proof (bpow_gt_0 radix2 (-400)) as G. intros w. pose proof (Rle_0_sqr (val t)) as S0. unfold Rsqr in S0.
  assert (w * w = 1 + val t * val t) as W. { unfold w, widened. rewrite sqrt_sqrt by lra. ring. }
  destruct (square_mixed t Nt) as (N1 & P1 & E1); [rewrite Rabs_pos_eq by lra; eapply Rle_trans; [exact T2|apply bpow_le; lia]|].
  destruct n1_val as [No Vo]. assert (1 <= bpow radix2 900) as G1 by (change 1 with (bpow radix2 0); apply bpow_le; lia).
  destruct (f_add n1 (t * t)%float No N1) as [N2 V2].
  { rewrite Vo, Rabs_pos_eq by lra. apply Rle_trans with (bpow radix2 1 * bpow radix2 900); [change (bpow radix2 1) with 2; lra|]. rewrite <- bpow_plus. apply bpow_le. lia. }
  split; [exact N2|]. rewrite W. split; [lra|]. split; [apply sqrt_lt_R0; lra|]. rewrite V2, Vo.
  destruct (rel_sum 1 (val (t * t)%float)) as [L1 L2]; [rewrite <- Vo; apply val_format|apply val_format|lra|lra|].
  apply Rabs_def2_le in E1. assert (tiny <= / 1000 * U) as T. { unfold tiny. apply Rle_trans with (bpow radix2 (-80)); [apply bpow_le; lia|]. change (bpow radix2 (-80)) with (/ 1208925819614629174706176). unfold U. lra. }
  apply Rabs_le. unfold lo, hi, U in *. split; lra.
Qed.
Lemma p50 : powerRZ 2 (-50) = 8 * U.
Proof. rewrite two_p. change (bpow radix2 (-50)) with (/ 1125899906842624). unfold U. lra. Qed.
Lemma disk_test : let w := widened 1 (val t) in
  (k + powerRZ 2 (-47) * M / m <= (1 - powerRZ 2 (-50)) * w -> (ell_sum e p <=? n1 + t * t)%float = true) /\
  ((1 + powerRZ 2 (-50)) * w + powerRZ 2 (-47) * M / m <= k -> (ell_sum e p <=? n1 + t * t)%float = false).
Proof.
  intros w. destruct (sum_dbl e p M m k HM He Hp Hm Hk) as (j & (J0 & _) & J1 & N1 & _ & E1). destruct bound_dbl as (N2 & W1 & W0 & E2). fold w in W1, W0, E2. destruct r_from as (R1 & R2 & _). fold r in J1. rewrite R2, p50.
  pose proof small_180 as G. assert (0 < U <= / 1000000000) as U0 by (unfold U; lra). apply Rabs_def2_le in J1, E1, E2. split; intros H.
  - apply f_leb; [exact N1|exact N2|]. assert (j <= (1 - 8 * U) * w) as J by lra.
    assert (j * j <= (1 - 8 * U) * w * ((1 - 8 * U) * w)) as JJ by (apply Rmult_le_compat; lra).
    replace ((1 - 8 * U) * w * ((1 - 8 * U) * w)) with ((1 - 8 * U) * (1 - 8 * U) * (w * w)) in JJ by ring. set (W := w * w) in *. unfold U in *. lra.
  - apply f_leb_false; [exact N1|exact N2|]. assert ((1 + 8 * U) * w <= j) as J by lra.
    assert ((1 + 8 * U) * w * ((1 + 8 * U) * w) <= j * j) as JJ by (apply Rmult_le_compat; try lra; apply Rmult_le_pos; lra).
    replace ((1 + 8 * U) * w * ((1 + 8 * U) * w)) with ((1 + 8 * U) * (1 + 8 * U) * (w * w)) in JJ by ring. set (W := w * w) in *. unfold U in *. lra.
Qed.
Lemma ell_test : let s := powerRZ 2 (-46) * M / m * ((1 + k) * (1 + k)) in
  (Rabs (k * k - 1) + s < val t -> (PrimFloat.abs (ell_sum e p - n1) <? t)%float = true) /\
  (val t + s <= Rabs (k * k - 1) -> (PrimFloat.abs (ell_sum e p - n1) <? t)%float = false).
Proof.
  intros s. destruct (sum_dbl e p M m k HM He Hp Hm Hk) as (j & (J0 & _) & J1 & N1 & P1 & E1). destruct r_from as (R1 & R2 & R3). fold r in J1.
  assert (s = 128 * r * ((1 + k) * (1 + k))) as ->. { unfold s. f_equal. unfold r, Rdiv. rewrite two_p. change (bpow radix2 (-46)) with (/ 70368744177664). unfold U. lra. }
  pose proof small_180 as G. assert (0 < U <= / 1000000000) as U0 by (unfold U; lra). destruct Hk as [K0 _].
  destruct n1_val as [No Vo]. assert (4 * bpow radix2 100 <= bpow radix2 1023) as B1 by (change 4 with (bpow radix2 2); rewrite <- bpow_plus; apply bpow_le; lia).
  assert (1 <= bpow radix2 100) as B2 by (change 1 with (bpow radix2 0); apply bpow_le; lia).
  destruct (f_sub _ n1 N1 No) as [N2 V2]; [rewrite Vo; apply Rabs_le; lra|]. destruct (f_abs _ N2) as [N3 V3]. destruct Ht as (Nt & _).
  pose proof (rnd_mixed (val (ell_sum e p) - 1)) as E2. rewrite Vo in V2. rewrite <- V2 in E2.
  assert (tiny <= / 1000 * U) as T. { unfold tiny. apply Rle_trans with (bpow radix2 (-80)); [apply bpow_le; lia|]. change (bpow radix2 (-80)) with (/ 1208925819614629174706176). unfold U. lra. }
  assert (Rabs (val (ell_sum e p - n1)%float - (k * k - 1)) < 128 * r * ((1 + k) * (1 + k))) as E.
  { apply Rabs_def2_le in J1, E1. set (q := val (ell_sum e p)) in *. set (z := val (ell_sum e p - n1)%float) in *.
    assert (Rabs (q - 1) <= q + 1) as A by (apply Rabs_le; lra). assert (U * Rabs (q - 1) <= U * (q + 1)) as A' by (apply Rmult_le_compat_l; lra). apply Rabs_def2_le in E2.
    assert (j <= k + 1) as JK by lra.
    assert (Rabs (j * j - k * k) <= 88 * r * ((1 + k) * (1 + k))) as JJ.
    { replace (j * j - k * k) with ((j - k) * (j + k)) by ring. rewrite Rabs_mult. replace (88 * r * ((1 + k) * (1 + k))) with (44 * r * (2 * ((1 + k) * (1 + k)))) by ring.
      apply Rmult_le_compat; [apply Rabs_pos|apply Rabs_pos|apply Rabs_le; lra|]. rewrite Rabs_pos_eq by lra. nra. }
    assert (j * j <= (1 + k) * (1 + k)) as J2 by (apply Rmult_le_compat; lra). assert (1 <= (1 + k) * (1 + k)) as K1 by nra. set (K2 := (1 + k) * (1 + k)) in *. apply Rabs_def2_le in JJ.
    assert (U * K2 <= r * K2) as RK by (apply Rmult_le_compat_r; lra). assert (U * (j * j) <= U * K2) as RJ by (apply Rmult_le_compat_l; lra). assert (U * q <= U * (3 * K2)) as Q3. { apply Rmult_le_compat_l; [lra|]. unfold U in *; lra. }
    assert (U <= U * K2) by (unfold U in *; lra).
    set (rk := r * K2) in *. set (uk := U * K2) in *. set (uj := U * (j * j)) in *. set (uq := U * q) in *. replace (88 * r * K2) with (88 * rk) in JJ by (unfold rk; ring). replace (128 * r * K2) with (128 * rk) by (unfold rk; ring).
    replace (6 * U * (j * j)) with (6 * uj) in E1 by (unfold uj; ring). replace (U * (q + 1)) with (uq + U) in A' by (unfold uq; ring). replace (U * (3 * K2)) with (3 * uk) in Q3 by (unfold uk; ring).
    apply Rabs_def1; lra. }
  pose proof (Rabs_triang_inv (k * k - 1) (val (ell_sum e p - n1)%float)) as T1. pose proof (Rabs_triang_inv (val (ell_sum e p - n1)%float) (k * k - 1)) as T2.
  rewrite (Rabs_minus_sym (k * k - 1)) in T1. split; intros H.
  - apply f_ltb; [exact N3|exact Nt|]. rewrite V3. lra.
  - apply f_ltb_false; [exact N3|exact Nt|]. rewrite V3. lra.
Qed.
End Tests.

Lemma disk_contains_dbl : forall (d : ell PrimFloat.float) p t M m D k, moderate M -> ellipse_upto M d -> point_upto M p -> axes_from m M d -> tolerance t ->
  dist_to (in_plane d) (val3 p) D -> ell_factor d p k ->
  let lo := 1 - powerRZ 2 (-50) in let hi := 1 + powerRZ 2 (-50) in let rho := powerRZ 2 (-47) * M in let w := widened 1 (val t) in
  (k + rho / m <= lo * w -> disk_contains d p t false = true) /\
  (hi * w + rho / m <= k -> disk_contains d p t false = false) /\
  (D + rho < val t -> k + rho / m <= lo * w -> disk_contains d p t true = true) /\
  (val t + rho <= D \/ hi * w + rho / m <= k -> disk_contains d p t true = false).
Proof.
  intros d p t M m D k HM He Hp Hm Ht HD Hk lo' hi' rho w. destruct (disk_test d p t M m k HM He Hp Hm Hk Ht) as [Y N]. fold w in Y, N.
  destruct (c104_plane_lemma (ell_plane d) p t M D HM (proj1 He) Hp (proj1 (proj2 (proj2 (proj2 He)))) (proj1 Ht) HD) as [PY PN]. fold rho in PY, PN.
  unfold disk_contains. change (nleb (nadd (ndiv _ _) (ndiv _ _)) (nadd n1 (nmul t t))) with (ell_sum d p <=? n1 + t * t)%float.
  cbn [andb]. repeat split.
  - intros H. apply Y. exact H.
  - intros H. apply N. exact H.
  - intros H1 H2. rewrite (PY H1). cbn [negb]. apply Y. exact H2.
  - intros [H|H]; [rewrite (PN H); reflexivity|]. destruct (negb (plane_contains (ell_plane d) p t)); [reflexivity|]. apply N. exact H.
Qed.
Lemma ellipse_contains_dbl : forall (d : ell PrimFloat.float) p t M m D k, moderate M -> ellipse_upto M d -> point_upto M p -> axes_from m M d -> tolerance t ->
  dist_to (in_plane d) (val3 p) D -> ell_factor d p k ->
  let rho := powerRZ 2 (-47) * M in let s := powerRZ 2 (-46) * M / m * ((1 + k) * (1 + k)) in
  (Rabs (k * k - 1) + s < val t -> ell_contains d p t false = true) /\
  (val t + s <= Rabs (k * k - 1) -> ell_contains d p t false = false) /\
  (D + rho < val t -> Rabs (k * k - 1) + s < val t -> ell_contains d p t true = true) /\
  (val t + rho <= D \/ val t + s <= Rabs (k * k - 1) -> ell_contains d p t true = false).
Proof.
  intros d p t M m D k HM He Hp Hm Ht HD Hk rho s. destruct (ell_test d p t M m k HM He Hp Hm Hk Ht) as [Y N]. fold s in Y, N.
  destruct (c104_plane_lemma (ell_plane d) p t M D HM (proj1 He) Hp (proj1 (proj2 (proj2 (proj2 He)))) (proj1 Ht) HD) as [PY PN]. fold rho in PY, PN.
  unfold ell_contains. change (nltb (nabs (nsub (nadd (ndiv _ _) (ndiv _ _)) n1)) t) with (PrimFloat.abs (ell_sum d p - n1) <? t)%float.
  cbn [andb]. repeat split.
  - intros H. apply Y. exact H.
  - intros H. apply N. exact H.
  - intros H1 H2. rewrite (PY H1). cbn [negb]. apply Y. exact H2.
  - intros [H|H]; [rewrite (PN H); reflexivity|]. destruct (negb (plane_contains (ell_plane d) p t)); [reflexivity|]. apply N. exact H.
Qed.
Lemma circle_contains_dbl : forall (c : ell PrimFloat.float) p t M D, moderate M -> ellipse_upto M c -> point_upto M p -> tolerance t ->
  dist_to (in_plane c) (val3 p) D -> let rho := powerRZ 2 (-47) * M in let G := Rabs (dist (val3 p) (val3 (e_c c)) - val (e_a c)) in
  (D + rho < val t -> G + rho < val t -> circle_contains c p t = true) /\
  (val t + rho <= D \/ val t + rho <= G -> circle_contains c p t = false).
Proof.
  intros c p t M D HM He Hp Ht HD rho G.
  destruct (c104_plane_lemma (ell_plane c) p t M D HM (proj1 He) Hp (proj1 (proj2 (proj2 (proj2 He)))) (proj1 Ht) HD) as [PY PN]. fold rho in PY, PN.
  destruct He as (Hc & _ & _ & _ & (Nr & R0 & R1) & _). destruct (end_len p M (moderate_x M HM) Hp (e_c c) Hc) as [NL EL].
  pose proof (mod_sized M HM) as [S1 S2]. set (L := vlen (vec_to p (e_c c))) in *. set (l := dist (val3 p) (val3 (e_c c))) in *.
  assert (0 < M) as M0 by (pose proof (bpow_gt_0 radix2 (-900)); lra).
  assert (0 <= l <= 4 * M) as L0.
  { split; [apply norm_nonneg|]. destruct Hc as (_ & c1 & c2 & c3), Hp as (_ & p1 & p2 & p3). apply Rabs_def2_le in c1, c2, c3, p1, p2, p3. unfold l, dist.
    apply Rle_trans with (1733 / 1000 * (2 * M)); [apply norm_le; unfold psub, val3; cbn [vx vy vz]; apply Rabs_le; lra|lra]. }
  apply Rabs_def2_le in EL. assert (0 < U <= / 1000000000) as U0 by (unfold U; lra). assert (0 <= U * M <= / 1000000000 * M) as UM. { split; [apply Rmult_le_pos; lra|apply Rmult_le_compat_r; lra]. }
  assert (Rabs (val L - val (e_a c)) <= 8 * M) as B by (apply Rabs_le; lra).
  assert (8 * M <= bpow radix2 1023) as B2. { apply Rle_trans with (bpow radix2 3 * bpow radix2 900); [change (bpow radix2 3) with 8; lra|rewrite <- bpow_plus; apply bpow_le; lia]. }
  destruct (f_sub L (e_a c) NL Nr) as [N2 V2]; [lra|]. destruct (f_abs _ N2) as [N3 V3].
  assert (bpow radix2 (-1000) <= 8 * M) as B3. { apply Rle_trans with (bpow radix2 (-900)); [apply bpow_le; lia|lra]. }
  pose proof (rnd_err _ _ B3 B) as E. rewrite <- V2 in E. apply Rabs_def2_le in E.
  assert (rho = 64 * (U * M)) as RR. { unfold rho. rewrite two_p. change (bpow radix2 (-47)) with (/ 140737488355328). unfold U. lra. }
  assert (Rabs (val (L - e_a c)%float - (l - val (e_a c))) <= rho) as EE by (rewrite RR; apply Rabs_le; lra).
  pose proof (Rabs_triang_inv (l - val (e_a c)) (val (L - e_a c)%float)) as T1. pose proof (Rabs_triang_inv (val (L - e_a c)%float) (l - val (e_a c))) as T2.
  rewrite (Rabs_minus_sym (l - val (e_a c))) in T1. fold G in T1, T2.
  unfold circle_contains. fold L. change (nltb (nabs (nsub L (e_a c))) t) with (PrimFloat.abs (L - e_a c) <? t)%float. split.
  - intros H1 H2. rewrite (PY H1). cbn [negb]. apply f_ltb; [exact N3|apply Ht|]. rewrite V3. lra.
  - intros [H|H]; [rewrite (PN H); reflexivity|]. destruct (negb _); [reflexivity|]. apply f_ltb_false; [exact N3|apply Ht|]. rewrite V3. lra.
Qed.
(** the factor, for axes that are exactly orthogonal and of length 1 *)
Lemma factor_disk : forall (e : ell R) p k j, ell_ok e -> 0 < j -> on_plane (e_c e) (e_n e) p -> factor (e_c e) (e_maj e) (e_min e) (e_a e) (e_b e) p k ->
  in_disk j e p <-> k <= j.
Proof.
  intros e p k j (B & A0 & B0) J0 P (K0 & K). set (x := dot (e_maj e) (psub p (e_c e))) in *. set (y := dot (e_min e) (psub p (e_c e))) in *.
  assert (dot (psub p (e_c e)) (e_n e) = 0) as P'. { rewrite <- P. unfold dot. ring. }
  pose proof (at_coords_of _ _ _ _ _ B P') as EP.
  assert (dot (psub p (e_c e)) (e_maj e) = x /\ dot (psub p (e_c e)) (e_min e) = y) as [EX EY] by (unfold x, y, dot; split; ring). rewrite EX, EY in EP.
  assert ((x / (j * e_a e)) ^ 2 + (y / (j * e_b e)) ^ 2 = k * k / (j * j)) as Q by (rewrite K; field; lra).
  assert (k * k / (j * j) <= 1 <-> k <= j) as KJ.
  { assert (0 < j * j) as JJ by (apply Rmult_lt_0_compat; lra). split; intros H.
    - apply Rsqr_incr_0_var; [|lra]. unfold Rsqr. apply (Rmult_le_compat_r (j * j)) in H; [|lra]. unfold Rdiv in H. rewrite Rmult_assoc, Rinv_l in H by lra. lra.
    - apply (Rmult_le_reg_r (j * j)); [lra|]. unfold Rdiv. rewrite Rmult_assoc, Rinv_l by lra. assert (k * k <= j * j) by (apply Rmult_le_compat; lra). lra. }
  rewrite <- KJ, <- Q. split.
  - intros (x' & y' & H & E). destruct (local_coords _ _ _ (e_c e) x' y' B) as (L1 & L2 & _). rewrite <- E, EX in L1. rewrite <- E, EY in L2. rewrite L1, L2. exact H.
  - intros H. exists x, y. split; [exact H|exact EP].
Qed.
