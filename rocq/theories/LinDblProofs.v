(** Lines, planes and segments in double precision. *)

From Coq Require Import ZArith Reals Floats Lra Lia Psatz Bool.
From Flocq Require Import Core.Core IEEE754.BinarySingleNaN IEEE754.PrimFloat Relative.
From Verif Require Import Base NumModel VecModel LinModel DistModel GeoSpec LinSpec DblSpec GeoLemmas
  DblLemmas DblProofs DblLen DblEq LinDblSpec LinDblBase LinDblFoot.
Local Open Scope R_scope.

(** squares that may underflow *)
Definition tiny : R := bpow radix2 (-1074).
Lemma tiny_pos : 0 < tiny.
Proof. apply bpow_gt_0. Qed.
Lemma rnd_mixed x : Rabs (rnd x - x) <= U * Rabs x + tiny.
Proof.
  pose proof (error_le_half_ulp radix2 fex (fun z => negb (Z.even z)) x) as E. fold (rnd x) in E.
  pose proof (ulp_rel x) as R. rewrite Rabs_pos_eq in R by apply ulp_ge_0. pose proof tiny_pos. unfold tiny in *. pose proof (Rabs_pos x).
  change (bpow radix2 (-52)) with (/ 4503599627370496) in R.
  assert (Rmax (bpow radix2 (-1074)) (Rabs x * / 4503599627370496) <= bpow radix2 (-1074) + Rabs x * / 4503599627370496) by (apply Rmax_lub; lra).
  unfold U. lra.
Qed.
Lemma square_mixed (x : PrimFloat.float) : number x -> Rabs (val x) <= bpow radix2 450 ->
  number (x * x)%float /\ 0 <= val (x * x)%float <= bpow radix2 900 /\ Rabs (val (x * x)%float - val x * val x) <= U * (val x * val x) + tiny.
Proof.
  intros N B. assert (Rabs (val x * val x) <= bpow radix2 900) as B2.
  { change 900%Z with (450 + 450)%Z. rewrite bpow_plus. apply prod_le; assumption. }
  destruct (f_mul x x N N) as [N2 V2]; [eapply Rle_trans; [exact B2|apply bpow_le; lia]|]. split; [exact N2|]. rewrite V2. pose proof (Rle_0_sqr (val x)) as P. unfold Rsqr in P. split.
  - split; [rewrite <- rnd_0; apply rnd_le; exact P|]. pose proof (rnd_bpow 900 (val x * val x) ltac:(lia) B2) as Q. apply Rabs_def2_le in Q. lra.
  - rewrite <- (Rabs_pos_eq (val x * val x)) at 3 by exact P. apply rnd_mixed.
Qed.
Lemma sqlen_mixed (v : V3 PrimFloat.float) : number3 v -> within3 (bpow radix2 450) v ->
  number (sqlen v) /\ 0 <= val (sqlen v) <= bpow radix2 910 /\ Rabs (val (sqlen v) - norm (val3 v) * norm (val3 v)) <= 4 * U * (norm (val3 v) * norm (val3 v)) + 4 * tiny.
Proof.
  destruct v as [x y z]. intros (Nx & Ny & Nz) (Bx & By & Bz). cbn [vx vy vz] in *.
  destruct (square_mixed x Nx Bx) as (N1 & P1 & E1). destruct (square_mixed y Ny By) as (N2 & P2 & E2). destruct (square_mixed z Nz Bz) as (N3 & P3 & E3).
  rewrite norm_sq. unfold sqlen, dot, val3. cbn [vx vy vz nadd nmul F_num].
  pose proof (Rle_0_sqr (val x)) as X0. pose proof (Rle_0_sqr (val y)) as Y0. pose proof (Rle_0_sqr (val z)) as Z0. unfold Rsqr in X0, Y0, Z0.
  set (a := (x * x)%float) in *. set (b := (y * y)%float) in *. set (c := (z * z)%float) in *.
  set (A := val x * val x) in *. set (B := val y * val y) in *. set (C := val z * val z) in *.
  pose proof (bpow_gt_0 radix2 900) as P9. assert (bpow radix2 900 <= bpow radix2 1000) as B10 by (apply bpow_le; lia).
  assert (bpow radix2 910 = 1024 * bpow radix2 900) as B91 by (change 910%Z with (10 + 900)%Z; rewrite bpow_plus; reflexivity).
  assert (1024 * bpow radix2 900 <= bpow radix2 1000) as B92 by (rewrite <- B91; apply bpow_le; lia).
  destruct (zero_add a N1) as [N0 V0]; [rewrite Rabs_pos_eq; lra|]. set (s0 := (nlit 0 1 + a)%float) in *.
  assert (bpow radix2 1000 <= bpow radix2 1023) as B23 by (apply bpow_le; lia).
  destruct (f_add s0 b N0 N2) as [M1 V1]; [rewrite V0, Rabs_pos_eq; lra|]. rewrite V0 in V1. set (s1 := (s0 + b)%float) in *.
  pose proof (rel_sum (val a) (val b) (val_format a) (val_format b) ltac:(lra) ltac:(lra)) as R1. rewrite <- V1 in R1. unfold lo, hi, U in R1.
  destruct (f_add s1 c M1 N3) as [M2 V2]; [rewrite Rabs_pos_eq; lra|]. set (s2 := (s1 + c)%float) in *.
  pose proof (rel_sum (val s1) (val c) (val_format s1) (val_format c) ltac:(lra) ltac:(lra)) as R2. rewrite <- V2 in R2. unfold lo, hi, U in R2.
  split; [exact M2|]. split; [rewrite B91; lra|]. pose proof tiny_pos.
  apply Rabs_def2_le in E1. apply Rabs_def2_le in E2. apply Rabs_def2_le in E3. unfold U in *. apply Rabs_le. lra.
Qed.
(** the comparison with a tolerance *)
Definition eps_ok (e : PrimFloat.float) : Prop := number e /\ bpow radix2 (-400) <= val e <= bpow radix2 400.
Lemma sq_test (v : V3 PrimFloat.float) e : number3 v -> within3 (bpow radix2 450) v -> eps_ok e ->
  (norm (val3 v) <= (1 - powerRZ 2 (-50)) * val e -> (sqlen v <? e * e)%float = true) /\
  ((1 + powerRZ 2 (-50)) * val e <= norm (val3 v) -> (sqlen v <? e * e)%float = false).
Proof.
  intros Nv Bv (Ne & E1 & E2). destruct (sqlen_mixed v Nv Bv) as (Ns & Ps & Es). set (n := norm (val3 v)) in *. pose proof (norm_nonneg (val3 v)) as n0p. fold n in n0p.
  assert (bpow radix2 400 <= bpow radix2 450) as B4 by (apply bpow_le; lia). pose proof (bpow_gt_0 radix2 (-400)) as P4.
  destruct (square_mixed e Ne) as (Nq & Pq & Eq); [rewrite Rabs_pos_eq; lra|].
  rewrite two_p. change (bpow radix2 (-50)) with (/ 1125899906842624).
  assert (tiny <= / 1000000000000000000000000 * (val e * val e)) as T.
  { apply Rle_trans with (bpow radix2 (-100) * (bpow radix2 (-400) * bpow radix2 (-400))).
    - rewrite <- !bpow_plus. apply bpow_le. lia.
    - apply Rmult_le_compat; [apply bpow_ge_0| |change (bpow radix2 (-100)) with (/ 1267650600228229401496703205376); lra|apply Rmult_le_compat; lra].
      apply Rmult_le_pos; apply bpow_ge_0. }
  pose proof tiny_pos as T0. apply Rabs_def2_le in Es. apply Rabs_def2_le in Eq. unfold U in *. split; intros H.
  - assert (n * n <= ((1 - / 1125899906842624) * val e) * ((1 - / 1125899906842624) * val e)) as Q by (apply Rmult_le_compat; assumption).
    apply (f_ltb _ _ Ns Nq). assert (0 < val e * val e) by (apply Rmult_lt_0_compat; lra). lra.
  - assert (((1 + / 1125899906842624) * val e) * ((1 + / 1125899906842624) * val e) <= n * n) as Q by (apply Rmult_le_compat; lra).
    apply (f_ltb_false _ _ Ns Nq). assert (0 < val e * val e) by (apply Rmult_lt_0_compat; lra). lra.
Qed.

(** lengths *)
Lemma sqrt_plus a b : 0 <= a -> 0 <= b -> R_sqrt.sqrt (a + b) <= R_sqrt.sqrt a + R_sqrt.sqrt b.
Proof.
  intros Ha Hb. pose proof (sqrt_pos a) as A. pose proof (sqrt_pos b) as B. rewrite <- (sqrt_square (R_sqrt.sqrt a + R_sqrt.sqrt b)) by lra.
  apply sqrt_le_1_alt. pose proof (sqrt_sqrt a Ha). pose proof (sqrt_sqrt b Hb). pose proof (Rmult_le_pos _ _ A B). lra.
Qed.
Lemma vlen_mixed (v : V3 PrimFloat.float) : number3 v -> within3 (bpow radix2 450) v ->
  number (vlen v) /\ 0 <= val (vlen v) /\ Rabs (val (vlen v) - norm (val3 v)) <= 5 * U * norm (val3 v) + bpow radix2 (-500).
Proof.
  intros Nv Bv. destruct (sqlen_mixed v Nv Bv) as (Ns & Ps & Es). set (n := norm (val3 v)) in *. pose proof (norm_nonneg (val3 v)) as n0p. fold n in n0p.
  destruct (f_sqrt (sqlen v) Ns ltac:(lra)) as [Nr Vr]. unfold vlen. cbn [nsqrt F_num]. split; [exact Nr|]. rewrite Vr. set (q := val (sqlen v)) in *. pose proof (sqrt_pos q) as S0.
  split; [rewrite <- rnd_0; apply rnd_le; exact S0|].
  pose proof tiny_pos as T0. pose proof (bpow_gt_0 radix2 (-536)) as T1.
  assert (4 * tiny = bpow radix2 (-536) * bpow radix2 (-536)) as T2 by (rewrite <- bpow_plus; unfold tiny; change (-536 + -536)%Z with (2 + -1074)%Z; rewrite bpow_plus; reflexivity).
  assert (R_sqrt.sqrt (4 * tiny) = bpow radix2 (-536)) as T3 by (rewrite T2; apply sqrt_square; lra).
  apply Rabs_def2_le in Es. assert (0 <= n * n) as nn by (apply Rmult_le_pos; lra).
  assert (R_sqrt.sqrt q <= (1 + 2 * U) * n + bpow radix2 (-536)) as Hi.
  { eapply Rle_trans; [apply sqrt_le_1_alt with (y := ((1 + 2 * U) * n) * ((1 + 2 * U) * n) + 4 * tiny)|].
    - unfold U in *. lra.
    - rewrite <- T3. rewrite <- (sqrt_square ((1 + 2 * U) * n)) at 3 by (apply Rmult_le_pos; [unfold U|]; lra). apply sqrt_plus; [apply Rle_0_sqr|lra]. }
  assert ((1 - 3 * U) * n <= R_sqrt.sqrt q + bpow radix2 (-536)) as Lo.
  { rewrite <- T3. rewrite <- (sqrt_square ((1 - 3 * U) * n)) by (apply Rmult_le_pos; [unfold U|]; lra).
    eapply Rle_trans; [apply sqrt_le_1_alt with (y := q + 4 * tiny); unfold U in *; lra|]. apply sqrt_plus; lra. }
  pose proof (rnd_mixed (R_sqrt.sqrt q)) as E. rewrite (Rabs_pos_eq (R_sqrt.sqrt q)) in E by exact S0. apply Rabs_def2_le in E.
  assert (tiny <= bpow radix2 (-536)) as T4 by (apply bpow_le; lia).
  assert (bpow radix2 (-500) = 68719476736 * bpow radix2 (-536)) as T5 by (change (-500)%Z with (36 + -536)%Z; rewrite bpow_plus; reflexivity).
  rewrite T5. unfold U in *. apply Rabs_le. lra.
Qed.

(** the exact distance to a line *)
Lemma unit_of (d : pt) : 0 < norm d -> let e := pscale (/ norm d) d in unit3 e /\ norm (psub d e) = Rabs (norm d - 1) /\ d = pscale (norm d) e.
Proof.
  intros H e. assert (norm d * / norm d = 1) as I by (apply Rinv_r; lra). split; [|split].
  - unfold unit3, e. replace (dot (pscale (/ norm d) d) (pscale (/ norm d) d)) with (/ norm d * / norm d * dot d d).
    2:{ destruct d as [x y z]. unfold dot, pscale. cbn [vx vy vz]. ring. }
    rewrite <- norm_sq. field. lra.
  - replace (psub d e) with (pscale ((norm d - 1) * / norm d) d).
    2:{ unfold e. destruct d as [x y z]. set (r := norm (mkV3 x y z)) in *. unfold psub, pscale. cbn [vx vy vz]. f_equal; field; lra. }
    rewrite norm_mul, Rabs_mult, (Rabs_pos_eq (/ norm d)) by (left; apply Rinv_0_lt_compat; lra). rewrite Rmult_assoc, Rinv_l by lra. ring.
  - unfold e. destruct d as [x y z]. set (r := norm (mkV3 x y z)) in *. unfold pscale. cbn [vx vy vz]. f_equal; field; lra.
Qed.
Lemma line_dist (s d e p : pt) c D : unit3 e -> c <> 0 -> d = pscale c e -> dist_to (on_line s d) p D ->
  D = dist p (padd s (pscale (dot e (psub p s)) e)).
Proof.
  intros He Hc Ed [(y & (t & ->) & Hy) Hm]. set (q := padd s (pscale (dot e (psub p s)) e)).
  assert (on_line s d q) as Hq.
  { exists (dot e (psub p s) / c). unfold q. rewrite Ed. unfold padd, pscale. cbn [vx vy vz]. f_equal; field; exact Hc. }
  apply Rle_antisym; [apply Hm, Hq|]. rewrite <- Hy.
  unfold dist, norm. apply sqrt_le_1_alt. rewrite Ed.
  replace (padd s (pscale t (pscale c e))) with (padd s (pscale (t * c) e)) by (unfold padd, pscale; cbn [vx vy vz]; f_equal; ring).
  set (r := t * c). set (tau := dot e (psub p s)) in *.
  assert (dot (psub p (padd s (pscale r e))) (psub p (padd s (pscale r e))) = dot (psub p q) (psub p q) + (r - tau) * (r - tau)) as ->.
  { unfold unit3 in He. unfold q. transitivity (dot (psub p s) (psub p s) - 2 * r * tau + r * r * dot e e).
    - unfold tau. destruct s as [s1 s2 s3], e as [e1 e2 e3], p as [p1 p2 p3]. unfold dot, psub, padd, pscale. cbn [vx vy vz]. ring.
    - rewrite He. transitivity (dot (psub p s) (psub p s) - 2 * tau * tau + tau * tau * dot e e + (r - tau) * (r - tau)); [rewrite He; ring|].
      unfold tau. destruct s as [s1 s2 s3], e as [e1 e2 e3], p as [p1 p2 p3]. unfold dot, psub, padd, pscale. cbn [vx vy vz]. ring. }
  pose proof (Rle_0_sqr (r - tau)) as Q. unfold Rsqr in Q. lra.
Qed.

(** moderate bounds, and a little above *)
Definition modx (M : R) : Prop := powerRZ 2 (-400) <= M <= powerRZ 2 404.
Lemma moderate_x M : moderate M -> modx M.
Proof. unfold moderate, modx. rewrite !two_p. intros [A B]. assert (bpow radix2 400 <= bpow radix2 404) by (apply bpow_le; lia). lra. Qed.
Lemma moderate_5 M : moderate M -> modx (5 * M).
Proof.
  unfold moderate, modx. rewrite !two_p. intros [A B]. change 404%Z with (4 + 400)%Z. rewrite bpow_plus. change (bpow radix2 4) with 16. pose proof (bpow_gt_0 radix2 (-400)). lra.
Qed.
Lemma moderate_sized M : modx M -> sized M.
Proof.
  unfold modx, sized. rewrite !two_p. intros [A B].
  assert (bpow radix2 (-900) <= bpow radix2 (-400)) by (apply bpow_le; lia). assert (bpow radix2 404 <= bpow radix2 900) by (apply bpow_le; lia). lra.
Qed.
Lemma tol_eps e : tolerance e -> eps_ok e.
Proof. unfold tolerance, moderate, eps_ok. rewrite !two_p. tauto. Qed.
Lemma within_6 M (v : V3 PrimFloat.float) : modx M -> within3 (6 * M) v -> within3 (bpow radix2 450) v.
Proof.
  unfold modx. rewrite !two_p. intros [_ H] (A & B & C).
  assert (6 * bpow radix2 404 <= bpow radix2 450) as K.
  { change 450%Z with (46 + 404)%Z. rewrite bpow_plus. pose proof (bpow_gt_0 radix2 404). apply Rmult_le_compat_r; [lra|]. change (bpow radix2 46) with 70368744177664. lra. }
  repeat split; lra.
Qed.
Lemma dir_norm (d : V3 PrimFloat.float) : direction d -> 0 < norm (val3 d) /\ norm (val3 d) <= 1001 / 1000 /\ Rabs (norm (val3 d) - 1) <= 8 * U.
Proof.
  intros [_ H]. rewrite two_p in H. change (bpow radix2 (-50)) with (/ 1125899906842624) in H. split; [|split]; [apply Rabs_def2_le in H; lra..|]. unfold U. lra.
Qed.

Section Line.
Variables (s d p : V3 PrimFloat.float) (M D : R).
Hypotheses (HM : modx M) (Hs : point_upto M s) (Hp : point_upto M p) (Hd : direction d).
Hypothesis HD : dist_to (on_line (val3 s) (val3 d)) (val3 p) D.
Let v := vec_to p (line_proj (mkLine s d) p).
Lemma line_core : number3 v /\ within3 (6 * M) v /\ Rabs (norm (val3 v) - D) <= 124 * (U * M).
Proof.
  destruct Hs as [Ns Bs], Hp as [Np Bp]. destruct (dir_norm d Hd) as (P & Q & K). pose proof (moderate_sized M HM) as HS.
  destruct (foot_err s d p M Ns (proj1 Hd) Np HS Bs Bp Q) as (Nv & Bv & _).
  destruct (unit_of (val3 d) P) as (Ue & Ed & Es). set (e := pscale (/ norm (val3 d)) (val3 d)) in *.
  split; [exact Nv|]. split; [exact Bv|].
  pose proof (foot_len s d p M Ns (proj1 Hd) Np HS Bs Bp Q e (8 * U) Ue ltac:(rewrite Ed; exact K)) as F. fold v in F.
  rewrite (line_dist (val3 s) (val3 d) e (val3 p) (norm (val3 d)) D Ue ltac:(lra) Es HD). lra.
Qed.
Lemma norm_6 : norm (val3 v) <= 11 * M.
Proof.
  destruct line_core as (_ & (A & B & C) & _). pose proof (norm_le (val3 v) (6 * M) A B C). pose proof (sized_pos M (moderate_sized M HM)). lra.
Qed.
Lemma line_distance_dbl : number (dist_line p (mkLine s d)) /\ Rabs (val (dist_line p (mkLine s d)) - D) <= powerRZ 2 (-45) * M.
Proof.
  destruct line_core as (Nv & Bv & F). destruct (vlen_mixed v Nv (within_6 M v HM Bv)) as (Nl & _ & L). pose proof norm_6 as N6. split; [exact Nl|].
  unfold dist_line. fold v. assert (bpow radix2 (-500) <= U * M) as T.
  { destruct HM as [H _]. rewrite two_p in H. change U with (bpow radix2 (-53)). apply Rle_trans with (bpow radix2 (-53) * bpow radix2 (-400)); [rewrite <- bpow_plus; apply bpow_le; lia|].
    apply Rmult_le_compat_l; [apply bpow_ge_0|exact H]. }
  rewrite two_p. change (bpow radix2 (-45)) with (/ 35184372088832). apply Rabs_def2_le in F. apply Rabs_def2_le in L. pose proof (sized_pos M (moderate_sized M HM)).
  unfold U in *. apply Rabs_le. lra.
Qed.
Lemma line_contains_dbl e : tolerance e -> decides (line_contains (mkLine s d) p e) D (val e) (powerRZ 2 (-46) * M).
Proof.
  intros He. destruct line_core as (Nv & Bv & F). destruct (sq_test v e Nv (within_6 M v HM Bv) (tol_eps e He)) as [T1 T2].
  unfold decides, line_contains. fold v. rewrite !two_p in *. change (bpow radix2 (-46)) with (/ 70368744177664). pose proof (sized_pos M (moderate_sized M HM)). apply Rabs_def2_le in F. unfold U in F.
  split; intros H1; [apply T1|apply T2]; lra.
Qed.
End Line.

(** planes *)
Lemma plane_dist (s n p : pt) D : 0 < norm n -> dist_to (on_plane s n) p D -> D * norm n = Rabs (dot n (psub p s)).
Proof.
  intros Hn [(y & Hy & Ey) Hm]. unfold on_plane in Hy.
  assert (dot n (psub p y) = dot n (psub p s)) as E.
  { transitivity (dot n (psub p s) - dot n (psub y s)); [|rewrite Hy; ring]. destruct n as [a b c], p as [p1 p2 p3], y as [y1 y2 y3], s as [s1 s2 s3]. unfold dot, psub. cbn [vx vy vz]. ring. }
  apply Rle_antisym.
  - pose proof (norm_sq n) as N2. assert (dot n n <> 0) as N0 by (rewrite <- N2; apply Rmult_integral_contrapositive; lra).
    set (k := dot n (psub p s) / dot n n). set (z := psub p (pscale k n)).
    assert (on_plane s n z) as Hz.
    { unfold on_plane. transitivity (dot n (psub p s) - k * dot n n); [|unfold k; field; exact N0].
      unfold z. generalize k. intros k'. destruct n as [a b c], p as [p1 p2 p3], s as [s1 s2 s3]. unfold dot, psub, pscale. cbn [vx vy vz]. ring. }
    apply Hm in Hz. replace (dist p z) with (Rabs k * norm n) in Hz.
    2:{ rewrite <- norm_mul. unfold dist. f_equal. unfold z. destruct n as [a b c], p as [p1 p2 p3]. unfold psub, pscale. cbn [vx vy vz]. f_equal; ring. }
    apply Rle_trans with (Rabs k * norm n * norm n); [apply Rmult_le_compat_r; lra|]. rewrite Rmult_assoc, N2.
    rewrite <- (Rabs_pos_eq (dot n n)) by apply dot_nonneg. rewrite <- Rabs_mult. right. f_equal. unfold k. field. exact N0.
  - rewrite <- E. eapply Rle_trans; [apply cauchy_norm|]. unfold dist in Ey. rewrite Ey. right. ring.
Qed.
Lemma f_abs (x : PrimFloat.float) : number x -> number (PrimFloat.abs x) /\ val (PrimFloat.abs x) = Rabs (val x).
Proof.
  unfold number, val. rewrite abs_equiv. intros N. rewrite is_finite_Babs, B2R_Babs. auto.
Qed.
Lemma plane_contains_dbl (pl : plane PrimFloat.float) p e M D : modx M -> point_upto M (pl_sup pl) -> point_upto M p -> direction (pl_n pl) -> number e ->
  dist_to (on_plane (val3 (pl_sup pl)) (val3 (pl_n pl))) (val3 p) D ->
  (D + powerRZ 2 (-47) * M < val e -> plane_contains pl p e = true) /\ (val e + powerRZ 2 (-47) * M <= D -> plane_contains pl p e = false).
Proof.
  intros HM [Ns Bs] [Np Bp] Hn Ne HD. destruct (dir_norm _ Hn) as (P & Q & K). pose proof (moderate_sized M HM) as HS.
  destruct (along_err_r (pl_sup pl) (pl_n pl) p M Ns (proj1 Hn) Np HS Bs Bp Q) as [Nt Et].
  destruct (vec_err (pl_sup pl) p M Ns Np HS Bs Bp) as (_ & _ & _ & NW).
  pose proof (plane_dist _ _ _ D P HD) as ED. unfold plane_contains. cbn [nabs nltb F_num]. set (t := sprod (vec_to (pl_sup pl) p) (pl_n pl)) in *.
  destruct (f_abs t Nt) as [Na Va]. set (tau := dot (val3 (pl_n pl)) (psub (val3 p) (val3 (pl_sup pl)))) in *.
  pose proof (sized_pos M HS) as M0.
  assert (D <= 34705 / 10000 * M) as DM.
  { assert (D * norm (val3 (pl_n pl)) <= norm (val3 (pl_n pl)) * (3467 / 1000 * M)) as C.
    { rewrite ED. eapply Rle_trans; [apply cauchy_norm|]. apply Rmult_le_compat_l; [lra|exact NW]. }
    rewrite Rmult_comm in C. apply Rmult_le_reg_l in C; [lra|exact P]. }
  assert (0 <= D) as D0.
  { destruct HD as [(y & _ & <-) _]. apply norm_nonneg. }
  assert (Rabs (Rabs tau - D) <= 28 * (U * M)) as E1.
  { rewrite <- ED. replace (D * norm (val3 (pl_n pl)) - D) with (D * (norm (val3 (pl_n pl)) - 1)) by ring. rewrite Rabs_mult, (Rabs_pos_eq D D0).
    apply Rle_trans with (34705 / 10000 * M * (8 * U)); [apply Rmult_le_compat; try apply Rabs_pos; assumption|].
    assert (0 <= U * M) by (apply Rmult_le_pos; [unfold U|]; lra). lra. }
  assert (Rabs (Rabs (val t) - Rabs tau) <= 25 * (U * M)) as E2 by (eapply Rle_trans; [apply Rabs_triang_inv2|exact Et]).
  apply Rabs_def2_le in E1. apply Rabs_def2_le in E2. rewrite two_p. change (bpow radix2 (-47)) with (/ 140737488355328). unfold U in *.
  split; intros H; [apply (f_ltb _ _ Na Ne)|apply (f_ltb_false _ _ Na Ne)]; rewrite Va; lra.
Qed.
