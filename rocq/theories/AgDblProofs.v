(** Angles of points of ellipses in double precision. *)

From Coq Require Import ZArith Reals Floats Lra Lia Psatz Bool.
From Flocq Require Import Core.Core IEEE754.BinarySingleNaN IEEE754.PrimFloat Relative.
From Verif Require Import Base NumModel VecModel LinModel RoundModel GeoSpec LinSpec RoundSpec DblSpec GeoLemmas EllProofs
  DblLemmas DblProofs DblLen DblEq LinDblSpec LinDblBase LinDblFoot LinDblProofs LinDblSeg LinDblDist RndDblSpec RndDblProofs TrigDblSpec PtDblSpec PtDblProofs FrDblProofs DkDblSpec DkDblProofs DkDblTrip
  AgDblSpec AgDblReal.
Local Open Scope R_scope.

Lemma rel_any z : bpow radix2 (-1022) <= Rabs z -> Rabs (rnd z - z) <= U * Rabs z.
Proof.
  intros H. assert (forall z, 0 <= z -> bpow radix2 (-1022) <= z -> Rabs (rnd z - z) <= U * z) as P.
  { intros w H0 Hw. pose proof (rel_pos w (or_intror Hw)) as L. unfold lo, hi in L. apply Rabs_le. lra. }
  destruct (Rle_or_lt 0 z) as [Z|Z].
  - rewrite (Rabs_pos_eq z Z) in *. apply P; assumption.
  - rewrite (Rabs_left z Z) in *. replace (rnd z - z) with (- (rnd (- z) - - z)) by (rewrite rnd_opp; ring). rewrite Rabs_Ropp. apply P; lra.
Qed.
Definition angle_of {A} {N : Num A} {T : Trig A} (a b x y : A) : A :=
  (if nabs x <? a * confusion then
    if nsign y then nlit 3 1 * npi / nlit 2 1 else npi / nlit 2 1
  else if nabs y <? b * confusion then
    if nsign x then npi else n0
  else
    let ratio := a / b in
    if negb (nsign y) && negb (nsign x) then natan (y * ratio / x)
    else if nsign y && negb (nsign x) then nlit 2 1 * npi + natan (y * ratio / x)
    else npi + natan (y * ratio / x))%num.
Lemma ell_angle_of {A} {N : Num A} {T : Trig A} (e : ell A) p :
  ell_angle e p = angle_of (e_a e) (e_b e) (sprod (vec_to (e_c e) p) (e_maj e)) (sprod (vec_to (e_c e) p) (e_min e)).
Proof. reflexivity. Qed.

(** the threshold *)
Lemma threshold (a x : PrimFloat.float) : number a -> number x -> bpow radix2 (-440) <= val a <= bpow radix2 400 ->
  if (nabs x <? a * confusion)%num then Rabs (val x / val a) <= 1001 / 10000000000 else 999 / 10000000000 <= Rabs (val x / val a).
Proof.
  intros Na Nx Ba. destruct conf_dbl as [Nc Ec]. pose proof (bpow_gt_0 radix2 (-440)) as P0. pose proof U_pos as [U0 U1].
  assert (Rabs (val a * val confusion) <= bpow radix2 1023) as B.
  { apply Rle_trans with (bpow radix2 400 * 1); [|rewrite Rmult_1_r; apply bpow_le; lia]. rewrite Rabs_mult. apply Rabs_def2_le in Ec. apply Rmult_le_compat; try apply Rabs_pos; apply Rabs_le; lra. }
  destruct (f_mul a confusion Na Nc B) as [Nm Vm]. destruct (f_abs x Nx) as [Nabs Vabs]. cbn [nabs nltb nmul F_num].
  apply Rabs_def2_le in Ec. assert (9999999 / 10000000 / 10000000 <= val (confusion : PrimFloat.float) <= 10000001 / 10000000 / 10000000) as Bc by (unfold U in *; lra).
  assert (bpow radix2 (-1022) <= Rabs (val a * val confusion)) as L.
  { rewrite Rabs_pos_eq by nra. apply Rle_trans with (bpow radix2 (-440) * bpow radix2 (-30)); [rewrite <- bpow_plus; apply bpow_le; lia|]. apply Rmult_le_compat; try apply bpow_ge_0; [lra|]. change (bpow radix2 (-30)) with (/ 1073741824). lra. }
  pose proof (rel_any _ L) as R. rewrite <- Vm in R. rewrite (Rabs_pos_eq (val a * val confusion)) in R by nra. apply Rabs_def2_le in R.
  set (t := val (a * confusion)%float) in *. set (k := val confusion) in *. assert (0 < val a) as A0 by lra.
  assert (val a * (999 / 10000000000) <= t <= val a * (1001 / 10000000000)) as Bt by (unfold U in *; split; nra).
  assert (Rabs (val x / val a) * val a = Rabs (val x)) as F by (unfold Rdiv; rewrite Rabs_mult, Rabs_inv, (Rabs_pos_eq (val a)) by lra; field; lra).
  destruct (PrimFloat.ltb _ _) eqn:E.
  - apply (f_ltb _ _ Nabs Nm) in E. rewrite Vabs in E. fold t in E. apply (Rmult_le_reg_r (val a)); [exact A0|]. rewrite F. lra.
  - apply (f_ltb_false _ _ Nabs Nm) in E. rewrite Vabs in E. fold t in E. apply (Rmult_le_reg_r (val a)); [exact A0|]. rewrite F. lra.
Qed.

Lemma sign_of (x a : PrimFloat.float) X h : number x -> 0 < val a -> Rabs (val x / val a - X) <= h -> h < Rabs X ->
  nsign x = (if Rlt_dec X 0 then true else false) /\ 0 < val x / val a * X.
Proof.
  intros Nx Ha E H. apply Rabs_def2_le in E. assert (val x / val a * val a = val x) as F by (field; lra). set (q := val x / val a) in *.
  destruct (Rlt_dec X 0) as [L|L].
  - rewrite Rabs_left in H by exact L. split; [apply sign_neg; [exact Nx|nra]|nra].
  - rewrite Rabs_pos_eq in H by lra. split; [apply sign_pos; [exact Nx|nra]|nra].
Qed.

(** the argument of the arctangent *)
Lemma ratio_dbl (a b x y : PrimFloat.float) : number a -> number b -> number x -> number y ->
  bpow radix2 (-440) <= val a <= bpow radix2 400 -> bpow radix2 (-440) <= val b <= bpow radix2 400 -> val a <= bpow radix2 20 * val b -> val b <= bpow radix2 20 * val a ->
  999 / 10000000000 <= Rabs (val x / val a) <= 2 -> 999 / 10000000000 <= Rabs (val y / val b) <= 2 ->
  let r := val y / val b / (val x / val a) in
  number (y * (a / b) / x)%float /\ Rabs (val (y * (a / b) / x)%float - r) <= 4 * U * Rabs r.
Proof.
  intros Na Nb Nx Ny Ba Bb Rab Rba Bx By. cbv zeta. pose proof (bpow_gt_0 radix2 (-440)) as P0. pose proof U_pos as [U0 U1].
  assert (0 < val a /\ 0 < val b) as [A0 B0] by lra.
  assert (val x <> 0) as x0. { intros E. rewrite E in Bx. unfold Rdiv in Bx. rewrite Rmult_0_l, Rabs_R0 in Bx. lra. }
  assert (val x / val a <> 0) as xa0 by (intros E; rewrite E, Rabs_R0 in Bx; lra).
  assert (forall p q : R, 0 < q -> p <= bpow radix2 20 * q -> p / q <= bpow radix2 20) as Q. { intros p q q0 H. apply (Rmult_le_reg_r q); [exact q0|]. unfold Rdiv. rewrite Rmult_assoc, Rinv_l by lra. lra. }
  pose proof (Q _ _ B0 Rab) as Q1. pose proof (Q _ _ A0 Rba) as Q2.
  assert (bpow radix2 (-20) <= val a / val b) as Q3.
  { apply (Rmult_le_reg_r (val b)); [exact B0|]. unfold Rdiv. rewrite Rmult_assoc, Rinv_l, Rmult_1_r by lra. apply (Rmult_le_reg_l (bpow radix2 20)); [apply bpow_gt_0|]. rewrite <- Rmult_assoc, <- bpow_plus. change (bpow radix2 (20 + -20)) with 1. lra. }
  set (q := val a / val b) in *. assert (0 < q) as q0 by (apply Rdiv_lt_0_compat; assumption).
  assert (1 <= bpow radix2 20 <= bpow radix2 1023) as P20 by (split; [change (bpow radix2 20) with 1048576; lra|apply bpow_le; lia]).
  destruct (f_div a b Na Nb ltac:(lra)) as [Nq Vq]; [fold q; rewrite Rabs_pos_eq; lra|]. fold q in Vq.
  assert (Rabs (rnd q - q) <= U * q) as Eq. { rewrite <- (Rabs_pos_eq q) at 3 by lra. apply rel_any. rewrite Rabs_pos_eq by lra. eapply Rle_trans; [|exact Q3]. apply bpow_le. lia. }
  rewrite <- Vq in Eq. set (fq := (a / b)%float) in *.
  (* the product *)
  set (Yv := val y) in *. set (Xv := val x) in *.
  assert (Rabs Yv = Rabs (Yv / val b) * val b) as AY. { unfold Rdiv. rewrite Rabs_mult, Rabs_inv, (Rabs_pos_eq (val b)) by lra. field. lra. }
  assert (Rabs Xv = Rabs (Xv / val a) * val a) as AX. { unfold Rdiv. rewrite Rabs_mult, Rabs_inv, (Rabs_pos_eq (val a)) by lra. field. lra. }
  apply Rabs_def2_le in Eq. set (qf := val fq) in *.
  assert (999 / 1000 * q <= qf <= 1001 / 1000 * q) as Bq by (unfold U in *; split; nra).
  assert (val b * q = val a) as BQ by (unfold q; field; lra).
  assert (Rabs (Yv * qf) <= 3 * val a /\ 998 / 10000000000 * val a <= Rabs (Yv * qf)) as [Z1 Z2].
  { rewrite Rabs_mult, (Rabs_pos_eq qf) by lra. rewrite AY. set (s := Rabs (Yv / val b)) in *. rewrite Rmult_assoc.
    assert (999 / 1000 * val a <= val b * qf <= 1001 / 1000 * val a) as K by (rewrite <- BQ; split; nra). clear - K By A0. split; [|rewrite Rmult_comm]; nra. }
  assert (bpow radix2 (-30) = / 1073741824) as p30 by reflexivity.
  assert (bpow radix2 (-470) <= 998 / 10000000000 * val a) as Z3. { apply Rle_trans with (bpow radix2 (-440) * bpow radix2 (-30)); [rewrite <- bpow_plus; apply bpow_le; lia|]. rewrite p30, Rmult_comm. apply Rmult_le_compat; lra. }
  assert (3 * val a <= bpow radix2 402) as Z4. { change 402%Z with (2 + 400)%Z. rewrite bpow_plus. change (bpow radix2 2) with 4. lra. }
  destruct (f_mul y fq Ny Nq) as [Nm Vm]. { fold qf Yv. eapply Rle_trans; [exact Z1|]. eapply Rle_trans; [exact Z4|]. apply bpow_le. lia. }
  fold qf Yv in Vm.
  assert (Rabs (val (y * fq)%float - Yv * qf) <= U * Rabs (Yv * qf)) as Em. { rewrite Vm. apply rel_any. eapply Rle_trans; [|exact Z2]. eapply Rle_trans; [|exact Z3]. apply bpow_le. lia. }
  set (P := Yv * qf) in *. set (fp := (y * fq)%float) in *. set (pf := val fp) in *.
  assert (Rabs P * (999 / 1000) <= Rabs pf <= Rabs P * (1001 / 1000)) as Bp.
  { pose proof (Rabs_triang_inv P pf) as T1. pose proof (Rabs_triang_inv pf P) as T2. rewrite (Rabs_minus_sym P pf) in T1. pose proof (Rabs_pos P). unfold U in *. nra. }
  (* the quotient *)
  assert (Rabs (pf / Xv) <= bpow radix2 60 /\ bpow radix2 (-60) <= Rabs (pf / Xv)) as [W1 W2].
  { unfold Rdiv. rewrite Rabs_mult, Rabs_inv. assert (0 < Rabs Xv) as X0 by (apply Rabs_pos_lt; exact x0). split; apply (Rmult_le_reg_r (Rabs Xv)); try exact X0; rewrite Rmult_assoc, Rinv_l, Rmult_1_r by lra; rewrite AX.
    - change (bpow radix2 60) with 1152921504606846976. set (s := Rabs (Xv / val a)) in *. clear - Bx Bp Z1 A0. nra.
    - change (bpow radix2 (-60)) with (/ 1152921504606846976). set (s := Rabs (Xv / val a)) in *. clear - Bx Bp Z2 A0. nra. }
  destruct (f_div fp x Nm Nx x0) as [Nz Vz]. { fold pf Xv. eapply Rle_trans; [exact W1|]. apply bpow_le. lia. }
  fold pf Xv in Vz.
  assert (Rabs (val (fp / x)%float - pf / Xv) <= U * Rabs (pf / Xv)) as Ez. { rewrite Vz. apply rel_any. eapply Rle_trans; [|exact W2]. apply bpow_le. lia. }
  split; [exact Nz|]. set (z := val (fp / x)%float) in *.
  (* the whole *)
  set (r := Yv / val b / (Xv / val a)). assert (r = Yv * q / Xv) as Er. { unfold r, q. field. repeat split; lra. }
  assert (Rabs (P / Xv - r) <= U * Rabs r) as E1.
  { rewrite Er. replace (P / Xv - Yv * q / Xv) with (Yv * / Xv * (qf - q)) by (unfold P; field; exact x0). replace (Yv * q / Xv) with (Yv * / Xv * q) by (field; exact x0). rewrite !Rabs_mult, (Rabs_pos_eq q) by lra.
    replace (U * (Rabs Yv * Rabs (/ Xv) * q)) with (Rabs Yv * Rabs (/ Xv) * (U * q)) by ring. apply Rmult_le_compat_l; [apply Rmult_le_pos; apply Rabs_pos|]. apply Rabs_le. lra. }
  assert (Rabs (pf / Xv - P / Xv) <= U * Rabs (P / Xv)) as E2.
  { replace (pf / Xv - P / Xv) with ((pf - P) * / Xv) by (field; exact x0). unfold Rdiv. rewrite !Rabs_mult. rewrite <- Rmult_assoc. apply Rmult_le_compat_r; [apply Rabs_pos|exact Em]. }
  assert (Rabs (P / Xv) <= (1 + U) * Rabs r) as B1. { pose proof (Rabs_triang_inv (P / Xv) r). lra. }
  assert (Rabs (pf / Xv) <= (1 + U) * ((1 + U) * Rabs r)) as B2. { pose proof (Rabs_triang_inv (pf / Xv) (P / Xv)). nra. }
  pose proof (Rabs_pos r) as r0. replace (z - r) with ((z - pf / Xv) + ((pf / Xv - P / Xv) + (P / Xv - r))) by ring.
  eapply Rle_trans; [apply Rabs_triang|]. eapply Rle_trans; [apply Rplus_le_compat_l, Rabs_triang|].
  apply Rle_trans with (U * ((1 + U) * ((1 + U) * Rabs r)) + (U * ((1 + U) * Rabs r) + U * Rabs r)).
  - repeat apply Rplus_le_compat; [eapply Rle_trans; [exact Ez|apply Rmult_le_compat_l; [lra|exact B2]]|eapply Rle_trans; [exact E2|apply Rmult_le_compat_l; [lra|exact B1]]|exact E1].
  - unfold U. set (s := Rabs r) in *. lra.
Qed.

(** the multiples of the right angle *)
Lemma lit_3 : number (nlit 3 1 : PrimFloat.float) /\ val (nlit 3 1 : PrimFloat.float) = 3.
Proof.
  assert (Prim2SF (nlit 3 1 : PrimFloat.float) = S754_finite false 6755399441055744 (-51)) as E by (vm_compute; reflexivity).
  rewrite number_SF, val_SF, E. split; [reflexivity|]. unfold SF2R, F2R. cbn [cond_Zopp Fnum Fexp]. change (bpow radix2 (-51)) with (/ 2251799813685248). lra.
Qed.
Lemma lit_2 : number (nlit 2 1 : PrimFloat.float) /\ val (nlit 2 1 : PrimFloat.float) = 2.
Proof.
  assert (Prim2SF (nlit 2 1 : PrimFloat.float) = S754_finite false 4503599627370496 (-51)) as E by (vm_compute; reflexivity).
  rewrite number_SF, val_SF, E. split; [reflexivity|]. unfold SF2R, F2R. cbn [cond_Zopp Fnum Fexp]. change (bpow radix2 (-51)) with (/ 2251799813685248). lra.
Qed.
Lemma lit_0 : number (nlit 0 1 : PrimFloat.float) /\ val (nlit 0 1 : PrimFloat.float) = 0.
Proof.
  assert (Prim2SF (nlit 0 1 : PrimFloat.float) = S754_zero false) as E by (vm_compute; reflexivity).
  rewrite number_SF, val_SF, E. split; reflexivity.
Qed.
Lemma pi_le : 3 <= PI <= 347 / 100.
Proof. pose proof PI2_3_2. split; [lra|]. pose proof (PI_ineq 1) as [_ L1]. cbn in L1. unfold tg_alt, PI_tg in L1. cbn in L1. lra. Qed.
Lemma half_err (x : PrimFloat.float) : number x -> Rabs (val x) <= 16 -> number (x / nlit 2 1)%float /\ Rabs (val (x / nlit 2 1)%float - val x / 2) <= 8 * U.
Proof.
  intros N B. destruct lit_2 as [N2 V2]. assert (Rabs (val x / 2) <= 8) as B8 by (unfold Rdiv; rewrite Rabs_mult, (Rabs_pos_eq (/ 2)) by lra; lra).
  destruct (bounds_1000 8 ltac:(lra)) as [Z1 Z2].
  destruct (f_div x (nlit 2 1) N N2 ltac:(lra)) as [Nd Vd]; rewrite V2 in *. { eapply Rle_trans; [exact B8|]. eapply Rle_trans; [exact Z2|]. apply bpow_le. lia. }
  split; [exact Nd|]. rewrite Vd, Rmult_comm. apply rnd_err; assumption.
Qed.
Lemma right_angles (T : Trig PrimFloat.float) : accurate T ->
  (number (npi / nlit 2 1)%float /\ Rabs (val (npi / nlit 2 1)%float - PI / 2) <= 20 * U) /\
  (number (nlit 3 1 * npi / nlit 2 1)%float /\ Rabs (val (nlit 3 1 * npi / nlit 2 1)%float - 3 * PI / 2) <= 20 * U) /\
  (number npi /\ Rabs (val npi - PI) <= 2 * U).
Proof.
  intros ((NP & VP) & _). assert (powerRZ 2 (-52) = 2 * U) as E2. { rewrite two_p. change (bpow radix2 (-52)) with (/ 4503599627370496). unfold U. field. }
  rewrite E2 in VP. pose proof pi_le as BP. pose proof U_pos as [U0 U1]. pose proof VP as VP'. apply Rabs_def2_le in VP.
  split; [|split; [|split; [exact NP|exact VP']]].
  - destruct (half_err npi NP) as [N E]; [apply Rabs_le; lra|]. split; [exact N|]. apply Rabs_def2_le in E. apply Rabs_le. lra.
  - destruct lit_3 as [N3 V3]. destruct (bounds_1000 11 ltac:(lra)) as [Z1 Z2]. destruct (mul_err (nlit 3 1) npi 11 N3 NP Z1 Z2) as [N E]; rewrite V3 in *; [apply Rabs_le; lra|].
    apply Rabs_def2_le in E. destruct (half_err (nlit 3 1 * npi)%float N) as [N' E']; [apply Rabs_le; lra|]. split; [exact N'|]. apply Rabs_def2_le in E'. apply Rabs_le. lra.
Qed.

Section Core.
Context (T : Trig PrimFloat.float).
Variables (a b x y : PrimFloat.float) (phi h : R).
Hypotheses (HT : accurate T) (HA : accurate_atan T) (Na : number a) (Nb : number b) (Nx : number x) (Ny : number y)
  (Ba : bpow radix2 (-440) <= val a <= bpow radix2 400) (Bb : bpow radix2 (-440) <= val b <= bpow radix2 400) (Rab : val a <= bpow radix2 20 * val b) (Rba : val b <= bpow radix2 20 * val a)
  (Hphi : 0 <= phi < 2 * PI) (Hh : 0 <= h <= / 33554432) (Ex : Rabs (val x / val a - cos phi) <= h) (Ey : Rabs (val y / val b - sin phi) <= h).
Lemma core :
  (Rabs (cos phi) <= 131 / 1000000000 /\ angle_of a b x y = (if Rlt_dec (sin phi) 0 then nlit 3 1 * npi / nlit 2 1 else npi / nlit 2 1)%num) \/
  (69 / 1000000000 <= Rabs (cos phi) /\ Rabs (sin phi) <= 131 / 1000000000 /\ angle_of a b x y = (if Rlt_dec (cos phi) 0 then npi else n0)%num) \/
  (69 / 1000000000 <= Rabs (cos phi) /\ 69 / 1000000000 <= Rabs (sin phi) /\ number (angle_of a b x y) /\ Rabs (val (angle_of a b x y) - phi) <= 21 / 10 * h + 28 * U).
Proof.
  pose proof (bpow_gt_0 radix2 (-440)) as P0. pose proof U_pos as [U0 U1]. assert (0 < val a /\ 0 < val b) as [A0 B0] by lra.
  pose proof (threshold a x Na Nx Ba) as Tx. pose proof (threshold b y Nb Ny Bb) as Ty.
  pose proof (sin2_cos2 phi) as SC. unfold Rsqr in SC.
  assert (forall X Y, X * X + Y * Y = 1 -> Rabs X <= 131 / 1000000000 -> h < Rabs Y) as Other.
  { intros X Y E HX. apply Rabs_def2_le in HX. apply Rnot_le_lt. intros HY. apply Rabs_def2_le in HY. nra. }
  assert (forall u V, Rabs (u - V) <= h -> Rabs u <= Rabs V + h /\ Rabs V <= Rabs u + h) as Abs.
  { intros u V E. pose proof (Rabs_triang_inv u V). pose proof (Rabs_triang_inv V u) as I. rewrite (Rabs_minus_sym V u) in I. lra. }
  destruct (Abs _ _ Ex) as [X1 X2]. destruct (Abs _ _ Ey) as [Y1 Y2].
  unfold angle_of. destruct (nabs x <? a * confusion)%num eqn:Cx.
  { left. assert (Rabs (cos phi) <= 131 / 1000000000) as C by lra. split; [exact C|].
    destruct (sign_of y b (sin phi) h Ny B0 Ey) as [S _]; [apply (Other (cos phi)); [lra|exact C]|]. rewrite S. destruct (Rlt_dec (sin phi) 0); reflexivity. }
  right. assert (69 / 1000000000 <= Rabs (cos phi)) as C by lra.
  destruct (sign_of x a (cos phi) h Nx A0 Ex ltac:(lra)) as [Sx Px]. rewrite Sx.
  destruct (nabs y <? b * confusion)%num eqn:Cy.
  { left. split; [exact C|]. split; [lra|]. destruct (Rlt_dec (cos phi) 0); reflexivity. }
  right. assert (69 / 1000000000 <= Rabs (sin phi)) as D by lra. split; [exact C|]. split; [exact D|].
  destruct (sign_of y b (sin phi) h Ny B0 Ey ltac:(lra)) as [Sy Py]. rewrite Sy.
  assert (Rabs (cos phi) <= 1 /\ Rabs (sin phi) <= 1) as [C1 S1] by (split; apply Rabs_le; [destruct (COS_bound phi)|destruct (SIN_bound phi)]; lra).
  destruct (ratio_dbl a b x y Na Nb Nx Ny Ba Bb Rab Rba ltac:(lra) ltac:(lra)) as [Nz Ez]. cbn [nmul ndiv nadd F_num]. set (z := (y * (a / b) / x)%float) in *. set (r := val y / val b / (val x / val a)) in *.
  destruct (HA z Nz) as [Nt Et]. set (t := natan z) in *.
  assert (powerRZ 2 (-52) = 2 * U) as E2. { rewrite two_p. change (bpow radix2 (-52)) with (/ 4503599627370496). unfold U. field. } rewrite E2 in Et.
  pose proof (atan_rel r (val z) (4 * U) ltac:(lra) Ez) as E3.
  assert (Rabs (atan r - atan (sin phi / cos phi)) <= 21 / 10 * h) as E4. { unfold r. apply atan_near; [lra|lra|exact Ex|exact Ey|exact Px|exact Py]. }
  assert (cos phi <> 0 /\ sin phi <> 0) as [c0 s0] by (split; intros E; rewrite E, Rabs_R0 in *; lra).
  pose proof (angle_is phi Hphi c0 s0) as AI. pose proof (atan_bound (sin phi / cos phi)) as AB. pose proof pi_le as BP.
  apply Rabs_def2_le in Et. apply Rabs_def2_le in E3. apply Rabs_def2_le in E4.
  set (w := atan (sin phi / cos phi)) in *. destruct (right_angles T HT) as (_ & _ & NP & EP). destruct (two_pi T HT) as (N2 & E2p & _). apply Rabs_def2_le in EP. apply Rabs_def2_le in E2p. cbn [nmul F_num] in N2, E2p.
  destruct (bounds_1000 10 ltac:(lra)) as [Z1 Z2].
  destruct (Rlt_dec (cos phi) 0) as [Lc|Lc]; destruct (Rlt_dec (sin phi) 0) as [Ls|Ls]; cbn [negb andb].
  - destruct (add_err npi t 10 NP Nt Z1 Z2) as [N E]; [apply Rabs_le; lra|]. split; [exact N|]. apply Rabs_def2_le in E. apply Rabs_le. lra.
  - destruct (add_err npi t 10 NP Nt Z1 Z2) as [N E]; [apply Rabs_le; lra|]. split; [exact N|]. apply Rabs_def2_le in E. apply Rabs_le. lra.
  - destruct (add_err (nlit 2 1 * npi)%float t 10 N2 Nt Z1 Z2) as [N E]; [apply Rabs_le; lra|]. split; [exact N|]. apply Rabs_def2_le in E. apply Rabs_le. lra.
  - split; [exact Nt|]. apply Rabs_le. lra.
Qed.
End Core.
