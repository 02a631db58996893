(** Points of circles and ellipses and sampled points in double precision. *)

From Coq Require Import ZArith Reals List Lra Lia Psatz Bool.
From Flocq Require Import Core.Core IEEE754.BinarySingleNaN IEEE754.PrimFloat.
From Coq Require Import Floats.
From Verif Require Import Base NumModel VecModel LinModel RoundModel SampModel
  GeoSpec DblSpec GeoLemmas DblLemmas DblProofs DblLen LinDblSpec LinDblBase LinDblFoot LinDblProofs RndDblSpec TrigDblSpec PtDblSpec.
Local Open Scope R_scope.

Lemma U_two : powerRZ 2 (-53) = U.
Proof. rewrite two_p. reflexivity. Qed.
Lemma mod_sized M : moderate M -> sized M.
Proof.
  unfold moderate, sized. rewrite !two_p. intros [A B]. split.
  - eapply Rle_trans; [|exact A]. apply bpow_le. lia.
  - eapply Rle_trans; [exact B|]. apply bpow_le. lia.
Qed.

Section Sums.
Variable M : R.
Hypothesis HM : sized M.
Let e := U * M.
Lemma e_small : 0 < e <= / 1000000 * M /\ 0 < M.
Proof. pose proof (sized_pos M HM). pose proof U_pos. unfold e. split; [|assumption]. split; [apply Rmult_lt_0_compat; lra|apply Rmult_le_compat_r; lra]. Qed.

(** one component of a point plus a multiple of a direction *)
Lemma step (p u x : PrimFloat.float) P X j k kx : number p -> number u -> number x -> 0 <= j <= 5 -> 0 <= k <= 300 -> 0 <= kx <= 100 ->
  Rabs (val p - P) <= k * e -> Rabs P <= j * M -> Rabs (val u) <= 1001 / 1000 -> Rabs (val x - X) <= kx * e -> Rabs X <= M ->
  number (p + u * x)%float /\ Rabs (val (p + u * x)%float - (P + val u * X)) <= (k + 1001 / 1000 * kx + j + 23 / 10) * e /\
  Rabs (P + val u * X) <= (j + 1001 / 1000) * M.
Proof.
  intros Np Nu Nx Hj Hk Hkx EP BP BU EX BX. destruct e_small as [E1 M0].
  assert (k * e <= 300 * e) as K1 by (apply Rmult_le_compat_r; lra). assert (kx * e <= 100 * e) as K2 by (apply Rmult_le_compat_r; lra).
  pose proof (prod_le _ _ _ _ BU BX) as PX. pose proof (prod_err _ _ _ _ _ BU EX) as DX.
  assert (Rabs (val x) <= 1001 / 1000 * M) as BX'. { apply Rabs_def2_le in EX. apply Rabs_def2_le in BX. apply Rabs_le. lra. }
  pose proof (prod_le _ _ _ _ BU BX') as PX'.
  destruct (sized_scale (11 / 10) M ltac:(lra) HM) as [Z1 Z2].
  destruct (mul_err u x (11 / 10 * M) Nu Nx Z1 Z2) as [Nq Eq]; [lra|]. set (q := (u * x)%float) in *.
  replace (U * (11 / 10 * M)) with (11 / 10 * e) in Eq by (unfold e; ring).
  assert (0 <= j * M <= 5 * M) as JM by (split; [apply Rmult_le_pos; lra|apply Rmult_le_compat_r; lra]).
  destruct (sized_scale (j + 12 / 10) M ltac:(lra) HM) as [Z3 Z4].
  apply Rabs_def2_le in Eq. apply Rabs_def2_le in PX. apply Rabs_def2_le in PX'. apply Rabs_def2_le in EP. apply Rabs_def2_le in BP. apply Rabs_def2_le in DX.
  assert (Rabs (val p + val q) <= (j + 12 / 10) * M) as BS. { replace ((j + 12 / 10) * M) with (j * M + 12 / 10 * M) by ring. apply Rabs_le. lra. }
  destruct (add_err p q ((j + 12 / 10) * M) Np Nq Z3 Z4 BS) as [Ns Es].
  replace (U * ((j + 12 / 10) * M)) with (j * e + 12 / 10 * e) in Es by (unfold e; ring). apply Rabs_def2_le in Es.
  split; [exact Ns|]. split.
  - replace ((k + 1001 / 1000 * kx + j + 23 / 10) * e) with (k * e + 1001 / 1000 * (kx * e) + j * e + 23 / 10 * e) by ring. apply Rabs_le. lra.
  - replace ((j + 1001 / 1000) * M) with (j * M + 1001 / 1000 * M) by ring. apply Rabs_le. lra.
Qed.

(** a product with a cosine or sine *)
Lemma polar (q r c : PrimFloat.float) R0 C0 k : q = (r * c)%float \/ q = (c * r)%float -> number r -> number c -> 0 <= k <= 60 -> Rabs (val r - R0) <= e -> 0 <= R0 <= M -> Rabs (val c - C0) <= k * U -> Rabs C0 <= 1 ->
  number q /\ Rabs (val q - R0 * C0) <= (k + 22 / 10) * e /\ Rabs (R0 * C0) <= M.
Proof.
  intros Hq Nr Nc Hk Er BR Ec BC. destruct e_small as [E1 M0]. pose proof U_pos as U0.
  assert (k * U <= 60 * U) as K by (apply Rmult_le_compat_r; lra).
  assert (Rabs (val r) <= 1001 / 1000 * M) as B1. { apply Rabs_def2_le in Er. apply Rabs_le. lra. }
  assert (Rabs (val c) <= 1001 / 1000) as B2. { apply Rabs_def2_le in Ec. apply Rabs_def2_le in BC. apply Rabs_le. lra. }
  pose proof (prod_le _ _ _ _ B1 B2) as P1.
  destruct (sized_scale (11 / 10) M ltac:(lra) HM) as [Z1 Z2]. 
  assert (number q /\ Rabs (val q - val r * val c) <= U * (11 / 10 * M)) as [N E].
  { destruct Hq as [-> | ->]; [apply mul_err; try assumption; lra|]. rewrite (Rmult_comm (val r)). apply mul_err; try assumption. rewrite (Rmult_comm (val c)). lra. }
  assert (Rabs R0 <= M) as BR' by (rewrite Rabs_pos_eq; lra).
  pose proof (prod_err _ _ _ _ _ B2 Er) as D1. pose proof (prod_err _ _ _ _ _ BR' Ec) as D2. pose proof (prod_le _ _ _ _ BR' BC) as D3.
  split; [exact N|]. split; [|lra].
  replace (U * (11 / 10 * M)) with (11 / 10 * e) in E by (unfold e; ring). replace (M * (k * U)) with (k * e) in D2 by (unfold e; ring).
  replace (val c * val r) with (val r * val c) in D1 by ring. replace (val c * R0) with (R0 * val c) in D1 by ring.
  apply Rabs_def2_le in E. apply Rabs_def2_le in D1. apply Rabs_def2_le in D2. replace ((k + 22 / 10) * e) with (k * e + 22 / 10 * e) by ring. apply Rabs_le. lra.
Qed.
End Sums.

(** the sum of a centre and multiples of two or three directions *)
Section Frame.
Variables (M : R) (c u v w : V3 PrimFloat.float) (x y z : PrimFloat.float) (X Y Z kx : R).
Hypotheses (HM : sized M) (Hc : point_upto M c) (Hu : direction u) (Hv : direction v) (Hw : direction w) (Nx : number x) (Ny : number y) (Nz : number z).
Hypotheses (Hk : 0 <= kx <= 100) (Ex : Rabs (val x - X) <= kx * (U * M)) (Ey : Rabs (val y - Y) <= kx * (U * M)) (Ez : val z = Z).
Hypotheses (BX : Rabs X <= M) (BY : Rabs Y <= M) (BZ : Rabs Z <= M).
Let e := U * M.
Lemma comp_dir (d : V3 PrimFloat.float) : direction d -> Rabs (val (vx d)) <= 1001 / 1000 /\ Rabs (val (vy d)) <= 1001 / 1000 /\ Rabs (val (vz d)) <= 1001 / 1000.
Proof. intros H. destruct (dir_norm d H) as (_ & L & _). destruct (comp_norm (val3 d)) as (A & B & C). cbn [val3 vx vy vz] in A, B, C. lra. Qed.
Lemma two_steps (cc uu vv : PrimFloat.float) : number cc -> number uu -> number vv -> Rabs (val cc) <= M -> Rabs (val uu) <= 1001 / 1000 -> Rabs (val vv) <= 1001 / 1000 ->
  number (cc + uu * x + vv * y)%float /\ Rabs (val (cc + uu * x + vv * y)%float - (val cc + val uu * X + val vv * Y)) <= (2002 / 1000 * kx + 77 / 10) * e /\
  Rabs (val cc + val uu * X + val vv * Y) <= 3002 / 1000 * M.
Proof.
  intros Nc Nu Nv Bc Bu Bv. destruct (e_small M HM) as [E0 M0]. fold e in E0.
  destruct (step M HM cc uu x (val cc) X 1 0 kx Nc Nu Nx ltac:(lra) ltac:(lra) Hk) as (N1 & E1 & B1); try assumption; [rewrite Rminus_diag_eq, Rabs_R0 by reflexivity; fold e; lra|lra|].
  fold e in E1. destruct (step M HM (cc + uu * x)%float vv y (val cc + val uu * X) Y (2001 / 1000) (0 + 1001 / 1000 * kx + 1 + 23 / 10) kx N1 Nv Ny ltac:(lra) ltac:(lra) Hk E1) as (N2 & E2 & B2); try assumption; [lra|].
  fold e in E2. split; [exact N2|]. split; [|lra]. eapply Rle_trans; [exact E2|]. apply Rmult_le_compat_r; lra.
Qed.
Lemma frame2 : let p := vadd (vadd c (vscale u x)) (vscale v y) in
  number3 p /\ dist (val3 p) (frame_point (val3 c) (val3 u) (val3 v) (val3 w) X Y 0) <= 1733 / 1000 * ((2002 / 1000 * kx + 77 / 10) * e).
Proof.
  cbv zeta. destruct c as [cx cy cz], u as [ux uy uz], v as [vx_ vy_ vz_]. destruct Hc as [(C1 & C2 & C3) (D1 & D2 & D3)].
  destruct (comp_dir _ Hu) as (U1 & U2 & U3). destruct (comp_dir _ Hv) as (V1 & V2 & V3').
  destruct Hu as [(NU1 & NU2 & NU3) _], Hv as [(NV1 & NV2 & NV3) _]. cbn [vx vy vz] in *.
  destruct (two_steps cx ux vx_) as (N1 & E1 & _); try assumption. destruct (two_steps cy uy vy_) as (N2 & E2 & _); try assumption. destruct (two_steps cz uz vz_) as (N3 & E3 & _); try assumption.
  unfold vadd, vscale, frame_point, padd, pscale, val3, dist, psub. cbn [vx vy vz nadd nmul F_num].
  split; [exact (conj N1 (conj N2 N3))|].
  apply norm_le; cbn [vx vy vz]; eapply Rle_trans; [|exact E1| |exact E2| |exact E3]; right; f_equal; ring.
Qed.
Lemma frame3 : let p := vadd (vadd (vadd c (vscale u x)) (vscale v y)) (vscale w z) in
  number3 p /\ dist (val3 p) (frame_point (val3 c) (val3 u) (val3 v) (val3 w) X Y Z) <= 1733 / 1000 * ((2002 / 1000 * kx + 131 / 10) * e).
Proof.
  cbv zeta. destruct c as [cx cy cz], u as [ux uy uz], v as [vx_ vy_ vz_], w as [wx wy wz]. destruct Hc as [(C1 & C2 & C3) (D1 & D2 & D3)].
  destruct (comp_dir _ Hu) as (U1 & U2 & U3). destruct (comp_dir _ Hv) as (V1 & V2 & V3'). destruct (comp_dir _ Hw) as (W1 & W2 & W3).
  destruct Hu as [(NU1 & NU2 & NU3) _], Hv as [(NV1 & NV2 & NV3) _], Hw as [(NW1 & NW2 & NW3) _]. cbn [vx vy vz] in *.
  destruct (e_small M HM) as [E0 M0]. fold e in E0.
  assert (forall cc uu vv ww : PrimFloat.float, number cc -> number uu -> number vv -> number ww -> Rabs (val cc) <= M -> Rabs (val uu) <= 1001 / 1000 -> Rabs (val vv) <= 1001 / 1000 -> Rabs (val ww) <= 1001 / 1000 ->
    number (cc + uu * x + vv * y + ww * z)%float /\ Rabs (val (cc + uu * x + vv * y + ww * z)%float - (val cc + val uu * X + val vv * Y + val ww * Z)) <= (2002 / 1000 * kx + 131 / 10) * e) as K.
  { intros cc uu vv ww Nc Nu Nv Nw Bc Bu Bv Bw. destruct (two_steps cc uu vv Nc Nu Nv Bc Bu Bv) as (N2 & E2 & B2).
    destruct (step M HM (cc + uu * x + vv * y)%float ww z _ Z (3002 / 1000) (2002 / 1000 * kx + 77 / 10) 0 N2 Nw Nz ltac:(lra) ltac:(lra) ltac:(lra) E2 B2 Bw) as (N3 & E3 & _); [rewrite Ez, Rminus_diag_eq, Rabs_R0 by reflexivity; fold e; lra|exact BZ|].
    fold e in E3. split; [exact N3|]. eapply Rle_trans; [exact E3|]. apply Rmult_le_compat_r; lra. }
  destruct (K cx ux vx_ wx) as (N1 & E1); try assumption. destruct (K cy uy vy_ wy) as (N2 & E2); try assumption. destruct (K cz uz vz_ wz) as (N3 & E3); try assumption.
  unfold vadd, vscale, frame_point, padd, pscale, val3, dist, psub. cbn [vx vy vz nadd nmul F_num].
  split; [exact (conj N1 (conj N2 N3))|].
  apply norm_le; cbn [vx vy vz]; eapply Rle_trans; [|exact E1| |exact E2| |exact E3]; right; f_equal; ring.
Qed.
End Frame.

(** ** Sampled points *)
Lemma sqrt_dbl M (d : PrimFloat.float) : sized M -> number d -> 0 <= val d <= M * M ->
  number (PrimFloat.sqrt d) /\ Rabs (val (PrimFloat.sqrt d) - R_sqrt.sqrt (val d)) <= U * M /\ 0 <= R_sqrt.sqrt (val d) <= M.
Proof.
  intros HM N B. pose proof (sized_pos M HM) as M0. destruct (f_sqrt d N (proj1 B)) as [Ns Vs].
  assert (0 <= R_sqrt.sqrt (val d) <= M) as BS. { split; [apply sqrt_pos|]. rewrite <- (sqrt_square M) by lra. apply sqrt_le_1_alt. lra. }
  split; [exact Ns|]. split; [|exact BS]. rewrite Vs. destruct (sized_scale 1 M ltac:(lra) HM) as [Z _]. rewrite Rmult_1_l in Z.
  apply rnd_err; [exact Z|]. rewrite Rabs_pos_eq; lra.
Qed.
Lemma sampled_dbl : forall (T : Trig PrimFloat.float) M (e : ell PrimFloat.float) rr rphi rh d1 d2 d3, accurate T -> moderate M -> ellipse_upto M e ->
  number d1 -> 0 <= val d1 <= M * M -> number d2 -> Rabs (val d2) <= powerRZ 2 20 -> number d3 -> Rabs (val d3) <= M ->
  let p := ps_point (CylSampler e rr rphi rh) d1 d2 d3 in
  number3 p /\ dist (val3 p) (frame_point (val3 (e_c e)) (val3 (e_maj e)) (val3 (e_min e)) (val3 (e_n e))
    (R_sqrt.sqrt (val d1) * cos (val d2)) (R_sqrt.sqrt (val d1) * sin (val d2)) (val d3)) <= powerRZ 2 (-47) * M.
Proof.
  intros T M e rr rphi rh d1 d2 d3 (_ & Tr & _) HM (Hc & Hu & Hv & Hw & _) N1 B1 N2 B2 N3 B3. apply mod_sized in HM. pose proof (e_small M HM) as [E0 M0].
  destruct (Tr d2 N2 B2) as [[Nc Ec] [Ns Es]]. rewrite U_two in Ec, Es. rewrite <- (Rmult_1_l U) in Ec, Es.
  destruct (sqrt_dbl M d1 HM N1 B1) as (Nr & Er & Br). pose proof (COS_bound (val d2)). pose proof (SIN_bound (val d2)).
  destruct (polar M HM _ _ _ _ _ 1 (or_introl eq_refl) Nr Nc ltac:(lra) Er Br Ec ltac:(apply Rabs_le; lra)) as (Nx & Ex & Bx).
  destruct (polar M HM _ _ _ _ _ 1 (or_introl eq_refl) Nr Ns ltac:(lra) Er Br Es ltac:(apply Rabs_le; lra)) as (Ny & Ey & By).
  destruct (frame3 M (e_c e) (e_maj e) (e_min e) (e_n e) _ _ d3 _ _ (val d3) (1 + 22 / 10) HM Hc Hu Hv Hw Nx Ny N3 ltac:(lra) Ex Ey eq_refl Bx By B3) as [N E].
  split; [exact N|]. eapply Rle_trans; [exact E|].
  replace (powerRZ 2 (-47) * M) with (64 * (U * M)); [lra|]. rewrite two_p. change (bpow radix2 (-47)) with (/ 140737488355328). unfold U. field.
Qed.

(** ** Points of ellipses *)
Lemma angle_point_dbl (T : Trig PrimFloat.float) M (e : ell PrimFloat.float) (t : PrimFloat.float) theta k : accurate T -> sized M -> ellipse_upto M e -> number t -> Rabs (val t) <= powerRZ 2 20 ->
  0 <= k <= 50 -> Rabs (val t - theta) <= k * U ->
  number3 (ell_angle_point e t) /\ dist (val3 (ell_angle_point e t))
    (frame_point (val3 (e_c e)) (val3 (e_maj e)) (val3 (e_min e)) (val3 (e_n e)) (val (e_a e) * cos theta) (val (e_b e) * sin theta) 0) <= 1733 / 1000 * ((2002 / 1000 * (k + 32 / 10) + 77 / 10) * (U * M)).
Proof.
  intros (_ & Tr & _) HM (Hc & Hu & Hv & Hw & [NA BA] & [NB BB]) N B Hk Et. pose proof (e_small M HM) as [E0 M0].
  destruct (Tr t N B) as [[Nc Ec] [Ns Es]]. rewrite U_two in Ec, Es.
  assert (forall a b, Rabs (cos a - cos b) <= Rabs (a - b) /\ Rabs (sin a - sin b) <= Rabs (a - b)) as Lip.
  { assert (forall x, Rabs (sin x) <= Rabs x) as S.
    { intros x. destruct (Rtotal_order x 0) as [L|[L|L]].
      - rewrite (Rabs_left x L). assert (sin (- x) < - x) as K by (apply sin_lt_x; lra). rewrite sin_neg in K.
        destruct (Rle_or_lt (- x) PI) as [P|P].
        + assert (0 <= sin (- x)) as Q by (apply sin_ge_0; lra). rewrite sin_neg in Q. rewrite Rabs_left1; lra.
        + pose proof (SIN_bound x). pose proof PI2_3_2. apply Rabs_le. lra.
      - subst x. rewrite sin_0, Rabs_R0. lra.
      - rewrite (Rabs_pos_eq x) by lra. pose proof (sin_lt_x x L). destruct (Rle_or_lt x PI) as [P|P].
        + assert (0 <= sin x) as Q by (apply sin_ge_0; lra). rewrite Rabs_pos_eq; lra.
        + pose proof (SIN_bound x). pose proof PI2_3_2. apply Rabs_le. lra. }
    intros a b. pose proof (S ((a - b) / 2)) as S1. replace (Rabs ((a - b) / 2)) with (Rabs (a - b) / 2) in S1 by (unfold Rdiv; rewrite Rabs_mult, (Rabs_pos_eq (/ 2)) by lra; reflexivity).
    split.
    - rewrite form2. rewrite !Rabs_mult. assert (Rabs (sin ((a + b) / 2)) <= 1) by (pose proof (SIN_bound ((a + b) / 2)); apply Rabs_le; lra).
      rewrite (Rabs_left (-2)) by lra. pose proof (Rabs_pos (sin ((a - b) / 2))). pose proof (Rabs_pos (sin ((a + b) / 2))). nra.
    - rewrite form4. rewrite !Rabs_mult. assert (Rabs (cos ((a + b) / 2)) <= 1) by (pose proof (COS_bound ((a + b) / 2)); apply Rabs_le; lra).
      rewrite (Rabs_pos_eq 2) by lra. pose proof (Rabs_pos (sin ((a - b) / 2))). pose proof (Rabs_pos (cos ((a + b) / 2))). nra. }
  destruct (Lip (val t) theta) as [L1 L2].
  assert (Rabs (val (ncos t) - cos theta) <= (k + 1) * U) as Ec'. { apply Rabs_def2_le in Ec. assert (Rabs (cos (val t) - cos theta) <= k * U) as L by lra. apply Rabs_def2_le in L. apply Rabs_le. lra. }
  assert (Rabs (val (nsin t) - sin theta) <= (k + 1) * U) as Es'. { apply Rabs_def2_le in Es. assert (Rabs (sin (val t) - sin theta) <= k * U) as L by lra. apply Rabs_def2_le in L. apply Rabs_le. lra. }
  pose proof (COS_bound theta). pose proof (SIN_bound theta).
  assert (forall x : PrimFloat.float, Rabs (val x - val x) <= U * M) as Z by (intros x; rewrite Rminus_diag_eq, Rabs_R0 by reflexivity; lra).
  destruct (polar M HM _ _ _ _ _ (k + 1) (or_intror eq_refl) NA Nc ltac:(lra) (Z _) BA Ec' ltac:(apply Rabs_le; lra)) as (Nx & Ex & Bx).
  destruct (polar M HM _ _ _ _ _ (k + 1) (or_intror eq_refl) NB Ns ltac:(lra) (Z _) BB Es' ltac:(apply Rabs_le; lra)) as (Ny & Ey & By).
  unfold ell_angle_point. cbn [nmul F_num].
  replace ((k + 1 + 22 / 10) * (U * M)) with ((k + 32 / 10) * (U * M)) in Ex, Ey by field.
  exact (frame2 M (e_c e) (e_maj e) (e_min e) (e_n e) _ _ _ _ (k + 32 / 10) HM Hc Hu Hv Nx Ny ltac:(lra) Ex Ey Bx By).
Qed.

(** the angle of a parameter *)
Lemma two_pi (T : Trig PrimFloat.float) : accurate T -> number (nlit 2 1 * npi)%float /\ Rabs (val (nlit 2 1 * npi)%float - 2 * PI) <= 11 * U /\ 2 * PI <= 694 / 100.
Proof.
  intros ((NP & VP) & _). assert (powerRZ 2 (-52) = 2 * U) as E2. { rewrite two_p. change (bpow radix2 (-52)) with (/ 4503599627370496). unfold U. field. }
  rewrite E2 in VP. pose proof PI2_3_2. pose proof U_pos.
  assert (2 * PI <= 694 / 100) as P.
  { pose proof (PI_ineq 1) as [_ L1]. cbn in L1. unfold tg_alt, PI_tg in L1. cbn in L1. lra. }
  assert (number (nlit 2 1 : PrimFloat.float) /\ val (nlit 2 1 : PrimFloat.float) = 2) as [N2 V2].
  { assert (Prim2SF (nlit 2 1 : PrimFloat.float) = S754_finite false 4503599627370496 (-51)) as E by (vm_compute; reflexivity).
    rewrite number_SF, val_SF, E. split; [reflexivity|]. unfold SF2R, F2R. cbn [cond_Zopp Fnum Fexp]. change (bpow radix2 (-51)) with (/ 2251799813685248). lra. }
  apply Rabs_def2_le in VP.
  assert (7 <= bpow radix2 1000) as Z1 by (apply Rle_trans with (bpow radix2 3); [change (bpow radix2 3) with 8; lra|apply bpow_le; lia]).
  assert (bpow radix2 (-1000) <= 7) as Z2 by (apply Rle_trans with (bpow radix2 0); [apply bpow_le; lia|change (bpow radix2 0) with 1; lra]).
  destruct (mul_err (nlit 2 1) npi 7 N2 NP Z2 Z1) as [N E]; [rewrite V2; apply Rabs_le; lra|]. rewrite V2 in E. apply Rabs_def2_le in E.
  split; [exact N|]. split; [apply Rabs_le; lra|exact P].
Qed.
Lemma in_2_20 x : Rabs x <= 100 -> Rabs x <= powerRZ 2 20.
Proof. intros H. rewrite two_p. change (bpow radix2 20) with 1048576. lra. Qed.
Lemma seven : 7 <= 100.
Proof. lra. Qed.
Lemma bounds_1000 b : 1 <= b <= 1000 -> bpow radix2 (-1000) <= b /\ b <= bpow radix2 1000.
Proof.
  intros H. split; [apply Rle_trans with (bpow radix2 0); [apply bpow_le; lia|change (bpow radix2 0) with 1; lra]|].
  apply Rle_trans with (bpow radix2 10); [change (bpow radix2 10) with 1024; lra|apply bpow_le; lia].
Qed.
Lemma param_angle (T : Trig PrimFloat.float) t : accurate T -> number t -> 0 <= val t <= 1 ->
  let a := (nlit 2 1 * npi * t)%float in number a /\ Rabs (val a - 2 * PI * val t) <= 18 * U /\ Rabs (val a) <= 7.
Proof.
  intros HT Nt Bt. destruct (two_pi T HT) as (N & E & P). cbv zeta. set (d := (nlit 2 1 * npi)%float) in *. pose proof PI2_3_2. pose proof U_pos.
  apply Rabs_def2_le in E. destruct (bounds_1000 7 ltac:(lra)) as [Z1 Z2].
  assert (0 <= val d * val t <= 695 / 100) as B by nra.
  destruct (mul_err d t 7 N Nt Z1 Z2) as [Na Ea]; [apply Rabs_le; lra|]. apply Rabs_def2_le in Ea.
  assert (Rabs (val d * val t - 2 * PI * val t) <= 11 * U) as D. { replace (val d * val t - 2 * PI * val t) with (val t * (val d - 2 * PI)) by ring. apply Rabs_le. nra. }
  apply Rabs_def2_le in D. split; [exact Na|]. split; apply Rabs_le; lra.
Qed.
Lemma ell_point_dbl : forall (T : Trig PrimFloat.float) M (e : ell PrimFloat.float) t, accurate T -> moderate M -> ellipse_upto M e -> number t -> 0 <= val t <= 1 ->
  number3 (ell_point e t) /\ dist (val3 (ell_point e t)) (frame_point (val3 (e_c e)) (val3 (e_maj e)) (val3 (e_min e)) (val3 (e_n e))
    (val (e_a e) * cos (2 * PI * val t)) (val (e_b e) * sin (2 * PI * val t)) 0) <= powerRZ 2 (-46) * M.
Proof.
  intros T M e t HT HM He Nt Bt. apply mod_sized in HM. destruct (param_angle T t HT Nt Bt) as (N & E & B).
  destruct (angle_point_dbl T M e _ _ 18 HT HM He N (in_2_20 _ (Rle_trans _ _ _ B seven)) ltac:(lra) E) as [Np Ep].
  split; [exact Np|]. eapply Rle_trans; [exact Ep|]. pose proof (e_small M HM) as [E0 M0].
  replace (powerRZ 2 (-46) * M) with (128 * (U * M)); [lra|]. rewrite two_p. change (bpow radix2 (-46)) with (/ 70368744177664). unfold U. field.
Qed.
(** arcs *)
Lemma arc_point_dbl : forall (T : Trig PrimFloat.float) M (c : arc PrimFloat.float) t, accurate T -> moderate M -> ellipse_upto M (a_ell c) ->
  number (a_s c) -> 0 <= val (a_s c) <= 7 -> number (a_t c) -> 0 <= val (a_t c) <= 7 -> number t -> 0 <= val t <= 1 ->
  let e := a_ell c in let theta := arc_angle (val (a_s c)) (val (a_t c)) (val t) in
  number3 (arc_point c t) /\ dist (val3 (arc_point c t)) (frame_point (val3 (e_c e)) (val3 (e_maj e)) (val3 (e_min e)) (val3 (e_n e))
    (val (e_a e) * cos theta) (val (e_b e) * sin theta) 0) <= powerRZ 2 (-45) * M.
Proof.
  intros T M c t HT HM He Ns Bs Nt Bt Nx Bx. cbv zeta. apply mod_sized in HM. pose proof U_pos. pose proof PI2_3_2.
  set (D := if Rlt_dec (val (a_s c)) (val (a_t c)) then val (a_t c) - val (a_s c) else 2 * PI - val (a_s c) + val (a_t c)).
  assert (number (arc_delta c) /\ Rabs (val (arc_delta c) - D) <= 26 * U /\ -1 <= D <= 7) as (ND & ED & BD).
  { unfold arc_delta, D. cbn [nltb nsub nadd nmul F_num]. destruct Rlt_dec as [L|L].
    - rewrite (proj2 (f_ltb _ _ Ns Nt) L). destruct (bounds_1000 7 ltac:(lra)) as [Z1 Z2]. destruct (sub_err (a_t c) (a_s c) 7 Nt Ns Z1 Z2) as [N E]; [apply Rabs_le; lra|].
      split; [exact N|]. split; [eapply Rle_trans; [exact E|]; lra|lra].
    - rewrite (proj2 (f_ltb_false _ _ Ns Nt)) by lra. destruct (two_pi T HT) as (N2 & E2 & P). cbn [nmul F_num] in N2, E2. set (d := (nlit 2 1 * npi)%float) in *.
      apply Rabs_def2_le in E2. destruct (bounds_1000 7 ltac:(lra)) as [Z1 Z2]. destruct (sub_err d (a_s c) 7 N2 Ns Z1 Z2) as [N3 E3]; [apply Rabs_le; lra|].
      apply Rabs_def2_le in E3. set (q := (d - a_s c)%float) in *.
      destruct (add_err q (a_t c) 7 N3 Nt Z1 Z2) as [N4 E4]; [apply Rabs_le; lra|]. apply Rabs_def2_le in E4.
      split; [exact N4|]. split; [apply Rabs_le; lra|lra]. }
  unfold arc_point. cbn [nadd nmul F_num]. set (dl := arc_delta c) in *. apply Rabs_def2_le in ED.
  assert (Rabs (val dl * val t) <= 8) as BQ by (apply Rabs_le; nra).
  destruct (bounds_1000 8 ltac:(lra)) as [Z1 Z2]. destruct (mul_err dl t 8 ND Nx Z1 Z2 BQ) as [Nq Eq]. set (q := (dl * t)%float) in *.
  apply Rabs_def2_le in Eq. apply Rabs_def2_le in BQ.
  destruct (bounds_1000 16 ltac:(lra)) as [Z3 Z4]. destruct (add_err (a_s c) q 16 Ns Nq Z3 Z4) as [Na Ea]; [apply Rabs_le; lra|].
  set (a := (a_s c + q)%float) in *. apply Rabs_def2_le in Ea.
  assert (Rabs (val dl * val t - D * val t) <= 26 * U) as DT. { replace (val dl * val t - D * val t) with (val t * (val dl - D)) by ring. apply Rabs_le. nra. }
  apply Rabs_def2_le in DT.
  assert (Rabs (val a - arc_angle (val (a_s c)) (val (a_t c)) (val t)) <= 50 * U) as EA. { unfold arc_angle. fold D. apply Rabs_le. lra. }
  destruct (angle_point_dbl T M (a_ell c) a _ 50 HT HM He Na (in_2_20 (val a) ltac:(apply Rabs_le; lra)) ltac:(lra) EA) as [Np Ep].
  split; [exact Np|]. eapply Rle_trans; [exact Ep|]. pose proof (e_small M HM) as [E0 M0].
  replace (powerRZ 2 (-45) * M) with (256 * (U * M)); [lra|]. rewrite two_p. change (bpow radix2 (-45)) with (/ 35184372088832). unfold U. field.
Qed.
