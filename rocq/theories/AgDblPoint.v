(** The angle that an ellipse returns for a point close to it. *)

From Coq Require Import ZArith Reals Floats Lra Lia Psatz Bool.
From Flocq Require Import Core.Core IEEE754.BinarySingleNaN IEEE754.PrimFloat Relative.
From Verif Require Import Base NumModel VecModel LinModel RoundModel GeoSpec LinSpec RoundSpec DblSpec GeoLemmas EllProofs
  DblLemmas DblProofs DblLen DblEq LinDblSpec LinDblBase LinDblFoot LinDblProofs LinDblSeg LinDblDist RndDblSpec RndDblProofs TrigDblSpec PtDblSpec PtDblProofs FrDblProofs DkDblSpec DkDblProofs DkDblTrip
  AgDblSpec AgDblReal AgDblProofs.
Local Open Scope R_scope.

Lemma p18 : powerRZ 2 (-18) = / 262144.
Proof. rewrite two_p. reflexivity. Qed.
Lemma axes_40 m M e : moderate M -> round_ellipse m M e -> axes_from m M e.
Proof.
  intros HM (_ & _ & H & Ha & Hb). split; [|split; assumption]. eapply Rle_trans; [|exact H]. pose proof (sized_pos M (mod_sized M HM)).
  apply Rmult_le_compat_r; [lra|]. rewrite !two_p. apply bpow_le. lia.
Qed.
Section Coords.
Variables (M m d phi : R) (e : ell PrimFloat.float) (p : V3 PrimFloat.float).
Hypotheses (HM : moderate M) (He : round_ellipse m M e) (Hp : point_upto M p) (Hd : dist (val3 p) (true_point e phi) <= d).
Let r := U * M / m.
Let h := 1001 / 1000 * (d / m) + 106 * r.
Lemma m_facts : 0 < M /\ 0 < m /\ m <= M /\ U <= r /\ r <= U * 262144 /\ 0 <= d.
Proof.
  pose proof He as (Hu & _ & H & Ha & Hb). destruct (m_pos e M m HM Hu (axes_40 m M e HM He)) as (_ & m0 & mM & _).
  assert (0 < M) as M0 by lra. pose proof U_pos as [U0 _]. rewrite p18 in H. repeat split; try assumption.
  - unfold r. apply (Rmult_le_reg_r m); [exact m0|]. unfold Rdiv. rewrite Rmult_assoc, Rinv_l, Rmult_1_r by lra. apply Rmult_le_compat_l; lra.
  - unfold r. apply (Rmult_le_reg_r m); [exact m0|]. unfold Rdiv. rewrite Rmult_assoc, Rinv_l, Rmult_1_r by lra. rewrite Rmult_assoc. apply Rmult_le_compat_l; lra.
  - eapply Rle_trans; [|exact Hd]. unfold dist. apply norm_nonneg.
Qed.
Lemma coords_near : let x := sprod (vec_to (e_c e) p) (e_maj e) in let y := sprod (vec_to (e_c e) p) (e_min e) in
  number x /\ number y /\ Rabs (val x / val (e_a e) - cos phi) <= h /\ Rabs (val y / val (e_b e) - sin phi) <= h.
Proof.
  cbv zeta. pose proof He as (Hu & Hf & H & Ha & Hb). destruct m_facts as (M0 & m0 & mM & Ur & rU & d0). pose proof (axes_40 m M e HM He) as Hax.
  pose proof Hu as (Hc & Du & Dv & Dw & Ra & Rb). destruct Hf as (_ & _ & _ & Duv & Duw & Dvw). rewrite p47U in Duv, Duw, Dvw.
  destruct (coord e p M m HM Hu Hp Hax (e_maj e) (e_a e) Du Ra Ha) as (Nx & _ & _ & _ & _ & Ex).
  destruct (coord e p M m HM Hu Hp Hax (e_min e) (e_b e) Dv Rb Hb) as (Ny & _ & _ & _ & _ & Ey). fold r in Ex, Ey.
  split; [exact Nx|]. split; [exact Ny|].
  destruct (dir_norm _ Du) as (_ & _ & Nu). destruct (dir_norm _ Dv) as (_ & _ & Nv).
  destruct Ra as (Na & _ & A2). destruct Rb as (Nb & _ & B2).
  set (a := val (e_a e)) in *. set (b := val (e_b e)) in *. set (u := val3 (e_maj e)) in *. set (v := val3 (e_min e)) in *. set (w := val3 (e_n e)) in *. set (c := val3 (e_c e)) in *. set (P := val3 p) in *.
  assert (true_point e phi = frame_point c u v w (a * cos phi) (b * sin phi) 0) as TP by reflexivity. rewrite TP in Hd. clear TP.
  assert (Rabs (cos phi) <= 1 /\ Rabs (sin phi) <= 1) as [C1 S1] by (split; apply Rabs_le; [destruct (COS_bound phi)|destruct (SIN_bound phi)]; lra).
  set (X := a * cos phi) in *. set (Y := b * sin phi) in *. set (dd := psub P (frame_point c u v w X Y 0)) in *. change (norm dd <= d) in Hd.
  assert (psub P c = padd (padd (pscale X u) (pscale Y v)) dd) as PI. { unfold dd, frame_point. generalize X Y P c. clear. intros X Y P c. destruct P as [px py pz]. pts. f_equal; ring. }
  assert (forall n, Rabs (norm n - 1) <= 8 * U -> Rabs (dot n n - 1) <= 17 * U /\ Rabs (dot n dd) <= 1001 / 1000 * d) as DD.
  { intros n Hn. pose proof U_pos as [U0 U1]. pose proof Hn as Hn'. apply Rabs_def2_le in Hn. split.
    - rewrite <- norm_sq. set (k := norm n - 1). replace (norm n * norm n - 1) with (2 * k + k * k) by (unfold k; ring).
      assert (Rabs (k * k) <= 8 * U * (8 * U)) as K2 by (apply prod_le; exact Hn'). apply Rabs_def2_le in K2. apply Rabs_le. unfold k in *. unfold U in *. lra.
    - eapply Rle_trans; [apply cauchy_norm|]. pose proof (norm_nonneg dd). apply Rmult_le_compat; try lra. }
  destruct (DD u Nu) as [Su Eu]. destruct (DD v Nv) as [Sv Ev].
  assert (Rabs X <= M /\ Rabs Y <= M) as [BX BY].
  { unfold X, Y. rewrite !Rabs_mult, (Rabs_pos_eq a), (Rabs_pos_eq b) by lra. pose proof (Rabs_pos (cos phi)). pose proof (Rabs_pos (sin phi)). split; rewrite <- (Rmult_1_r M); apply Rmult_le_compat; lra. }
  assert (forall x D k, Rabs x <= M -> Rabs D <= k * U -> Rabs (x * D) <= k * (U * M)) as SP.
  { intros x D k A B. rewrite Rabs_mult. replace (k * (U * M)) with (M * (k * U)) by ring. apply Rmult_le_compat; try apply Rabs_pos; assumption. }
  pose proof (SP _ _ _ BX Su) as P1. pose proof (SP _ _ _ BY Duv) as P2. pose proof (SP _ _ _ BY Sv) as P3. pose proof (SP _ _ _ BX Duv) as P4.
  assert (Rabs (dot u (psub P c) - X) <= 1001 / 1000 * d + 81 * (U * M)) as Q1.
  { rewrite PI. replace (dot u (padd (padd (pscale X u) (pscale Y v)) dd) - X) with (X * (dot u u - 1) + Y * dot u v + dot u dd) by (generalize X Y dd; clear; intros; pts; ring).
    apply Rabs_def2_le in P1, P2, Eu. apply Rabs_le. lra. }
  assert (Rabs (dot v (psub P c) - Y) <= 1001 / 1000 * d + 81 * (U * M)) as Q2.
  { rewrite PI. replace (dot v (padd (padd (pscale X u) (pscale Y v)) dd) - Y) with (Y * (dot v v - 1) + X * dot u v + dot v dd) by (generalize X Y dd; clear; intros; pts; ring).
    apply Rabs_def2_le in P3, P4, Ev. apply Rabs_le. lra. }
  assert (forall z Z s, m <= s -> Rabs (z - s * Z) <= 1001 / 1000 * d + 81 * (U * M) -> Rabs (z / s - Z) <= 1001 / 1000 * (d / m) + 81 * r) as Q.
  { intros z Z s Hs E. replace (z / s - Z) with ((z - s * Z) / s) by (field; lra). unfold Rdiv at 1. rewrite Rabs_mult, Rabs_inv, (Rabs_pos_eq s) by lra.
    replace (1001 / 1000 * (d / m) + 81 * r) with ((1001 / 1000 * d + 81 * (U * M)) * / m) by (unfold r; field; lra).
    apply Rmult_le_compat; [apply Rabs_pos|left; apply Rinv_0_lt_compat; lra|exact E|apply Rinv_le; lra]. }
  pose proof (Q _ _ a Ha Q1) as R1. pose proof (Q _ _ b Hb Q2) as R2.
  apply Rabs_def2_le in Ex, Ey, R1, R2. unfold h. split; apply Rabs_le; lra.
Qed.
Lemma h_small : d <= powerRZ 2 (-26) * m -> 0 <= h <= / 33554432.
Proof.
  intros H. destruct m_facts as (M0 & m0 & mM & Ur & rU & d0). rewrite two_p in H. change (bpow radix2 (-26)) with (/ 67108864) in H.
  assert (0 <= d / m <= / 67108864) as B. { split; [apply Rmult_le_pos; [lra|left; apply Rinv_0_lt_compat; lra]|]. apply (Rmult_le_reg_r m); [exact m0|]. unfold Rdiv. rewrite Rmult_assoc, Rinv_l by lra. lra. }
  pose proof U_pos as [U0 _]. unfold h. unfold U in *. lra.
Qed.
Lemma axes_range : number (e_a e) /\ number (e_b e) /\ (bpow radix2 (-440) <= val (e_a e) <= bpow radix2 400) /\ (bpow radix2 (-440) <= val (e_b e) <= bpow radix2 400) /\
  val (e_a e) <= bpow radix2 20 * val (e_b e) /\ val (e_b e) <= bpow radix2 20 * val (e_a e).
Proof.
  pose proof He as (Hu & _ & H & Ha & Hb). destruct (m_pos e M m HM Hu (axes_40 m M e HM He)) as (m440 & m0 & mM & _).
  destruct Hu as (_ & _ & _ & _ & (Na & _ & A2) & (Nb & _ & B2)). destruct HM as [_ M2]. rewrite two_p in M2. rewrite p18 in H.
  change (bpow radix2 20) with 1048576. repeat split; try assumption; lra.
Qed.
Lemma angle_cases : 0 <= phi < 2 * PI -> d <= powerRZ 2 (-26) * m -> forall T, accurate T -> accurate_atan T ->
  (Rabs (cos phi) <= 131 / 1000000000 /\ ell_angle e p = (if Rlt_dec (sin phi) 0 then nlit 3 1 * npi / nlit 2 1 else npi / nlit 2 1)%num) \/
  (69 / 1000000000 <= Rabs (cos phi) /\ Rabs (sin phi) <= 131 / 1000000000 /\ ell_angle e p = (if Rlt_dec (cos phi) 0 then npi else n0)%num) \/
  (69 / 1000000000 <= Rabs (cos phi) /\ 69 / 1000000000 <= Rabs (sin phi) /\ number (ell_angle e p) /\ Rabs (val (ell_angle e p) - phi) <= 3 * (d / m) + powerRZ 2 (-45) * M / m).
Proof.
  intros Hphi Hdm T HT HA. destruct axes_range as (Na & Nb & Ba & Bb & Rab & Rba). destruct coords_near as (Nx & Ny & Ex & Ey). pose proof (h_small Hdm) as Hh.
  rewrite ell_angle_of. destruct (core T (e_a e) (e_b e) _ _ phi h HT HA Na Nb Nx Ny Ba Bb Rab Rba Hphi Hh Ex Ey) as [C|[C|(C1 & C2 & C3 & C4)]]; [left; exact C|right; left; exact C|].
  right. right. repeat (split; [assumption|]). eapply Rle_trans; [exact C4|]. destruct m_facts as (M0 & m0 & mM & Ur & rU & d0).
  replace (powerRZ 2 (-45) * M / m) with (256 * r). 2:{ unfold r. rewrite two_p. change (bpow radix2 (-45)) with (/ 35184372088832). unfold U. field. lra. }
  assert (0 <= d / m) by (apply Rmult_le_pos; [lra|left; apply Rinv_0_lt_compat; lra]). unfold h. lra.
Qed.
End Coords.

(** ** The statements *)
Lemma angle_dbl : forall (T : Trig PrimFloat.float) (e : ell PrimFloat.float) p phi d m M, accurate T -> accurate_atan T -> moderate M -> round_ellipse m M e -> point_upto M p ->
  dist (val3 p) (true_point e phi) <= d -> d <= powerRZ 2 (-26) * m -> 0 <= phi < 2 * PI -> off (powerRZ 2 (-22)) phi ->
  number (ell_angle e p) /\ Rabs (val (ell_angle e p) - phi) <= 3 * (d / m) + powerRZ 2 (-45) * M / m.
Proof.
  intros T e p phi d m M HT HA HM He Hp Hd Hdm Hphi [O1 O2]. rewrite two_p in O1, O2. change (bpow radix2 (-22)) with (/ 4194304) in O1, O2.
  destruct (angle_cases M m d phi e p HM He Hp Hd Hphi Hdm T HT HA) as [[C _]|[(_ & C & _)|(_ & _ & C)]]; [exfalso; lra|exfalso; lra|exact C].
Qed.
Lemma in_period phi : exists psi, 0 <= psi < 2 * PI /\ same_angle psi phi.
Proof.
  pose proof PI_RGT_0 as HP. set (k := Zfloor (phi / (2 * PI))). exists (phi - 2 * IZR k * PI).
  pose proof (Zfloor_lb (phi / (2 * PI))) as L. pose proof (Zfloor_ub (phi / (2 * PI))) as G. fold k in L, G.
  assert (phi / (2 * PI) * (2 * PI) = phi) as E by (field; lra). split; [split; nra|].
  assert (forall x n, cos (x + 2 * IZR n * PI) = cos x /\ sin (x + 2 * IZR n * PI) = sin x) as Per.
  { intros x n. assert (forall x q, cos (x + 2 * INR q * PI) = cos x /\ sin (x + 2 * INR q * PI) = sin x) as Pq by (intros; split; [apply cos_period|apply sin_period]).
    destruct (Z_le_gt_dec 0 n) as [H|H].
    - replace (IZR n) with (INR (Z.to_nat n)) by (rewrite INR_IZR_INZ, Z2Nat.id by exact H; reflexivity). apply Pq.
    - destruct (Pq (x + 2 * IZR n * PI) (Z.to_nat (- n))) as [P1 P2]. rewrite INR_IZR_INZ, Z2Nat.id, opp_IZR in P1, P2 by lia.
      replace (x + 2 * IZR n * PI + 2 * - IZR n * PI) with x in P1, P2 by ring. split; symmetry; assumption. }
  destruct (Per (phi - 2 * IZR k * PI) k) as [P1 P2]. replace (phi - 2 * IZR k * PI + 2 * IZR k * PI) with phi in P1, P2 by ring. split; symmetry; assumption.
Qed.
Lemma true_same e phi psi : same_angle psi phi -> true_point e phi = true_point e psi.
Proof. intros [C S]. unfold true_point. rewrite C, S. reflexivity. Qed.
Lemma axes_dbl : forall (T : Trig PrimFloat.float) (e : ell PrimFloat.float) p phi m M, accurate T -> accurate_atan T -> moderate M -> round_ellipse m M e -> point_upto M p ->
  dist (val3 p) (true_point e phi) <= powerRZ 2 (-26) * m ->
  (Rabs (sin phi) <= powerRZ 2 (-24) -> 0 < cos phi -> ell_angle e p = 0%float) /\
  (Rabs (cos phi) <= powerRZ 2 (-24) -> 0 < sin phi -> ell_angle e p = (npi / 2)%float) /\
  (Rabs (sin phi) <= powerRZ 2 (-24) -> cos phi < 0 -> ell_angle e p = npi) /\
  (Rabs (cos phi) <= powerRZ 2 (-24) -> sin phi < 0 -> ell_angle e p = (3 * npi / 2)%float).
Proof.
  intros T e p phi m M HT HA HM He Hp Hd. destruct (in_period phi) as (psi & Hpsi & HS). rewrite (true_same e phi psi HS) in Hd. destruct HS as [<- <-].
  rewrite two_p. change (bpow radix2 (-24)) with (/ 16777216).
  pose proof (angle_cases M m _ psi e p HM He Hp Hd Hpsi ltac:(lra) T HT HA) as C. pose proof (sin2_cos2 psi) as SC. unfold Rsqr in SC.
  assert (forall X Y, X * X + Y * Y = 1 -> Rabs X <= 131 / 1000000000 -> Rabs Y <= / 16777216 -> False) as No.
  { intros X Y E HX HY. apply Rabs_def2_le in HX, HY. nra. }
  assert (number (n0 : PrimFloat.float) /\ (n0 : PrimFloat.float) = 0%float) as [_ Z0] by (split; [apply lit_0|vm_compute; reflexivity]).
  assert ((nlit 2 1 : PrimFloat.float) = 2%float /\ (nlit 3 1 : PrimFloat.float) = 3%float) as [Z2 Z3] by (split; vm_compute; reflexivity).
  rewrite Z0, Z2, Z3 in C. cbn [nmul ndiv F_num] in C.
  repeat split; intros H1 H2; destruct C as [[C E]|[(C1 & C & E)|(C1 & C2 & _)]]; try (exfalso; (apply (No _ _ ltac:(rewrite Rplus_comm; exact SC) C H1) || apply (No _ _ SC C H1) || lra)).
  - rewrite E. destruct Rlt_dec; [exfalso; lra|reflexivity].
  - rewrite E. destruct Rlt_dec; [exfalso; lra|reflexivity].
  - rewrite E. destruct Rlt_dec; [reflexivity|exfalso; lra].
  - rewrite E. destruct Rlt_dec; [reflexivity|exfalso; lra].
Qed.
