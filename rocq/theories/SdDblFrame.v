(** Proofs for C114: the frame and the lengths of sampled disks. *)

From Coq Require Import ZArith Reals Lra Lia Psatz Bool List Nsatz.
From Flocq Require Import Core.Core IEEE754.BinarySingleNaN IEEE754.PrimFloat.
From Coq Require Import Floats.
From Verif Require Import Base NumModel VecModel LinModel RoundModel PolyModel SampModel GeoSpec LinSpec SampSpec DblSpec GeoLemmas SampProofs
  DblLemmas DblProofs DblLen DblExamples DblEq LinDblSpec LinDblBase LinDblFoot LinDblProofs TrigDblSpec RndDblSpec RndDblProofs PtDblSpec FrDblProofs SdDblSpec SdDblProofs SdDblDisk.
Import ListNotations.
Local Open Scope R_scope.

Lemma psub_tri (a b c : pt) : norm (psub a c) <= norm (psub a b) + norm (psub b c).
Proof. replace (psub a c) with (padd (psub a b) (psub b c)); [apply norm_tri|]. destruct a as [a1 a2 a3], b as [b1 b2 b3], c as [c1 c2 c3]. pts. f_equal; ring. Qed.
Lemma norm_near (a b : pt) : Rabs (norm a - norm b) <= norm (psub a b).
Proof.
  pose proof (norm_tri (psub a b) b) as A. replace (padd (psub a b) b) with a in A by (destruct a as [a1 a2 a3], b as [b1 b2 b3]; pts; f_equal; ring).
  pose proof (norm_tri (pscale (-1) (psub a b)) a) as B. replace (padd (pscale (-1) (psub a b)) a) with b in B by (destruct a as [a1 a2 a3], b as [b1 b2 b3]; pts; f_equal; ring).
  rewrite norm_mul in B. replace (Rabs (-1)) with 1 in B by (rewrite Rabs_left; lra). apply Rabs_le. lra.
Qed.
Lemma comp_le (a : pt) : Rabs (vx a) <= norm a /\ Rabs (vy a) <= norm a /\ Rabs (vz a) <= norm a.
Proof.
  assert (forall x r, x * x <= dot a a -> x = r -> Rabs r <= norm a) as G.
  { intros x r H <-. unfold norm. rewrite <- sqrt_Rsqr_abs. apply sqrt_le_1_alt. exact H. }
  destruct a as [ax ay az]. cbn [vx vy vz]. pose proof (Rle_0_sqr ax) as A. pose proof (Rle_0_sqr ay) as B. pose proof (Rle_0_sqr az) as C. unfold Rsqr in A, B, C.
  repeat split; (eapply G; [|reflexivity]); unfold dot; cbn [vx vy vz]; lra.
Qed.
Lemma U_50 : powerRZ 2 (-50) = 8 * U /\ powerRZ 2 (-47) = 64 * U /\ powerRZ 2 (-46) = 128 * U.
Proof.
  rewrite !two_p. change (bpow radix2 (-50)) with (/ 1125899906842624). change (bpow radix2 (-47)) with (/ 140737488355328). change (bpow radix2 (-46)) with (/ 70368744177664). unfold U. lra.
Qed.

(** ** Making a vector of a length close to 1 a direction *)
Lemma dir_near (v : V3 PrimFloat.float) : number3 v -> Rabs (norm (val3 v) - 1) <= / 1000 -> exists k, 0 < k <= 1003 / 1000 /\ Rabs (k * norm (val3 v) - 1) <= 502 / 100 * U /\
  number3 (to_dir v) /\ norm (psub (val3 (to_dir v)) (pscale k (val3 v))) <= 175 / 100 * U.
Proof.
  intros Nv Hn. pose proof U_pos as [U0 U1]. set (n := norm (val3 v)) in *. destruct (comp_le (val3 v)) as (C1 & C2 & C3). fold n in C1, C2, C3. cbn [vx vy vz val3] in C1, C2, C3.
  apply Rabs_def2_le in Hn.
  assert (within3 (bpow radix2 450) v) as W.
  { assert (2 <= bpow radix2 450) as B by (change 2 with (bpow radix2 1); apply bpow_le; lia). repeat split; lra. }
  destruct (vlen_mixed v Nv W) as (Nl & Pl & El). fold n in El. set (l := vlen v) in *.
  assert (0 <= bpow radix2 (-500) <= / 1000 * U) as Ti.
  { split; [apply bpow_ge_0|]. apply Rle_trans with (bpow radix2 (-63)); [apply bpow_le; lia|]. change (bpow radix2 (-63)) with (/ 9223372036854775808). unfold U. lra. }
  assert (5 * U * n <= 5006 / 1000 * U) as Un by (rewrite Rmult_assoc, (Rmult_comm U n), <- Rmult_assoc; apply Rmult_le_compat_r; lra).
  apply Rabs_def2_le in El. assert (998 / 1000 <= val l <= 1002 / 1000) as Bl by lra.
  exists (/ val l). assert (0 < / val l) as Ip by (apply Rinv_0_lt_compat; lra). assert (/ val l <= 1003 / 1000) as Iu. { replace (1003 / 1000) with (/ (1000 / 1003)) by field. apply Rinv_le_contravar; lra. }
  split; [split; lra|]. split.
  { replace (/ val l * n - 1) with (/ val l * (n - val l)) by (field; lra). rewrite Rabs_mult, (Rabs_pos_eq (/ val l)) by lra.
    assert (Rabs (n - val l) <= 5007 / 1000 * U) as A by (apply Rabs_le; lra).
    assert (/ val l <= 1002 / 1000 + / 10000) as I2. { replace (1002 / 1000 + / 10000) with (/ (10000 / 10021)) by field. apply Rinv_le_contravar; lra. }
    apply Rle_trans with ((1002 / 1000 + / 10000) * (5007 / 1000 * U)); [apply Rmult_le_compat; try apply Rabs_pos; lra|lra]. }
  assert (forall x, number x -> Rabs (val x) <= n -> number (x / l)%float /\ Rabs (val (x / l)%float - / val l * val x) <= 1005 / 1000 * U) as D.
  { intros x Nx Bx. assert (Rabs (val x / val l) <= 1004 / 1000 + / 10000) as Q.
    { unfold Rdiv. rewrite Rabs_mult, (Rabs_pos_eq (/ val l)) by lra. assert (Rabs (val x) * / val l <= 1001 / 1000 * (1003 / 1000)); [apply Rmult_le_compat; try apply Rabs_pos; lra|lra]. }
    destruct (f_div x l Nx Nl ltac:(lra)) as [N V]; [apply small_1023; lra|]. split; [exact N|]. rewrite V, (Rmult_comm (/ val l)). fold (val x / val l).
    destruct (big_bounds (1004 / 1000 + / 10000) ltac:(lra)) as [B0 B1]. pose proof (rnd_err _ _ B0 Q). lra. }
  destruct Nv as (N1 & N2 & N3). destruct (D _ N1 C1) as [M1 E1]. destruct (D _ N2 C2) as [M2 E2]. destruct (D _ N3 C3) as [M3 E3].
  unfold to_dir, vdiv. fold l. cbn [ndiv F_num]. split; [repeat split; assumption|].
  eapply Rle_trans; [apply (norm_le _ (1005 / 1000 * U))|lra]; unfold psub, pscale, val3; cbn [vx vy vz]; assumption.
Qed.

(** ** Frames *)
Lemma cross_err (u v : V3 PrimFloat.float) : direction u -> direction v ->
  number3 (cross u v) /\ norm (psub (val3 (cross u v)) (cross (val3 u) (val3 v))) <= 7 * U.
Proof.
  intros Du Dv. destruct (dir_norm u Du) as (_ & Lu & _). destruct (dir_norm v Dv) as (_ & Lv & _). destruct Du as [(N1 & N2 & N3) _], Dv as [(M1 & M2 & M3) _].
  destruct (comp_le (val3 u)) as (A1 & A2 & A3). destruct (comp_le (val3 v)) as (B1 & B2 & B3). cbn [vx vy vz val3] in A1, A2, A3, B1, B2, B3. pose proof U_pos as [U0 U1].
  assert (forall a b c d, number a -> number b -> number c -> number d -> Rabs (val a) <= norm (val3 u) -> Rabs (val b) <= norm (val3 v) -> Rabs (val c) <= norm (val3 u) -> Rabs (val d) <= norm (val3 v) ->
    number (a * b - c * d)%float /\ Rabs (val (a * b - c * d)%float - (val a * val b - val c * val d)) <= 4025 / 1000 * U) as G.
  { intros a b c d Na Nb Nc Nd Ha Hb Hc Hd. destruct (big_bounds (1003 / 1000) ltac:(lra)) as [K0 K1].
    assert (Rabs (val a * val b) <= 1003 / 1000) as P1 by (eapply Rle_trans; [apply prod_le; eassumption|]; apply Rle_trans with (1001 / 1000 * (1001 / 1000)); [apply Rmult_le_compat; try apply norm_nonneg; lra|lra]).
    assert (Rabs (val c * val d) <= 1003 / 1000) as P2 by (eapply Rle_trans; [apply prod_le; eassumption|]; apply Rle_trans with (1001 / 1000 * (1001 / 1000)); [apply Rmult_le_compat; try apply norm_nonneg; lra|lra]).
    destruct (mul_err a b _ Na Nb K0 K1 P1) as [X1 X2]. destruct (mul_err c d _ Nc Nd K0 K1 P2) as [Y1 Y2].
    apply Rabs_def2_le in P1, P2, X2, Y2. destruct (big_bounds (2007 / 1000) ltac:(lra)) as [K2 K3].
    destruct (sub_err (a * b)%float (c * d)%float _ X1 Y1 K2 K3) as [Z1 Z2]; [apply Rabs_le; lra|]. split; [exact Z1|]. apply Rabs_def2_le in Z2. apply Rabs_le. lra. }
  unfold cross. cbn [nsub nmul F_num R_num vx vy vz val3].
  destruct (G (vy u) (vz v) (vz u) (vy v)) as [X1 X2]; try assumption; try lra. destruct (G (vz u) (vx v) (vx u) (vz v)) as [Y1 Y2]; try assumption; try lra. destruct (G (vx u) (vy v) (vy u) (vx v)) as [Z1 Z2]; try assumption; try lra.
  split; [repeat split; assumption|]. eapply Rle_trans; [apply (norm_le _ (4025 / 1000 * U))|lra]; unfold psub, val3; cbn [vx vy vz]; assumption.
Qed.
Lemma dot_add (a b c : pt) : dot a (padd b c) = dot a b + dot a c.
Proof. destruct a as [a1 a2 a3], b as [b1 b2 b3], c as [c1 c2 c3]. pts. ring. Qed.
Lemma dot_mul k (a b : pt) : dot a (pscale k b) = k * dot a b.
Proof. destruct a as [a1 a2 a3], b as [b1 b2 b3]. pts. ring. Qed.
Lemma split_sub (a b : pt) : a = padd b (psub a b).
Proof. destruct a as [a1 a2 a3], b as [b1 b2 b3]. pts. f_equal; ring. Qed.
Lemma dot_le (a b : pt) A B : norm a <= A -> norm b <= B -> Rabs (dot a b) <= A * B.
Proof. intros HA HB. eapply Rle_trans; [apply cauchy_norm|]. apply Rmult_le_compat; try apply norm_nonneg; assumption. Qed.
Lemma dir_is k (v : V3 PrimFloat.float) : number3 (to_dir v) -> Rabs (k * norm (val3 v) - 1) <= 502 / 100 * U -> norm (psub (val3 (to_dir v)) (pscale k (val3 v))) <= 175 / 100 * U -> 0 < k -> direction (to_dir v).
Proof.
  intros N H1 H2 K. pose proof U_pos as [U0 U1]. split; [exact N|]. rewrite (proj1 U_50). pose proof (norm_near (val3 (to_dir v)) (pscale k (val3 v))) as P. rewrite norm_mul, (Rabs_pos_eq k) in P by lra.
  apply Rabs_def2_le in P, H1. apply Rabs_le. lra.
Qed.
(** the direction is close to the vector it is made of *)
Lemma dir_close k (v : V3 PrimFloat.float) (w : pt) E : norm (psub (val3 (to_dir v)) (pscale k (val3 v))) <= 175 / 100 * U -> Rabs (k * norm (val3 v) - 1) <= 502 / 100 * U -> norm w = 1 ->
  norm (psub (val3 v) w) <= E -> norm (psub (val3 (to_dir v)) w) <= 677 / 100 * U + 2 * E.
Proof.
  intros H1 H2 Hw HE. eapply Rle_trans; [apply (psub_tri _ (val3 v))|]. apply Rle_trans with (677 / 100 * U + E + E); [apply Rplus_le_compat; [|exact HE]|lra].
  eapply Rle_trans; [apply (psub_tri _ (pscale k (val3 v)))|]. replace (psub (pscale k (val3 v)) (val3 v)) with (pscale (k - 1) (val3 v)) by (generalize (val3 v); intros [a b c]; pts; f_equal; ring).
  rewrite norm_mul. pose proof (norm_near (val3 v) w) as P. rewrite Hw in P. set (n := norm (val3 v)) in *. pose proof (norm_nonneg (val3 v)) as n0p. fold n in n0p.
  replace (Rabs (k - 1) * n) with (Rabs ((k * n - 1) - (n - 1))). { pose proof (Rabs_triang (k * n - 1) (- (n - 1))) as Q. rewrite Rabs_Ropp in Q. unfold Rminus in *. lra. }
  rewrite <- (Rabs_pos_eq n) at 3 by exact n0p. rewrite <- Rabs_mult. f_equal. ring.
Qed.
Lemma frame_near (x y : V3 PrimFloat.float) (X Y : pt) : number3 x -> number3 y -> unit3 X -> unit3 Y -> ortho X Y -> norm (psub (val3 x) X) <= 16 * U -> norm (psub (val3 y) Y) <= 30 * U ->
  let u := to_dir x in let v := to_dir y in
  frame (64 * U) u v (to_dir (cross u v)) /\ norm (psub (val3 u) X) <= 64 * U /\ norm (psub (val3 v) Y) <= 68 * U /\ norm (psub (val3 (to_dir (cross u v))) (cross X Y)) <= 256 * U.
Proof.
  intros Nx Ny UX UY OXY Ex Ey u v. pose proof U_pos as [U0 U1]. apply norm_unit in UX, UY. unfold ortho in OXY.
  pose proof (norm_near (val3 x) X) as Lx. pose proof (norm_near (val3 y) Y) as Ly. rewrite UX in Lx. rewrite UY in Ly.
  destruct (dir_near x Nx ltac:(lra)) as (k & Pk & Hk & Nu & Eu). destruct (dir_near y Ny ltac:(lra)) as (m & Pm & Hm & Nv & Ev). fold u in Nu, Eu. fold v in Nv, Ev.
  pose proof (dir_is k x Nu Hk Eu (proj1 Pk)) as Du. pose proof (dir_is m y Nv Hm Ev (proj1 Pm)) as Dv. fold u in Du. fold v in Dv.
  pose proof (dir_close k x X (16 * U) Eu Hk UX Ex) as Cu. pose proof (dir_close m y Y (30 * U) Ev Hm UY Ey) as Cv. fold u in Cu. fold v in Cv.
  destruct (dir_norm u Du) as (Pu & Lu & Su). destruct (dir_norm v Dv) as (Pv & Lv & Sv).
  apply Rabs_def2_le in Lx, Ly. set (a := val3 x) in *. set (b := val3 y) in *.
  assert (Rabs (dot a b) <= 4602 / 100 * U) as Dab.
  { replace (dot a b) with (dot (psub a X) b + dot X (psub b Y)) by (rewrite <- (Rminus_0_r (dot a b)), <- OXY; clear; destruct a as [a1 a2 a3], b as [b1 b2 b3], X as [x1 x2 x3], Y as [y1 y2 y3]; pts; ring).
    pose proof (dot_le (psub a X) b _ (1001 / 1000) Ex ltac:(lra)) as P. pose proof (dot_le X (psub b Y) 1 _ ltac:(lra) Ey) as Q. apply Rabs_def2_le in P, Q. apply Rabs_le. lra. }
  assert (Rabs (dot (val3 u) (val3 v)) <= 64 * U) as Duv.
  { replace (dot (val3 u) (val3 v)) with (k * m * dot a b + k * dot a (psub (val3 v) (pscale m b)) + dot (psub (val3 u) (pscale k a)) (val3 v))
      by (clear; generalize (val3 u) (val3 v) a b; intros [u1 u2 u3] [v1 v2 v3] [a1 a2 a3] [b1 b2 b3]; pts; ring).
    assert (k * m <= 1007 / 1000) as Km by (apply Rle_trans with (1003 / 1000 * (1003 / 1000)); [apply Rmult_le_compat; lra|lra]).
    assert (Rabs (k * m * dot a b) <= 1007 / 1000 * (4602 / 100 * U)) as P1. { rewrite Rabs_mult, (Rabs_pos_eq (k * m)); [apply Rmult_le_compat; try apply Rabs_pos; try lra|]; apply Rmult_le_pos; lra. }
    assert (Rabs (k * dot a (psub (val3 v) (pscale m b))) <= 1003 / 1000 * (1001 / 1000 * (175 / 100 * U))) as P2.
    { rewrite Rabs_mult, (Rabs_pos_eq k) by lra. apply Rmult_le_compat; try apply Rabs_pos; try lra. apply dot_le; [lra|exact Ev]. }
    pose proof (dot_le (psub (val3 u) (pscale k a)) (val3 v) _ _ Eu Lv) as P3. apply Rabs_def2_le in P1, P2, P3. apply Rabs_le. lra. }
  pose proof (near_one u v Du Dv ltac:(lra)) as N1. destruct (cross_err u v Du Dv) as [Nw Ew]. set (C := cross (val3 u) (val3 v)) in *.
  pose proof (norm_near (val3 (cross u v)) C) as Lw. apply Rabs_def2_le in N1, Lw. destruct (dir_near (cross u v) Nw) as (j & Pj & Hj & Nn & En); [apply Rabs_le; lra|].
  pose proof (dir_is j _ Nn Hj En (proj1 Pj)) as Dn. set (n := to_dir (cross u v)) in *. set (w := val3 (cross u v)) in *.
  assert (forall z : pt, norm z <= 1001 / 1000 -> dot z C = 0 -> Rabs (dot z (val3 n)) <= 64 * U) as Z.
  { intros z Lz Oz. replace (dot z (val3 n)) with (j * dot z (psub w C) + dot z (psub (val3 n) (pscale j w))).
    - pose proof (dot_le z (psub w C) _ _ Lz Ew) as P1. pose proof (dot_le z (psub (val3 n) (pscale j w)) _ _ Lz En) as P2.
      assert (Rabs (j * dot z (psub w C)) <= 1003 / 1000 * (1001 / 1000 * (7 * U))) as P3. { rewrite Rabs_mult, (Rabs_pos_eq j) by lra. apply Rmult_le_compat; try apply Rabs_pos; lra. }
      apply Rabs_def2_le in P2, P3. apply Rabs_le. lra.
    - transitivity (j * (dot z C + dot z (psub w C)) + dot z (psub (val3 n) (pscale j w))); [rewrite Oz; ring|]. rewrite <- dot_add, <- split_sub, <- dot_mul, <- dot_add, <- split_sub. reflexivity. }
  assert (dot (val3 u) C = 0 /\ dot (val3 v) C = 0) as [Ou Ov].
  { unfold C, cross. generalize (val3 u) (val3 v). intros [u1 u2 u3] [v1 v2 v3]. pts. cbn [nsub nmul R_num]. split; ring. }
  split; [|split; [lra|split; [lra|]]].
  - split; [exact Du|]. split; [exact Dv|]. split; [exact Dn|]. split; [exact Duv|]. split; apply Z; assumption.
  - eapply Rle_trans; [apply (psub_tri _ (pscale j w))|]. eapply Rle_trans; [apply Rplus_le_compat; [exact En|apply (psub_tri _ w)]|].
    eapply Rle_trans; [apply Rplus_le_compat_l, Rplus_le_compat_l, (psub_tri _ C)|].
    replace (psub (pscale j w) w) with (pscale (j - 1) w) by (generalize w; intros [a1 b1 c1]; pts; f_equal; ring). rewrite norm_mul.
    assert (Rabs (j - 1) * norm w <= 30 * U) as J.
    { pose proof (norm_nonneg w) as wp. rewrite <- (Rabs_pos_eq (norm w)) by exact wp. rewrite <- Rabs_mult. replace ((j - 1) * norm w) with ((j * norm w - 1) - (norm w - 1)) by ring. apply Rabs_def2_le in Hj. apply Rabs_le. lra. }
    assert (norm (psub C (cross X Y)) <= 68 * U * (1001 / 1000) + 64 * U * (1001 / 1000)) as CC.
    { replace (psub C (cross X Y)) with (padd (cross (psub (val3 u) X) (val3 v)) (cross X (psub (val3 v) Y))).
      - eapply Rle_trans; [apply norm_tri|]. rewrite Rplus_comm. apply Rplus_le_compat.
        + eapply Rle_trans; [apply norm_cross|]. rewrite UX. lra.
        + eapply Rle_trans; [apply norm_cross|]. apply Rmult_le_compat; try apply norm_nonneg; lra.
      - unfold C, cross. clear. generalize (val3 u) (val3 v). intros [u1 u2 u3] [v1 v2 v3]. destruct X as [x1 x2 x3], Y as [y1 y2 y3]. pts. cbn [nsub nmul R_num]. f_equal; ring. }
    lra.
Qed.

(** ** The sampled disk *)
Lemma turn_y_iso t (a b : pt) : norm (psub (turn_y t a) (turn_y t b)) = norm (psub a b).
Proof.
  unfold norm. f_equal. pose proof (sin2_cos2 t) as H. unfold Rsqr in H. unfold turn_y. destruct a as [a1 a2 a3], b as [b1 b2 b3]. pts. generalize dependent (sin t). generalize (cos t). intros c s H.
  replace ((a1 * c + a3 * s - (b1 * c + b3 * s)) * (a1 * c + a3 * s - (b1 * c + b3 * s)) + (a2 - b2) * (a2 - b2) + (a3 * c - a1 * s - (b3 * c - b1 * s)) * (a3 * c - a1 * s - (b3 * c - b1 * s)))
    with ((s * s + c * c) * ((a1 - b1) * (a1 - b1) + (a3 - b3) * (a3 - b3)) + (a2 - b2) * (a2 - b2)) by ring. rewrite H. ring.
Qed.
Lemma turn_z_iso t (a b : pt) : norm (psub (turn_z t a) (turn_z t b)) = norm (psub a b).
Proof.
  unfold norm. f_equal. pose proof (sin2_cos2 t) as H. unfold Rsqr in H. unfold turn_z. destruct a as [a1 a2 a3], b as [b1 b2 b3]. pts. generalize dependent (sin t). generalize (cos t). intros c s H.
  replace ((a1 * c - a2 * s - (b1 * c - b2 * s)) * (a1 * c - a2 * s - (b1 * c - b2 * s)) + (a1 * s + a2 * c - (b1 * s + b2 * c)) * (a1 * s + a2 * c - (b1 * s + b2 * c)) + (a3 - b3) * (a3 - b3))
    with ((s * s + c * c) * ((a1 - b1) * (a1 - b1) + (a2 - b2) * (a2 - b2)) + (a3 - b3) * (a3 - b3)) by ring. rewrite H. ring.
Qed.
Lemma near_within (v : V3 PrimFloat.float) (w : pt) : norm (psub (val3 v) w) <= 32 * U -> norm w = 1 -> within3 (1001 / 1000) v.
Proof.
  intros H W. pose proof U_pos as [U0 U1]. pose proof (norm_near (val3 v) w) as N. rewrite W in N. apply Rabs_def2_le in N. destruct (comp_le (val3 v)) as (A & B & C). cbn [vx vy vz val3] in A, B, C. repeat split; lra.
Qed.
Section Disk.
Context (T : Trig PrimFloat.float).
Hypothesis HT : accurate T.
Variables al be ga : PrimFloat.float.
Hypotheses (Ha : usual_angle al) (Hb : usual_angle be) (Hg : usual_angle ga).
Let y1 := rotate (mkV3 0 1 0)%float (mkV3 1 0 0)%float al.
Let x2 := rotate (mkV3 1 0 0)%float (mkV3 0 1 0)%float be.
Let y2 := rotate y1 (mkV3 0 1 0)%float be.
Let x3 := rotate x2 (mkV3 0 0 1)%float ga.
Let y3 := rotate y2 (mkV3 0 0 1)%float ga.
Lemma unit_steps a b : norm (turn_x a (mkV3 0 1 0)) = 1 /\ norm (turn_y b (mkV3 1 0 0)) = 1 /\ norm (turn_y b (turn_x a (mkV3 0 1 0))) = 1.
Proof.
  assert (forall w : pt, dot w w = 1 -> norm w = 1) as G by (intros w E; apply norm_unit; exact E).
  pose proof (sin2_cos2 a) as A. pose proof (sin2_cos2 b) as B. unfold Rsqr in A, B. split; [|split]; apply G; unfold turn_x, turn_y, dot; cbn [vx vy vz].
  - transitivity (sin a * sin a + cos a * cos a); [ring|exact A].
  - transitivity (sin b * sin b + cos b * cos b); [ring|exact B].
  - set (ca := cos a) in *. set (sa := sin a) in *. set (cb := cos b) in *. set (sb := sin b) in *. clearbody ca sa cb sb. clear G. nsatz.
Qed.
Lemma axes_err : number3 x3 /\ norm (psub (val3 x3) (disk_major (val be) (val ga))) <= 16 * U /\ number3 y3 /\ norm (psub (val3 y3) (disk_minor (val al) (val be) (val ga))) <= 30 * U.
Proof.
  pose proof U_pos as [U0 U1]. destruct (unit_steps (val al) (val be)) as (W1 & W2 & W3).
  destruct (first_y T HT al Ha) as [Ny1 Vy1]. fold y1 in Ny1, Vy1. destruct (first_x T HT be Hb) as [Nx2 Vx2]. fold x2 in Nx2, Vx2. destruct (mat_err T HT al Ha) as [Ca Sa]. destruct (mat_err T HT be Hb) as [Cb Sb].
  assert (norm (psub (val3 y1) (turn_x (val al) (mkV3 0 1 0))) <= 1733 / 1000 * U) as E1.
  { rewrite Vy1. apply norm_le; unfold psub, turn_x; cbn [vx vy vz].
    - rewrite Rminus_0_r, Rabs_R0. lra.
    - replace (val (ncos al) - (1 * cos (val al) - 0 * sin (val al))) with (val (ncos al) - cos (val al)) by ring. exact Ca.
    - replace (val (nsin al) - (1 * sin (val al) + 0 * cos (val al))) with (val (nsin al) - sin (val al)) by ring. exact Sa. }
  assert (norm (psub (val3 x2) (turn_y (val be) (mkV3 1 0 0))) <= 1733 / 1000 * U) as E2.
  { rewrite Vx2. apply norm_le; unfold psub, turn_y; cbn [vx vy vz].
    - replace (val (ncos be) - (1 * cos (val be) + 0 * sin (val be))) with (val (ncos be) - cos (val be)) by ring. exact Cb.
    - rewrite Rminus_0_r, Rabs_R0. lra.
    - replace (- val (nsin be) - (0 * cos (val be) - 1 * sin (val be))) with (- (val (nsin be) - sin (val be))) by ring. rewrite Rabs_Ropp. exact Sb. }
  destruct (second T HT be Hb y1 Ny1) as [Ny2 Ey2]; [apply (near_within _ _ ltac:(eapply Rle_trans; [exact E1|lra]) W1)|]. fold y2 in Ny2, Ey2.
  assert (norm (psub (val3 y2) (turn_y (val be) (turn_x (val al) (mkV3 0 1 0)))) <= 15733 / 1000 * U) as E3.
  { eapply Rle_trans; [apply (psub_tri _ (turn_y (val be) (val3 y1)))|]. rewrite turn_y_iso. lra. }
  destruct (third T HT ga Hg x2 Nx2) as [Nx3 Ex3]; [apply (near_within _ _ ltac:(eapply Rle_trans; [exact E2|lra]) W2)|]. fold x3 in Nx3, Ex3.
  destruct (third T HT ga Hg y2 Ny2) as [Ny3 Ey3]; [apply (near_within _ _ ltac:(eapply Rle_trans; [exact E3|lra]) W3)|]. fold y3 in Ny3, Ey3.
  split; [exact Nx3|]. split; [|split; [exact Ny3|]].
  - unfold disk_major. eapply Rle_trans; [apply (psub_tri _ (turn_z (val ga) (val3 x2)))|]. rewrite turn_z_iso. lra.
  - unfold disk_minor. eapply Rle_trans; [apply (psub_tri _ (turn_z (val ga) (val3 y2)))|]. rewrite turn_z_iso. lra.
Qed.

Variables (maj mnr : draws PrimFloat.float) (ctr : V3 PrimFloat.float) (fuel : nat) (e : ell PrimFloat.float).
Hypotheses (Nmaj : forall i, number (maj i)) (Nmnr : forall i, number (mnr i)) (He : sample_disk maj mnr al be ga ctr fuel = Ok e).
Lemma disk_is : exists a b, first_positive maj a /\ first_positive mnr b /\
  e = make_ell ctr (to_dir x3) (to_dir y3) a (if PrimFloat.ltb a b then a else b).
Proof.
  revert He. unfold sample_disk. cbn [nleb n0 nlit F_num].
  destruct (draw_until _ maj 0 fuel) as [[a k]| | |] eqn:Ea; cbn [obind]; try discriminate.
  destruct (draw_until _ mnr 0 fuel) as [[b l]| | |] eqn:Eb; cbn [obind fst]; try discriminate. intros H. injection H as <-.
  apply draw_until_ok in Ea. destruct Ea as (i & _ & _ & Ai & Ap & Am). apply draw_until_ok in Eb. destruct Eb as (j & _ & _ & Bj & Bp & Bm).
  destruct n0_val as [N0 V0].
  assert (forall x, number x -> negb (PrimFloat.leb x (nlit 0 1)) = true -> 0 < val x) as P1.
  { intros x Nx P. apply negb_true_iff in P. apply f_leb_false in P; [|assumption|exact N0]. rewrite V0 in P. exact P. }
  assert (forall x, number x -> negb (PrimFloat.leb x (nlit 0 1)) = false -> val x <= 0) as P2.
  { intros x Nx P. apply negb_false_iff in P. apply f_leb in P; [|assumption|exact N0]. rewrite V0 in P. exact P. }
  exists a, b. split; [|split].
  - exists i. split; [exact Ai|]. split; [apply P1; [rewrite <- Ai; apply Nmaj|exact Ap]|]. intros m Hm. apply P2; [apply Nmaj|]. apply Am. lia.
  - exists j. split; [exact Bj|]. split; [apply P1; [rewrite <- Bj; apply Nmnr|exact Bp]|]. intros m Hm. apply P2; [apply Nmnr|]. apply Bm. lia.
  - reflexivity.
Qed.
Lemma disk_frame : frame (powerRZ 2 (-47)) (e_maj e) (e_min e) (e_n e) /\
  dist (val3 (e_maj e)) (disk_major (val be) (val ga)) <= powerRZ 2 (-46) /\ dist (val3 (e_min e)) (disk_minor (val al) (val be) (val ga)) <= powerRZ 2 (-46) /\
  dist (val3 (e_n e)) (cross (disk_major (val be) (val ga)) (disk_minor (val al) (val be) (val ga))) <= powerRZ 2 (-45).
Proof.
  destruct disk_is as (a & b & _ & _ & ->). destruct axes_err as (Nx & Ex & Ny & Ey). destruct (turn_dots (val al) (val be) (val ga)) as (Ux & Uy & Ox).
  destruct (frame_near x3 y3 _ _ Nx Ny Ux Uy Ox Ex Ey) as (F & A & B & C). pose proof U_pos as [U0 U1]. destruct U_50 as (_ & U2 & U3). unfold dist, make_ell. cbn [e_maj e_min e_n].
  replace (powerRZ 2 (-45)) with (256 * U) by (rewrite two_p; change (bpow radix2 (-45)) with (/ 35184372088832); unfold U; lra).
  rewrite U2, U3. split; [exact F|]. split; [eapply Rle_trans; [exact A|lra]|]. split; [eapply Rle_trans; [exact B|lra]|exact C].
Qed.
Lemma disk_lengths : exists b, first_positive maj (e_a e) /\ first_positive mnr b /\ val (e_b e) = Rmin (val (e_a e)) (val b) /\ 0 < val (e_b e) <= val (e_a e) /\ e_c e = ctr.
Proof.
  destruct disk_is as (a & b & Fa & Fb & ->). exists b. unfold make_ell. cbn [e_a e_b e_c]. split; [exact Fa|]. split; [exact Fb|].
  assert (number a) as Na by (destruct Fa as (i & <- & _); apply Nmaj). assert (number b) as Nb by (destruct Fb as (i & <- & _); apply Nmnr).
  assert (0 < val a) as Pa by (destruct Fa as (i & _ & P & _); exact P). assert (0 < val b) as Pb by (destruct Fb as (i & _ & P & _); exact P).
  destruct (PrimFloat.ltb a b) eqn:L.
  - apply f_ltb in L; try assumption. rewrite Rmin_left by lra. repeat split; lra.
  - apply f_ltb_false in L; try assumption. rewrite Rmin_right by lra. repeat split; lra.
Qed.
Variable M : R.
Hypotheses (Hc : point_upto M ctr) (Hmaj : forall i, val (maj i) <= M).
Lemma disk_upto : ellipse_upto M e.
Proof.
  destruct disk_frame as ((Du & Dv & Dn & _) & _). destruct disk_lengths as (b & Fa & Fb & Eb & Pb & Ec).
  assert (number (e_a e) /\ val (e_a e) <= M) as [Na Ba] by (destruct Fa as (i & <- & _); split; [apply Nmaj|apply Hmaj]).
  assert (number (e_b e)) as Nb.
  { clear Eb Pb. destruct disk_is as (a & b' & Ga & Gb & E). rewrite E. unfold make_ell. cbn [e_b]. destruct (PrimFloat.ltb a b'); [destruct Ga as (i & <- & _); apply Nmaj|destruct Gb as (i & <- & _); apply Nmnr]. }
  unfold ellipse_upto. rewrite Ec. split; [exact Hc|]. split; [exact Du|]. split; [exact Dv|]. split; [exact Dn|]. split; split; try assumption; lra.
Qed.
(** the assertion of the constructor *)
Lemma disk_assertion : Rabs (dot (val3 (e_min e)) (val3 (e_maj e))) < / 10000000.
Proof.
  destruct disk_frame as ((_ & _ & _ & H & _) & _). replace (dot (val3 (e_min e)) (val3 (e_maj e))) with (dot (val3 (e_maj e)) (val3 (e_min e))) by (unfold dot; ring).
  eapply Rle_lt_trans; [exact H|]. rewrite (proj1 (proj2 U_50)). unfold U. lra.
Qed.
End Disk.
