(** Proofs for C118: quadrilaterals with a given strike, dip and lengths in double precision. *)

From Coq Require Import Nsatz ZArith Reals Lra Lia Psatz Bool List.
From Flocq Require Import Core.Core IEEE754.BinarySingleNaN IEEE754.PrimFloat.
From Coq Require Import Floats.
From Verif Require Import Base NumModel VecModel LinModel RoundModel PolyModel DistModel IntModel SampModel GeoSpec LinSpec PolySpec SampSpec DblSpec GeoLemmas
  DblLemmas DblProofs DblLen DblExamples DblEq LinDblSpec LinDblBase LinDblFoot LinDblProofs TrigDblSpec RndDblSpec RndDblProofs PtDblSpec PtDblProofs FrDblProofs SdDblSpec SdDblProofs SdDblDisk SdDblFrame SpDblSpec SpDblProofs QdDblSpec.
Import ListNotations.
Local Open Scope R_scope.

(** ** Rotation about an axis that is known up to an error *)
Lemma rotate_near (T : Trig PrimFloat.float) d t u v M D : accurate T -> direction d -> usual_angle t -> unit3 u -> norm (psub (val3 d) u) <= D -> moderate M -> point_upto M v ->
  number3 (rotate v d t) /\ norm (psub (val3 (rotate v d t)) (turn u (val t) (val3 v))) <= 512 * (U * M) + 5 * (8 * U + D) * norm (val3 v).
Proof.
  intros HT Hd Ht Hu Hdu HM Hv. pose proof U_pos as [U0 U1]. pose proof (sized_pos M (moderate_sized M (moderate_x M HM))) as M0.
  destruct (dir_norm d Hd) as (P & _ & K). destruct (unit_of (val3 d) P) as (A & B & _). set (w := pscale (/ norm (val3 d)) (val3 d)) in *.
  assert (norm (psub (val3 d) w) <= powerRZ 2 (-50)) as Hw by (rewrite B, (proj1 U_50); exact K).
  destruct (rotate_dbl T d t w HT Hd Ht A Hw v M HM Hv) as [N E]. split; [exact N|]. unfold dist in E.
  eapply Rle_trans; [apply (psub_tri _ (turn w (val t) (val3 v)))|]. pose proof (turn_axis w u (val3 v) (val t) A Hu) as X.
  assert (norm (psub w u) <= 8 * U + D) as W.
  { eapply Rle_trans; [apply (psub_tri _ (val3 d))|]. assert (norm (psub w (val3 d)) <= 8 * U); [|lra].
    replace (psub w (val3 d)) with (pscale (-1) (psub (val3 d) w)) by (clear; generalize (val3 d) w; intros [a b c] [a' b' c']; pts; f_equal; ring). rewrite norm_mul, Rabs_left by lra. rewrite B. lra. }
  assert (5 * norm (psub w u) * norm (val3 v) <= 5 * (8 * U + D) * norm (val3 v)) as Y.
  { apply Rmult_le_compat_r; [apply norm_nonneg|]. lra. }
  replace (powerRZ 2 (-44)) with (512 * U) in E by (rewrite two_p; change (bpow radix2 (-44)) with (/ 17592186044416); unfold U; lra). lra.
Qed.

(** ** Sums of two terms *)
Section Terms.
Variable M : R.
Hypothesis HM : scale M.
Let e := U * M.
Let HS := scale_sized M HM.
Let M0 : 0 < M := sized_pos M HS.
Let e0 : 0 < e <= / 1000000 * M.
Proof. pose proof U_pos as [U0 U1]. split; [apply Rmult_lt_0_compat; lra|apply Rmult_le_compat_r; lra]. Qed.
Let big c : 1 <= c <= 1000 -> bpow radix2 (-1000) <= c * M /\ c * M <= bpow radix2 1000.
Proof.
  intros Hc. pose proof HM as HQ. unfold scale in HQ. rewrite !two_p in HQ. assert (bpow radix2 (-1000) <= bpow radix2 (-300)) by (apply bpow_le; lia).
  assert (1000 * bpow radix2 300 <= bpow radix2 1000) as W. { apply Rle_trans with (bpow radix2 10 * bpow radix2 300); [apply Rmult_le_compat_r; [apply bpow_ge_0|change (bpow radix2 10) with 1024; lra]|]. rewrite <- bpow_plus. apply bpow_le. lia. }
  pose proof (bpow_gt_0 radix2 (-300)). split; nra.
Qed.
Definition term (sg : bool) (c x h : PrimFloat.float) : PrimFloat.float := if sg then (c + x * h)%float else (c - x * h)%float.
Definition sgn (sg : bool) : R := if sg then 1 else -1.
Lemma term_err sg c x h K : number c -> number x -> number h -> 1 <= K <= 10 -> Rabs (val c) <= K * M -> Rabs (val x) <= 101 / 100 -> Rabs (val h) <= 51 / 100 * M ->
  number (term sg c x h) /\ Rabs (val (term sg c x h) - (val c + sgn sg * (val x * val h))) <= (K + 2) * e /\ Rabs (val (term sg c x h)) <= (K + 1) * M.
Proof.
  intros Nc Nx Nh HK Bc Bx Bh. destruct (big 1 ltac:(lra)) as [L1 H1]. rewrite Rmult_1_l in L1, H1. destruct (big (K + 1) ltac:(lra)) as [L2 H2].
  assert (Rabs (val x * val h) <= 52 / 100 * M) as Bp. { rewrite Rabs_mult. pose proof (Rabs_pos (val x)). pose proof (Rabs_pos (val h)). nra. }
  destruct (mul_err x h M Nx Nh L1 H1) as [Np Ep]; [lra|]. fold e in Ep. set (p := (x * h)%float) in *.
  assert (U * ((K + 1) * M) = (K + 1) * e) as EU by (unfold e; ring).
  apply Rabs_le_inv in Bc, Bp, Ep. unfold term, sgn. fold p. destruct sg.
  - destruct (add_err c p ((K + 1) * M) Nc Np L2 H2) as [N E]; [apply Rabs_le; nra|]. rewrite EU in E. apply Rabs_le_inv in E. split; [exact N|]. split; apply Rabs_le; nra.
  - destruct (sub_err c p ((K + 1) * M) Nc Np L2 H2) as [N E]; [apply Rabs_le; nra|]. rewrite EU in E. apply Rabs_le_inv in E. split; [exact N|]. split; apply Rabs_le; nra.
Qed.
Lemma terms_err s1 s2 c x h y k : number c -> number x -> number h -> number y -> number k -> Rabs (val c) <= M -> Rabs (val x) <= 101 / 100 -> Rabs (val y) <= 101 / 100 -> Rabs (val h) <= 51 / 100 * M -> Rabs (val k) <= 51 / 100 * M ->
  let r := term s2 (term s1 c x h) y k in number r /\ Rabs (val r - (val c + sgn s1 * (val x * val h) + sgn s2 * (val y * val k))) <= 7 * e.
Proof.
  intros Nc Nx Nh Ny Nk Bc Bx By Bh Bk. cbv zeta. destruct (term_err s1 c x h 1 Nc Nx Nh) as (N1 & E1 & B1); try assumption; try lra.
  destruct (term_err s2 (term s1 c x h) y k 2 N1 Ny Nk) as (N2 & E2 & _); try assumption; try lra. split; [exact N2|].
  apply Rabs_le_inv in E1, E2. apply Rabs_le. lra.
Qed.
Lemma half_err x : length_upto M x -> number (x / nlit 2 1)%float /\ Rabs (val (x / nlit 2 1)%float - val x / 2) <= e /\ Rabs (val (x / nlit 2 1)%float) <= 51 / 100 * M.
Proof.
  intros [Nx Bx]. destruct (big 1 ltac:(lra)) as [L1 H1]. rewrite Rmult_1_l in L1, H1. assert (bpow radix2 1000 <= bpow radix2 1023) as W by (apply bpow_le; lia).
  assert (number (nlit 2 1 : PrimFloat.float) /\ val (nlit 2 1 : PrimFloat.float) = 2) as [N2 V2].
  { assert (Prim2SF (nlit 2 1 : PrimFloat.float) = S754_finite false 4503599627370496 (-51)) as E by (vm_compute; reflexivity).
    destruct (int_val _ _ _ E) as [N V]. split; [exact N|]. rewrite V. change (bpow radix2 (-51)) with (/ 2251799813685248). lra. }
  assert (Rabs (val x / 2) <= M / 2) as Bq by (apply Rabs_le_inv in Bx; apply Rabs_le; lra).
  destruct (f_div x (nlit 2 1) Nx N2) as [N V]; [rewrite V2; lra|rewrite V2; lra|]. rewrite V2 in V. split; [exact N|].
  assert (Rabs (rnd (val x / 2) - val x / 2) <= e) as E by (apply rnd_err; [exact L1|lra]). rewrite <- V in E. split; [exact E|].
  apply Rabs_le_inv in E, Bq. apply Rabs_le. lra.
Qed.

Section Corner.
Variables (c x y : V3 PrimFloat.float) (X Y : pt) (Ex Ey : R).
Hypotheses (Hc : point_upto M c) (Nx : number3 x) (Ny : number3 y) (UX : norm X = 1) (UY : norm Y = 1).
Hypotheses (HX : norm (psub (val3 x) X) <= Ex * U) (HY : norm (psub (val3 y) Y) <= Ey * U) (SX : 0 <= Ex <= 100000) (SY : 0 <= Ey <= 100000).
Definition corner (s1 s2 : bool) (h k : PrimFloat.float) : V3 PrimFloat.float :=
  mkV3 (term s2 (term s1 (vx c) (vx x) h) (vx y) k) (term s2 (term s1 (vy c) (vy x) h) (vy y) k) (term s2 (term s1 (vz c) (vz x) h) (vz y) k).
Let small (v : V3 PrimFloat.float) (w : pt) E : norm w = 1 -> norm (psub (val3 v) w) <= E * U -> 0 <= E <= 100000 ->
  norm (val3 v) <= 101 / 100 /\ Rabs (val (vx v)) <= 101 / 100 /\ Rabs (val (vy v)) <= 101 / 100 /\ Rabs (val (vz v)) <= 101 / 100.
Proof.
  intros Hw H HE. pose proof U_pos as [U0 U1]. pose proof (norm_near (val3 v) w) as L. rewrite Hw in L. assert (E * U <= / 100) as W by (unfold U; lra).
  apply Rabs_le_inv in L. destruct (comp_le (val3 v)) as (A & B & C). cbn [val3 vx vy vz] in A, B, C. lra.
Qed.
Let part (v : V3 PrimFloat.float) (w : pt) E (h : PrimFloat.float) d sg : norm w = 1 -> norm (psub (val3 v) w) <= E * U -> 0 <= E <= 100000 -> Rabs (val h - d / 2) <= e -> Rabs d <= M ->
  norm (psub (pscale (sgn sg * val h) (val3 v)) (pscale (sgn sg * (d / 2)) w)) <= (101 / 100 + E / 2) * e.
Proof.
  intros Hw H HE Hh Hd. destruct (small v w E Hw H HE) as (B & _). pose proof U_pos as [U0 U1].
  replace (psub (pscale (sgn sg * val h) (val3 v)) (pscale (sgn sg * (d / 2)) w)) with (pscale (sgn sg) (padd (pscale (val h - d / 2) (val3 v)) (pscale (d / 2) (psub (val3 v) w))))
    by (clear; generalize (val3 v) w; intros [a1 a2 a3] [b1 b2 b3]; pts; f_equal; ring).
  rewrite norm_mul. replace (Rabs (sgn sg)) with 1 by (destruct sg; cbn [sgn]; [rewrite Rabs_pos_eq|rewrite Rabs_left]; lra). rewrite Rmult_1_l.
  eapply Rle_trans; [apply norm_tri|]. rewrite !norm_mul. replace (Rabs (d / 2)) with (Rabs d / 2) by (unfold Rdiv; rewrite Rabs_mult, (Rabs_pos_eq (/ 2)); lra).
  pose proof (norm_nonneg (val3 v)). pose proof (norm_nonneg (psub (val3 v) w)). pose proof (Rabs_pos d). pose proof (Rabs_pos (val h - d / 2)).
  assert (Rabs (val h - d / 2) * norm (val3 v) <= e * (101 / 100)) as P1 by (apply Rmult_le_compat; lra).
  assert (Rabs d / 2 * norm (psub (val3 v) w) <= M / 2 * (E * U)) as P2 by (apply Rmult_le_compat; lra). unfold e in *. lra.
Qed.
Lemma corner_near s1 s2 dx dy : length_upto M dx -> length_upto M dy -> let p := corner s1 s2 (dx / nlit 2 1)%float (dy / nlit 2 1)%float in
  number3 p /\ dist (val3 p) (padd (val3 c) (padd (pscale (sgn s1 * (val dx / 2)) X) (pscale (sgn s2 * (val dy / 2)) Y))) <= (15 + (Ex + Ey) / 2) * e.
Proof.
  intros Hx Hy. cbv zeta. destruct (half_err dx Hx) as (Nh & Eh & Bh). destruct (half_err dy Hy) as (Nk & Ek & Bk). set (h := (dx / nlit 2 1)%float) in *. set (k := (dy / nlit 2 1)%float) in *. clearbody h k.
  destruct (small x X Ex UX HX SX) as (_ & X1 & X2 & X3). destruct (small y Y Ey UY HY SY) as (_ & Y1 & Y2 & Y3).
  pose proof (part x X Ex h (val dx) s1 UX HX SX Eh (proj2 Hx)) as PX. pose proof (part y Y Ey k (val dy) s2 UY HY SY Ek (proj2 Hy)) as PY.
  destruct Hc as [(C1 & C2 & C3) (D1 & D2 & D3)]. destruct Nx as (A1 & A2 & A3), Ny as (B1 & B2 & B3).
  destruct (terms_err s1 s2 (vx c) (vx x) h (vx y) k) as [N1 E1]; try assumption. destruct (terms_err s1 s2 (vy c) (vy x) h (vy y) k) as [N2 E2]; try assumption. destruct (terms_err s1 s2 (vz c) (vz x) h (vz y) k) as [N3 E3]; try assumption.
  split; [exact (conj N1 (conj N2 N3))|]. unfold dist.
  eapply Rle_trans; [apply (psub_tri _ (padd (val3 c) (padd (pscale (sgn s1 * val h) (val3 x)) (pscale (sgn s2 * val k) (val3 y)))))|].
  assert (norm (psub (val3 (corner s1 s2 h k)) (padd (val3 c) (padd (pscale (sgn s1 * val h) (val3 x)) (pscale (sgn s2 * val k) (val3 y))))) <= 1733 / 1000 * (7 * e)) as Q.
  { apply norm_le; unfold corner, psub, padd, pscale, val3; cbn [vx vy vz]; eapply Rle_trans; [|exact E1| |exact E2| |exact E3]; right; f_equal; ring. }
  assert (norm (psub (padd (val3 c) (padd (pscale (sgn s1 * val h) (val3 x)) (pscale (sgn s2 * val k) (val3 y)))) (padd (val3 c) (padd (pscale (sgn s1 * (val dx / 2)) X) (pscale (sgn s2 * (val dy / 2)) Y))))
    <= (101 / 100 + Ex / 2) * e + (101 / 100 + Ey / 2) * e) as R.
  { eapply Rle_trans; [|apply Rplus_le_compat; [exact PX|exact PY]]. eapply Rle_trans; [right|apply norm_tri]. f_equal.
    generalize (sgn s1 * val h) (sgn s2 * val k) (sgn s1 * (val dx / 2)) (sgn s2 * (val dy / 2)) (val3 c) (val3 x) (val3 y) X Y. clear. intros a b a' b' [c1 c2 c3] [x1 x2 x3] [y1 y2 y3] [u1 u2 u3] [v1 v2 v3]. pts. f_equal; ring. }
  lra.
Qed.
End Corner.
End Terms.

(** ** The axes *)
Section Axes.
Context (T : Trig PrimFloat.float).
Variables (strike dip : PrimFloat.float).
Hypotheses (HT : accurate T) (Hs : usual_angle strike) (Hd : usual_angle dip).
Let s := val strike.
Let d := val dip.
Definition ax1 : V3 PrimFloat.float := rotate (mkV3 n1 n0 n0) ezf strike.
Definition ax_y : V3 PrimFloat.float := rotate (mkV3 n0 n1 n0) ezf strike.
Definition ax_x : V3 PrimFloat.float := rotate ax1 (to_dir ax_y) dip.
Let mod2 c : 1 <= c <= 1000 -> moderate c.
Proof.
  intros Hc. unfold moderate. rewrite !two_p. assert (bpow radix2 (-400) <= bpow radix2 0) by (apply bpow_le; lia). assert (bpow radix2 10 <= bpow radix2 400) by (apply bpow_le; lia).
  change (bpow radix2 0) with 1 in *. change (bpow radix2 10) with 1024 in *. lra.
Qed.
Let unit_vec (a b c : PrimFloat.float) : number a -> number b -> number c -> Rabs (val a) <= 1 -> Rabs (val b) <= 1 -> Rabs (val c) <= 1 -> point_upto 1 (mkV3 a b c).
Proof. intros. repeat split; assumption. Qed.
Lemma first_axes : (number3 ax1 /\ norm (psub (val3 ax1) (turn (mkV3 0 0 1) s (mkV3 1 0 0))) <= 760 * U) /\ (number3 ax_y /\ norm (psub (val3 ax_y) (strike_dir s)) <= 760 * U).
Proof.
  destruct ez_ok as (E1 & E2 & E3). destruct n0_val as [N0 V0]. destruct n1_val as [N1 V1]. pose proof U_pos as [U0 U1].
  assert (point_upto 1 (mkV3 n1 n0 n0 : V3 PrimFloat.float) /\ point_upto 1 (mkV3 n0 n1 n0 : V3 PrimFloat.float)) as [P1 P2].
  { change (n0 : PrimFloat.float) with (nlit 0 1 : PrimFloat.float). change (n1 : PrimFloat.float) with (nlit 1 1 : PrimFloat.float).
    split; apply unit_vec; rewrite ?V0, ?V1, ?Rabs_R0, ?Rabs_R1; try assumption; lra. }
  destruct (rotate_axis T ezf strike _ _ 1 HT E1 Hs E2 E3 (mod2 1 ltac:(lra)) P1) as [A B]. destruct (rotate_axis T ezf strike _ _ 1 HT E1 Hs E2 E3 (mod2 1 ltac:(lra)) P2) as [C D].
  rewrite Rmult_1_r in B, D. split; (split; [assumption|]).
  - unfold ax1, s. replace (val3 (mkV3 n1 n0 n0 : V3 PrimFloat.float)) with (mkV3 1 0 0 : pt) in B; [exact B|]. unfold val3. cbn [vx vy vz].
    change (n0 : PrimFloat.float) with (nlit 0 1 : PrimFloat.float). change (n1 : PrimFloat.float) with (nlit 1 1 : PrimFloat.float). rewrite V0, V1. reflexivity.
  - unfold ax_y. replace (strike_dir s) with (turn (mkV3 0 0 1) s (mkV3 0 1 0)) by (unfold turn, strike_dir; pts; f_equal; ring).
    replace (val3 (mkV3 n0 n1 n0 : V3 PrimFloat.float)) with (mkV3 0 1 0 : pt) in D; [exact D|]. unfold val3. cbn [vx vy vz].
    change (n0 : PrimFloat.float) with (nlit 0 1 : PrimFloat.float). change (n1 : PrimFloat.float) with (nlit 1 1 : PrimFloat.float). rewrite V0, V1. reflexivity.
Qed.
Lemma second_axis : number3 ax_x /\ norm (psub (val3 ax_x) (dip_dir s d)) <= 10000 * U.
Proof.
  destruct first_axes as [[N1 E1] [Ny Ey]]. pose proof U_pos as [U0 U1]. destruct (dirs_unit s d) as (Us & Ud & _). pose proof (norm_unit _ Us) as Un.
  assert (760 * U <= / 1000) as W by (unfold U; lra). pose proof (norm_near (val3 ax_y) (strike_dir s)) as L. rewrite Un in L.
  destruct (dir_near ax_y Ny ltac:(lra)) as (k & Pk & Hk & Nu & Eu). pose proof (dir_is k ax_y Nu Hk Eu (proj1 Pk)) as Dy.
  pose proof (dir_close k ax_y _ _ Eu Hk Un Ey) as Cy.
  set (p := turn (mkV3 0 0 1) s (mkV3 1 0 0)) in *. assert (norm p = 1) as Up.
  { unfold p. apply norm_unit. pose proof (sin2_cos2 s) as A. unfold Rsqr in A. unfold unit3, turn. pts. set (cs := cos s) in *. set (ss := sin s) in *. clearbody cs ss. nsatz. }
  pose proof (norm_near (val3 ax1) p) as L1. rewrite Up in L1. apply Rabs_le_inv in L1. destruct (comp_le (val3 ax1)) as (A & B & C). cbn [val3 vx vy vz] in A, B, C.
  assert (point_upto (1001 / 1000) ax1) as P1 by (split; [exact N1|]; repeat split; lra).
  destruct (rotate_near T (to_dir ax_y) dip (strike_dir s) ax1 (1001 / 1000) (677 / 100 * U + 2 * (760 * U)) HT Dy Hd Us Cy (mod2 (1001 / 1000) ltac:(lra)) P1) as [N E].
  split; [exact N|]. replace (dip_dir s d) with (turn (strike_dir s) d p).
  2:{ unfold p. rewrite turned_twice. unfold SampSpec.in_plane. unfold dip_dir, strike_dir. pts. f_equal; ring. }
  eapply Rle_trans; [apply (psub_tri _ (turn (strike_dir s) d (val3 ax1)))|]. rewrite (turn_iso _ _ _ _ Us). fold d in E. fold ax_x in E.
  assert (5 * (8 * U + (677 / 100 * U + 2 * (760 * U))) * norm (val3 ax1) <= 5 * (8 * U + (677 / 100 * U + 2 * (760 * U))) * (1001 / 1000)) as Q by (apply Rmult_le_compat_l; lra).
  lra.
Qed.

Variables (M : R) (ctr : V3 PrimFloat.float) (dx1 dx2 dy1 dy2 : PrimFloat.float).
Hypotheses (HM : scale M) (Hc : point_upto M ctr) (H1 : length_upto M dx1) (H2 : length_upto M dx2) (H3 : length_upto M dy1) (H4 : length_upto M dy2).
Let q := strike_dip_quad strike dip ctr dx1 dx2 dy1 dy2.
Lemma quad_corners : (number3 (q_0 q) /\ number3 (q_1 q) /\ number3 (q_2 q) /\ number3 (q_3 q)) /\
  corners_near (powerRZ 2 (-40) * M) s d (val3 ctr) (val dx1) (val dx2) (val dy1) (val dy2) q.
Proof.
  destruct first_axes as [_ [Ny Ey]]. destruct second_axis as [Nx Ex]. pose proof U_pos as [U0 U1]. destruct (dirs_unit s d) as (Us & Ud & _). apply norm_unit in Us, Ud.
  assert (0 < U * M) as UM by (apply Rmult_lt_0_compat; [lra|apply (sized_pos M (scale_sized M HM))]).
  assert (powerRZ 2 (-40) * M = 8192 * (U * M)) as E40 by (rewrite two_p; change (bpow radix2 (-40)) with (/ 1099511627776); unfold U; lra).
  assert (forall s1 s2 dx dy, length_upto M dx -> length_upto M dy -> let p := corner ctr ax_x ax_y s1 s2 (dx / nlit 2 1)%float (dy / nlit 2 1)%float in
    number3 p /\ dist (val3 p) (padd (val3 ctr) (SampSpec.in_plane s d (sgn s1 * (val dx / 2)) (sgn s2 * (val dy / 2)))) <= powerRZ 2 (-40) * M) as K.
  { intros s1 s2 dx dy Hx Hy. destruct (corner_near M HM ctr ax_x ax_y (dip_dir s d) (strike_dir s) 10000 760 Hc Nx Ny Ud Us Ex Ey ltac:(lra) ltac:(lra) s1 s2 dx dy Hx Hy) as [N D].
    split; [exact N|]. unfold SampSpec.in_plane. eapply Rle_trans; [exact D|]. lra. }
  assert (forall u, - (u / 2) = sgn false * (u / 2)) as Sm by (intros; cbn [sgn]; ring). assert (forall u, u / 2 = sgn true * (u / 2)) as Sp by (intros; cbn [sgn]; ring).
  destruct (K false false dx1 dy1 H1 H3) as [N0 D0]. destruct (K true false dx2 dy2 H2 H4) as [N1 D1]. destruct (K false true dx1 dy1 H1 H3) as [N2 D2]. destruct (K true true dx2 dy2 H2 H4) as [N3 D3].
  split; [split; [exact N0|split; [exact N1|split; [exact N2|exact N3]]]|]. unfold corners_near. cbn [sgn] in D0, D1, D2, D3.
  rewrite !(Rmult_1_l (_ / 2)) in *. rewrite <- !(Ropp_mult_distr_l 1), !(Rmult_1_l (_ / 2)) in *.
  split; [exact D0|split; [exact D1|split; [exact D2|exact D3]]].
Qed.
End Axes.
