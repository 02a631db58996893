(** Proofs for C117: points of a hollow cylinder in double precision. *)

From Coq Require Import ZArith Reals Lra Lia Psatz Bool List.
From Flocq Require Import Core.Core IEEE754.BinarySingleNaN IEEE754.PrimFloat.
From Coq Require Import Floats.
From Verif Require Import Base NumModel VecModel LinModel RoundModel PolyModel DistModel IntModel SampModel DomModel RngModel GeoSpec LinSpec DblSpec DomSpec RngSpec
  GeoLemmas DblLemmas DblLen DblProofs DblExamples DomProofs DomExamples LinDblSpec LinDblBase LinDblFoot LinDblProofs RndDblSpec RndDblProofs TrigDblSpec TrigDblExamples PtDblSpec PtDblProofs FrDblProofs PtDblExamples RngProofs RngDbl RngHolSpec.
Import ListNotations.
Local Open Scope R_scope.

Lemma ring_exact (p c u v w : pt) M rho phi Z h :
  0 < M -> Rabs (norm u - 1) <= 8 * U -> Rabs (norm v - 1) <= 8 * U -> Rabs (norm w - 1) <= 8 * U ->
  Rabs (dot u v) <= 64 * U -> Rabs (dot u w) <= 64 * U -> Rabs (dot v w) <= 64 * U ->
  0 <= rho <= M -> 0 <= Z <= h -> h <= M ->
  dist p (frame_point c u v w (rho * cos phi) (rho * sin phi) Z) <= 64 * (U * M) -> near_ring (1000 * (U * M)) c w rho rho h p.
Proof.
  intros M0 Nu Nv Nw Duv Duw Dvw Hr Hz Hh E. pose proof U_pos as [U0 U1]. set (e := U * M) in *.
  assert (0 < e) as e0 by (apply Rmult_lt_0_compat; assumption).
  set (X := rho * cos phi) in *. set (Y := rho * sin phi) in *.
  destruct (near_exact p (padd c (pscale Z w)) u v w M rho phi 0 rho 0) as (t & k & Ek & O & Bt & Bk); try assumption; try lra.
  { fold X Y. replace (frame_point (padd c (pscale Z w)) u v w X Y 0) with (frame_point c u v w X Y Z) by (unfold frame_point; generalize X Y; clear; intros X Y; pts; f_equal; ring). exact E. }
  fold e in Bt, Bk. exists (Z + t), k. split; [rewrite Ek; generalize t; clear; intros t; pts; f_equal; ring|]. split; [exact O|]. split; [lra|]. split; [|lra].
  set (q := padd (pscale X u) (pscale Y v)). set (d := psub p (frame_point c u v w X Y Z)) in *. change (dist p (frame_point c u v w X Y Z)) with (norm d) in E.
  assert (q = padd k (padd (pscale t w) (pscale (-1) d))) as Eq.
  { unfold q, d. rewrite Ek. unfold frame_point. generalize X Y t. clear. intros X Y t. destruct k as [kx ky kz]. pts. f_equal; ring. }
  apply Rabs_def2_le in Nu, Nv, Nw. pose proof (sin2_cos2 phi) as SC. unfold Rsqr in SC.
  assert (X * X + Y * Y = rho * rho) as XY. { unfold X, Y. replace (rho * cos phi * (rho * cos phi) + rho * sin phi * (rho * sin phi)) with (rho * rho * (sin phi * sin phi + cos phi * cos phi)) by ring. rewrite SC. ring. }
  assert (rho - 50 * U * rho <= norm q) as Nq.
  { assert ((rho - 50 * U * rho) * (rho - 50 * U * rho) <= dot q q) as Q.
    { replace (dot q q) with (X * X * dot u u + Y * Y * dot v v + 2 * (X * Y) * dot u v) by (unfold q; clear; pts; ring).
      rewrite <- !norm_sq. assert (1 - 17 * U <= norm u * norm u) as S1 by nra. assert (1 - 17 * U <= norm v * norm v) as S2 by nra.
      pose proof (Rle_0_sqr X) as X2. pose proof (Rle_0_sqr Y) as Y2. unfold Rsqr in X2, Y2.
      apply Rmult_le_compat_l with (r := X * X) in S1; [|lra]. apply Rmult_le_compat_l with (r := Y * Y) in S2; [|lra].
      assert (- (rho * rho * (64 * U)) <= 2 * (X * Y) * dot u v) as S3.
      { enough (Rabs (2 * (X * Y) * dot u v) <= rho * rho * (64 * U)) as K by (apply Rabs_def2_le in K; lra). rewrite Rabs_mult. apply Rmult_le_compat; try apply Rabs_pos; [|assumption].
        pose proof (Rle_0_sqr (X - Y)). pose proof (Rle_0_sqr (X + Y)). unfold Rsqr in *. apply Rabs_le. lra. }
      assert (0 <= U * (rho * rho)) as P by (apply Rmult_le_pos; [lra|]; nra).
      assert (2500 * U * (U * (rho * rho)) <= 19 * (U * (rho * rho))) by (apply Rmult_le_compat_r; [exact P|unfold U; lra]). nra. }
    assert (0 <= rho - 50 * U * rho) as R0 by (assert (50 * U * rho <= 1 * rho) by (apply Rmult_le_compat_r; [lra|unfold U; lra]); lra).
    unfold norm at 1. rewrite <- (sqrt_square _ R0). apply sqrt_le_1_alt, Q. }
  assert (norm q <= norm k + (Rabs t * norm w + norm d)) as Tq.
  { rewrite Eq. eapply Rle_trans; [apply norm_tri|]. apply Rplus_le_compat_l. eapply Rle_trans; [apply norm_tri|]. rewrite !norm_mul. replace (Rabs (-1)) with 1 by (rewrite Rabs_left; lra). lra. }
  assert (Rabs t * norm w <= 512 * e * (1001 / 1000)) as P4 by (apply Rmult_le_compat; try apply norm_nonneg; try apply Rabs_pos; [apply Rabs_le; lra|lra]).
  assert (U * rho <= e) by (apply Rmult_le_compat_l; lra). lra.
Qed.
Lemma ring_sampled : forall (T : Trig PrimFloat.float) M (e : ell PrimFloat.float) rr rphi rh d1 d2 d3 h, accurate T -> moderate M -> ellipse_upto M e ->
  frame (powerRZ 2 (-47)) (e_maj e) (e_min e) (e_n e) -> 0 <= h <= M ->
  number d1 -> 0 <= val d1 <= M * M -> number d2 -> Rabs (val d2) <= powerRZ 2 20 -> number d3 -> 0 <= val d3 <= h ->
  near_ring (1000 * (U * M)) (val3 (e_c e)) (val3 (e_n e)) (R_sqrt.sqrt (val d1)) (R_sqrt.sqrt (val d1)) h (val3 (ps_point (CylSampler e rr rphi rh) d1 d2 d3)).
Proof.
  intros T M e rr rphi rh d1 d2 d3 h HT HM He (Du & Dv & Dw & F1 & F2 & F3) Hh N1 B1 N2 B2 N3 B3.
  destruct (sampled_dbl T M e rr rphi rh d1 d2 d3 HT HM He N1) as [_ S]; try assumption; [apply Rabs_le; lra|].
  pose proof (sized_pos M (mod_sized M HM)) as M0.
  assert (powerRZ 2 (-47) = 64 * U) as E47. { rewrite two_p. change (bpow radix2 (-47)) with (/ 140737488355328). unfold U. field. }
  rewrite E47 in *. rewrite Rmult_assoc in S.
  destruct (dir_norm _ Du) as (_ & _ & Nu), (dir_norm _ Dv) as (_ & _ & Nv), (dir_norm _ Dw) as (_ & _ & Nw).
  eapply (ring_exact _ _ (val3 (e_maj e)) (val3 (e_min e)) (val3 (e_n e)) M (R_sqrt.sqrt (val d1)) (val d2) (val d3)); try assumption; try lra.
  split; [apply sqrt_pos|]. rewrite <- (sqrt_square M) by lra. apply sqrt_le_1_alt. lra.
Qed.

Section Hol.
Context {T : Trig PrimFloat.float}.
Variables (M : R) (h : hollow PrimFloat.float) (f : cyl PrimFloat.float) (s : psampler PrimFloat.float).
Let e := c_bot f.
Let r := val (hollow_inner h).
Let r' := val (h_outer h).
Hypotheses (Hf : hollow_full h = Ok f) (Hs : sampler_hollow h = Ok s).
Hypotheses (HT : accurate T) (HM : moderate M) (He : ellipse_upto M e) (Fr : frame (powerRZ 2 (-47)) (e_maj e) (e_min e) (e_n e)).
Hypotheses (Ni : number (hollow_inner h)) (No : number (h_outer h)) (Hr : powerRZ 2 (-400) <= r <= r') (Ho : r' <= M / 2) (Nh : number (h_h h)) (Hh : 0 <= val (h_h h) <= M).

Lemma full_parts : e_c e = e_c (h_bot h) /\ c_h f = h_h h /\ s = CylSampler e ((hollow_inner h * hollow_inner h)%num, (h_outer h * h_outer h)%num) (n0, (nlit 2 1 * npi)%num) (n0, h_h h).
Proof.
  pose proof Hs as H. unfold sampler_hollow in H. rewrite Hf in H. cbn [obind] in H. unfold e. assert (c_h f = h_h h /\ e_c (c_bot f) = e_c (h_bot h)) as [A B].
  { pose proof Hf as K. unfold hollow_full, make_cyl_circle, make_cyl_disk in K. destruct (_ >? _)%num in K; [discriminate|]. injection K as <-. split; reflexivity. }
  rewrite A in H. injection H as <-. auto.
Qed.
Lemma square_err (x : PrimFloat.float) : number x -> powerRZ 2 (-400) <= val x <= M / 2 -> number (x * x)%num /\ val x * val x * (1 - U) <= val (x * x)%num <= val x * val x * (1 + U) /\
  val x * val x * (1 + U) <= bpow radix2 1022 /\ 0 <= val x.
Proof.
  intros N B. unfold moderate in HM. rewrite two_p in B. rewrite !two_p in HM.
  assert (bpow radix2 400 * bpow radix2 400 <= bpow radix2 1022) as W2 by (rewrite <- bpow_plus; apply bpow_le; lia).
  assert (bpow radix2 (-1000) <= bpow radix2 (-400) * bpow radix2 (-400)) as W3 by (rewrite <- bpow_plus; apply bpow_le; lia).
  assert (0 < bpow radix2 (-400)) as P4 by apply bpow_gt_0.
  assert (bpow radix2 1022 <= bpow radix2 1023) as W4 by (apply bpow_le; lia). pose proof U_pos as UP.
  assert (val x * val x <= bpow radix2 400 * bpow radix2 400 / 4) as R2 by nra. assert (0 <= val x * val x) as R0 by nra.
  destruct (f_mul x x N N) as [Nx Vx]; [rewrite Rabs_pos_eq by nra; lra|]. split; [exact Nx|].
  assert (Rabs (val (x * x)%float - val x * val x) <= U * (val x * val x)) as Err by (rewrite Vx; apply rnd_err; [nra|rewrite Rabs_pos_eq by nra; lra]). apply Rabs_le_inv in Err.
  change (x * x)%num with (x * x)%float. assert (U <= 1) by (unfold U; lra). split; [lra|]. split; [nra|lra].
Qed.
Lemma hol_in x : engine_value x -> near_ring (powerRZ 2 (-43) * M) (val3 (e_c (h_bot h))) (val3 (e_n e)) r r' (val (h_h h)) (val3 (fst (cyl_point s x))).
Proof.
  intros H. destruct full_parts as (<- & _ & ->). unfold cyl_point. pose proof (draw_canonical x H) as D1. destruct (draw x) as [u1 s1]. cbn [fst snd] in D1. pose proof (draw_canonical s1 (proj2 D1)) as D2. destruct (draw s1) as [u2 s2]. cbn [fst snd] in D2.
  pose proof (draw_canonical s2 (proj2 D2)) as D3. destruct (draw s2) as [u3 s3]. cbn [fst snd] in *. destruct D1 as [D1 _], D2 as [D2 _], D3 as [D3 _].
  unfold sample_point. cbn [ps_ranges].
  destruct (square_err _ Ni) as (N1 & B1 & _ & P1); [unfold r, r' in *; lra|]. destruct (square_err _ No) as (N2 & B2 & W2 & P2); [unfold r, r' in *; lra|].
  fold r in B1, P1. fold r' in B2, W2, P2. set (a := (hollow_inner h * hollow_inner h)%num) in *. set (b := (h_outer h * h_outer h)%num) in *.
  assert (val a <= val b) as AB.
  { unfold a, b. change (val (hollow_inner h * hollow_inner h)%float <= val (h_outer h * h_outer h)%float). assert (bpow radix2 400 * bpow radix2 400 <= bpow radix2 1022) as W by (rewrite <- bpow_plus; apply bpow_le; lia).
    assert (bpow radix2 1022 < bpow radix2 1023) by (apply bpow_lt; lia). pose proof HM as [_ HM']. rewrite !two_p in HM'. pose proof (bpow_gt_0 radix2 400).
    rewrite (proj2 (f_mul _ _ Ni Ni ltac:(fold r; rewrite Rabs_pos_eq by nra; nra))), (proj2 (f_mul _ _ No No ltac:(fold r'; rewrite Rabs_pos_eq by nra; nra))). fold r r'. apply rnd_le. nra. }
  pose proof U_pos as UP. assert (U <= / 1000000) as U1 by (unfold U; lra).
  assert (0 <= r * r * (1 - U)) as A0 by (apply Rmult_le_pos; nra).
  pose proof HM as HM'. unfold moderate in HM'. rewrite !two_p in HM'.
  assert (bpow radix2 400 <= bpow radix2 1022) as W4 by (apply bpow_le; lia).
  destruct n0_val as [N0 V0]. clearbody a b.
  destruct (uniform_in a b u3 N1 N2 D3) as [Nd1 Bd1]; try (rewrite Rabs_pos_eq; lra); try lra.
  destruct (uniform_in n0 (h_h h) u2 N0 Nh D2) as [Nd3 Bd3]; rewrite ?V0 in *; rewrite ?Rabs_R0; try lra; [rewrite Rabs_pos_eq; lra|].
  destruct (two_pi T HT) as (Np & Ep & Pp). cbn [nmul F_num] in Np, Ep. change (nlit 2 1 * npi)%num with (nlit 2 1 * npi)%float. set (tp := (nlit 2 1 * npi)%float) in *. clearbody tp. apply Rabs_le_inv in Ep.
  assert (11 * U <= / 10) as U11 by (unfold U; lra). pose proof PI2_3_2. assert (0 <= val tp <= 8) as Bp by lra. assert (8 <= bpow radix2 1022) as W8 by (change 8 with (bpow radix2 3); apply bpow_le; lia).
  destruct (uniform_in n0 tp u1 N0 Np D1) as [Nd2 Bd2]; rewrite ?V0 in *; rewrite ?Rabs_R0; try lra; [rewrite Rabs_pos_eq; lra|].
  set (d1 := uniform (a, b) u3) in *. set (d2 := uniform (n0, tp) u1) in *. set (d3 := uniform (n0, h_h h) u2) in *. clearbody d1 d2 d3.
  assert (8 <= powerRZ 2 20) as W20 by (rewrite two_p; change 8 with (bpow radix2 3); apply bpow_le; lia).
  destruct (ring_sampled T M e (a, b) (n0, tp) (n0, h_h h) d1 d2 d3 (val (h_h h))) as (t & w & E & O & Bt & Bw); try assumption.
  { split; [lra|]. nra. } { rewrite Rabs_pos_eq; lra. }
  assert (powerRZ 2 (-43) = 1024 * U) as -> by (rewrite !two_p; change (bpow radix2 (-43)) with (/ 8796093022208); unfold U; lra).
  assert (0 <= U * M) as UM by nra. assert (r * U <= M * U /\ r' * U <= M * U) as [Q1 Q2] by (split; apply Rmult_le_compat_r; lra).
  assert (r * (1 - U) <= R_sqrt.sqrt (val d1)) as L1. { rewrite <- (sqrt_square (r * (1 - U))) by nra. apply sqrt_le_1_alt. assert (r * (1 - U) * (r * (1 - U)) <= r * r * (1 - U)) by (assert (0 <= r * r) by nra; nra). lra. }
  assert (R_sqrt.sqrt (val d1) <= r' * (1 + U)) as L2. { rewrite <- (sqrt_square (r' * (1 + U))) by nra. apply sqrt_le_1_alt. assert (r' * r' * (1 + U) <= r' * (1 + U) * (r' * (1 + U))) by (assert (0 <= r' * r') by nra; nra). lra. }
  exists t, w. split; [exact E|]. split; [exact O|]. split; lra.
Qed.
Lemma hol_points n seed : let ps := fst (points (cyl_point s) n (seeded seed)) in length ps = n /\
  Forall (fun p => near_ring (powerRZ 2 (-43) * M) (val3 (e_c (h_bot h))) (val3 (e_n e)) r r' (val (h_h h)) (val3 p)) ps.
Proof.
  split; [apply points_length|]. apply Forall_forall. intros p Hp. destruct (points_from (cyl_point s) (cyl_state s) n _ (seeded_value seed) p Hp) as (y & Hy & ->). apply hol_in, Hy.
Qed.
End Hol.
