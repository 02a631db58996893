(** Proofs for C117: points of a cylinder in double precision. *)

From Coq Require Import ZArith Reals Lra Lia Psatz Bool List.
From Flocq Require Import Core.Core IEEE754.BinarySingleNaN IEEE754.PrimFloat.
From Coq Require Import Floats.
From Verif Require Import Base NumModel VecModel LinModel RoundModel PolyModel DistModel IntModel SampModel DomModel RngModel GeoSpec LinSpec DblSpec DomSpec RngSpec
  GeoLemmas DblLemmas DblLen DblProofs DblExamples DomProofs DomExamples LinDblSpec LinDblBase RndDblSpec RndDblProofs TrigDblSpec TrigDblExamples PtDblSpec PtDblProofs FrDblProofs PtDblExamples RngProofs RngDbl.
Import ListNotations.
Local Open Scope R_scope.

Section Cyl.
Context {T : Trig PrimFloat.float}.
Variables (M : R) (c : cyl PrimFloat.float).
Let e := c_bot c.
Let r := val (cyl_radius c).
Hypotheses (HT : accurate T) (HM : moderate M) (He : ellipse_upto M e) (Hf : frame (powerRZ 2 (-47)) (e_maj e) (e_min e) (e_n e)).
Hypotheses (Hr : powerRZ 2 (-400) <= r <= M / 2) (Nh : number (c_h c)) (Hh : 0 <= val (c_h c) <= M).

Lemma cyl_in x : engine_value x -> near_cylinder (powerRZ 2 (-43) * M) (val3 (e_c e)) (val3 (e_n e)) r (val (c_h c)) (val3 (fst (cyl_point (sampler_cyl c) x))).
Proof.
  intros H. unfold cyl_point. pose proof (draw_canonical x H) as D1. destruct (draw x) as [u1 s1]. cbn [fst snd] in D1. pose proof (draw_canonical s1 (proj2 D1)) as D2. destruct (draw s1) as [u2 s2]. cbn [fst snd] in D2.
  pose proof (draw_canonical s2 (proj2 D2)) as D3. destruct (draw s2) as [u3 s3]. cbn [fst snd] in *. destruct D1 as [D1 _], D2 as [D2 _], D3 as [D3 _].
  unfold sample_point, sampler_cyl. cbn [ps_ranges]. fold e.
  destruct He as (_ & _ & _ & _ & (Nr & Br) & _). change (e_a e) with (cyl_radius c) in *. fold r in Br. unfold moderate in HM. rewrite two_p in Hr. rewrite !two_p in HM.
  assert (bpow radix2 400 <= bpow radix2 1022 /\ 0 < bpow radix2 (-400)) as [W P4] by (split; [apply bpow_le; lia|apply bpow_gt_0]).
  assert (bpow radix2 400 * bpow radix2 400 <= bpow radix2 1022) as W2 by (rewrite <- bpow_plus; apply bpow_le; lia).
  assert (bpow radix2 (-1000) <= bpow radix2 (-400) * bpow radix2 (-400)) as W3 by (rewrite <- bpow_plus; apply bpow_le; lia).
  assert (bpow radix2 1022 <= bpow radix2 1023) as W4 by (apply bpow_le; lia).
  destruct n0_val as [N0 V0]. pose proof U_pos as UP.
  set (rr := (cyl_radius c * cyl_radius c)%num) in *.
  assert (r * r <= bpow radix2 400 * bpow radix2 400 / 4) as R2 by nra.
  destruct (f_mul (cyl_radius c) (cyl_radius c) Nr Nr) as [Nrr Vrr]; [fold r; rewrite Rabs_pos_eq by nra; lra|]. fold r in Vrr. change (cyl_radius c * cyl_radius c)%float with rr in *.
  assert (Rabs (val rr - r * r) <= U * (r * r)) as Err by (rewrite Vrr; apply rnd_err; [nra|rewrite Rabs_pos_eq by nra; lra]). apply Rabs_le_inv in Err. clearbody rr.
  assert (U <= 1) as U1 by (unfold U; lra). assert (0 <= r * r) as R0 by nra. assert (0 <= val rr <= r * r * (1 + U)) as Brr by nra.
  assert (val rr <= bpow radix2 1022) as Wrr by nra.
  destruct (uniform_in n0 rr u3 N0 Nrr D3) as [Nd1 Bd1]; rewrite ?V0 in *; rewrite ?Rabs_R0; try lra; [rewrite Rabs_pos_eq; lra|].
  destruct (uniform_in n0 (c_h c) u2 N0 Nh D2) as [Nd3 Bd3]; rewrite ?V0 in *; rewrite ?Rabs_R0; try lra; [rewrite Rabs_pos_eq; lra|].
  destruct (two_pi T HT) as (Np & Ep & Pp). cbn [nmul F_num] in Np, Ep. change (nlit 2 1 * npi)%num with (nlit 2 1 * npi)%float. set (tp := (nlit 2 1 * npi)%float) in *. clearbody tp. apply Rabs_le_inv in Ep.
  assert (11 * U <= / 10) as U11 by (unfold U; lra). pose proof PI2_3_2. assert (0 <= val tp <= 8) as Bp by lra. assert (8 <= bpow radix2 1022) as W8 by (change 8 with (bpow radix2 3); apply bpow_le; lia).
  destruct (uniform_in n0 tp u1 N0 Np D1) as [Nd2 Bd2]; rewrite ?V0 in *; rewrite ?Rabs_R0; try lra; [rewrite Rabs_pos_eq; lra|].
  set (d1 := uniform (n0, rr) u3) in *. set (d2 := uniform (n0, tp) u1) in *. set (d3 := uniform (n0, c_h c) u2) in *. clearbody d1 d2 d3.
  set (a := r * (1 + U)). assert (a <= M) as Ba by (unfold a; nra).
  assert (8 <= powerRZ 2 20) as W20 by (rewrite two_p; change 8 with (bpow radix2 3); apply bpow_le; lia).
  destruct (near_sampled T M e (n0, rr) (n0, tp) (n0, c_h c) d1 d2 d3 a (val (c_h c))) as (t & w & E & O & Bt & Bw); try assumption.
  { unfold moderate. rewrite !two_p. lra. } { split; [unfold a; nra|exact Ba]. }
  { split; [lra|]. assert (r * r * (1 + U) <= a * a) by (unfold a; nra). lra. } { rewrite Rabs_pos_eq; lra. }
  assert (powerRZ 2 (-43) = 1024 * U /\ powerRZ 2 (-44) = 512 * U) as [-> E44] by (rewrite !two_p; change (bpow radix2 (-43)) with (/ 8796093022208); change (bpow radix2 (-44)) with (/ 17592186044416); unfold U; lra). rewrite E44 in *.
  assert (0 <= U * M) as UM by nra. exists t, w. split; [exact E|]. split; [exact O|]. split; [lra|]. unfold a in Bw. assert (r * U <= M * U) by nra. lra.
Qed.
Lemma cyl_points n seed : let ps := fst (points (cyl_point (sampler_cyl c)) n (seeded seed)) in length ps = n /\
  Forall (fun p => near_cylinder (powerRZ 2 (-43) * M) (val3 (e_c e)) (val3 (e_n e)) r (val (c_h c)) (val3 p)) ps.
Proof.
  split; [apply points_length|]. apply Forall_forall. intros p Hp. destruct (points_from (cyl_point (sampler_cyl c)) (cyl_state (sampler_cyl c)) n _ (seeded_value seed) p Hp) as (y & Hy & ->). apply cyl_in, Hy.
Qed.
End Cyl.
