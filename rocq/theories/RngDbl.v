(** Proofs for C117: uniform numbers and points of a box in double precision. *)

From Coq Require Import ZArith Reals Lra Lia Psatz Bool List.
From Flocq Require Import Core.Core IEEE754.BinarySingleNaN IEEE754.PrimFloat.
From Coq Require Import Floats.
From Verif Require Import Base NumModel VecModel LinModel RoundModel PolyModel DistModel IntModel SampModel DomModel RngModel GeoSpec LinSpec DblSpec DomSpec RngSpec
  DblLemmas DblLen DblProofs DblExamples DomProofs DomExamples LinDblSpec LinDblBase LinDblExamples RndDblProofs RngProofs.
Import ListNotations.
Local Open Scope R_scope.

Lemma Z_val z : (0 <= z < 9007199254740992)%Z -> number (float_of_Z z) /\ val (float_of_Z z) = IZR z.
Proof.
  intros Hz. destruct z as [|p|p]; [exact zero_val| |lia]. unfold float_of_Z, number, val. rewrite of_int63_equiv.
  assert (Uint63.to_Z (Uint63.of_Z (Z.pos p)) = Z.pos p) as ->. { rewrite Uint63.of_Z_spec. apply Z.mod_small. split; [lia|]. eapply Z.lt_trans; [apply Hz|]. reflexivity. }
  pose proof (binary_normalize_correct prec emax Hprec Hmax mode_NE (Z.pos p) 0 false) as C. cbv zeta in C.
  assert (F2R (Float radix2 (Z.pos p) 0) = IZR (Z.pos p)) as EF by (unfold F2R; cbn [Fnum Fexp bpow]; ring).
  assert (generic_format radix2 (SpecFloat.fexp prec emax) (F2R (Float radix2 (Z.pos p) 0))) as G.
  { apply (generic_format_FLT radix2 (-1074) 53). exists (Float radix2 (Z.pos p) 0); [reflexivity| |cbn; lia]. cbn [Fnum]. rewrite Z.abs_eq by lia. apply Hz. }
  rewrite (round_generic radix2 (SpecFloat.fexp prec emax) (round_mode mode_NE) _ G) in C. rewrite EF in C.
  rewrite Rlt_bool_true in C; [split; apply C|].
  rewrite Rabs_pos_eq by (apply IZR_le; lia). apply Rlt_trans with (IZR 9007199254740992); [apply IZR_lt; lia|].
  change (IZR 9007199254740992) with (bpow radix2 53). apply bpow_lt. reflexivity.
Qed.

Lemma fraction_ok x1 x2 : engine_value x1 -> engine_value x2 -> canonical (fraction x1 x2) /\ Rabs (val (fraction x1 x2) - digits x1 x2) <= powerRZ 2 (-50).
Proof.
  unfold engine_value. intros H1 H2. unfold fraction. cbv zeta. destruct zero_val as [N0 V0], one_val as [N1 V1].
  destruct (Z_val (x1 - 1) ltac:(lia)) as [Na Va]. destruct (Z_val (x2 - 1) ltac:(lia)) as [Nb Vb]. destruct (Z_val 2147483646 ltac:(lia)) as [Nr Vr].
  set (a := float_of_Z (x1 - 1)) in *. set (b := float_of_Z (x2 - 1)) in *. set (r := float_of_Z 2147483646) in *. clearbody a b r.
  assert (0 <= IZR (x1 - 1) <= 2147483645) as Ba by (split; [apply (IZR_le 0); lia|apply (IZR_le _ 2147483645); lia]).
  assert (0 <= IZR (x2 - 1) <= 2147483645) as Bb by (split; [apply (IZR_le 0); lia|apply (IZR_le _ 2147483645); lia]).
  unfold digits. rewrite <- Va in *. rewrite <- Vb in *. set (A := val a) in *. set (B := val b) in *.
  set (W := 4611686018427387904). assert (W = bpow radix2 62) as EW by reflexivity.
  assert (bpow radix2 (-1000) <= W) as W0 by (rewrite EW; apply bpow_le; lia). assert (W <= bpow radix2 1000) as W1 by (rewrite EW; apply bpow_le; lia).
  assert (bpow radix2 1000 <= bpow radix2 1023) as W2 by (apply bpow_le; lia).
  destruct (f_mul a 1 Na N1) as [Na1 Va1]; [rewrite V1, Rmult_1_r; fold A; rewrite Rabs_pos_eq; unfold W in *; lra|]. rewrite V1, Rmult_1_r, rnd_val in Va1.
  destruct (f_add 0 (a * 1)%float N0 Na1) as [Ns Vs]; [rewrite V0, Va1, Rplus_0_l; fold A; rewrite Rabs_pos_eq; unfold W in *; lra|]. rewrite V0, Rplus_0_l, rnd_val, Va1 in Vs. fold A in Vs.
  destruct (f_mul 1 r N1 Nr) as [Nt Vt]; [rewrite V1, Rmult_1_l, Vr, Rabs_pos_eq; unfold W in *; lra|]. rewrite V1, Rmult_1_l, rnd_val, Vr in Vt.
  set (t := (1 * r)%float) in *. set (s := (0 + a * 1)%float) in *. clearbody t s.
  assert (U * W = 512) as UW by (unfold U, W; lra).
  assert (0 <= B * 2147483646 <= 2147483645 * 2147483646) as BB by nra.
  assert (forall x, 0 <= x -> 0 <= rnd x) as R0 by (intros x Hx; rewrite <- rnd_0; apply rnd_le, Hx).
  destruct (f_mul b t Nb Nt) as [Np Vp]. { fold B. rewrite Vt, Rabs_pos_eq by lra. unfold W in *. lra. }
  fold B in Vp. rewrite Vt in Vp. set (p := (b * t)%float) in *. clearbody p.
  assert (Rabs (val p - B * 2147483646) <= 512) as Ep. { rewrite Vp, <- UW. apply rnd_err; [exact W0|]. rewrite Rabs_pos_eq by lra. unfold W. lra. }
  apply Rabs_le_inv in Ep. assert (0 <= val p) as Pp by (rewrite Vp; apply R0, BB).
  destruct (f_add s p Ns Np) as [Nu Vu]. { rewrite Vs, Rabs_pos_eq by lra. unfold W in *. lra. }
  rewrite Vs in Vu. set (u := (s + p)%float) in *. clearbody u.
  assert (Rabs (val u - (A + val p)) <= 512) as Eu. { rewrite Vu, <- UW. apply rnd_err; [exact W0|]. rewrite Rabs_pos_eq by lra. unfold W. lra. }
  apply Rabs_le_inv in Eu. assert (0 <= val u) as Pu by (rewrite Vu; apply R0; lra).
  destruct (f_mul t r Nt Nr) as [Nd Vd]. { rewrite Vt, Vr, Rabs_pos_eq by lra. unfold W in *. lra. }
  rewrite Vt, Vr in Vd. set (d := (t * r)%float) in *. clearbody d.
  assert (Rabs (val d - 2147483646 * 2147483646) <= 512) as Ed. { rewrite Vd, <- UW. apply rnd_err; [exact W0|]. rewrite Rabs_pos_eq by lra. unfold W. lra. }
  apply Rabs_le_inv in Ed. assert (4600000000000000000 <= val d) as Pd by lra.
  set (q := val u / val d). assert (q * val d = val u) as Eq by (unfold q; field; lra).
  assert (0 <= q) as Q0 by (unfold q; apply Rmult_le_pos; [lra|apply Rlt_le, Rinv_0_lt_compat; lra]).
  assert (q <= 2) as Q2 by nra.
  destruct (f_div u d Nu Nd) as [Nq Vq]; [lra|fold q; rewrite Rabs_pos_eq by exact Q0; unfold W in *; lra|]. fold q in Vq. set (f := (u / d)%float) in *. clearbody f.
  assert (Rabs (val f - q) <= U * 2) as Ef.
  { rewrite Vq. apply rnd_err; [|rewrite Rabs_pos_eq; lra]. change 2 with (bpow radix2 1). apply bpow_le. lia. }
  assert (0 <= val f) as Pf by (rewrite Vq; apply R0, Q0).
  set (x := (B + A / 2147483646) / 2147483646). assert (x * (2147483646 * 2147483646) = B * 2147483646 + A) as Ex by (unfold x; field).
  assert (0 <= x < 1) as X1 by nra.
  assert (Rabs (q - x) <= 4 * U) as Eqx.
  { assert ((q - x) * val d = (val u - (A + val p)) + (val p - B * 2147483646) + x * (2147483646 * 2147483646 - val d)) as K by lra.
    assert (Rabs ((q - x) * val d) <= 1536) as K2. { rewrite K. apply Rabs_le. split; nra. }
    rewrite Rabs_mult, (Rabs_pos_eq (val d)) in K2 by lra. pose proof (Rabs_pos (q - x)) as P. assert (Rabs (q - x) * 4600000000000000000 <= 1536) by nra. unfold U. lra. }
  apply Rabs_le_inv in Eqx. apply Rabs_le_inv in Ef. assert (powerRZ 2 (-50) = / 1125899906842624) as -> by (rewrite two_p; reflexivity).
  destruct (PrimFloat.leb 1 f) eqn:L.
  - apply (f_leb 1 f N1 Nq) in L. rewrite V1 in L. destruct last_val as [Nl Vl]. change 0x1.fffffffffffffp-1%float with last. split; [exact last_canonical|]. rewrite Vl. unfold U in *. apply Rabs_le. lra.
  - apply (f_leb_false 1 f N1 Nq) in L. rewrite V1 in L. split; [split; [exact Nq|lra]|]. unfold U in *. apply Rabs_le. lra.
Qed.

Lemma uniform_draw seed n : canonical (fst (draw (state seed n))) /\ Rabs (val (fst (draw (state seed n))) - digits (state seed (n + 1)) (state seed (n + 2))) <= powerRZ 2 (-50).
Proof.
  replace (state seed (n + 1)) with (next (state seed n)) by (rewrite Nat.add_comm; reflexivity). replace (state seed (n + 2)) with (next (next (state seed n))) by (rewrite Nat.add_comm; reflexivity).
  apply fraction_ok; [apply (run_value _ 1)|apply (run_value _ 2)]; apply state_value.
Qed.
Lemma draw_canonical x : engine_value x -> canonical (fst (draw x)) /\ engine_value (snd (draw x)).
Proof. intros H. split; [apply fraction_ok; [apply (run_value _ 1)|apply (run_value _ 2)]; exact H|apply (run_value _ 2), H]. Qed.

Section Box.
Context {T : Trig PrimFloat.float}.
Variable b : box PrimFloat.float.
Hypotheses (Hb : box_number b) (Ho : ordered b) (Hw : within_box (powerRZ 2 1021) b).
Lemma point_in x : engine_value x -> number3 (fst (box_point b x)) /\ in_box (val_box b) (val3 (fst (box_point b x))).
Proof.
  intros H. unfold box_point. pose proof (draw_canonical x H) as D1. destruct (draw x) as [u1 s1]. cbn [fst snd] in D1. pose proof (draw_canonical s1 (proj2 D1)) as D2. destruct (draw s1) as [u2 s2]. cbn [fst snd] in D2.
  pose proof (draw_canonical s2 (proj2 D2)) as D3. destruct (draw s2) as [u3 s3]. cbn [fst snd] in *. apply box_sample; try assumption; [apply D1|apply D2|apply D3].
Qed.
Lemma box_points n seed : let ps := fst (points (box_point b) n (seeded seed)) in length ps = n /\ Forall (fun p => number3 p /\ in_box (val_box b) (val3 p)) ps.
Proof.
  split; [apply points_length|]. apply Forall_forall. intros p Hp. destruct (points_from (box_point b) (box_state b) n _ (seeded_value seed) p Hp) as (y & Hy & ->). apply point_in, Hy.
Qed.
Lemma box_repeat n seed : snd (points (box_point b) n (seeded seed)) = seeded seed <-> (357913941 | Z.of_nat n)%Z.
Proof. apply points_repeat; [apply box_state|apply seeded_value]. Qed.
End Box.
