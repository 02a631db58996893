(** Correctly rounded trigonometric functions on doubles are accurate. *)

From Coq Require Import ZArith Reals Lra Lia.
From Flocq Require Import Core.Core IEEE754.BinarySingleNaN IEEE754.PrimFloat.
From Coq Require Import Floats.
From Verif Require Import NumModel DblSpec DblLemmas DblProofs LinDblBase TrigDblSpec.
Local Open Scope R_scope.

(** the double next to a real number *)
Definition to_float (r : R) : PrimFloat.float :=
  B2Prim (BinarySingleNaN.binary_normalize prec emax Hprec Hmax mode_NE (Ztrunc (scaled_mantissa radix2 fex (rnd r))) (cexp radix2 fex (rnd r)) false).
Lemma to_float_val r : Rabs r <= bpow radix2 1000 -> number (to_float r) /\ val (to_float r) = rnd r.
Proof.
  intros Hr. unfold number, val, to_float. rewrite Prim2B_B2Prim.
  pose proof (binary_normalize_correct prec emax Hprec Hmax mode_NE (Ztrunc (scaled_mantissa radix2 fex (rnd r))) (cexp radix2 fex (rnd r)) false) as C.
  assert (F2R (Float radix2 (Ztrunc (scaled_mantissa radix2 fex (rnd r))) (cexp radix2 fex (rnd r))) = rnd r) as E.
  { symmetry. apply generic_format_round; typeclasses eauto. }
  rewrite E in C.
  assert (Rabs (rnd r) <= bpow radix2 1000) as B by (apply rnd_bpow; [lia|exact Hr]).
  assert (Rabs (rnd r) <= bpow radix2 1023) as B' by (eapply Rle_trans; [exact B|]; apply bpow_le; lia).
  cbv zeta in C. settle C B'. destruct C as (V & F & _). split; [exact F|]. rewrite V. apply round_generic; [typeclasses eauto|].
  apply generic_format_round; typeclasses eauto.
Qed.
Lemma to_float_err r B : / 2 <= B <= 8 -> Rabs r <= B -> number (to_float r) /\ Rabs (val (to_float r) - r) <= powerRZ 2 (-53) * B.
Proof.
  intros HB Hr. assert (8 <= bpow radix2 1000) by (change 8 with (bpow radix2 3); apply bpow_le; lia).
  destruct (to_float_val r) as [N V]; [lra|]. split; [exact N|]. rewrite V, two_p. apply rnd_err; [|exact Hr].
  eapply Rle_trans; [apply (bpow_le radix2 _ (-1)); lia|]. change (bpow radix2 (-1)) with (/ 2). lra.
Qed.

Definition rounded (f : R -> R) (x : PrimFloat.float) : PrimFloat.float := to_float (f (val x)).
Definition rounded_trig : Trig PrimFloat.float :=
  mkTrig _ (to_float PI) (rounded cos) (rounded sin)
    (fun x => if Rle_dec (Rabs (val x)) 1 then rounded acos x else nan) (rounded atan).
Lemma rounded_accurate : accurate rounded_trig.
Proof.
  pose proof PI_RGT_0 as P0. pose proof PI_4 as P4.
  assert (powerRZ 2 (-53) * 4 = powerRZ 2 (-51)) as E51. { rewrite !two_p. change 4 with (bpow radix2 2). rewrite <- bpow_plus. reflexivity. }
  unfold accurate, rounded_trig. cbn [npi ncos nsin nacos]. split; [|split; [|split]].
  - assert (PI < 4) as P. { destruct (Rle_lt_or_eq_dec _ _ P4) as [L|L]; [exact L|]. exfalso. pose proof (PI_ineq 1) as [_ L1]. cbn in L1. unfold tg_alt, PI_tg in L1. cbn in L1. lra. }
    destruct (to_float_val PI) as [N V].
    { rewrite Rabs_pos_eq by lra. eapply Rle_trans; [exact P4|]. change 4 with (bpow radix2 2). apply bpow_le. lia. }
    split; [exact N|]. rewrite V, two_p.
    assert (Rabs (rnd PI - PI) <= / 2 * Ulp.ulp radix2 fex PI) as B by (apply error_le_half_ulp; typeclasses eauto).
    eapply Rle_trans; [exact B|].
    assert (Ulp.ulp radix2 fex PI = bpow radix2 (-51)) as ->.
    { rewrite ulp_neq_0 by lra. f_equal. unfold cexp. rewrite (mag_unique radix2 PI 2); [reflexivity|]. rewrite Rabs_pos_eq by lra.
      change (bpow radix2 (2 - 1)) with 2. change (bpow radix2 2) with 4. pose proof PI2_3_2. lra. }
    change (/ 2) with (bpow radix2 (-1)). rewrite <- bpow_plus. right. reflexivity.
  - intros x _ _. pose proof (COS_bound (val x)). pose proof (SIN_bound (val x)). unfold rounded. rewrite <- (Rmult_1_r (powerRZ 2 (-53))).
    split; apply to_float_err; try lra; apply Rabs_le; lra.
  - intros x _ Hx. destruct Rle_dec as [_|N]; [|contradiction]. unfold rounded. rewrite <- E51. apply to_float_err; [lra|].
    pose proof (acos_bound (val x)). apply Rabs_le. lra.
  - intros x _ Hx. destruct Rle_dec as [L|_]; [lra|reflexivity].
Qed.
