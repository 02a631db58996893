(** Doubles: the operations round the exact results. *)

From Coq Require Import ZArith Reals Floats Lra Lia Psatz Bool.
From Flocq Require Import Core.Core IEEE754.BinarySingleNaN IEEE754.PrimFloat Relative.
From Verif Require Import NumModel VecModel LinModel DblSpec.
Local Open Scope R_scope.

Definition fex : Z -> Z := FLT_exp (-1074) 53.
Definition rnd (x : R) : R := round radix2 fex ZnearestE x.
#[export] Instance fex_valid : Valid_exp fex.
Proof. apply FLT_exp_valid. reflexivity. Qed.

#[export] Instance p53 : Prec_gt_0 53.
Proof. reflexivity. Qed.

Lemma val_format x : generic_format radix2 fex (val x).
Proof. apply generic_format_B2R. Qed.
Lemma rnd_val x : rnd (val x) = val x.
Proof. apply round_generic; [typeclasses eauto|apply val_format]. Qed.
Lemma rnd_le x y : x <= y -> rnd x <= rnd y.
Proof. apply round_le; typeclasses eauto. Qed.
Lemma rnd_0 : rnd 0 = 0.
Proof. apply round_0. typeclasses eauto. Qed.
Lemma rnd_opp x : rnd (- x) = - rnd x.
Proof. unfold rnd. rewrite round_NE_opp. reflexivity. Qed.
Lemma rnd_abs x : Rabs (rnd x) = rnd (Rabs x).
Proof.
  unfold Rabs at 2. destruct Rcase_abs as [L|L].
  - rewrite rnd_opp. apply Rlt_le, rnd_le in L. rewrite rnd_0 in L. rewrite Rabs_left1; [reflexivity|exact L].
  - apply Rge_le, rnd_le in L. rewrite rnd_0 in L. rewrite Rabs_pos_eq; [reflexivity|exact L].
Qed.
Lemma rnd_bpow e x : (-1074 <= e)%Z -> Rabs x <= bpow radix2 e -> Rabs (rnd x) <= bpow radix2 e.
Proof.
  intros He Hx. rewrite rnd_abs. apply Rle_trans with (rnd (bpow radix2 e)); [apply rnd_le, Hx|].
  right. apply round_generic; [typeclasses eauto|]. apply generic_format_FLT_bpow; [reflexivity|exact He].
Qed.

(** 2^1023 as a bound that excludes overflows *)
Lemma no_overflow x : Rabs x <= bpow radix2 1023 -> Rlt_bool (Rabs (rnd x)) (bpow radix2 1024) = true.
Proof.
  intros Hx. apply Rlt_bool_true. eapply Rle_lt_trans; [apply (rnd_bpow 1023); [lia|exact Hx]|]. apply bpow_lt. lia.
Qed.

Ltac settle C Hb := match type of C with (if ?t then _ else _) =>
  replace t with true in C by (symmetry; exact (no_overflow _ Hb)) end.

Lemma f_add x y : number x -> number y -> Rabs (val x + val y) <= bpow radix2 1023 ->
  number (x + y)%float /\ val (x + y)%float = rnd (val x + val y).
Proof.
  intros Hx Hy Hb. unfold number, val. rewrite add_equiv.
  pose proof (Bplus_correct prec emax Hprec Hmax mode_NE _ _ Hx Hy) as C. settle C Hb. destruct C as (E & F & _). auto.
Qed.
Lemma f_sub x y : number x -> number y -> Rabs (val x - val y) <= bpow radix2 1023 ->
  number (x - y)%float /\ val (x - y)%float = rnd (val x - val y).
Proof.
  intros Hx Hy Hb. unfold number, val. rewrite sub_equiv.
  pose proof (Bminus_correct prec emax Hprec Hmax mode_NE _ _ Hx Hy) as C. settle C Hb. destruct C as (E & F & _). auto.
Qed.
Lemma f_mul x y : number x -> number y -> Rabs (val x * val y) <= bpow radix2 1023 ->
  number (x * y)%float /\ val (x * y)%float = rnd (val x * val y).
Proof.
  intros Hx Hy Hb. unfold number, val. rewrite mul_equiv.
  pose proof (Bmult_correct prec emax Hprec Hmax mode_NE (Prim2B x) (Prim2B y)) as C. settle C Hb. destruct C as (E & F & _).
  rewrite F. unfold number in *. rewrite Hx, Hy. auto.
Qed.
Lemma f_div x y : number x -> number y -> val y <> 0 -> Rabs (val x / val y) <= bpow radix2 1023 ->
  number (x / y)%float /\ val (x / y)%float = rnd (val x / val y).
Proof.
  intros Hx Hy Hz Hb. unfold number, val. rewrite div_equiv.
  pose proof (Bdiv_correct prec emax Hprec Hmax mode_NE (Prim2B x) (Prim2B y) Hz) as C. settle C Hb. destruct C as (E & F & _).
  rewrite F. auto.
Qed.
Lemma f_sqrt x : number x -> 0 <= val x -> number (PrimFloat.sqrt x) /\ val (PrimFloat.sqrt x) = rnd (R_sqrt.sqrt (val x)).
Proof.
  intros Hx H0. unfold number, val in *. rewrite sqrt_equiv.
  destruct (Bsqrt_correct prec emax Hprec Hmax mode_NE (Prim2B x)) as (E & F & _). split; [|exact E]. rewrite F.
  destruct (Prim2B x) as [s|s| |s m e HB]; try discriminate; [reflexivity|]. destruct s; [|reflexivity].
  exfalso. cbn in H0. pose proof (F2R_lt_0 radix2 (Float radix2 (Zneg m) e) eq_refl). cbn in *. lra.
Qed.
Lemma f_ltb x y : number x -> number y -> PrimFloat.ltb x y = true <-> val x < val y.
Proof.
  intros Hx Hy. rewrite ltb_equiv. rewrite (Bltb_correct _ _ _ _ Hx Hy). fold (val x) (val y).
  destruct (Rlt_bool_spec (val x) (val y)); split; intros; try lra; try discriminate; try reflexivity.
Qed.
Lemma f_ltb_false x y : number x -> number y -> PrimFloat.ltb x y = false <-> val y <= val x.
Proof.
  intros Hx Hy. rewrite ltb_equiv. rewrite (Bltb_correct _ _ _ _ Hx Hy). fold (val x) (val y).
  destruct (Rlt_bool_spec (val x) (val y)); split; intros; try lra; try discriminate; try reflexivity.
Qed.
Lemma val_bound x : Rabs (val x) < bpow radix2 1024.
Proof. apply (abs_B2R_lt_emax prec emax). Qed.

(** adding a tolerance that is not too small leads to another double *)
Lemma ulp_rel x : Rabs (ulp radix2 fex x) <= Rmax (bpow radix2 (-1074)) (Rabs x * bpow radix2 (-52)).
Proof.
  rewrite Rabs_pos_eq by apply ulp_ge_0. destruct (Rle_or_lt (bpow radix2 (-1022)) (Rabs x)) as [L|L].
  - eapply Rle_trans; [|apply Rmax_r]. apply (ulp_FLT_le radix2 (-1074) 53). replace (-1074 + 53 - 1)%Z with (-1022)%Z by reflexivity. exact L.
  - eapply Rle_trans; [|apply Rmax_l]. right. apply (ulp_FLT_small radix2 (-1074) 53). 
    eapply Rlt_trans; [exact L|]. apply bpow_lt. reflexivity.
Qed.

Lemma succ_up x e : generic_format radix2 fex x -> generic_format radix2 fex e -> 0 < e -> Rabs x * bpow radix2 (-52) <= e -> x < rnd (x + e).
Proof.
  intros Hx Hf He Hs. destruct (Req_dec x 0) as [->|N].
  { rewrite Rplus_0_l. unfold rnd. rewrite round_generic; [exact He|typeclasses eauto|exact Hf]. }
  apply Rlt_le_trans with (succ radix2 fex x); [apply succ_gt_id, N|].
  apply round_ge_generic; [typeclasses eauto|typeclasses eauto|apply generic_format_succ; [typeclasses eauto|exact Hx]|].
  eapply Rle_trans; [apply succ_le_plus_ulp; typeclasses eauto|]. apply Rplus_le_compat_l.
  pose proof (ulp_rel x) as U. rewrite Rabs_pos_eq in U by apply ulp_ge_0. eapply Rle_trans; [exact U|].
  apply Rmax_lub; [|exact Hs].
  destruct (Rle_or_lt (bpow radix2 (-1074)) e) as [L|L]; [exact L|].
  pose proof (generic_format_ge_bpow radix2 fex (-1074) ltac:(intros z; unfold fex, FLT_exp; lia) e He Hf). lra.
Qed.
Lemma succ_down x e : generic_format radix2 fex x -> generic_format radix2 fex e -> 0 < e -> Rabs x * bpow radix2 (-52) <= e -> rnd (x - e) < x.
Proof.
  intros Hx Hf He Hs. pose proof (succ_up (- x) e (generic_format_opp _ _ _ Hx) Hf He ltac:(rewrite Rabs_Ropp; exact Hs)) as U.
  replace (- x + e) with (- (x - e)) in U by ring. rewrite rnd_opp in U. lra.
Qed.

(** the values of constants *)
Lemma val_SF x : val x = SF2R radix2 (Prim2SF x).
Proof. unfold val. rewrite <- B2SF_Prim2B. rewrite SF2R_B2SF. reflexivity. Qed.
Lemma number_SF x : number x <-> is_finite_SF (Prim2SF x) = true.
Proof. unfold number. rewrite <- B2SF_Prim2B. rewrite is_finite_SF_B2SF. reflexivity. Qed.

(** lower bounds *)
Lemma rnd_lower z : bpow radix2 (-1022) <= z -> 9999 / 10000 * z <= rnd z.
Proof.
  intros Hz. pose proof (bpow_gt_0 radix2 (-1022)) as B0.
  assert (Rabs (rnd z - z) <= / 2 * bpow radix2 (-53 + 1) * z) as E.
  { rewrite <- (Rabs_pos_eq z) at 3 by lra.
    apply (relative_error_N_FLT radix2 (-1074) 53 ltac:(reflexivity)). rewrite Rabs_pos_eq; [exact Hz|lra]. }
  assert (bpow radix2 (-53 + 1) <= 1 / 10000).
  { change (bpow radix2 (-53 + 1)) with (/ 4503599627370496). lra. }
  assert (/ 2 * bpow radix2 (-53 + 1) * z <= 1 / 10000 * z) by (apply Rmult_le_compat_r; [lra|]; pose proof (bpow_gt_0 radix2 (-53 + 1)); lra).
  apply Rabs_le_inv in E. lra.
Qed.
