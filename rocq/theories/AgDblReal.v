(** Angles and arctangents over the reals, for C112. *)

From Coq Require Import Reals Lra Psatz.
From Verif Require Import EllProofs LinDblBase.
Local Open Scope R_scope.

Lemma atan_lip x y : Rabs (atan x - atan y) <= Rabs (x - y).
Proof.
  assert (forall a b, a < b -> 0 <= atan b - atan a <= b - a) as L.
  { intros a b H. destruct (MVT_cor2 atan (fun x => / (1 + x ^ 2)) a b H) as (c & E & _); [intros c _; apply derivable_pt_lim_atan|].
    rewrite E. assert (0 < / (1 + c ^ 2) <= 1) as B. { assert (1 <= 1 + c ^ 2) by nra. split; [apply Rinv_0_lt_compat; lra|]. rewrite <- Rinv_1. apply Rinv_le_contravar; lra. } nra. }
  destruct (Rtotal_order x y) as [H|[->|H]].
  - pose proof (L x y H). rewrite !Rabs_left1; lra.
  - rewrite !Rminus_diag_eq, Rabs_R0 by reflexivity. lra.
  - pose proof (L y x H). rewrite !Rabs_pos_eq; lra.
Qed.
Lemma atan_sgn u : (0 <= u -> 0 <= atan u) /\ (u <= 0 -> atan u <= 0).
Proof.
  split; intros [H|H].
  - pose proof (atan_increasing 0 u H) as L. rewrite atan_0 in L. lra.
  - rewrite <- H, atan_0. lra.
  - pose proof (atan_increasing u 0 H) as L. rewrite atan_0 in L. lra.
  - rewrite H, atan_0. lra.
Qed.
(** arctangents of numbers with the same sign *)
Lemma atan_dif u v : 0 <= u * v -> Rabs (atan u - atan v) <= Rabs (u - v) / (1 + u * v).
Proof.
  intros H. pose proof (atan_bound u) as Bu. pose proof (atan_bound v) as Bv. destruct (atan_sgn u) as [Pu Qu]. destruct (atan_sgn v) as [Pv Qv].
  assert (- PI / 2 < atan u - atan v < PI / 2) as B.
  { destruct (Rle_or_lt 0 u) as [U|U]; destruct (Rle_or_lt 0 v) as [V|V].
    - pose proof (Pu U). pose proof (Pv V). lra.
    - destruct U as [U| <- ]; [exfalso; nra|]. rewrite atan_0. lra.
    - destruct V as [V| <- ]; [exfalso; nra|]. rewrite atan_0. lra.
    - pose proof (Qu (Rlt_le _ _ U)). pose proof (Qv (Rlt_le _ _ V)). lra. }
  rewrite (atan_sub_correct u v ltac:(lra) B (atan_bound _)). replace (atan v + atan (atan_sub u v) - atan v) with (atan (atan_sub u v) - atan 0) by (rewrite atan_0; ring).
  eapply Rle_trans; [apply atan_lip|]. rewrite Rminus_0_r. unfold atan_sub, Rdiv. rewrite Rabs_mult, Rabs_inv, (Rabs_pos_eq (1 + u * v)) by lra. lra.
Qed.
(** a relative error *)
Lemma atan_rel r z d : 0 <= d <= 1 / 2 -> Rabs (z - r) <= d * Rabs r -> Rabs (atan z - atan r) <= d.
Proof.
  intros Hd E. assert (r * r / 2 <= z * r) as P.
  { assert (Rabs ((z - r) * r) <= d * (r * r)) as Q. { rewrite Rabs_mult. replace (d * (r * r)) with (d * Rabs r * Rabs r); [apply Rmult_le_compat_r; [apply Rabs_pos|exact E]|]. rewrite Rmult_assoc, <- Rabs_mult, (Rabs_pos_eq (r * r)) by nra. ring. }
    apply Rabs_def2_le in Q. nra. }
  assert (0 <= r * r) as S by nra. eapply Rle_trans; [apply atan_dif; lra|]. apply (Rmult_le_reg_r (1 + z * r)); [lra|]. unfold Rdiv. rewrite Rmult_assoc, Rinv_l, Rmult_1_r by lra.
  eapply Rle_trans; [exact E|]. apply Rmult_le_compat_l; [lra|]. apply Rle_trans with (1 + r * r / 2); [|lra]. destruct (Rcase_abs r) as [C|C]; [rewrite Rabs_left by exact C|rewrite Rabs_right by exact C]; pose proof (Rle_0_sqr (r - 1)) as W1; pose proof (Rle_0_sqr (r + 1)) as W2; unfold Rsqr in *; lra.
Qed.
(** directions close to each other *)
Lemma atan_near (X Y x y h : R) : X * X + Y * Y = 1 -> 0 <= h <= / 1000000 -> Rabs (x - X) <= h -> Rabs (y - Y) <= h -> 0 < x * X -> 0 < y * Y ->
  Rabs (atan (y / x) - atan (Y / X)) <= 21 / 10 * h.
Proof.
  intros C Hh Ex Ey Px Py. assert (x <> 0 /\ X <> 0) as [x0 X0] by (split; intros ->; lra). apply Rabs_def2_le in Ex, Ey.
  assert (-1 <= X <= 1 /\ -1 <= Y <= 1) as [BX BY] by (split; split; nra).
  assert (1 - 2 * h <= x * X + y * Y) as D. { replace (x * X + y * Y) with (X * X + Y * Y + ((x - X) * X + (y - Y) * Y)) by ring. rewrite C. assert (- h <= (x - X) * X /\ - h <= (y - Y) * Y) by (split; nra). lra. }
  assert (1 + y / x * (Y / X) = (x * X + y * Y) / (x * X)) as K by (field; split; assumption).
  assert (0 <= y / x * (Y / X)) as P. { replace (y / x * (Y / X)) with ((y * Y) / (x * X)) by (field; split; assumption). left. apply Rdiv_lt_0_compat; assumption. }
  eapply Rle_trans; [apply atan_dif; exact P|]. rewrite K. replace (y / x - Y / X) with ((y * X - x * Y) / (x * X)) by (field; split; assumption).
  unfold Rdiv at 1 2. rewrite Rabs_mult, Rabs_inv, (Rabs_pos_eq (x * X)) by lra.
  replace (Rabs (y * X - x * Y) * / (x * X) * / ((x * X + y * Y) / (x * X))) with (Rabs (y * X - x * Y) / (x * X + y * Y)) by (field; repeat split; [exact X0|exact x0|lra]).
  apply (Rmult_le_reg_r (x * X + y * Y)); [lra|]. unfold Rdiv. rewrite Rmult_assoc, Rinv_l, Rmult_1_r by lra.
  apply Rle_trans with (2 * h).
  - replace (y * X - x * Y) with ((y - Y) * X - (x - X) * Y) by ring. apply Rabs_le. assert (- h <= (y - Y) * X <= h /\ - h <= (x - X) * Y <= h) by (repeat split; nra). lra.
  - apply Rle_trans with (21 / 10 * h * (1 - 2 * h)); [|apply Rmult_le_compat_l; lra]. nra.
Qed.
(** the angle of a direction *)
Lemma angle_is phi : 0 <= phi < 2 * PI -> cos phi <> 0 -> sin phi <> 0 ->
  phi = atan (sin phi / cos phi) + (if Rlt_dec (cos phi) 0 then PI else if Rlt_dec (sin phi) 0 then 2 * PI else 0).
Proof.
  intros H Hc Hs. pose proof PI_RGT_0 as HP. pose proof (sin_sign phi H) as S. change (sin phi / cos phi) with (tan phi).
  destruct (quadrant phi H Hc) as [[Q Qc]|[[Q Qc]|[Q Qc]]]; destruct (Rlt_dec (cos phi) 0) as [C|C]; try (exfalso; lra).
  - destruct (Rlt_dec (sin phi) 0) as [D|D]; [exfalso; apply S in D; lra|]. rewrite atan_tan by lra. ring.
  - rewrite <- (tan_period_pi phi Hc), atan_tan by lra. ring.
  - destruct (Rlt_dec (sin phi) 0) as [D|D]; [|exfalso; apply D, S; lra]. rewrite <- (tan_period_2pi phi), atan_tan by lra. ring.
Qed.
