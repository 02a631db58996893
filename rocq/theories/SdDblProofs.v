(** Proofs for C114: rotations about any axis. *)

From Coq Require Import ZArith Reals Lra Lia Psatz Bool List Nsatz.
From Flocq Require Import Core.Core IEEE754.BinarySingleNaN IEEE754.PrimFloat.
From Coq Require Import Floats.
From Verif Require Import Base NumModel VecModel LinModel RoundModel GeoSpec LinSpec DblSpec GeoLemmas
  DblLemmas DblProofs DblLen DblExamples DblEq LinDblSpec LinDblBase LinDblFoot LinDblProofs TrigDblSpec SdDblSpec.
Import ListNotations.
Local Open Scope R_scope.

Lemma prod_both a a' b b' A B ea eb : Rabs a <= A -> Rabs b' <= B -> Rabs (a - a') <= ea -> Rabs (b - b') <= eb -> Rabs (a * b - a' * b') <= A * eb + B * ea.
Proof.
  intros Ha Hb E1 E2. replace (a * b - a' * b') with (a * (b - b') + b' * (a - a')) by ring. eapply Rle_trans; [apply Rabs_triang|].
  apply Rplus_le_compat; apply prod_le; assumption.
Qed.
Lemma big_bounds c : / 1000 <= c <= 1000 -> bpow radix2 (-1000) <= c /\ c <= bpow radix2 1000.
Proof.
  intros H. assert (bpow radix2 (-1000) <= bpow radix2 (-10)) as A by (apply bpow_le; lia). assert (bpow radix2 10 <= bpow radix2 1000) as B by (apply bpow_le; lia).
  change (bpow radix2 (-10)) with (/ 1024) in A. change (bpow radix2 10) with 1024 in B. lra.
Qed.
Lemma n1_val : number (nlit 1 1 : PrimFloat.float) /\ val (nlit 1 1) = 1.
Proof.
  assert ((nlit 1 1 : PrimFloat.float) = 1%float) as -> by (vm_compute; reflexivity). exact one_val.
Qed.

(** the exact rotation *)
Lemma turn_norm (u v : pt) t : unit3 u -> dot (turn u t v) (turn u t v) = dot v v.
Proof.
  unfold unit3, turn. destruct u as [a b c], v as [x y z]. unfold dot, padd, pscale. cbn [vx vy vz]. intros E. pose proof (sin2_cos2 t) as S. unfold Rsqr in S.
  set (co := cos t) in *. set (si := sin t) in *. clearbody co si. revert E S. intros E S.
  assert (c * c = 1 - a * a - b * b) as E1 by lra. assert (si * si = 1 - co * co) as S1 by lra.
  assert (forall k, c * c * k = (1 - a * a - b * b) * k) as E2 by (intros; rewrite E1; reflexivity). assert (forall k, si * si * k = (1 - co * co) * k) as S2 by (intros; rewrite S1; reflexivity).
  nsatz.
Qed.

Section Rot.
Context (T : Trig PrimFloat.float).
Variables (d : V3 PrimFloat.float) (t : PrimFloat.float) (u : pt).
Hypotheses (HT : accurate T) (Hd : direction d) (Ht : usual_angle t) (Hu : unit3 u) (Hdu : norm (psub (val3 d) u) <= powerRZ 2 (-50)).
Let c := ncos t.
Let s := nsin t.
Let omc := (nlit 1 1 - c)%float.
Let co := cos (val t).
Let si := sin (val t).
Lemma cs_err : number c /\ number s /\ Rabs (val c - co) <= U /\ Rabs (val s - si) <= U /\ -1 <= co <= 1 /\ -1 <= si <= 1.
Proof.
  destruct HT as (_ & Cs & _). destruct Ht as [Nt Bt]. destruct (Cs t Nt Bt) as [[A B] [C D]]. rewrite u_is in B, D.
  pose proof (COS_bound (val t)). pose proof (SIN_bound (val t)). unfold c, s, co, si. auto 8.
Qed.
Lemma omc_err : number omc /\ Rabs (val omc - (1 - co)) <= 31 / 10 * U /\ Rabs (val omc) <= 2001 / 1000.
Proof.
  destruct cs_err as (Nc & _ & Ec & _ & Bc & _). destruct n1_val as [N1 V1]. pose proof U_pos. apply Rabs_def2_le in Ec.
  destruct (big_bounds (2001 / 1000) ltac:(lra)) as [B0 B1].
  destruct (sub_err (nlit 1 1) c (2001 / 1000) N1 Nc B0 B1) as [N E]; [rewrite V1; apply Rabs_le; lra|]. fold omc in N, E. rewrite V1 in E. apply Rabs_def2_le in E.
  split; [exact N|]. split; apply Rabs_le; lra.
Qed.
Lemma comps : (number (vx d) /\ Rabs (val (vx d) - vx u) <= 8 * U /\ Rabs (vx u) <= 1) /\ (number (vy d) /\ Rabs (val (vy d) - vy u) <= 8 * U /\ Rabs (vy u) <= 1) /\
  (number (vz d) /\ Rabs (val (vz d) - vz u) <= 8 * U /\ Rabs (vz u) <= 1).
Proof.
  destruct Hd as [(Nx & Ny & Nz) _]. pose proof (comp_norm (psub (val3 d) u)) as (A & B & C). pose proof (comp_norm u) as (A' & B' & C').
  assert (norm u = 1) as E by (unfold norm; rewrite Hu; apply sqrt_1). rewrite E in A', B', C'.
  assert (norm (psub (val3 d) u) <= 8 * U) as K by (rewrite two_p in Hdu; change (bpow radix2 (-50)) with (/ 1125899906842624) in Hdu; unfold U; lra).
  assert (forall x, Rabs x <= norm (psub (val3 d) u) -> Rabs x <= 8 * U) as L by (intros; lra). apply L in A. apply L in B. apply L in C.
  unfold psub, val3 in A, B, C. cbn [vx vy vz] in A, B, C. repeat split; assumption.
Qed.
Lemma pqo_err p q p' q' : number p -> number q -> Rabs (val p - p') <= 8 * U -> Rabs (val q - q') <= 8 * U -> Rabs p' <= 1 -> Rabs q' <= 1 ->
  number (p * q * omc)%float /\ Rabs (val (p * q * omc)%float - p' * q' * (1 - co)) <= 40 * U /\ Rabs (p' * q' * (1 - co)) <= 2.
Proof.
  intros Np Nq Ep Eq Bp Bq. destruct omc_err as (No & Eo & Bo). destruct cs_err as (_ & _ & _ & _ & Bc & _). pose proof U_pos as U0.
  assert (Rabs (val p) <= 1001 / 1000) as Bp' by (apply Rabs_def2_le in Ep; apply Rabs_def2_le in Bp; apply Rabs_le; lra).
  assert (Rabs (val q) <= 1001 / 1000) as Bq' by (apply Rabs_def2_le in Eq; apply Rabs_def2_le in Bq; apply Rabs_le; lra).
  destruct (big_bounds (1003 / 1000) ltac:(lra)) as [B0 B1]. destruct (big_bounds (201 / 100) ltac:(lra)) as [B2 B3].
  pose proof (prod_le _ _ _ _ Bp' Bq') as P. destruct (mul_err p q (1003 / 1000) Np Nq B0 B1 ltac:(lra)) as [N1 E1].
  pose proof (prod_both _ p' _ q' _ _ _ _ Bp' Bq Ep Eq) as E2. pose proof (prod_le _ _ _ _ Bp Bq) as P'. set (pq := (p * q)%float) in *.
  assert (Rabs (val pq - p' * q') <= 1703 / 100 * U) as E3 by (apply Rabs_def2_le in E1; apply Rabs_def2_le in E2; apply Rabs_le; lra).
  assert (Rabs (val pq) <= 10001 / 10000) as B4 by (apply Rabs_def2_le in E3; apply Rabs_def2_le in P'; unfold U in *; apply Rabs_le; lra).
  assert (Rabs (1 - co) <= 2) as B5 by (apply Rabs_le; lra).
  pose proof (prod_le _ _ _ _ B4 Bo) as P2. destruct (mul_err pq omc (201 / 100) N1 No B2 B3 ltac:(lra)) as [N2 E4].
  pose proof (prod_both _ (p' * q') _ (1 - co) _ _ _ _ B4 B5 E3 Eo) as E5. pose proof (prod_le _ _ _ _ P' B5) as P3.
  split; [exact N2|]. split; [|lra]. apply Rabs_def2_le in E4. apply Rabs_def2_le in E5. apply Rabs_le. lra.
Qed.
Lemma rs_err r r' : number r -> Rabs (val r - r') <= 8 * U -> Rabs r' <= 1 -> number (r * s)%float /\ Rabs (val (r * s)%float - r' * si) <= 11 * U /\ Rabs (r' * si) <= 1.
Proof.
  intros Nr Er Br. destruct cs_err as (_ & Ns & _ & Es & _ & Bs). pose proof U_pos as U0.
  assert (Rabs (val r) <= 1001 / 1000) as Br' by (apply Rabs_def2_le in Er; apply Rabs_def2_le in Br; apply Rabs_le; lra).
  assert (Rabs si <= 1) as Bs' by (apply Rabs_le; lra).
  assert (Rabs (val s) <= 1001 / 1000) as Bs'' by (apply Rabs_def2_le in Es; apply Rabs_le; lra).
  destruct (big_bounds (1003 / 1000) ltac:(lra)) as [B0 B1]. pose proof (prod_le _ _ _ _ Br' Bs'') as P.
  destruct (mul_err r s (1003 / 1000) Nr Ns B0 B1 ltac:(lra)) as [N E]. pose proof (prod_both _ r' _ si _ _ _ _ Br' Bs' Er Es) as E2. pose proof (prod_le _ _ _ _ Br Bs') as P'.
  split; [exact N|]. split; [|lra]. apply Rabs_def2_le in E. apply Rabs_def2_le in E2. apply Rabs_le. lra.
Qed.
Lemma diag_err p p' : number p -> Rabs (val p - p') <= 8 * U -> Rabs p' <= 1 ->
  number (c + p * p * omc)%float /\ Rabs (val (c + p * p * omc)%float - (co + p' * p' * (1 - co))) <= 55 * U /\ Rabs (co + p' * p' * (1 - co)) <= 3.
Proof.
  intros Np Ep Bp. destruct cs_err as (Nc & _ & Ec & _ & Bc & _). destruct (pqo_err p p p' p' Np Np Ep Ep Bp Bp) as (N & E & B). pose proof U_pos as U0.
  destruct (big_bounds (31 / 10) ltac:(lra)) as [B0 B1]. apply Rabs_def2_le in Ec. apply Rabs_def2_le in E. apply Rabs_def2_le in B. unfold U in E at 1 2, Ec at 1 2.
  destruct (add_err c (p * p * omc)%float (31 / 10) Nc N B0 B1) as [N2 E2]; [apply Rabs_le; lra|]. apply Rabs_def2_le in E2. unfold U in *. split; [exact N2|]. split; apply Rabs_le; lra.
Qed.
Lemma off_err p q r p' q' r' : number p -> number q -> number r -> Rabs (val p - p') <= 8 * U -> Rabs (val q - q') <= 8 * U -> Rabs (val r - r') <= 8 * U -> Rabs p' <= 1 -> Rabs q' <= 1 -> Rabs r' <= 1 ->
  (number (p * q * omc - r * s)%float /\ Rabs (val (p * q * omc - r * s)%float - (p' * q' * (1 - co) - r' * si)) <= 55 * U /\ Rabs (p' * q' * (1 - co) - r' * si) <= 3) /\
  (number (p * q * omc + r * s)%float /\ Rabs (val (p * q * omc + r * s)%float - (p' * q' * (1 - co) + r' * si)) <= 55 * U /\ Rabs (p' * q' * (1 - co) + r' * si) <= 3).
Proof.
  intros Np Nq Nr Ep Eq Er Bp Bq Br. destruct (pqo_err p q p' q' Np Nq Ep Eq Bp Bq) as (N1 & E1 & B1). destruct (rs_err r r' Nr Er Br) as (N2 & E2 & B2). pose proof U_pos as U0.
  destruct (big_bounds (31 / 10) ltac:(lra)) as [K0 K1]. apply Rabs_def2_le in E1. apply Rabs_def2_le in E2. apply Rabs_def2_le in B1. apply Rabs_def2_le in B2.
  assert (40 * U <= / 1000 /\ 11 * U <= / 1000) as [U1 U2] by (unfold U; lra).
  destruct (sub_err _ _ (31 / 10) N1 N2 K0 K1) as [N3 E3]; [apply Rabs_le; lra|]. destruct (add_err _ _ (31 / 10) N1 N2 K0 K1) as [N4 E4]; [apply Rabs_le; lra|].
  apply Rabs_def2_le in E3. apply Rabs_def2_le in E4. split; [split; [exact N3|]|split; [exact N4|]]; split; apply Rabs_le; lra.
Qed.

Variables (v : V3 PrimFloat.float) (M : R).
Hypotheses (HM : moderate M) (Hv : point_upto M v).
Lemma row_err (r : V3 PrimFloat.float) (r' : pt) :
  number (vx r) /\ Rabs (val (vx r) - vx r') <= 55 * U /\ Rabs (vx r') <= 3 ->
  number (vy r) /\ Rabs (val (vy r) - vy r') <= 55 * U /\ Rabs (vy r') <= 3 ->
  number (vz r) /\ Rabs (val (vz r) - vz r') <= 55 * U /\ Rabs (vz r') <= 3 ->
  number (sprod r v) /\ Rabs (val (sprod r v) - dot r' (val3 v)) <= 195 * (U * M).
Proof.
  intros (N1 & E1 & B1) (N2 & E2 & B2) (N3 & E3 & B3). destruct Hv as [Nv (V1 & V2 & V3')]. pose proof (moderate_sized M (moderate_x M HM)) as HS. pose proof (sized_pos M HS) as M0. pose proof U_pos as U0.
  assert (55 * U <= / 1000) as U1 by (unfold U; lra).
  assert (forall a a' b, Rabs (val a - a') <= 55 * U -> Rabs a' <= 3 -> Rabs (val b) <= M -> Rabs (val a * val b) <= 31 / 10 * M) as K.
  { intros a a' b E B V. apply prod_le; [|exact V]. apply Rabs_def2_le in E. apply Rabs_def2_le in B. apply Rabs_le. lra. }
  assert (0 < U * M) as UM by (apply Rmult_lt_0_compat; lra).
  assert (bpow radix2 (-1000) <= 31 / 10 * M) as S1 by (apply (sized_scale (31 / 10) M); [lra|exact HS]). assert (4 * (31 / 10 * M) <= bpow radix2 1000) as S2 by (replace (4 * (31 / 10 * M)) with (124 / 10 * M) by field; apply (sized_scale (124 / 10) M); [lra|exact HS]).
  destruct (sprod_err r v (31 / 10 * M) (conj N1 (conj N2 N3)) Nv S1 S2 (K _ _ _ E1 B1 V1) (K _ _ _ E2 B2 V2) (K _ _ _ E3 B3 V3')) as [N E]. split; [exact N|].
  rewrite Rabs_minus_sym in E1, E2, E3. pose proof (prod_err _ _ _ _ _ V1 E1) as D1. pose proof (prod_err _ _ _ _ _ V2 E2) as D2. pose proof (prod_err _ _ _ _ _ V3' E3) as D3.
  unfold dot, val3 in *. cbn [vx vy vz] in *. apply Rabs_def2_le in E. apply Rabs_def2_le in D1. apply Rabs_def2_le in D2. apply Rabs_def2_le in D3.
  replace (9 * U * (31 / 10 * M)) with (279 / 10 * (U * M)) in E by field. replace (M * (55 * U)) with (55 * (U * M)) in D1, D2, D3 by ring. apply Rabs_le. lra.
Qed.
Lemma rotate_dbl : number3 (rotate v d t) /\ dist (val3 (rotate v d t)) (turn u (val t) (val3 v)) <= powerRZ 2 (-44) * M.
Proof.
  destruct comps as ((Nx & Ex & Bx) & (Ny & Ey & By) & (Nz & Ez & Bz)).
  unfold rotate, rot_rows, apply_rows. fold c s. cbn [nadd nsub nmul F_num]. fold omc.
  set (a := vx d) in *. set (b := vy d) in *. set (e := vz d) in *. set (a' := vx u) in *. set (b' := vy u) in *. set (e' := vz u) in *.
  destruct (row_err (mkV3 (c + a * a * omc) (a * b * omc - e * s) (a * e * omc + b * s))%float
    (mkV3 (co + a' * a' * (1 - co)) (a' * b' * (1 - co) - e' * si) (a' * e' * (1 - co) + b' * si))
    (diag_err _ _ Nx Ex Bx) (proj1 (off_err _ _ _ _ _ _ Nx Ny Nz Ex Ey Ez Bx By Bz)) (proj2 (off_err _ _ _ _ _ _ Nx Nz Ny Ex Ez Ey Bx Bz By))) as [N1 E1].
  destruct (row_err (mkV3 (b * a * omc + e * s) (c + b * b * omc) (b * e * omc - a * s))%float
    (mkV3 (b' * a' * (1 - co) + e' * si) (co + b' * b' * (1 - co)) (b' * e' * (1 - co) - a' * si))
    (proj2 (off_err _ _ _ _ _ _ Ny Nx Nz Ey Ex Ez By Bx Bz)) (diag_err _ _ Ny Ey By) (proj1 (off_err _ _ _ _ _ _ Ny Nz Nx Ey Ez Ex By Bz Bx))) as [N2 E2].
  destruct (row_err (mkV3 (e * a * omc - b * s) (e * b * omc + a * s) (c + e * e * omc))%float
    (mkV3 (e' * a' * (1 - co) - b' * si) (e' * b' * (1 - co) + a' * si) (co + e' * e' * (1 - co)))
    (proj1 (off_err _ _ _ _ _ _ Nz Nx Ny Ez Ex Ey Bz Bx By)) (proj2 (off_err _ _ _ _ _ _ Nz Ny Nx Ez Ey Ex Bz By Bx)) (diag_err _ _ Nz Ez Bz)) as [N3 E3].
  split; [repeat split; assumption|].
  apply Rle_trans with (1733 / 1000 * (195 * (U * M))).
  - unfold dist. apply norm_le; unfold psub, val3 at 1; cbn [vx vy vz].
    + eapply Rle_trans; [right|exact E1]. f_equal. f_equal. unfold turn, padd, pscale, dot. cbn [vx vy vz]. fold a' b' e' co si. ring.
    + eapply Rle_trans; [right|exact E2]. f_equal. f_equal. unfold turn, padd, pscale, dot. cbn [vx vy vz]. fold a' b' e' co si. ring.
    + eapply Rle_trans; [right|exact E3]. f_equal. f_equal. unfold turn, padd, pscale, dot. cbn [vx vy vz]. fold a' b' e' co si. ring.
  - pose proof (sized_pos M (moderate_sized M (moderate_x M HM))). rewrite two_p. change (bpow radix2 (-44)) with (/ 17592186044416). unfold U. lra.
Qed.
Lemma rotate_length : Rabs (norm (val3 (rotate v d t)) - norm (val3 v)) <= powerRZ 2 (-44) * M.
Proof.
  destruct rotate_dbl as [_ E]. unfold dist in E. eapply Rle_trans; [|exact E]. replace (norm (val3 v)) with (norm (turn u (val t) (val3 v))); [apply norm_dif|].
  unfold norm. f_equal. apply turn_norm. exact Hu.
Qed.
End Rot.
