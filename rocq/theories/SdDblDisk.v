(** Proofs for C114: the axes of sampled disks. *)

From Coq Require Import ZArith Reals Lra Lia Psatz Bool List.
From Flocq Require Import Core.Core IEEE754.BinarySingleNaN IEEE754.PrimFloat.
From Coq Require Import Floats.
From Verif Require Import Base NumModel VecModel LinModel RoundModel PolyModel SampModel GeoSpec LinSpec SampSpec DblSpec GeoLemmas
  DblLemmas DblProofs DblLen DblExamples DblEq LinDblSpec LinDblBase LinDblFoot LinDblProofs TrigDblSpec RndDblSpec PtDblSpec SdDblSpec SdDblProofs.
Import ListNotations.
Local Open Scope R_scope.

(** ** Operations without rounding error *)
Definition ex (x : PrimFloat.float) (r : R) : Prop := number x /\ val x = r.
Lemma small_1023 r : Rabs r <= 4 -> Rabs r <= bpow radix2 1023.
Proof. intros H. eapply Rle_trans; [exact H|]. change 4 with (bpow radix2 2). apply bpow_le. lia. Qed.
Lemma ex_fmt x r : ex x r -> rnd r = r.
Proof. intros [_ <-]. apply rnd_val. Qed.
Lemma ex_mul0l x y : ex x 0 -> number y -> ex (x * y)%float 0.
Proof. intros [N V] Ny. destruct (f_mul x y N Ny) as [A B]; rewrite V, Rmult_0_l in *; [apply small_1023; rewrite Rabs_R0; lra|]. split; [exact A|]. rewrite B. apply rnd_0. Qed.
Lemma ex_mul0r x y : number x -> ex y 0 -> ex (x * y)%float 0.
Proof. intros Nx [N V]. destruct (f_mul x y Nx N) as [A B]; rewrite V, Rmult_0_r in *; [apply small_1023; rewrite Rabs_R0; lra|]. split; [exact A|]. rewrite B. apply rnd_0. Qed.
Lemma ex_mul1l x y r : ex x 1 -> ex y r -> Rabs r <= 4 -> ex (x * y)%float r.
Proof. intros [N V] H B. pose proof (ex_fmt _ _ H) as F. destruct H as [Ny Vy]. destruct (f_mul x y N Ny) as [A C]; rewrite V, Vy, Rmult_1_l in *; [apply small_1023; exact B|]. split; [exact A|congruence]. Qed.
Lemma ex_mul1r x y r : ex x r -> ex y 1 -> Rabs r <= 4 -> ex (x * y)%float r.
Proof. intros H [N V] B. pose proof (ex_fmt _ _ H) as F. destruct H as [Ny Vy]. destruct (f_mul x y Ny N) as [A C]; rewrite V, Vy, Rmult_1_r in *; [apply small_1023; exact B|]. split; [exact A|congruence]. Qed.
Lemma ex_add0l x y r : ex x 0 -> ex y r -> Rabs r <= 4 -> ex (x + y)%float r.
Proof. intros [N V] H B. pose proof (ex_fmt _ _ H) as F. destruct H as [Ny Vy]. destruct (f_add x y N Ny) as [A C]; rewrite V, Vy, Rplus_0_l in *; [apply small_1023; exact B|]. split; [exact A|congruence]. Qed.
Lemma ex_add0r x y r : ex x r -> ex y 0 -> Rabs r <= 4 -> ex (x + y)%float r.
Proof. intros H [N V] B. pose proof (ex_fmt _ _ H) as F. destruct H as [Ny Vy]. destruct (f_add x y Ny N) as [A C]; rewrite V, Vy, Rplus_0_r in *; [apply small_1023; exact B|]. split; [exact A|congruence]. Qed.
Lemma ex_sub0l x y r : ex x 0 -> ex y r -> Rabs r <= 4 -> ex (x - y)%float (- r).
Proof.
  intros [N V] H B. pose proof (ex_fmt _ _ H) as F. destruct H as [Ny Vy]. destruct (f_sub x y N Ny) as [A C]; rewrite V, Vy, Rminus_0_l in *; [apply small_1023; rewrite Rabs_Ropp; exact B|].
  split; [exact A|]. rewrite C, rnd_opp, F. reflexivity.
Qed.
Lemma ex_number x r : ex x r -> number x.
Proof. intros [N _]. exact N. Qed.

(** ** The scalar product with different bounds *)
Lemma sprod3 (a b : V3 PrimFloat.float) B1 B2 B3 : number3 a -> number3 b -> / 1000 <= B1 <= 2 -> / 1000 <= B2 <= 2 -> / 1000 <= B3 <= 2 ->
  Rabs (val (vx a) * val (vx b)) <= B1 -> Rabs (val (vy a) * val (vy b)) <= B2 -> Rabs (val (vz a) * val (vz b)) <= B3 ->
  number (sprod a b) /\ Rabs (val (sprod a b) - dot (val3 a) (val3 b)) <= (301 / 100 * (B1 + B2) + 201 / 100 * B3) * U.
Proof.
  destruct a as [ax ay az], b as [bx by_ bz]. intros (Nx & Ny & Nz) (Nx' & Ny' & Nz') R1 R2 R3 H1 H2 H3. unfold sprod, dot, val3. cbn [vx vy vz nadd nmul F_num] in *.
  pose proof U_pos as U0. destruct (big_bounds B1 ltac:(lra)) as [L1 T1]. destruct (big_bounds B2 ltac:(lra)) as [L2 T2]. destruct (big_bounds B3 ltac:(lra)) as [L3 T3].
  destruct (mul_err ax bx B1 Nx Nx' L1 T1 H1) as [M1 E1]. destruct (mul_err ay by_ B2 Ny Ny' L2 T2 H2) as [M2 E2]. destruct (mul_err az bz B3 Nz Nz' L3 T3 H3) as [M3 E3].
  set (q1 := (ax * bx)%float) in *. set (q2 := (ay * by_)%float) in *. set (q3 := (az * bz)%float) in *.
  assert (forall B, / 1000 <= B <= 8 -> 0 <= U * B <= / 1000 * B) as UB by (intros B HB; split; [apply Rmult_le_pos; lra|apply Rmult_le_compat_r; lra]).
  pose proof (UB B1 ltac:(lra)). pose proof (UB B2 ltac:(lra)). pose proof (UB B3 ltac:(lra)).
  apply Rabs_def2_le in H1. apply Rabs_def2_le in H2. apply Rabs_def2_le in H3. apply Rabs_def2_le in E1. apply Rabs_def2_le in E2. apply Rabs_def2_le in E3.
  destruct (zero_add q1 M1) as [N0 V0]; [apply (proj2 (big_bounds 1000 ltac:(lra))) || (eapply Rle_trans; [|exact (proj2 (big_bounds 1000 ltac:(lra)))]; apply Rabs_le; lra)|].
  set (s0 := (nlit 0 1 + q1)%float) in *.
  destruct (big_bounds (1002 / 1000 * (B1 + B2)) ltac:(lra)) as [L4 T4].
  destruct (add_err s0 q2 (1002 / 1000 * (B1 + B2)) N0 M2 L4 T4) as [N1 V1]; [rewrite V0; apply Rabs_le; lra|].
  set (s1 := (s0 + q2)%float) in *. rewrite V0 in V1. apply Rabs_def2_le in V1. pose proof (UB (B1 + B2) ltac:(lra)).
  replace (U * (1002 / 1000 * (B1 + B2))) with (1002 / 1000 * (U * B1 + U * B2)) in V1 by ring.
  destruct (big_bounds (1004 / 1000 * (B1 + B2 + B3)) ltac:(lra)) as [L5 T5].
  destruct (add_err s1 q3 (1004 / 1000 * (B1 + B2 + B3)) N1 M3 L5 T5) as [N2 V2]; [apply Rabs_le; lra|].
  set (s2 := (s1 + q3)%float) in *. apply Rabs_def2_le in V2. replace (U * (1004 / 1000 * (B1 + B2 + B3))) with (1004 / 1000 * (U * B1 + U * B2 + U * B3)) in V2 by ring.
  split; [exact N2|]. replace ((301 / 100 * (B1 + B2) + 201 / 100 * B3) * U) with (301 / 100 * (U * B1 + U * B2) + 201 / 100 * (U * B3)) by ring. apply Rabs_le. lra.
Qed.
(** the scalar product with a coordinate axis is exact *)
Lemma sprod_x (r : V3 PrimFloat.float) : number3 r -> Rabs (val (vx r)) <= 4 -> ex (sprod r (mkV3 1 0 0)%float) (val (vx r)).
Proof.
  intros (N1 & N2 & N3) B. unfold sprod. cbn [vx vy vz nadd nmul F_num]. assert (ex 1%float 1) as O by exact one_val. assert (ex 0%float 0) as Z by exact zero_val. assert (ex (nlit 0 1 : PrimFloat.float) 0) as Z' by exact n0_val.
  apply ex_add0r; [|apply ex_mul0r; assumption|exact B]. apply ex_add0r; [|apply ex_mul0r; assumption|exact B]. apply ex_add0l; [exact Z'| |exact B]. apply ex_mul1r; [split; auto|exact O|exact B].
Qed.
Lemma sprod_y (r : V3 PrimFloat.float) : number3 r -> Rabs (val (vx r)) <= 4 -> Rabs (val (vy r)) <= 4 -> ex (sprod r (mkV3 0 1 0)%float) (val (vy r)).
Proof.
  intros (N1 & N2 & N3) B0 B. unfold sprod. cbn [vx vy vz nadd nmul F_num]. assert (ex 1%float 1) as O by exact one_val. assert (ex 0%float 0) as Z by exact zero_val. assert (ex (nlit 0 1 : PrimFloat.float) 0) as Z' by exact n0_val.
  apply ex_add0r; [|apply ex_mul0r; assumption|exact B]. apply ex_add0l; [|apply ex_mul1r; [split; auto|exact O|exact B]|exact B].
  apply ex_add0l; [exact Z'|apply ex_mul0r; assumption|rewrite Rabs_R0; lra].
Qed.

Section Axes.
Context (T : Trig PrimFloat.float).
Hypothesis HT : accurate T.
Section One.
Variable t : PrimFloat.float.
Hypothesis Ht : usual_angle t.
Let c := ncos t.
Let s := nsin t.
Let omc := (nlit 1 1 - c)%float.
Let co := cos (val t).
Let si := sin (val t).
Let cs : number c /\ number s /\ Rabs (val c - co) <= U /\ Rabs (val s - si) <= U /\ -1 <= co <= 1 /\ -1 <= si <= 1.
Proof. exact (cs_err T t HT Ht). Qed.
Lemma cs4 : ex c (val c) /\ Rabs (val c) <= 1001 / 1000 /\ ex s (val s) /\ Rabs (val s) <= 1001 / 1000.
Proof.
  destruct cs as (A & B & C & D & E & F). pose proof U_pos. apply Rabs_def2_le in C. apply Rabs_def2_le in D.
  split; [split; auto|]. split; [apply Rabs_le; lra|]. split; [split; auto|apply Rabs_le; lra].
Qed.
Lemma omc_ex : number omc /\ Rabs (val omc - (1 - val c)) <= 2001 / 1000 * U /\ Rabs (val omc) <= 2002 / 1000.
Proof.
  destruct cs4 as ([Nc _] & Bc & _). destruct n1_val as [N1 V1]. pose proof U_pos. apply Rabs_def2_le in Bc.
  destruct (big_bounds (2001 / 1000) ltac:(lra)) as [B0 B1]. destruct (sub_err (nlit 1 1) c (2001 / 1000) N1 Nc B0 B1) as [N E]; [rewrite V1; apply Rabs_le; lra|]. fold omc in N, E.
  rewrite V1 in E. split; [exact N|]. split; [lra|]. apply Rabs_def2_le in E. apply Rabs_le. lra.
Qed.
(** the entries of the matrices: z is zero, o is one *)
Lemma e_cos z z' : ex z 0 -> ex z' 0 -> ex (c + z * z' * omc)%float (val c).
Proof.
  intros Hz Hz'. destruct cs4 as (Ec & Bc & _). destruct omc_ex as (No & _). apply ex_add0r; [exact Ec| |lra]. apply ex_mul0l; [|exact No]. apply ex_mul0l; [exact Hz|apply (ex_number _ _ Hz')].
Qed.
Lemma e_one o : ex o 1 -> number (c + o * o * omc)%float /\ Rabs (val (c + o * o * omc)%float - 1) <= 301 / 100 * U.
Proof.
  intros Ho. destruct cs4 as ([Nc _] & Bc & _). destruct omc_ex as (No & Eo & Bo). pose proof U_pos.
  assert (ex (o * o * omc)%float (val omc)) as [N1 V1].
  { apply ex_mul1l; [|split; auto|lra]. apply ex_mul1l; [exact Ho|exact Ho|rewrite Rabs_R1; lra]. }
  destruct (big_bounds (1001 / 1000) ltac:(lra)) as [B0 B1]. apply Rabs_def2_le in Eo.
  destruct (add_err c (o * o * omc)%float (1001 / 1000) Nc N1 B0 B1) as [N E]; [rewrite V1; apply Rabs_le; lra|]. rewrite V1 in E. apply Rabs_def2_le in E. split; [exact N|apply Rabs_le; lra].
Qed.
Lemma pq0 p q : (ex p 0 /\ number q) \/ (number p /\ ex q 0) -> ex (p * q * omc)%float 0.
Proof. intros H. destruct omc_ex as (No & _). apply ex_mul0l; [|exact No]. destruct H as [[A B] | [A B]]; [apply ex_mul0l|apply ex_mul0r]; assumption. Qed.
Lemma e_zero_m p q z : (ex p 0 /\ number q) \/ (number p /\ ex q 0) -> ex z 0 -> ex (p * q * omc - z * s)%float 0.
Proof.
  intros H Hz. destruct cs4 as (_ & _ & [Ns _] & _). assert (ex (p * q * omc - z * s)%float (- 0)) as G by (apply ex_sub0l; [exact (pq0 p q H)|apply ex_mul0l; assumption|rewrite Rabs_R0; lra]). rewrite Ropp_0 in G. exact G.
Qed.
Lemma e_zero_p p q z : (ex p 0 /\ number q) \/ (number p /\ ex q 0) -> ex z 0 -> ex (p * q * omc + z * s)%float 0.
Proof. intros H Hz. destruct cs4 as (_ & _ & [Ns _] & _). apply ex_add0l; [exact (pq0 p q H)|apply ex_mul0l; assumption|rewrite Rabs_R0; lra]. Qed.
Lemma e_sin_m p q o : (ex p 0 /\ number q) \/ (number p /\ ex q 0) -> ex o 1 -> ex (p * q * omc - o * s)%float (- val s).
Proof. intros H Ho. destruct cs4 as (_ & _ & Es & Bs). apply ex_sub0l; [exact (pq0 p q H)|apply ex_mul1l; [exact Ho|exact Es|lra]|lra]. Qed.
Lemma e_sin_p p q o : (ex p 0 /\ number q) \/ (number p /\ ex q 0) -> ex o 1 -> ex (p * q * omc + o * s)%float (val s).
Proof. intros H Ho. destruct cs4 as (_ & _ & Es & Bs). apply ex_add0l; [exact (pq0 p q H)|apply ex_mul1l; [exact Ho|exact Es|lra]|lra]. Qed.
Let O : ex 1%float 1 := one_val.
Let Z : ex 0%float 0 := zero_val.
Let N0 := ex_number _ _ Z.
Let N1 := ex_number _ _ O.

(** the second axis turned about the first *)
Lemma first_y : let y := rotate (mkV3 0 1 0)%float (mkV3 1 0 0)%float t in number3 y /\ val3 y = mkV3 0 (val c) (val s).
Proof.
  destruct cs4 as (Ec & Bc & Es & Bs). pose proof U_pos as U0.
  unfold rotate, rot_rows, apply_rows. fold c s. cbn [vx vy vz nadd nsub nmul F_num]. fold omc. cbv zeta.
  destruct (e_one 1%float O) as [Nm Em]. assert (Rabs (val (c + 1 * 1 * omc)%float) <= 4) as Bm by (apply Rabs_def2_le in Em; apply Rabs_le; lra).
  pose proof (e_zero_m 1 0 0 (or_intror (conj N1 Z)) Z) as A12. pose proof (e_zero_p 1 0 0 (or_intror (conj N1 Z)) Z) as A13.
  pose proof (e_zero_p 0 1 0 (or_introl (conj Z N1)) Z) as A21. pose proof (e_cos 0 0 Z Z) as A22. pose proof (e_sin_m 0 0 1 (or_introl (conj Z N0)) O) as A23.
  pose proof (e_zero_m 0 1 0 (or_introl (conj Z N1)) Z) as A31. pose proof (e_sin_p 0 0 1 (or_introl (conj Z N0)) O) as A32.
  destruct (sprod_y (mkV3 (c + 1 * 1 * omc) (1 * 0 * omc - 0 * s) (1 * 0 * omc + 0 * s))%float) as [X1 X2]; [repeat split; cbn [vx vy vz]; [exact Nm|exact (ex_number _ _ A12)|exact (ex_number _ _ A13)]|exact Bm|cbn [vy]; rewrite (proj2 A12), Rabs_R0; lra|].
  destruct (sprod_y (mkV3 (0 * 1 * omc + 0 * s) (c + 0 * 0 * omc) (0 * 0 * omc - 1 * s))%float) as [Y1 Y2]; [repeat split; cbn [vx vy vz]; [exact (ex_number _ _ A21)|exact (ex_number _ _ A22)|exact (ex_number _ _ A23)]|cbn [vx]; rewrite (proj2 A21), Rabs_R0; lra|cbn [vy]; rewrite (proj2 A22); lra|].
  destruct (sprod_y (mkV3 (0 * 1 * omc - 0 * s) (0 * 0 * omc + 1 * s) (c + 0 * 0 * omc))%float) as [Z1 Z2]; [repeat split; cbn [vx vy vz]; [exact (ex_number _ _ A31)|exact (ex_number _ _ A32)|exact (ex_number _ _ A22)]|cbn [vx]; rewrite (proj2 A31), Rabs_R0; lra|cbn [vy]; rewrite (proj2 A32); lra|].
  split; [repeat split; assumption|]. unfold val3. cbn [vx vy vz] in *. rewrite X2, Y2, Z2, (proj2 A12), (proj2 A22), (proj2 A32). reflexivity.
Qed.
(** the first axis turned about the second *)
Lemma first_x : let x := rotate (mkV3 1 0 0)%float (mkV3 0 1 0)%float t in number3 x /\ val3 x = mkV3 (val c) 0 (- val s).
Proof.
  destruct cs4 as (Ec & Bc & Es & Bs). pose proof U_pos as U0.
  unfold rotate, rot_rows, apply_rows. fold c s. cbn [vx vy vz nadd nsub nmul F_num]. fold omc. cbv zeta.
  destruct (e_one 1%float O) as [Nm Em].
  pose proof (e_cos 0 0 Z Z) as A11. pose proof (e_zero_m 0 1 0 (or_introl (conj Z N1)) Z) as A12. pose proof (e_sin_p 0 0 1 (or_introl (conj Z N0)) O) as A13.
  pose proof (e_zero_p 1 0 0 (or_intror (conj N1 Z)) Z) as A21. pose proof (e_zero_m 1 0 0 (or_intror (conj N1 Z)) Z) as A23.
  pose proof (e_sin_m 0 0 1 (or_introl (conj Z N0)) O) as A31. pose proof (e_zero_p 0 1 0 (or_introl (conj Z N1)) Z) as A32.
  destruct (sprod_x (mkV3 (c + 0 * 0 * omc) (0 * 1 * omc - 0 * s) (0 * 0 * omc + 1 * s))%float) as [X1 X2]; [repeat split; cbn [vx vy vz]; [exact (ex_number _ _ A11)|exact (ex_number _ _ A12)|exact (ex_number _ _ A13)]|cbn [vx]; rewrite (proj2 A11); lra|].
  destruct (sprod_x (mkV3 (1 * 0 * omc + 0 * s) (c + 1 * 1 * omc) (1 * 0 * omc - 0 * s))%float) as [Y1 Y2]; [repeat split; cbn [vx vy vz]; [exact (ex_number _ _ A21)|exact Nm|exact (ex_number _ _ A23)]|cbn [vx]; rewrite (proj2 A21), Rabs_R0; lra|].
  destruct (sprod_x (mkV3 (0 * 0 * omc - 1 * s) (0 * 1 * omc + 0 * s) (c + 0 * 0 * omc))%float) as [Z1 Z2]; [repeat split; cbn [vx vy vz]; [exact (ex_number _ _ A31)|exact (ex_number _ _ A32)|exact (ex_number _ _ A11)]|cbn [vx]; rewrite (proj2 A31), Rabs_Ropp; lra|].
  split; [repeat split; assumption|]. unfold val3. cbn [vx vy vz] in *. rewrite X2, Y2, Z2, (proj2 A11), (proj2 A21), (proj2 A31). reflexivity.
Qed.

Variable v : V3 PrimFloat.float.
Hypotheses (Nv : number3 v) (Bv : within3 (1001 / 1000) v).
Lemma mat_err : Rabs (val c - co) <= U /\ Rabs (val s - si) <= U.
Proof. destruct cs as (_ & _ & A & B & _). auto. Qed.
(** turned about the second axis *)
Lemma second : let r := rotate v (mkV3 0 1 0)%float t in number3 r /\ norm (psub (val3 r) (turn_y (val t) (val3 v))) <= 14 * U.
Proof.
  destruct cs4 as (Ec & Bc & Es & Bs). destruct mat_err as [Dc Ds]. pose proof U_pos as U0. destruct Bv as (V1 & V2 & V3').
  unfold rotate, rot_rows, apply_rows. fold c s. cbn [vx vy vz nadd nsub nmul F_num]. fold omc. cbv zeta.
  destruct (e_one 1%float O) as [Nm Em]. assert (Rabs (val (c + 1 * 1 * omc)%float) <= 1001 / 1000) as Bm by (apply Rabs_def2_le in Em; apply Rabs_le; lra).
  pose proof (e_cos 0 0 Z Z) as A11. pose proof (e_zero_m 0 1 0 (or_introl (conj Z N1)) Z) as A12. pose proof (e_sin_p 0 0 1 (or_introl (conj Z N0)) O) as A13.
  pose proof (e_zero_p 1 0 0 (or_intror (conj N1 Z)) Z) as A21. pose proof (e_zero_m 1 0 0 (or_intror (conj N1 Z)) Z) as A23.
  pose proof (e_sin_m 0 0 1 (or_introl (conj Z N0)) O) as A31. pose proof (e_zero_p 0 1 0 (or_introl (conj Z N1)) Z) as A32.
  pose proof (prod_le _ _ _ _ Bc V1) as P11. pose proof (prod_le _ _ _ _ Bs V3') as P13. pose proof (prod_le _ _ _ _ Bm V2) as P22.
  pose proof (prod_le _ _ _ _ Bs V1) as P31. pose proof (prod_le _ _ _ _ Bc V3') as P33.
  destruct (sprod3 (mkV3 (c + 0 * 0 * omc) (0 * 1 * omc - 0 * s) (0 * 0 * omc + 1 * s))%float v (1003 / 1000) (/ 1000) (1003 / 1000)) as [X1 X2];
    [repeat split; cbn [vx vy vz]; [exact (ex_number _ _ A11)|exact (ex_number _ _ A12)|exact (ex_number _ _ A13)]|exact Nv|lra|lra|lra|
     cbn [vx]; rewrite (proj2 A11); lra|cbn [vy]; rewrite (proj2 A12), Rmult_0_l, Rabs_R0; lra|cbn [vz]; rewrite (proj2 A13); lra|].
  destruct (sprod3 (mkV3 (1 * 0 * omc + 0 * s) (c + 1 * 1 * omc) (1 * 0 * omc - 0 * s))%float v (/ 1000) (1003 / 1000) (/ 1000)) as [Y1 Y2];
    [repeat split; cbn [vx vy vz]; [exact (ex_number _ _ A21)|exact Nm|exact (ex_number _ _ A23)]|exact Nv|lra|lra|lra|
     cbn [vx]; rewrite (proj2 A21), Rmult_0_l, Rabs_R0; lra|cbn [vy]; lra|cbn [vz]; rewrite (proj2 A23), Rmult_0_l, Rabs_R0; lra|].
  destruct (sprod3 (mkV3 (0 * 0 * omc - 1 * s) (0 * 1 * omc + 0 * s) (c + 0 * 0 * omc))%float v (1003 / 1000) (/ 1000) (1003 / 1000)) as [Z1 Z2];
    [repeat split; cbn [vx vy vz]; [exact (ex_number _ _ A31)|exact (ex_number _ _ A32)|exact (ex_number _ _ A11)]|exact Nv|lra|lra|lra|
     cbn [vx]; rewrite (proj2 A31), Ropp_mult_distr_l_reverse, Rabs_Ropp; lra|cbn [vy]; rewrite (proj2 A32), Rmult_0_l, Rabs_R0; lra|cbn [vz]; rewrite (proj2 A11); lra|].
  split; [repeat split; assumption|]. unfold dot, val3 in X2, Y2, Z2. cbn [vx vy vz] in X2, Y2, Z2.
  rewrite (proj2 A11), (proj2 A12), (proj2 A13) in X2. rewrite (proj2 A21), (proj2 A23) in Y2. rewrite (proj2 A31), (proj2 A32), (proj2 A11) in Z2.
  pose proof (prod_err _ _ _ _ _ V1 Dc) as D11. pose proof (prod_err _ _ _ _ _ V3' Ds) as D13. pose proof (prod_err _ _ _ _ _ V2 Em) as D22. pose proof (prod_err _ _ _ _ _ V1 Ds) as D31. pose proof (prod_err _ _ _ _ _ V3' Dc) as D33.
  apply Rabs_def2_le in X2. apply Rabs_def2_le in Y2. apply Rabs_def2_le in Z2. apply Rabs_def2_le in D11. apply Rabs_def2_le in D13. apply Rabs_def2_le in D22. apply Rabs_def2_le in D31. apply Rabs_def2_le in D33.
  eapply Rle_trans; [apply (norm_le _ (807 / 100 * U))|lra]; unfold psub, turn_y, val3; cbn [vx vy vz]; fold co si; apply Rabs_le; lra.
Qed.
(** turned about the third axis *)
Lemma third : let r := rotate v (mkV3 0 0 1)%float t in number3 r /\ norm (psub (val3 r) (turn_z (val t) (val3 v))) <= 14 * U.
Proof.
  destruct cs4 as (Ec & Bc & Es & Bs). destruct mat_err as [Dc Ds]. pose proof U_pos as U0. destruct Bv as (V1 & V2 & V3').
  unfold rotate, rot_rows, apply_rows. fold c s. cbn [vx vy vz nadd nsub nmul F_num]. fold omc. cbv zeta.
  destruct (e_one 1%float O) as [Nm Em]. assert (Rabs (val (c + 1 * 1 * omc)%float) <= 1001 / 1000) as Bm by (apply Rabs_def2_le in Em; apply Rabs_le; lra).
  pose proof (e_cos 0 0 Z Z) as A11. pose proof (e_sin_m 0 0 1 (or_introl (conj Z N0)) O) as A12. pose proof (e_zero_p 0 1 0 (or_introl (conj Z N1)) Z) as A13.
  pose proof (e_sin_p 0 0 1 (or_introl (conj Z N0)) O) as A21. pose proof (e_zero_m 0 1 0 (or_introl (conj Z N1)) Z) as A23.
  pose proof (e_zero_m 1 0 0 (or_intror (conj N1 Z)) Z) as A31. pose proof (e_zero_p 1 0 0 (or_intror (conj N1 Z)) Z) as A32.
  pose proof (prod_le _ _ _ _ Bc V1) as P11. pose proof (prod_le _ _ _ _ Bs V2) as P12. pose proof (prod_le _ _ _ _ Bm V3') as P33.
  pose proof (prod_le _ _ _ _ Bs V1) as P21. pose proof (prod_le _ _ _ _ Bc V2) as P22.
  destruct (sprod3 (mkV3 (c + 0 * 0 * omc) (0 * 0 * omc - 1 * s) (0 * 1 * omc + 0 * s))%float v (1003 / 1000) (1003 / 1000) (/ 1000)) as [X1 X2];
    [repeat split; cbn [vx vy vz]; [exact (ex_number _ _ A11)|exact (ex_number _ _ A12)|exact (ex_number _ _ A13)]|exact Nv|lra|lra|lra|
     cbn [vx]; rewrite (proj2 A11); lra|cbn [vy]; rewrite (proj2 A12), Ropp_mult_distr_l_reverse, Rabs_Ropp; lra|cbn [vz]; rewrite (proj2 A13), Rmult_0_l, Rabs_R0; lra|].
  destruct (sprod3 (mkV3 (0 * 0 * omc + 1 * s) (c + 0 * 0 * omc) (0 * 1 * omc - 0 * s))%float v (1003 / 1000) (1003 / 1000) (/ 1000)) as [Y1 Y2];
    [repeat split; cbn [vx vy vz]; [exact (ex_number _ _ A21)|exact (ex_number _ _ A11)|exact (ex_number _ _ A23)]|exact Nv|lra|lra|lra|
     cbn [vx]; rewrite (proj2 A21); lra|cbn [vy]; rewrite (proj2 A11); lra|cbn [vz]; rewrite (proj2 A23), Rmult_0_l, Rabs_R0; lra|].
  destruct (sprod3 (mkV3 (1 * 0 * omc - 0 * s) (1 * 0 * omc + 0 * s) (c + 1 * 1 * omc))%float v (/ 1000) (/ 1000) (1003 / 1000)) as [Z1 Z2];
    [repeat split; cbn [vx vy vz]; [exact (ex_number _ _ A31)|exact (ex_number _ _ A32)|exact Nm]|exact Nv|lra|lra|lra|
     cbn [vx]; rewrite (proj2 A31), Rmult_0_l, Rabs_R0; lra|cbn [vy]; rewrite (proj2 A32), Rmult_0_l, Rabs_R0; lra|cbn [vz]; lra|].
  split; [repeat split; assumption|]. unfold dot, val3 in X2, Y2, Z2. cbn [vx vy vz] in X2, Y2, Z2.
  rewrite (proj2 A11), (proj2 A12), (proj2 A13) in X2. rewrite (proj2 A21), (proj2 A11), (proj2 A23) in Y2. rewrite (proj2 A31), (proj2 A32) in Z2.
  pose proof (prod_err _ _ _ _ _ V1 Dc) as D11. pose proof (prod_err _ _ _ _ _ V2 Ds) as D12. pose proof (prod_err _ _ _ _ _ V3' Em) as D33. pose proof (prod_err _ _ _ _ _ V1 Ds) as D21. pose proof (prod_err _ _ _ _ _ V2 Dc) as D22.
  apply Rabs_def2_le in X2. apply Rabs_def2_le in Y2. apply Rabs_def2_le in Z2. apply Rabs_def2_le in D11. apply Rabs_def2_le in D12. apply Rabs_def2_le in D33. apply Rabs_def2_le in D21. apply Rabs_def2_le in D22.
  eapply Rle_trans; [apply (norm_le _ (807 / 100 * U))|lra]; unfold psub, turn_z, val3; cbn [vx vy vz]; fold co si; apply Rabs_le; lra.
Qed.
End One.
End Axes.
