(** The foot of the perpendicular from a point to a line, in double precision. *)

From Coq Require Import ZArith Reals Floats Lra Lia Psatz Bool.
From Flocq Require Import Core.Core IEEE754.BinarySingleNaN IEEE754.PrimFloat Relative.
From Verif Require Import Base NumModel VecModel LinModel DistModel GeoSpec LinSpec DblSpec GeoLemmas
  DblLemmas DblProofs DblLen DblEq LinDblBase.
Local Open Scope R_scope.

Lemma norm_tri (u v : pt) : norm (padd u v) <= norm u + norm v.
Proof.
  pose proof (norm_nonneg u) as Nu. pose proof (norm_nonneg v) as Nv. pose proof (cauchy_norm u v) as C. apply Rabs_def2_le in C.
  unfold norm at 1. rewrite <- (sqrt_square (norm u + norm v)) by lra. apply sqrt_le_1_alt.
  replace (dot (padd u v) (padd u v)) with (dot u u + 2 * dot u v + dot v v) by (destruct u as [ux uy uz], v as [wx wy wz]; unfold dot, padd; cbn [vx vy vz]; ring).
  rewrite <- !norm_sq. nra.
Qed.
Lemma norm_mul c (u : pt) : norm (pscale c u) = Rabs c * norm u.
Proof.
  unfold norm. replace (dot (pscale c u) (pscale c u)) with (c * c * dot u u) by (destruct u as [ux uy uz]; unfold dot, pscale; cbn [vx vy vz]; ring).
  rewrite sqrt_mult; [|apply Rle_0_sqr|apply dot_nonneg]. f_equal. change (c * c) with (Rsqr c). apply sqrt_Rsqr_abs.
Qed.
Lemma comp_norm (u : pt) : Rabs (vx u) <= norm u /\ Rabs (vy u) <= norm u /\ Rabs (vz u) <= norm u.
Proof.
  destruct u as [a b c]. unfold norm, dot. cbn [vx vy vz]. split; [apply comp_le|]. split.
  - replace (a * a + b * b + c * c) with (b * b + a * a + c * c) by ring. apply comp_le.
  - replace (a * a + b * b + c * c) with (c * c + b * b + a * a) by ring. apply comp_le.
Qed.
Lemma norm_le (u : pt) E : Rabs (vx u) <= E -> Rabs (vy u) <= E -> Rabs (vz u) <= E -> norm u <= 1733 / 1000 * E.
Proof.
  intros Hx Hy Hz. assert (0 <= E) as E0 by (pose proof (Rabs_pos (vx u)); lra).
  assert (forall a, Rabs a <= E -> a * a <= E * E) as S.
  { intros a Ha. rewrite <- (Rabs_pos_eq (a * a)) by apply Rle_0_sqr. apply prod_le; assumption. }
  unfold norm, dot. rewrite <- (sqrt_square (1733 / 1000 * E)) by lra. apply sqrt_le_1_alt.
  pose proof (S _ Hx). pose proof (S _ Hy). pose proof (S _ Hz). assert (0 <= E * E) by (apply Rle_0_sqr). lra.
Qed.
Lemma norm_dif (u v : pt) : Rabs (norm u - norm v) <= norm (psub u v).
Proof.
  pose proof (norm_tri (psub u v) v) as A. pose proof (norm_tri (psub v u) u) as B.
  replace (padd (psub u v) v) with u in A by (destruct u as [ux uy uz], v as [wx wy wz]; unfold padd, psub; cbn [vx vy vz]; f_equal; ring).
  replace (padd (psub v u) u) with v in B by (destruct u as [ux uy uz], v as [wx wy wz]; unfold padd, psub; cbn [vx vy vz]; f_equal; ring).
  replace (norm (psub v u)) with (norm (psub u v)) in B.
  2:{ unfold norm. f_equal. destruct u as [ux uy uz], v as [wx wy wz]; unfold dot, psub; cbn [vx vy vz]; ring. }
  apply Rabs_le. lra.
Qed.

(** two directions that differ by k *)
Lemma two_feet (s d e p : pt) k : unit3 e -> norm (psub d e) <= k ->
  norm (psub (psub (padd s (pscale (dot d (psub p s)) d)) p) (psub (padd s (pscale (dot e (psub p s)) e)) p)) <= k * (1 + norm d) * dist p s.
Proof.
  intros He Hk. set (w := psub p s). replace (dist p s) with (norm w) by reflexivity.
  replace (psub (psub (padd s (pscale (dot d w) d)) p) (psub (padd s (pscale (dot e w) e)) p))
    with (padd (pscale (dot d w) (psub d e)) (pscale (dot (psub d e) w) e)).
  2:{ destruct s as [sx sy sz], d as [dx dy dz], e as [ex ey ez], p as [px py pz]. unfold w, psub, padd, pscale, dot. cbn [vx vy vz]. f_equal; ring. }
  eapply Rle_trans; [apply norm_tri|]. rewrite !norm_mul, (norm_unit e He).
  pose proof (cauchy_norm d w) as C1. pose proof (cauchy_norm (psub d e) w) as C2. pose proof (norm_nonneg w). pose proof (norm_nonneg d). pose proof (norm_nonneg (psub d e)).
  assert (Rabs (dot d w) * norm (psub d e) <= norm d * norm w * k) as A by (apply Rmult_le_compat; try apply Rabs_pos; assumption).
  assert (norm (psub d e) * norm w <= k * norm w) as B by (apply Rmult_le_compat_r; assumption). lra.
Qed.

Section Foot.
Variables (s d p : V3 PrimFloat.float) (M : R).
Hypotheses (Ns : number3 s) (Nd : number3 d) (Np : number3 p).
Hypotheses (HM : sized M) (Bs : within3 M s) (Bp : within3 M p).

(** p - s *)
Lemma vec_err : let w := vec_to s p in let W := psub (val3 p) (val3 s) in
  number3 w /\ (Rabs (val (vx w) - vx W) <= 2 * (U * M) /\ Rabs (val (vy w) - vy W) <= 2 * (U * M) /\ Rabs (val (vz w) - vz W) <= 2 * (U * M)) /\
  (Rabs (vx W) <= 2 * M /\ Rabs (vy W) <= 2 * M /\ Rabs (vz W) <= 2 * M) /\ norm W <= 3467 / 1000 * M.
Proof.
  intros w W. pose proof (sized_scale 2 M ltac:(lra) HM) as [S1 S2].
  assert (K : forall a b : PrimFloat.float, number a -> number b -> Rabs (val a) <= M -> Rabs (val b) <= M ->
     number (b - a)%float /\ Rabs (val (b - a)%float - (val b - val a)) <= 2 * (U * M) /\ Rabs (val b - val a) <= 2 * M).
  { intros a b Na Nb Ba Bb. assert (Rabs (val b - val a) <= 2 * M) as B2 by (apply Rabs_def2_le in Ba; apply Rabs_def2_le in Bb; apply Rabs_le; lra).
    destruct (sub_err b a (2 * M) Nb Na S1 S2 B2) as [N E]. split; [exact N|]. split; [|exact B2]. replace (2 * (U * M)) with (U * (2 * M)) by ring. exact E. }
  unfold w, W, vec_to, psub, val3, number3. cbn [vx vy vz nsub F_num].
  destruct Ns as (N1 & N2 & N3), Np as (N4 & N5 & N6), Bs as (B1 & B2 & B3), Bp as (B4 & B5 & B6).
  destruct (K _ _ N1 N4 B1 B4) as (X1 & X2 & X3). destruct (K _ _ N2 N5 B2 B5) as (Y1 & Y2 & Y3). destruct (K _ _ N3 N6 B3 B6) as (Z1 & Z2 & Z3).
  split; [auto|]. split; [auto|]. split; [auto|].
  pose proof (norm_le (mkV3 (val (vx p) - val (vx s)) (val (vy p) - val (vy s)) (val (vz p) - val (vz s))) (2 * M) X3 Y3 Z3). pose proof (sized_pos M HM). lra.
Qed.

Hypothesis Ud : norm (val3 d) <= 1001 / 1000.

Lemma UM_small : 0 <= U * M <= / 1000000 * M.
Proof. pose proof (sized_pos M HM). pose proof U_pos. split; [apply Rmult_le_pos; lra|apply Rmult_le_compat_r; lra]. Qed.
Lemma dir_comp : Rabs (val (vx d)) <= 1001 / 1000 /\ Rabs (val (vy d)) <= 1001 / 1000 /\ Rabs (val (vz d)) <= 1001 / 1000.
Proof. destruct (comp_norm (val3 d)) as (A & B & C). unfold val3 in A, B, C at 1. cbn [vx vy vz] in A, B, C. fold (val3 d) in *. lra. Qed.

(** the coordinate along the direction *)
Lemma along_err : let t := sprod d (vec_to s p) in
  number t /\ Rabs (val t - dot (val3 d) (psub (val3 p) (val3 s))) <= 25 * (U * M).
Proof.
  intros t. destruct vec_err as (Nw & (E1 & E2 & E3) & (W1 & W2 & W3) & NW). destruct dir_comp as (D1 & D2 & D3). pose proof UM_small as UM. pose proof (sized_pos M HM) as M0.
  set (w := vec_to s p) in *. set (W := psub (val3 p) (val3 s)) in *.
  assert (forall a b, Rabs (a - b) <= 2 * (U * M) -> Rabs b <= 2 * M -> Rabs a <= 2001 / 1000 * M) as K.
  { intros a b H1 H2. apply Rabs_def2_le in H1. apply Rabs_def2_le in H2. apply Rabs_le. lra. }
  pose proof (K _ _ E1 W1) as V1. pose proof (K _ _ E2 W2) as V2. pose proof (K _ _ E3 W3) as V3.
  pose proof (sized_scale (2004 / 1000) M ltac:(lra) HM) as [S1 _]. pose proof (sized_scale (8016 / 1000) M ltac:(lra) HM) as [_ S2].
  assert (forall a b, Rabs a <= 1001 / 1000 -> Rabs b <= 2001 / 1000 * M -> Rabs (a * b) <= 2004 / 1000 * M) as K2.
  { intros a b H1 H2. pose proof (prod_le _ _ _ _ H1 H2). lra. }
  destruct (sprod_err d w (2004 / 1000 * M) Nd Nw S1 ltac:(lra)) as [Nt Et]; try (apply K2; assumption).
  split; [exact Nt|]. fold t in Et.
  assert (Rabs (dot (val3 d) (val3 w) - dot (val3 d) W) <= 6006 / 1000 * (U * M)) as Ed.
  { pose proof (prod_err _ _ _ _ _ D1 E1) as P1. pose proof (prod_err _ _ _ _ _ D2 E2) as P2. pose proof (prod_err _ _ _ _ _ D3 E3) as P3.
    apply Rabs_def2_le in P1. apply Rabs_def2_le in P2. apply Rabs_def2_le in P3. unfold dot, val3. cbn [vx vy vz]. apply Rabs_le. lra. }
  apply Rabs_def2_le in Et. apply Rabs_def2_le in Ed. apply Rabs_le. lra.
Qed.

Lemma along_err_r : let t := sprod (vec_to s p) d in
  number t /\ Rabs (val t - dot (val3 d) (psub (val3 p) (val3 s))) <= 25 * (U * M).
Proof.
  intros t. destruct vec_err as (Nw & (E1 & E2 & E3) & (W1 & W2 & W3) & NW). destruct dir_comp as (D1 & D2 & D3). pose proof UM_small as UM. pose proof (sized_pos M HM) as M0.
  set (w := vec_to s p) in *. set (W := psub (val3 p) (val3 s)) in *.
  assert (forall a b, Rabs (a - b) <= 2 * (U * M) -> Rabs b <= 2 * M -> Rabs a <= 2001 / 1000 * M) as K.
  { intros a b H1 H2. apply Rabs_def2_le in H1. apply Rabs_def2_le in H2. apply Rabs_le. lra. }
  pose proof (K _ _ E1 W1) as V1. pose proof (K _ _ E2 W2) as V2. pose proof (K _ _ E3 W3) as V3.
  pose proof (sized_scale (2004 / 1000) M ltac:(lra) HM) as [S1 _]. pose proof (sized_scale (8016 / 1000) M ltac:(lra) HM) as [_ S2].
  assert (forall a b, Rabs a <= 1001 / 1000 -> Rabs b <= 2001 / 1000 * M -> Rabs (b * a) <= 2004 / 1000 * M) as K2.
  { intros a b H1 H2. pose proof (prod_le _ _ _ _ H1 H2) as Q. rewrite Rmult_comm in Q at 1. lra. }
  destruct (sprod_err w d (2004 / 1000 * M) Nw Nd S1 ltac:(lra)) as [Nt Et]; try (apply K2; assumption).
  split; [exact Nt|]. fold t in Et.
  assert (Rabs (dot (val3 w) (val3 d) - dot (val3 d) W) <= 6006 / 1000 * (U * M)) as Ed.
  { pose proof (prod_err _ _ _ _ _ D1 E1) as P1. pose proof (prod_err _ _ _ _ _ D2 E2) as P2. pose proof (prod_err _ _ _ _ _ D3 E3) as P3.
    apply Rabs_def2_le in P1. apply Rabs_def2_le in P2. apply Rabs_def2_le in P3. unfold dot, val3. cbn [vx vy vz]. apply Rabs_le. lra. }
  apply Rabs_def2_le in Et. apply Rabs_def2_le in Ed. apply Rabs_le. lra.
Qed.

(** the vector from p to the foot *)
Lemma foot_err : let v := vec_to p (line_proj (mkLine s d) p) in
  let X := psub (padd (val3 s) (pscale (dot (val3 d) (psub (val3 p) (val3 s))) (val3 d))) (val3 p) in
  number3 v /\ within3 (6 * M) v /\ norm (psub (val3 v) X) <= 68 * (U * M).
Proof.
  intros v X. destruct along_err as [Nt Et]. destruct vec_err as (_ & _ & _ & NW). destruct dir_comp as (D1 & D2 & D3). pose proof UM_small as UM. pose proof (sized_pos M HM) as M0.
  unfold v, X, line_proj. cbn [l_sup l_dir]. set (t := sprod d (vec_to s p)) in *. set (tau := dot (val3 d) (psub (val3 p) (val3 s))) in *.
  assert (Rabs tau <= 3471 / 1000 * M) as Bt.
  { eapply Rle_trans; [apply cauchy_norm|]. eapply Rle_trans; [apply Rmult_le_compat; [apply norm_nonneg|apply norm_nonneg|exact Ud|exact NW]|]. lra. }
  assert (Rabs (val t) <= 35 / 10 * M) as Bt' by (apply Rabs_def2_le in Et; apply Rabs_def2_le in Bt; apply Rabs_le; lra).
  pose proof (sized_scale (351 / 100) M ltac:(lra) HM) as [S1 S2]. pose proof (sized_scale (46 / 10) M ltac:(lra) HM) as [S3 S4]. pose proof (sized_scale (565 / 100) M ltac:(lra) HM) as [S5 S6].
  assert (K : forall dx sx px : PrimFloat.float, number dx -> number sx -> number px -> Rabs (val dx) <= 1001 / 1000 -> Rabs (val sx) <= M -> Rabs (val px) <= M ->
    number (sx + dx * t - px)%float /\ Rabs (val (sx + dx * t - px)%float) <= 6 * M /\
    Rabs (val (sx + dx * t - px)%float - (val sx + tau * val dx - val px)) <= 39 * (U * M)).
  { intros dx sx px N1 N2 N3 B1 B2 B3. pose proof (prod_le _ _ _ _ B1 Bt') as Q1. pose proof (prod_err _ _ _ _ _ B1 Et) as Q2.
    destruct (mul_err dx t (351 / 100 * M) N1 Nt S1 S2 ltac:(lra)) as [Nq Eq]. set (q := (dx * t)%float) in *.
    replace (U * (351 / 100 * M)) with (351 / 100 * (U * M)) in Eq by ring.
    apply Rabs_def2_le in Q1. apply Rabs_def2_le in Q2. apply Rabs_def2_le in Eq. apply Rabs_def2_le in B2. apply Rabs_def2_le in B3.
    destruct (add_err sx q (46 / 10 * M) N2 Nq S3 S4) as [Nr Er]; [apply Rabs_le; lra|]. set (r := (sx + q)%float) in *.
    replace (U * (46 / 10 * M)) with (46 / 10 * (U * M)) in Er by ring. apply Rabs_def2_le in Er.
    destruct (sub_err r px (565 / 100 * M) Nr N3 S5 S6) as [Nv Ev]; [apply Rabs_le; lra|].
    replace (U * (565 / 100 * M)) with (565 / 100 * (U * M)) in Ev by ring. apply Rabs_def2_le in Ev.
    split; [exact Nv|]. split; apply Rabs_le; lra. }
  destruct Ns as (N1 & N2 & N3), Np as (N4 & N5 & N6), Nd as (N7 & N8 & N9), Bs as (B1 & B2 & B3), Bp as (B4 & B5 & B6).
  destruct (K _ _ _ N7 N1 N4 D1 B1 B4) as (X1 & X2 & X3). destruct (K _ _ _ N8 N2 N5 D2 B2 B5) as (Y1 & Y2 & Y3). destruct (K _ _ _ N9 N3 N6 D3 B3 B6) as (Z1 & Z2 & Z3).
  unfold vec_to, vadd, vscale, number3, within3. cbn [vx vy vz nadd nsub nmul F_num].
  split; [auto|]. split; [auto|]. eapply Rle_trans; [apply (norm_le _ (39 * (U * M)))|lra]; unfold psub, padd, pscale, val3; cbn [vx vy vz]; assumption.
Qed.
(** its length, compared with the exact direction e *)
Lemma foot_len (e : pt) k : unit3 e -> norm (psub (val3 d) e) <= k -> let v := vec_to p (line_proj (mkLine s d) p) in
  let y := padd (val3 s) (pscale (dot e (psub (val3 p) (val3 s))) e) in
  Rabs (norm (val3 v) - dist (val3 p) y) <= 68 * (U * M) + 7 * (k * M).
Proof.
  intros He Hk v y. destruct foot_err as (_ & _ & F). fold v in F. destruct vec_err as (_ & _ & _ & NW). pose proof (two_feet (val3 s) (val3 d) e (val3 p) k He Hk) as T.
  set (X := psub (padd (val3 s) (pscale (dot (val3 d) (psub (val3 p) (val3 s))) (val3 d))) (val3 p)) in *. fold y in T.
  pose proof (norm_dif (val3 v) X) as D1. pose proof (norm_dif X (psub y (val3 p))) as D2. pose proof (sized_pos M HM) as M0.
  assert (0 <= k) as K0 by (eapply Rle_trans; [apply norm_nonneg|exact Hk]).
  assert (k * (1 + norm (val3 d)) * dist (val3 p) (val3 s) <= 7 * (k * M)) as Q.
  { rewrite Rmult_assoc. replace (7 * (k * M)) with (k * (7 * M)) by ring. apply Rmult_le_compat_l; [exact K0|].
    apply Rle_trans with (2001 / 1000 * (3467 / 1000 * M)); [|lra]. pose proof (norm_nonneg (val3 d)). apply Rmult_le_compat; [lra|apply norm_nonneg|lra|exact NW]. }
  replace (dist (val3 p) y) with (norm (psub y (val3 p))).
  2:{ unfold dist, norm. f_equal. destruct y as [y1 y2 y3]. unfold dot, psub, val3. cbn [vx vy vz]. ring. }
  apply Rabs_def2_le in D1. apply Rabs_def2_le in D2. apply Rabs_le. lra.
Qed.
End Foot.
