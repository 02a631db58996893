(** Equality of points and directions in double precision. *)

From Coq Require Import ZArith Reals Floats Lra Lia Psatz Bool.
From Flocq Require Import Core.Core IEEE754.BinarySingleNaN IEEE754.PrimFloat Relative.
From Verif Require Import Base NumModel VecModel LinModel DistModel GeoSpec LinSpec DblSpec DblLemmas DblProofs DblLen.
Local Open Scope R_scope.

Lemma dist_sym (p q : V3 PrimFloat.float) : dist_points p q = dist_points q p.
Proof. unfold dist_points, vlen. rewrite sqlen_sym. reflexivity. Qed.
Lemma eq_sym_all (p q : V3 PrimFloat.float) e : pt_eq p q e = pt_eq q p e.
Proof. unfold pt_eq. rewrite sqlen_sym. reflexivity. Qed.

Lemma sqlen_val p q : number3 p -> number3 q -> within3 (powerRZ 2 500) p -> within3 (powerRZ 2 500) q -> gap3 p q ->
  let D := dist (val3 p) (val3 q) in
  number (sqlen (vec_to p q)) /\
  (lo * (lo * lo)) * (lo * (lo * lo)) * (D * D) <= val (sqlen (vec_to p q)) <= (hi * (hi * hi)) * (hi * (hi * hi)) * (D * D).
Proof.
  destruct p as [x y z], q as [x' y' z']. intros (Nx & Ny & Nz) (Nx' & Ny' & Nz') (Bx & By & Bz) (Bx' & By' & Bz') (Gx & Gy & Gz) D.
  cbn [vx vy vz] in *. rewrite two_p in Bx, By, Bz, Bx', By', Bz'.
  pose proof (sq_dif x x' Nx Nx' Bx Bx' Gx) as Sx. pose proof (sq_dif y y' Ny Ny' By By' Gy) as Sy. pose proof (sq_dif z z' Nz Nz' Bz Bz' Gz) as Sz.
  destruct (sum3_val _ _ _ _ _ _ Sx Sy Sz) as (N & _ & V & _).
  replace (D * D) with ((val x' - val x) * (val x' - val x) + (val y' - val y) * (val y' - val y) + (val z' - val z) * (val z' - val z)).
  - split; [exact N|exact V].
  - unfold D, dist, norm, dot, psub, val3. cbn [vx vy vz]. rewrite sqrt_sqrt; [ring|].
    repeat apply Rplus_le_le_0_compat; apply Rle_0_sqr.
Qed.

Lemma eq_lemma p q e : number3 p -> number3 q -> number e ->
  within3 (powerRZ 2 500) p -> within3 (powerRZ 2 500) q -> gap3 p q -> powerRZ 2 (-500) <= val e <= powerRZ 2 500 ->
  let D := dist (val3 p) (val3 q) in
  (D <= (1 - powerRZ 2 (-50)) * val e -> pt_eq p q e = true) /\
  ((1 + powerRZ 2 (-50)) * val e <= D -> pt_eq p q e = false).
Proof.
  intros Np Nq Ne Bp Bq G [E1 E2] D. rewrite two_p in *. destruct (sqlen_val p q Np Nq) as [Ns [S1 S2]]; rewrite ?two_p; try assumption.
  fold D in S1, S2. assert (0 <= D) as D0 by apply sqrt_pos.
  assert (0 < val e) as E0 by (pose proof (bpow_gt_0 radix2 (-500)); lra).
  assert (Rabs (val e) <= bpow radix2 500) as Be by (rewrite Rabs_pos_eq; lra).
  destruct (f_mul e e Ne Ne) as [Nm Vm].
  { rewrite Rabs_mult. apply Rle_trans with (bpow radix2 (500 + 500)); [|apply bpow_le; lia]. rewrite bpow_plus. apply Rmult_le_compat; try apply Rabs_pos; exact Be. }
  assert (lo * (val e * val e) <= val (e * e)%float <= hi * (val e * val e)) as [M1 M2].
  { rewrite Vm. apply rel_pos. right. apply Rle_trans with (bpow radix2 (-500 + -500)); [apply bpow_le; lia|]. rewrite bpow_plus.
    apply Rmult_le_compat; try apply bpow_ge_0; exact E1. }
  assert (0 < val e * val e) as EE by (apply Rmult_lt_0_compat; assumption).
  unfold pt_eq. cbn [nltb nmul F_num]. change (bpow radix2 (-50)) with (/ 1125899906842624). split; intros H.
  - apply f_ltb; [exact Ns|exact Nm|]. eapply Rle_lt_trans; [exact S2|]. eapply Rlt_le_trans; [|exact M1].
    set (d := 1 - / 1125899906842624) in *. assert (D * D <= (d * val e) * (d * val e)) as DD by (apply Rmult_le_compat; assumption).
    apply Rle_lt_trans with (hi * (hi * hi) * (hi * (hi * hi)) * ((d * val e) * (d * val e))).
    { apply Rmult_le_compat_l; [|exact DD]. unfold hi, U. lra. }
    replace (hi * (hi * hi) * (hi * (hi * hi)) * (d * val e * (d * val e))) with (hi * (hi * hi) * (hi * (hi * hi)) * (d * d) * (val e * val e)) by ring.
    apply Rmult_lt_compat_r; [exact EE|]. unfold hi, lo, d, U. lra.
  - apply f_ltb_false; [exact Ns|exact Nm|]. eapply Rle_trans; [exact M2|]. eapply Rle_trans; [|exact S1].
    set (d := 1 + / 1125899906842624) in *. assert (0 <= d * val e) as de by (apply Rmult_le_pos; [unfold d; lra|lra]).
    assert ((d * val e) * (d * val e) <= D * D) as DD by (apply Rmult_le_compat; assumption).
    apply Rle_trans with (lo * (lo * lo) * (lo * (lo * lo)) * ((d * val e) * (d * val e))).
    2:{ apply Rmult_le_compat_l; [|exact DD]. unfold lo, U. lra. }
    replace (lo * (lo * lo) * (lo * (lo * lo)) * (d * val e * (d * val e))) with (lo * (lo * lo) * (lo * (lo * lo)) * (d * d) * (val e * val e)) by ring.
    apply Rmult_le_compat_r; [lra|]. unfold hi, lo, d, U. lra.
Qed.

(** Directions. *)
Lemma sq_self x : number x -> Rabs (val x) <= bpow radix2 500 -> sizable x -> square_ok (x * x)%float (val x).
Proof.
  intros Nx Bx G. destruct (sq_val x Nx) as (Nq & Bq & _); [eapply Rle_trans; [exact Bx|apply bpow_le; lia]|].
  split; [exact Nq|]. split; [exact Bq|].
  assert (val (x * x)%float = rnd (val x * val x)) as V.
  { destruct (f_mul x x Nx Nx) as [_ V]; [|exact V]. rewrite Rabs_mult. apply Rle_trans with (bpow radix2 (500 + 500)); [|apply bpow_le; lia].
    rewrite bpow_plus. apply Rmult_le_compat; try apply Rabs_pos; exact Bx. }
  pose proof lo_pos as L0. pose proof hi_pos as H0. assert (0 <= val x * val x) as Q by apply Rle_0_sqr.
  assert (val x * val x = 0 \/ bpow radix2 (-1000) <= val x * val x) as C.
  { unfold sizable in G. rewrite two_p in G. destruct G as [Z|Z]; [left; rewrite Z; ring|right].
    replace (val x * val x) with (Rabs (val x) * Rabs (val x)) by (rewrite <- Rabs_mult, Rabs_pos_eq; [ring|exact Q]).
    change (-1000)%Z with (-500 + -500)%Z. rewrite bpow_plus. apply Rmult_le_compat; try apply bpow_ge_0; exact Z. }
  assert (lo * (val x * val x) <= val (x * x)%float <= hi * (val x * val x)) as [R1 R2].
  { rewrite V. apply rel_pos. destruct C as [C|C]; [left; exact C|right]. eapply Rle_trans; [|exact C]. apply bpow_le. lia. }
  split; [split|].
  - eapply Rle_trans; [|exact R1]. apply Rmult_le_compat_r; [exact Q|]. unfold lo, U. lra.
  - eapply Rle_trans; [exact R2|]. apply Rmult_le_compat_r; [exact Q|]. unfold hi, U. lra.
  - destruct C as [C|C]; [left; rewrite C in R1, R2; lra|right]. eapply Rle_trans; [|exact R1].
    apply Rle_trans with (lo * bpow radix2 (-1000)); [|apply Rmult_le_compat_l; lra]. apply Rle_trans with (/ 2 * bpow radix2 (-1000)).
    + change (/ 2) with (bpow radix2 (-1)). rewrite <- bpow_plus. apply bpow_le. lia.
    + apply Rmult_le_compat_r; [apply bpow_ge_0|]. unfold lo, U. lra.
Qed.
Lemma vlen_val v : number3 v -> within3 (bpow radix2 500) v -> sizable3 v ->
  number (vlen v) /\ lo * (lo * (lo * lo)) * norm (val3 v) <= val (vlen v) <= hi * (hi * (hi * hi)) * norm (val3 v).
Proof.
  destruct v as [x y z]. intros (Nx & Ny & Nz) (Bx & By & Bz) (Gx & Gy & Gz). cbn [vx vy vz] in *.
  exact (root3_val _ _ _ _ _ _ (sq_self x Nx Bx Gx) (sq_self y Ny By Gy) (sq_self z Nz Bz Gz)).
Qed.
Lemma comp_le x y z : Rabs x <= R_sqrt.sqrt (x * x + y * y + z * z).
Proof.
  rewrite <- (sqrt_Rsqr_abs x). apply sqrt_le_1_alt. unfold Rsqr. pose proof (Rle_0_sqr y). pose proof (Rle_0_sqr z). unfold Rsqr in *. lra.
Qed.
Lemma quot_close c r L w : 0 < L -> lo * (lo * (lo * lo)) * L <= r <= hi * (hi * (hi * hi)) * L ->
  lo * Rabs (c / r) <= Rabs w <= hi * Rabs (c / r) -> 0 <= w * c -> close (powerRZ 2 (-50)) w (c / L).
Proof.
  intros HL [R1 R2] [W1 W2] S. unfold close. rewrite two_p. change (bpow radix2 (-50)) with (/ 1125899906842624).
  assert (0 < lo * (lo * (lo * lo))) as P4 by (unfold lo, U; lra). assert (0 < r) as R0 by (pose proof (Rmult_lt_0_compat _ _ P4 HL); lra).
  set (a := Rabs (c / L)). assert (0 <= a) as A0 by apply Rabs_pos.
  assert (Rabs (c / r) = a * (L / r)) as Er.
  { unfold a, Rdiv. rewrite !Rabs_mult, !Rabs_inv, (Rabs_pos_eq L), (Rabs_pos_eq r) by lra. field. split; lra. }
  assert (L / r <= / (lo * (lo * (lo * lo)))) as B1.
  { apply (Rmult_le_reg_r r); [exact R0|]. unfold Rdiv. rewrite Rmult_assoc, Rinv_l, Rmult_1_r by lra.
    apply (Rmult_le_reg_l (lo * (lo * (lo * lo)))); [exact P4|]. rewrite <- (Rmult_assoc _ (/ _) r), Rinv_r, Rmult_1_l by lra. exact R1. }
  assert (0 < hi * (hi * (hi * hi))) as P5 by (unfold hi, U; lra).
  assert (/ (hi * (hi * (hi * hi))) <= L / r) as B2.
  { apply (Rmult_le_reg_r r); [exact R0|]. unfold Rdiv. rewrite Rmult_assoc, Rinv_l, Rmult_1_r by lra.
    apply (Rmult_le_reg_l (hi * (hi * (hi * hi)))); [exact P5|]. rewrite <- (Rmult_assoc _ (/ _) r), Rinv_r, Rmult_1_l by lra. exact R2. }
  assert (hi * / (lo * (lo * (lo * lo))) <= 1 + / 1125899906842624) as C1.
  { apply (Rmult_le_reg_r (lo * (lo * (lo * lo)))); [exact P4|]. rewrite Rmult_assoc, Rinv_l, Rmult_1_r by lra. unfold hi, lo, U. lra. }
  assert (1 - / 1125899906842624 <= lo * / (hi * (hi * (hi * hi)))) as C2.
  { apply (Rmult_le_reg_r (hi * (hi * (hi * hi)))); [exact P5|]. rewrite Rmult_assoc, Rinv_l, Rmult_1_r by lra. unfold hi, lo, U. lra. }
  pose proof lo_pos as L0. pose proof hi_pos as H0. rewrite Er in W1, W2.
  assert (Rabs w <= (1 + / 1125899906842624) * a) as T1.
  { eapply Rle_trans; [exact W2|]. replace (hi * (a * (L / r))) with (hi * (L / r) * a) by ring. apply Rmult_le_compat_r; [exact A0|].
    eapply Rle_trans; [|exact C1]. apply Rmult_le_compat_l; lra. }
  assert ((1 - / 1125899906842624) * a <= Rabs w) as T2.
  { eapply Rle_trans; [|exact W1]. replace (lo * (a * (L / r))) with (lo * (L / r) * a) by ring. apply Rmult_le_compat_r; [exact A0|].
    eapply Rle_trans; [exact C2|]. apply Rmult_le_compat_l; lra. }
  assert (0 <= w * (c / L)) as S'.
  { unfold Rdiv. rewrite <- Rmult_assoc. apply Rmult_le_pos; [exact S|]. apply Rlt_le, Rinv_0_lt_compat, HL. }
  assert (Rabs (w - c / L) = Rabs (Rabs w - a)) as ->.
  { unfold a. destruct (Rle_lt_dec 0 (c / L)) as [Q|Q].
    - destruct (Req_dec (c / L) 0) as [Z|Z]; [rewrite Z, Rabs_R0, !Rminus_0_r, Rabs_Rabsolu; reflexivity|].
      assert (0 <= w) by (apply (Rmult_le_reg_r (c / L)); lra). rewrite !Rabs_pos_eq with (x := w), Rabs_pos_eq with (x := c / L) by lra. reflexivity.
    - assert (w <= 0). { apply (Rmult_le_reg_r (- (c / L))); lra. }
      rewrite (Rabs_left1 w), (Rabs_left1 (c / L)) by lra. replace (- w - - (c / L)) with (- (w - c / L)) by ring. rewrite Rabs_Ropp. reflexivity. }
  apply Rabs_le. lra.
Qed.
Lemma quot_val x r L : number x -> number r -> Rabs (val x) <= L -> 0 < L -> Rabs (val x) <= bpow radix2 500 -> L <= bpow radix2 502 -> sizable x ->
  lo * (lo * (lo * lo)) * L <= val r <= hi * (hi * (hi * hi)) * L ->
  number (x / r)%float /\ close (powerRZ 2 (-50)) (val (x / r)%float) (val x / L).
Proof.
  intros Nx Nr Xl HL Bx Bl G [R1 R2].
  assert (/ 2 < lo * (lo * (lo * lo))) as P4 by (unfold lo, U; lra). assert (hi * (hi * (hi * hi)) < 2) as P5 by (unfold hi, U; lra).
  assert (/ 2 * L <= val r) as R3 by (eapply Rle_trans; [|exact R1]; apply Rmult_le_compat_r; lra).
  assert (val r <= 2 * L) as R4 by (eapply Rle_trans; [exact R2|]; apply Rmult_le_compat_r; lra).
  assert (0 < val r) as R0 by lra. assert (0 < / val r) as I0 by (apply Rinv_0_lt_compat, R0).
  assert (Rabs (val x / val r) = Rabs (val x) * / val r) as Eq by (unfold Rdiv; rewrite Rabs_mult, Rabs_inv, (Rabs_pos_eq (val r)) by lra; reflexivity).
  destruct (f_div x r Nx Nr) as [Nq Vq]; [lra| |].
  { rewrite Eq. apply (Rmult_le_reg_r (val r)); [exact R0|]. rewrite Rmult_assoc, Rinv_l, Rmult_1_r by lra. apply Rle_trans with (2 * val r); [lra|].
    apply Rmult_le_compat_r; [lra|]. change 2 with (bpow radix2 1). apply bpow_le. lia. }
  split; [exact Nq|]. apply (quot_close (val x) (val r)); [exact HL|split; assumption| |].
  - rewrite Vq, rnd_abs. apply rel_pos. unfold sizable in G. rewrite two_p in G. destruct G as [Z|Z]; [left; rewrite Z; unfold Rdiv; rewrite Rmult_0_l, Rabs_R0; reflexivity|right].
    rewrite Eq. apply (Rmult_le_reg_r (val r)); [exact R0|]. rewrite Rmult_assoc, Rinv_l, Rmult_1_r by lra. eapply Rle_trans; [|exact Z].
    apply Rle_trans with (bpow radix2 (-1022) * bpow radix2 503); [|rewrite <- bpow_plus; apply bpow_le; lia].
    apply Rmult_le_compat_l; [apply bpow_ge_0|]. change 503%Z with (1 + 502)%Z. rewrite bpow_plus. change (bpow radix2 1) with 2. lra.
  - rewrite Vq. destruct (Rle_lt_dec 0 (val x)) as [P|P].
    + apply Rmult_le_pos; [|exact P]. rewrite <- rnd_0. apply rnd_le. apply Rmult_le_pos; lra.
    + replace (rnd (val x / val r) * val x) with ((- rnd (val x / val r)) * (- val x)) by ring. apply Rmult_le_pos; [|lra].
      rewrite <- rnd_opp, <- rnd_0. apply rnd_le. replace (- (val x / val r)) with (- val x * / val r) by (unfold Rdiv; ring). apply Rmult_le_pos; lra.
Qed.
Lemma close_norm x y z x' y' z' e : 0 <= e -> close e x x' -> close e y y' -> close e z z' ->
  x' * x' + y' * y' + z' * z' = 1 -> e <= 1 -> Rabs (R_sqrt.sqrt (x * x + y * y + z * z) - 1) <= e.
Proof.
  intros He Hx Hy Hz E1 He1. unfold close in *.
  assert (forall a b, Rabs (a - b) <= e * Rabs b -> (1 - e) * (1 - e) * (b * b) <= a * a <= (1 + e) * (1 + e) * (b * b)) as K.
  { intros a b Hab. assert ((1 - e) * Rabs b <= Rabs a <= (1 + e) * Rabs b) as [K1 K2].
    { pose proof (Rabs_triang_inv a b). pose proof (Rabs_triang_inv b a) as T. rewrite (Rabs_minus_sym b a) in T. lra. }
    assert (forall t, t * t = Rabs t * Rabs t) as Q by (intros t; rewrite <- Rabs_mult, Rabs_pos_eq; [ring|apply Rle_0_sqr]).
    rewrite (Q a), (Q b). pose proof (Rabs_pos a). pose proof (Rabs_pos b). split.
    - replace ((1 - e) * (1 - e) * (Rabs b * Rabs b)) with (((1 - e) * Rabs b) * ((1 - e) * Rabs b)) by ring.
      apply Rmult_le_compat; try assumption; apply Rmult_le_pos; lra.
    - replace ((1 + e) * (1 + e) * (Rabs b * Rabs b)) with (((1 + e) * Rabs b) * ((1 + e) * Rabs b)) by ring.
      apply Rmult_le_compat; assumption. }
  apply K in Hx, Hy, Hz. set (S := x * x + y * y + z * z).
  assert ((1 - e) * (1 - e) <= S <= (1 + e) * (1 + e)) as [S1 S2].
  { unfold S. replace ((1 - e) * (1 - e)) with ((1 - e) * (1 - e) * (x' * x' + y' * y' + z' * z')) by (rewrite E1; ring).
    replace ((1 + e) * (1 + e)) with ((1 + e) * (1 + e) * (x' * x' + y' * y' + z' * z')) by (rewrite E1; ring). lra. }
  assert (1 - e <= R_sqrt.sqrt S) by (rewrite <- (sqrt_square (1 - e)) by lra; apply sqrt_le_1_alt, S1).
  assert (R_sqrt.sqrt S <= 1 + e) by (rewrite <- (sqrt_square (1 + e)) by lra; apply sqrt_le_1_alt, S2).
  apply Rabs_le. lra.
Qed.
Lemma dir_lemma v : number3 v -> within3 (powerRZ 2 500) v -> sizable3 v -> norm (val3 v) <> 0 ->
  let d := to_dir v in let L := norm (val3 v) in
  number3 d /\
  close (powerRZ 2 (-50)) (val (vx d)) (val (vx v) / L) /\ close (powerRZ 2 (-50)) (val (vy d)) (val (vy v) / L) /\
  close (powerRZ 2 (-50)) (val (vz d)) (val (vz v) / L) /\
  Rabs (norm (val3 d) - 1) <= powerRZ 2 (-50).
Proof.
  intros Nv Bv Gv NZ d L.
  assert (within3 (bpow radix2 500) v) as Bv' by (rewrite two_p in Bv; exact Bv).
  destruct (vlen_val v Nv Bv' Gv) as [Nr Vr]. fold L in Vr.
  assert (0 < L) as L0. { destruct (sqrt_pos (dot (val3 v) (val3 v))) as [P|P]; [exact P|]. elim NZ. symmetry. exact P. }
  destruct v as [x y z]. destruct Nv as (Nx & Ny & Nz), Bv' as (Bx & By & Bz), Gv as (Gx & Gy & Gz). cbn [vx vy vz] in *.
  assert (L = R_sqrt.sqrt (val x * val x + val y * val y + val z * val z)) as EL by reflexivity.
  assert (L * L = val x * val x + val y * val y + val z * val z) as EQ.
  { rewrite EL. apply sqrt_sqrt. repeat apply Rplus_le_le_0_compat; apply Rle_0_sqr. }
  assert (Rabs (val x) <= L) as Lx by (rewrite EL; apply comp_le).
  assert (Rabs (val y) <= L) as Ly by (rewrite EL; replace (val x * val x + val y * val y + val z * val z) with (val y * val y + val x * val x + val z * val z) by ring; apply comp_le).
  assert (Rabs (val z) <= L) as Lz by (rewrite EL; replace (val x * val x + val y * val y + val z * val z) with (val z * val z + val x * val x + val y * val y) by ring; apply comp_le).
  assert (L <= bpow radix2 502) as Lb.
  { rewrite EL. rewrite <- (sqrt_square (bpow radix2 502)) by apply bpow_ge_0. apply sqrt_le_1_alt.
    assert (forall t, Rabs t <= bpow radix2 500 -> t * t <= bpow radix2 1000) as K.
    { intros t Ht. replace (t * t) with (Rabs t * Rabs t) by (rewrite <- Rabs_mult, Rabs_pos_eq; [ring|apply Rle_0_sqr]).
      change 1000%Z with (500 + 500)%Z. rewrite bpow_plus. apply Rmult_le_compat; try apply Rabs_pos; exact Ht. }
    pose proof (K _ Bx). pose proof (K _ By). pose proof (K _ Bz). rewrite <- bpow_plus. change (502 + 502)%Z with (2 + (2 + 1000))%Z. rewrite !bpow_plus.
    change (bpow radix2 2) with 4. pose proof (bpow_ge_0 radix2 1000). lra. }
  destruct (quot_val x _ L Nx Nr Lx L0 Bx Lb Gx Vr) as [Qx Cx].
  destruct (quot_val y _ L Ny Nr Ly L0 By Lb Gy Vr) as [Qy Cy].
  destruct (quot_val z _ L Nz Nr Lz L0 Bz Lb Gz Vr) as [Qz Cz].
  change d with (mkV3 (x / vlen (mkV3 x y z))%float (y / vlen (mkV3 x y z))%float (z / vlen (mkV3 x y z))%float). cbn [vx vy vz].
  split; [repeat split; assumption|]. split; [exact Cx|]. split; [exact Cy|]. split; [exact Cz|].
  apply (close_norm _ _ _ (val x / L) (val y / L) (val z / L)); try assumption.
  - rewrite two_p. apply bpow_ge_0.
  - replace (val x / L * (val x / L) + val y / L * (val y / L) + val z / L * (val z / L)) with ((val x * val x + val y * val y + val z * val z) / (L * L)) by (field; lra).
    rewrite EQ. field. rewrite <- EQ. apply Rgt_not_eq. apply Rmult_lt_0_compat; exact L0.
  - rewrite two_p. change 1 with (bpow radix2 0). apply bpow_le. lia.
Qed.
