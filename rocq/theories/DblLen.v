(** Lengths in double precision. *)

From Coq Require Import ZArith Reals Floats Lra Lia Psatz Bool.
From Flocq Require Import Core.Core IEEE754.BinarySingleNaN IEEE754.PrimFloat Relative Plus_error.
From Verif Require Import Base NumModel VecModel LinModel GeoSpec LinSpec DblSpec DblLemmas DblProofs.
Local Open Scope R_scope.

Definition U : R := / 9007199254740992.
Definition lo : R := 1 - U.
Definition hi : R := 1 + U.
Lemma u_is : powerRZ 2 (-53) = U.
Proof. rewrite two_p. reflexivity. Qed.
Lemma lo_pos : 0 < lo < 1.
Proof. unfold lo, U. lra. Qed.
Lemma hi_pos : 1 < hi.
Proof. unfold hi, U. lra. Qed.

Lemma rel_pos z : z = 0 \/ bpow radix2 (-1022) <= z -> lo * z <= rnd z <= hi * z.
Proof.
  intros [-> | Hz]; [rewrite rnd_0; lra|]. pose proof (bpow_gt_0 radix2 (-1022)) as B0.
  assert (Rabs (rnd z - z) <= / 2 * bpow radix2 (-53 + 1) * z) as E.
  { rewrite <- (Rabs_pos_eq z) at 3 by lra.
    apply (relative_error_N_FLT radix2 (-1074) 53 ltac:(reflexivity)). rewrite Rabs_pos_eq; [exact Hz|lra]. }
  change (bpow radix2 (-53 + 1)) with (/ 4503599627370496) in E. replace (/ 2 * / 4503599627370496) with U in E by (unfold U; lra).
  apply Rabs_le_inv in E. unfold lo, hi. lra.
Qed.
Lemma rel_sum x y : generic_format radix2 fex x -> generic_format radix2 fex y -> 0 <= x -> 0 <= y ->
  lo * (x + y) <= rnd (x + y) <= hi * (x + y).
Proof.
  intros Fx Fy Hx Hy. pose proof (add_error x y Fx Fy) as E. rewrite u_is, (Rabs_pos_eq (x + y)) in E by lra.
  apply Rabs_le_inv in E. unfold lo, hi. lra.
Qed.
Lemma rel_dif x y : generic_format radix2 fex x -> generic_format radix2 fex y ->
  lo * Rabs (x - y) <= Rabs (rnd (x - y)) <= hi * Rabs (x - y).
Proof.
  intros Fx Fy. pose proof (add_error x (- y) Fx (generic_format_opp _ _ _ Fy)) as E. fold (x - y) in E. rewrite u_is in E.
  pose proof (Rabs_triang_inv (rnd (x - y)) (x - y)). pose proof (Rabs_triang_inv (x - y) (rnd (x - y))) as T.
  rewrite (Rabs_minus_sym (x - y) (rnd (x - y))) in T. unfold lo, hi. lra.
Qed.

(** The square of a difference. *)
Lemma sq_bounds a b c d e : 0 <= a -> 0 <= e -> a * e <= c <= b * e -> lo * (c * c) <= d <= hi * (c * c) -> lo * (a * a) * (e * e) <= d <= hi * (b * b) * (e * e).
Proof.
  intros Ha He [L H] [L' H']. pose proof lo_pos. pose proof hi_pos. assert (0 <= a * e) by (apply Rmult_le_pos; assumption). split.
  - eapply Rle_trans; [|exact L']. replace (lo * (a * a) * (e * e)) with (lo * ((a * e) * (a * e))) by ring.
    apply Rmult_le_compat_l; [lra|]. apply Rmult_le_compat; lra.
  - eapply Rle_trans; [exact H'|]. replace (hi * (b * b) * (e * e)) with (hi * ((b * e) * (b * e))) by ring.
    apply Rmult_le_compat_l; [lra|]. apply Rmult_le_compat; lra.
Qed.
Lemma sq_dif x y : number x -> number y -> Rabs (val x) <= bpow radix2 500 -> Rabs (val y) <= bpow radix2 500 -> gap x y ->
  let q := ((y - x) * (y - x))%float in let D := val y - val x in
  number q /\ 0 <= val q <= bpow radix2 1002 /\ lo * (lo * lo) * (D * D) <= val q <= hi * (hi * hi) * (D * D) /\ (val q = 0 \/ bpow radix2 (-1010) <= val q).
Proof.
  intros Hx Hy Bx By G q D. destruct (side_val x y Hx Hy Bx By) as (Nd & Bd & _).
  destruct (sq_val _ Nd Bd) as (Nq & Bq & _). fold q in Nq, Bq. split; [exact Nq|]. split; [exact Bq|].
  assert (val (y - x)%float = rnd D) as Vd.
  { destruct (f_sub y x Hy Hx) as [_ V]; [|exact V]. apply dif_1023; [eapply Rle_trans; [exact By|apply bpow_le; lia]|eapply Rle_trans; [exact Bx|apply bpow_le; lia]]. }
  pose proof (rel_dif (val y) (val x) (val_format _) (val_format _)) as Rd. fold D in Rd. rewrite <- Vd in Rd.
  set (w := val (y - x)%float) in *.
  assert (val q = rnd (w * w)) as Vq.
  { destruct (f_mul (y - x)%float (y - x)%float Nd Nd) as [_ V]; [|exact V]. fold w. rewrite Rabs_mult. apply Rle_trans with (bpow radix2 (501 + 501)); [|apply bpow_le; lia].
    rewrite bpow_plus. apply Rmult_le_compat; try apply Rabs_pos; exact Bd. }
  pose proof lo_pos as L0. pose proof hi_pos as H0.
  replace (D * D) with (Rabs D * Rabs D) by (rewrite <- Rabs_mult, Rabs_pos_eq; [ring|apply Rle_0_sqr]).
  assert (w * w = Rabs w * Rabs w) as Ew by (rewrite <- Rabs_mult, Rabs_pos_eq; [ring|apply Rle_0_sqr]).
  assert (w * w = 0 \/ bpow radix2 (-1009) <= w * w) as Cw.
  { unfold gap in G. fold D in G. rewrite two_p in G. destruct G as [Z|L].
    - left. rewrite Z, Rabs_R0 in Rd. rewrite Ew. assert (Rabs w = 0) as -> by lra. ring.
    - right. rewrite Ew. apply Rle_trans with (bpow radix2 (-501 + -501)); [apply bpow_le; lia|]. rewrite bpow_plus.
      assert (bpow radix2 (-501) <= Rabs w).
      { eapply Rle_trans; [|apply Rd]. apply Rle_trans with (lo * bpow radix2 (-500)); [|apply Rmult_le_compat_l; lra].
        change (-501)%Z with (-1 + -500)%Z. rewrite bpow_plus. apply Rmult_le_compat_r; [apply bpow_ge_0|]. change (bpow radix2 (-1)) with (/ 2). unfold lo, U. lra. }
      pose proof (bpow_ge_0 radix2 (-501)). apply Rmult_le_compat; assumption. }
  assert (lo * (w * w) <= val q <= hi * (w * w)) as Rq.
  { rewrite Vq. apply rel_pos. destruct Cw as [Z|L]; [left; exact Z|right]. eapply Rle_trans; [|exact L]. apply bpow_le. lia. }
  split.
  - rewrite Ew in Rq. exact (sq_bounds lo hi (Rabs w) (val q) (Rabs D) ltac:(lra) (Rabs_pos _) Rd Rq).
  - destruct Cw as [Z|L]; [left; rewrite Z in Rq; lra|right]. apply Rle_trans with (lo * (w * w)); [|apply Rq].
    apply Rle_trans with (lo * bpow radix2 (-1009)); [|apply Rmult_le_compat_l; lra].
    change (-1010)%Z with (-1 + -1009)%Z. rewrite bpow_plus. apply Rmult_le_compat_r; [apply bpow_ge_0|]. change (bpow radix2 (-1)) with (/ 2). unfold lo, U. lra.
Qed.

(** The square root of the sum of three squares. *)
Definition root3 (a b c : PrimFloat.float) : PrimFloat.float := PrimFloat.sqrt (nlit 0 1 + a + b + c)%float.
Definition square_ok (q : PrimFloat.float) (D : R) : Prop :=
  number q /\ 0 <= val q <= bpow radix2 1002 /\ lo * (lo * lo) * (D * D) <= val q <= hi * (hi * hi) * (D * D) /\ (val q = 0 \/ bpow radix2 (-1010) <= val q).
Lemma lo3 : 0 < lo * (lo * lo).
Proof. pose proof lo_pos. apply Rmult_lt_0_compat; [lra|]. apply Rmult_lt_0_compat; lra. Qed.
Definition sum3 (a b c : PrimFloat.float) : PrimFloat.float := (nlit 0 1 + a + b + c)%float.
Lemma sum3_val a b c X Y Z : square_ok a X -> square_ok b Y -> square_ok c Z ->
  let T := X * X + Y * Y + Z * Z in
  number (sum3 a b c) /\ 0 <= val (sum3 a b c) /\
  (lo * (lo * lo)) * (lo * (lo * lo)) * T <= val (sum3 a b c) <= (hi * (hi * hi)) * (hi * (hi * hi)) * T /\
  (val (sum3 a b c) = 0 \/ bpow radix2 (-1010) <= val (sum3 a b c)).
Proof.
  intros (Na & Ba & [La Ha] & Za) (Nb & Bb & [Lb Hb] & Zb) (Nc & Bc & [Lc Hc] & Zc) T.
  destruct n0_val as [N0 V0]. unfold sum3. set (s0 := (nlit 0 1 : PrimFloat.float)) in *.
  destruct (add_val 1002 s0 a ltac:(lia) N0 Na) as (N1 & B1 & G1); [rewrite V0; pose proof (bpow_ge_0 radix2 1002); lra|exact Ba|].
  assert (val (s0 + a)%float = val a) as V1.
  { destruct (f_add s0 a N0 Na) as [_ V]; [rewrite V0, Rplus_0_l, Rabs_pos_eq by lra; eapply Rle_trans; [apply Ba|apply bpow_le; lia]|].
    rewrite V, V0, Rplus_0_l. apply rnd_val. }
  set (s1 := (s0 + a)%float) in *.
  assert (bpow radix2 1002 <= bpow radix2 1003) by (apply bpow_le; lia). assert (bpow radix2 1003 <= bpow radix2 1004) by (apply bpow_le; lia).
  change (1 + 1002)%Z with 1003%Z in *.
  destruct (add_val 1003 s1 b ltac:(lia) N1 Nb) as (N2 & B2 & G2); [lra|lra|].
  assert (lo * (val s1 + val b) <= val (s1 + b)%float <= hi * (val s1 + val b)) as R2.
  { destruct (f_add s1 b N1 Nb) as [_ V]; [|rewrite V; apply rel_sum; try apply val_format; lra].
    rewrite Rabs_pos_eq by lra. apply Rle_trans with (bpow radix2 (1 + 1003)); [rewrite <- bpow_double; lra|apply bpow_le; lia]. }
  rewrite V1 in R2. set (s2 := (s1 + b)%float) in *. change (1 + 1003)%Z with 1004%Z in *.
  destruct (add_val 1004 s2 c ltac:(lia) N2 Nc) as (N3 & B3 & G3); [lra|lra|].
  assert (lo * (val s2 + val c) <= val (s2 + c)%float <= hi * (val s2 + val c)) as R3.
  { destruct (f_add s2 c N2 Nc) as [_ V]; [|rewrite V; apply rel_sum; try apply val_format; lra].
    rewrite Rabs_pos_eq by lra. apply Rle_trans with (bpow radix2 (1 + 1004)); [rewrite <- bpow_double; lra|apply bpow_le; lia]. }
  set (s3 := (s2 + c)%float) in *.
  assert (0 <= val s3) as P3 by lra. split; [exact N3|]. split; [exact P3|].
  pose proof lo_pos as L0. pose proof hi_pos as HI0. pose proof lo3 as L3.
  assert (0 <= X * X /\ 0 <= Y * Y /\ 0 <= Z * Z) as (QX & QY & QZ) by (repeat split; apply Rle_0_sqr).
  assert (lo * (lo * lo) <= 1) as L31 by (unfold lo, U; lra). assert (1 <= hi * (hi * hi)) as H31 by (unfold hi, U; lra).
  assert (lo * lo * (val a + val b + val c) <= val s3) as S1.
  { apply Rle_trans with (lo * (lo * (val a + val b) + val c)); [|apply Rle_trans with (lo * (val s2 + val c)); [apply Rmult_le_compat_l; lra|lra]].
    assert (lo * lo * val c <= lo * val c) by (apply Rmult_le_compat_r; [lra|]; unfold lo, U; lra). lra. }
  assert (val s3 <= hi * hi * (val a + val b + val c)) as S2.
  { apply Rle_trans with (hi * (hi * (val a + val b) + val c)); [apply Rle_trans with (hi * (val s2 + val c)); [lra|apply Rmult_le_compat_l; lra]|].
    assert (hi * val c <= hi * hi * val c) by (apply Rmult_le_compat_r; [lra|]; unfold hi, U; lra). lra. }
  assert ((lo * (lo * lo)) * (lo * (lo * lo)) * T <= val s3) as S3.
  { eapply Rle_trans; [|exact S1]. apply Rle_trans with (lo * lo * (lo * (lo * lo) * T)).
    - replace (lo * lo * (lo * (lo * lo) * T)) with (lo * lo * (lo * (lo * lo)) * T) by ring. apply Rmult_le_compat_r; [unfold T; lra|].
      apply Rmult_le_compat_r; [lra|]. unfold lo, U. lra.
    - apply Rmult_le_compat_l; [apply Rmult_le_pos; lra|]. unfold T. lra. }
  assert (val s3 <= (hi * (hi * hi)) * (hi * (hi * hi)) * T) as S4.
  { eapply Rle_trans; [exact S2|]. apply Rle_trans with (hi * hi * (hi * (hi * hi) * T)).
    - apply Rmult_le_compat_l; [apply Rmult_le_pos; lra|]. unfold T. lra.
    - replace (hi * hi * (hi * (hi * hi) * T)) with (hi * hi * (hi * (hi * hi)) * T) by ring. apply Rmult_le_compat_r; [unfold T; lra|].
      apply Rmult_le_compat_r; [lra|]. unfold hi, U. lra. }
  split; [split; assumption|]. destruct (Req_dec (val s3) 0) as [Z3|Z3]; [left; exact Z3|right].
  destruct Za as [Za|Za]; [|lra]. destruct Zb as [Zb|Zb]; [|lra]. destruct Zc as [Zc|Zc]; [|lra].
  rewrite Za, Zb, Zc in S2. lra.
Qed.
Lemma root3_val a b c X Y Z : square_ok a X -> square_ok b Y -> square_ok c Z ->
  let L := R_sqrt.sqrt (X * X + Y * Y + Z * Z) in
  number (root3 a b c) /\ lo * (lo * (lo * lo)) * L <= val (root3 a b c) <= hi * (hi * (hi * hi)) * L.
Proof.
  intros Sa Sb Sc L. destruct (sum3_val a b c X Y Z Sa Sb Sc) as (N3 & P3 & [S3 S4] & Z3). unfold root3. fold (sum3 a b c). set (s3 := sum3 a b c) in *.
  set (T := X * X + Y * Y + Z * Z) in *. destruct (f_sqrt s3 N3 P3) as [Nr Vr]. split; [exact Nr|]. rewrite Vr.
  pose proof lo_pos as L0. pose proof hi_pos as HI0. pose proof lo3 as L3.
  assert (0 <= X * X /\ 0 <= Y * Y /\ 0 <= Z * Z) as (QX & QY & QZ) by (repeat split; apply Rle_0_sqr).
  assert (1 <= hi * (hi * hi)) as H31 by (unfold hi, U; lra).
  assert (0 <= T) as QT by (unfold T; lra). assert (0 <= L) as QL by apply sqrt_pos.
  assert (lo * (lo * lo) * L <= R_sqrt.sqrt (val s3) <= hi * (hi * hi) * L) as Q.
  { assert (L * L = T) as EL by (apply sqrt_sqrt, QT). split.
    - rewrite <- (sqrt_square (lo * (lo * lo) * L)) by (apply Rmult_le_pos; lra). apply sqrt_le_1_alt.
      replace (lo * (lo * lo) * L * (lo * (lo * lo) * L)) with (lo * (lo * lo) * (lo * (lo * lo)) * (L * L)) by ring. rewrite EL. exact S3.
    - rewrite <- (sqrt_square (hi * (hi * hi) * L)) by (apply Rmult_le_pos; lra). apply sqrt_le_1_alt.
      replace (hi * (hi * hi) * L * (hi * (hi * hi) * L)) with (hi * (hi * hi) * (hi * (hi * hi)) * (L * L)) by ring. rewrite EL. exact S4. }
  assert (lo * R_sqrt.sqrt (val s3) <= rnd (R_sqrt.sqrt (val s3)) <= hi * R_sqrt.sqrt (val s3)) as RR.
  { apply rel_pos. destruct Z3 as [Z3|M3]; [left; rewrite Z3; apply sqrt_0|right].
    rewrite <- (sqrt_square (bpow radix2 (-1022))) by apply bpow_ge_0. apply sqrt_le_1_alt. eapply Rle_trans; [|exact M3].
    rewrite <- bpow_plus. apply bpow_le. lia. }
  split.
  - apply Rle_trans with (lo * (lo * (lo * lo) * L)); [lra|]. eapply Rle_trans; [|apply RR]. apply Rmult_le_compat_l; lra.
  - apply Rle_trans with (hi * (hi * (hi * hi) * L)); [|lra]. eapply Rle_trans; [apply RR|]. apply Rmult_le_compat_l; lra.
Qed.

Lemma close_pow r L : 0 <= L -> lo * (lo * (lo * lo)) * L <= r <= hi * (hi * (hi * hi)) * L -> close (powerRZ 2 (-50)) r L.
Proof.
  intros HL [H1 H2]. unfold close. rewrite two_p. change (bpow radix2 (-50)) with (/ 1125899906842624). rewrite (Rabs_pos_eq L HL).
  assert (1 - / 1125899906842624 <= lo * (lo * (lo * lo))) as A1 by (unfold lo, U; lra).
  assert (hi * (hi * (hi * hi)) <= 1 + / 1125899906842624) as A2 by (unfold hi, U; lra).
  apply (Rmult_le_compat_r L _ _ HL) in A1. apply (Rmult_le_compat_r L _ _ HL) in A2. apply Rabs_le. lra.
Qed.
Lemma dist_lemma p q : number3 p -> number3 q -> within3 (powerRZ 2 500) p -> within3 (powerRZ 2 500) q -> gap3 p q ->
  number (vlen (vec_to p q)) /\ close (powerRZ 2 (-50)) (val (vlen (vec_to p q))) (dist (val3 p) (val3 q)).
Proof.
  destruct p as [x y z], q as [x' y' z']. intros (Nx & Ny & Nz) (Nx' & Ny' & Nz') (Bx & By & Bz) (Bx' & By' & Bz') (Gx & Gy & Gz).
  cbn [vx vy vz] in *. rewrite two_p in Bx, By, Bz, Bx', By', Bz'.
  pose proof (sq_dif x x' Nx Nx' Bx Bx' Gx) as Sx. pose proof (sq_dif y y' Ny Ny' By By' Gy) as Sy. pose proof (sq_dif z z' Nz Nz' Bz Bz' Gz) as Sz.
  destruct (root3_val _ _ _ _ _ _ Sx Sy Sz) as [N V].
  unfold vlen, sqlen, vec_to. cbn [vx vy vz nadd nmul nsub nsqrt F_num]. unfold root3 in N, V. split; [exact N|].
  replace (dist (val3 (mkV3 x y z)) (val3 (mkV3 x' y' z'))) with
    (R_sqrt.sqrt ((val x' - val x) * (val x' - val x) + (val y' - val y) * (val y' - val y) + (val z' - val z) * (val z' - val z))).
  - apply close_pow; [apply sqrt_pos|exact V].
  - unfold dist, norm, dot, psub, val3. cbn [vx vy vz]. f_equal. ring.
Qed.

(** Symmetry, for all doubles. *)
Notation bfloat := (binary_float prec emax).
Notation bmul := (@Bmult prec emax Hprec Hmax mode_NE).
Notation bsub := (@Bminus prec emax Hprec Hmax mode_NE).
Lemma square_opp (W W' : bfloat) : is_finite W = true -> is_finite W' = true -> B2R W' = - B2R W -> bmul W W = bmul W' W'.
Proof.
  intros HW HW' E. pose proof (Bmult_correct prec emax Hprec Hmax mode_NE W W) as C. pose proof (Bmult_correct prec emax Hprec Hmax mode_NE W' W') as C'.
  rewrite E in C'. replace (- B2R W * - B2R W) with (B2R W * B2R W) in C' by ring.
  destruct (Rlt_bool _ _) eqn:Eo.
  - destruct C as (V & F & S), C' as (V' & F' & S'). rewrite HW in F. rewrite HW' in F'. cbn in F, F'.
    apply B2R_Bsign_inj; [exact F|exact F'|congruence|].
    rewrite S, S'; [rewrite !xorb_nilpotent; reflexivity|..].
    + destruct (bmul W' W'); try reflexivity; discriminate.
    + destruct (bmul W W); try reflexivity; discriminate.
  - apply B2SF_inj. rewrite C, C', !xorb_nilpotent. reflexivity.
Qed.
Lemma square_sym (a b : PrimFloat.float) : ((a - b) * (a - b) = (b - a) * (b - a))%float.
Proof.
  apply Prim2B_inj. rewrite !mul_equiv, !sub_equiv. set (X := Prim2B a). set (Y := Prim2B b).
  destruct (is_finite X) eqn:FX.
  2:{ destruct X as [s|s| |s m e HB], Y as [s'|s'| |s' m' e' HB']; try discriminate; try reflexivity; destruct s; try destruct s'; reflexivity. }
  destruct (is_finite Y) eqn:FY.
  2:{ destruct X as [s|s| |s m e HB], Y as [s'|s'| |s' m' e' HB']; try discriminate; try reflexivity; destruct s; try destruct s'; reflexivity. }
  pose proof (Bminus_correct prec emax Hprec Hmax mode_NE X Y FX FY) as C. pose proof (Bminus_correct prec emax Hprec Hmax mode_NE Y X FY FX) as C'.
  replace (B2R Y - B2R X) with (- (B2R X - B2R Y)) in C' by ring.
  assert (round radix2 (SpecFloat.fexp prec emax) (round_mode mode_NE) (- (B2R X - B2R Y)) = - round radix2 (SpecFloat.fexp prec emax) (round_mode mode_NE) (B2R X - B2R Y)) as Eo
    by apply round_NE_opp. rewrite Eo, Rabs_Ropp in C'.
  destruct (Rlt_bool _ _).
  - destruct C as (V & F & _), C' as (V' & F' & _). apply square_opp; [exact F|exact F'|]. rewrite V, V'. reflexivity.
  - destruct C as [C S], C' as [C' S'].
    assert (forall s, binary_overflow prec emax mode_NE s = SpecFloat.S754_infinity s) as Ov by reflexivity. rewrite Ov in C, C'.
    destruct (bsub X Y) as [| |  |]; try discriminate. destruct (bsub Y X) as [| | |]; try discriminate. cbn in C, C'.
    assert (forall t, bmul (B754_infinity t) (B754_infinity t) = B754_infinity false) as I by (intros []; reflexivity). rewrite !I. reflexivity.
Qed.
Lemma sqlen_sym (p q : V3 PrimFloat.float) : sqlen (vec_to p q) = sqlen (vec_to q p).
Proof.
  unfold sqlen, vec_to. cbn [vx vy vz nadd nmul nsub F_num].
  rewrite (square_sym (vx q) (vx p)), (square_sym (vy q) (vy p)), (square_sym (vz q) (vz p)). reflexivity.
Qed.
