(** Frames of circles in double precision. *)

From Coq Require Import ZArith Reals List Lra Lia Psatz Bool.
From Flocq Require Import Core.Core IEEE754.BinarySingleNaN IEEE754.PrimFloat.
From Coq Require Import Floats.
From Verif Require Import Base NumModel VecModel LinModel RoundModel SampModel
  GeoSpec DblSpec GeoLemmas DblLemmas DblProofs DblLen DblEq LinDblSpec LinDblBase LinDblFoot LinDblProofs RndDblSpec TrigDblSpec PtDblSpec PtDblProofs.
Local Open Scope R_scope.

(** ** Multiples of powers of two *)
Definition grid (k : Z) (x : R) : Prop := exists m : Z, x = IZR m * bpow radix2 k.
Lemma grid_of k x : generic_format radix2 fex x -> bpow radix2 (k + 52) <= Rabs x -> grid k x.
Proof.
  intros F H. red in F. exists (Ztrunc (scaled_mantissa radix2 fex x) * Zpower radix2 (cexp radix2 fex x - k))%Z.
  assert (k <= cexp radix2 fex x)%Z as L.
  { unfold cexp, fex, FLT_exp. pose proof (mag_ge_bpow radix2 x (k + 53)). replace (k + 53 - 1)%Z with (k + 52)%Z in H0 by lia. specialize (H0 H). lia. }
  rewrite mult_IZR, IZR_Zpower by lia. rewrite Rmult_assoc, <- bpow_plus. replace (cexp radix2 fex x - k + k)%Z with (cexp radix2 fex x) by lia. exact F.
Qed.
Lemma grid_0 k : grid k 0.
Proof. exists 0%Z. ring. Qed.
Lemma grid_sub k x y : grid k x -> grid k y -> grid k (x - y).
Proof. intros [m ->] [n ->]. exists (m - n)%Z. rewrite minus_IZR. ring. Qed.
Lemma grid_large k x : grid k x -> x = 0 \/ bpow radix2 k <= Rabs x.
Proof.
  intros [m ->]. destruct (Z.eq_dec m 0) as [->|N]; [left; ring|right]. rewrite Rabs_mult, (Rabs_pos_eq (bpow radix2 k)) by apply bpow_ge_0.
  rewrite <- abs_IZR. rewrite <- (Rmult_1_l (bpow radix2 k)) at 1. apply Rmult_le_compat_r; [apply bpow_ge_0|]. apply IZR_le. lia.
Qed.
Lemma rnd_large k x : (-1074 <= k)%Z -> x = 0 \/ bpow radix2 k <= Rabs x -> rnd x = 0 \/ bpow radix2 k <= Rabs (rnd x).
Proof.
  intros Hk [-> |H]; [left; apply rnd_0|right]. rewrite rnd_abs. 
  replace (bpow radix2 k) with (rnd (bpow radix2 k)); [apply rnd_le, H|]. apply round_generic; [typeclasses eauto|]. apply generic_format_FLT_bpow; [reflexivity|exact Hk].
Qed.
Definition away (k : Z) (x : R) : Prop := x = 0 \/ bpow radix2 k <= Rabs x.
Lemma away_mul j k x y : away j x -> away k y -> away (j + k) (x * y).
Proof.
  intros [-> |A] [-> |B]; [left; ring..|right]. rewrite Rabs_mult, bpow_plus. apply Rmult_le_compat; try apply bpow_ge_0; assumption.
Qed.
Lemma away_le j k x : (j <= k)%Z -> away k x -> away j x.
Proof. intros L [-> |A]; [left; reflexivity|right]. eapply Rle_trans; [apply bpow_le, L|exact A]. Qed.

(** ** Components of cross products *)
Lemma det_comp j k (a b c d : PrimFloat.float) : number a -> number b -> number c -> number d -> (-500 <= j + k)%Z ->
  Rabs (val a) <= 1001 / 1000 -> Rabs (val b) <= 1001 / 1000 -> Rabs (val c) <= 1001 / 1000 -> Rabs (val d) <= 1001 / 1000 ->
  away j (val a) -> away k (val b) -> away j (val c) -> away k (val d) ->
  number (a * b - c * d)%float /\ Rabs (val (a * b - c * d)%float - (val a * val b - val c * val d)) <= 42 / 10 * U /\
  away (j + k - 52) (val (a * b - c * d)%float).
Proof.
  intros Na Nb Nc Nd Hjk Ba Bb Bc Bd Aa Ab Ac Ad. pose proof U_pos.
  assert (forall x y, Rabs x <= 1001 / 1000 -> Rabs y <= 1001 / 1000 -> Rabs (x * y) <= 101 / 100) as K.
  { intros x y Hx Hy. eapply Rle_trans; [apply (prod_le _ _ _ _ Hx Hy)|lra]. }
  destruct (bounds_1000 (101 / 100) ltac:(lra)) as [Z1 Z2]. assert (101 / 100 <= bpow radix2 1023) as Z3 by (eapply Rle_trans; [exact Z2|]; apply bpow_le; lia).
  pose proof (K _ _ Ba Bb) as K1. pose proof (K _ _ Bc Bd) as K2.
  destruct (f_mul a b Na Nb ltac:(lra)) as [Np Vp]. destruct (f_mul c d Nc Nd ltac:(lra)) as [Nq Vq].
  pose proof (rnd_err _ _ Z1 K1) as Ep. pose proof (rnd_err _ _ Z1 K2) as Eq. rewrite <- Vp in Ep. rewrite <- Vq in Eq.
  assert (away (j + k) (val (a * b)%float)) as Wp. { rewrite Vp. apply rnd_large; [lia|]. apply away_mul; assumption. }
  assert (away (j + k) (val (c * d)%float)) as Wq. { rewrite Vq. apply rnd_large; [lia|]. apply away_mul; assumption. }
  assert (forall x, away (j + k) (val x) -> grid (j + k - 52) (val x)) as G.
  { intros x [-> |A]; [apply grid_0|]. apply grid_of; [apply val_format|]. replace (j + k - 52 + 52)%Z with (j + k)%Z by lia. exact A. }
  set (p := (a * b)%float) in *. set (q := (c * d)%float) in *.
  apply Rabs_def2_le in Ep. apply Rabs_def2_le in Eq. apply Rabs_def2_le in K1. apply Rabs_def2_le in K2.
  destruct (bounds_1000 (203 / 100) ltac:(lra)) as [Y1 Y2]. assert (203 / 100 <= bpow radix2 1023) as Y3 by (eapply Rle_trans; [exact Y2|]; apply bpow_le; lia).
  assert (Rabs (val p - val q) <= 203 / 100) as BS by (apply Rabs_le; lra).
  destruct (f_sub p q Np Nq ltac:(lra)) as [Ns Vs]. pose proof (rnd_err _ _ Y1 BS) as Es. rewrite <- Vs in Es. apply Rabs_def2_le in Es.
  split; [exact Ns|]. split; [apply Rabs_le; lra|]. rewrite Vs. apply rnd_large; [lia|]. apply grid_large, grid_sub; apply G; assumption.
Qed.
Definition away3 (k : Z) (v : V3 PrimFloat.float) : Prop := away k (val (vx v)) /\ away k (val (vy v)) /\ away k (val (vz v)).
Lemma cross_comp j k (u v : V3 PrimFloat.float) : direction u -> direction v -> away3 j u -> away3 k v -> (-430 <= j + k)%Z ->
  number3 (cross u v) /\ norm (psub (val3 (cross u v)) (cross (val3 u) (val3 v))) <= 73 / 10 * U /\ away3 (j + k - 52) (cross u v).
Proof.
  intros Du Dv (A1 & A2 & A3) (B1 & B2 & B3) Hjk. destruct (comp_dir u Du) as (U1 & U2 & U3). destruct (comp_dir v Dv) as (V1 & V2 & V3').
  destruct Du as [(N1 & N2 & N3) _], Dv as [(M1 & M2 & M3) _]. destruct u as [ux uy uz], v as [wx wy wz]. cbn [vx vy vz] in *.
  destruct (det_comp j k uy wz uz wy) as (X1 & X2 & X3); try assumption; [lia|].
  destruct (det_comp j k uz wx ux wz) as (Y1 & Y2 & Y3); try assumption; [lia|].
  destruct (det_comp j k ux wy uy wx) as (Z1 & Z2 & Z3); try assumption; [lia|].
  unfold cross, number3, away3, psub, val3. cbn [vx vy vz nsub nmul F_num R_num].
  split; [exact (conj X1 (conj Y1 Z1))|]. split; [|exact (conj X3 (conj Y3 Z3))].
  eapply Rle_trans; [apply (norm_le _ (42 / 10 * U)); cbn [vx vy vz]; assumption|]. pose proof U_pos. lra.
Qed.

(** ** Directions of cross products *)
Ltac pts := unfold psub, padd, pscale, dot; cbn [vx vy vz].
Lemma small_dot (a b c : pt) E N : norm (psub a b) <= E -> dot b c = 0 -> norm c <= N -> Rabs (dot a c) <= E * N.
Proof.
  intros H Z HN. replace (dot a c) with (dot (psub a b) c).
  - eapply Rle_trans; [apply cauchy_norm|]. apply Rmult_le_compat; try apply norm_nonneg; assumption.
  - rewrite <- (Rminus_0_r (dot a c)), <- Z. destruct a as [ax ay az], b as [bx by_ bz], c as [cx cy cz]. pts. ring.
Qed.
Lemma norm_cross (a b : pt) : norm (cross a b) <= norm a * norm b.
Proof.
  unfold norm. rewrite <- sqrt_mult by apply dot_nonneg. apply sqrt_le_1_alt. rewrite lagrange. pose proof (Rle_0_sqr (dot a b)) as P. unfold Rsqr in P. lra.
Qed.
Lemma near_one (u v : V3 PrimFloat.float) : direction u -> direction v -> Rabs (dot (val3 u) (val3 v)) <= 8192 * U -> Rabs (norm (cross (val3 u) (val3 v)) - 1) <= 17 * U.
Proof.
  intros Du Dv Hd. destruct (dir_norm u Du) as (Pu & Lu & Eu). destruct (dir_norm v Dv) as (Pv & Lv & Ev). apply Rabs_def2_le in Eu. apply Rabs_def2_le in Ev.
  set (a := val3 u) in *. set (b := val3 v) in *. pose proof (norm_cross a b) as NC. pose proof U_pos as [U0 U1].
  assert (norm a * norm b <= (1 + 8 * U) * (1 + 8 * U)) as B1 by (apply Rmult_le_compat; lra).
  assert (U * U <= / 1000000 * U) as UU by (apply Rmult_le_compat_r; lra).
  assert ((1 - 8 * U) * (1 - 8 * U) <= norm a * norm b) as B2 by (apply Rmult_le_compat; lra).
  assert (dot a b * dot a b <= 8192 * U * (8192 * U)) as B3.
  { rewrite <- (Rabs_pos_eq (dot a b * dot a b)) by apply Rle_0_sqr. rewrite Rabs_mult. apply Rmult_le_compat; try apply Rabs_pos; assumption. }
  assert (8192 * U * (8192 * U) <= / 10 * U) as B4. { assert (U * U <= / 1000000000 * U) by (apply Rmult_le_compat_r; [lra|unfold U; lra]). lra. }
  assert ((1 - 17 * U) * (1 - 17 * U) <= dot (cross a b) (cross a b)) as B5.
  { rewrite lagrange, <- !norm_sq. replace (norm a * norm a * (norm b * norm b)) with ((norm a * norm b) * (norm a * norm b)) by ring.
    assert ((1 - 8 * U) * (1 - 8 * U) * ((1 - 8 * U) * (1 - 8 * U)) <= norm a * norm b * (norm a * norm b)) as B6 by (apply Rmult_le_compat; try lra; apply Rle_0_sqr).
    assert (1 - 32 * U <= (1 - 8 * U) * (1 - 8 * U) * ((1 - 8 * U) * (1 - 8 * U))) as B7.
    { assert (1 - 16 * U <= (1 - 8 * U) * (1 - 8 * U)) by nra. apply Rle_trans with ((1 - 16 * U) * (1 - 16 * U)); [nra|]. apply Rmult_le_compat; lra. }
    lra. }
  assert (1 - 17 * U <= norm (cross a b)) as B8. { unfold norm at 1. rewrite <- (sqrt_square (1 - 17 * U)) by lra. apply sqrt_le_1_alt, B5. }
  apply Rabs_le. split; [lra|]. assert ((1 + 8 * U) * (1 + 8 * U) <= 1 + 17 * U) by lra. lra.
Qed.
Lemma away_sizable k (x : PrimFloat.float) : (-500 <= k)%Z -> away k (val x) -> sizable x.
Proof. intros Hk H. apply (away_le (-500) k _ Hk) in H. unfold sizable. rewrite two_p. exact H. Qed.
Lemma away_close k (x y : PrimFloat.float) L : 0 < L <= 15 / 10 -> away k (val x) -> close (powerRZ 2 (-50)) (val y) (val x / L) -> away (k - 1) (val y).
Proof.
  intros HL H C. unfold close in C. rewrite two_p in C. change (bpow radix2 (-50)) with (/ 1125899906842624) in C.
  destruct H as [E|A].
  - left. rewrite E in C. unfold Rdiv in C. rewrite Rmult_0_l, Rabs_R0, Rmult_0_r, Rminus_0_r in C. pose proof (Rabs_pos (val y)). destruct (Req_dec (val y) 0) as [Z|Z]; [exact Z|]. apply Rabs_pos_lt in Z. lra.
  - right. replace (k - 1)%Z with (k + -1)%Z by lia. rewrite bpow_plus. change (bpow radix2 (-1)) with (/ 2).
    assert (2 / 3 * Rabs (val x) <= Rabs (val x / L)) as B.
    { unfold Rdiv at 2. rewrite Rabs_mult. assert (2 / 3 <= / L). { apply (Rmult_le_reg_r L); [lra|]. rewrite Rinv_l by lra. lra. }
      rewrite (Rabs_pos_eq (/ L)) by lra. rewrite Rmult_comm. apply Rmult_le_compat_l; [apply Rabs_pos|lra]. }
    pose proof (Rabs_triang_inv (val x / L) (val x / L - val y)) as Tr. replace (val x / L - (val x / L - val y)) with (val y) in Tr by ring.
    rewrite (Rabs_minus_sym (val x / L)) in Tr. pose proof (Rabs_pos (val x)). lra.
Qed.
Lemma cross_dir j k (u v : V3 PrimFloat.float) : direction u -> direction v -> away3 j u -> away3 k v -> (-430 <= j + k)%Z ->
  Rabs (dot (val3 u) (val3 v)) <= 8192 * U ->
  let d := to_dir (cross u v) in direction d /\ norm (psub (val3 d) (cross (val3 u) (val3 v))) <= 48 * U /\ away3 (j + k - 53) d.
Proof.
  intros Du Dv Aj Ak Hjk Hd. cbv zeta. destruct (cross_comp j k u v Du Dv Aj Ak Hjk) as (N & E & (A1 & A2 & A3)). pose proof (near_one u v Du Dv Hd) as O.
  pose proof U_pos as [U0 U1]. set (w := cross u v) in *. set (X := cross (val3 u) (val3 v)) in *.
  pose proof (norm_dif (val3 w) X) as ND. assert (Rabs (norm (val3 w) - 1) <= 243 / 10 * U) as L.
  { apply Rabs_def2_le in O. assert (Rabs (norm (val3 w) - norm X) <= 73 / 10 * U) as Q by lra. apply Rabs_def2_le in Q. apply Rabs_le. lra. }
  assert (Lb := L). apply Rabs_def2_le in Lb.
  destruct (comp_norm (val3 w)) as (C1 & C2 & C3). cbn [val3 vx vy vz] in C1, C2, C3.
  destruct (dir_lemma w) as (Nd & K1 & K2 & K3 & Ud); [exact N| | |lra|].
  { assert (2 <= powerRZ 2 500) by (rewrite two_p; change 2 with (bpow radix2 1); apply bpow_le; lia). repeat split; lra. }
  { split; [|split]; apply (away_sizable (j + k - 52)); try assumption; lia. }
  set (d := to_dir w) in *. set (l := norm (val3 w)) in *.
  split; [split; assumption|]. split.
  - assert (norm (psub (val3 d) (pscale (/ l) (val3 w))) <= 1733 / 1000 * (8 * U)) as F.
    { assert (forall x y : PrimFloat.float, Rabs (val x) <= l -> close (powerRZ 2 (-50)) (val y) (val x / l) -> Rabs (val y - / l * val x) <= 8 * U) as K.
      { intros x y Hx C. unfold close in C. rewrite two_p in C. replace (/ l * val x) with (val x / l) by (unfold Rdiv; ring).
        assert (Rabs (val x / l) <= 1) as B. { unfold Rdiv. rewrite Rabs_mult, (Rabs_pos_eq (/ l)) by (apply Rlt_le, Rinv_0_lt_compat; lra). apply (Rmult_le_reg_r l); [lra|]. rewrite Rmult_assoc, Rinv_l by lra. lra. }
        change (bpow radix2 (-50)) with (/ 1125899906842624) in C. unfold U. lra. }
      apply norm_le; unfold psub, pscale, val3; cbn [vx vy vz]; apply K; assumption. }
    assert (norm (psub (pscale (/ l) (val3 w)) (val3 w)) <= 243 / 10 * U) as G.
    { replace (psub (pscale (/ l) (val3 w)) (val3 w)) with (pscale (/ l - 1) (val3 w)) by (unfold val3; pts; f_equal; ring).
      rewrite norm_mul. fold l. rewrite <- (Rabs_pos_eq l) at 2 by lra. rewrite <- Rabs_mult. replace ((/ l - 1) * l) with (1 - l) by (field; lra). rewrite Rabs_minus_sym. exact L. }
    replace (psub (val3 d) X) with (padd (psub (val3 d) (pscale (/ l) (val3 w))) (padd (psub (pscale (/ l) (val3 w)) (val3 w)) (psub (val3 w) X))).
    2:{ destruct X as [x1 x2 x3]. unfold val3. pts. f_equal; ring. }
    eapply Rle_trans; [apply norm_tri|]. eapply Rle_trans; [apply Rplus_le_compat_l, norm_tri|]. lra.
  - replace (j + k - 53)%Z with (j + k - 52 - 1)%Z by lia. split; [|split]; [apply (away_close _ (vx w) _ l)|apply (away_close _ (vy w) _ l)|apply (away_close _ (vz w) _ l)]; try assumption; lra.
Qed.

(** ** Circles *)
Lemma cross_perp (a b : pt) : dot (cross a b) a = 0 /\ dot (cross a b) b = 0.
Proof. destruct a as [ax ay az], b as [bx by_ bz]. unfold cross, dot. cbn [vx vy vz nsub nmul R_num]. split; ring. Qed.
Lemma cross_back (m n : pt) : cross m (cross n m) = psub (pscale (dot m m) n) (pscale (dot m n) m).
Proof. destruct m as [ax ay az], n as [bx by_ bz]. unfold cross. pts. cbn [vx vy vz nsub nmul R_num]. f_equal; ring. Qed.
Lemma eqb_zero (x : PrimFloat.float) : number x -> neqb x n0 = true <-> val x = 0.
Proof.
  intros N. cbn [neqb F_num]. destruct n0_val as [N0 V0]. rewrite eqb_equiv, (Beqb_correct _ _ _ _ N N0). fold (val x) (val (nlit 0 1)). rewrite V0.
  destruct (Req_bool_spec (val x) 0); split; intros; try assumption; try reflexivity; try discriminate; contradiction.
Qed.
Lemma n1_val : number (n1 : PrimFloat.float) /\ val (n1 : PrimFloat.float) = 1.
Proof.
  assert (Prim2SF (n1 : PrimFloat.float) = S754_finite false 4503599627370496 (-52)) as E by (vm_compute; reflexivity).
  rewrite number_SF, val_SF, E. split; [reflexivity|]. unfold SF2R, F2R. cbn [cond_Zopp Fnum Fexp]. change (bpow radix2 (-52)) with (/ 4503599627370496). lra.
Qed.
Lemma opp_val (x : PrimFloat.float) : number x -> number (- x)%float /\ val (- x)%float = - val x.
Proof. intros N. unfold number, val in *. rewrite opp_equiv, is_finite_Bopp, B2R_Bopp. auto. Qed.
Lemma norm_not0 (u : pt) x : (x = vx u \/ x = vy u \/ x = vz u) -> x <> 0 -> 0 < norm u.
Proof. intros H N. destruct (comp_norm u) as (A & B & C). apply Rabs_pos_lt in N. destruct H as [-> |[-> | ->]]; lra. Qed.
Lemma plain_away (x : PrimFloat.float) : plain x -> away (-100) (val x).
Proof. unfold plain. rewrite two_p. intros H. exact H. Qed.
Lemma orthogonal_dbl (n : V3 PrimFloat.float) : direction n -> plain3 n ->
  let o := make_orthogonal n in number3 o /\ dot (val3 o) (val3 n) = 0 /\ away3 (-100) o /\ 0 < norm (val3 o) <= 15 / 10.
Proof.
  intros Dn (P1 & P2 & P3). destruct (dir_norm n Dn) as (_ & Ln & _). destruct Dn as [(N1 & N2 & N3) _]. destruct n as [x y z]. cbn [vx vy vz] in *.
  destruct n0_val as [N0 V0]. destruct n1_val as [M1 W1]. apply plain_away in P1, P2, P3.
  assert (away (-100) 1) as A1. { right. rewrite Rabs_R1. change 1 with (bpow radix2 0). apply bpow_le. lia. }
  assert (away (-100) 0) as A0 by (left; reflexivity).
  cbv zeta. unfold make_orthogonal. cbn [vx vy vz].
  assert (forall a b c, a = 1 /\ b = 0 /\ c = 0 \/ a = 0 /\ b = 1 /\ c = 0 \/ a = 0 /\ b = 0 /\ c = 1 -> norm (mkV3 a b c) = 1) as NU.
  { intros a b c H. unfold norm, dot. cbn [vx vy vz]. replace (a * a + b * b + c * c) with 1; [apply sqrt_1|]. destruct H as [(-> & -> & ->)|[(-> & -> & ->)|(-> & -> & ->)]]; ring. }
  destruct (neqb x n0) eqn:E1; [apply (eqb_zero x N1) in E1|destruct (neqb y n0) eqn:E2; [apply (eqb_zero y N2) in E2|destruct (neqb z n0) eqn:E3; [apply (eqb_zero z N3) in E3|]]];
    unfold number3, away3, val3; cbn [vx vy vz nopp F_num]; rewrite ?V0, ?W1.
  - split; [auto|]. split; [pts; rewrite E1; ring|]. split; [auto|]. rewrite NU by auto. lra.
  - split; [auto|]. split; [pts; rewrite E2; ring|]. split; [auto|]. rewrite NU by auto. lra.
  - split; [auto|]. split; [pts; rewrite E3; ring|]. split; [auto|]. rewrite NU by auto. lra.
  - destruct (opp_val x N1) as [NO VO]. rewrite VO. split; [auto|]. split; [pts; ring|]. split.
    { split; [exact P2|]. split; [|exact A0]. destruct P1 as [E|A]; [left; rewrite E; ring|right; rewrite Rabs_Ropp; exact A]. }
    split.
    + apply (norm_not0 _ (- val x)); [right; left; reflexivity|]. intros Z. assert (val x = 0) as Z' by lra. apply (eqb_zero x N1) in Z'. congruence.
    + apply Rle_trans with (norm (val3 (mkV3 x y z))); [|lra]. unfold norm. apply sqrt_le_1_alt. unfold val3. pts. pose proof (Rle_0_sqr (val z)) as S. unfold Rsqr in S. lra.
Qed.
Lemma major_dbl (n : V3 PrimFloat.float) : direction n -> plain3 n ->
  let m := to_dir (make_orthogonal n) in direction m /\ Rabs (dot (val3 m) (val3 n)) <= 14 * U /\ away3 (-101) m.
Proof.
  intros Dn Pn. destruct (orthogonal_dbl n Dn Pn) as (No & Zo & Ao & Lo). cbv zeta. destruct (dir_norm n Dn) as (Pn' & Ln & _). pose proof U_pos as [U0 U1].
  set (o := make_orthogonal n) in *. destruct Ao as (A1 & A2 & A3). destruct (comp_norm (val3 o)) as (C1 & C2 & C3). cbn [val3 vx vy vz] in C1, C2, C3.
  destruct (dir_lemma o) as (Nd & K1 & K2 & K3 & Ud); [exact No| | |lra|].
  { assert (2 <= powerRZ 2 500) by (rewrite two_p; change 2 with (bpow radix2 1); apply bpow_le; lia). repeat split; lra. }
  { split; [|split]; apply (away_sizable (-100)); try assumption; lia. }
  set (d := to_dir o) in *. set (l := norm (val3 o)) in *. split; [split; assumption|]. split.
  - assert (norm (psub (val3 d) (pscale (/ l) (val3 o))) <= 1733 / 1000 * (8 * U)) as F.
    { assert (forall x y : PrimFloat.float, Rabs (val x) <= l -> close (powerRZ 2 (-50)) (val y) (val x / l) -> Rabs (val y - / l * val x) <= 8 * U) as K.
      { intros x y Hx C. unfold close in C. rewrite two_p in C. replace (/ l * val x) with (val x / l) by (unfold Rdiv; ring).
        assert (Rabs (val x / l) <= 1) as B. { unfold Rdiv. rewrite Rabs_mult, (Rabs_pos_eq (/ l)) by (apply Rlt_le, Rinv_0_lt_compat; lra). apply (Rmult_le_reg_r l); [lra|]. rewrite Rmult_assoc, Rinv_l by lra. lra. }
        change (bpow radix2 (-50)) with (/ 1125899906842624) in C. unfold U. lra. }
      apply norm_le; unfold psub, pscale, val3; cbn [vx vy vz]; apply K; assumption. }
    eapply Rle_trans; [apply (small_dot _ (pscale (/ l) (val3 o)) _ _ (1001 / 1000) F); [|exact Ln]|lra].
    replace (dot (pscale (/ l) (val3 o)) (val3 n)) with (/ l * dot (val3 o) (val3 n)) by (unfold val3; pts; ring). rewrite Zo. ring.
  - change (-101)%Z with (-100 - 1)%Z. split; [|split]; [apply (away_close _ (vx o) _ l)|apply (away_close _ (vy o) _ l)|apply (away_close _ (vz o) _ l)]; assumption.
Qed.
Lemma circle_frame : forall center n r, direction n -> plain3 n -> let c := make_circle center n r in
  frame (powerRZ 2 (-47)) (e_maj c) (e_min c) (e_n c) /\ norm (psub (val3 (e_n c)) (val3 n)) <= powerRZ 2 (-46).
Proof.
  intros center n r Dn Pn. cbv zeta. unfold make_circle, make_ell. cbn [e_maj e_min e_n].
  destruct (major_dbl n Dn Pn) as (Dm & Om & Am). set (m := to_dir (make_orthogonal n)) in *.
  assert (away3 (-100) n) as An by (destruct Pn as (P1 & P2 & P3); split; [|split]; apply plain_away; assumption).
  pose proof U_pos as [U0 U1]. assert (Om' := Om). rewrite dot_comm in Om'.
  destruct (cross_dir (-100) (-101) n m Dn Dm An Am ltac:(lia) ltac:(lra)) as (Dk & Ek & Ak). set (k := to_dir (cross n m)) in *.
  destruct (cross_perp (val3 n) (val3 m)) as [Z1 Z2]. destruct (dir_norm n Dn) as (Pn' & Ln & En). destruct (dir_norm m Dm) as (Pm & Lm & Em). destruct (dir_norm k Dk) as (Pk & Lk & _).
  pose proof (small_dot _ _ _ _ _ Ek Z1 Ln) as K1. pose proof (small_dot _ _ _ _ _ Ek Z2 Lm) as K2. assert (K2' := K2). rewrite dot_comm in K2'.
  destruct (cross_dir (-101) (-100 + -101 - 53) m k Dm Dk Am Ak ltac:(lia) ltac:(lra)) as (Dw & Ew & _). set (w := to_dir (cross m k)) in *.
  destruct (cross_perp (val3 m) (val3 k)) as [Z3 Z4]. pose proof (small_dot _ _ _ _ _ Ew Z3 Lm) as K3. pose proof (small_dot _ _ _ _ _ Ew Z4 Lk) as K4.
  assert (powerRZ 2 (-47) = 64 * U) as ->. { rewrite two_p. change (bpow radix2 (-47)) with (/ 140737488355328). unfold U. field. }
  assert (powerRZ 2 (-46) = 128 * U) as ->. { rewrite two_p. change (bpow radix2 (-46)) with (/ 70368744177664). unfold U. field. }
  split.
  - split; [exact Dm|]. split; [exact Dk|]. split; [exact Dw|]. split; [lra|]. rewrite (dot_comm (val3 m)), (dot_comm (val3 k)). split; lra.
  - replace (psub (val3 w) (val3 n)) with (padd (psub (val3 w) (cross (val3 m) (val3 k)))
      (padd (cross (val3 m) (psub (val3 k) (cross (val3 n) (val3 m)))) (psub (cross (val3 m) (cross (val3 n) (val3 m))) (val3 n)))).
    2:{ unfold val3, cross. pts. cbn [vx vy vz nsub nmul R_num]. f_equal; ring. }
    eapply Rle_trans; [apply norm_tri|]. eapply Rle_trans; [apply Rplus_le_compat_l, norm_tri|].
    assert (norm (cross (val3 m) (psub (val3 k) (cross (val3 n) (val3 m)))) <= 1001 / 1000 * (48 * U)) as F1.
    { eapply Rle_trans; [apply norm_cross|]. apply Rmult_le_compat; try apply norm_nonneg; assumption. }
    assert (norm (psub (cross (val3 m) (cross (val3 n) (val3 m))) (val3 n)) <= 1001 / 1000 * (17 * U) + 14 * U * (1001 / 1000)) as F2.
    { rewrite cross_back. replace (psub (psub (pscale (dot (val3 m) (val3 m)) (val3 n)) (pscale (dot (val3 m) (val3 n)) (val3 m))) (val3 n))
        with (padd (pscale (dot (val3 m) (val3 m) - 1) (val3 n)) (pscale (- dot (val3 m) (val3 n)) (val3 m))) by (unfold val3; pts; f_equal; ring).
      eapply Rle_trans; [apply norm_tri|]. rewrite !norm_mul, Rabs_Ropp. apply Rplus_le_compat.
      - rewrite Rmult_comm. apply Rmult_le_compat; try apply norm_nonneg; try apply Rabs_pos; [exact Ln|]. rewrite <- norm_sq.
        apply Rabs_def2_le in Em. assert (U * U <= / 1000000 * U) by (apply Rmult_le_compat_r; lra). apply Rabs_le. split; nra.
      - apply Rmult_le_compat; try apply norm_nonneg; try apply Rabs_pos; assumption. }
    lra.
Qed.
(** ** Sampled points and the cylinder they are drawn from *)
Lemma near_exact (p c u v w : pt) M rho phi Z a h :
  0 < M -> Rabs (norm u - 1) <= 8 * U -> Rabs (norm v - 1) <= 8 * U -> Rabs (norm w - 1) <= 8 * U ->
  Rabs (dot u v) <= 64 * U -> Rabs (dot u w) <= 64 * U -> Rabs (dot v w) <= 64 * U ->
  0 <= rho <= a -> a <= M -> 0 <= Z <= h -> h <= M ->
  dist p (frame_point c u v w (rho * cos phi) (rho * sin phi) Z) <= 64 * (U * M) -> near_cylinder (512 * (U * M)) c w a h p.
Proof.
  intros M0 Nu Nv Nw Duv Duw Dvw Hr Ha Hz Hh E. pose proof U_pos as [U0 U1]. set (e := U * M) in *.
  assert (0 < e) as e0 by (apply Rmult_lt_0_compat; assumption).
  apply Rabs_def2_le in Nu, Nv, Nw. set (X := rho * cos phi) in *. set (Y := rho * sin phi) in *.
  pose proof (sin2_cos2 phi) as SC. unfold Rsqr in SC.
  assert (X * X + Y * Y = rho * rho) as XY. { unfold X, Y. replace (rho * cos phi * (rho * cos phi) + rho * sin phi * (rho * sin phi)) with (rho * rho * (sin phi * sin phi + cos phi * cos phi)) by ring. rewrite SC. ring. }
  assert (Rabs X <= rho /\ Rabs Y <= rho) as [BX BY].
  { unfold X, Y. rewrite !Rabs_mult, (Rabs_pos_eq rho) by lra. pose proof (Rabs_pos (cos phi)). pose proof (Rabs_pos (sin phi)).
    assert (Rabs (cos phi) <= 1 /\ Rabs (sin phi) <= 1) as [A B] by (split; apply Rabs_le; [destruct (COS_bound phi)|destruct (SIN_bound phi)]; lra).
    split; rewrite <- (Rmult_1_r rho) at 2; apply Rmult_le_compat_l; lra. }
  set (s := psub p c). set (d := psub p (frame_point c u v w X Y Z)) in *. change (dist p (frame_point c u v w X Y Z)) with (norm d) in E.
  assert (s = padd (padd (padd (pscale X u) (pscale Y v)) (pscale Z w)) d) as Es.
  { unfold s, d, frame_point. generalize X Y. clear. intros X Y. destruct p as [px py pz]. pts. f_equal; ring. }
  set (q := padd (pscale X u) (pscale Y v)) in *.
  pose proof (norm_sq w) as Sw. assert (99 / 100 <= dot w w) as Lw by (rewrite <- Sw; nra).
  set (t := dot s w / dot w w).
  assert ((t - Z) * dot w w = X * dot u w + Y * dot v w + dot d w) as Et.
  { unfold t. replace ((dot s w / dot w w - Z) * dot w w) with (dot s w - Z * dot w w) by (field; lra). rewrite Es. unfold q. clear. pts. ring. }
  assert (forall A D, Rabs A <= rho -> Rabs D <= 64 * U -> Rabs (A * D) <= 64 * e) as PB.
  { intros A D HA HD. rewrite Rabs_mult. apply Rle_trans with (M * (64 * U)); [|unfold e; lra]. apply Rmult_le_compat; try apply Rabs_pos; lra. }
  pose proof (PB _ _ BX Duw) as P1. pose proof (PB _ _ BY Dvw) as P2.
  assert (Rabs (dot d w) <= 65 * e) as P3. { eapply Rle_trans; [apply cauchy_norm|]. apply Rle_trans with (64 * e * (1001 / 1000)); [|lra]. apply Rmult_le_compat; try apply norm_nonneg; lra. }
  assert (Rabs (t - Z) <= 195 * e) as Ht.
  { apply Rmult_le_reg_r with (dot w w); [lra|]. rewrite <- (Rabs_pos_eq (dot w w)) at 1 by lra. rewrite <- Rabs_mult, Et.
    apply Rabs_def2_le in P1, P2, P3. apply Rle_trans with (193 * e); [apply Rabs_le; lra|nra]. }
  exists t, (psub s (pscale t w)). split; [unfold s; generalize t; clear; intros t; destruct p as [px py pz]; pts; f_equal; ring|]. split.
  { replace (dot (psub s (pscale t w)) w) with (dot s w - t * dot w w) by (generalize t; generalize s; clear; intros s t; pts; ring). unfold t. field. lra. }
  assert (Ht' := Ht). apply Rabs_def2_le in Ht'. split; [lra|].
  replace (psub s (pscale t w)) with (padd q (padd d (pscale (- (t - Z)) w))).
  2:{ rewrite Es. generalize d q t. clear. intros d q t. destruct q as [qx qy qz], d as [dx dy dz]. pts. f_equal; ring. }
  eapply Rle_trans; [apply norm_tri|]. eapply Rle_trans; [apply Rplus_le_compat_l, norm_tri|]. rewrite norm_mul, Rabs_Ropp.
  assert (Rabs (t - Z) * norm w <= 195 * e * (1001 / 1000)) as P4 by (apply Rmult_le_compat; try apply norm_nonneg; try apply Rabs_pos; lra).
  assert (norm q <= a + 41 * e) as Nq.
  { apply Rle_trans with (rho + 41 * U * rho). 2:{ assert (U * rho <= e) by (apply Rmult_le_compat_l; lra). lra. }
    assert (dot q q <= (rho + 41 * U * rho) * (rho + 41 * U * rho)) as Q.
    { replace (dot q q) with (X * X * dot u u + Y * Y * dot v v + 2 * (X * Y) * dot u v) by (unfold q; clear; pts; ring).
      rewrite <- !norm_sq. assert (norm u * norm u <= 1 + 17 * U) as S1 by nra. assert (norm v * norm v <= 1 + 17 * U) as S2 by nra.
      pose proof (Rle_0_sqr X) as X2. pose proof (Rle_0_sqr Y) as Y2. unfold Rsqr in X2, Y2.
      apply Rmult_le_compat_l with (r := X * X) in S1; [|lra]. apply Rmult_le_compat_l with (r := Y * Y) in S2; [|lra].
      assert (2 * (X * Y) * dot u v <= rho * rho * (64 * U)) as S3.
      { eapply Rle_trans; [apply Rle_abs|]. rewrite Rabs_mult. apply Rmult_le_compat; try apply Rabs_pos; [|assumption].
        pose proof (Rle_0_sqr (X - Y)). pose proof (Rle_0_sqr (X + Y)). unfold Rsqr in *. apply Rabs_le. lra. }
      pose proof (Rle_0_sqr (41 * U * rho)) as R2. unfold Rsqr in R2.
      assert (0 <= U * (rho * rho)) by (apply Rmult_le_pos; [lra|]; nra). nra. }
    assert (0 <= rho + 41 * U * rho) as R0 by (assert (0 <= U * rho) by (apply Rmult_le_pos; lra); lra).
    unfold norm. rewrite <- (sqrt_square _ R0). apply sqrt_le_1_alt, Q. }
  lra.
Qed.
Lemma near_sampled : forall (T : Trig PrimFloat.float) M (e : ell PrimFloat.float) rr rphi rh d1 d2 d3 a h, accurate T -> moderate M -> ellipse_upto M e ->
  frame (powerRZ 2 (-47)) (e_maj e) (e_min e) (e_n e) -> 0 <= a <= M -> 0 <= h <= M ->
  number d1 -> 0 <= val d1 <= a * a -> number d2 -> Rabs (val d2) <= powerRZ 2 20 -> number d3 -> 0 <= val d3 <= h ->
  near_cylinder (powerRZ 2 (-44) * M) (val3 (e_c e)) (val3 (e_n e)) a h (val3 (ps_point (CylSampler e rr rphi rh) d1 d2 d3)).
Proof.
  intros T M e rr rphi rh d1 d2 d3 a h HT HM He (Du & Dv & Dw & F1 & F2 & F3) Ha Hh N1 B1 N2 B2 N3 B3.
  destruct (sampled_dbl T M e rr rphi rh d1 d2 d3 HT HM He N1) as [_ S]; try assumption; [nra|apply Rabs_le; lra|].
  pose proof (sized_pos M (mod_sized M HM)) as M0.
  assert (powerRZ 2 (-47) = 64 * U) as E47. { rewrite two_p. change (bpow radix2 (-47)) with (/ 140737488355328). unfold U. field. }
  assert (powerRZ 2 (-44) = 512 * U) as E44. { rewrite two_p. change (bpow radix2 (-44)) with (/ 17592186044416). unfold U. field. }
  rewrite E47 in *. rewrite E44. rewrite Rmult_assoc in S |- *.
  destruct (dir_norm _ Du) as (_ & _ & Nu), (dir_norm _ Dv) as (_ & _ & Nv), (dir_norm _ Dw) as (_ & _ & Nw).
  eapply (near_exact _ _ (val3 (e_maj e)) (val3 (e_min e)) (val3 (e_n e)) M (R_sqrt.sqrt (val d1)) (val d2) (val d3)); try assumption; try lra.
  split; [apply sqrt_pos|]. rewrite <- (sqrt_square a) by lra. apply sqrt_le_1_alt. lra.
Qed.
(** ** The normal of an ellipse from its axes *)
Lemma made_frame : forall center u v a b, direction u -> direction v -> plain3 u -> plain3 v -> Rabs (dot (val3 u) (val3 v)) <= powerRZ 2 (-47) ->
  let c := make_ell center u v a b in
  frame (powerRZ 2 (-47)) (e_maj c) (e_min c) (e_n c) /\ norm (psub (val3 (e_n c)) (cross (val3 u) (val3 v))) <= powerRZ 2 (-47).
Proof.
  intros center u v a b Du Dv (P1 & P2 & P3) (Q1 & Q2 & Q3) Hd. cbv zeta. unfold make_ell. cbn [e_maj e_min e_n].
  assert (powerRZ 2 (-47) = 64 * U) as E. { rewrite two_p. change (bpow radix2 (-47)) with (/ 140737488355328). unfold U. field. }
  rewrite E in *. pose proof U_pos as [U0 U1].
  destruct (cross_dir (-100) (-100) u v Du Dv) as (Dw & Ew & _); [split; [|split]; apply plain_away; assumption..|lia|lra|].
  set (w := to_dir (cross u v)) in *. destruct (cross_perp (val3 u) (val3 v)) as [Z3 Z4].
  destruct (dir_norm u Du) as (_ & Lu & _), (dir_norm v Dv) as (_ & Lv & _).
  pose proof (small_dot _ _ _ _ _ Ew Z3 Lu) as K3. pose proof (small_dot _ _ _ _ _ Ew Z4 Lv) as K4.
  split; [|lra]. split; [exact Du|]. split; [exact Dv|]. split; [exact Dw|]. split; [lra|]. rewrite (dot_comm (val3 u)), (dot_comm (val3 v)). split; lra.
Qed.
