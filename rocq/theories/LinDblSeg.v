(** Segments in double precision. *)

From Coq Require Import ZArith Reals Floats Lra Lia Psatz Bool.
From Flocq Require Import Core.Core IEEE754.BinarySingleNaN IEEE754.PrimFloat Relative.
From Verif Require Import Base NumModel VecModel LinModel DistModel GeoSpec LinSpec DblSpec GeoLemmas
  DblLemmas DblProofs DblLen DblEq LinDblSpec LinDblBase LinDblFoot LinDblProofs.
Local Open Scope R_scope.

Lemma norm_rel (a b : pt) k : 0 <= k -> Rabs (vx a - vx b) <= k * Rabs (vx b) -> Rabs (vy a - vy b) <= k * Rabs (vy b) -> Rabs (vz a - vz b) <= k * Rabs (vz b) ->
  norm (psub a b) <= k * norm b.
Proof.
  intros Hk Hx Hy Hz. pose proof (norm_nonneg b) as Nb. unfold norm at 1. rewrite <- (sqrt_square (k * norm b)) by (apply Rmult_le_pos; assumption).
  apply sqrt_le_1_alt. replace (k * norm b * (k * norm b)) with (k * k * (norm b * norm b)) by ring. rewrite norm_sq. unfold dot, psub. cbn [vx vy vz].
  assert (forall x y, Rabs x <= k * Rabs y -> x * x <= k * k * (y * y)) as K.
  { intros x y H. rewrite <- (Rabs_pos_eq (x * x)) by apply Rle_0_sqr. rewrite Rabs_mult. replace (k * k * (y * y)) with ((k * Rabs y) * (k * Rabs y)).
    - apply Rmult_le_compat; try apply Rabs_pos; assumption.
    - transitivity (k * k * (Rabs y * Rabs y)); [ring|]. rewrite <- Rabs_mult, Rabs_pos_eq by apply Rle_0_sqr. reflexivity. }
  pose proof (K _ _ Hx). pose proof (K _ _ Hy). pose proof (K _ _ Hz). lra.
Qed.
Lemma norm_swap (a b : pt) : norm (psub a b) = norm (psub b a).
Proof. unfold norm. f_equal. destruct a as [a1 a2 a3], b as [b1 b2 b3]. unfold dot, psub. cbn [vx vy vz]. ring. Qed.
(** directions of two vectors *)
Lemma dirs_near (v w : pt) k : 0 < norm v -> 0 < norm w -> norm (psub v w) <= k * norm w ->
  norm (psub (pscale (/ norm v) v) (pscale (/ norm w) w)) <= 2 * k.
Proof.
  intros Hv Hw H. set (a := norm v) in *. set (b := norm w) in *.
  replace (psub (pscale (/ a) v) (pscale (/ b) w)) with (padd (pscale ((b - a) * / b * / a) v) (pscale (/ b) (psub v w))).
  2:{ destruct v as [v1 v2 v3], w as [w1 w2 w3]. unfold psub, padd, pscale. cbn [vx vy vz]. f_equal; field; lra. }
  eapply Rle_trans; [apply norm_tri|]. rewrite !norm_mul. fold a. assert (0 < / b) as Ib by (apply Rinv_0_lt_compat; lra). assert (0 < / a) as Ia by (apply Rinv_0_lt_compat; lra).
  rewrite !Rabs_mult, (Rabs_pos_eq (/ a)), (Rabs_pos_eq (/ b)) by lra.
  assert (Rabs (b - a) <= k * b) as B.
  { eapply Rle_trans; [|exact H]. rewrite Rabs_minus_sym. apply norm_dif. }
  assert (Rabs (b - a) * / b <= k) as C1.
  { apply (Rmult_le_reg_r b); [lra|]. rewrite Rmult_assoc, Rinv_l by lra. lra. }
  assert (/ b * norm (psub v w) <= k) as C2.
  { apply (Rmult_le_reg_l b); [lra|]. rewrite <- Rmult_assoc, Rinv_r by lra. lra. }
  replace (Rabs (b - a) * / b * / a * a) with (Rabs (b - a) * / b) by (field; lra). lra.
Qed.

Section Dir.
Variables (s t : V3 PrimFloat.float) (M : R).
Hypotheses (HM : modx M) (Hs : point_upto M s) (Ht : point_upto M t) (G : gap3 s t) (Hst : val3 s <> val3 t).
Let W := psub (val3 t) (val3 s).
Let v := vec_to s t.
Lemma W_pos : 0 < norm W.
Proof.
  apply norm_pos. intros E. apply Hst. unfold W in E. destruct (val3 s) as [a b c], (val3 t) as [a' b' c']. unfold psub, zero3 in E. cbn [vx vy vz] in E. injection E as E1 E2 E3. f_equal; lra.
Qed.
Lemma seg_vec : number3 v /\ within3 (powerRZ 2 500) v /\ sizable3 v /\ norm (psub (val3 v) W) <= U * norm W.
Proof.
  destruct Hs as [(N1 & N2 & N3) (B1 & B2 & B3)], Ht as [(N4 & N5 & N6) (B4 & B5 & B6)], G as (G1 & G2 & G3). rewrite !two_p.
  assert (K : forall a b : PrimFloat.float, number a -> number b -> Rabs (val a) <= M -> Rabs (val b) <= M -> gap a b ->
     number (b - a)%float /\ Rabs (val (b - a)%float) <= bpow radix2 500 /\ sizable (b - a)%float /\ Rabs (val (b - a)%float - (val b - val a)) <= U * Rabs (val b - val a)).
  { intros a b Na Nb Ba Bb Gab. destruct HM as [_ H4]. rewrite two_p in H4.
    assert (bpow radix2 404 + bpow radix2 404 <= bpow radix2 500) as K1 by (rewrite bpow_double; apply bpow_le; lia).
    assert (Rabs (val b - val a) <= bpow radix2 500) as B5'.
    { apply Rabs_def2_le in Ba. apply Rabs_def2_le in Bb. apply Rabs_le. lra. }
    assert (bpow radix2 500 <= bpow radix2 1023) as B10 by (apply bpow_le; lia).
    destruct (f_sub b a Nb Na ltac:(lra)) as [N V]. split; [exact N|]. unfold sizable. rewrite V, !two_p.
    split; [apply rnd_bpow; [lia|exact B5']|]. split.
    - destruct Gab as [Z|Z]; [left; rewrite Z; apply rnd_0|right]. rewrite two_p in Z. rewrite rnd_abs.
      rewrite <- (round_generic radix2 fex ZnearestE (bpow radix2 (-500))).
      + apply rnd_le. exact Z.
      + apply generic_format_FLT_bpow; [reflexivity|]. lia.
    - pose proof (add_error (val b) (- val a) (val_format b) (generic_format_opp _ _ _ (val_format a))) as E. fold (val b - val a) in E. rewrite u_is in E. exact E. }
  destruct (K _ _ N1 N4 B1 B4 G1) as (X1 & X2 & X3 & X4). destruct (K _ _ N2 N5 B2 B5 G2) as (Y1 & Y2 & Y3 & Y4). destruct (K _ _ N3 N6 B3 B6 G3) as (Z1 & Z2 & Z3 & Z4).
  unfold number3, within3, sizable3, v, vec_to. cbn [vx vy vz nsub F_num]. split; [auto|]. split; [auto|]. split; [auto|].
  apply norm_rel; [unfold U; lra|..]; unfold W, val3, psub; cbn [vx vy vz]; assumption.
Qed.
Lemma v_pos : 0 < norm (val3 v).
Proof.
  destruct seg_vec as (_ & _ & _ & E). pose proof W_pos as P. pose proof (norm_dif (val3 v) W) as D. apply Rabs_def2_le in D. unfold U in E. lra.
Qed.
(** the direction of the segment *)
Let e := pscale (/ norm W) W.
Lemma seg_dir_dbl : number3 (seg_dir (mkSeg s t)) /\ unit3 e /\ norm (psub (val3 (seg_dir (mkSeg s t))) e) <= 16 * U /\ norm (val3 (seg_dir (mkSeg s t))) <= 1001 / 1000.
Proof.
  destruct seg_vec as (Nv & Bv & Sv & Ev). pose proof W_pos as Wp. pose proof v_pos as Vp.
  destruct (dir_lemma v Nv Bv Sv ltac:(lra)) as (Nd & C1 & C2 & C3 & Ud). change (seg_dir (mkSeg s t)) with (to_dir v). set (d := to_dir v) in *.
  destruct (unit_of W Wp) as (Ue & _ & _). fold e in Ue. destruct (unit_of (val3 v) Vp) as (Uf & _ & _). set (f := pscale (/ norm (val3 v)) (val3 v)) in *.
  rewrite two_p in *. change (bpow radix2 (-50)) with (/ 1125899906842624) in *. split; [exact Nd|]. split; [exact Ue|].
  assert (norm (psub (val3 d) f) <= / 1125899906842624 * norm f) as E1.
  { apply norm_rel; [lra|..]; unfold f, pscale, val3; cbn [vx vy vz]; [replace (/ norm (mkV3 (val (vx v)) (val (vy v)) (val (vz v))) * val (vx v)) with (val (vx v) / norm (val3 v)) by (unfold val3, Rdiv; ring); exact C1
    |replace (/ norm (mkV3 (val (vx v)) (val (vy v)) (val (vz v))) * val (vy v)) with (val (vy v) / norm (val3 v)) by (unfold val3, Rdiv; ring); exact C2
    |replace (/ norm (mkV3 (val (vx v)) (val (vy v)) (val (vz v))) * val (vz v)) with (val (vz v) / norm (val3 v)) by (unfold val3, Rdiv; ring); exact C3]. }
  rewrite (norm_unit f Uf) in E1. pose proof (dirs_near (val3 v) W U Vp Wp Ev) as E2. fold f e in E2.
  pose proof (norm_tri (psub (val3 d) f) (psub f e)) as T. replace (padd (psub (val3 d) f) (psub f e)) with (psub (val3 d) e) in T.
  2:{ unfold val3. destruct f as [f1 f2 f3], e as [e1 e2 e3]. unfold psub, padd. cbn [vx vy vz]. f_equal; ring. }
  split; [unfold U in *; lra|]. apply Rabs_def2_le in Ud. lra.
Qed.
End Dir.

(** signs *)
Lemma f_eqb (x y : PrimFloat.float) : number x -> number y -> PrimFloat.eqb x y = true <-> val x = val y.
Proof.
  intros Hx Hy. rewrite eqb_equiv. rewrite (Beqb_correct _ _ _ _ Hx Hy). fold (val x) (val y).
  destruct (Req_bool_spec (val x) (val y)); split; intros; try lra; try discriminate; try reflexivity.
Qed.
Lemma number_zero : number PrimFloat.zero.
Proof. reflexivity. Qed.
Lemma val_zero : val PrimFloat.zero = 0.
Proof. exact (eq_refl 0). Qed.
Lemma sign_pos (x : PrimFloat.float) : number x -> 0 < val x -> nsign x = false.
Proof.
  intros N V. cbn [nsign F_num]. unfold get_sign. destruct (is_zero x) eqn:Z.
  - exfalso. unfold is_zero in Z. apply (f_eqb _ _ N number_zero) in Z. rewrite val_zero in Z. lra.
  - apply (f_ltb_false _ _ N number_zero). rewrite val_zero. lra.
Qed.
Lemma sign_neg (x : PrimFloat.float) : number x -> val x < 0 -> nsign x = true.
Proof.
  intros N V. cbn [nsign F_num]. unfold get_sign. destruct (is_zero x) eqn:Z.
  - exfalso. unfold is_zero in Z. apply (f_eqb _ _ N number_zero) in Z. rewrite val_zero in Z. lra.
  - apply (f_ltb _ _ N number_zero). rewrite val_zero. exact V.
Qed.

(** the exact distance to a segment, in terms of the coordinate a along it *)
Section Exact.
Variables (s t p : pt).
Let W := psub t s.
Let L := norm W.
Let e := pscale (/ L) W.
Hypothesis HL : 0 < L.
Let a := dot e (psub p s).
Let y := padd s (pscale a e).
Let r := dist p y.
Lemma e_unit : unit3 e.
Proof. exact (proj1 (unit_of W HL)). Qed.
Lemma at_coord c : dist p (padd s (pscale c e)) * dist p (padd s (pscale c e)) = r * r + (c - a) * (c - a).
Proof.
  unfold r, dist. rewrite !norm_sq. pose proof e_unit as He. unfold unit3 in He. unfold y.
  transitivity (dot (psub p s) (psub p s) - 2 * c * a + c * c * dot e e).
  - unfold a. generalize e. intros e'. destruct s as [s1 s2 s3], e' as [e1 e2 e3], p as [p1 p2 p3]. unfold dot, psub, padd, pscale. cbn [vx vy vz]. ring.
  - rewrite He. transitivity (dot (psub p s) (psub p s) - 2 * a * a + a * a * dot e e + (c - a) * (c - a)); [rewrite He; ring|].
    unfold a. generalize e. intros e'. destruct s as [s1 s2 s3], e' as [e1 e2 e3], p as [p1 p2 p3]. unfold dot, psub, padd, pscale. cbn [vx vy vz]. ring.
Qed.
Lemma We : W = pscale L e.
Proof. exact (proj2 (proj2 (unit_of W HL))). Qed.
Lemma seg_at x : on_segment s t x <-> exists c, 0 <= c <= L /\ x = padd s (pscale c e).
Proof.
  assert (forall k, padd (pscale (1 - k) s) (pscale k t) = padd s (pscale (k * L) e)) as K.
  { intros k. transitivity (padd s (pscale k W)).
    - unfold W. destruct s as [s1 s2 s3], t as [t1 t2 t3]. unfold padd, pscale, psub. cbn [vx vy vz]. f_equal; ring.
    - rewrite We at 1. generalize e. intros e'. destruct s as [s1 s2 s3], e' as [e1 e2 e3]. unfold padd, pscale. cbn [vx vy vz]. f_equal; ring. }
  split.
  - intros (k & Hk & ->). exists (k * L). split; [|apply K]. split; [apply Rmult_le_pos; lra|]. rewrite <- (Rmult_1_l L) at 2. apply Rmult_le_compat_r; lra.
  - intros (c & Hc & ->). exists (c / L). split.
    + split; [apply Rmult_le_pos; [lra|left; apply Rinv_0_lt_compat, HL]|]. apply (Rmult_le_reg_r L); [exact HL|]. unfold Rdiv. rewrite Rmult_assoc, Rinv_l by lra. lra.
    + rewrite K. do 2 f_equal. field. lra.
Qed.
Lemma r_pos : 0 <= r.
Proof. apply norm_nonneg. Qed.
Lemma coord_bound c : r <= dist p (padd s (pscale c e)) <= r + Rabs (c - a).
Proof.
  pose proof (at_coord c) as A. set (q := dist p (padd s (pscale c e))) in *. assert (0 <= q) as Q by apply norm_nonneg. pose proof r_pos as P. pose proof (Rabs_pos (c - a)) as R0.
  assert ((c - a) * (c - a) = Rabs (c - a) * Rabs (c - a)) as RR by (rewrite <- Rabs_mult; symmetry; apply Rabs_pos_eq, Rle_0_sqr). rewrite RR in A. split.
  - apply Rsqr_incr_0; try assumption. unfold Rsqr. nra.
  - apply Rsqr_incr_0; try lra. unfold Rsqr. nra.
Qed.
Lemma at_s : padd s (pscale 0 e) = s.
Proof. generalize e. intros e'. destruct s as [s1 s2 s3], e' as [e1 e2 e3]. unfold padd, pscale. cbn [vx vy vz]. f_equal; ring. Qed.
Lemma at_t : padd s (pscale L e) = t.
Proof. rewrite <- We. unfold W. destruct s as [s1 s2 s3], t as [t1 t2 t3]. unfold padd, psub. cbn [vx vy vz]. f_equal; ring. Qed.
Lemma coord_le c c' : Rabs (c - a) <= Rabs (c' - a) -> dist p (padd s (pscale c e)) <= dist p (padd s (pscale c' e)).
Proof.
  intros H. apply Rsqr_incr_0; try apply norm_nonneg. unfold Rsqr. rewrite !at_coord.
  assert (forall z, z * z = Rabs z * Rabs z) as RR by (intros z; rewrite <- Rabs_mult; symmetry; apply Rabs_pos_eq, Rle_0_sqr).
  rewrite (RR (c - a)), (RR (c' - a)). pose proof (Rabs_pos (c - a)). nra.
Qed.
Lemma ends_bound : dist p s <= r + Rabs a /\ dist p t <= r + Rabs (L - a).
Proof.
  split.
  - rewrite <- at_s at 1. replace (Rabs a) with (Rabs (0 - a)) by (rewrite Rminus_0_l; apply Rabs_Ropp). apply coord_bound.
  - rewrite <- at_t at 1. apply coord_bound.
Qed.
Lemma coord_t : dot e (psub p t) = a - L.
Proof.
  transitivity (a - L * dot e e).
  - unfold a. rewrite <- at_t. generalize e L. intros e' l. destruct s as [s1 s2 s3], e' as [e1 e2 e3], p as [p1 p2 p3]. unfold dot, psub, padd, pscale. cbn [vx vy vz]. ring.
  - rewrite e_unit. ring.
Qed.
Variable D : R.
Hypothesis HD : dist_to (on_segment s t) p D.
Lemma D_le : dist p s >= D /\ dist p t >= D /\ r <= D.
Proof.
  destruct HD as [(x & Hx & Ex) Hm]. split; [|split].
  - apply Rle_ge, Hm. apply seg_at. exists 0. split; [lra|]. symmetry. apply at_s.
  - apply Rle_ge, Hm. apply seg_at. exists L. split; [lra|]. symmetry. apply at_t.
  - apply seg_at in Hx. destruct Hx as (c & _ & ->). rewrite <- Ex. apply coord_bound.
Qed.
Lemma D_in : 0 <= a <= L -> D = r.
Proof.
  intros Ha. destruct D_le as (_ & _ & E). apply Rle_antisym; [|exact E]. destruct HD as [_ Hm]. apply Hm. apply seg_at. exists a. split; [exact Ha|reflexivity].
Qed.
Lemma D_left : a <= 0 -> D = dist p s.
Proof.
  intros Ha. destruct D_le as (E & _). apply Rle_antisym; [lra|]. destruct HD as [(x & Hx & Ex) _]. apply seg_at in Hx. destruct Hx as (c & Hc & ->). rewrite <- Ex, <- at_s at 1.
  apply coord_le. rewrite !Rabs_pos_eq; lra.
Qed.
Lemma D_right : L <= a -> D = dist p t.
Proof.
  intros Ha. destruct D_le as (_ & E & _). apply Rle_antisym; [lra|]. destruct HD as [(x & Hx & Ex) _]. apply seg_at in Hx. destruct Hx as (c & Hc & ->). rewrite <- Ex, <- at_t at 1.
  apply coord_le. rewrite !Rabs_left1; lra.
Qed.
End Exact.

Section Contains.
Variables (s t p : V3 PrimFloat.float) (M D : R).
Hypotheses (HM : modx M) (Hs : point_upto M s) (Ht : point_upto M t) (Hp : point_upto M p) (G : gap3 s t) (Hst : val3 s <> val3 t).
Hypothesis HD : dist_to (on_segment (val3 s) (val3 t)) (val3 p) D.
Let W := psub (val3 t) (val3 s).
Let L := norm W.
Let u := pscale (/ L) W.
Let d := seg_dir (mkSeg s t).
(** the coordinate along the segment *)
Lemma along_dbl q : point_upto M q -> number (sprod d (vec_to q p)) /\ Rabs (val (sprod d (vec_to q p)) - dot u (psub (val3 p) (val3 q))) <= 81 * (U * M).
Proof.
  intros [Nq Bq]. destruct Hp as [Np Bp]. destruct (seg_dir_dbl s t M HM Hs Ht G Hst) as (Nd & Uu & Ed & Ud). fold W L u d in Nd, Uu, Ed, Ud. pose proof (moderate_sized M HM) as HS.
  destruct (along_err q d p M Nq Nd Np HS Bq Bp Ud) as [N E]. split; [exact N|]. destruct (vec_err q p M Nq Np HS Bq Bp) as (_ & _ & _ & NW).
  assert (Rabs (dot (val3 d) (psub (val3 p) (val3 q)) - dot u (psub (val3 p) (val3 q))) <= 56 * (U * M)) as E2.
  { replace (dot (val3 d) (psub (val3 p) (val3 q)) - dot u (psub (val3 p) (val3 q))) with (dot (psub (val3 d) u) (psub (val3 p) (val3 q))).
    2:{ generalize u. intros u'. destruct u' as [u1 u2 u3]. unfold dot, psub, val3. cbn [vx vy vz]. ring. }
    eapply Rle_trans; [apply cauchy_norm|]. eapply Rle_trans; [apply Rmult_le_compat; [apply norm_nonneg|apply norm_nonneg|exact Ed|exact NW]|].
    pose proof (UM_small M HS). lra. }
  apply Rabs_def2_le in E. apply Rabs_def2_le in E2. apply Rabs_le. lra.
Qed.
(** the distance to an end *)
Lemma end_dbl q : point_upto M q -> number3 (vec_to q p) /\ within3 (bpow radix2 450) (vec_to q p) /\ Rabs (norm (val3 (vec_to q p)) - dist (val3 p) (val3 q)) <= 4 * (U * M).
Proof.
  intros [Nq Bq]. destruct Hp as [Np Bp]. pose proof (moderate_sized M HM) as HS. destruct (vec_err q p M Nq Np HS Bq Bp) as (Nv & (E1 & E2 & E3) & (W1 & W2 & W3) & _).
  split; [exact Nv|]. pose proof (UM_small M HS) as UM. pose proof (sized_pos M HS) as M0. split.
  - apply (within_6 M _ HM). apply Rabs_def2_le in E1. apply Rabs_def2_le in E2. apply Rabs_def2_le in E3. apply Rabs_def2_le in W1. apply Rabs_def2_le in W2. apply Rabs_def2_le in W3.
    repeat split; apply Rabs_le; lra.
  - unfold dist. eapply Rle_trans; [apply norm_dif|]. eapply Rle_trans; [apply (norm_le _ (2 * (U * M))); [exact E1|exact E2|exact E3]|]. lra.
Qed.
Lemma seg_core eps : eps_ok eps -> let lo := (1 - / 1125899906842624) * val eps in let hi := (1 + / 1125899906842624) * val eps in
  (D + 270 * (U * M) <= lo -> seg_contains (mkSeg s t) p eps true = true) /\ (hi + 270 * (U * M) <= D -> seg_contains (mkSeg s t) p eps true = false).
Proof.
  intros He. cbv zeta. pose proof (W_pos s t Hst) as LP. fold W L in LP. pose proof (moderate_sized M HM) as HS. pose proof (UM_small M HS) as UM. pose proof (sized_pos M HS) as M0.
  destruct (along_dbl s Hs) as [N1 A1]. destruct (along_dbl t Ht) as [N2 A2]. destruct (end_dbl s Hs) as (Ns & Bs & Es). destruct (end_dbl t Ht) as (Nt & Bt & Et).
  destruct (sq_test _ eps Ns Bs He) as [S1 S2]. destruct (sq_test _ eps Nt Bt He) as [T1 T2].
  destruct (seg_dir_dbl s t M HM Hs Ht G Hst) as (Nd & Uu & Ed & Ud). fold W L u d in Nd, Uu, Ed, Ud.
  destruct (foot_err s d p M (proj1 Hs) Nd (proj1 Hp) HS (proj2 Hs) (proj2 Hp) Ud) as (Nv & Bv & _).
  pose proof (foot_len s d p M (proj1 Hs) Nd (proj1 Hp) HS (proj2 Hs) (proj2 Hp) Ud u (16 * U) Uu Ed) as F. cbv zeta in F.
  set (v := vec_to p (line_proj (mkLine s d) p)) in *. destruct (sq_test v eps Nv (within_6 M v HM Bv) He) as [L1 L2].
  pose proof (coord_t (val3 s) (val3 t) (val3 p) LP) as CT. fold W L u in CT. rewrite CT in A2.
  pose proof (D_le (val3 s) (val3 t) (val3 p) LP D HD) as (Ds & Dt & Dr). pose proof (D_in (val3 s) (val3 t) (val3 p) LP D HD) as Din.
  pose proof (D_left (val3 s) (val3 t) (val3 p) LP D HD) as Dl. pose proof (D_right (val3 s) (val3 t) (val3 p) LP D HD) as Dg.
  pose proof (ends_bound (val3 s) (val3 t) (val3 p) LP) as (Bs' & Bt').
  fold W L u in Dr, Din, Dl, Dg, Bs', Bt'. set (a := dot u (psub (val3 p) (val3 s))) in *. set (r := dist (val3 p) (padd (val3 s) (pscale a u))) in *.
  assert (0 < val eps) as E0 by (destruct He as [_ [H _]]; pose proof (bpow_gt_0 radix2 (-400)); lra).
  rewrite !two_p in *. change (bpow radix2 (-50)) with (/ 1125899906842624) in *.
  set (lo := (1 - / 1125899906842624) * val eps) in *. set (hi := (1 + / 1125899906842624) * val eps) in *.
  replace (7 * (16 * U * M)) with (112 * (U * M)) in F by ring. set (um := U * M) in *.
  apply Rabs_def2_le in F. apply Rabs_def2_le in Es. apply Rabs_def2_le in Et. apply Rabs_def2_le in A1. apply Rabs_def2_le in A2.
  unfold seg_contains, line_contains, seg_line. cbn [s_src s_tgt l_dir nmul nltb F_num]. fold d v.
  set (sp1 := sprod d (vec_to s p)) in *. set (sp2 := sprod d (vec_to t p)) in *. cbn [andb]. split; intros H.
  - rewrite L1 by lra. cbn [negb]. destruct (xorb (nsign sp1) (nsign sp2)) eqn:X; [reflexivity|].
    destruct (Rle_lt_dec a (81 * um)) as [C1|C1].
    + rewrite S1; [reflexivity|]. destruct (Rle_lt_dec a 0) as [C2|C2]; [rewrite <- Dl in Es by exact C2; lra|].
      rewrite Rabs_pos_eq in Bs' by lra. lra.
    + destruct (sqlen (vec_to s p) <? eps * eps)%float; [reflexivity|]. rewrite T1; [reflexivity|].
      destruct (Rle_lt_dec L a) as [C2|C2]; [rewrite <- Dg in Et by exact C2; lra|]. rewrite Rabs_pos_eq in Bt' by lra.
      assert (L - a <= 81 * um); [|lra]. apply Rnot_lt_le. intros C3. rewrite (sign_pos sp1), (sign_neg sp2) in X by (assumption || lra). discriminate X.
  - destruct (Rle_lt_dec (hi + 180 * um) r) as [C1|C1]; [rewrite L2 by lra; reflexivity|].
    destruct (negb _); [reflexivity|]. rewrite S2 by lra. rewrite T2 by lra.
    replace (xorb (nsign sp1) (nsign sp2)) with false; [reflexivity|]. symmetry.
    destruct (Rle_lt_dec a 0) as [C2|C2].
    + rewrite Rabs_left1 in Bs' by exact C2. rewrite <- Dl in Bs' by exact C2. rewrite (sign_neg sp1), (sign_neg sp2) by (assumption || lra). reflexivity.
    + destruct (Rle_lt_dec L a) as [C3|C3].
      * rewrite Rabs_left1 in Bt' by lra. rewrite <- Dg in Bt' by exact C3. rewrite (sign_pos sp1), (sign_pos sp2) by (assumption || lra). reflexivity.
      * rewrite Din in H by lra. lra.
Qed.
Lemma seg_contains_dbl eps : tolerance eps -> decides (seg_contains (mkSeg s t) p eps true) D (val eps) (powerRZ 2 (-44) * M).
Proof.
  intros He. destruct (seg_core eps (tol_eps eps He)) as [A B]. cbv zeta in A, B. pose proof (UM_small M (moderate_sized M HM)) as UM.
  assert (powerRZ 2 (-44) * M = 512 * (U * M)) as R1 by (rewrite two_p; change (bpow radix2 (-44)) with (/ 17592186044416); unfold U; field). rewrite R1.
  unfold decides. rewrite !two_p. change (bpow radix2 (-50)) with (/ 1125899906842624). split; intros H; [apply A|apply B]; lra.
Qed.
End Contains.
