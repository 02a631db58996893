(** The default tolerance of segments and distances to segments, in double precision. *)

From Coq Require Import ZArith Reals Floats Lra Lia Psatz Bool.
From Flocq Require Import Core.Core IEEE754.BinarySingleNaN IEEE754.PrimFloat Relative.
From Verif Require Import Base NumModel VecModel LinModel RoundModel PolyModel DistModel GeoSpec LinSpec DblSpec GeoLemmas
  DblLemmas DblProofs DblLen DblEq LinDblSpec LinDblBase LinDblFoot LinDblProofs LinDblSeg.
Local Open Scope R_scope.

Lemma conf_dbl : number (confusion : PrimFloat.float) /\ Rabs (val confusion - / 10000000) <= U * / 10000000.
Proof.
  rewrite number_SF, val_SF. replace (Prim2SF confusion) with (S754_finite false 7555786372591432 (-76)) by (vm_compute; reflexivity).
  split; [reflexivity|]. cbn [BinarySingleNaN.SF2R cond_Zopp]. unfold F2R. cbn [Fnum Fexp]. change (bpow radix2 (-76)) with (/ 75557863725914323419136). unfold U. apply Rabs_le. lra.
Qed.

(** there is a distance to a segment *)
Lemma seg_dist_ex (s t p : pt) : s <> t -> exists D, dist_to (on_segment s t) p D.
Proof.
  intros Hst. set (W := psub t s). assert (0 < norm W) as HL.
  { apply norm_pos. intros E. apply Hst. unfold W in E. destruct s as [a b c], t as [a' b' c']. unfold psub, zero3 in E. cbn [vx vy vz] in E. injection E as E1 E2 E3. f_equal; lra. }
  set (L := norm W) in *. set (e := pscale (/ L) W). set (a := dot e (psub p s)).
  set (c := Rmax 0 (Rmin L a)). exists (dist p (padd s (pscale c e))).
  assert (0 <= c <= L) as Hc by (unfold c; split; [apply Rmax_l|apply Rmax_lub; [lra|apply Rmin_l]]). split.
  - exists (padd s (pscale c e)). split; [|reflexivity]. apply (seg_at s t p HL). exists c. split; [exact Hc|reflexivity].
  - intros y Hy. apply (seg_at s t p HL) in Hy. destruct Hy as (k & Hk & ->). apply (coord_le s t p HL). fold W L e a. change (norm (psub t s)) with L in *.
    unfold c, Rmax, Rmin. destruct (Rle_dec L a) as [H1|H1]; destruct (Rle_dec 0 _) as [H2|H2]; try lra.
    + rewrite !Rabs_left1 by lra. lra.
    + replace (a - a) with 0 by ring. rewrite Rabs_R0. apply Rabs_pos.
    + rewrite !Rabs_pos_eq by lra. lra.
Qed.

Section Default.
Variables (s t : V3 PrimFloat.float) (M : R).
Hypotheses (HM : modx M) (Hs : point_upto M s) (Ht : point_upto M t) (G : gap3 s t).
Let W := psub (val3 t) (val3 s).
Let L := norm W.
Hypothesis HL : powerRZ 2 (-300) <= L.
Lemma s_not_t : val3 s <> val3 t.
Proof.
  intros E. unfold L, W in HL. rewrite E in HL. replace (norm (psub (val3 t) (val3 t))) with 0 in HL.
  - rewrite two_p in HL. pose proof (bpow_gt_0 radix2 (-300)). lra.
  - symmetry. unfold norm. replace (dot _ _) with 0; [apply sqrt_0|]. unfold dot, psub, val3. cbn [vx vy vz]. ring.
Qed.
Lemma L_le : L <= 3467 / 1000 * M.
Proof. exact (proj2 (proj2 (proj2 (vec_err s t M (proj1 Hs) (proj1 Ht) (moderate_sized M HM) (proj2 Hs) (proj2 Ht))))). Qed.
Let eps := (confusion * seg_len (mkSeg s t))%float.
Lemma default_dbl : eps_ok eps /\ Rabs (val eps - / 10000000 * L) <= 12 * U * (/ 10000000 * L).
Proof.
  destruct (seg_vec s t M HM Hs Ht G) as (Nv & _ & _ & Ev). fold W L in Ev. pose proof L_le as LM. pose proof (moderate_sized M HM) as HS. pose proof (sized_pos M HS) as M0.
  destruct (vec_err s t M (proj1 Hs) (proj1 Ht) HS (proj2 Hs) (proj2 Ht)) as (_ & (E1 & E2 & E3) & (W1 & W2 & W3) & _). pose proof (UM_small M HS) as UM.
  assert (within3 (bpow radix2 450) (vec_to s t)) as B4.
  { apply (within_6 M _ HM). apply Rabs_def2_le in E1. apply Rabs_def2_le in E2. apply Rabs_def2_le in E3. apply Rabs_def2_le in W1. apply Rabs_def2_le in W2. apply Rabs_def2_le in W3.
    repeat split; apply Rabs_le; lra. }
  destruct (vlen_mixed (vec_to s t) Nv B4) as (Nl & _ & El). pose proof (norm_dif (val3 (vec_to s t)) W) as Dn. fold L in Dn. set (n := norm (val3 (vec_to s t))) in *.
  rewrite two_p in HL. assert (bpow radix2 (-500) <= U * L) as T.
  { change U with (bpow radix2 (-53)). apply Rle_trans with (bpow radix2 (-53) * bpow radix2 (-300)); [rewrite <- bpow_plus; apply bpow_le; lia|]. apply Rmult_le_compat_l; [apply bpow_ge_0|exact HL]. }
  pose proof (bpow_gt_0 radix2 (-300)) as P3. set (l := val (vlen (vec_to s t))) in *.
  assert (Rabs (l - L) <= 8 * (U * L)) as Ell.
  { apply Rabs_def2_le in El. apply Rabs_def2_le in Dn. unfold U in *. apply Rabs_le. lra. }
  destruct conf_dbl as [Nc Ec]. set (k := val confusion) in *.
  assert (Rabs (k * l - / 10000000 * L) <= 10 * U * (/ 10000000 * L)) as Ek.
  { replace (k * l - / 10000000 * L) with (/ 10000000 * (l - L) + (k - / 10000000) * l) by ring. eapply Rle_trans; [apply Rabs_triang|]. rewrite !Rabs_mult, (Rabs_pos_eq (/ 10000000)) by lra.
    assert (Rabs l <= 2 * L) as Bl by (apply Rabs_def2_le in Ell; unfold U in *; apply Rabs_le; lra).
    assert (Rabs (k - / 10000000) * Rabs l <= U * / 10000000 * (2 * L)) by (apply Rmult_le_compat; try apply Rabs_pos; assumption).
    assert (/ 10000000 * Rabs (l - L) <= / 10000000 * (8 * (U * L))) by (apply Rmult_le_compat_l; [lra|exact Ell]). lra. }
  assert (Rabs (k * l) <= 2 * (/ 10000000 * L)) as Bk by (apply Rabs_def2_le in Ek; unfold U in *; apply Rabs_le; lra).
  assert (bpow radix2 (-1000) <= 2 * (/ 10000000 * L)) as B1.
  { apply Rle_trans with (bpow radix2 (-24) * bpow radix2 (-300)); [rewrite <- bpow_plus; apply bpow_le; lia|]. change (bpow radix2 (-24)) with (/ 16777216). apply Rle_trans with (/ 16777216 * L); [apply Rmult_le_compat_l|]; lra. }
  destruct HM as [_ HM2]. rewrite two_p in HM2. assert (bpow radix2 404 <= bpow radix2 1000) as B2 by (apply bpow_le; lia).
  destruct (mul_err confusion (vlen (vec_to s t)) (2 * (/ 10000000 * L)) Nc Nl B1 ltac:(lra) Bk) as [Ne Ee].
  change (confusion * vlen (vec_to s t))%float with eps in Ne, Ee. fold k l in Ee.
  assert (Rabs (val eps - / 10000000 * L) <= 12 * U * (/ 10000000 * L)) as F.
  { apply Rabs_def2_le in Ee. apply Rabs_def2_le in Ek. unfold U in *. apply Rabs_le. lra. }
  split; [|exact F]. split; [exact Ne|]. apply Rabs_def2_le in F. unfold U in F.
  assert (bpow radix2 (-400) <= bpow radix2 (-60) * L) as B3.
  { apply Rle_trans with (bpow radix2 (-60) * bpow radix2 (-300)); [rewrite <- bpow_plus; apply bpow_le; lia|]. apply Rmult_le_compat_l; [apply bpow_ge_0|exact HL]. }
  change (bpow radix2 (-60)) with (/ 1152921504606846976) in B3.
  assert (bpow radix2 404 = 16 * bpow radix2 400) as B5 by (change 404%Z with (4 + 400)%Z; rewrite bpow_plus; reflexivity). pose proof (bpow_gt_0 radix2 400). lra.
Qed.
Lemma default_contains p D : point_upto M p -> dist_to (on_segment (val3 s) (val3 t)) (val3 p) D ->
  (D + 300 * (U * M) <= / 10000000 * L -> seg_contains_default (mkSeg s t) p true = true) /\
  (/ 10000000 * L + 300 * (U * M) <= D -> seg_contains_default (mkSeg s t) p true = false).
Proof.
  intros Hp HD. destruct default_dbl as [He Ee]. destruct (seg_core s t p M D HM Hs Ht Hp G s_not_t HD eps He) as [A B]. cbv zeta in A, B.
  unfold seg_contains_default. cbn [nmul F_num]. fold eps. pose proof L_le as LM. pose proof (UM_small M (moderate_sized M HM)) as UM. apply Rabs_def2_le in Ee. unfold U in *.
  split; intros H; [apply A|apply B]; lra.
Qed.
Lemma default_contains_dbl p D : point_upto M p -> dist_to (on_segment (val3 s) (val3 t)) (val3 p) D ->
  decides (seg_contains_default (mkSeg s t) p true) D (L / 10000000) (powerRZ 2 (-44) * M).
Proof.
  intros Hp HD. destruct (default_contains p D Hp HD) as [A B]. pose proof L_le as LM. pose proof (UM_small M (moderate_sized M HM)) as UM.
  assert (0 < L) as L0 by (rewrite two_p in HL; pose proof (bpow_gt_0 radix2 (-300)); lra).
  assert (powerRZ 2 (-44) * M = 512 * (U * M)) as R1 by (rewrite two_p; change (bpow radix2 (-44)) with (/ 17592186044416); unfold U; field). unfold decides. rewrite R1.
  rewrite !two_p. change (bpow radix2 (-50)) with (/ 1125899906842624). split; intros H; [apply A|apply B]; lra.
Qed.
End Default.

(** the projected point *)
Section Proj.
Variables (s d p : V3 PrimFloat.float) (M : R).
Hypotheses (Ns : number3 s) (Nd : number3 d) (Np : number3 p).
Hypotheses (HM : sized M) (Bs : within3 M s) (Bp : within3 M p).
Hypothesis Ud : norm (val3 d) <= 1001 / 1000.
Lemma proj_err : let q := line_proj (mkLine s d) p in
  number3 q /\ within3 (5 * M) q /\ norm (psub (val3 q) (padd (val3 s) (pscale (dot (val3 d) (psub (val3 p) (val3 s))) (val3 d)))) <= 60 * (U * M).
Proof.
  intros q. destruct (along_err s d p M Ns Nd Np HM Bs Bp Ud) as [Nt Et]. destruct (vec_err s p M Ns Np HM Bs Bp) as (_ & _ & _ & NW). destruct (dir_comp d Ud) as (D1 & D2 & D3). pose proof (UM_small M HM) as UM. pose proof (sized_pos M HM) as M0.
  unfold q, line_proj. cbn [l_sup l_dir]. set (t := sprod d (vec_to s p)) in *. set (tau := dot (val3 d) (psub (val3 p) (val3 s))) in *.
  assert (Rabs tau <= 3471 / 1000 * M) as Bt.
  { eapply Rle_trans; [apply cauchy_norm|]. eapply Rle_trans; [apply Rmult_le_compat; [apply norm_nonneg|apply norm_nonneg|exact Ud|exact NW]|]. lra. }
  assert (Rabs (val t) <= 35 / 10 * M) as Bt' by (apply Rabs_def2_le in Et; apply Rabs_def2_le in Bt; apply Rabs_le; lra).
  pose proof (sized_scale (351 / 100) M ltac:(lra) HM) as [S1 S2]. pose proof (sized_scale (46 / 10) M ltac:(lra) HM) as [S3 S4].
  assert (K : forall dx sx : PrimFloat.float, number dx -> number sx -> Rabs (val dx) <= 1001 / 1000 -> Rabs (val sx) <= M ->
    number (sx + dx * t)%float /\ Rabs (val (sx + dx * t)%float) <= 5 * M /\
    Rabs (val (sx + dx * t)%float - (val sx + tau * val dx)) <= 34 * (U * M)).
  { intros dx sx N1 N2 B1 B2. pose proof (prod_le _ _ _ _ B1 Bt') as Q1. pose proof (prod_err _ _ _ _ _ B1 Et) as Q2.
    destruct (mul_err dx t (351 / 100 * M) N1 Nt S1 S2 ltac:(lra)) as [Nq Eq]. set (qq := (dx * t)%float) in *.
    replace (U * (351 / 100 * M)) with (351 / 100 * (U * M)) in Eq by ring.
    apply Rabs_def2_le in Q1. apply Rabs_def2_le in Q2. apply Rabs_def2_le in Eq. apply Rabs_def2_le in B2.
    destruct (add_err sx qq (46 / 10 * M) N2 Nq S3 S4) as [Nr Er]; [apply Rabs_le; lra|]. set (r := (sx + qq)%float) in *.
    replace (U * (46 / 10 * M)) with (46 / 10 * (U * M)) in Er by ring. apply Rabs_def2_le in Er.
    split; [exact Nr|]. split; apply Rabs_le; lra. }
  destruct Ns as (N1 & N2 & N3), Nd as (N7 & N8 & N9), Bs as (B1 & B2 & B3).
  destruct (K _ _ N7 N1 D1 B1) as (X1 & X2 & X3). destruct (K _ _ N8 N2 D2 B2) as (Y1 & Y2 & Y3). destruct (K _ _ N9 N3 D3 B3) as (Z1 & Z2 & Z3).
  unfold vadd, vscale, number3, within3. cbn [vx vy vz nadd nmul F_num].
  split; [auto|]. split; [auto|]. eapply Rle_trans; [apply (norm_le _ (34 * (U * M)))|lra]; unfold psub, padd, pscale, val3; cbn [vx vy vz]; assumption.
Qed.
(** compared with the exact direction e *)
Lemma proj_near (e : pt) k : unit3 e -> norm (psub (val3 d) e) <= k ->
  dist (val3 (line_proj (mkLine s d) p)) (padd (val3 s) (pscale (dot e (psub (val3 p) (val3 s))) e)) <= 60 * (U * M) + 7 * (k * M).
Proof.
  intros He Hk. destruct proj_err as (_ & _ & F). destruct (vec_err s p M Ns Np HM Bs Bp) as (_ & _ & _ & NW). pose proof (two_feet (val3 s) (val3 d) e (val3 p) k He Hk) as T.
  set (q := val3 (line_proj (mkLine s d) p)) in *. set (y := padd (val3 s) (pscale (dot e (psub (val3 p) (val3 s))) e)) in *. pose proof (sized_pos M HM) as M0.
  set (X := padd (val3 s) (pscale (dot (val3 d) (psub (val3 p) (val3 s))) (val3 d))) in *.
  assert (0 <= k) as K0 by (eapply Rle_trans; [apply norm_nonneg|exact Hk]).
  assert (k * (1 + norm (val3 d)) * dist (val3 p) (val3 s) <= 7 * (k * M)) as Q.
  { rewrite Rmult_assoc. replace (7 * (k * M)) with (k * (7 * M)) by ring. apply Rmult_le_compat_l; [exact K0|].
    apply Rle_trans with (2001 / 1000 * (3467 / 1000 * M)); [|lra]. pose proof (norm_nonneg (val3 d)). apply Rmult_le_compat; [lra|apply norm_nonneg|lra|exact NW]. }
  replace (psub (psub X (val3 p)) (psub y (val3 p))) with (psub X y) in T.
  2:{ destruct X as [x1 x2 x3], y as [y1 y2 y3]. unfold psub, val3. cbn [vx vy vz]. f_equal; ring. }
  unfold dist. replace (psub q y) with (padd (psub q X) (psub X y)).
  2:{ destruct q as [q1 q2 q3], X as [x1 x2 x3], y as [y1 y2 y3]. unfold psub, padd. cbn [vx vy vz]. f_equal; ring. }
  eapply Rle_trans; [apply norm_tri|]. lra.
Qed.
End Proj.

Section Distance.
Variables (s t p : V3 PrimFloat.float) (M D : R).
Hypotheses (HM : modx M) (HM5 : modx (5 * M)) (Hs : point_upto M s) (Ht : point_upto M t) (Hp : point_upto M p) (G : gap3 s t).
Let W := psub (val3 t) (val3 s).
Let L := norm W.
Hypothesis HL : powerRZ 2 (-300) <= L.
Hypothesis HD : dist_to (on_segment (val3 s) (val3 t)) (val3 p) D.
Lemma upto_5 q : point_upto M q -> point_upto (5 * M) q.
Proof. intros [N (A & B & C)]. pose proof (sized_pos M (moderate_sized M HM)). split; [exact N|]. repeat split; lra. Qed.
Lemma min_err (a b : PrimFloat.float) x y r : number a -> number b -> Rabs (val a - x) <= r -> Rabs (val b - y) <= r ->
  number (nmin a b) /\ Rabs (val (nmin a b) - Rmin x y) <= r.
Proof.
  intros Na Nb Ha Hb. unfold nmin. cbn [nltb F_num]. apply Rabs_def2_le in Ha. apply Rabs_def2_le in Hb. destruct (b <? a)%float eqn:E.
  - apply (f_ltb _ _ Nb Na) in E. split; [exact Nb|]. unfold Rmin. destruct (Rle_dec x y); apply Rabs_le; lra.
  - apply (f_ltb_false _ _ Nb Na) in E. split; [exact Na|]. unfold Rmin. destruct (Rle_dec x y); apply Rabs_le; lra.
Qed.
Lemma end_len q : point_upto M q -> number (vlen (vec_to p q)) /\ Rabs (val (vlen (vec_to p q)) - dist (val3 p) (val3 q)) <= 30 * (U * M).
Proof.
  intros Hq. destruct (end_dbl q M HM Hq p Hp) as (Nv & Bv & E). destruct (vlen_mixed _ Nv Bv) as (Nl & _ & El). split; [exact Nl|].
  unfold dist in *. rewrite (norm_swap (val3 p)). pose proof (moderate_sized M HM) as HS. destruct (vec_err p q M (proj1 Hp) (proj1 Hq) HS (proj2 Hp) (proj2 Hq)) as (_ & _ & _ & NW).
  pose proof (UM_small M HS) as UM. set (n := norm (val3 (vec_to p q))) in *.
  assert (bpow radix2 (-500) <= U * M) as T.
  { destruct HM as [H _]. rewrite two_p in H. change U with (bpow radix2 (-53)). apply Rle_trans with (bpow radix2 (-53) * bpow radix2 (-400)); [rewrite <- bpow_plus; apply bpow_le; lia|].
    apply Rmult_le_compat_l; [apply bpow_ge_0|exact H]. }
  apply Rabs_def2_le in E. apply Rabs_def2_le in El. assert (n <= 4 * M) as Bn by lra.
  assert (5 * U * n <= 20 * (U * M)) by (unfold U in *; lra). apply Rabs_le. lra.
Qed.
Lemma dist_segment_dbl : powerRZ 2 (-42) * M <= L / 10000000 ->
  number (dist_segment p (mkSeg s t)) /\ D - (L / 10000000 + powerRZ 2 (-42) * M) <= val (dist_segment p (mkSeg s t)) <= D + powerRZ 2 (-45) * M.
Proof.
  intros Hbig. pose proof (s_not_t s t HL) as Hst. pose proof (W_pos s t Hst) as LP. fold W L in LP. pose proof (moderate_sized M HM) as HS. pose proof (UM_small M HS) as UM.
  set (u := pscale (/ L) W). destruct (seg_dir_dbl s t M HM Hs Ht G Hst) as (Nd & Uu & Ed & Ud). fold W L u in Uu, Ed. set (d := seg_dir (mkSeg s t)) in *.
  destruct (proj_err s d p M (proj1 Hs) Nd (proj1 Hp) HS (proj2 Hs) (proj2 Hp) Ud) as (Nq & Bq & _).
  pose proof (proj_near s d p M (proj1 Hs) Nd (proj1 Hp) HS (proj2 Hs) (proj2 Hp) Ud u (16 * U) Uu Ed) as Qy.
  destruct (foot_err s d p M (proj1 Hs) Nd (proj1 Hp) HS (proj2 Hs) (proj2 Hp) Ud) as (Nv & Bv & _).
  pose proof (foot_len s d p M (proj1 Hs) Nd (proj1 Hp) HS (proj2 Hs) (proj2 Hp) Ud u (16 * U) Uu Ed) as F. cbv zeta in F.
  set (q := line_proj (mkLine s d) p) in *. set (v := vec_to p q) in *. set (y := padd (val3 s) (pscale (dot u (psub (val3 p) (val3 s))) u)) in *.
  destruct (vlen_mixed v Nv (within_6 M v HM Bv)) as (Nl & _ & El).
  assert (norm (val3 v) <= 11 * M) as N6 by (destruct Bv as (A & B & C); pose proof (norm_le (val3 v) (6 * M) A B C); lra).
  assert (bpow radix2 (-500) <= U * M) as T.
  { destruct HM as [H _]. rewrite two_p in H. change U with (bpow radix2 (-53)). apply Rle_trans with (bpow radix2 (-53) * bpow radix2 (-400)); [rewrite <- bpow_plus; apply bpow_le; lia|].
    apply Rmult_le_compat_l; [apply bpow_ge_0|exact H]. }
  assert (5 * U * norm (val3 v) <= 55 * (U * M)) as E5 by (unfold U in *; lra).
  destruct (seg_dist_ex (val3 s) (val3 t) (val3 q) Hst) as [Dq HDq].
  destruct (default_contains s t (5 * M) HM5 (upto_5 s Hs) (upto_5 t Ht) G HL q Dq (conj Nq Bq) HDq) as [C1 C2]. fold W L in C1, C2.
  replace (300 * (U * (5 * M))) with (1500 * (U * M)) in C1, C2 by ring.
  replace (7 * (16 * U * M)) with (112 * (U * M)) in F, Qy by ring.
  assert (powerRZ 2 (-42) * M = 2048 * (U * M)) as R1 by (rewrite two_p; change (bpow radix2 (-42)) with (/ 4398046511104); unfold U; field). rewrite R1 in *.
  assert (powerRZ 2 (-45) * M = 256 * (U * M)) as R2 by (rewrite two_p; change (bpow radix2 (-45)) with (/ 35184372088832); unfold U; field). rewrite R2.
  pose proof (D_le (val3 s) (val3 t) (val3 p) LP D HD) as (Ds & Dt & Dr). fold W L u y in Dr.
  unfold dist_segment. cbn [s_src s_tgt]. change (line_proj (seg_line (mkSeg s t)) p) with q. fold v.
  set (um := U * M) in *. apply Rabs_def2_le in F. apply Rabs_def2_le in El.
  destruct (seg_contains_default (mkSeg s t) q true).
  - split; [exact Nl|]. assert (Dq < / 10000000 * L + 1500 * um) as Hq.
    { apply Rnot_le_lt. intros H. apply C2 in H. discriminate H. }
    assert (D <= dist (val3 p) y + (60 * um + 112 * um) + Dq) as Hd; [|lra].
    destruct HDq as [(z & Hz & Ez) _]. destruct HD as [_ Hm]. eapply Rle_trans; [apply (Hm z Hz)|].
    pose proof (norm_tri (psub (val3 p) (val3 q)) (psub (val3 q) z)) as T1. replace (padd (psub (val3 p) (val3 q)) (psub (val3 q) z)) with (psub (val3 p) z) in T1.
    2:{ destruct z as [z1 z2 z3]. unfold psub, padd, val3. cbn [vx vy vz]. f_equal; ring. }
    pose proof (norm_tri (psub (val3 p) y) (psub y (val3 q))) as T2. replace (padd (psub (val3 p) y) (psub y (val3 q))) with (psub (val3 p) (val3 q)) in T2.
    2:{ destruct y as [y1 y2 y3]. unfold psub, padd, val3. cbn [vx vy vz]. f_equal; ring. }
    rewrite (norm_swap y) in T2. unfold dist in *. lra.
  - assert (/ 10000000 * L < Dq + 1500 * um) as Hq.
    { apply Rnot_le_lt. intros H. assert (Dq + 1500 * um <= / 10000000 * L) as H' by lra. apply C1 in H'. discriminate H'. }
    destruct (end_len s Hs) as [N1 E1]. destruct (end_len t Ht) as [N2 E2]. destruct (min_err _ _ _ _ _ N1 N2 E1 E2) as [Nm Em]. split; [exact Nm|].
    assert (Rmin (dist (val3 p) (val3 s)) (dist (val3 p) (val3 t)) = D) as Hmin.
    { set (a := dot u (psub (val3 p) (val3 s))) in *. destruct (Rle_lt_dec a 0) as [A|A].
      - pose proof (D_left (val3 s) (val3 t) (val3 p) LP D HD A) as E. rewrite <- E. apply Rmin_left. lra.
      - destruct (Rle_lt_dec L a) as [B|B].
        + pose proof (D_right (val3 s) (val3 t) (val3 p) LP D HD B) as E. rewrite <- E. apply Rmin_right. lra.
        + exfalso. assert (Dq <= dist (val3 q) y) as K; [|lra]. destruct HDq as [_ Hm]. apply Hm. apply (seg_at (val3 s) (val3 t) (val3 p) LP). exists a. split; [fold W L; lra|reflexivity]. }
    rewrite Hmin in Em. apply Rabs_def2_le in Em. fold um in Em. lra.
Qed.
End Distance.

(** the statements of C104 *)
Lemma c104_line_distance_lemma : forall s d p M D, moderate M -> point_upto M s -> point_upto M p -> direction d ->
  dist_to (on_line (val3 s) (val3 d)) (val3 p) D ->
  number (dist_line p (mkLine s d)) /\ Rabs (val (dist_line p (mkLine s d)) - D) <= powerRZ 2 (-45) * M.
Proof. intros s d p M D HM Hs Hp Hd HD. exact (line_distance_dbl s d p M D (moderate_x M HM) Hs Hp Hd HD). Qed.
Lemma c104_line_lemma : forall s d p e M D, moderate M -> point_upto M s -> point_upto M p -> direction d -> tolerance e ->
  dist_to (on_line (val3 s) (val3 d)) (val3 p) D -> decides (line_contains (mkLine s d) p e) D (val e) (powerRZ 2 (-46) * M).
Proof. intros s d p e M D HM Hs Hp Hd He HD. exact (line_contains_dbl s d p M D (moderate_x M HM) Hs Hp Hd HD e He). Qed.
Lemma c104_plane_lemma : forall (pl : plane PrimFloat.float) p e M D, moderate M -> point_upto M (pl_sup pl) -> point_upto M p -> direction (pl_n pl) -> number e ->
  dist_to (on_plane (val3 (pl_sup pl)) (val3 (pl_n pl))) (val3 p) D ->
  (D + powerRZ 2 (-47) * M < val e -> plane_contains pl p e = true) /\ (val e + powerRZ 2 (-47) * M <= D -> plane_contains pl p e = false).
Proof. intros pl p e M D HM. exact (plane_contains_dbl pl p e M D (moderate_x M HM)). Qed.
Lemma c104_segment_lemma : forall s t p e M D, moderate M -> point_upto M s -> point_upto M t -> point_upto M p -> gap3 s t -> val3 s <> val3 t -> tolerance e ->
  dist_to (on_segment (val3 s) (val3 t)) (val3 p) D -> decides (seg_contains (mkSeg s t) p e true) D (val e) (powerRZ 2 (-44) * M).
Proof. intros s t p e M D HM Hs Ht Hp G Hst He HD. exact (seg_contains_dbl s t p M D (moderate_x M HM) Hs Ht Hp G Hst HD e He). Qed.
Lemma c104_segment_default_lemma : forall s t p M D, moderate M -> point_upto M s -> point_upto M t -> point_upto M p -> gap3 s t ->
  let L := norm (psub (val3 t) (val3 s)) in powerRZ 2 (-300) <= L ->
  dist_to (on_segment (val3 s) (val3 t)) (val3 p) D -> decides (seg_contains_default (mkSeg s t) p true) D (L / 10000000) (powerRZ 2 (-44) * M).
Proof. intros s t p M D HM Hs Ht Hp G L HL HD. exact (default_contains_dbl s t M (moderate_x M HM) Hs Ht G HL p D Hp HD). Qed.
Lemma c104_segment_distance_lemma : forall s t p M D, moderate M -> point_upto M s -> point_upto M t -> point_upto M p -> gap3 s t ->
  let L := norm (psub (val3 t) (val3 s)) in powerRZ 2 (-300) <= L -> powerRZ 2 (-42) * M <= L / 10000000 ->
  dist_to (on_segment (val3 s) (val3 t)) (val3 p) D ->
  number (dist_segment p (mkSeg s t)) /\ D - (L / 10000000 + powerRZ 2 (-42) * M) <= val (dist_segment p (mkSeg s t)) <= D + powerRZ 2 (-45) * M.
Proof. intros s t p M D HM Hs Ht Hp G L HL HB HD. exact (dist_segment_dbl s t p M D (moderate_x M HM) (moderate_5 M HM) Hs Ht Hp G HL HD HB). Qed.
