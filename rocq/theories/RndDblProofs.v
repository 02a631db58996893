(** Cylinders and spheres in double precision. *)

From Coq Require Import ZArith Reals Floats Lra Lia Psatz Bool.
From Flocq Require Import Core.Core IEEE754.BinarySingleNaN IEEE754.PrimFloat Relative.
From Verif Require Import Base NumModel VecModel LinModel RoundModel PolyModel DistModel GeoSpec LinSpec DblSpec GeoLemmas
  DblLemmas DblProofs DblLen DblEq LinDblSpec LinDblBase LinDblFoot LinDblProofs LinDblSeg LinDblDist RndDblSpec.
Local Open Scope R_scope.

Lemma f_leb x y : number x -> number y -> PrimFloat.leb x y = true <-> val x <= val y.
Proof.
  intros Hx Hy. rewrite leb_equiv. rewrite (Bleb_correct _ _ _ _ Hx Hy). fold (val x) (val y).
  destruct (Rle_bool_spec (val x) (val y)); split; intros; try lra; try discriminate; try reflexivity.
Qed.
Lemma f_leb_false x y : number x -> number y -> PrimFloat.leb x y = false <-> val y < val x.
Proof.
  intros Hx Hy. rewrite leb_equiv. rewrite (Bleb_correct _ _ _ _ Hx Hy). fold (val x) (val y).
  destruct (Rle_bool_spec (val x) (val y)); split; intros; try lra; try discriminate; try reflexivity.
Qed.

Section Squares.
Variables (v : V3 PrimFloat.float) (r e : PrimFloat.float).
Hypotheses (Nv : number3 v) (Bv : within3 (bpow radix2 450) v) (Nr : number r) (Br : 0 <= val r <= bpow radix2 404) (He : eps_ok e).
Let n := norm (val3 v).
Let K := val r * val r + val e * val e.
Let c := / 1125899906842624.
Lemma K_pos : 0 < val e * val e /\ 0 <= val r * val r /\ tiny <= / 1000000000000000000000000 * (val e * val e).
Proof.
  destruct He as (_ & E1 & _). pose proof (bpow_gt_0 radix2 (-400)) as P4. split; [apply Rmult_lt_0_compat; lra|]. split; [apply Rle_0_sqr|].
  apply Rle_trans with (bpow radix2 (-100) * (bpow radix2 (-400) * bpow radix2 (-400))).
  - unfold tiny. rewrite <- !bpow_plus. apply bpow_le. lia.
  - apply Rmult_le_compat; [apply bpow_ge_0| |change (bpow radix2 (-100)) with (/ 1267650600228229401496703205376); lra|apply Rmult_le_compat; lra].
    apply Rmult_le_pos; apply bpow_ge_0.
Qed.
Lemma Q_sq : widened (val r) (val e) * widened (val r) (val e) = K /\ 0 <= widened (val r) (val e).
Proof. unfold widened. split; [apply sqrt_sqrt; pose proof K_pos; unfold K; lra|apply sqrt_pos]. Qed.
Lemma below_sq : n <= (1 - c) * widened (val r) (val e) -> n * n <= (1 - c) * (1 - c) * K.
Proof.
  intros H. destruct Q_sq as [Q Q0]. rewrite <- Q. replace ((1 - c) * (1 - c) * (widened (val r) (val e) * widened (val r) (val e))) with ((1 - c) * widened (val r) (val e) * ((1 - c) * widened (val r) (val e))) by ring.
  apply Rmult_le_compat; try assumption; apply norm_nonneg.
Qed.
Lemma above_sq : (1 + c) * widened (val r) (val e) <= n -> (1 + c) * (1 + c) * K <= n * n.
Proof.
  intros H. destruct Q_sq as [Q Q0]. rewrite <- Q. replace ((1 + c) * (1 + c) * (widened (val r) (val e) * widened (val r) (val e))) with ((1 + c) * widened (val r) (val e) * ((1 + c) * widened (val r) (val e))) by ring.
  assert (0 <= (1 + c) * widened (val r) (val e)) by (apply Rmult_le_pos; [unfold c; lra|assumption]). apply Rmult_le_compat; assumption.
Qed.
Lemma squares : (number (r * r)%float /\ 0 <= val (r * r)%float <= bpow radix2 900 /\ Rabs (val (r * r)%float - val r * val r) <= U * (val r * val r) + tiny) /\
  (number (e * e)%float /\ 0 <= val (e * e)%float <= bpow radix2 900 /\ Rabs (val (e * e)%float - val e * val e) <= U * (val e * val e) + tiny).
Proof.
  destruct He as (Ne & E1 & E2). pose proof (bpow_gt_0 radix2 (-400)) as P4. assert (bpow radix2 404 <= bpow radix2 450) as B4 by (apply bpow_le; lia). assert (bpow radix2 400 <= bpow radix2 450) as B5 by (apply bpow_le; lia).
  split; apply square_mixed; try assumption; rewrite Rabs_pos_eq; lra.
Qed.
(** sqlen v <= r r + e e *)
Lemma le_test :
  (n <= (1 - c) * widened (val r) (val e) -> (sqlen v <=? r * r + e * e)%float = true) /\
  ((1 + c) * widened (val r) (val e) <= n -> (sqlen v <=? r * r + e * e)%float = false).
Proof.
  destruct (sqlen_mixed v Nv Bv) as (Ns & Ps & Es). fold n in Es. destruct squares as ((N1 & P1 & E1) & (N2 & P2 & E2)). destruct K_pos as (Ke & Kr & T). pose proof tiny_pos as T0.
  pose proof (bpow_gt_0 radix2 900) as G. assert (2 * bpow radix2 900 <= bpow radix2 1023) as B9.
  { change 2 with (bpow radix2 1). rewrite <- bpow_plus. apply bpow_le. lia. }
  destruct (f_add _ _ N1 N2) as [N3 V3]; [rewrite Rabs_pos_eq; lra|].
  pose proof (rel_sum _ _ (val_format (r * r)%float) (val_format (e * e)%float) (proj1 P1) (proj1 P2)) as S. rewrite <- V3 in S. unfold lo, hi in S.
  apply Rabs_def2_le in Es. apply Rabs_def2_le in E1. apply Rabs_def2_le in E2. unfold U in *. pose proof (Rle_0_sqr n) as Qn. unfold Rsqr in Qn. split; intros H.
  - apply below_sq in H. unfold c, K in H. apply (f_leb _ _ Ns N3). lra.
  - apply above_sq in H. unfold c, K in H. apply (f_leb_false _ _ Ns N3). lra.
Qed.
(** sqlen v - r r < e e *)
Lemma sub_test :
  (n <= (1 - c) * widened (val r) (val e) -> (sqlen v - r * r <? e * e)%float = true) /\
  ((1 + c) * widened (val r) (val e) <= n -> (sqlen v - r * r <? e * e)%float = false).
Proof.
  destruct (sqlen_mixed v Nv Bv) as (Ns & Ps & Es). fold n in Es. destruct squares as ((N1 & P1 & E1) & (N2 & P2 & E2)). destruct K_pos as (Ke & Kr & T). pose proof tiny_pos as T0.
  assert (bpow radix2 910 <= bpow radix2 1023) as B1 by (apply bpow_le; lia). assert (bpow radix2 900 <= bpow radix2 1023) as B2 by (apply bpow_le; lia).
  destruct (f_sub _ _ Ns N1) as [N3 V3]; [apply Rabs_le; lra|].
  pose proof (add_error _ _ (val_format (sqlen v)) (generic_format_opp _ _ _ (val_format (r * r)%float))) as S. fold (val (sqlen v) - val (r * r)%float) in S. rewrite <- V3, two_p in S. change (bpow radix2 (-53)) with U in S.
  set (x := val (sqlen v) - val (r * r)%float) in *. apply Rabs_def2_le in Es. apply Rabs_def2_le in E1. apply Rabs_def2_le in E2. pose proof (Rle_0_sqr n) as Qn. unfold Rsqr in Qn. split; intros H.
  - apply below_sq in H. unfold c, K in H. apply (f_ltb _ _ N3 N2). destruct (Rle_lt_dec x 0) as [X|X].
    + rewrite (Rabs_left1 x) in S by exact X. apply Rabs_def2_le in S. unfold U in *. lra.
    + rewrite (Rabs_pos_eq x) in S by lra. apply Rabs_def2_le in S. unfold x in *. unfold U in *. lra.
  - apply above_sq in H. unfold c, K in H. apply (f_ltb_false _ _ N3 N2).
    assert (0 <= x) as X by (unfold x, U in *; lra). rewrite (Rabs_pos_eq x) in S by lra. apply Rabs_def2_le in S. unfold x in *. unfold U in *. lra.
Qed.
End Squares.

Lemma modx_404 M : modx M -> M <= bpow radix2 404.
Proof. intros [_ H]. rewrite two_p in H. exact H. Qed.
Lemma sphere_dbl (s : sphere PrimFloat.float) p e M : moderate M -> point_upto M (sp_c s) -> point_upto M p -> radius_upto M (sp_r s) -> tolerance e ->
  decides (sphere_contains s p e) (dist (val3 p) (val3 (sp_c s))) (widened (val (sp_r s)) (val e)) (powerRZ 2 (-51) * M).
Proof.
  intros HM Hc Hp [Nr Br] He. pose proof (moderate_x M HM) as HX. pose proof (modx_404 M HX) as H4. destruct (end_dbl p M HX Hp (sp_c s) Hc) as (Nv & Bv & E).
  destruct (sub_test _ (sp_r s) e Nv Bv Nr ltac:(lra) (tol_eps e He)) as [A B]. unfold decides, sphere_contains. cbn [nltb nsub nmul F_num]. rewrite !two_p.
  change (bpow radix2 (-50)) with (/ 1125899906842624). replace (bpow radix2 (-51)) with (4 * U) by (change (bpow radix2 (-51)) with (/ 2251799813685248); unfold U; field). apply Rabs_def2_le in E. split; intros H; [apply A|apply B]; lra.
Qed.

(** ** Cylinders *)
Lemma foot_is (s t p y : pt) : 0 < norm (psub t s) -> foot s t p y ->
  y = padd s (pscale (dot (pscale (/ norm (psub t s)) (psub t s)) (psub p s)) (pscale (/ norm (psub t s)) (psub t s))).
Proof.
  intros HL [(a & ->) Ho]. set (W := psub t s) in *. set (L := norm W) in *.
  assert (dot (psub p s) W = a * (L * L)) as E.
  { unfold L. rewrite norm_sq. clearbody W. destruct p as [p1 p2 p3], s as [s1 s2 s3], W as [w1 w2 w3]. unfold dot, psub, padd, pscale in *. cbn [vx vy vz] in *. lra. }
  assert (dot (pscale (/ L) W) (psub p s) = a * L) as ->.
  { transitivity (/ L * dot (psub p s) W); [clearbody W; clear; destruct W as [w1 w2 w3]; unfold dot, pscale; cbn [vx vy vz]; ring|]. rewrite E. field. lra. }
  clearbody W. destruct s as [s1 s2 s3], W as [w1 w2 w3]. unfold padd, pscale. cbn [vx vy vz]. f_equal; field; lra.
Qed.
Section Cyl.
Variables (s t p : V3 PrimFloat.float) (M D : R) (y : pt).
Hypotheses (HM : moderate M) (Hs : point_upto M s) (Ht : point_upto M t) (Hp : point_upto M p) (G : gap3 s t) (Hst : val3 s <> val3 t).
Hypothesis Hy : foot (val3 s) (val3 t) (val3 p) y.
Hypothesis HD : dist_to (on_segment (val3 s) (val3 t)) y D.
Let q := line_proj (seg_line (mkSeg s t)) p.
Let rho := powerRZ 2 (-42) * M.
Lemma rho_is : rho = 2048 * (U * M).
Proof. unfold rho. rewrite two_p. change (bpow radix2 (-42)) with (/ 4398046511104). unfold U. field. Qed.
(** the projected point and its distance *)
Lemma axis_dbl : point_upto (5 * M) q /\ dist (val3 q) y <= 172 * (U * M) /\
  number3 (vec_to q p) /\ within3 (bpow radix2 450) (vec_to q p) /\ Rabs (norm (val3 (vec_to q p)) - dist (val3 p) y) <= 192 * (U * M).
Proof.
  pose proof (moderate_x M HM) as HX. pose proof (moderate_5 M HM) as H5. pose proof (moderate_sized M HX) as HS. pose proof (W_pos s t Hst) as LP.
  destruct (seg_dir_dbl s t M HX Hs Ht G Hst) as (Nd & Uu & Ed & Ud). set (u := pscale (/ norm (psub (val3 t) (val3 s))) (psub (val3 t) (val3 s))) in *. set (d := seg_dir (mkSeg s t)) in *.
  destruct (proj_err s d p M (proj1 Hs) Nd (proj1 Hp) HS (proj2 Hs) (proj2 Hp) Ud) as (Nq & Bq & _).
  pose proof (proj_near s d p M (proj1 Hs) Nd (proj1 Hp) HS (proj2 Hs) (proj2 Hp) Ud u (16 * U) Uu Ed) as Qy.
  change (line_proj (mkLine s d) p) with q in *. pose proof (foot_is _ _ _ _ LP Hy) as Fy. fold u in Fy. rewrite <- Fy in Qy. replace (7 * (16 * U * M)) with (112 * (U * M)) in Qy by ring.
  split; [split; assumption|]. assert (dist (val3 q) y <= 172 * (U * M)) as Q1 by lra. split; [exact Q1|].
  destruct (end_dbl p (5 * M) H5 (upto_5 M HX p Hp) q (conj Nq Bq)) as (Nv & Bv & E). split; [exact Nv|]. split; [exact Bv|].
  replace (4 * (U * (5 * M))) with (20 * (U * M)) in E by ring.
  pose proof (norm_dif (psub (val3 p) (val3 q)) (psub (val3 p) y)) as K. replace (psub (psub (val3 p) (val3 q)) (psub (val3 p) y)) with (psub y (val3 q)) in K.
  2:{ destruct y as [y1 y2 y3]. unfold psub, val3. cbn [vx vy vz]. f_equal; ring. }
  rewrite (norm_swap y (val3 q)) in K. unfold dist in *. apply Rabs_def2_le in K. apply Rabs_def2_le in E. apply Rabs_le. lra.
Qed.
Lemma along_axis e : tolerance e -> let lo := (1 - / 1125899906842624) * val e in let hi := (1 + / 1125899906842624) * val e in
  (D + rho <= lo -> seg_contains (mkSeg s t) q e true = true) /\ (hi + rho <= D -> seg_contains (mkSeg s t) q e true = false).
Proof.
  intros He. cbv zeta. rewrite rho_is. destruct axis_dbl as (Hq & Q & _). pose proof (moderate_x M HM) as HX. pose proof (moderate_5 M HM) as H5.
  destruct (seg_dist_ex (val3 s) (val3 t) (val3 q) Hst) as [Dq HDq].
  destruct (seg_core s t q (5 * M) Dq H5 (upto_5 M HX s Hs) (upto_5 M HX t Ht) Hq G Hst HDq e (tol_eps e He)) as [A B]. cbv zeta in A, B.
  replace (270 * (U * (5 * M))) with (1350 * (U * M)) in A, B by ring.
  assert (Rabs (Dq - D) <= 172 * (U * M)) as K.
  { destruct HDq as [(z & Hz & Ez) Hm]. destruct HD as [(z' & Hz' & Ez') Hm']. pose proof (Hm z' Hz') as L1. pose proof (Hm' z Hz) as L2.
    pose proof (norm_tri (psub (val3 q) y) (psub y z')) as T1. replace (padd (psub (val3 q) y) (psub y z')) with (psub (val3 q) z') in T1.
    2:{ destruct y as [y1 y2 y3], z' as [z1 z2 z3]. unfold psub, padd, val3. cbn [vx vy vz]. f_equal; ring. }
    pose proof (norm_tri (psub y (val3 q)) (psub (val3 q) z)) as T2. replace (padd (psub y (val3 q)) (psub (val3 q) z)) with (psub y z) in T2.
    2:{ destruct y as [y1 y2 y3], z as [z1 z2 z3]. unfold psub, padd, val3. cbn [vx vy vz]. f_equal; ring. }
    rewrite (norm_swap y (val3 q)) in T2. unfold dist in *. apply Rabs_le. lra. }
  apply Rabs_def2_le in K. pose proof (UM_small M (moderate_sized M HX)) as UM. split; intros H; [apply A|apply B]; lra.
Qed.
Lemma radius_ok r : radius_upto M r -> number r /\ 0 <= val r <= bpow radix2 404.
Proof. intros [N B]. pose proof (modx_404 M (moderate_x M HM)). split; [exact N|lra]. Qed.
Lemma round_dbl r e : radius_upto M r -> tolerance e ->
  let w := widened (val r) (val e) in let R := dist (val3 p) y in
  (R + rho <= (1 - / 1125899906842624) * w -> (sqlen (vec_to q p) <=? r * r + e * e)%float = true) /\
  ((1 + / 1125899906842624) * w + rho <= R -> (sqlen (vec_to q p) <=? r * r + e * e)%float = false).
Proof.
  intros Hr He w R. rewrite rho_is. destruct axis_dbl as (_ & _ & Nv & Bv & E). destruct (radius_ok r Hr) as [Nr Br].
  destruct (le_test _ r e Nv Bv Nr Br (tol_eps e He)) as [A B]. apply Rabs_def2_le in E. fold R in E. pose proof (UM_small M (moderate_sized M (moderate_x M HM))) as UM.
  split; intros H; [apply A|apply B]; fold w; lra.
Qed.
Lemma cyl_dbl (c : cyl PrimFloat.float) e : e_c (c_bot c) = s -> e_c (c_top c) = t -> radius_upto M (cyl_radius c) -> tolerance e ->
  decides_both (cyl_contains c p e) D (val e) (dist (val3 p) y) (widened (val (cyl_radius c)) (val e)) rho.
Proof.
  intros Eb Et Hr He. destruct (along_axis e He) as [A1 A2]. destruct (round_dbl _ e Hr He) as [B1 B2]. cbv zeta in *.
  unfold decides_both, cyl_contains, cyl_axis. rewrite Eb, Et. fold q. cbv zeta. cbn [nleb nadd nmul F_num]. rewrite !two_p. change (bpow radix2 (-50)) with (/ 1125899906842624). split.
  - intros H1 H2. rewrite (A1 H1). cbn [negb]. exact (B1 H2).
  - intros [H|H]; [rewrite (A2 H); reflexivity|]. rewrite (B2 H). destruct (seg_contains _ _ _ _); reflexivity.
Qed.
Lemma tiny_um : 100 * tiny <= (U * M) * (U * M).
Proof.
  destruct HM as [H _]. rewrite two_p in H. apply Rle_trans with (bpow radix2 7 * bpow radix2 (-1074)).
  - unfold tiny. change (bpow radix2 7) with 128. pose proof (bpow_gt_0 radix2 (-1074)). lra.
  - assert (bpow radix2 (-453) <= U * M) as K.
    { change U with (bpow radix2 (-53)). change (-453)%Z with (-53 + -400)%Z. rewrite bpow_plus. apply Rmult_le_compat_l; [apply bpow_ge_0|exact H]. }
    apply Rle_trans with (bpow radix2 (-453) * bpow radix2 (-453)); [rewrite <- !bpow_plus; apply bpow_le; lia|]. apply Rmult_le_compat; try apply bpow_ge_0; assumption.
Qed.
Lemma inner_dbl r e : radius_upto M r -> tolerance e -> let R := dist (val3 p) y in
  (val r + rho <= R -> (r * r - e * e <=? sqlen (vec_to q p))%float = true) /\
  (R + rho <= val r - val e -> (r * r - e * e <=? sqlen (vec_to q p))%float = false).
Proof.
  intros Hr He R. rewrite rho_is. destruct axis_dbl as (_ & _ & Nv & Bv & E). destruct (radius_ok r Hr) as [Nr Br]. destruct Hr as [_ Br'].
  destruct (sqlen_mixed _ Nv Bv) as (Ns & Ps & Es). destruct (squares r e Nr Br (tol_eps e He)) as ((N1 & P1 & E1) & (N2 & P2 & E2)). pose proof tiny_pos as T0. pose proof tiny_um as T.
  pose proof (UM_small M (moderate_sized M (moderate_x M HM))) as UM. set (n := norm (val3 (vec_to q p))) in *. pose proof (norm_nonneg (val3 (vec_to q p))) as n0. fold n in n0. fold R in E.
  destruct He as [Ne [He1 He2]]. rewrite two_p in He1. pose proof (bpow_gt_0 radix2 (-400)) as P4. set (rr := val r) in *. set (ee := val e) in *.
  assert (bpow radix2 900 <= bpow radix2 1023) as B2 by (apply bpow_le; lia).
  destruct (f_sub _ _ N1 N2) as [N3 V3]; [apply Rabs_le; lra|].
  pose proof (add_error _ _ (val_format (r * r)%float) (generic_format_opp _ _ _ (val_format (e * e)%float))) as S. fold (val (r * r)%float - val (e * e)%float) in S.
  rewrite <- V3, two_p in S. change (bpow radix2 (-53)) with U in S.
  assert (val (r * r - e * e)%float <= val (r * r)%float) as Mono.
  { rewrite V3. rewrite <- (round_generic radix2 fex (Znearest (fun z => negb (Z.even z))) _ (val_format (r * r)%float)) at 2. apply round_le; [typeclasses eauto..|lra]. }
  set (x := val (r * r)%float - val (e * e)%float) in *. apply Rabs_def2_le in Es. apply Rabs_def2_le in E1. apply Rabs_def2_le in E2. apply Rabs_def2_le in E.
  assert (0 <= rr * rr) as Kr by apply Rle_0_sqr. assert (0 < ee * ee) as Ke by (apply Rmult_lt_0_compat; lra). set (um := U * M) in *.
  assert (U * (rr * rr) <= um * rr) as KU.
  { replace (U * (rr * rr)) with (U * rr * rr) by ring. apply Rmult_le_compat_r; [lra|]. unfold um. apply Rmult_le_compat_l; [unfold U; lra|lra]. }
  assert (0 <= um * um) as Kuu by apply Rle_0_sqr. split; intros H.
  - apply (f_leb _ _ N3 Ns). eapply Rle_trans; [exact Mono|].
    assert ((rr + 1856 * um) * (rr + 1856 * um) <= n * n) as Q by (apply Rmult_le_compat; lra).
    assert (0 <= um * rr) as Kur by (apply Rmult_le_pos; lra).
    assert (val (r * r)%float <= rr * rr + um * rr + tiny) by lra.
    assert ((1 - 4 * U) * (n * n) - 4 * tiny <= val (sqlen (vec_to q p))) by lra.
    assert ((1 - 4 * U) * ((rr + 1856 * um) * (rr + 1856 * um)) <= (1 - 4 * U) * (n * n)) by (apply Rmult_le_compat_l; [unfold U; lra|exact Q]).
    replace ((1 - 4 * U) * ((rr + 1856 * um) * (rr + 1856 * um))) with (rr * rr - 4 * (U * (rr * rr)) + (1 - 4 * U) * (3712 * (um * rr) + 3444736 * (um * um))) in * by ring.
    assert (/ 2 * (3712 * (um * rr) + 3444736 * (um * um)) <= (1 - 4 * U) * (3712 * (um * rr) + 3444736 * (um * um))) by (apply Rmult_le_compat_r; [lra|unfold U; lra]). lra.
  - apply (f_leb_false _ _ N3 Ns). assert (0 <= R) as R0 by apply norm_nonneg. set (g := rr - ee) in *. set (d := 1856 * um) in *.
    assert (0 <= d) as D0 by (unfold d; lra). assert (n <= g - d) as Hn by (unfold d; lra). assert (d <= g) as Hdg by lra.
    assert (n * n <= g * (g - d)) as Q by (apply Rmult_le_compat; lra).
    assert (ee * ee <= rr * rr) as Her by (apply Rmult_le_compat; unfold g in *; lra).
    assert (0 <= d * d) as Kdd by apply Rle_0_sqr. assert (d * d = 3444736 * (um * um)) as Edd by (unfold d; ring).
    assert (d * d <= g * d) as Hgd by (apply Rmult_le_compat_r; lra).
    assert (900 * (um * rr) <= g * (2 * ee + d)) as Big.
    { destruct (Rle_lt_dec ee (rr / 2)) as [C|C].
      - assert (rr / 2 * d <= g * d) by (apply Rmult_le_compat_r; unfold g in *; lra). assert (0 <= g * ee) by (apply Rmult_le_pos; lra). replace (rr / 2 * d) with (928 * (um * rr)) in * by (unfold d; field).
        assert (0 <= um * rr) by (apply Rmult_le_pos; lra). lra.
      - assert (d * rr <= g * (2 * ee)) by (apply Rmult_le_compat; unfold g, d in *; lra). replace (d * rr) with (1856 * (um * rr)) in * by (unfold d; ring). assert (0 <= um * rr) by (apply Rmult_le_pos; unfold g in *; lra). lra. }
    assert (rr * rr - ee * ee - g * (g - d) = g * (2 * ee + d)) as Id by (unfold g; ring).
    assert (0 <= g * (2 * ee)) as Kge by (apply Rmult_le_pos; lra).
    assert (n * n <= rr * rr) as Hnr by (assert (0 <= g * d) by lra; lra).
    assert (U * (n * n) <= um * rr) as KUn by (apply Rle_trans with (U * (rr * rr)); [apply Rmult_le_compat_l; [unfold U; lra|exact Hnr]|exact KU]).
    assert (U * (ee * ee) <= um * rr) as KUe by (apply Rle_trans with (U * (rr * rr)); [apply Rmult_le_compat_l; [unfold U; lra|exact Her]|exact KU]).
    assert (Rabs x <= 2 * (rr * rr) + tiny) as Bx by (unfold x; apply Rabs_le; unfold U in *; lra).
    assert (U * Rabs x <= 2 * (um * rr) + tiny) as KX.
    { apply Rle_trans with (U * (2 * (rr * rr) + tiny)); [apply Rmult_le_compat_l; [unfold U; lra|exact Bx]|]. unfold U in *. lra. }
    assert (0 <= um * rr) by (apply Rmult_le_pos; lra). apply Rabs_def2_le in S. unfold x in S, KX. lra.
Qed.
Lemma hollow_dbl (h : hollow PrimFloat.float) e : e_c (h_bot h) = s -> e_c (h_top h) = t -> radius_upto M (hollow_inner h) -> radius_upto M (h_outer h) -> tolerance e ->
  let R := dist (val3 p) y in
  (val (hollow_inner h) + rho <= R -> decides_both (hollow_contains h p e) D (val e) R (widened (val (h_outer h)) (val e)) rho) /\
  (R + rho <= val (hollow_inner h) - val e \/ (1 + powerRZ 2 (-50)) * val e + rho <= D -> hollow_contains h p e = false).
Proof.
  intros Eb Et Hi Hr He R. destruct (along_axis e He) as [A1 A2]. destruct (round_dbl _ e Hr He) as [B1 B2]. destruct (inner_dbl _ e Hi He) as [C1 C2]. cbv zeta in *. fold R in B1, B2, C1, C2.
  unfold decides_both, hollow_contains, hollow_axis. rewrite Eb, Et. fold q. cbv zeta. cbn [nleb nadd nmul nsub F_num]. rewrite !two_p. change (bpow radix2 (-50)) with (/ 1125899906842624). split.
  - intros H. rewrite (C1 H). split.
    + intros H1 H2. rewrite (A1 H1). cbn [negb]. rewrite (B1 H2). reflexivity.
    + intros [H1|H1]; [rewrite (A2 H1); reflexivity|]. rewrite (B2 H1). destruct (seg_contains _ _ _ _); reflexivity.
  - intros [H|H]; [|rewrite (A2 H); reflexivity]. rewrite (C2 H), andb_false_r. destruct (seg_contains _ _ _ _); reflexivity.
Qed.
Lemma T500 : bpow radix2 (-500) <= U * M.
Proof.
  destruct HM as [H _]. rewrite two_p in H. change U with (bpow radix2 (-53)). apply Rle_trans with (bpow radix2 (-53) * bpow radix2 (-400)); [rewrite <- bpow_plus; apply bpow_le; lia|].
  apply Rmult_le_compat_l; [apply bpow_ge_0|exact H].
Qed.
Lemma R_le : norm (val3 (vec_to q p)) <= 53 * M.
Proof.
  destruct axis_dbl as ([Nq Bq] & _). pose proof (moderate_x M HM) as HX. pose proof (moderate_5 M HM) as H5. pose proof (upto_5 M HX p Hp) as [Np Bp].
  destruct (vec_err q p (5 * M) Nq Np (moderate_sized _ H5) Bq Bp) as (_ & (E1 & E2 & E3) & (W1 & W2 & W3) & _). pose proof (UM_small M (moderate_sized M HX)) as UM.
  replace (2 * (U * (5 * M))) with (10 * (U * M)) in * by ring. apply Rabs_def2_le in E1. apply Rabs_def2_le in E2. apply Rabs_def2_le in E3. apply Rabs_def2_le in W1. apply Rabs_def2_le in W2. apply Rabs_def2_le in W3.
  eapply Rle_trans; [apply (norm_le _ (11 * M)); unfold val3; cbn [vx vy vz]; apply Rabs_le; lra|]. lra.
Qed.
Lemma surf_dbl (c : cyl PrimFloat.float) e : e_c (c_bot c) = s -> e_c (c_top c) = t -> radius_upto M (cyl_radius c) -> tolerance e ->
  decides_both (surf_contains c p e) D (val e) (Rabs (dist (val3 p) y - val (cyl_radius c))) (val e) rho.
Proof.
  intros Eb Et [Nr Br] He. destruct (along_axis e He) as [A1 A2]. cbv zeta in *. destruct axis_dbl as (_ & _ & Nv & Bv & E). pose proof R_le as RL. pose proof T500 as T.
  destruct (vlen_mixed _ Nv Bv) as (Nl & Pl & El). set (r := cyl_radius c) in *. set (l := vlen (vec_to q p)) in *. set (n := norm (val3 (vec_to q p))) in *. pose proof (norm_nonneg (val3 (vec_to q p))) as n0. fold n in n0.
  pose proof (moderate_x M HM) as HX. pose proof (moderate_sized M HX) as HS. pose proof (UM_small M HS) as UM.
  assert (5 * U * n <= 265 * (U * M)) as E5 by (replace (265 * (U * M)) with (5 * U * (53 * M)) by ring; apply Rmult_le_compat_l; [unfold U; lra|exact RL]).
  apply Rabs_def2_le in El. apply Rabs_def2_le in E.
  destruct (sized_scale 55 M ltac:(lra) HS) as [S1 S2].
  destruct (sub_err l r (55 * M) Nl Nr S1 S2) as [Nd Edf]; [apply Rabs_le; lra|]. replace (U * (55 * M)) with (55 * (U * M)) in Edf by ring.
  destruct (f_abs _ Nd) as [Na Va].
  assert (Rabs (val (PrimFloat.abs (l - r)) - Rabs (dist (val3 p) y - val r)) <= 600 * (U * M)) as Efin.
  { rewrite Va. eapply Rle_trans; [apply Rabs_triang_inv2|]. apply Rabs_def2_le in Edf. apply Rabs_le. lra. }
  apply Rabs_def2_le in Efin. destruct He as [Ne [He1 He2]]. rewrite two_p in He1. pose proof (bpow_gt_0 radix2 (-400)) as P4.
  unfold decides_both, surf_contains, cyl_axis. rewrite Eb, Et. fold q. cbv zeta. cbn [nltb nsub nabs F_num]. rewrite !two_p. change (bpow radix2 (-50)) with (/ 1125899906842624). rewrite rho_is in *. split.
  - intros H1 H2. rewrite (A1 H1). cbn [negb]. apply f_ltb; [exact Na|exact Ne|]. fold l r. lra.
  - intros [H|H]; [rewrite (A2 H); reflexivity|]. destruct (seg_contains _ _ _ _); [cbn [negb]|reflexivity]. apply f_ltb_false; [exact Na|exact Ne|]. fold l r. lra.
Qed.
End Cyl.
