(** Intervals and boxes in double precision. *)

From Coq Require Import ZArith Reals Floats Lra Lia Psatz Bool.
From Flocq Require Import Core.Core IEEE754.BinarySingleNaN IEEE754.PrimFloat Relative Plus_error.
From Verif Require Import Base NumModel VecModel LinModel GeoSpec LinSpec DblSpec DblLemmas.
Local Open Scope R_scope.

Lemma two_p e : powerRZ 2 e = bpow radix2 e.
Proof. rewrite bpow_powerRZ. reflexivity. Qed.
Lemma bpow_double e : bpow radix2 e + bpow radix2 e = bpow radix2 (1 + e).
Proof. rewrite bpow_plus. change (bpow radix2 1) with 2. ring. Qed.
Lemma sum_1023 x y : Rabs x <= bpow radix2 1022 -> Rabs y <= bpow radix2 1022 -> Rabs (x + y) <= bpow radix2 1023.
Proof.
  intros Hx Hy. change 1023%Z with (1 + 1022)%Z. rewrite <- bpow_double. eapply Rle_trans; [apply Rabs_triang|]. lra.
Qed.
Lemma dif_1023 x y : Rabs x <= bpow radix2 1022 -> Rabs y <= bpow radix2 1022 -> Rabs (x - y) <= bpow radix2 1023.
Proof. intros Hx Hy. apply sum_1023; [exact Hx|]. rewrite Rabs_Ropp. exact Hy. Qed.

(** x - e and x + e for a tolerance e *)
Lemma reach_up x e : reach x e -> number (x + e)%float /\ val x < val (x + e)%float.
Proof.
  intros (Hx & He & Bx & [E0 Be] & Hs). rewrite two_p in *. 
  destruct (f_add x e Hx He) as [Hn Hv]. { apply sum_1023; [exact Bx|rewrite Rabs_pos_eq; lra]. }
  split; [exact Hn|]. rewrite Hv. apply succ_up; [apply val_format|apply val_format|exact E0|exact Hs].
Qed.
Lemma reach_down x e : reach x e -> number (x - e)%float /\ val (x - e)%float < val x.
Proof.
  intros (Hx & He & Bx & [E0 Be] & Hs). rewrite two_p in *.
  destruct (f_sub x e Hx He) as [Hn Hv]. { apply dif_1023; [exact Bx|rewrite Rabs_pos_eq; lra]. }
  split; [exact Hn|]. rewrite Hv. apply succ_down; [apply val_format|apply val_format|exact E0|exact Hs].
Qed.

Lemma overlap_near l1 u1 l2 u2 e x : number l1 -> number u1 -> reach l2 e -> reach u2 e ->
  val l1 <= x <= val u1 -> val l2 <= x <= val u2 -> intervals_overlap (l1, u1) (l2, u2) e = true.
Proof.
  intros Hl1 Hu1 R1 R2 H1 H2. destruct (reach_up _ _ R2) as [Nu Lu]. destruct (reach_down _ _ R1) as [Nl Ll].
  unfold intervals_overlap. cbn [fst snd nadd nsub nltb F_num].
  destruct (PrimFloat.ltb (u2 + e) u1)%float eqn:E1; [apply f_ltb; [assumption..|lra]|].
  destruct (PrimFloat.ltb l1 (l2 - e))%float eqn:E2; [apply f_ltb; [assumption..|lra]|]. reflexivity.
Qed.

(** proper overlaps are found whatever the tolerance *)
Lemma add_ge x e : number x -> number e -> Rabs (val x) <= powerRZ 2 1022 -> 0 <= val e <= powerRZ 2 1022 ->
  number (x + e)%float /\ val x <= val (x + e)%float.
Proof.
  intros Hx He Bx [E0 Be]. rewrite two_p in *.
  destruct (f_add x e Hx He) as [Hn Hv]. { apply sum_1023; [exact Bx|rewrite Rabs_pos_eq; lra]. }
  split; [exact Hn|]. rewrite Hv. rewrite <- (rnd_val x) at 1. apply rnd_le. lra.
Qed.
Lemma sub_le x e : number x -> number e -> Rabs (val x) <= powerRZ 2 1022 -> 0 <= val e <= powerRZ 2 1022 ->
  number (x - e)%float /\ val (x - e)%float <= val x.
Proof.
  intros Hx He Bx [E0 Be]. rewrite two_p in *.
  destruct (f_sub x e Hx He) as [Hn Hv]. { apply dif_1023; [exact Bx|rewrite Rabs_pos_eq; lra]. }
  split; [exact Hn|]. rewrite Hv. rewrite <- (rnd_val x) at 2. apply rnd_le. lra.
Qed.
Lemma overlap_proper l1 u1 l2 u2 e : number l1 -> number u1 -> number l2 -> number u2 -> number e ->
  Rabs (val l2) <= powerRZ 2 1022 -> Rabs (val u2) <= powerRZ 2 1022 -> 0 <= val e <= powerRZ 2 1022 ->
  val l1 < val u2 -> val l2 < val u1 -> intervals_overlap (l1, u1) (l2, u2) e = true.
Proof.
  intros Hl1 Hu1 Hl2 Hu2 He B1 B2 Be H1 H2. destruct (add_ge _ _ Hu2 He B2 Be) as [Nu Lu]. destruct (sub_le _ _ Hl2 He B1 Be) as [Nl Ll].
  unfold intervals_overlap. cbn [fst snd nadd nsub nltb F_num].
  destruct (PrimFloat.ltb (u2 + e) u1)%float eqn:E1; [apply f_ltb; [assumption..|lra]|].
  destruct (PrimFloat.ltb l1 (l2 - e))%float eqn:E2; [apply f_ltb; [assumption..|lra]|]. reflexivity.
Qed.

(** sums have a small relative error *)
Lemma unit_roundoff : u_ro radix2 53 / (1 + u_ro radix2 53) <= powerRZ 2 (-53).
Proof.
  unfold u_ro. rewrite two_p. change (bpow radix2 (- (53) + 1)) with (/ 4503599627370496). change (bpow radix2 (-53)) with (/ 9007199254740992).
  set (a := / 2 * / 4503599627370496). assert (0 < a) by (unfold a; lra). apply Rle_trans with a; [|unfold a; lra].
  unfold Rdiv. apply Rle_trans with (a * 1); [|lra]. apply Rmult_le_compat_l; [lra|]. apply Rle_trans with (/ 1); [apply Rinv_le_contravar; lra|rewrite Rinv_1; lra].
Qed.
Lemma add_error x y : generic_format radix2 fex x -> generic_format radix2 fex y ->
  Rabs (rnd (x + y) - (x + y)) <= powerRZ 2 (-53) * Rabs (x + y).
Proof.
  intros Hx Hy. destruct (FLT_plus_error_N_ex radix2 (-1074) 53 (fun x => negb (Z.even x)) x y Hx Hy) as (d & Hd & E).
  change (round radix2 (FLT_exp (-1074) 53) (Znearest (fun x => negb (Z.even x))) (x + y)) with (rnd (x + y)) in E. rewrite E.
  replace ((x + y) * (1 + d) - (x + y)) with (d * (x + y)) by ring. rewrite Rabs_mult. apply Rmult_le_compat_r; [apply Rabs_pos|].
  eapply Rle_trans; [exact Hd|apply unit_roundoff].
Qed.
Lemma overlap_far l1 u1 l2 u2 e : number l1 -> number u1 -> number l2 -> number u2 -> number e ->
  Rabs (val l2) <= powerRZ 2 1022 -> Rabs (val u2) <= powerRZ 2 1022 -> 0 <= val e <= powerRZ 2 1022 ->
  val l1 <= val u1 -> val l2 <= val u2 -> intervals_overlap (l1, u1) (l2, u2) e = true ->
  val l1 - val u2 <= val e + powerRZ 2 (-53) * Rabs (val u2 + val e) /\
  val l2 - val u1 <= val e + powerRZ 2 (-53) * Rabs (val l2 - val e).
Proof.
  intros Hl1 Hu1 Hl2 Hu2 He B1 B2 Be H1 H2. destruct (add_ge _ _ Hu2 He B2 Be) as [Nu Lu]. destruct (sub_le _ _ Hl2 He B1 Be) as [Nl Ll].
  destruct (f_add u2 e Hu2 He) as [_ Vu]. { apply sum_1023; [rewrite two_p in *; assumption|rewrite two_p in *; rewrite Rabs_pos_eq; lra]. }
  destruct (f_sub l2 e Hl2 He) as [_ Vl]. { apply dif_1023; [rewrite two_p in *; assumption|rewrite two_p in *; rewrite Rabs_pos_eq; lra]. }
  pose proof (add_error (val u2) (val e) (val_format _) (val_format _)) as Eu.
  pose proof (add_error (val l2) (- val e) (val_format _) (generic_format_opp _ _ _ (val_format _))) as El.
  fold (val l2 - val e) in El. rewrite <- Vu in Eu. rewrite <- Vl in El. apply Rabs_le_inv in Eu. apply Rabs_le_inv in El.
  set (eu := powerRZ 2 (-53) * Rabs (val u2 + val e)) in *. set (el := powerRZ 2 (-53) * Rabs (val l2 - val e)) in *.
  assert (0 <= eu) by (apply Rmult_le_pos; [apply powerRZ_le; lra|apply Rabs_pos]).
  assert (0 <= el) by (apply Rmult_le_pos; [apply powerRZ_le; lra|apply Rabs_pos]).
  unfold intervals_overlap. cbn [fst snd nadd nsub nltb F_num].
  destruct (PrimFloat.ltb (u2 + e) u1)%float eqn:E1.
  { intros E. apply (f_ltb _ _ Hl1 Nu) in E. apply (f_ltb _ _ Nu Hu1) in E1. clearbody eu el. lra. }
  apply (f_ltb_false _ _ Nu Hu1) in E1.
  destruct (PrimFloat.ltb l1 (l2 - e))%float eqn:E2; intros E.
  - apply (f_ltb _ _ Nl Hu1) in E. apply (f_ltb _ _ Hl1 Nl) in E2. clearbody eu el. lra.
  - apply (f_ltb_false _ _ Hl1 Nl) in E2. lra.
Qed.

(** lengths *)
Lemma n0_val : number (nlit 0 1 : PrimFloat.float) /\ val (nlit 0 1) = 0.
Proof. rewrite number_SF, val_SF. change (Prim2SF (nlit 0 1)) with (Prim2SF zero). vm_compute (Prim2SF _). split; reflexivity. Qed.
Lemma half_val : number (nlit 1 2 : PrimFloat.float) /\ val (nlit 1 2) = / 2.
Proof.
  rewrite number_SF, val_SF. replace (Prim2SF (nlit 1 2)) with (S754_finite false 4503599627370496 (-53)) by (vm_compute; reflexivity).
  split; [reflexivity|]. unfold SF2R, F2R. cbn [Defs.Fnum Defs.Fexp cond_Zopp]. change (bpow radix2 (-53)) with (/ 9007199254740992). lra.
Qed.
Lemma conf_val : number (confusion : PrimFloat.float) /\ 9999 / 10000 / 10000000 <= val confusion <= 1 / 1000000.
Proof.
  rewrite number_SF, val_SF. replace (Prim2SF confusion) with (S754_finite false 7555786372591432 (-76)) by (vm_compute; reflexivity).
  split; [reflexivity|]. unfold SF2R, F2R. cbn [Defs.Fnum Defs.Fexp cond_Zopp]. change (bpow radix2 (-76)) with (/ 75557863725914323419136). lra.
Qed.

Lemma sq_val x : number x -> Rabs (val x) <= bpow radix2 501 ->
  number (x * x)%float /\ 0 <= val (x * x)%float <= bpow radix2 1002 /\
  (bpow radix2 (-500) <= Rabs (val x) -> 9999 / 10000 * (val x * val x) <= val (x * x)%float).
Proof.
  intros Hx Bx. assert (val x * val x = Rabs (val x) * Rabs (val x)) as Es by (rewrite <- Rabs_mult, Rabs_pos_eq; [ring|apply Rle_0_sqr]).
  assert (Rabs (val x * val x) <= bpow radix2 1002) as B.
  { rewrite Rabs_mult. change 1002%Z with (501 + 501)%Z. rewrite bpow_plus. apply Rmult_le_compat; try apply Rabs_pos; exact Bx. }
  destruct (f_mul x x Hx Hx) as [Hn Hv]. { eapply Rle_trans; [exact B|]. apply bpow_le. lia. }
  split; [exact Hn|]. rewrite Hv. split.
  - split; [rewrite <- rnd_0; apply rnd_le, Rle_0_sqr|]. eapply Rle_trans; [apply Rle_abs|]. apply rnd_bpow; [lia|exact B].
  - intros L. apply rnd_lower. rewrite Es. apply Rle_trans with (bpow radix2 (-500 + -500)); [apply bpow_le; lia|].
    rewrite bpow_plus. pose proof (bpow_ge_0 radix2 (-500)). apply Rmult_le_compat; assumption.
Qed.
Lemma add_val e x y : (-1074 <= e <= 1022)%Z -> number x -> number y -> 0 <= val x <= bpow radix2 e -> 0 <= val y <= bpow radix2 e ->
  number (x + y)%float /\ val x <= val (x + y)%float <= bpow radix2 (1 + e) /\ val y <= val (x + y)%float.
Proof.
  intros He Hx Hy Bx By. assert (Rabs (val x + val y) <= bpow radix2 (1 + e)) as B.
  { rewrite <- bpow_double. rewrite Rabs_pos_eq; lra. }
  destruct (f_add x y Hx Hy) as [Hn Hv]. { eapply Rle_trans; [exact B|]. apply bpow_le. lia. }
  split; [exact Hn|]. rewrite Hv. split; [split|].
  - rewrite <- (rnd_val x) at 1. apply rnd_le. lra.
  - eapply Rle_trans; [apply Rle_abs|]. apply rnd_bpow; [lia|exact B].
  - rewrite <- (rnd_val y) at 1. apply rnd_le. lra.
Qed.

Lemma len_val (v : V3 PrimFloat.float) : number3 v -> within3 (bpow radix2 501) v ->
  number (vlen v) /\ 0 <= val (vlen v) <= bpow radix2 503 /\
  forall c, c = vx v \/ c = vy v \/ c = vz v -> bpow radix2 (-500) <= Rabs (val c) -> 999 / 1000 * Rabs (val c) <= val (vlen v).
Proof.
  destruct v as [x y z]. intros (Hx & Hy & Hz) (Bx & By & Bz). cbn [vx vy vz] in *.
  destruct (sq_val x Hx Bx) as (Nx & Qx & Lx). destruct (sq_val y Hy By) as (Ny & Qy & Ly). destruct (sq_val z Hz Bz) as (Nz & Qz & Lz).
  destruct n0_val as [N0 V0]. unfold vlen, sqlen. cbn [vx vy vz nadd nmul nsqrt F_num].
  change (nlit 0 1) with (nlit 0 1 : PrimFloat.float).
  set (s0 := (nlit 0 1 : PrimFloat.float)) in *.
  destruct (add_val 1002 s0 (x * x)%float ltac:(lia) N0 Nx) as (N1 & B1 & G1); [rewrite V0; pose proof (bpow_ge_0 radix2 1002); lra|exact Qx|].
  set (s1 := (s0 + x * x)%float) in *.
  assert (bpow radix2 1002 <= bpow radix2 1003) by (apply bpow_le; lia). assert (bpow radix2 1003 <= bpow radix2 1004) by (apply bpow_le; lia).
  change (1 + 1002)%Z with 1003%Z in *.
  destruct (add_val 1003 s1 (y * y)%float ltac:(lia) N1 Ny) as (N2 & B2 & G2); [lra|lra|].
  set (s2 := (s1 + y * y)%float) in *. change (1 + 1003)%Z with 1004%Z in *.
  destruct (add_val 1004 s2 (z * z)%float ltac:(lia) N2 Nz) as (N3 & B3 & G3); [lra|lra|].
  set (s3 := (s2 + z * z)%float) in *. change (1 + 1004)%Z with 1005%Z in *.
  assert (0 <= val s3) as P3 by lra. destruct (f_sqrt s3 N3 P3) as [Nr Vr].
  split; [exact Nr|]. rewrite Vr. split.
  - split; [rewrite <- rnd_0; apply rnd_le, sqrt_pos|]. eapply Rle_trans; [apply Rle_abs|]. apply rnd_bpow; [lia|].
    rewrite Rabs_pos_eq by apply sqrt_pos. rewrite <- (sqrt_square (bpow radix2 503)) by apply bpow_ge_0.
    apply sqrt_le_1_alt. rewrite <- bpow_plus. eapply Rle_trans; [apply B3|]. apply bpow_le. lia.
  - intros c Hc L. assert (9999 / 10000 * (val c * val c) <= val s3) as S.
    { destruct Hc as [-> | [-> | ->]]; [specialize (Lx L)|specialize (Ly L)|specialize (Lz L)]; lra. }
    assert (9999 / 10000 * Rabs (val c) <= R_sqrt.sqrt (val s3)) as Q.
    { rewrite <- (sqrt_square (9999 / 10000 * Rabs (val c))) by (pose proof (Rabs_pos (val c)); lra). apply sqrt_le_1_alt.
      eapply Rle_trans; [|exact S]. replace (val c * val c) with (Rabs (val c) * Rabs (val c)) by (rewrite <- Rabs_mult, Rabs_pos_eq; [ring|apply Rle_0_sqr]).
      pose proof (Rmult_le_pos _ _ (Rabs_pos (val c)) (Rabs_pos (val c))). lra. }
    eapply Rle_trans; [|apply rnd_lower].
    + pose proof (Rabs_pos (val c)). lra.
    + assert (bpow radix2 (-1022) <= 9999 / 10000 * bpow radix2 (-500)) by
        (change (-1022)%Z with (-522 + -500)%Z; rewrite bpow_plus; apply Rmult_le_compat_r; [apply bpow_ge_0|];
         apply Rle_trans with (bpow radix2 (-1)); [apply bpow_le; lia|]; change (bpow radix2 (-1)) with (/ 2); lra).
      lra.
Qed.

(** the tolerance of a box *)
Lemma tiny_le a k : (k <= -2)%Z -> 1 / 4 <= a -> bpow radix2 k <= a.
Proof. intros Hk Ha. apply Rle_trans with (bpow radix2 (-2)); [apply bpow_le, Hk|]. change (bpow radix2 (-2)) with (/ 4). lra. Qed.
Lemma side_val l u : number l -> number u -> Rabs (val l) <= bpow radix2 500 -> Rabs (val u) <= bpow radix2 500 ->
  number (u - l)%float /\ Rabs (val (u - l)%float) <= bpow radix2 501 /\
  (bpow radix2 (-400) <= val u - val l -> 9999 / 10000 * (val u - val l) <= Rabs (val (u - l)%float)).
Proof.
  intros Hl Hu Bl Bu. assert (Rabs (val u - val l) <= bpow radix2 501) as B.
  { change 501%Z with (1 + 500)%Z. rewrite <- bpow_double. eapply Rle_trans; [apply Rabs_triang|]. rewrite Rabs_Ropp. lra. }
  destruct (f_sub u l Hu Hl) as [Hn Hv]. { eapply Rle_trans; [exact B|apply bpow_le; lia]. }
  split; [exact Hn|]. rewrite Hv. split; [apply rnd_bpow; [lia|exact B]|].
  intros L. eapply Rle_trans; [|apply Rle_abs]. apply rnd_lower. eapply Rle_trans; [|exact L]. apply bpow_le. lia.
Qed.
Lemma box_eps_val (b : box PrimFloat.float) : box_number b -> within_box (bpow radix2 500) b ->
  number (box_eps b) /\ 0 <= val (box_eps b) <= bpow radix2 503 /\
  forall D, has_side b D -> bpow radix2 (-400) <= D -> 998 / 1000 / 10000000 * D <= val (box_eps b).
Proof.
  destruct b as [[x y z] [x' y' z']]. intros [(Nx & Ny & Nz) (Nx' & Ny' & Nz')] [(Bx & By & Bz) (Bx' & By' & Bz')]. cbn [b_min b_max vx vy vz] in *.
  destruct (side_val x x' Nx Nx' Bx Bx') as (Mx & Cx & Lx). destruct (side_val y y' Ny Ny' By By') as (My & Cy & Ly).
  destruct (side_val z z' Nz Nz' Bz Bz') as (Mz & Cz & Lz).
  unfold box_eps, vec_to. cbn [b_min b_max vx vy vz nsub nmul F_num].
  set (v := mkV3 (x' - x)%float (y' - y)%float (z' - z)%float).
  destruct (len_val v) as (Nl & [P0 Bl] & Ll); [repeat split; assumption..|].
  destruct conf_val as [Nc [Vc Vc']].
  assert (Rabs (val confusion * val (vlen v)) <= bpow radix2 503) as B.
  { rewrite Rabs_pos_eq by (apply Rmult_le_pos; lra). replace (bpow radix2 503) with (1 * bpow radix2 503) by ring. apply Rmult_le_compat; lra. }
  destruct (f_mul confusion (vlen v) Nc Nl) as [Hn Hv]. { eapply Rle_trans; [exact B|apply bpow_le; lia]. }
  split; [exact Hn|]. rewrite Hv. split.
  { split; [rewrite <- rnd_0; apply rnd_le, Rmult_le_pos; lra|]. eapply Rle_trans; [apply Rle_abs|]. apply rnd_bpow; [lia|exact B]. }
  intros D HD L. pose proof (bpow_gt_0 radix2 (-400)) as B4.
  assert (exists c, (c = vx v \/ c = vy v \/ c = vz v) /\ 9999 / 10000 * D <= Rabs (val c)) as (c & Hc & Ec).
  { unfold has_side in HD. cbn [b_min b_max vx vy vz] in HD. destruct HD as [-> | [-> | ->]]; eexists; (split; [|auto]); cbn; auto. }
  specialize (Ll c Hc). assert (bpow radix2 (-500) <= Rabs (val c)) as Lc.
  { eapply Rle_trans; [|exact Ec]. apply Rle_trans with (9999 / 10000 * bpow radix2 (-400)); [|lra].
    change (-500)%Z with (-100 + -400)%Z. rewrite bpow_plus. apply Rmult_le_compat_r; [lra|]. apply tiny_le; [lia|lra]. }
  specialize (Ll Lc).
  assert (9999 / 10000 / 10000000 * (999 / 1000 * (9999 / 10000 * D)) <= val confusion * val (vlen v)) as Lp by (apply Rmult_le_compat; lra).
  eapply Rle_trans; [|apply rnd_lower]; [lra|].
  apply Rle_trans with (bpow radix2 (-30 + -400)); [apply bpow_le; lia|]. rewrite bpow_plus.
  change (bpow radix2 (-30)) with (/ 1073741824). lra.
Qed.

(** ** the theorems *)
Definition reach3 (p : V3 PrimFloat.float) (e : PrimFloat.float) : Prop := reach (vx p) e /\ reach (vy p) e /\ reach (vz p) e.
Lemma reach_within M p e : number3 p -> number e -> within3 M p -> M <= powerRZ 2 500 -> 0 < val e <= powerRZ 2 505 -> M * powerRZ 2 (-52) <= val e ->
  reach3 p e.
Proof.
  intros (Nx & Ny & Nz) Ne (Bx & By & Bz) HM [E0 Be] Hs. rewrite !two_p in *.
  assert (bpow radix2 500 <= bpow radix2 1022) by (apply bpow_le; lia). assert (bpow radix2 505 <= bpow radix2 1022) by (apply bpow_le; lia).
  pose proof (bpow_ge_0 radix2 (-52)).
  repeat split; try assumption; rewrite ?two_p; try lra; (eapply Rle_trans; [apply Rmult_le_compat_r; eassumption|exact Hs]).
Qed.
Lemma contains_lemma (b : box PrimFloat.float) p M D : box_number b -> number3 p -> within_box M b -> M <= powerRZ 2 500 ->
  has_side b D -> powerRZ 2 (-400) <= D -> M <= 400000000 * D ->
  in_box (val_box b) (val3 p) -> box_contains_default b p = true.
Proof.
  intros Hb Hp HM M5 HD D4 Hs Hin. rewrite two_p in M5, D4.
  assert (within_box (bpow radix2 500) b) as HW by (destruct HM as [(?&?&?) (?&?&?)]; repeat split; lra).
  destruct (box_eps_val b Hb HW) as (Ne & [E0 Be] & Le). specialize (Le D HD D4).
  pose proof (bpow_gt_0 radix2 (-400)). destruct Hb as [N1 N2], HM as [W1 W2].
  assert (0 < val (box_eps b) <= powerRZ 2 505) as R1 by (rewrite two_p; split; [lra|]; eapply Rle_trans; [exact Be|apply bpow_le; lia]).
  assert (M * powerRZ 2 (-52) <= val (box_eps b)) as R2.
  { rewrite two_p. change (bpow radix2 (-52)) with (/ 4503599627370496). lra. }
  destruct (reach_within M (b_min b) (box_eps b) N1 Ne W1 ltac:(rewrite two_p; exact M5) R1 R2) as (A1 & A2 & A3).
  destruct (reach_within M (b_max b) (box_eps b) N2 Ne W2 ltac:(rewrite two_p; exact M5) R1 R2) as (C1 & C2 & C3).
  destruct Hp as (Px & Py & Pz). unfold in_box, val_box, val3 in Hin. cbn [b_min b_max vx vy vz] in Hin. destruct Hin as (Ix & Iy & Iz).
  unfold box_contains_default, box_contains. cbn [nsub nadd nltb F_num].
  destruct (reach_down _ _ A1), (reach_down _ _ A2), (reach_down _ _ A3), (reach_up _ _ C1), (reach_up _ _ C2), (reach_up _ _ C3).
  rewrite !andb_true_iff. repeat split; apply f_ltb; try assumption; lra.
Qed.

Lemma boxes_lemma (b1 b2 : box PrimFloat.float) M D1 D2 p : box_number b1 -> box_number b2 -> within_box M b1 -> within_box M b2 -> M <= powerRZ 2 500 ->
  has_side b1 D1 -> has_side b2 D2 -> powerRZ 2 (-400) <= D1 -> powerRZ 2 (-400) <= D2 -> M <= 200000000 * (D1 + D2) ->
  in_box (val_box b1) p -> in_box (val_box b2) p -> do_intersect_default b1 b2 = true.
Proof.
  intros Hb1 Hb2 HM1 HM2 M5 HD1 HD2 D14 D24 Hs Hin1 Hin2. rewrite two_p in M5, D14, D24.
  assert (within_box (bpow radix2 500) b1) as HW1 by (destruct HM1 as [(?&?&?) (?&?&?)]; repeat split; lra).
  assert (within_box (bpow radix2 500) b2) as HW2 by (destruct HM2 as [(?&?&?) (?&?&?)]; repeat split; lra).
  destruct (box_eps_val b1 Hb1 HW1) as (Ne1 & E1 & Le1). specialize (Le1 D1 HD1 D14).
  destruct (box_eps_val b2 Hb2 HW2) as (Ne2 & E2 & Le2). specialize (Le2 D2 HD2 D24).
  pose proof (bpow_gt_0 radix2 (-400)) as B4. destruct half_val as [Nh Vh].
  assert (Rabs (val (box_eps b1) + val (box_eps b2)) <= bpow radix2 504) as Bs.
  { change 504%Z with (1 + 503)%Z. rewrite <- bpow_double. rewrite Rabs_pos_eq; lra. }
  destruct (f_add _ _ Ne1 Ne2) as [Ns Vs]. { eapply Rle_trans; [exact Bs|apply bpow_le; lia]. }
  assert (0 <= val (box_eps b1 + box_eps b2)%float) as Ps by (rewrite Vs, <- rnd_0; apply rnd_le; lra).
  assert (val (box_eps b1 + box_eps b2)%float <= bpow radix2 504) as Bt by (rewrite Vs; eapply Rle_trans; [apply Rle_abs|]; apply rnd_bpow; [lia|exact Bs]).
  assert (bpow radix2 (-1022) <= val (box_eps b1) + val (box_eps b2)) as Lm.
  { apply Rle_trans with (bpow radix2 (-30 + -400)); [apply bpow_le; lia|]. rewrite bpow_plus. change (bpow radix2 (-30)) with (/ 1073741824). lra. }
  pose proof (rnd_lower _ Lm) as Ls. rewrite <- Vs in Ls.
  assert (Rabs (val (nlit 1 2) * val (box_eps b1 + box_eps b2)%float) <= bpow radix2 504) as Bh by (rewrite Vh, Rabs_pos_eq; lra).
  destruct (f_mul _ _ Nh Ns) as [Ne Ve]. { eapply Rle_trans; [exact Bh|apply bpow_le; lia]. }
  assert (bpow radix2 (-1022) <= val (nlit 1 2) * val (box_eps b1 + box_eps b2)%float) as Ln.
  { rewrite Vh. apply Rle_trans with (bpow radix2 (-30 + -400)); [apply bpow_le; lia|]. rewrite bpow_plus. change (bpow radix2 (-30)) with (/ 1073741824). lra. }
  pose proof (rnd_lower _ Ln) as Le. rewrite <- Ve in Le. rewrite Vh in Le.
  unfold do_intersect_default. cbn [nmul nadd F_num]. set (e := (nlit 1 2 * (box_eps b1 + box_eps b2))%float) in *.
  assert (val e <= bpow radix2 504) as Be by (rewrite Ve; eapply Rle_trans; [apply Rle_abs|]; apply rnd_bpow; [lia|exact Bh]).
  assert (0 < val e <= powerRZ 2 505) as R1 by (rewrite two_p; split; [lra|]; eapply Rle_trans; [exact Be|apply bpow_le; lia]).
  assert (M * powerRZ 2 (-52) <= val e) as R2.
  { rewrite two_p. change (bpow radix2 (-52)) with (/ 4503599627370496). lra. }
  destruct Hb1 as [(X1 & Y1 & Z1) (X2 & Y2 & Z2)], Hb2 as [N1 N2], HM2 as [W1 W2].
  destruct (reach_within M (b_min b2) e N1 Ne W1 ltac:(rewrite two_p; exact M5) R1 R2) as (A1 & A2 & A3).
  destruct (reach_within M (b_max b2) e N2 Ne W2 ltac:(rewrite two_p; exact M5) R1 R2) as (C1 & C2 & C3).
  unfold in_box, val_box, val3 in Hin1, Hin2. cbn [b_min b_max vx vy vz] in Hin1, Hin2.
  destruct Hin1 as (Ix & Iy & Iz), Hin2 as (Jx & Jy & Jz).
  unfold do_intersect. rewrite (overlap_near _ _ _ _ e (vx p)), (overlap_near _ _ _ _ e (vy p)) by assumption. cbn [negb].
  apply (overlap_near _ _ _ _ e (vz p)); assumption.
Qed.

(** touching intervals are not found if the tolerance is lost *)
Lemma absorbed_lemma l1 x u2 e : number l1 -> number x -> number u2 -> number e ->
  Rabs (val u2) <= powerRZ 2 1022 -> 0 <= val e <= powerRZ 2 1022 ->
  val l1 < val x <= val u2 -> (x - e)%float = x -> intervals_overlap (l1, x) (x, u2) e = false.
Proof.
  intros N1 Nx N2 Ne B2 Be L E. destruct (add_ge _ _ N2 Ne B2 Be) as [Nu Lu].
  unfold intervals_overlap. cbn [fst snd nadd nsub nltb F_num]. rewrite E.
  rewrite (proj2 (f_ltb_false (u2 + e)%float x Nu Nx)) by lra. rewrite (proj2 (f_ltb l1 x N1 Nx)) by lra.
  apply f_ltb_false; [assumption..|lra].
Qed.

(** comparisons with NaN are false *)
Lemma nan_ltb x : PrimFloat.ltb x nan = false /\ PrimFloat.ltb nan x = false.
Proof. rewrite !ltb_equiv. replace (Prim2B nan) with (@B754_nan prec emax) by (rewrite nan_equiv, Prim2B_B2Prim; reflexivity). destruct (Prim2B x) as [[]|[]| |[] ? ? ?]; split; reflexivity. Qed.
Lemma nan_sub e : (nan - e)%float = nan.
Proof. apply Prim2B_inj. rewrite sub_equiv. replace (Prim2B nan) with (@B754_nan prec emax) by (rewrite nan_equiv, Prim2B_B2Prim; reflexivity). destruct (Prim2B e); reflexivity. Qed.
Lemma nan_lemma (y z x' y' z' : PrimFloat.float) : PrimFloat.ltb y' y = false -> PrimFloat.ltb z' z = false ->
  exists b, make_box nan y z x' y' z' = Ok b /\ forall p e, box_contains b p e = false.
Proof.
  intros Hy Hz. exists (mkBox (mkV3 nan y z) (mkV3 x' y' z')). unfold make_box. cbn [nltb F_num]. rewrite (proj1 (nan_ltb x')), Hy, Hz. split; [reflexivity|].
  intros p e. unfold box_contains. cbn [b_min b_max vx vy vz nsub nltb F_num]. rewrite nan_sub, (proj2 (nan_ltb (vx p))). reflexivity.
Qed.
Lemma make_box_lemma (x y z x' y' z' : PrimFloat.float) : number x -> number y -> number z -> number x' -> number y' -> number z' ->
  (exists b, make_box x y z x' y' z' = Ok b /\ val3 (b_min b) = mkV3 (val x) (val y) (val z) /\ val3 (b_max b) = mkV3 (val x') (val y') (val z')) <->
  val x <= val x' /\ val y <= val y' /\ val z <= val z'.
Proof.
  intros Hx Hy Hz Hx' Hy' Hz'. unfold make_box. cbn [nltb F_num]. split.
  - intros (b & E & _). destruct (PrimFloat.ltb x' x) eqn:Ex; [discriminate|]. destruct (PrimFloat.ltb y' y) eqn:Ey; [discriminate|].
    destruct (PrimFloat.ltb z' z) eqn:Ez; [discriminate|]. repeat split; apply f_ltb_false; assumption.
  - intros (Lx & Ly & Lz). rewrite (proj2 (f_ltb_false x' x Hx' Hx) Lx), (proj2 (f_ltb_false y' y Hy' Hy) Ly), (proj2 (f_ltb_false z' z Hz' Hz) Lz). eexists. split; [reflexivity|]. split; reflexivity.
Qed.
