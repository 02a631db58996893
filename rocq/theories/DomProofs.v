(** Uniform numbers and spheres in double precision. *)

From Coq Require Import ZArith Reals Floats Lra Lia Psatz Bool.
From Flocq Require Import Core.Core IEEE754.BinarySingleNaN IEEE754.PrimFloat Relative Plus_error.
From Verif Require Import Base NumModel VecModel LinModel RoundModel PolyModel DistModel IntModel SampModel DomModel GeoSpec LinSpec DblSpec DomSpec
  DblLemmas DblProofs DblLen DblEq.
Local Open Scope R_scope.

(** the largest double below 1 *)
Lemma canonical_le u : canonical u -> val u <= 1 - U.
Proof.
  intros (Hu & H0 & H1). pose proof (pred_ge_gt radix2 fex (val u) 1 (val_format u)) as P.
  assert (pred radix2 fex 1 = 1 - U) as E.
  { change 1 with (bpow radix2 0) at 1. rewrite pred_bpow. change (bpow radix2 0) with 1. reflexivity. }
  rewrite <- E. apply P; [|exact H1].
  change 1 with (bpow radix2 0). apply generic_format_bpow. vm_compute. discriminate.
Qed.

(** a product with a number below 1 is at most the predecessor, or the factor is tiny *)
Lemma scaled_le w u : generic_format radix2 fex w -> 0 <= u <= 1 - U -> bpow radix2 (-1022) <= pred radix2 fex w -> rnd (u * w) <= pred radix2 fex w.
Proof.
  intros Hw Hu Hp. pose proof (bpow_gt_0 radix2 (-1022)) as B0. set (p := pred radix2 fex w) in *.
  assert (Fp : generic_format radix2 fex p) by (apply generic_format_pred; [typeclasses eauto|exact Hw]).
  assert (w0 : 0 < w) by (pose proof (pred_le_id radix2 fex w) as L; fold p in L; lra).
  assert (p + ulp radix2 fex p = w) as Ew.
  { apply pred_plus_ulp; [typeclasses eauto|exact w0|exact Hw]. }
  assert (ulp radix2 fex p <= p * bpow radix2 (-52)) as Up.
  { rewrite <- (Rabs_pos_eq p) at 2 by lra. apply (ulp_FLT_le radix2 (-1074) 53). replace (-1074 + 53 - 1)%Z with (-1022)%Z by reflexivity.
    rewrite Rabs_pos_eq; lra. }
  apply round_N_le_midp; [typeclasses eauto|exact Fp|].
  assert (succ radix2 fex p = w) as -> by (apply succ_pred; [typeclasses eauto|exact Hw]).
  change (bpow radix2 (-52)) with (/ 4503599627370496) in Up.
  assert (u * w <= (1 - U) * w) by (apply Rmult_le_compat_r; lra). unfold U in *. lra.
Qed.

Lemma uniform_in a b u : number a -> number b -> canonical u -> val a <= val b -> val b - val a <= bpow radix2 1022 ->
  Rabs (val a) <= bpow radix2 1022 -> Rabs (val b) <= bpow radix2 1022 ->
  number (uniform (a, b) u) /\ val a <= val (uniform (a, b) u) <= val b.
Proof.
  intros Ha Hb Hu Hab HD Ba Bb. pose proof (canonical_le u Hu) as U1. destruct Hu as (Nu & U0 & _).
  unfold uniform. cbn [nmul nsub nadd F_num fst snd].
  set (D := val b - val a) in *.
  destruct (f_sub b a Hb Ha) as [Nd Vd]. { fold D. rewrite Rabs_pos_eq by (unfold D; lra). eapply Rle_trans; [exact HD|apply bpow_le; lia]. }
  fold D in Vd. set (w := val (b - a)%float) in *.
  assert (W0 : 0 <= w) by (rewrite Vd, <- rnd_0; apply rnd_le; unfold D; lra).
  assert (W1 : w <= bpow radix2 1022).
  { rewrite Vd. eapply Rle_trans; [apply Rle_abs|]. apply rnd_bpow; [lia|]. rewrite Rabs_pos_eq; [exact HD|unfold D; lra]. }
  assert (Uw : 0 <= val u * w <= w).
  { split; [apply Rmult_le_pos; assumption|]. rewrite <- (Rmult_1_l w) at 2. apply Rmult_le_compat_r; [exact W0|]. unfold U in U1. lra. }
  destruct (f_mul u (b - a)%float Nu Nd) as [Nm Vm].
  { fold w. rewrite Rabs_pos_eq by lra. eapply Rle_trans; [apply (proj2 Uw)|]. eapply Rle_trans; [exact W1|apply bpow_le; lia]. }
  fold w in Vm. set (m := val (u * (b - a))%float) in *.
  assert (M0 : 0 <= m) by (rewrite Vm, <- rnd_0; apply rnd_le; lra).
  assert (Fw : generic_format radix2 fex w) by apply val_format.
  assert (Mw : m <= w).
  { rewrite Vm. replace w with (rnd w) at 2; [apply rnd_le; lra|]. apply round_generic; [typeclasses eauto|exact Fw]. }
  assert (MD : m <= D).
  { destruct (Rle_or_lt w D) as [L|L]; [lra|].
    set (p := pred radix2 fex w).
    assert (Pd : p <= D).
    { apply Rnot_lt_le. intros LD. assert (rnd D <= p) as K.
      { unfold rnd. apply round_le_generic; [typeclasses eauto|typeclasses eauto| |lra]. apply generic_format_pred; [typeclasses eauto|exact Fw]. }
      rewrite <- Vd in K. pose proof (pred_lt_id radix2 fex w) as Q. fold p in Q. assert (w <> 0) as Nz by (unfold D in L; lra). specialize (Q Nz). lra. }
    destruct (Rle_or_lt (bpow radix2 (-1022)) p) as [Lp|Lp].
    - rewrite Vm. eapply Rle_trans; [|exact Pd]. apply scaled_le; [exact Fw|split; [exact U0|exact U1]|exact Lp].
    - exfalso. assert (rnd D = D); [|lra]. unfold rnd. apply round_generic; [typeclasses eauto|].
      unfold D, Rminus. apply (FLT_format_plus_small radix2 (-1074) 53); [apply val_format|apply generic_format_opp, val_format|].
      fold (val b - val a). fold D. rewrite Rabs_pos_eq by (unfold D; lra).
      apply Rle_trans with w; [lra|]. apply Rle_trans with (bpow radix2 (-1022)).
      + replace w with (succ radix2 fex p) by (apply succ_pred; [typeclasses eauto|exact Fw]).
        apply succ_le_lt; [typeclasses eauto|apply generic_format_pred; [typeclasses eauto|exact Fw]|apply generic_format_bpow; vm_compute; discriminate|exact Lp].
      + apply bpow_le. lia. }
  assert (Ba' : Rabs (m + val a) <= bpow radix2 1023).
  { apply sum_1023; [|exact Ba]. rewrite Rabs_pos_eq by exact M0. lra. }
  destruct (f_add (u * (b - a))%float a Nm Ha Ba') as [Ns Vs]. split; [exact Ns|]. rewrite Vs. fold m. split.
  - rewrite <- (rnd_val a) at 1. apply rnd_le. lra.
  - rewrite <- (rnd_val b). apply rnd_le. unfold D in MD. lra.
Qed.

Lemma box_sample (T : Trig PrimFloat.float) (b : box PrimFloat.float) u1 u2 u3 : box_number b -> ordered b -> within_box (powerRZ 2 1021) b ->
  canonical u1 -> canonical u2 -> canonical u3 ->
  let p := sample_point (sampler_box b) u1 u2 u3 in number3 p /\ in_box (val_box b) (val3 p).
Proof.
  destruct b as [[x y z] [x' y' z']]. intros [(Nx & Ny & Nz) (Nx' & Ny' & Nz')] (Ox & Oy & Oz) [(Bx & By & Bz) (Bx' & By' & Bz')] C1 C2 C3.
  cbn [b_min b_max vx vy vz] in *. rewrite two_p in *.
  assert (K : forall a b u, number a -> number b -> canonical u -> val a <= val b -> Rabs (val a) <= bpow radix2 1021 -> Rabs (val b) <= bpow radix2 1021 ->
    number (uniform (a, b) u) /\ val a <= val (uniform (a, b) u) <= val b).
  { intros a b u Ha Hb Hu Hab A1 B1. assert (bpow radix2 1021 + bpow radix2 1021 = bpow radix2 1022) as E by (rewrite bpow_double; reflexivity).
    pose proof (bpow_ge_0 radix2 1021). apply uniform_in; try assumption; try lra.
    apply Rabs_le_inv in A1. apply Rabs_le_inv in B1. lra. }
  unfold sample_point, sampler_box. cbn [ps_ranges ps_point b_min b_max vx vy vz].
  destruct (K x x' u1) as [K1 L1]; [assumption..|]. destruct (K y y' u2) as [K2 L2]; [assumption..|]. destruct (K z z' u3) as [K3 L3]; [assumption..|].
  split; [split; [|split]; assumption|]. unfold in_box, val_box, val3. cbn [b_min b_max vx vy vz]. auto.
Qed.

(** the radius of sampled points *)
Lemma sqrt_square_le x : generic_format radix2 fex x -> bpow radix2 (-400) <= x -> rnd (R_sqrt.sqrt (rnd (x * x))) <= x.
Proof.
  intros Fx Hx. pose proof (bpow_gt_0 radix2 (-400)) as B0.
  assert (S : rnd (x * x) <= hi * (x * x)).
  { apply rel_pos. right. apply Rle_trans with (bpow radix2 (-400 + -400)); [apply bpow_le; lia|]. rewrite bpow_plus. apply Rmult_le_compat; lra. }
  apply round_N_le_midp; [typeclasses eauto|exact Fx|].
  assert (E : succ radix2 fex x = x + ulp radix2 fex x) by (apply succ_eq_pos; lra). rewrite E.
  assert (bpow radix2 (-53) * x < ulp radix2 fex x) as L.
  { replace x with (Rabs x) at 1 by (apply Rabs_pos_eq; lra). rewrite Rmult_comm.
    pose proof (ulp_FLT_gt radix2 (-1074) 53 x) as G. exact G. }
  change (bpow radix2 (-53)) with U in L.
  apply Rle_lt_trans with (x * (1 + U / 2)).
  - rewrite <- (sqrt_square (x * (1 + U / 2))) by (apply Rmult_le_pos; [lra|unfold U; lra]). apply sqrt_le_1_alt. eapply Rle_trans; [exact S|].
    replace (x * (1 + U / 2) * (x * (1 + U / 2))) with ((1 + U + U * U / 4) * (x * x)) by field.
    apply Rmult_le_compat_r; [apply Rle_0_sqr|]. unfold hi, U. lra.
  - lra.
Qed.
Lemma sqrt_square_ge x : generic_format radix2 fex x -> bpow radix2 (-400) <= x -> x <= rnd (R_sqrt.sqrt (rnd (x * x))).
Proof.
  intros Fx Hx. pose proof (bpow_gt_0 radix2 (-400)) as B0. assert (x0 : 0 < x) by lra.
  destruct (mag radix2 x) as [e He]. specialize (He ltac:(lra)). rewrite Rabs_pos_eq in He by lra. destruct He as [E1 E2].
  assert (Eb : (-400 < e)%Z) by (apply (lt_bpow radix2); lra).
  assert (Bp : generic_format radix2 fex (bpow radix2 (e - 1))).
  { apply generic_format_bpow. unfold fex, FLT_exp. lia. }
  destruct (Rle_lt_or_eq_dec _ _ E1) as [L|E].
  - assert (S : lo * (x * x) <= rnd (x * x)).
    { apply rel_pos. right. apply Rle_trans with (bpow radix2 (-400 + -400)); [apply bpow_le; lia|]. rewrite bpow_plus. apply Rmult_le_compat; lra. }
    set (p := pred radix2 fex x). assert (P1 : bpow radix2 (e - 1) <= p) by (apply pred_ge_gt; [typeclasses eauto|exact Bp|exact Fx|exact L]).
    assert (P2 : p < x) by (apply pred_lt_id; lra). pose proof (bpow_gt_0 radix2 (e - 1)) as Be.
    assert (G : x = p + bpow radix2 (e - 53)).
    { rewrite <- (pred_plus_ulp radix2 fex x x0 Fx) at 1. fold p. f_equal. rewrite ulp_neq_0 by lra. f_equal. unfold cexp.
      replace (mag radix2 p : Z) with e; [unfold fex, FLT_exp; lia|]. symmetry. apply mag_unique. rewrite Rabs_pos_eq; lra. }
    set (g := bpow radix2 (e - 53)) in *. assert (g0 : 0 < g) by apply bpow_gt_0.
    assert (T : bpow radix2 e = g * 9007199254740992).
    { unfold g. replace e with ((e - 53) + 53)%Z at 1 by ring. rewrite bpow_plus. reflexivity. }
    assert (Fe : generic_format radix2 fex (bpow radix2 e)) by (apply generic_format_bpow; unfold fex, FLT_exp; lia).
    assert (X1 : x + g <= bpow radix2 e).
    { pose proof (succ_le_lt radix2 fex x (bpow radix2 e) Fx Fe E2) as Q. rewrite succ_eq_pos in Q by lra.
      rewrite ulp_neq_0 in Q by lra. unfold cexp in Q. rewrite (mag_unique radix2 x e) in Q by (rewrite Rabs_pos_eq; lra).
      replace (fex e) with (e - 53)%Z in Q by (unfold fex, FLT_exp; lia). exact Q. }
    apply round_N_ge_midp; [typeclasses eauto|exact Fx|]. fold p. replace (x + p) with (2 * x - g) by lra.
    set (h := (2 * x - g) / 2). assert (h0 : 0 <= h) by (unfold h; lra).
    rewrite <- (sqrt_square h) by exact h0. apply sqrt_lt_1_alt. split; [apply Rle_0_sqr|]. eapply Rlt_le_trans; [|exact S].
    replace (h * h) with (x * x - (g * x - g * g / 4)) by (unfold h; field). unfold lo.
    assert (U * (x * x) < g * x - g * g / 4); [|lra].
    assert (U * (x + g) <= g) as K by (rewrite T in X1; unfold U; lra).
    assert (U * x * x + U * g * x <= g * x) as K2 by (replace (U * x * x + U * g * x) with (U * (x + g) * x) by ring; apply Rmult_le_compat_r; lra).
    assert (g / 4 < U * x) as K3. 
    { assert (g * 4503599627370496 <= x); [|unfold U; lra]. apply Rle_trans with (bpow radix2 (e - 1)); [|lra].
      right. unfold g. replace (e - 1)%Z with ((e - 53) + 52)%Z by ring. rewrite bpow_plus. reflexivity. }
    assert (g * (g / 4) < g * (U * x)) by (apply Rmult_lt_compat_l; lra). lra.
  - right. assert (Sq : x * x = bpow radix2 (2 * (e - 1))) by (rewrite <- E, <- bpow_plus; f_equal; ring).
    assert (rnd (x * x) = x * x) as ->.
    { unfold rnd. apply round_generic; [typeclasses eauto|]. rewrite Sq. apply generic_format_bpow. unfold fex, FLT_exp. lia. }
    rewrite sqrt_square by lra. symmetry. unfold rnd. apply round_generic; [typeclasses eauto|exact Fx].
Qed.
Lemma square_val r : number r -> bpow radix2 (-400) <= val r <= bpow radix2 400 ->
  number (r * r)%float /\ val (r * r)%float = rnd (val r * val r) /\ 0 <= val (r * r)%float <= bpow radix2 800.
Proof.
  intros Hr [L H]. pose proof (bpow_gt_0 radix2 (-400)) as B0.
  assert (RR : Rabs (val r * val r) <= bpow radix2 800).
  { rewrite Rabs_pos_eq by apply Rle_0_sqr. change 800%Z with (400 + 400)%Z. rewrite bpow_plus. apply Rmult_le_compat; lra. }
  destruct (f_mul r r Hr Hr) as [Nq Vq]; [eapply Rle_trans; [exact RR|apply bpow_le; lia]|].
  split; [exact Nq|]. split; [exact Vq|].
  rewrite Vq. split; [rewrite <- rnd_0; apply rnd_le, Rle_0_sqr|]. eapply Rle_trans; [apply Rle_abs|]. apply rnd_bpow; [lia|exact RR].
Qed.
Lemma radius_in r u : number r -> bpow radix2 (-400) <= val r <= bpow radix2 400 -> canonical u ->
  let s := sample_radius (nlit 0 1, (r * r)%float) u in number s /\ 0 <= val s <= val r.
Proof.
  intros Hr Br Hu s. destruct n0_val as [N0 V0]. destruct (square_val r Hr Br) as (Nq & Vq & Q).
  assert (bpow radix2 800 <= bpow radix2 1022) as B8 by (apply bpow_le; lia).
  destruct (uniform_in (nlit 0 1) (r * r)%float u N0 Nq Hu) as [Nu Vu]; rewrite ?V0 in *; try lra.
  { rewrite Rabs_R0. lra. } { rewrite Rabs_pos_eq; lra. }
  destruct (f_sqrt _ Nu (proj1 Vu)) as [Ns Vs]. split; [exact Ns|]. unfold s, sample_radius. cbn [nsqrt F_num]. rewrite Vs. split.
  - rewrite <- rnd_0. apply rnd_le, sqrt_pos.
  - apply Rle_trans with (rnd (R_sqrt.sqrt (rnd (val r * val r)))); [|apply sqrt_square_le; [apply val_format|apply Br]].
    apply rnd_le, sqrt_le_1_alt. rewrite <- Vq. apply (proj2 Vu).
Qed.
Lemma annulus_in r r' u : number r -> number r' -> bpow radix2 (-400) <= val r -> val r' <= bpow radix2 400 -> val r <= val r' -> canonical u ->
  let s := sample_radius ((r * r)%float, (r' * r')%float) u in number s /\ val r <= val s <= val r'.
Proof.
  intros Hr Hr' L H LE Hu s. destruct (square_val r Hr ltac:(lra)) as (Nq & Vq & Q). destruct (square_val r' Hr' ltac:(lra)) as (Nq' & Vq' & Q').
  pose proof (bpow_gt_0 radix2 (-400)) as B0.
  assert (bpow radix2 800 <= bpow radix2 1022) as B8 by (apply bpow_le; lia).
  assert (val (r * r)%float <= val (r' * r')%float) as LQ by (rewrite Vq, Vq'; apply rnd_le; apply Rmult_le_compat; lra).
  destruct (uniform_in (r * r)%float (r' * r')%float u Nq Nq' Hu) as [Nu Vu]; try lra.
  { rewrite Rabs_pos_eq; lra. } { rewrite Rabs_pos_eq; lra. }
  destruct (f_sqrt _ Nu ltac:(lra)) as [Ns Vs]. split; [exact Ns|]. unfold s, sample_radius. cbn [nsqrt F_num]. rewrite Vs. split.
  - apply Rle_trans with (rnd (R_sqrt.sqrt (rnd (val r * val r)))); [apply sqrt_square_ge; [apply val_format|exact L]|].
    apply rnd_le, sqrt_le_1_alt. rewrite <- Vq. apply (proj1 Vu).
  - apply Rle_trans with (rnd (R_sqrt.sqrt (rnd (val r' * val r')))); [|apply sqrt_square_le; [apply val_format|lra]].
    apply rnd_le, sqrt_le_1_alt. rewrite <- Vq'. apply (proj2 Vu).
Qed.

(** spheres *)
Lemma conf_tight : number (confusion : PrimFloat.float) /\ 99999999 / 1000000000000000 <= val confusion <= 100000001 / 1000000000000000.
Proof.
  rewrite number_SF, val_SF. replace (Prim2SF confusion) with (S754_finite false 7555786372591432 (-76)) by (vm_compute; reflexivity).
  split; [reflexivity|]. unfold SF2R, F2R. cbn [Defs.Fnum Defs.Fexp cond_Zopp]. change (bpow radix2 (-76)) with (/ 75557863725914323419136). lra.
Qed.
Lemma sphere_lemma (s : sphere PrimFloat.float) p : number3 (sp_c s) -> number3 p -> number (sp_r s) ->
  within3 (powerRZ 2 500) (sp_c s) -> within3 (powerRZ 2 500) p -> gap3 (sp_c s) p -> powerRZ 2 (-400) <= val (sp_r s) <= powerRZ 2 400 ->
  let D := dist (val3 (sp_c s)) (val3 p) in
  (D <= val (sp_r s) -> sphere_contains_default s p = true) /\
  ((1 + 1 / 100000000000000) * val (sp_r s) <= D -> sphere_contains_default s p = false).
Proof.
  destruct s as [c r]. intros Nc Np Nr Bc Bp G Br D. cbn [sp_c sp_r] in *. rewrite !two_p in Br.
  destruct (sqlen_val c p Nc Np Bc Bp G) as [Ns Vs]. fold D in Vs. set (q := sqlen (vec_to c p)) in *.
  pose proof (bpow_gt_0 radix2 (-400)) as B0.
  destruct (square_val r Nr Br) as (Nq & Vq & Q).
  assert (r0 : 0 < val r) by lra. set (R2 := val r * val r). assert (R20 : 0 < R2) by (apply Rmult_lt_0_compat; exact r0).
  assert (RR : lo * R2 <= val (r * r)%float <= hi * R2).
  { rewrite Vq. apply rel_pos. right. apply Rle_trans with (bpow radix2 (-400 + -400)); [apply bpow_le; lia|]. rewrite bpow_plus. apply Rmult_le_compat; lra. }
  destruct conf_tight as [Nk Vk].
  destruct (f_mul r confusion Nr Nk) as [Ne Ve].
  { rewrite Rabs_pos_eq by (apply Rmult_le_pos; lra). apply Rle_trans with (bpow radix2 400 * 1); [apply Rmult_le_compat; lra|].
    rewrite Rmult_1_r. apply bpow_le. lia. }
  assert (E1 : lo * (val r * val confusion) <= val (r * confusion)%float <= hi * (val r * val confusion)).
  { rewrite Ve. apply rel_pos. right. apply Rle_trans with (bpow radix2 (-400) * bpow radix2 (-30)).
    - rewrite <- bpow_plus. apply bpow_le. lia.
    - apply Rmult_le_compat; try apply bpow_ge_0; [lra|]. change (bpow radix2 (-30)) with (/ 1073741824). lra. }
  set (e := val (r * confusion)%float) in *.
  assert (E2 : 99999998 / 1000000000000000 * val r <= e <= 100000002 / 1000000000000000 * val r).
  { unfold lo, hi, U in E1. split.
    - eapply Rle_trans; [|apply (proj1 E1)]. rewrite (Rmult_comm (val r)), <- Rmult_assoc. apply Rmult_le_compat_r; [lra|]. lra.
    - eapply Rle_trans; [apply (proj2 E1)|]. rewrite (Rmult_comm (val r)), <- Rmult_assoc. apply Rmult_le_compat_r; [lra|]. lra. }
  assert (EE : 99999998 / 1000000000000000 * (99999998 / 1000000000000000) * R2 <= e * e <= 100000002 / 1000000000000000 * (100000002 / 1000000000000000) * R2).
  { unfold R2. split.
    - replace (99999998 / 1000000000000000 * (99999998 / 1000000000000000) * (val r * val r)) with ((99999998 / 1000000000000000 * val r) * (99999998 / 1000000000000000 * val r)) by ring.
      apply Rmult_le_compat; lra.
    - replace (100000002 / 1000000000000000 * (100000002 / 1000000000000000) * (val r * val r)) with ((100000002 / 1000000000000000 * val r) * (100000002 / 1000000000000000 * val r)) by ring.
      apply Rmult_le_compat; lra. }
  assert (e400 : e <= bpow radix2 400) by lra.
  assert (e430 : bpow radix2 (-430) <= e).
  { apply Rle_trans with (99999998 / 1000000000000000 * val r); [|lra]. change (-430)%Z with (-30 + -400)%Z. rewrite bpow_plus. apply Rmult_le_compat; try apply bpow_ge_0; [|lra].
    change (bpow radix2 (-30)) with (/ 1073741824). lra. }
  pose proof (bpow_gt_0 radix2 (-430)) as B430.
  destruct (f_mul _ _ Ne Ne) as [Nee Vee].
  { fold e. rewrite Rabs_pos_eq by apply Rle_0_sqr. apply Rle_trans with (bpow radix2 (400 + 400)); [|apply bpow_le; lia]. rewrite bpow_plus. apply Rmult_le_compat; lra. }
  fold e in Vee. assert (E3 : lo * (e * e) <= val (r * confusion * (r * confusion))%float <= hi * (e * e)).
  { rewrite Vee. apply rel_pos. right. apply Rle_trans with (bpow radix2 (-430 + -430)); [apply bpow_le; lia|]. rewrite bpow_plus. apply Rmult_le_compat; lra. }
  (* the difference *)
  assert (Q2 : 0 <= val q) by (pose proof (Rle_0_sqr D); unfold Rsqr in *; assert (0 <= lo * (lo * lo) * (lo * (lo * lo)) * (D * D)) by (apply Rmult_le_pos; [unfold lo, U; lra|assumption]); lra).
  assert (D0 : 0 <= D) by apply sqrt_pos.
  assert (DD : D * D <= bpow radix2 1004).
  { unfold D, dist, norm. rewrite sqrt_sqrt by (unfold dot; pose proof (Rle_0_sqr); repeat apply Rplus_le_le_0_compat; apply Rle_0_sqr).
    destruct c as [cx cy cz], p as [px py pz]. destruct Bc as (C1 & C2 & C3), Bp as (P1 & P2 & P3). unfold dot, psub, val3. cbn [vx vy vz] in *. rewrite two_p in *.
    assert (K : forall a b, Rabs a <= bpow radix2 500 -> Rabs b <= bpow radix2 500 -> (a - b) * (a - b) <= bpow radix2 1002).
    { intros a b Ha Hb. assert (Rabs (a - b) <= bpow radix2 501) as A.
      { change 501%Z with (1 + 500)%Z. rewrite <- bpow_double. eapply Rle_trans; [apply Rabs_triang|]. rewrite Rabs_Ropp. lra. }
      rewrite <- (Rabs_pos_eq ((a - b) * (a - b))) by apply Rle_0_sqr. rewrite Rabs_mult. change 1002%Z with (501 + 501)%Z. rewrite bpow_plus.
      apply Rmult_le_compat; try apply Rabs_pos; exact A. }
    pose proof (K _ _ C1 P1). pose proof (K _ _ C2 P2). pose proof (K _ _ C3 P3).
    assert (bpow radix2 1004 = 4 * bpow radix2 1002) as -> by (change 1004%Z with (2 + 1002)%Z; rewrite bpow_plus; reflexivity).
    pose proof (bpow_gt_0 radix2 1002). lra. }
  assert (Dq : val q <= bpow radix2 1010).
  { eapply Rle_trans; [apply (proj2 Vs)|]. apply Rle_trans with (64 * bpow radix2 1004).
    - apply Rmult_le_compat; [unfold hi, U; lra|apply Rle_0_sqr|unfold hi, U; lra|exact DD].
    - change 1010%Z with (6 + 1004)%Z. rewrite bpow_plus. right. reflexivity. }
  assert (Bd : Rabs (val q - val (r * r)%float) <= bpow radix2 1023).
  { apply Rle_trans with (bpow radix2 1010); [|apply bpow_le; lia]. assert (bpow radix2 800 <= bpow radix2 1010) by (apply bpow_le; lia). apply Rabs_le. lra. }
  destruct (f_sub q (r * r)%float Ns Nq Bd) as [Nx Vx].
  pose proof (add_error (val q) (- val (r * r)%float) (val_format _) (generic_format_opp _ _ _ (val_format _))) as Ex.
  fold (val q - val (r * r)%float) in Ex. rewrite <- Vx, u_is in Ex. apply Rabs_le_inv in Ex.
  set (x := val q - val (r * r)%float) in *.
  unfold sphere_contains_default, sphere_contains. cbn [sp_c sp_r nltb nsub nmul F_num]. fold q. split; intros HD.
  - apply f_ltb; [exact Nx|exact Nee|].
    assert (D * D <= R2) as D2 by (apply Rmult_le_compat; assumption).
    assert (X1 : x <= (hi * (hi * hi) * (hi * (hi * hi)) - lo) * R2).
    { assert (val q <= hi * (hi * hi) * (hi * (hi * hi)) * R2) by (eapply Rle_trans; [apply (proj2 Vs)|]; apply Rmult_le_compat_l; [unfold hi, U; lra|exact D2]).
      unfold x. lra. }
    assert (X2 : - 2 * R2 <= x) by (unfold x, hi, U in *; lra).
    assert (X3 : val (q - r * r)%float <= x + U * Rabs x) by lra.
    destruct (Rle_or_lt 0 x) as [S|S].
    + rewrite Rabs_pos_eq in X3 by exact S. eapply Rle_lt_trans; [exact X3|]. eapply Rlt_le_trans; [|apply (proj1 E3)].
      apply Rle_lt_trans with (hi * ((hi * (hi * hi) * (hi * (hi * hi)) - lo) * R2)); [unfold hi at 1; unfold U in *; lra|].
      apply Rlt_le_trans with (lo * (99999998 / 1000000000000000 * (99999998 / 1000000000000000) * R2)); [|apply Rmult_le_compat_l; [unfold lo, U; lra|apply EE]].
      rewrite <- !Rmult_assoc. apply Rmult_lt_compat_r; [exact R20|]. unfold hi, lo, U. lra.
    + rewrite Rabs_left in X3 by exact S. apply Rle_lt_trans with 0; [unfold U in X3; lra|].
      apply Rlt_le_trans with (lo * (e * e)); [|apply E3]. apply Rmult_lt_0_compat; [unfold lo, U; lra|]. apply Rmult_lt_0_compat; lra.
  - apply f_ltb_false; [exact Nx|exact Nee|].
    set (k := 1 + 1 / 100000000000000) in *.
    assert (k * k * R2 <= D * D) as D2.
    { unfold R2. replace (k * k * (val r * val r)) with ((k * val r) * (k * val r)) by ring. apply Rmult_le_compat; try assumption; apply Rmult_le_pos; unfold k; lra. }
    assert (X1 : (lo * (lo * lo) * (lo * (lo * lo)) * (k * k) - hi) * R2 <= x).
    { assert (lo * (lo * lo) * (lo * (lo * lo)) * (k * k * R2) <= val q) by (eapply Rle_trans; [|apply (proj1 Vs)]; apply Rmult_le_compat_l; [unfold lo, U; lra|exact D2]).
      unfold x. lra. }
    assert (0 <= (lo * (lo * lo) * (lo * (lo * lo)) * (k * k) - hi) * R2) as X0 by (apply Rmult_le_pos; [unfold lo, hi, k, U; lra|lra]).
    rewrite Rabs_pos_eq in Ex by lra.
    eapply Rle_trans; [apply (proj2 E3)|]. apply Rle_trans with (hi * (100000002 / 1000000000000000 * (100000002 / 1000000000000000) * R2)); [apply Rmult_le_compat_l; [unfold hi, U; lra|apply EE]|].
    apply Rle_trans with (lo * ((lo * (lo * lo) * (lo * (lo * lo)) * (k * k) - hi) * R2)).
    + rewrite <- !Rmult_assoc. apply Rmult_le_compat_r; [lra|]. unfold hi, lo, k, U. lra.
    + apply Rle_trans with (lo * x); [apply Rmult_le_compat_l; [unfold lo, U; lra|exact X1]|]. unfold lo. lra.
Qed.

Lemma box_contained (T : Trig PrimFloat.float) (b : box PrimFloat.float) u1 u2 u3 M D : box_number b -> ordered b -> within_box M b -> M <= powerRZ 2 500 ->
  has_side b D -> powerRZ 2 (-400) <= D -> M <= 400000000 * D -> canonical u1 -> canonical u2 -> canonical u3 ->
  box_contains_default b (sample_point (sampler_box b) u1 u2 u3) = true.
Proof.
  intros Nb O W HM S HD HMD C1 C2 C3.
  assert (within_box (powerRZ 2 1021) b) as W'.
  { assert (M <= powerRZ 2 1021) as L by (eapply Rle_trans; [exact HM|]; rewrite !two_p; apply bpow_le; lia).
    destruct W as [(A1 & A2 & A3) (B1 & B2 & B3)]. unfold within_box, within3. repeat split; eapply Rle_trans; eassumption. }
  destruct (box_sample T b u1 u2 u3 Nb O W' C1 C2 C3) as [Np I].
  exact (contains_lemma b _ M D Nb Np W HM S HD HMD I).
Qed.

Lemma cylinder_draws (T : Trig PrimFloat.float) (c : cyl PrimFloat.float) u1 u3 : number (cyl_radius c) -> bpow radix2 (-400) <= val (cyl_radius c) <= bpow radix2 400 ->
  number (c_h c) -> 0 <= val (c_h c) <= bpow radix2 1022 -> canonical u1 -> canonical u3 ->
  let '(r, _, h) := ps_ranges (sampler_cyl c) in
  (number (sample_radius r u1) /\ 0 <= val (sample_radius r u1) <= val (cyl_radius c)) /\
  (number (uniform h u3) /\ 0 <= val (uniform h u3) <= val (c_h c)).
Proof.
  intros Nr Br Nh Bh C1 C3. cbn [ps_ranges sampler_cyl]. split; [exact (radius_in _ u1 Nr Br C1)|].
  destruct n0_val as [N0 V0]. destruct (uniform_in n0 (c_h c) u3 N0 Nh C3) as [N V]; rewrite ?V0 in *; try lra.
  { rewrite Rabs_R0. lra. } { rewrite Rabs_pos_eq; lra. } split; [exact N|]. exact V.
Qed.
Lemma hollow_draws (T : Trig PrimFloat.float) (h : hollow PrimFloat.float) s u1 : sampler_hollow h = Ok s ->
  number (hollow_inner h) -> number (h_outer h) -> bpow radix2 (-400) <= val (hollow_inner h) -> val (h_outer h) <= bpow radix2 400 -> val (hollow_inner h) <= val (h_outer h) ->
  canonical u1 -> let '(r, _, _) := ps_ranges s in
  number (sample_radius r u1) /\ val (hollow_inner h) <= val (sample_radius r u1) <= val (h_outer h).
Proof.
  unfold sampler_hollow. destruct (hollow_full h) as [f|?| |]; cbn [obind]; try discriminate. intros [= <-] Ni No L H LE C. cbn [ps_ranges].
  exact (annulus_in _ _ u1 Ni No L H LE C).
Qed.
