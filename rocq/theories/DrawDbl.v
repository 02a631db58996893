(** Proofs for C119: numbers of normal distributions in double precision. *)

From Coq Require Import ZArith Reals Lra Lia Psatz Bool List.
From Flocq Require Import Core.Core.
From Flocq Require Sterbenz.
From Coq Require Import Floats.
From Verif Require Import Base NumModel VecModel RoundModel PolyModel DistModel IntModel SampModel DomModel RngModel GeoSpec DblSpec DomSpec RngSpec DblLemmas DblProofs DblLen DblExamples LinDblBase LinDblSeg RndDblProofs
  DomProofs RngProofs RngDbl DrawModel DrawSpec DrawProofs.
Import ListNotations.
Local Open Scope R_scope.

Lemma exp_half x c d : 0 <= c -> c <= exp (x / 2) -> d <= c * c -> d <= exp x.
Proof. intros P A B. replace x with (x / 2 + x / 2) by field. rewrite exp_plus. nra. Qed.
Lemma ln2_le : ln 2 <= 7 / 10.
Proof.
  apply Rnot_lt_le. intros N. apply exp_increasing in N. rewrite exp_ln in N by lra. revert N. apply Rle_not_lt.
  apply (exp_half _ (141619 / 100000)); [lra| |lra]. apply (exp_half _ (119004 / 100000)); [lra| |lra]. apply (exp_half _ (109089 / 100000)); [lra| |lra].
  apply (exp_half _ (104446 / 100000)); [lra| |lra]. apply (exp_half _ (102199 / 100000)); [lra| |lra]. apply (exp_half _ (10109375 / 10000000)); [lra| |lra].
  eapply Rle_trans; [|apply exp_ineq1_le]. lra.
Qed.
Lemma ln_low r : bpow radix2 (-106) <= r -> - (742 / 10) <= ln r.
Proof.
  intros H. pose proof ln2_le as L. assert (0 < bpow radix2 (-106)) by apply bpow_gt_0.
  apply Rle_trans with (ln (bpow radix2 (-106))).
  - rewrite bpow_exp, ln_exp. change (IZR radix2) with 2. lra.
  - destruct (Rle_lt_or_eq_dec _ _ H) as [K|K]; [left; apply ln_increasing; assumption|rewrite K; right; reflexivity].
Qed.

(** ** The coordinates of a point of the square *)
Lemma coord_multiple (w : PrimFloat.float) : / 2 <= val w -> exists k : Z, val w - 1 = IZR k * bpow radix2 (-53).
Proof.
  intros H. pose proof (val_format w) as F. unfold generic_format in F. set (m := Ztrunc (scaled_mantissa radix2 fex (val w))) in F. set (e := cexp radix2 fex (val w)) in *.
  assert (-53 <= e)%Z as E.
  { unfold e, cexp. assert (0 <= mag radix2 (val w))%Z as M. { apply mag_ge_bpow. change (bpow radix2 (0 - 1)) with (/ 2). rewrite Rabs_pos_eq; lra. } change (-53 <= Z.max (mag radix2 (val w) - 53) (-1074))%Z. lia. }
  exists (m * 2 ^ (e + 53) - 2 ^ 53)%Z. rewrite F. unfold F2R. cbn [Fnum Fexp]. rewrite minus_IZR, mult_IZR.
  assert (IZR (2 ^ (e + 53)) = bpow radix2 (e + 53)) as -> by (rewrite <- (IZR_Zpower radix2) by lia; reflexivity).
  rewrite Rmult_minus_distr_r, Rmult_assoc, <- bpow_plus. replace (e + 53 + -53)%Z with e by lia. f_equal.
  change (IZR (2 ^ 53)) with (bpow radix2 53). rewrite <- bpow_plus. reflexivity.
Qed.
Definition coordinate (x : PrimFloat.float) : Prop := number x /\ Rabs (val x) <= 1 /\ (val x = 0 \/ bpow radix2 (-53) <= Rabs (val x)).
Lemma two_val : number 2%float /\ val 2%float = 2.
Proof. destruct (int_val 2%float 4503599627370496 (-51) ltac:(vm_compute; reflexivity)) as [N V]. split; [exact N|]. rewrite V. change (bpow radix2 (-51)) with (/ 2251799813685248). lra. Qed.
Lemma rnd_in a b x : generic_format radix2 fex a -> generic_format radix2 fex b -> a <= x <= b -> a <= rnd x <= b.
Proof. intros Fa Fb [A B]. split; [apply round_ge_generic|apply round_le_generic]; try typeclasses eauto; assumption. Qed.
Lemma fmt_pow e : (-1074 <= e)%Z -> generic_format radix2 fex (bpow radix2 e).
Proof. intros H. apply generic_format_bpow. unfold fex, FLT_exp. lia. Qed.
Lemma big : 10000 <= bpow radix2 1023.
Proof. apply Rle_trans with (bpow radix2 14); [cbn; lra|apply bpow_le; lia]. Qed.
Lemma coord_ok u : canonical u -> coordinate (2 * u - 1)%float.
Proof.
  intros (Nu & U0 & U1). destruct two_val as [N2 V2], one_val as [N1 V1]. pose proof big as B.
  destruct (f_mul 2%float u N2 Nu) as [Nw Vw]. { rewrite V2, Rabs_pos_eq; lra. } set (w := (2 * u)%float) in *.
  assert (0 <= val w <= 2) as Rw. { rewrite Vw, V2. apply rnd_in; [apply generic_format_0|exact (fmt_pow 1 ltac:(lia))|lra]. }
  destruct (f_sub w 1%float Nw N1) as [Nx Vx]. { rewrite V1. apply Rabs_le. lra. } set (x := (w - 1)%float) in *. rewrite V1 in Vx. split; [exact Nx|].
  assert (generic_format radix2 fex 1) as F1 by exact (fmt_pow 0 ltac:(lia)).
  split.
  - apply Rabs_le. rewrite Vx. apply rnd_in; [apply generic_format_opp; exact F1|exact F1|lra].
  - destruct (Rle_lt_dec (/ 2) (val w)) as [L|L].
    + assert (val x = val w - 1) as ->. { rewrite Vx. apply round_generic; [typeclasses eauto|]. apply Sterbenz.sterbenz; [typeclasses eauto|typeclasses eauto|apply val_format|exact F1|lra]. }
      destruct (coord_multiple w L) as [k ->]. destruct (Z.eq_dec k 0) as [->|Hk]; [left; ring|]. right. rewrite Rabs_mult, (Rabs_pos_eq (bpow _ _)) by apply bpow_ge_0.
      assert (1 <= Rabs (IZR k)). { rewrite <- abs_IZR. apply IZR_le. lia. } pose proof (bpow_gt_0 radix2 (-53)). nra.
    + right. assert (val x <= - / 2). { rewrite Vx. apply round_le_generic; [typeclasses eauto|typeclasses eauto|apply generic_format_opp; exact (fmt_pow (-1) ltac:(lia))|lra]. }
      rewrite Rabs_left by lra. change (bpow radix2 (-53)) with (/ 9007199254740992). lra.
Qed.
Lemma coord_square x : coordinate x -> number (x * x)%float /\ val (x * x)%float = rnd (val x * val x) /\ lo * (val x * val x) <= val (x * x)%float <= 1 /\ (val x = 0 /\ val (x * x)%float = 0 \/ bpow radix2 (-106) <= val (x * x)%float).
Proof.
  intros (N & A & B). assert (0 <= val x * val x <= 1) as S. { apply Rabs_le_inv in A. nra. }
  destruct (f_mul x x N N) as [Nm Vm]. { rewrite Rabs_pos_eq by lra. pose proof big. lra. } split; [exact Nm|]. split; [exact Vm|]. rewrite Vm.
  assert (val x = 0 \/ bpow radix2 (-106) <= val x * val x) as B2.
  { destruct B as [B|B]; [left; exact B|right]. change (-106)%Z with (-53 + -53)%Z. rewrite bpow_plus. rewrite <- (Rabs_pos_eq (val x * val x)), Rabs_mult by lra. apply Rmult_le_compat; try apply bpow_ge_0; exact B. }
  split; [split|].
  - apply rel_pos. destruct B2 as [->|B2]; [left; ring|right]. eapply Rle_trans; [|exact B2]. apply bpow_le. lia.
  - apply round_le_generic; [typeclasses eauto|typeclasses eauto|exact (fmt_pow 0 ltac:(lia))|lra].
  - destruct B2 as [->|B2]; [left; rewrite Rmult_0_l, rnd_0; auto|right]. apply round_ge_generic; [typeclasses eauto|typeclasses eauto|apply fmt_pow; lia|exact B2].
Qed.
Lemma radius_ok x y : coordinate x -> coordinate y -> let r := radius2 (x, y) in number r /\ lo * lo * (val x * val x) <= val r /\ lo * lo * (val y * val y) <= val r /\
  (refused r = false -> bpow radix2 (-106) <= val r <= 1).
Proof.
  intros Hx Hy. destruct (coord_square x Hx) as (Na & _ & Ra & Sa), (coord_square y Hy) as (Nb & _ & Rb & Sb). unfold radius2. cbn [fst snd].
  set (a := (x * x)%float) in *. set (b := (y * y)%float) in *. pose proof lo_pos as L. pose proof (bpow_gt_0 radix2 (-106)) as P.
  assert (0 <= val a) by nra. assert (0 <= val b) by nra. destruct (f_add a b Na Nb) as [Nr Vr]. { rewrite Rabs_pos_eq by lra. pose proof big. lra. }
  pose proof (rel_sum (val a) (val b) (val_format a) (val_format b) ltac:(lra) ltac:(lra)) as E. rewrite <- Vr in E. set (r := (a + b)%float) in *. split; [exact Nr|].
  split; [nra|]. split; [nra|]. unfold refused. intros F. apply orb_false_iff in F. destruct F as [F1 F2]. destruct one_val as [N1 V1], zero_val as [N0 V0].
  apply (f_ltb_false _ _ N1 Nr) in F1. rewrite V1 in F1. split; [|lra].
  assert (val r <> 0) as NZ. { intros Z. rewrite <- V0 in Z. apply (f_eqb _ _ Nr N0) in Z. congruence. }
  rewrite Vr. apply round_ge_generic; [typeclasses eauto|typeclasses eauto|apply fmt_pow; lia|].
  destruct Sa as [[_ Sa]|Sa]; [|lra]. destruct Sb as [[_ Sb]|Sb]; [|lra]. exfalso. apply NZ. rewrite Vr, Sa, Sb, Rplus_0_l. apply rnd_0.
Qed.

(** ** The factor *)
Section Factor.
Variable log : PrimFloat.float -> PrimFloat.float.
Hypothesis Hlog : accurate_log log.
Definition factor (r : PrimFloat.float) : PrimFloat.float := PrimFloat.sqrt ((-2) * log r / r)%float.
Lemma neg2 : number (-2)%float /\ val (-2)%float = -2.
Proof.
  assert ((-2)%float = (0 - 2)%float) as -> by (vm_compute; reflexivity). destruct zero_val as [N0 V0], two_val as [N2 V2].
  destruct (f_sub 0%float 2%float N0 N2) as [A B]. { rewrite V0, V2, Rabs_left by lra. pose proof big. lra. } split; [exact A|]. rewrite B, V0, Rminus_0_l, rnd_opp, rnd_val, V2. reflexivity.
Qed.
Lemma spread (r c : PrimFloat.float) : number r -> bpow radix2 (-106) <= val r <= 1 -> number c -> Rabs (val c) <= 1 -> lo * lo * (val c * val c) <= val r ->
  number (c * factor r)%float /\ Rabs (val (c * factor r)%float) <= 122 / 10.
Proof.
  intros Nr Rr Nc C1 Hc. pose proof (bpow_gt_0 radix2 (-106)) as P. destruct (Hlog r Nr ltac:(lra)) as [Nl El]. pose proof (ln_low (val r) (proj1 Rr)) as L.
  assert (ln (val r) <= 0) as L0. { destruct (Rle_lt_or_eq_dec _ _ (proj2 Rr)) as [K|K]; [left; rewrite <- ln_1; apply ln_increasing; lra|rewrite K, ln_1; lra]. }
  rewrite (Rabs_left1 _ L0) in El. assert (powerRZ 2 (-50) = / 1125899906842624) as P50 by (rewrite two_p; reflexivity). rewrite P50 in El. apply Rabs_le_inv in El.
  assert (- (7421 / 100) <= val (log r) <= 0) as Rl by lra. pose proof big as B. pose proof U_pos as [U0 U1]. destruct neg2 as [N2 V2].
  destruct (f_mul _ _ N2 Nl) as [Na Va]. { rewrite V2, Rabs_pos_eq; lra. } set (a := ((-2) * log r)%float) in *. rewrite V2 in Va.
  assert (0 <= val a <= 14843 / 100) as Ra.
  { split; [rewrite Va; apply round_ge_generic; [typeclasses eauto|typeclasses eauto|apply generic_format_0|lra]|].
    assert (Rabs (rnd (-2 * val (log r)) - -2 * val (log r)) <= U * 1000) as E. { apply rnd_err; [|rewrite Rabs_pos_eq; lra]. apply Rle_trans with (bpow radix2 0); [apply bpow_le; lia|cbn; lra]. }
    apply Rabs_le_inv in E. rewrite Va. unfold U in *. lra. }
  set (z := val a / val r). assert (z * val r = val a) as Ez by (unfold z; field; lra). assert (0 <= z) as Z0 by (unfold z; apply Rmult_le_pos; [lra|left; apply Rinv_0_lt_compat; lra]).
  assert (z <= bpow radix2 114) as Z1.
  { apply Rmult_le_reg_r with (val r); [lra|]. rewrite Ez. apply Rle_trans with (bpow radix2 114 * bpow radix2 (-106)); [rewrite <- bpow_plus; change (bpow radix2 (114 + -106)) with 256; lra|]. apply Rmult_le_compat_l; [apply bpow_ge_0|lra]. }
  destruct (f_div a r Na Nr ltac:(lra)) as [Nq Vq]. { fold z. rewrite Rabs_pos_eq by lra. eapply Rle_trans; [exact Z1|]. apply bpow_le. lia. } fold z in Vq. set (q := (a / r)%float) in *.
  set (t := bpow radix2 (-1000)) in *. assert (0 < t <= / 1000) as T. { split; [apply bpow_gt_0|]. apply Rle_trans with (bpow radix2 (-10)); [apply bpow_le; lia|cbn; lra]. }
  assert (0 <= val q) as Q0 by (rewrite Vq; apply round_ge_generic; [typeclasses eauto|typeclasses eauto|apply generic_format_0|exact Z0]).
  assert (val q <= z + U * (z + t)) as Q1. { pose proof (rnd_err z (z + t) ltac:(fold t; lra) ltac:(rewrite Rabs_pos_eq; lra)) as E. apply Rabs_le_inv in E. rewrite Vq. lra. }
  destruct (f_sqrt q Nq Q0) as [Nm Vm]. change (PrimFloat.sqrt q) with (factor r) in Nm, Vm. set (m := factor r) in *. set (s := R_sqrt.sqrt (val q)) in *.
  assert (0 <= s) as S0 by apply sqrt_pos. assert (s * s = val q) as Ss by (apply sqrt_sqrt; exact Q0).
  assert (0 <= val m <= s + U * (s + t)) as Rm.
  { rewrite Vm. split; [apply round_ge_generic; [typeclasses eauto|typeclasses eauto|apply generic_format_0|exact S0]|]. pose proof (rnd_err s (s + t) ltac:(fold t; lra) ltac:(rewrite Rabs_pos_eq; lra)) as E. apply Rabs_le_inv in E. lra. }
  set (d := Rabs (val c)) in *. assert (0 <= d) as D0 by apply Rabs_pos. assert (d * d = val c * val c) as Dd by (unfold d; rewrite <- Rabs_mult, Rabs_pos_eq; nra). rewrite <- Dd in Hc.
  assert (lo * lo = 1 - 2 * U + U * U) as Lo by (unfold lo; ring). rewrite Lo in Hc.
  assert (d * d <= (1 + 3 * U) * val r) as Hd. { assert (d * d <= 1) by nra. assert (0 <= d * d) by nra. unfold U in *. nra. }
  assert ((d * s) * (d * s) <= 14845 / 100) as K.
  { replace (d * s * (d * s)) with (d * d * val q) by (rewrite <- Ss; ring). apply Rle_trans with ((1 + 3 * U) * val r * (z + U * (z + t))); [apply Rmult_le_compat; [nra|exact Q0|exact Hd|exact Q1]|].
    replace ((1 + 3 * U) * val r * (z + U * (z + t))) with ((1 + 3 * U) * ((1 + U) * (z * val r) + U * t * val r)) by ring. rewrite Ez.
    assert (U * t * val r <= U). { assert (t * val r <= 1) by nra. rewrite Rmult_assoc. nra. } unfold U in *. nra. }
  assert (d * s <= 12185 / 1000) as K2. { apply Rnot_lt_le. intros N. assert (12185 / 1000 * (12185 / 1000) < d * s * (d * s)) by nra. lra. }
  assert (0 <= d * val m <= 12186 / 1000) as K3.
  { split; [nra|]. apply Rle_trans with (d * (s + U * (s + t))); [apply Rmult_le_compat_l; lra|]. replace (d * (s + U * (s + t))) with ((1 + U) * (d * s) + U * (d * t)) by ring. assert (d * t <= 1) by nra. unfold U in *. nra. }
  assert (Rabs (val c * val m) <= 12186 / 1000) as K4. { rewrite Rabs_mult, (Rabs_pos_eq (val m)) by lra. exact (proj2 K3). }
  destruct (f_mul c m Nc Nm) as [Nv Vv]. { lra. } split; [exact Nv|]. rewrite Vv.
  assert (Rabs (rnd (val c * val m) - val c * val m) <= U * 100) as E. { apply rnd_err; [|lra]. apply Rle_trans with (bpow radix2 0); [apply bpow_le; lia|cbn; lra]. }
  apply Rabs_le_inv in E. apply Rabs_le_inv in K4. apply Rabs_le. unfold U in *. lra.
Qed.
End Factor.

(** ** The numbers *)
Section Normal.
Variable log : PrimFloat.float -> PrimFloat.float.
Hypothesis Hlog : accurate_log log.
Variables (mean stddev : PrimFloat.float) (M : R).
Hypotheses (Nm : number mean) (Ns : number stddev) (HM : powerRZ 2 (-900) <= M <= powerRZ 2 900) (Bm : Rabs (val mean) <= M) (Bs : Rabs (val stddev) <= M).
Lemma shifted v : number v -> Rabs (val v) <= 122 / 10 -> near_mean M mean stddev (v * stddev + mean)%float.
Proof.
  intros Nv Bv. rewrite !two_p in HM. pose proof U_pos as [U0 U1]. pose proof (bpow_gt_0 radix2 (-900)) as P0.
  assert (100 * M <= bpow radix2 1023) as O. { apply Rle_trans with (bpow radix2 7 * bpow radix2 900); [change (bpow radix2 7) with 128; pose proof (bpow_gt_0 radix2 900); lra|rewrite <- bpow_plus; apply bpow_le; lia]. }
  assert (bpow radix2 (-1000) <= 100 * M) as T. { apply Rle_trans with (bpow radix2 (-900)); [apply bpow_le; lia|lra]. }
  assert (Rabs (val v * val stddev) <= 122 / 10 * Rabs (val stddev)) as B1. { rewrite Rabs_mult. apply Rmult_le_compat_r; [apply Rabs_pos|exact Bv]. }
  destruct (f_mul v stddev Nv Ns) as [Np Vp]; [lra|]. set (p := (v * stddev)%float) in *.
  assert (bpow radix2 (-1000) <= 13 * M) as T13. { apply Rle_trans with (bpow radix2 (-900)); [apply bpow_le; lia|lra]. }
  assert (bpow radix2 (-1000) <= 15 * M) as T15 by lra.
  pose proof (rnd_err (val v * val stddev) (13 * M) T13 ltac:(lra)) as E1. rewrite <- Vp in E1.
  assert (Rabs (val p + val mean) <= 15 * M) as B2.
  { replace (val p + val mean) with ((val p - val v * val stddev) + val v * val stddev + val mean) by ring. eapply Rle_trans; [apply Rabs_triang|]. eapply Rle_trans; [apply Rplus_le_compat_r, Rabs_triang|]. unfold U in *. nra. }
  destruct (f_add p mean Np Nm) as [Nr Vr]; [lra|]. split; [exact Nr|]. pose proof (rnd_err (val p + val mean) (15 * M) T15 B2) as E2. rewrite <- Vr in E2.
  replace (val (p + mean)%float - val mean) with ((val (p + mean)%float - (val p + val mean)) + (val p - val v * val stddev) + val v * val stddev) by ring.
  eapply Rle_trans; [apply Rabs_triang|]. eapply Rle_trans; [apply Rplus_le_compat_r, Rabs_triang|].
  assert (powerRZ 2 (-48) = 32 * U) as -> by (rewrite two_p; change (bpow radix2 (-48)) with (/ 281474976710656); unfold U; lra). nra.
Qed.
Lemma square_ok' x : engine_value x -> coordinate (fst (fst (square_point x))) /\ coordinate (snd (fst (square_point x))) /\ snd (square_point x) = Nat.iter 4 next x.
Proof.
  intros H. unfold square_point. pose proof (draw_canonical x H) as D1. pose proof (draw_state x) as S1. destruct (draw x) as [u1 s1]. cbn [fst snd] in *. pose proof (draw_canonical s1 (proj2 D1)) as D2. pose proof (draw_state s1) as S2.
  destruct (draw s1) as [u2 s2]. cbn [fst snd] in *. split; [apply coord_ok, D1|]. split; [apply coord_ok, D2|]. subst. reflexivity.
Qed.
(** four states in a row whose points are in the disk *)
Definition starts (x : Z) : bool := negb (refused (radius2 (fst (square_point x)))).
Lemma four_starts : Forall (fun x => starts x = true) [1; next 1; next (next 1); next (next (next 1))]%Z.
Proof. repeat constructor; vm_compute; reflexivity. Qed.
Lemma starts_reach x : engine_value x -> exists k, (Z.of_nat k < 2147483646)%Z /\ starts (Nat.iter (4 * k) next x) = true.
Proof.
  intros H. destruct (run_reach x 1 H ltac:(unfold engine_value; lia)) as (n & Ln & En). pose proof four_starts as F. rewrite Forall_forall in F.
  pose proof (Nat.div_mod n 4 ltac:(lia)) as D. pose proof (Nat.mod_upper_bound n 4 ltac:(lia)) as R. set (q := Nat.div n 4) in *. set (r := Nat.modulo n 4) in *.
  assert (r = 0 \/ r = 1 \/ r = 2 \/ r = 3)%nat as [E|[E|[E|E]]] by lia.
  - exists q. split; [lia|]. replace (4 * q)%nat with n by lia. rewrite En. apply F. left. reflexivity.
  - exists (S q). split; [lia|]. replace (4 * S q)%nat with (3 + n)%nat by lia. rewrite run_add, En. apply F. right; right; right; left. reflexivity.
  - exists (S q). split; [lia|]. replace (4 * S q)%nat with (2 + n)%nat by lia. rewrite run_add, En. apply F. right; right; left. reflexivity.
  - exists (S q). split; [lia|]. replace (4 * S q)%nat with (1 + n)%nat by lia. rewrite run_add, En. apply F. right; left. reflexivity.
Qed.
Lemma disk_at k : forall x fuel, engine_value x -> (k < fuel)%nat -> starts (Nat.iter (4 * k) next x) = true ->
  exists px py y, disk_point fuel x = Ok (px, py, y) /\ coordinate px /\ coordinate py /\ refused (radius2 (px, py)) = false /\ engine_value y.
Proof.
  induction k as [|k IH]; intros x fuel H L S; destruct fuel as [|fuel]; try lia; cbn [disk_point]; destruct (square_ok' x H) as (C1 & C2 & E); unfold starts in *.
  - change (Nat.iter (4 * 0) next x) with x in S. destruct (square_point x) as [[px py] y]. cbn [fst snd] in *. apply negb_true_iff in S. rewrite S. exists px, py, y. repeat split; try assumption; try apply C1; try apply C2; subst y; apply (run_value _ 4 H).
  - destruct (square_point x) as [[px py] y]. cbn [fst snd] in *. assert (engine_value y) as Hy by (subst y; apply (run_value _ 4 H)). destruct (refused (radius2 (px, py))) eqn:R.
    + apply IH; [exact Hy|lia|]. subst y. rewrite <- run_add. replace (4 * k + 4)%nat with (4 * Datatypes.S k)%nat by lia. exact S.
    + exists px, py, y. repeat split; try assumption; try apply C1; try apply C2; apply Hy.
Qed.
Definition fair (st : Z * option PrimFloat.float) : Prop := engine_value (fst st) /\ match snd st with None => True | Some v => number v /\ Rabs (val v) <= 122 / 10 end.
Lemma normal_ok fuel st : (2147483646 <= Z.of_nat fuel)%Z -> fair st -> exists v st', draw_normal log mean stddev fuel st = Ok (v, st') /\ near_mean M mean stddev v /\ fair st'.
Proof.
  intros F [H S]. destruct st as [x saved]. cbn [fst snd] in *. unfold draw_normal. cbn [fst snd]. destruct saved as [v|].
  - exists (v * stddev + mean)%float, (x, None). split; [reflexivity|]. split; [apply shifted; apply S|split; [exact H|exact I]].
  - destruct (starts_reach x H) as (k & Lk & Sk). destruct (disk_at k x fuel H ltac:(lia) Sk) as (px & py & y & -> & C1 & C2 & R & Hy). cbn [obind].
    destruct (radius_ok px py C1 C2) as (Nr & Q1 & Q2 & Q3). specialize (Q3 R). set (r := radius2 (px, py)) in *.
    destruct (spread log Hlog r px Nr Q3 (proj1 C1) (proj1 (proj2 C1)) Q1) as [A1 A2]. destruct (spread log Hlog r py Nr Q3 (proj1 C2) (proj1 (proj2 C2)) Q2) as [B1 B2].
    eexists _, _. split; [reflexivity|]. split; [apply shifted; assumption|]. split; [exact Hy|]. cbn [snd]. split; assumption.
Qed.
Lemma normals_ok fuel n : (2147483646 <= Z.of_nat fuel)%Z -> forall st, fair st -> exists l, draw_normals log mean stddev fuel n st = Ok l /\ length l = n /\ Forall (near_mean M mean stddev) l.
Proof.
  intros F. induction n as [|n IH]; intros st H.
  - exists []. repeat split. constructor.
  - destruct (normal_ok fuel st F H) as (v & st' & E & V & H'). destruct (IH st' H') as (l & El & Ll & Al). exists (v :: l). cbn [draw_normals]. rewrite E. cbn [obind fst snd]. rewrite El. cbn [obind].
    split; [reflexivity|]. split; [cbn [length]; lia|constructor; assumption].
Qed.
Lemma normals_seed fuel n seed : (2147483646 <= Z.of_nat fuel)%Z -> exists l, draw_normals log mean stddev fuel n (seeded seed, None) = Ok l /\ length l = n /\ Forall (near_mean M mean stddev) l.
Proof. intros F. apply normals_ok; [exact F|]. split; [apply seeded_value|exact I]. Qed.
End Normal.

(** ** Uniform numbers *)
Lemma real_ok a b x : number a -> number b -> val a <= val b -> Rabs (val a) <= powerRZ 2 1021 -> Rabs (val b) <= powerRZ 2 1021 -> engine_value x ->
  number (fst (draw_real a b x)) /\ val a <= val (fst (draw_real a b x)) <= val b /\ snd (draw_real a b x) = Nat.iter 2 next x.
Proof.
  intros Na Nb L Ba Bb H. unfold draw_real. pose proof (draw_canonical x H) as [D _]. pose proof (draw_state x) as S. destruct (draw x) as [u y]. cbn [fst snd] in *. rewrite two_p in Ba, Bb.
  pose proof (bpow_double 1021) as B2. change (1 + 1021)%Z with 1022%Z in B2. apply Rabs_le_inv in Ba, Bb. pose proof (bpow_gt_0 radix2 1021).
  destruct (uniform_in a b u Na Nb D L) as [N R]; [lra|apply Rabs_le; lra|apply Rabs_le; lra|]. split; [exact N|]. split; [exact R|exact S].
Qed.
