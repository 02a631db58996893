(** Proofs for C119: the two numbers that are made from one point of the unit disk. *)

From Coq Require Import ZArith Reals Lra Lia Psatz Bool List.
From Flocq Require Import Core.Core.
From Coq Require Import Floats.
From Verif Require Import Base NumModel VecModel RoundModel PolyModel DistModel IntModel SampModel DomModel RngModel GeoSpec DblSpec DomSpec RngSpec DblLemmas DblProofs DblLen DblExamples LinDblBase LinDblSeg RndDblProofs
  DomProofs RngProofs RngDbl DrawModel DrawSpec DrawProofs DrawDbl.
Import ListNotations.
Local Open Scope R_scope.

Lemma square_upper x : coordinate x -> val (x * x)%float <= hi * (val x * val x).
Proof.
  intros H. destruct (coord_square x H) as (_ & V & _). rewrite V. apply rel_pos. destruct H as (_ & _ & [->|B]); [left; ring|right].
  apply Rle_trans with (bpow radix2 (-53) * bpow radix2 (-53)); [rewrite <- bpow_plus; apply bpow_le; lia|]. rewrite <- (Rabs_pos_eq (val x * val x)), Rabs_mult by nra. apply Rmult_le_compat; try apply bpow_ge_0; exact B.
Qed.
Lemma radius_close x y : coordinate x -> coordinate y -> let S := val x * val x + val y * val y in (1 - 3 * U) * S <= val (radius2 (x, y)) <= (1 + 3 * U) * S.
Proof.
  intros Hx Hy. destruct (coord_square x Hx) as (Na & _ & Ra & _), (coord_square y Hy) as (Nb & _ & Rb & _). pose proof (square_upper x Hx) as Ua. pose proof (square_upper y Hy) as Ub. unfold radius2. cbn [fst snd].
  set (a := (x * x)%float) in *. set (b := (y * y)%float) in *. pose proof lo_pos as L. assert (0 <= val a) by nra. assert (0 <= val b) by nra.
  destruct (f_add a b Na Nb) as [Nr Vr]. { rewrite Rabs_pos_eq by lra. pose proof big. lra. } rewrite Vr. pose proof (rel_sum (val a) (val b) (val_format a) (val_format b) ltac:(lra) ltac:(lra)) as E.
  set (A := val x * val x) in *. set (B := val y * val y) in *. assert (0 <= A) by (unfold A; nra). assert (0 <= B) by (unfold B; nra). cbv zeta. unfold lo, hi in *. pose proof U_pos. unfold U in *. lra.
Qed.
Lemma ln_close k : (1 - 3 * U) <= k <= (1 + 3 * U) -> Rabs (ln k) <= 4 * U.
Proof.
  intros H. pose proof U_pos as [U0 U1]. assert (0 < k) as K by (unfold U in *; lra). assert (forall y, 0 < y -> ln y <= y - 1) as L. { intros y P. pose proof (exp_ineq1_le (ln y)) as E. rewrite exp_ln in E by exact P. lra. }
  pose proof (L k K) as A. pose proof (L (/ k) (Rinv_0_lt_compat _ K)) as B. rewrite ln_Rinv in B by exact K.
  assert (/ k <= 1 + 4 * U) as I. { apply Rmult_le_reg_r with k; [exact K|]. rewrite Rinv_l by lra. unfold U in *. nra. } apply Rabs_le. lra.
Qed.
Section Pair.
Variable log : PrimFloat.float -> PrimFloat.float.
Hypothesis Hlog : accurate_log log.
(** the square of the number for the coordinate c of a point whose square of the distance from the centre is S *)
Lemma spread_is (r c : PrimFloat.float) (S : R) : number r -> bpow radix2 (-106) <= val r <= 1 -> number c -> Rabs (val c) <= 1 -> val c * val c <= S -> (1 - 3 * U) * S <= val r <= (1 + 3 * U) * S ->
  let v := val (c * factor log r)%float in Rabs (v * v * S - val c * val c * (-2 * ln S)) <= powerRZ 2 (-41) * S /\ 0 <= val c * v.
Proof.
  intros Nr Rr Nc C1 HcS HrS. pose proof (bpow_gt_0 radix2 (-106)) as P. pose proof U_pos as [U0 U1]. assert (0 < S) as SP. { apply Rnot_le_lt. intros N. unfold U in *. nra. }
  set (k := val r / S). assert (val r = k * S) as Ek by (unfold k; field; lra). assert (1 - 3 * U <= k <= 1 + 3 * U) as Rk. { split; (apply Rmult_le_reg_r with S; [exact SP|]); rewrite <- Ek; lra. }
  assert (0 < k) as K0 by (unfold U in *; lra). assert (ln (val r) = ln k + ln S) as Eln by (rewrite Ek; apply ln_mult; assumption). pose proof (ln_close k Rk) as Lk. apply Rabs_le_inv in Lk.
  destruct (Hlog r Nr ltac:(lra)) as [Nl El]. pose proof (ln_low (val r) (proj1 Rr)) as L.
  assert (ln (val r) <= 0) as L0. { destruct (Rle_lt_or_eq_dec _ _ (proj2 Rr)) as [K|K]; [left; rewrite <- ln_1; apply ln_increasing; lra|rewrite K, ln_1; lra]. }
  rewrite (Rabs_left1 _ L0) in El. assert (powerRZ 2 (-50) = 8 * U) as P50 by (rewrite two_p; change (bpow radix2 (-50)) with (/ 1125899906842624); unfold U; lra). rewrite P50 in El. apply Rabs_le_inv in El.
  assert (- (7421 / 100) <= val (log r) <= 0) as Rl by (unfold U in *; lra). pose proof big as B. destruct neg2 as [N2 V2].
  destruct (f_mul _ _ N2 Nl) as [Na Va]. { rewrite V2, Rabs_pos_eq; lra. } set (a := ((-2) * log r)%float) in *. rewrite V2 in Va.
  assert (Rabs (rnd (-2 * val (log r)) - -2 * val (log r)) <= U * 150) as Ea. { apply rnd_err; [|rewrite Rabs_pos_eq; lra]. apply Rle_trans with (bpow radix2 0); [apply bpow_le; lia|cbn; lra]. }
  rewrite <- Va in Ea. apply Rabs_le_inv in Ea. assert (0 <= val a) as A0 by (rewrite Va; apply round_ge_generic; [typeclasses eauto|typeclasses eauto|apply generic_format_0|lra]).
  assert (val a <= 14843 / 100) as A1 by (unfold U in *; lra). assert (Rabs (val a - -2 * ln S) <= 1400 * U) as ES. { apply Rabs_le. unfold U in *. lra. }
  set (z := val a / val r). assert (z * val r = val a) as Ez by (unfold z; field; lra). assert (0 <= z) as Z0 by (unfold z; apply Rmult_le_pos; [lra|left; apply Rinv_0_lt_compat; lra]).
  assert (z <= bpow radix2 114) as Z1.
  { apply Rmult_le_reg_r with (val r); [lra|]. rewrite Ez. apply Rle_trans with (bpow radix2 114 * bpow radix2 (-106)); [rewrite <- bpow_plus; change (bpow radix2 (114 + -106)) with 256; lra|]. apply Rmult_le_compat_l; [apply bpow_ge_0|lra]. }
  destruct (f_div a r Na Nr ltac:(lra)) as [Nq Vq]. { fold z. rewrite Rabs_pos_eq by lra. eapply Rle_trans; [exact Z1|]. apply bpow_le. lia. } fold z in Vq. set (q := (a / r)%float) in *.
  set (t := bpow radix2 (-1000)) in *. assert (0 < t <= / 1000) as T. { split; [apply bpow_gt_0|]. apply Rle_trans with (bpow radix2 (-10)); [apply bpow_le; lia|cbn; lra]. }
  assert (0 <= val q) as Q0 by (rewrite Vq; apply round_ge_generic; [typeclasses eauto|typeclasses eauto|apply generic_format_0|exact Z0]).
  assert (Rabs (val q - z) <= U * (z + t)) as Q1. { rewrite Vq. apply rnd_err; [fold t; lra|rewrite Rabs_pos_eq; lra]. }
  destruct (f_sqrt q Nq Q0) as [Nm Vm]. change (PrimFloat.sqrt q) with (factor log r) in Nm, Vm. set (m := factor log r) in *. set (s := R_sqrt.sqrt (val q)) in *.
  assert (0 <= s) as S0 by apply sqrt_pos. assert (s * s = val q) as Ss by (apply sqrt_sqrt; exact Q0).
  assert (0 <= val m) as M0 by (rewrite Vm; apply round_ge_generic; [typeclasses eauto|typeclasses eauto|apply generic_format_0|exact S0]).
  assert (Rabs (val m - s) <= U * (s + t)) as M1. { rewrite Vm. apply rnd_err; [fold t; lra|rewrite Rabs_pos_eq; lra]. }
  set (x := val c) in *. assert (0 <= x * x) as X0 by nra.
  (* the squares *)
  set (p := x * x / S). assert (x * x = p * S) as Ep by (unfold p; field; lra). assert (0 <= p <= 1) as Rp. { split; [unfold p; apply Rmult_le_pos; [lra|left; apply Rinv_0_lt_compat, SP]|apply Rmult_le_reg_r with S; [exact SP|lra]]. }
  assert (x * x * z * k = p * val a) as Ezk. { rewrite <- Ez, Ek, Ep. ring. }
  assert (0 <= p * val a <= 14843 / 100) as Rpa. { split; [nra|]. apply Rle_trans with (1 * (14843 / 100)); [apply Rmult_le_compat; lra|lra]. }
  assert (0 <= x * x * z) as XZ by nra.
  assert (Rabs (x * x * z - p * val a) <= 500 * U) as E1. { apply Rabs_le. unfold U in *. nra. }
  assert (x * x <= 1) as X1. { apply Rabs_le_inv in C1. nra. }
  assert (x * x * z <= 14844 / 100) as XZ1. { apply Rabs_le_inv in E1. unfold U in *. lra. }
  assert (Rabs (x * x * val q - x * x * z) <= 150 * U) as E2.
  { replace (x * x * val q - x * x * z) with (x * x * (val q - z)) by ring. rewrite Rabs_mult, (Rabs_pos_eq _ X0). apply Rle_trans with (x * x * (U * (z + t))); [apply Rmult_le_compat_l; assumption|].
    replace (x * x * (U * (z + t))) with (U * (x * x * z + x * x * t)) by ring. assert (x * x * t <= 1) by nra. nra. }
  set (d := Rabs x). assert (0 <= d <= 1) as D0 by (split; [apply Rabs_pos|exact C1]). assert (d * d = x * x) as Dd by (unfold d; rewrite <- Rabs_mult, Rabs_pos_eq; lra).
  assert ((d * s) * (d * s) <= 14845 / 100) as K. { replace (d * s * (d * s)) with (d * d * (s * s)) by ring. rewrite Dd, Ss. apply Rabs_le_inv in E2. unfold U in *. lra. }
  assert (0 <= d * s <= 12185 / 1000) as K2. { split; [nra|]. apply Rnot_lt_le. intros N. assert (12185 / 1000 * (12185 / 1000) < d * s * (d * s)) by nra. lra. }
  assert (Rabs (d * val m - d * s) <= 14 * U) as E3.
  { replace (d * val m - d * s) with (d * (val m - s)) by ring. rewrite Rabs_mult, (Rabs_pos_eq d) by lra. apply Rle_trans with (d * (U * (s + t))); [apply Rmult_le_compat_l; lra|]. replace (d * (U * (s + t))) with (U * (d * s + d * t)) by ring. assert (d * t <= 1) by nra. nra. }
  apply Rabs_le_inv in E3. assert (0 <= d * val m <= 12186 / 1000) as K3. { split; [nra|]. unfold U in *. lra. }
  assert (Rabs (x * val m) = d * val m) as Exm by (rewrite Rabs_mult, (Rabs_pos_eq (val m)) by lra; reflexivity).
  destruct (f_mul c m Nc Nm) as [Nv Vv]. { fold x. rewrite Exm. lra. } fold x in Vv. intros v. subst v. rewrite Vv.
  assert (Rabs (rnd (x * val m) - x * val m) <= U * 16) as E4. { apply rnd_err; [|rewrite Exm; lra]. apply Rle_trans with (bpow radix2 0); [apply bpow_le; lia|cbn; lra]. }
  split.
  - set (v := rnd (x * val m)) in *. assert (Rabs (v * v - x * val m * (x * val m)) <= 420 * U) as E5.
    { replace (v * v - x * val m * (x * val m)) with ((v - x * val m) * ((v - x * val m) + 2 * (x * val m))) by ring. rewrite Rabs_mult. apply Rle_trans with (U * 16 * (U * 16 + 2 * (12186 / 1000))); [|unfold U; lra].
      apply Rmult_le_compat; [apply Rabs_pos|apply Rabs_pos|exact E4|]. eapply Rle_trans; [apply Rabs_triang|]. rewrite (Rabs_mult 2), Exm, (Rabs_pos_eq 2) by lra. lra. }
    assert (x * val m * (x * val m) = d * val m * (d * val m)) as E6. { replace (d * val m * (d * val m)) with (d * d * (val m * val m)) by ring. rewrite Dd. ring. }
    assert (Rabs (d * val m * (d * val m) - x * x * val q) <= 360 * U) as E7.
    { replace (x * x * val q) with (d * s * (d * s)) by (rewrite <- Ss, <- Dd; ring). replace (d * val m * (d * val m) - d * s * (d * s)) with ((d * val m - d * s) * (d * val m + d * s)) by ring. rewrite Rabs_mult, (Rabs_pos_eq (d * val m + d * s)) by lra.
      apply Rle_trans with (14 * U * 25); [|lra]. apply Rmult_le_compat; [apply Rabs_pos|lra|apply Rabs_le; lra|lra]. }
    assert (Rabs (p * val a - p * (-2 * ln S)) <= 1400 * U) as E8. { rewrite <- Rmult_minus_distr_l, Rabs_mult, (Rabs_pos_eq p) by lra. pose proof (Rabs_pos (val a - -2 * ln S)). nra. }
    assert (powerRZ 2 (-41) = 4096 * U) as -> by (rewrite two_p; change (bpow radix2 (-41)) with (/ 2199023255552); unfold U; lra).
    rewrite E6 in E5. rewrite Ep at 1. replace (v * v * S - p * S * (-2 * ln S)) with ((v * v - p * (-2 * ln S)) * S) by ring. rewrite Rabs_mult, (Rabs_pos_eq S) by lra. apply Rmult_le_compat_r; [lra|].
    apply Rabs_le_inv in E1, E2, E5, E7, E8. apply Rabs_le. lra.
  - destruct (Rle_lt_dec 0 x) as [X|X].
    + apply Rmult_le_pos; [exact X|]. apply round_ge_generic; [typeclasses eauto|typeclasses eauto|apply generic_format_0|nra].
    + assert (rnd (x * val m) <= 0); [|nra]. apply round_le_generic; [typeclasses eauto|typeclasses eauto|apply generic_format_0|nra].
Qed.
End Pair.

(** ** The point and the two numbers *)
Lemma coord_digits u x1 x2 : canonical u -> Rabs (val u - digits x1 x2) <= powerRZ 2 (-50) -> Rabs (val (2 * u - 1)%float - (2 * digits x1 x2 - 1)) <= powerRZ 2 (-48).
Proof.
  intros (Nu & U0 & U1) E. pose proof U_pos as [P0 P1]. destruct two_val as [N2 V2], one_val as [N1 V1]. pose proof big as B.
  destruct (f_mul 2%float u N2 Nu) as [Nw Vw]. { rewrite V2, Rabs_pos_eq; lra. } set (w := (2 * u)%float) in *. rewrite V2 in Vw.
  assert (bpow radix2 (-1000) <= 2) as T by (apply Rle_trans with (bpow radix2 0); [apply bpow_le; lia|cbn; lra]).
  pose proof (rnd_err (2 * val u) 2 T ltac:(rewrite Rabs_pos_eq; lra)) as E1. rewrite <- Vw in E1. apply Rabs_le_inv in E1.
  assert (0 <= val w <= 2) as Rw. { rewrite Vw. apply rnd_in; [apply generic_format_0|exact (fmt_pow 1 ltac:(lia))|lra]. }
  destruct (f_sub w 1%float Nw N1) as [Nx Vx]. { rewrite V1. apply Rabs_le. lra. } rewrite V1 in Vx.
  pose proof (rnd_err (val w - 1) 2 T ltac:(apply Rabs_le; lra)) as E2. rewrite <- Vx in E2. apply Rabs_le_inv in E2. apply Rabs_le_inv in E.
  assert (powerRZ 2 (-50) = 8 * U) as P50 by (rewrite two_p; change (bpow radix2 (-50)) with (/ 1125899906842624); unfold U; lra). assert (powerRZ 2 (-48) = 32 * U) as -> by (rewrite two_p; change (bpow radix2 (-48)) with (/ 281474976710656); unfold U; lra).
  rewrite P50 in E. apply Rabs_le. lra.
Qed.
Lemma square_digits x : engine_value x -> square_of (next x) (Nat.iter 2 next x) (Nat.iter 3 next x) (Nat.iter 4 next x) (val (fst (fst (square_point x)))) (val (snd (fst (square_point x)))).
Proof.
  intros H. unfold square_point, draw. cbv zeta. cbn [fst snd].
  pose proof (run_value x 1 H) as H1. pose proof (run_value x 2 H) as H2. pose proof (run_value x 3 H) as H3. pose proof (run_value x 4 H) as H4.
  destruct (fraction_ok _ _ H1 H2) as [A1 A2]. destruct (fraction_ok _ _ H3 H4) as [B1 B2]. split; apply coord_digits; assumption.
Qed.
Lemma disk_first k : forall x fuel, engine_value x -> (k < fuel)%nat -> starts (Nat.iter (4 * k) next x) = true ->
  exists j, disk_point fuel x = Ok (square_point (Nat.iter (4 * j) next x)) /\ starts (Nat.iter (4 * j) next x) = true /\ forall i, (i < j)%nat -> starts (Nat.iter (4 * i) next x) = false.
Proof.
  induction k as [|k IH]; intros x fuel H L St; destruct fuel as [|fuel]; try lia; cbn [disk_point].
  - exists 0%nat. change (Nat.iter (4 * 0) next x) with x in *. unfold starts in *. destruct (square_point x) as [[px py] y]. cbn [fst snd] in *. destruct (refused (radius2 (px, py))); [discriminate|]. split; [reflexivity|]. split; [reflexivity|lia].
  - destruct (square_ok' x H) as (_ & _ & E). destruct (starts x) eqn:S0.
    + exists 0%nat. change (Nat.iter (4 * 0) next x) with x. pose proof S0 as S1. unfold starts in S1. destruct (square_point x) as [[px py] y] eqn:Q. cbn [fst snd] in *. destruct (refused (radius2 (px, py))); [discriminate|]. split; [reflexivity|]. split; [exact S0|lia].
    + pose proof S0 as S1. unfold starts in S1. destruct (square_point x) as [[px py] y] eqn:Q. cbn [fst snd] in *. destruct (refused (radius2 (px, py))); [|discriminate]. subst y.
      destruct (IH (Nat.iter 4 next x) fuel (run_value _ 4 H) ltac:(lia)) as (j & E1 & E2 & E3). { rewrite <- run_add. replace (4 * k + 4)%nat with (4 * Datatypes.S k)%nat by lia. exact St. }
      assert (forall i, Nat.iter (4 * i) next (Nat.iter 4 next x) = Nat.iter (4 * Datatypes.S i) next x) as Sh. { intros i. rewrite <- run_add. f_equal. lia. }
      exists (Datatypes.S j). rewrite <- Sh. split; [exact E1|]. split; [exact E2|]. intros [|i] Hi; [exact S0|]. rewrite <- Sh. apply E3. lia.
Qed.
Lemma refused_out x y : coordinate x -> coordinate y -> refused (radius2 (x, y)) = true -> out_of_disk (val x) (val y).
Proof.
  intros Hx Hy R. destruct (radius_ok x y Hx Hy) as (Nr & _). pose proof (radius_close x y Hx Hy) as C. cbv zeta in C. set (S := val x * val x + val y * val y) in *. assert (0 <= S) as S0 by (unfold S; nra). pose proof U_pos as [U0 U1].
  unfold out_of_disk. fold S. assert (powerRZ 2 (-51) = 4 * U) as -> by (rewrite two_p; change (bpow radix2 (-51)) with (/ 2251799813685248); unfold U; lra).
  destruct one_val as [N1 V1], zero_val as [N0 V0]. unfold refused in R. apply orb_true_iff in R. destruct R as [R|R].
  - apply (f_ltb _ _ N1 Nr) in R. rewrite V1 in R. right. unfold U in *. nra.
  - apply (f_eqb _ _ Nr N0) in R. rewrite V0 in R. left. rewrite R in C. unfold U in *. nra.
Qed.
Lemma one_zero v : number v -> Rabs (val v) <= 122 / 10 -> val (v * 1 + 0)%float = val v.
Proof.
  intros N B. destruct one_val as [N1 V1], zero_val as [N0 V0]. pose proof big. destruct (f_mul v 1%float N N1) as [Np Vp]. { rewrite V1, Rmult_1_r. lra. } rewrite V1, Rmult_1_r, rnd_val in Vp.
  destruct (f_add _ 0%float Np N0) as [Nr Vr]. { rewrite Vp, V0, Rplus_0_r. lra. } rewrite Vr, Vp, V0, Rplus_0_r. apply rnd_val.
Qed.
Lemma normal_pair log : accurate_log log -> forall fuel x, engine_value x -> (2147483646 <= Z.of_nat fuel)%Z ->
  let at_ := fun i => Nat.iter i next x in exists k X Y v1 v2 st,
  draw_normal log 0%float 1%float fuel (x, None) = Ok (v1, st) /\ draw_normal log 0%float 1%float fuel st = Ok (v2, (at_ (4 * k + 4)%nat, None)) /\
  square_of (at_ (4 * k + 1)%nat) (at_ (4 * k + 2)%nat) (at_ (4 * k + 3)%nat) (at_ (4 * k + 4)%nat) X Y /\ 0 < X * X + Y * Y <= 1 + powerRZ 2 (-51) /\
  polar_number (X * X + Y * Y) Y (val v1) /\ polar_number (X * X + Y * Y) X (val v2) /\
  forall i, (i < k)%nat -> exists X' Y', square_of (at_ (4 * i + 1)%nat) (at_ (4 * i + 2)%nat) (at_ (4 * i + 3)%nat) (at_ (4 * i + 4)%nat) X' Y' /\ out_of_disk X' Y'.
Proof.
  intros Hlog fuel x H F at_. destruct (starts_reach x H) as (n & Ln & Sn). destruct (disk_first n x fuel H ltac:(lia) Sn) as (k & E & Sk & Fk).
  assert (forall i, at_ (4 * i + 1)%nat = next (Nat.iter (4 * i) next x) /\ at_ (4 * i + 2)%nat = Nat.iter 2 next (Nat.iter (4 * i) next x) /\ at_ (4 * i + 3)%nat = Nat.iter 3 next (Nat.iter (4 * i) next x) /\ at_ (4 * i + 4)%nat = Nat.iter 4 next (Nat.iter (4 * i) next x)) as Sh.
  { intros i. unfold at_. rewrite (Nat.add_comm _ 1), (Nat.add_comm _ 2), (Nat.add_comm _ 3), (Nat.add_comm _ 4). repeat split; reflexivity. }
  pose proof (run_value x (4 * k) H) as Hy. destruct (square_ok' _ Hy) as (C1 & C2 & E4). pose proof (square_digits _ Hy) as D. unfold starts in Sk. apply negb_true_iff in Sk.
  destruct (square_point (Nat.iter (4 * k) next x)) as [[px py] y]. cbn [fst snd] in *. subst y.
  destruct (radius_ok px py C1 C2) as (Nr & Q1 & Q2 & Q3). specialize (Q3 Sk). pose proof (radius_close px py C1 C2) as RC. cbv zeta in RC.
  destruct (spread log Hlog (radius2 (px, py)) px Nr Q3 (proj1 C1) (proj1 (proj2 C1)) Q1) as [A1 A2]. destruct (spread log Hlog (radius2 (px, py)) py Nr Q3 (proj1 C2) (proj1 (proj2 C2)) Q2) as [B1 B2].
  pose proof (spread_is log Hlog (radius2 (px, py)) px (val px * val px + val py * val py) Nr Q3 (proj1 C1) (proj1 (proj2 C1)) ltac:(nra) RC) as SX. pose proof (spread_is log Hlog (radius2 (px, py)) py (val px * val px + val py * val py) Nr Q3 (proj1 C2) (proj1 (proj2 C2)) ltac:(nra) RC) as SY.
  cbv zeta in SX, SY. exists k, (val px), (val py), (py * factor log (radius2 (px, py)) * 1 + 0)%float, (px * factor log (radius2 (px, py)) * 1 + 0)%float, (Nat.iter 4 next (Nat.iter (4 * k) next x), Some (px * factor log (radius2 (px, py)))%float).
  destruct (Sh k) as (-> & -> & -> & ->). rewrite !one_zero by assumption.
  split; [unfold draw_normal; cbn [fst snd]; rewrite E; reflexivity|]. split; [reflexivity|]. split; [exact D|]. split.
  { pose proof U_pos as [U0 U1]. pose proof (bpow_gt_0 radix2 (-106)). assert (powerRZ 2 (-51) = 4 * U) as -> by (rewrite two_p; change (bpow radix2 (-51)) with (/ 2251799813685248); unfold U; lra).
    set (S := val px * val px + val py * val py) in *. assert (0 <= S) by (unfold S; nra). unfold U in *. split; nra. }
  split; [exact SY|]. split; [exact SX|]. intros i Hi. specialize (Fk i Hi). unfold starts in Fk. apply negb_false_iff in Fk. pose proof (run_value x (4 * i) H) as Hz. destruct (square_ok' _ Hz) as (I1 & I2 & _). pose proof (square_digits _ Hz) as ID.
  destruct (square_point (Nat.iter (4 * i) next x)) as [[qx qy] y]. cbn [fst snd] in *. destruct (Sh i) as (-> & -> & -> & ->). exists (val qx), (val qy). split; [exact ID|apply refused_out; assumption].
Qed.
