(** Proofs for C119: positive numbers are drawn from normal distributions whose mean is not negative. *)

From Coq Require Import ZArith Reals Lra Lia Psatz Bool List.
From Flocq Require Import Core.Core.
From Coq Require Import Floats.
From Verif Require Import Base NumModel VecModel RoundModel PolyModel DistModel IntModel SampModel DomModel RngModel GeoSpec DblSpec DomSpec RngSpec DblLemmas DblProofs DblLen DblExamples LinDblBase LinDblSeg RndDblProofs
  DomProofs RngProofs RngDbl DrawModel DrawSpec DrawProofs DrawDbl DrawPair.
Import ListNotations.
Local Open Scope R_scope.

(** the point of the square has a radius of less than 0.94 and a second coordinate of more than 1/4 *)
Definition upper (x : Z) : bool := (radius2 (fst (square_point x)) <? 0.875)%float && (0.25 <? snd (fst (square_point x)))%float.
Lemma bounds : (number 0.875%float /\ val 0.875%float = 7 / 8) /\ number 0.25%float /\ val 0.25%float = / 4.
Proof.
  destruct (int_val 0.875%float 7881299347898368 (-53) ltac:(vm_compute; reflexivity)) as [N V]. destruct (int_val 0.25%float 4503599627370496 (-54) ltac:(vm_compute; reflexivity)) as [N' V'].
  change (bpow radix2 (-53)) with (/ 9007199254740992) in V. change (bpow radix2 (-54)) with (/ 18014398509481984) in V'. repeat split; try assumption; lra.
Qed.
Definition good : Z := 1227.
Lemma four_upper : Forall (fun x => upper x = true) [good; next good; next (next good); next (next (next good))]%Z.
Proof. repeat constructor; vm_compute; reflexivity. Qed.
Lemma upper_reach x : engine_value x -> exists k, (Z.of_nat k < 2147483646)%Z /\ upper (Nat.iter (4 * k) next x) = true.
Proof.
  intros H. destruct (run_reach x good H ltac:(unfold engine_value, good; lia)) as (n & Ln & En). pose proof four_upper as F. rewrite Forall_forall in F.
  pose proof (Nat.div_mod n 4 ltac:(lia)) as D. pose proof (Nat.mod_upper_bound n 4 ltac:(lia)) as R. set (q := Nat.div n 4) in *. set (r := Nat.modulo n 4) in *.
  assert (r = 0 \/ r = 1 \/ r = 2 \/ r = 3)%nat as [E|[E|[E|E]]] by lia.
  - exists q. split; [lia|]. replace (4 * q)%nat with n by lia. rewrite En. apply F. left. reflexivity.
  - exists (S q). split; [lia|]. replace (4 * S q)%nat with (3 + n)%nat by lia. rewrite run_add, En. apply F. right; right; right; left. reflexivity.
  - exists (S q). split; [lia|]. replace (4 * S q)%nat with (2 + n)%nat by lia. rewrite run_add, En. apply F. right; right; left. reflexivity.
  - exists (S q). split; [lia|]. replace (4 * S q)%nat with (1 + n)%nat by lia. rewrite run_add, En. apply F. right; left. reflexivity.
Qed.
Lemma upper_starts x : engine_value x -> upper x = true -> starts x = true /\ / 4 < val (snd (fst (square_point x))) /\ val (radius2 (fst (square_point x))) < 7 / 8.
Proof.
  intros H G. destruct (square_ok' x H) as (C1 & C2 & _). unfold upper in G. unfold starts. destruct (square_point x) as [[px py] y]. cbn [fst snd] in *. apply andb_true_iff in G. destruct G as [G1 G2].
  destruct (radius_ok px py C1 C2) as (Nr & _ & Q2 & _). destruct bounds as ((N8 & V8) & N4 & V4). apply (f_ltb _ _ Nr N8) in G1. apply (f_ltb _ _ N4 (proj1 C2)) in G2. rewrite V8 in G1. rewrite V4 in G2.
  split; [|split; [exact G2|exact G1]]. apply negb_true_iff. unfold refused. destruct one_val as [N1 V1], zero_val as [N0 V0]. apply orb_false_iff. split.
  - apply (f_ltb_false _ _ N1 Nr). rewrite V1. lra.
  - destruct (radius2 (px, py) =? 0)%float eqn:E; [|reflexivity]. apply (f_eqb _ _ Nr N0) in E. rewrite V0 in E. unfold lo, U in Q2. nra.
Qed.
Section Positive.
Variable log : PrimFloat.float -> PrimFloat.float.
Hypothesis Hlog : accurate_log log.
Variables (mean stddev : PrimFloat.float).
Hypotheses (Nm : number mean) (Ns : number stddev) (Bm : 0 <= val mean <= powerRZ 2 900) (Bs : powerRZ 2 (-900) <= val stddev <= powerRZ 2 900).
Lemma shifted_pos v : number v -> / 10 <= val v <= 122 / 10 -> 0 < val (v * stddev + mean)%float.
Proof.
  intros Nv Rv. rewrite (two_p 900) in Bm, Bs. rewrite (two_p (-900)) in Bs. pose proof (bpow_gt_0 radix2 (-900)) as P0. set (t := bpow radix2 900) in *. assert (0 < t) as T0 by apply bpow_gt_0. assert (128 * t <= bpow radix2 1023) as O. { change 128 with (bpow radix2 7). unfold t. rewrite <- bpow_plus. apply bpow_le. lia. }
  assert (bpow radix2 904 = 16 * t) as E16 by (change 16 with (bpow radix2 4); unfold t; rewrite <- bpow_plus; reflexivity). clearbody t.
  assert (val v * val stddev <= 13 * t) as B1 by (apply Rmult_le_compat; lra).
  assert (bpow radix2 (-910) <= val v * val stddev) as B0. { apply Rle_trans with (bpow radix2 (-10) * bpow radix2 (-900)); [rewrite <- bpow_plus; apply bpow_le; lia|]. apply Rmult_le_compat; try apply bpow_ge_0; [change (bpow radix2 (-10)) with (/ 1024); lra|lra]. }
  pose proof (bpow_gt_0 radix2 (-910)) as P1.
  destruct (f_mul v stddev Nv Ns) as [Np Vp]. { rewrite Rabs_pos_eq; lra. } set (p := (v * stddev)%float) in *.
  assert (bpow radix2 (-910) <= val p) as L1 by (rewrite Vp; apply round_ge_generic; [typeclasses eauto|typeclasses eauto|apply fmt_pow; lia|exact B0]).
  assert (val p <= 16 * t) as L2. { rewrite Vp, <- E16. apply round_le_generic; [typeclasses eauto|typeclasses eauto|apply fmt_pow; lia|rewrite E16; lra]. }
  destruct (f_add p mean Np Nm) as [Nr Vr]. { rewrite Rabs_pos_eq; lra. } rewrite Vr. apply Rlt_le_trans with (bpow radix2 (-910)); [exact P1|]. apply round_ge_generic; [typeclasses eauto|typeclasses eauto|apply fmt_pow; lia|lra].
Qed.
Lemma upper_number x : engine_value x -> upper x = true -> let p := fst (square_point x) in number (snd p * factor log (radius2 p))%float /\ / 10 <= val (snd p * factor log (radius2 p))%float <= 122 / 10.
Proof.
  intros H G. destruct (upper_starts x H G) as (St & Y & R). destruct (square_ok' x H) as (C1 & C2 & _). unfold starts in St. destruct (square_point x) as [[px py] y]. cbn [fst snd] in *. apply negb_true_iff in St.
  destruct (radius_ok px py C1 C2) as (Nr & Q1 & Q2 & Q3). specialize (Q3 St). pose proof (radius_close px py C1 C2) as RC. cbv zeta in RC.
  destruct (spread log Hlog (radius2 (px, py)) py Nr Q3 (proj1 C2) (proj1 (proj2 C2)) Q2) as [B1 B2]. split; [exact B1|]. split; [|apply Rabs_le_inv in B2; lra].
  pose proof (spread_is log Hlog (radius2 (px, py)) py (val px * val px + val py * val py) Nr Q3 (proj1 C2) (proj1 (proj2 C2)) ltac:(nra) RC) as SY. cbv zeta in SY. set (v := val (py * factor log (radius2 (px, py)))%float) in *. set (S := val px * val px + val py * val py) in *.
  destruct SY as [E Sg]. assert (/ 16 < S) as S1 by (unfold S; nra). assert (S < 8 / 9) as S2 by (unfold U in *; nra).
  assert (ln S <= S - 1) as L. { pose proof (exp_ineq1_le (ln S)) as X. rewrite exp_ln in X by lra. lra. }
  assert (powerRZ 2 (-41) = / 2199023255552) as P41 by (rewrite two_p; reflexivity). rewrite P41 in E. apply Rabs_le_inv in E. assert (/ 16 < val py * val py) as YY by nra.
  assert (/ 16 * (2 / 9) <= val py * val py * (-2 * ln S)) as K by (apply Rmult_le_compat; lra). assert (/ 100 <= v * v) as V2 by nra. assert (0 <= v) as V0 by nra. nra.
Qed.
Lemma normals_positive fuel x saved : (2147483646 <= Z.of_nat fuel)%Z -> engine_value x -> exists n l, draw_normals log mean stddev fuel n (x, saved) = Ok l /\ Exists (fun v => 0 < val v) l.
Proof.
  intros F. assert (forall x, engine_value x -> exists n l, draw_normals log mean stddev fuel n (x, None) = Ok l /\ Exists (fun v => 0 < val v) l) as K.
  { clear x. intros x H. destruct (upper_reach x H) as (k & Lk & Gk). revert x H Gk. induction k as [k IH] using lt_wf_ind. intros x H Gk.
    pose proof (run_value x (4 * k) H) as Hk. destruct (upper_starts _ Hk Gk) as (Sk & _).
    destruct (disk_first k x fuel H ltac:(lia) Sk) as (j & E & Sj & Fj). assert (j <= k)%nat as Lj. { apply Nat.nlt_ge. intros N. rewrite (Fj k N) in Sk. discriminate. }
    pose proof (run_value x (4 * j) H) as Hj. destruct (square_ok' _ Hj) as (_ & _ & E4).
    destruct (Nat.eq_dec j k) as [->|N].
    - pose proof (upper_number _ Hk Gk) as [V1 V2]. exists 1%nat. cbn [draw_normals]. unfold draw_normal. cbn [fst snd]. rewrite E. destruct (square_point (Nat.iter (4 * k) next x)) as [[px py] y]. cbn [obind fst snd] in *.
      eexists. split; [reflexivity|]. apply Exists_cons_hd. apply shifted_pos; assumption.
    - destruct (IH (k - j - 1)%nat ltac:(lia) ltac:(lia) (Nat.iter 4 next (Nat.iter (4 * j) next x)) (run_value _ 4 Hj)) as (n & l & En & Pl). { rewrite <- !run_add. replace (4 * (k - j - 1) + 4 + 4 * j)%nat with (4 * k)%nat by lia. exact Gk. }
      exists (S (S n)). cbn [draw_normals]. unfold draw_normal at 1. cbn [fst snd]. rewrite E. destruct (square_point (Nat.iter (4 * j) next x)) as [[px py] y]. cbn [obind fst snd] in *. subst y. unfold draw_normal at 1. cbn [fst snd obind]. rewrite En. cbn [obind].
      eexists. split; [reflexivity|]. apply Exists_cons_tl, Exists_cons_tl, Pl. }
  intros H. destruct saved as [v|]; [|apply K, H]. destruct (K x H) as (n & l & En & Pl). exists (S n). cbn [draw_normals]. unfold draw_normal at 1. cbn [fst snd obind]. rewrite En. cbn [obind]. eexists. split; [reflexivity|]. apply Exists_cons_tl, Pl.
Qed.
End Positive.
Lemma normals_negative log mean stddev M : accurate_log log -> number mean -> number stddev -> powerRZ 2 (-900) <= M <= powerRZ 2 900 -> Rabs (val mean) <= M -> Rabs (val stddev) <= M ->
  val mean < - (122 / 10 * Rabs (val stddev) + powerRZ 2 (-48) * M) -> forall fuel n seed, (2147483646 <= Z.of_nat fuel)%Z ->
  exists l, draw_normals log mean stddev fuel n (seeded seed, None) = Ok l /\ length l = n /\ Forall (fun v => val v < 0) l.
Proof.
  intros Hl Nm Ns HM Bm Bs L fuel n seed F. destruct (normals_seed log Hl mean stddev M Nm Ns HM Bm Bs fuel n seed F) as (l & A & B & C). exists l. split; [exact A|]. split; [exact B|].
  eapply Forall_impl; [|exact C]. intros v [_ E]. apply Rabs_le_inv in E. lra.
Qed.
