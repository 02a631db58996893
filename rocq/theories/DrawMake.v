(** Proofs for C119 and C120: ranges in the wrong order, and quadrilaterals whose lengths are drawn from a distribution. *)

From Coq Require Import ZArith Reals Lra Lia Psatz Bool List.
From Flocq Require Import Core.Core IEEE754.BinarySingleNaN IEEE754.PrimFloat.
From Coq Require Import Floats.
From Verif Require Import Base NumModel VecModel LinModel RoundModel PolyModel DistModel IntModel SampModel DomModel RngModel DrawModel DrawMakeModel GeoSpec SampSpec DblSpec LinDblSpec TrigDblSpec DomSpec RngSpec DrawSpec DblLemmas DblProofs DblLen DblExamples LinDblBase RndDblProofs PtDblProofs FrDblProofs
  DomProofs RngProofs RngDbl SpDblProofs QdDblSpec QdDblProofs QdDblSample DrawProofs DrawDbl.
Import ListNotations.
Local Open Scope R_scope.

(** ** Distributions that may be made *)
Lemma make_real_iff a b : number a -> number b -> (make_real a b = Ok (a, b) /\ val a <= val b) \/ (make_real a b = UB /\ val b < val a).
Proof.
  intros Na Nb. unfold make_real. pose proof (f_leb a b Na Nb) as L. destruct (PrimFloat.leb a b).
  - left. split; [reflexivity|apply L; reflexivity].
  - right. split; [reflexivity|]. apply Rnot_le_lt. intros K. apply L in K. discriminate.
Qed.
Lemma made_in a b r x : number a -> number b -> Rabs (val a) <= powerRZ 2 1021 -> Rabs (val b) <= powerRZ 2 1021 -> make_real a b = Ok r -> engine_value x ->
  number (fst (draw_real (fst r) (snd r) x)) /\ val a <= val (fst (draw_real (fst r) (snd r) x)) <= val b.
Proof.
  intros Na Nb Ba Bb E H. destruct (make_real_iff a b Na Nb) as [[E' L]|[E' _]]; [|congruence]. assert (r = (a, b)) as -> by congruence.
  cbn [fst snd]. destruct (real_ok a b x Na Nb L Ba Bb H) as (N & V & _). split; assumption.
Qed.

(** ** Ranges in the wrong order *)
Lemma uniform_val a b u : number a -> number b -> canonical u -> Rabs (val a) <= bpow radix2 1021 -> Rabs (val b) <= bpow radix2 1021 -> Rabs (rnd (val u * rnd (val b - val a)) + val a) <= bpow radix2 1023 /\
  number (uniform (a, b) u) /\ val (uniform (a, b) u) = rnd (rnd (val u * rnd (val b - val a)) + val a).
Proof.
  intros Na Nb Hu Ba Bb. pose proof (canonical_le u Hu) as U1. destruct Hu as (Nu & U0 & _). pose proof (bpow_double 1021) as B2. change (1 + 1021)%Z with 1022%Z in B2. pose proof (bpow_double 1022) as B3. change (1 + 1022)%Z with 1023%Z in B3.
  pose proof (bpow_gt_0 radix2 1021) as P. apply Rabs_le_inv in Ba, Bb. assert (0 <= val u <= 1) as Bu by (split; [exact U0|unfold U in U1; lra]).
  assert (Rabs (val b - val a) <= bpow radix2 1022) as D by (apply Rabs_le; lra). destruct (f_sub b a Nb Na) as [Nd Vd]; [lra|].
  pose proof (rnd_bpow 1022 _ ltac:(lia) D) as W. assert (Rabs (val u * rnd (val b - val a)) <= bpow radix2 1022) as M.
  { rewrite Rabs_mult, (Rabs_pos_eq (val u)) by lra. rewrite <- (Rmult_1_l (bpow radix2 1022)). apply Rmult_le_compat; try apply Rabs_pos; lra. }
  destruct (f_mul u (b - a)%float Nu Nd) as [Nm Vm]; [rewrite Vd; lra|]. rewrite Vd in Vm. pose proof (rnd_bpow 1022 _ ltac:(lia) M) as W'.
  assert (Rabs (rnd (val u * rnd (val b - val a)) + val a) <= bpow radix2 1023) as K by (apply Rabs_le_inv in W'; apply Rabs_le; lra). split; [exact K|].
  destruct (f_add (u * (b - a))%float a Nm Na) as [Ns Vs]; [rewrite Vm; exact K|]. rewrite Vm in Vs. split; [exact Ns|exact Vs].
Qed.
Lemma reversed a b x : number a -> number b -> val b <= val a -> Rabs (val a) <= powerRZ 2 1021 -> Rabs (val b) <= powerRZ 2 1021 -> engine_value x ->
  number (fst (draw_real a b x)) /\ val b <= val (fst (draw_real a b x)) <= val a.
Proof.
  intros Na Nb L Ba Bb H. unfold draw_real. pose proof (draw_canonical x H) as [D _]. destruct (draw x) as [u y]. cbn [fst snd] in *. rewrite two_p in Ba, Bb.
  destruct (f_opp a Na) as [Na' Va], (f_opp b Nb) as [Nb' Vb]. assert (Rabs (val (- a)%float) <= bpow radix2 1021) as Ba' by (rewrite Va, Rabs_Ropp; exact Ba). assert (Rabs (val (- b)%float) <= bpow radix2 1021) as Bb' by (rewrite Vb, Rabs_Ropp; exact Bb).
  destruct (uniform_val a b u Na Nb D Ba Bb) as (_ & N & V). destruct (uniform_val (- a)%float (- b)%float u Na' Nb' D Ba' Bb') as (_ & _ & V').
  pose proof (bpow_double 1021) as B2. change (1 + 1021)%Z with 1022%Z in B2. pose proof (bpow_gt_0 radix2 1021).
  assert (val (uniform ((- a)%float, (- b)%float) u) = - val (uniform (a, b) u)) as E.
  { rewrite V, V', Va, Vb. replace (- val b - - val a) with (- (val b - val a)) by ring. rewrite rnd_opp. replace (val u * - rnd (val b - val a)) with (- (val u * rnd (val b - val a))) by ring. rewrite rnd_opp.
    rewrite <- Ropp_plus_distr, rnd_opp. reflexivity. }
  apply Rabs_le_inv in Ba, Bb. destruct (uniform_in (- a)%float (- b)%float u Na' Nb' D) as [_ I]; try lra. split; [exact N|]. lra.
Qed.

(** ** Quadrilaterals with lengths from a normal distribution *)
Lemma quad_normal (T : Trig PrimFloat.float) log : accurate_log log -> forall strike dip c mean stddev min M, number mean -> number stddev -> number min -> powerRZ 2 (-900) <= M <= powerRZ 2 900 ->
  Rabs (val mean) <= M -> Rabs (val stddev) <= M -> val min + 122 / 10 * Rabs (val stddev) + powerRZ 2 (-48) * M <= val mean ->
  forall fuel x, (2147483646 <= Z.of_nat fuel)%Z -> engine_value x ->
  exists l1 l2 l3 l4, draw_normals log mean stddev fuel 4 (x, None) = Ok [l1; l2; l3; l4] /\
  sample_old_quad strike dip c (fun i => nth i [l1; l2; l3; l4] 0%float) min = Ok (strike_dip_quad strike dip c l1 l2 l3 l4) /\ Forall (fun l => val min <= val l) [l1; l2; l3; l4].
Proof.
  intros Hl strike dip c mean stddev min M Nm Ns Nn HM Bm Bs L fuel x F H.
  destruct (normals_ok log Hl mean stddev M Nm Ns HM Bm Bs fuel 4 F (x, None) (conj H I)) as (l & E & Le & A).
  destruct l as [|l1 [|l2 [|l3 [|l4 [|? ?]]]]]; try discriminate Le. exists l1, l2, l3, l4. split; [exact E|].
  assert (Forall (fun l => number l /\ val min <= val l) [l1; l2; l3; l4]) as B. { eapply Forall_impl; [|exact A]. intros v [N V]. apply Rabs_le_inv in V. split; [exact N|lra]. }
  split.
  - apply Forall_inv in B as B1. apply Forall_inv_tail in B. apply Forall_inv in B as B2. apply Forall_inv_tail in B. apply Forall_inv in B as B3. apply Forall_inv_tail in B. apply Forall_inv in B as B4.
    apply (proj2 (old_quad_dbl strike dip c (fun i => nth i [l1; l2; l3; l4] 0%float) min ltac:(intros [|[|[|[|[|i]]]]]; cbn [nth]; (apply B1 || apply B2 || apply B3 || apply B4 || exact (proj1 zero_val))) Nn)).
    intros [|[|[|[|i]]]] Hi; cbn [nth]; (apply B1 || apply B2 || apply B3 || apply B4 || lia).
  - eapply Forall_impl; [|exact B]. intros v [_ V]. exact V.
Qed.

Lemma quad_uniform (T : Trig PrimFloat.float) strike dip c a b min x : number a -> number b -> number min -> val min <= val a -> val a <= val b -> Rabs (val a) <= powerRZ 2 1021 -> Rabs (val b) <= powerRZ 2 1021 -> engine_value x ->
  let edge := fun i => fst (draw_real a b (Nat.iter (2 * i) next x)) in
  (forall i, snd (draw_real a b (Nat.iter (2 * i) next x)) = Nat.iter (2 * (i + 1)) next x /\ val a <= val (edge i) <= val b) /\
  sample_old_quad strike dip c edge min = Ok (strike_dip_quad strike dip c (edge 0%nat) (edge 1%nat) (edge 2%nat) (edge 3%nat)).
Proof.
  intros Na Nb Nn L La Ba Bb H edge. assert (forall i, engine_value (Nat.iter (2 * i) next x)) as Hi by (intros i; apply run_value, H).
  split.
  - intros i. destruct (real_ok a b _ Na Nb La Ba Bb (Hi i)) as (_ & V & S). split; [|exact V]. rewrite S. replace (2 * (i + 1))%nat with (2 + 2 * i)%nat by lia. reflexivity.
  - apply (proj2 (old_quad_dbl strike dip c edge min (fun i => proj1 (real_ok a b _ Na Nb La Ba Bb (Hi i))) Nn)). intros i _. destruct (real_ok a b _ Na Nb La Ba Bb (Hi i)) as (_ & V & _). unfold edge. lra.
Qed.

(** ** The example applications *)
Lemma half_tenth : number 0.5%float /\ number 0x1.999999999999ap-4%float /\ val 0x1.999999999999ap-4%float < val 0.5%float.
Proof.
  destruct (int_val 0.5%float 4503599627370496 (-53) ltac:(vm_compute; reflexivity)) as [N V]. destruct (int_val 0x1.999999999999ap-4%float 7205759403792794 (-56) ltac:(vm_compute; reflexivity)) as [N' V'].
  split; [exact N|]. split; [exact N'|]. rewrite V, V'. change (bpow radix2 (-53)) with (/ 9007199254740992). change (bpow radix2 (-56)) with (/ 72057594037927936). lra.
Qed.
Lemma lengths_made : make_all lengths1 = Ok lengths1 /\ make_all lengths3 = Ok lengths3 /\ make_all py_lengths2 = Ok py_lengths2 /\ make_all lengths2 = UB.
Proof. repeat split; vm_compute; reflexivity. Qed.

(** ** The distributions of point samplers *)
Lemma make_normal_iff m d : number d -> (make_normal m d = Ok (m, d) /\ 0 < val d) \/ (make_normal m d = UB /\ val d <= 0).
Proof.
  intros Nd. unfold make_normal. destruct zero_val as [N0 V0]. pose proof (f_ltb _ d N0 Nd) as L. rewrite V0 in L. change PrimFloat.zero with 0%float in *. destruct (PrimFloat.ltb 0 d).
  - left. split; [reflexivity|apply L; reflexivity].
  - right. split; [reflexivity|]. apply Rnot_lt_le. intros K. apply L in K. discriminate.
Qed.
Lemma made_ok a b : number a -> number b -> val a <= val b -> make_real a b = Ok (a, b).
Proof. intros Na Nb L. destruct (make_real_iff a b Na Nb) as [[E _]|[_ K]]; [exact E|lra]. Qed.
Lemma make_all3 r1 r2 r3 : make_all [r1; r2; r3] = obind (make_real (fst r1) (snd r1)) (fun d1 => obind (make_real (fst r2) (snd r2)) (fun d2 => obind (make_real (fst r3) (snd r3)) (fun d3 => Ok [d1; d2; d3]))).
Proof. cbn [make_all]. destruct (make_real (fst r1) (snd r1)); cbn [obind]; try reflexivity. destruct (make_real (fst r2) (snd r2)); cbn [obind]; try reflexivity. destruct (make_real (fst r3) (snd r3)); reflexivity. Qed.
Lemma box_made x1 y1 z1 x2 y2 z2 b : number x1 -> number y1 -> number z1 -> number x2 -> number y2 -> number z2 -> make_box x1 y1 z1 x2 y2 z2 = Ok b ->
  make_ranges (sampler_box b) = Ok [(x1, x2); (y1, y2); (z1, z2)].
Proof.
  intros N1 N2 N3 N4 N5 N6. unfold make_box. cbn [nltb F_num]. destruct (PrimFloat.ltb x2 x1) eqn:E1; [discriminate|]. destruct (PrimFloat.ltb y2 y1) eqn:E2; [discriminate|]. destruct (PrimFloat.ltb z2 z1) eqn:E3; [discriminate|].
  intros [= <-]. apply f_ltb_false in E1; [|assumption..]. apply f_ltb_false in E2; [|assumption..]. apply f_ltb_false in E3; [|assumption..].
  unfold make_ranges, sampler_box. cbn [ps_ranges b_min b_max vx vy vz]. rewrite make_all3. cbn [fst snd]. rewrite (made_ok x1 x2), (made_ok y1 y2), (made_ok z1 z2) by assumption. reflexivity.
Qed.
Lemma cyl_made (T : Trig PrimFloat.float) (c : cyl PrimFloat.float) : accurate T -> number (cyl_radius c) -> Rabs (val (cyl_radius c)) <= powerRZ 2 500 -> number (c_h c) ->
  (make_ranges (sampler_cyl c) = Ok [(0%float, (cyl_radius c * cyl_radius c)%float); (0%float, (2 * npi)%float); (0%float, c_h c)] /\ 0 <= val (c_h c)) \/
  (make_ranges (sampler_cyl c) = UB /\ val (c_h c) < 0).
Proof.
  intros HT Nr Br Nh. rewrite two_p in Br. destruct zero_val as [N0 V0]. change PrimFloat.zero with 0%float in *.
  assert (Rabs (val (cyl_radius c) * val (cyl_radius c)) <= bpow radix2 1023) as W.
  { rewrite Rabs_mult. apply Rle_trans with (bpow radix2 500 * bpow radix2 500); [apply Rmult_le_compat; try apply Rabs_pos; assumption|rewrite <- bpow_plus; apply bpow_le; lia]. }
  destruct (f_mul _ _ Nr Nr W) as [Nq Vq]. assert (0 <= val (cyl_radius c * cyl_radius c)%float) as Q. { rewrite Vq, <- rnd_0. apply rnd_le. nra. }
  destruct (two_pi T HT) as (Np & Ep & Pp). cbn [nmul F_num] in Np, Ep. change (nlit 2 1 : PrimFloat.float) with 2%float in Np, Ep. apply Rabs_le_inv in Ep. assert (11 * U <= / 10) as U11 by (unfold U; lra). pose proof PI2_3_2.
  assert (make_ranges (sampler_cyl c) = obind (make_real 0 (c_h c)) (fun d => Ok [(0%float, (cyl_radius c * cyl_radius c)%float); (0%float, (2 * npi)%float); d])) as E.
  { unfold make_ranges, sampler_cyl. cbn [ps_ranges]. rewrite make_all3. cbn [fst snd]. change (n0 : PrimFloat.float) with 0%float. change (nlit 2 1 * npi)%num with (2 * npi)%float. change (cyl_radius c * cyl_radius c)%num with (cyl_radius c * cyl_radius c)%float.
    rewrite (made_ok 0%float (cyl_radius c * cyl_radius c)%float N0 Nq) by lra. cbn [obind]. rewrite (made_ok 0%float (2 * npi)%float N0 Np) by lra. reflexivity. }
  rewrite E. destruct (make_real_iff 0%float (c_h c) N0 Nh) as [[-> L]|[-> L]]; rewrite V0 in L; [left|right]; (split; [reflexivity|exact L]).
Qed.
Lemma hol_made (T : Trig PrimFloat.float) bottom axis inner outer height (h : hollow PrimFloat.float) s : accurate T -> make_hollow bottom axis inner outer height = Ok h -> sampler_hollow h = Ok s ->
  number inner -> number outer -> number height -> - val outer <= val inner -> val outer <= powerRZ 2 500 ->
  (make_ranges s = Ok [((inner * inner)%float, (outer * outer)%float); (0%float, (2 * npi)%float); (0%float, height)] /\ 0 <= val height) \/ (make_ranges s = UB /\ val height < 0).
Proof.
  intros HT E1 E2 Ni No Nh P B. rewrite two_p in B. destruct zero_val as [N0 V0]. change PrimFloat.zero with 0%float in *.
  unfold make_hollow in E1. cbn [nltb F_num] in E1. destruct (PrimFloat.ltb outer inner) eqn:L; [discriminate|]. apply f_ltb_false in L; [|assumption..]. injection E1 as <-.
  assert (s = CylSampler (match s with CylSampler b _ _ _ => b | _ => make_circle bottom axis inner end) ((inner * inner)%num, (outer * outer)%num) (n0, (nlit 2 1 * npi)%num) (n0, height)) as ->.
  { unfold sampler_hollow, hollow_full, make_cyl_circle, make_cyl_disk in E2. cbn [h_outer h_h] in E2. destruct (_ >? _)%num in E2; cbn [obind] in E2; [discriminate|]. injection E2 as <-. reflexivity. }
  assert (bpow radix2 500 * bpow radix2 500 <= bpow radix2 1023) as W by (rewrite <- bpow_plus; apply bpow_le; lia). pose proof (bpow_gt_0 radix2 500).
  destruct (f_mul inner inner Ni Ni) as [N1 V1]; [rewrite Rabs_pos_eq; nra|]. destruct (f_mul outer outer No No) as [N2 V2]; [rewrite Rabs_pos_eq; nra|].
  assert (val (inner * inner)%float <= val (outer * outer)%float) as LQ by (rewrite V1, V2; apply rnd_le; nra).
  destruct (two_pi T HT) as (Np & Ep & Pp). cbn [nmul F_num] in Np, Ep. change (nlit 2 1 : PrimFloat.float) with 2%float in Np, Ep. apply Rabs_le_inv in Ep. assert (11 * U <= / 10) as U11 by (unfold U; lra). pose proof PI2_3_2.
  match goal with |- context [make_ranges (CylSampler ?x _ _ _)] => generalize x end. intros e.
  assert (make_ranges (CylSampler e ((inner * inner)%num, (outer * outer)%num) (n0, (nlit 2 1 * npi)%num) (n0, height)) = obind (make_real 0 height) (fun d => Ok [((inner * inner)%float, (outer * outer)%float); (0%float, (2 * npi)%float); d])) as E.
  { unfold make_ranges. cbn [ps_ranges]. rewrite make_all3. cbn [fst snd]. change (n0 : PrimFloat.float) with 0%float. change (nlit 2 1 * npi)%num with (2 * npi)%float. change (inner * inner)%num with (inner * inner)%float. change (outer * outer)%num with (outer * outer)%float.
    rewrite (made_ok (inner * inner)%float (outer * outer)%float N1 N2 LQ). cbn [obind]. rewrite (made_ok 0%float (2 * npi)%float N0 Np) by lra. reflexivity. }
  rewrite E. destruct (make_real_iff 0%float height N0 Nh) as [[-> K]|[-> K]]; rewrite V0 in K; [left|right]; (split; [reflexivity|exact K]).
Qed.
