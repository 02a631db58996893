(** Examples for C118: lengths of 7, 12, 7 and 12 around (3, 4, 0); first lengths below the minimum; and a centre so far away
    that the lengths are lost. *)

From Coq Require Import ZArith Reals List Lra Lia Psatz Bool.
From Flocq Require Import Core.Core IEEE754.BinarySingleNaN IEEE754.PrimFloat.
From Coq Require Import Floats.
From Verif Require Import Base NumModel VecModel LinModel RoundModel PolyModel DistModel IntModel SampModel GeoSpec PolySpec SampSpec DblSpec GeoLemmas DblLemmas DblProofs DblExamples
  LinDblSpec LinDblBase LinDblFoot LinDblProofs LinDblExamples RndDblSpec RndDblProofs RndDblExamples TrigDblSpec TrigDblExamples SdDblSpec SdDblExamples SpDblSpec SpDblExamples QdDblSpec QdDblProofs QdDblSample.
Import ListNotations.
Local Open Scope R_scope.

Definition qd_good : draws PrimFloat.float := fun i => if Nat.even i then 7%float else 12%float.
(** the first length is 0, the others are 12 *)
Definition qd_bad : draws PrimFloat.float := sd_min.
Lemma qd_lengths : (forall i, length_upto 60 (qd_good i)) /\ (forall i, length_upto 60 (qd_bad i)).
Proof.
  destruct v7 as [A B], v12 as [C D], zero_val as [E F]. split; intros i; unfold length_upto, qd_good, qd_bad, sd_min.
  - destruct (Nat.even i); (split; [assumption|]); rewrite ?B, ?D, Rabs_pos_eq; lra.
  - destruct i; (split; [assumption|]); rewrite ?F, ?D, Rabs_pos_eq; lra.
Qed.
Lemma qd_centre : point_upto 60 pt1.
Proof. destruct sd_centre as [N (A & B & C)]. split; [exact N|]. repeat split; lra. Qed.
Lemma qd_enough i : val 3%float <= val (qd_good i).
Proof. unfold qd_good. rewrite (proj2 v3). destruct (Nat.even i); [rewrite (proj2 v7)|rewrite (proj2 v12)]; lra. Qed.
Lemma qd_short : val (qd_bad 0%nat) < val 3%float.
Proof. cbn [qd_bad sd_min]. rewrite (proj2 v3), (proj2 zero_val). lra. Qed.
Lemma qd_sampled (T : Trig PrimFloat.float) : sample_old_quad 1%float 3%float pt1 qd_good 3%float = Ok (strike_dip_quad 1%float 3%float pt1 7%float 12%float 7%float 12%float).
Proof. apply (proj2 (old_quad_dbl 1%float 3%float pt1 qd_good 3%float (fun i => proj1 (proj1 qd_lengths i)) (proj1 v3))). intros i _. apply qd_enough. Qed.
(** Python draws the first length once more *)
Lemma qd_python (T : Trig PrimFloat.float) : py_old_quad 1%float 3%float pt1 qd_bad 3%float 5 = Ok (strike_dip_quad 1%float 3%float pt1 12%float 12%float 12%float 12%float).
Proof.
  unfold py_old_quad.
  assert (forall j, py_edge_length 3%float qd_bad (qd_bad 0%nat) (S j) 5 = Ok (12%float, S (S j))) as L0 by (intros j; vm_compute; reflexivity).
  assert (forall i j, py_edge_length 3%float qd_bad (qd_bad (S i)) j 5 = Ok (12%float, j)) as L1 by (intros i j; vm_compute; reflexivity).
  rewrite (L0 3%nat). cbn [obind fst snd]. rewrite (L1 0%nat). cbn [obind fst snd]. rewrite (L1 1%nat). cbn [obind fst snd]. rewrite (L1 2%nat). cbn [obind fst snd]. reflexivity.
Qed.

(** ** 2^57 away, where the doubles are 32 apart *)
Definition qd_far : V3 PrimFloat.float := mkV3 144115188075855872%float 144115188075855872%float 144115188075855872%float.
Lemma qd_far_val : number3 qd_far /\ val3 qd_far = mkV3 144115188075855872 144115188075855872 144115188075855872.
Proof.
  destruct (int_val 144115188075855872%float 4503599627370496 5 ltac:(vm_compute; reflexivity)) as [A B].
  assert (val 144115188075855872%float = 144115188075855872) as V by (rewrite B; cbn [bpow Z.pow_pos Pos.iter radix2 radix_val Z.mul Pos.mul]; lra).
  split; [repeat split; exact A|]. unfold val3, qd_far. cbn [vx vy vz]. rewrite V. reflexivity.
Qed.
Lemma qd_flat (T : Trig PrimFloat.float) : ncos 0%float = 1%float -> nsin 0%float = 0%float ->
  forall q, sample_old_quad 0%float 0%float qd_far (fun _ => 1%float) 1%float = Ok q -> q_0 q = qd_far /\ q_1 q = qd_far /\ q_2 q = qd_far /\ q_3 q = qd_far.
Proof.
  intros C S q.
  assert (sample_old_quad 0%float 0%float qd_far (fun _ => 1%float) 1%float = Ok (strike_dip_quad 0%float 0%float qd_far 1%float 1%float 1%float 1%float)) as -> by reflexivity.
  intros E. match type of E with Ok ?x = Ok ?y => assert (x = y) as <- by congruence end.
  unfold strike_dip_quad, rotate, rot_rows. cbv zeta. rewrite C, S. repeat split; vm_compute; reflexivity.
Qed.
