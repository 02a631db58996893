(** Examples for C115: a polygon of five corners, whose first number of corners and first length are unusable, and one whose lengths are all negative. *)

From Coq Require Import ZArith Reals List Lra Lia Psatz Bool Permutation.
From Flocq Require Import Core.Core IEEE754.BinarySingleNaN IEEE754.PrimFloat.
From Coq Require Import Floats.
From Verif Require Import Base NumModel VecModel LinModel RoundModel PolyModel DistModel IntModel SampModel GeoSpec PolySpec SampSpec DblSpec GeoLemmas DblLemmas DblProofs DblExamples
  LinDblSpec LinDblBase LinDblFoot LinDblProofs LinDblExamples RndDblSpec RndDblProofs RndDblExamples TrigDblSpec TrigDblExamples PtDblSpec SdDblSpec SdDblProofs SdDblDisk SdDblFrame SdDblExamples
  SampPoly SpDblSpec SpDblProofs SpDblDeltas.
Import ListNotations.
Local Open Scope R_scope.

Definition sp_num : draws Z := fun i => match i with O => 2%Z | _ => 5%Z end.
Definition sp_unit : draws PrimFloat.float := fun i => match Nat.modulo i 4 with 0%nat => 0%float | 1%nat => 1%float | 2%nat => 0.5%float | _ => 0.25%float end.
Definition sp_neg : draws PrimFloat.float := fun _ => sd_neg1.
Definition sp_draws (s : draws PrimFloat.float) : poly_draws PrimFloat.float := mkDraws sp_num sp_unit s sd_min 1%float 3%float pt1.
Definition sp_sort (T : Trig PrimFloat.float) : list (V3 PrimFloat.float) -> list (V3 PrimFloat.float) := isort edge_before.
Lemma sp_perm T l : Permutation (sp_sort T l) l.
Proof. apply isort_perm. Qed.
Lemma sp_scale : scale 60.
Proof. unfold scale. rewrite !two_p. split; [apply Rle_trans with (bpow radix2 0); [apply bpow_le; lia|cbn; lra]|apply Rle_trans with (bpow radix2 6); [cbn; lra|apply bpow_le; lia]]. Qed.
Lemma sp_units i : unitary (sp_unit i).
Proof.
  unfold sp_unit, unitary. destruct zero_val as [A B], one_val as [C D].
  destruct (int_val 0.5%float 4503599627370496 (-53) ltac:(vm_compute; reflexivity)) as [N V]. destruct (int_val 0.25%float 4503599627370496 (-54) ltac:(vm_compute; reflexivity)) as [N' V'].
  change (bpow radix2 (-53)) with (/ 9007199254740992) in V. change (bpow radix2 (-54)) with (/ 18014398509481984) in V'.
  destruct (Nat.modulo i 4) as [|[|[|k]]]; (split; [assumption|]); rewrite ?B, ?D, ?V, ?V'; lra.
Qed.
Lemma sp_drawn : drawn 60 (sp_draws sd_maj) /\ drawn 60 (sp_draws sp_neg).
Proof.
  assert (point_upto 60 pt1) as Hc. { destruct sd_centre as [N (A & B & C)]. split; [exact N|]. repeat split; lra. }
  destruct neg1 as [A B], v7 as [C D], v12 as [E F], zero_val as [G H].
  assert (forall i, number (sd_min i) /\ Rabs (val (sd_min i)) <= 60 / 5) as Hd by (intros [|i]; cbn [sd_min]; (split; [assumption|]); rewrite ?F, ?H, Rabs_pos_eq; lra).
  split; constructor; cbn [sp_draws d_strike d_dip d_center d_unit d_slen d_dlen d_num]; try exact (proj1 sd_angles); try exact (proj1 (proj2 sd_angles)); try exact Hc; try exact sp_units; try exact Hd;
    try (intros [|i]; cbn [sp_num]; lia).
  - intros [|i]; cbn [sd_maj]; (split; [assumption|]); [rewrite B, Rabs_left; lra|rewrite D, Rabs_pos_eq; lra].
  - intros i. split; [exact A|]. unfold sp_neg. rewrite B, Rabs_left; lra.
Qed.
Lemma sp_samples (T : Trig PrimFloat.float) : exists cs, sample_corners (sp_sort T) (sp_draws sd_maj) = Ok cs.
Proof.
  destruct (sampled_throws T (sp_sort T) (sp_draws sd_maj) 60 (proj1 sp_drawn)) as [A B]. apply B. intros C. apply A in C. destruct C as [C|C].
  - specialize (C 1%nat ltac:(lia)). cbn in C. lia.
  - specialize (C 1%nat ltac:(lia)). cbn [sp_draws d_slen sd_maj] in C. rewrite (proj2 v7) in C. lra.
Qed.
Lemma sp_fails (T : Trig PrimFloat.float) : sample_corners (sp_sort T) (sp_draws sp_neg) = Throw RuntimeError.
Proof. apply (sampled_throws T (sp_sort T) (sp_draws sp_neg) 60 (proj2 sp_drawn)). right. intros i _. cbn [sp_draws d_slen]. unfold sp_neg. rewrite (proj2 neg1). lra. Qed.
Lemma sp_quad (T : Trig PrimFloat.float) : exists q, sample_quad (sp_sort T) (sp_draws sd_maj) = Ok q.
Proof.
  unfold sample_quad. set (d := four (sp_draws sd_maj)). pose proof (four_drawn 60 _ (proj1 sp_drawn)) as D. fold d in D.
  destruct (corners_cases (sp_sort T) d 60 (dr_unit _ _ D) (dr_slen _ _ D) (dr_dlen _ _ D)) as [[C _]|[[C _]|(n & i & k & sl & dl & ds & _ & Hf & _ & _ & _ & S1 & S2 & ->)]].
  - specialize (C 1%nat ltac:(lia)). cbn in C. lia.
  - specialize (C 1%nat ltac:(lia)). cbn [d four sp_draws d_slen sd_maj] in C. rewrite (proj2 v7) in C. lra.
  - destruct Hf as (Hn & _). cbn in Hn. subst n. destruct S1 as [L _]. rewrite map_length in L. change (Z.to_nat 4) with 4%nat in L. cbn [obind].
    assert (length (sp_sort T (edge_vectors sl dl ds)) = 4%nat) as L' by (rewrite (Permutation_length (sp_perm T _)); unfold edge_vectors; rewrite map_length; exact L).
    destruct (sp_sort T (edge_vectors sl dl ds)) as [|e1 [|e2 [|e3 [|e4 [|]]]]]; try discriminate. eexists. reflexivity.
Qed.
(** four edges of a rectangle of 12 by 7 *)
Definition sp_edges : list (V3 PrimFloat.float) := edge_vectors 7%float 12%float [(1, 0); (0, 1); ((-1), 0); (0, (-1))]%float.
Lemma sp_edges_upto : edges_upto 60 sp_edges.
Proof.
  assert (sp_edges = [mkV3 12 0 0; mkV3 0 7 0; mkV3 (PrimFloat.opp 12) 0 0; mkV3 0 (PrimFloat.opp 7) 0]%float) as -> by (vm_compute; reflexivity).
  destruct v7 as [C D], v12 as [E F], zero_val as [G H]. destruct (f_opp _ C) as [C' D'], (f_opp _ E) as [E' F']. split.
  - repeat constructor; assumption.
  - unfold PolySpec.sum. cbn [map fold_right vx vy]. rewrite D', F', D, F, H, !Rabs_Ropp, !(Rabs_pos_eq 12), !(Rabs_pos_eq 7), Rabs_R0 by lra. lra.
Qed.
