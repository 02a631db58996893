(** Proofs for C119: polygons whose numbers of corners and lengths are drawn from ranges, as in example 4. *)

From Coq Require Import ZArith Reals Lra Lia List Permutation.
From Coq Require Import Floats.
From Verif Require Import Base NumModel VecModel LinModel RoundModel PolyModel SampModel GeoSpec PolySpec SampSpec DblSpec LinDblSpec RndDblSpec TrigDblSpec TrigDblExamples DblExamples LinDblExamples RndDblExamples SdDblSpec SdDblExamples SpDblSpec SpDblProofs SpDblDeltas SpDblExamples.
Import ListNotations.
Local Open Scope R_scope.

Lemma polygon_returns (T : Trig float) : accurate T -> forall esort (d : poly_draws float) M a b, (forall l, Permutation (esort l) l) -> scale M -> drawn M d ->
  (3 <= a)%Z -> (forall i, (a <= d_num d i <= b)%Z) -> (forall i, 0 <= val (d_slen d i)) ->
  exists cs, sample_corners esort d = Ok cs /\ (a <= Z.of_nat (length cs) <= b)%Z.
Proof.
  intros HT esort d M a b P HM D Ha Hn Hs. destruct (sampled_throws T esort d M D) as [A B]. destruct (proj2 B) as [cs E].
  - intros X. apply A in X. destruct X as [X|X]; [specialize (X 0%nat ltac:(lia)); specialize (Hn 0%nat); lia|specialize (X 0%nat ltac:(lia)); specialize (Hs 0%nat); lra].
  - exists cs. split; [exact E|]. destruct (sampled_corners T HT esort d M P HM D cs E) as (n & i & k & slen & dlen & ds & _ & F & _ & _ & _ & L & _).
    destruct F as (F & _). specialize (Hn i). rewrite <- F in Hn || rewrite F in Hn. rewrite L, Z2Nat.id by lia. exact Hn.
Qed.
(** four or five corners, a length of 7 *)
Definition use_draws : poly_draws float := mkDraws (fun i => match i with O => 4%Z | _ => 5%Z end) sp_unit (fun _ => 7%float) sd_min 1%float 3%float pt1.
Lemma use_ok : drawn 60 use_draws /\ (forall i, (4 <= d_num use_draws i <= 9)%Z) /\ (forall i, 0 <= val (d_slen use_draws i)).
Proof.
  destruct sp_drawn as [[H1 H2 H3 H4 H5 H6 H7] _]. split; [constructor; try assumption|split].
  - intros i. exact (H5 1%nat).
  - intros [|i]; cbn; lia.
  - intros [|i]; cbn; lia.
  - intros i. cbn [use_draws d_slen]. rewrite (proj2 v7). lra.
Qed.
