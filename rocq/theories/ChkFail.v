(** Proofs for C116: draws for which a sampled polygon fails its check in double precision. *)

From Coq Require Import ZArith Bool List Permutation.
From Coq Require Import Floats.
From Verif Require Import Base NumModel VecModel LinModel RoundModel PolyModel DistModel IntModel SampModel ChkModel.
Import ListNotations.

Lemma perm3 {X} (a b c : X) l : Permutation l [a; b; c] -> In l [[a; b; c]; [a; c; b]; [b; a; c]; [b; c; a]; [c; a; b]; [c; b; a]].
Proof.
  intros P. pose proof (Permutation_length P) as L. destruct l as [|x [|y [|z [|]]]]; try discriminate. clear L.

  assert (forall u v w s : X, Permutation [u; v] [w; s] -> (u = w /\ v = s) \/ (u = s /\ v = w)) as P2.
  { intros u v w s Q. destruct (Permutation_length_2_inv Q) as [E|E]; injection E as -> ->; auto. }
  pose proof (Permutation_in x P (or_introl eq_refl)) as Hx. destruct Hx as [<-|[<-|[<-|[]]]].
  - apply Permutation_cons_inv, P2 in P. destruct P as [[-> ->]|[-> ->]]; cbn; auto 10.
  - assert (Permutation [b; y; z] [b; a; c]) as Q by (rewrite P; apply perm_swap). apply Permutation_cons_inv, P2 in Q. destruct Q as [[-> ->]|[-> ->]]; cbn; auto 10.
  - assert (Permutation [c; y; z] [c; a; b]) as Q by (rewrite P; apply (Permutation_cons_append [a; b] c) || (symmetry; apply (Permutation_cons_append [a; b] c))).
    apply Permutation_cons_inv, P2 in Q. destruct Q as [[-> ->]|[-> ->]]; cbn; auto 10.
Qed.

Definition wide_unit : draws float := fun i => match i with 0%nat => 0 | 1%nat => 1 | 2%nat => 0x1.0b1fb157a54a6p-3 | 3%nat => 0 | 4%nat => 1 | _ => 0.5 end%float.
Definition wide_len : draws float := fun _ => 10000000000%float.
Definition wide_draws : poly_draws float := mkDraws (fun _ => 3%Z) wide_unit wide_len wide_len 0%float 0%float (mkV3 0 0 0)%float.
Definition wide_edges : list (V3 float) := match deltas_for 3 wide_unit with Ok ds => edge_vectors 10000000000%float 10000000000%float ds | _ => [] end.

Section Wide.
Context {T : Trig float}.
Hypotheses (Hc : ncos 0%float = 1%float) (Hs : nsin 0%float = 0%float).
Lemma wide_closing es : Permutation es wide_edges -> closing_check es 0%float 0%float = false.
Proof.
  intros P. unfold closing_check, rotate_all, rot_rows. cbv zeta. rewrite Hc, Hs.
  assert (exists a b c, wide_edges = [a; b; c] /\ True) as (a & b & c & E & _) by (do 3 eexists; split; [vm_compute; reflexivity|exact I]).
  rewrite E in P. apply perm3 in P.
  assert (In es [[nth 0 wide_edges origin; nth 1 wide_edges origin; nth 2 wide_edges origin]; [nth 0 wide_edges origin; nth 2 wide_edges origin; nth 1 wide_edges origin];
                 [nth 1 wide_edges origin; nth 0 wide_edges origin; nth 2 wide_edges origin]; [nth 1 wide_edges origin; nth 2 wide_edges origin; nth 0 wide_edges origin];
                 [nth 2 wide_edges origin; nth 0 wide_edges origin; nth 1 wide_edges origin]; [nth 2 wide_edges origin; nth 1 wide_edges origin; nth 0 wide_edges origin]]) as Q by (rewrite E; exact P).
  clear - Q. destruct Q as [<-|[<-|[<-|[<-|[<-|[<-|[]]]]]]]; vm_compute; reflexivity.
Qed.
Lemma wide_fails esort : (forall l, Permutation (esort l) l) -> sample_check esort wide_draws = Ok false.
Proof.
  intros Hp. transitivity (Ok (closing_check (esort wide_edges) 0%float 0%float)); [|f_equal; apply wide_closing, Hp].
  unfold sample_check. assert (retry (fun k : Z => (k <? 3)%Z) (d_num wide_draws) 0 100 0 0%Z = (3%Z, 1%nat)) as -> by (vm_compute; reflexivity).
  change (Nat.eqb 1 100) with false. cbv iota. change (Z.to_nat 3) with 3%nat. change (d_unit wide_draws) with wide_unit.
  assert (retry (fun l : float => nltb l n0) (d_slen wide_draws) 1 100 0 (d_slen wide_draws 0%nat) = (10000000000%float, 0%nat)) as -> by (vm_compute; reflexivity).
  assert (retry (fun l : float => nltb l n0) (d_dlen wide_draws) 1 100 0 (d_dlen wide_draws 0%nat) = (10000000000%float, 0%nat)) as -> by (vm_compute; reflexivity).
  change (Nat.eqb 0 100) with false. cbv iota. unfold wide_edges. assert (exists ds, deltas_for 3 wide_unit = Ok ds) as (ds & E) by (eexists; vm_compute; reflexivity). rewrite E. reflexivity.
Qed.
Lemma wide_samples esort : exists cs, sample_corners esort wide_draws = Ok cs.
Proof.
  unfold sample_corners. assert (retry (fun k : Z => (k <? 3)%Z) (d_num wide_draws) 0 100 0 0%Z = (3%Z, 1%nat)) as -> by (vm_compute; reflexivity).
  change (Nat.eqb 1 100) with false. cbv iota. change (Z.to_nat 3) with 3%nat. change (d_unit wide_draws) with wide_unit.
  assert (retry (fun l : float => nltb l n0) (d_slen wide_draws) 1 100 0 (d_slen wide_draws 0%nat) = (10000000000%float, 0%nat)) as -> by (vm_compute; reflexivity).
  assert (retry (fun l : float => nltb l n0) (d_dlen wide_draws) 1 100 0 (d_dlen wide_draws 0%nat) = (10000000000%float, 0%nat)) as -> by (vm_compute; reflexivity).
  change (Nat.eqb 0 100) with false. cbv iota. assert (exists ds, deltas_for 3 wide_unit = Ok ds) as (ds & E) by (eexists; vm_compute; reflexivity). rewrite E. eexists. reflexivity.
Qed.
End Wide.

(** the corners of ChkProofs.dart in double precision *)
Definition dart_float : list (V3 float) := [mkV3 0 0 0; mkV3 2 1 0; mkV3 (PrimFloat.opp 2) 0 0; mkV3 2 (PrimFloat.opp 1) 0]%float.
Lemma dart_float_fails : exists pg, make_poly dart_float = Ok pg /\ poly_check pg = false.
Proof. eexists. split; [reflexivity|]. vm_compute. reflexivity. Qed.
