(** The network of example 1: complete runs. *)

From Coq Require Import Reals Lra.
From stdpp Require Import prelude gmap list.
From Verif Require Import Base StatusModel ConstraintsModel ConstraintsSpec ConstraintsProofs AppModel AppSpec AppProofs.
From Verif Require Import NumModel VecModel LinModel RoundModel PolyModel DistModel IntModel AngModel CylIntModel EvalModel SampModel Ex1Model
  GeoSpec LinSpec RoundSpec PolySpec DistSpec IntSpec AngSpec EvalSpec SampSpec Ex1Spec EvalProofs EvalExamples Ex1Quad Ex1Proofs Ex1Examples.

Definition some_ord (m : gmap N N) : list (N * N) := map_to_list m.
Definition decided_pair (e1 e2 : ent R) : Prop :=
  ∃ q1 q2, e1 = EFace (FQuad q1) ∧ e2 = EFace (FQuad q2) ∧ decided exact_ops q1 q2.
Notation run30 := (ex1 1000%R exact_ops (isort edge_before) some_ord layer_draws1 layer_draws2 30).

Lemma s1_is i : quad_sampler (isort edge_before) layer_draws1 i = Ok (EFace (FQuad (layer1 i))).
Proof. unfold quad_sampler, layer_draws1. rewrite level_sample. done. Qed.
Lemma s2_is i : quad_sampler (isort edge_before) layer_draws2 i = Ok (EFace (FQuad (layer2 i))).
Proof. unfold quad_sampler, layer_draws2. rewrite level_sample. done. Qed.

Lemma layers_run : ∃ x, run30 = AltDone x ∧
  pairwise decided_pair (a_set1 x) ∧ pairwise decided_pair (a_set2 x) ∧ crosswise decided_pair (a_set1 x) (a_set2 x).
Proof.
  destruct (c86_compatible_lemma (ent_evaluate 1000%R exact_ops) some_ord ltac:(done) ex1_plan ltac:(done) ltac:(done) ltac:(done)
    (quad_sampler (isort edge_before) layer_draws1) (quad_sampler (isort edge_before) layer_draws2) 30) as (x & Hx & D1 & D2 & _); try done.
  { unfold all_compatible. cbn [ex1_plan p_target1 p_target2 p_before p_after p_self1 p_self2 p_other]. rewrite self_is, other_is.
    split; [|split; [|split; [|split]]].
    - intros i _. eexists. split; [apply s1_is|]. intros t Ht. by apply elem_of_nil in Ht.
    - intros i _. eexists. split; [apply s2_is|]. intros t Ht. by apply elem_of_nil in Ht.
    - intros i j y z Hij Hy Hz. rewrite s1_is in Hy, Hz. injection Hy as <-. injection Hz as <-. apply (proj2 (layer11 i j ltac:(lia))).
    - intros i j y z Hij Hy Hz. rewrite s2_is in Hy, Hz. injection Hy as <-. injection Hz as <-. apply layer22. lia.
    - intros i j y z _ _ Hy Hz. rewrite s1_is in Hy. rewrite s2_is in Hz. injection Hy as <-. injection Hz as <-.
      split; intros _; [exact (proj1 (proj2 (proj2 (layer12 i j))))|exact (proj2 (proj2 (proj2 (layer12 i j))))]. }
  exists x. split; [done|]. split; [|split].
  - intros i j y z Hij Hy Hz. apply D1 in Hy, Hz. rewrite s1_is in Hy, Hz. injection Hy as <-. injection Hz as <-.
    eexists _, _. split; [done|]. split; [done|]. right. apply layer11. lia.
  - intros i j y z Hij Hy Hz. apply D2 in Hy, Hz. rewrite s2_is in Hy, Hz. injection Hy as <-. injection Hz as <-.
    eexists _, _. split; [done|]. split; [done|]. right. apply layer22. lia.
  - intros i j y z Hy Hz. apply D1 in Hy. apply D2 in Hz. rewrite s1_is in Hy. rewrite s2_is in Hz. injection Hy as <-. injection Hz as <-.
    split; intros _; (eexists _, _; split; [done|]; split; [done|]; right; apply layer12).
Qed.

(** two crossing quadrilaterals *)
Definition two_calls : list (cop R) := calls (1 / 4) (1 / 4).
Definition two_plan : plan (constraints R) (ent R) :=
  mkPlan (crun 0%R (rev two_calls)) (crun 0%R (rev two_calls)) (crun 0%R (rev two_calls)) [] [] 1 2 1 1 false.
Lemma two_active : ¬ no_constraint two_calls.
Proof. apply EvalExamples.calls_active. Qed.
Lemma two_run : ∃ x, alt_run (ent_evaluate 1000%R xo) some_ord two_plan (λ _, Ok (EFace qa)) (λ _, Ok (EFace qb)) 2 = AltDone x ∧
  a_set1 x = [EFace qa] ∧ a_set2 x = [EFace qb].
Proof.
  destruct (c86_compatible_lemma (ent_evaluate 1000%R xo) some_ord ltac:(done) two_plan ltac:(done) ltac:(done) ltac:(done)
    (λ _, Ok (EFace qa)) (λ _, Ok (EFace qb)) 2) as (x & Hx & D1 & D2 & _); try done.
  { unfold all_compatible. cbn [two_plan p_target1 p_target2 p_before p_after p_self1 p_self2 p_other].
    split; [|split; [|split; [|split]]].
    - intros i _. eexists. split; [done|]. intros t Ht. by apply elem_of_nil in Ht.
    - intros i _. eexists. split; [done|]. intros t Ht. by apply elem_of_nil in Ht.
    - intros i j y z Hij. lia.
    - intros i j y z Hij. lia.
    - intros i j y z Hi Hj Hy Hz. injection Hy as <-. injection Hz as <-. split; [intros _; exact quads_accepted|lia]. }
  exists x. split; [done|].
  pose proof (c86_sizes_lemma _ some_ord ltac:(done) two_plan ltac:(done) ltac:(done) ltac:(done) _ _ 2 x Hx) as E. cbn in E. injection E as L1 L2.
  destruct (a_set1 x) as [|y1 [|? ?]]; try (cbn in L1; lia). destruct (a_set2 x) as [|y2 [|? ?]]; try (cbn in L2; lia).
  pose proof (D1 0 y1 eq_refl) as Y1. pose proof (D2 0 y2 eq_refl) as Y2. injection Y1 as <-. injection Y2 as <-. done.
Qed.

(** the second pass of this run *)
Definition half_way : alt (ent R) := mkAlt false [EFace qa] [] (a_status (alt_accept 1 (EFace qa) (alt_drawn (alt_init two_plan)))) 1 0.
Lemma half_way_ok : comparable 1000%R xo two_calls [EFace qa] qb 6 ∧
  kept_with two_calls [EFace qa] qb 0 (6 / 10000000).
Proof.
  split.
  - intros e [<-|[]]. exists qa, ta, tb. split; [done|]. apply quads_ok.
  - intros e g t1 t2 [<-|[]] Eg E1 E2. injection Eg as <-.
    assert (E : Ok t1 = Ok ta) by (etransitivity; [symmetry; exact E1|reflexivity]). injection E as ->.
    assert (E : Ok t2 = Ok tb) by (etransitivity; [symmetry; exact E2|reflexivity]). injection E as ->.
    apply quads_kept; lra.
Qed.
Definition strict_calls : list (cop R) := calls 1 (1 / 4).
Lemma half_way_bad : comparable 1000%R xo strict_calls [EFace qa] qb 6 ∧
  ¬ kept_with strict_calls [EFace qa] qb (6 / 10000000) 0.
Proof.
  split.
  - intros e [<-|[]]. exists qa, ta, tb. split; [done|]. apply quads_ok.
  - intros Hk. eapply (quads_short 1 (1 / 4) (6 / 10000000) 0 ltac:(lra)). eapply Hk; [by left|done|done|done].
Qed.
