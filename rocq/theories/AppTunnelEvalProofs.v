(** Proofs for C87 and C88: the constraints of example 4. *)

From Coq Require Import Reals Lra.
From stdpp Require Import prelude gmap list.
From Verif Require Import Base NumModel VecModel StatusModel ConstraintsModel ConstraintsSpec
  ConstraintsProofs AppModel AppSpec AppProofs AppEvalProofs AppTunnelProofs.

Section Reals.
Context {F Pt Arc Ell Edge Face : Type} (A : answers R F Pt Arc Ell Edge Face).
Notation eval := (evaluate nltb (λ x y : R, nleb y x) (kernel_of A)).

Lemma rule_ex4_default : rule A ex4_default 1 (25 * PI / 180) (1/10) (1/10).
Proof. intros g1 g2. by apply keeps_iff. Qed.
Lemma rule_ex4_other : rule A ex4_other (1/4) (30 * PI / 180) (1/10) (1/10).
Proof. intros g1 g2. unfold ex4_other, ex4_default. rewrite <- !crun_snoc. by apply keeps_iff. Qed.
Lemma rule_ex4_boundary : rule A ex4_boundary 1 (10 * PI / 180) (1/10) (1/10).
Proof. intros g1 g2. unfold ex4_boundary, ex4_default. rewrite <- !crun_snoc. by apply keeps_iff. Qed.
Lemma rule_ex4_cc2 : rule A (c4_2 ex4_cc) (3/20) (25 * PI / 180) (1/10) (1/10).
Proof.
  intros g1 g2.
  change (c4_2 ex4_cc) with (crun (n0 : R) [SetMinDistance n1; SetMinAngle (to_radians (nlit 25 1)); SetMinMagnitude (nlit 1 10); SetMinIsDistance (nlit 1 10); SetMinDistance (nlit 1 2); SetMinDistance (nlit 3 20)]).
  by apply keeps_iff.
Qed.
Lemma rule_ex4_py2 : rule A (c4_2 ex4_py) (1/2) (25 * PI / 180) (1/10) (1/10).
Proof.
  intros g1 g2.
  change (c4_2 ex4_py) with (crun (n0 : R) [SetMinDistance n1; SetMinAngle (to_radians (nlit 25 1)); SetMinMagnitude (nlit 1 10); SetMinIsDistance (nlit 1 10); SetMinDistance (nlit 1 2)]).
  by apply keeps_iff.
Qed.
Lemma rule_ex4_py3 : rule A (c4_3 ex4_py) (3/20) (25 * PI / 180) (1/10) (1/10).
Proof.
  intros g1 g2.
  change (c4_3 ex4_py) with (crun (n0 : R) [SetMinDistance n1; SetMinAngle (to_radians (nlit 25 1)); SetMinMagnitude (nlit 1 10); SetMinIsDistance (nlit 1 10); SetMinDistance (nlit 3 20)]).
  by apply keeps_iff.
Qed.

Lemma c88_rules_lemma (x y : F) :
  (∀ k, k = ex4_cc ∨ k = ex4_py →
    (eval (c4_1 k) x y = Ok true ↔ keeps Rlt A 1%R (25 * PI / 180)%R (1/10)%R (1/10)%R x y) ∧
    (eval (c4_other k) x y = Ok true ↔ keeps Rlt A (1/4)%R (30 * PI / 180)%R (1/10)%R (1/10)%R x y) ∧
    (eval (c4_boundary k) x y = Ok true ↔ keeps Rlt A 1%R (10 * PI / 180)%R (1/10)%R (1/10)%R x y)) ∧
  (eval (c4_2 ex4_py) x y = Ok true ↔ keeps Rlt A (1/2)%R (25 * PI / 180)%R (1/10)%R (1/10)%R x y) ∧
  (eval (c4_3 ex4_py) x y = Ok true ↔ keeps Rlt A (3/20)%R (25 * PI / 180)%R (1/10)%R (1/10)%R x y) ∧
  (eval (c4_2 ex4_cc) x y = Ok true ↔ keeps Rlt A (3/20)%R (25 * PI / 180)%R (1/10)%R (1/10)%R x y) ∧
  (eval (c4_3 ex4_cc) x y = Ok true ↔ keeps Rlt A 1%R (25 * PI / 180)%R (1/10)%R (1/10)%R x y).
Proof.
  split; [|split; [|split; [|split]]].
  - intros k [->| ->]; (split; [apply rule_ex4_default|]; split; [apply rule_ex4_other|apply rule_ex4_boundary]).
  - apply rule_ex4_py2.
  - apply rule_ex4_py3.
  - apply rule_ex4_cc2.
  - apply rule_ex4_default.
Qed.

Context {P V IS : Type} (T : tunnel R P F V IS).

Lemma c87_example4_lemma ord k d2 d3 s1 s2 s3 passes x1 x2 x3 fs2 fs3 :
  (∀ m, ord m ≡ₚ map_to_list m) →
  (k = ex4_py ∧ d2 = (1/2)%R ∧ d3 = (3/20)%R) ∨ (k = ex4_cc ∧ d2 = (3/20)%R ∧ d3 = 1%R) →
  stage1 (kernel_of A) T ord k ex4_target s1 passes = StageDone x1 →
  stage2 (kernel_of A) T k ex4_tries s2 x1 = Ok (x2, fs2) →
  stage3 (kernel_of A) T k ex4_tries s3 (g_set x1) x2 = Ok (x3, fs3) →
  length (g_set x1) = 75 ∧ length (g_set x2) ≤ 75 ∧ length (g_set x3) ≤ length (g_set x2) ∧
  pairwise (keeps Rlt A 1%R (25 * PI / 180)%R (1/10)%R (1/10)%R) (g_set x1) ∧
  pairwise (keeps Rlt A d2 (25 * PI / 180)%R (1/10)%R (1/10)%R) (g_set x2) ∧
  pairwise (keeps Rlt A d3 (25 * PI / 180)%R (1/10)%R (1/10)%R) (g_set x3) ∧
  (∀ e f, (e ∈ g_set x1 ∧ f ∈ g_set x2 ++ g_set x3) ∨ (e ∈ g_set x2 ∧ f ∈ g_set x3) →
     keeps Rlt A (1/4)%R (30 * PI / 180)%R (1/10)%R (1/10)%R e f) ∧
  ∀ b f, b ∈ [t_tunnel T; t_sphere T] → f ∈ g_set x1 ++ g_set x2 ++ g_set x3 →
    keeps Rlt A 1%R (10 * PI / 180)%R (1/10)%R (1/10)%R b f.
Proof.
  intros Ho Hk R1 R2 R3.
  assert (Hc : rule A (c4_1 k) 1 (25 * PI / 180) (1/10) (1/10) ∧ rule A (c4_2 k) d2 (25 * PI / 180) (1/10) (1/10) ∧
    rule A (c4_3 k) d3 (25 * PI / 180) (1/10) (1/10) ∧ rule A (c4_other k) (1/4) (30 * PI / 180) (1/10) (1/10) ∧
    rule A (c4_boundary k) 1 (10 * PI / 180) (1/10) (1/10)).
  { destruct Hk as [(-> & -> & ->)|(-> & -> & ->)].
    - split; [apply rule_ex4_default|]. split; [apply rule_ex4_py2|]. split; [apply rule_ex4_py3|].
      split; [apply rule_ex4_other|apply rule_ex4_boundary].
    - split; [apply rule_ex4_default|]. split; [apply rule_ex4_cc2|]. split; [apply rule_ex4_default|].
      split; [apply rule_ex4_other|apply rule_ex4_boundary]. }
  destruct Hc as (C1 & C2 & C3 & C4 & C5).
  destruct (c87_step1_lemma (kernel_of A) T ord k ex4_target s1 passes x1 Ho) as (L & _ & S1); [done|].
  specialize (L R1). destruct S1 as (n & areas & r & _ & _ & _ & La & _ & _ & _ & P1 & S1); [by left|].
  unfold ex4_target in L.
  destruct (c87_step2_lemma (kernel_of A) T k ex4_tries s2 x1 x2 fs2) as
    (news2 & _ & _ & _ & _ & _ & L2 & _ & P2 & S2); [lia|done|].
  destruct (c87_step3_lemma (kernel_of A) T k ex4_tries s3 (g_set x1) x2 x3 fs3) as
    (news3 & _ & _ & _ & _ & _ & L3 & _ & P3 & S3); [lia|done|].
  assert (B1 : ∀ f, f ∈ g_set x1 → bounded (kernel_of A) T k f).
  { intros f Hf. apply elem_of_list_lookup in Hf as [i Hi]. apply lookup_lt_Some in Hi as Hl.
    destruct (lookup_lt_is_Some_2 areas i) as [a Ha]; [lia|]. by destruct (S1 i f a Hi Ha). }
  split; [lia|]. split; [lia|]. split; [done|].
  split; [|split; [|split; [|split]]].
  - eapply pairwise_impl; [|exact P1]. intros y z. apply C1.
  - eapply pairwise_impl; [|exact P2]. intros y z. apply C2.
  - eapply pairwise_impl; [|exact P3]. intros y z. apply C3.
  - intros e f [[He Hf]|[He Hf]]; apply C4.
    + apply elem_of_app in Hf as [Hf|Hf].
      * destruct (S2 f Hf) as (_ & Hr & _). by apply Hr.
      * destruct (S3 f Hf) as (_ & Hr & _). by apply Hr.
    + destruct (S3 f Hf) as (_ & _ & Hr & _). by apply Hr.
  - intros b f Hb Hf. apply C5.
    assert (Bf : bounded (kernel_of A) T k f).
    { apply elem_of_app in Hf as [Hf|Hf]; [by apply B1|].
      apply elem_of_app in Hf as [Hf|Hf]; [by apply S2|by apply S3]. }
    destruct Bf as [B2 B3]. apply elem_of_cons in Hb as [->|Hb]; [done|].
    by apply elem_of_list_singleton in Hb as ->.
Qed.
End Reals.
