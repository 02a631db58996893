(** C97: the network of example 1, from the samplers to the accepted quadrilaterals. *)

From Coq Require Import Reals Lra.
From stdpp Require Import prelude gmap list.
From Verif Require Import Base StatusModel ConstraintsModel ConstraintsSpec AppModel AppSpec.
From Verif Require Import NumModel VecModel LinModel RoundModel PolyModel DistModel IntModel AngModel CylIntModel EvalModel SampModel Ex1Model
  GeoSpec LinSpec RoundSpec PolySpec DistSpec IntSpec AngSpec EvalSpec SampSpec Ex1Spec
  EvalExamples Ex1Proofs Ex1Examples Ex1Runs.

(** The loop with any constraints: accepted faces that can be compared (pair_ok: in general
    position, exact functions of OpenCascade) keep the constraints as statements about sets of
    points, up to M/10^7 in the tolerance for points on a boundary. *)
Theorem c97_kept_partial : ∀ top O ord, (∀ m, ord m ≡ₚ map_to_list m) →
  ∀ p : plan (constraints R) (ent R), p_id1 p ≠ p_id2 p → (p_target1 p < 2^64)%N → (p_target2 p < 2^64)%N →
  ∀ h1 h2 h12, ¬ no_constraint h1 → ¬ no_constraint h2 → ¬ no_constraint h12 →
  p_self1 p = crun 0%R (rev h1) → p_self2 p = crun 0%R (rev h2) → p_other p = crun 0%R (rev h12) →
  ∀ s1 s2 passes x, reached (alt_run (ent_evaluate top O) ord p s1 s2 passes) x →
  pairwise (face_kept top O h1) (a_set1 x) ∧ pairwise (face_kept top O h2) (a_set2 x) ∧
  crosswise (face_kept top O h12) (a_set1 x) (a_set2 x).
Proof. exact kept_lemma. Qed.
Print Assumptions c97_kept_partial.
Example c97_kept_case : (∃ x, alt_run (ent_evaluate 1000%R xo) some_ord two_plan (λ _, Ok (EFace qa)) (λ _, Ok (EFace qb)) 2 = AltDone x ∧
    a_set1 x = [EFace qa] ∧ a_set2 x = [EFace qb]) ∧
  pair_ok 1000 xo two_calls qa qb ta tb 6 ∧ p_other two_plan = crun 0%R (rev two_calls) ∧ ¬ no_constraint two_calls.
Proof. exact (conj two_run (conj (quads_ok _ _) (conj eq_refl two_active))). Qed.

(** One pass: no exception; the face is accepted if it keeps the constraints with the thresholds
    raised by M/10^7, rejected if it does not keep them with the tolerances widened by M/10^7. *)
Theorem c97_pass_partial : ∀ top O (p : plan (constraints R) (ent R)) h1 h2 h12,
  ¬ no_constraint h1 → ¬ no_constraint h2 → ¬ no_constraint h12 →
  p_self1 p = crun 0%R (rev h1) → p_self2 p = crun 0%R (rev h2) → p_other p = crun 0%R (rev h12) →
  ∀ s1 s2 x f M, p_before p = [] → p_after p = [] → p_skip p = false →
  (if a_into1 x then s1 (a_drawn1 x) else s2 (a_drawn2 x)) = Ok (EFace f) →
  let own := set_of (a_into1 x) x in let other := set_of (negb (a_into1 x)) x in
  let h := if a_into1 x then h1 else h2 in
  comparable top O h own f M → comparable top O h12 other f M →
  ∃ x', alt_body (ent_evaluate top O) p s1 s2 x = Ok x' ∧
    (kept_with h own f 0 (M / 10000000) → kept_with h12 other f 0 (M / 10000000) → taken x (EFace f) x') ∧
    (¬ kept_with h own f (M / 10000000) 0 ∨ ¬ kept_with h12 other f (M / 10000000) 0 → refused x x').
Proof. exact pass_lemma. Qed.
Print Assumptions c97_pass_partial.
Example c97_pass_taken : comparable 1000%R xo two_calls (set_of (negb (a_into1 half_way)) half_way) qb 6 ∧
  kept_with two_calls (set_of (negb (a_into1 half_way)) half_way) qb 0 (6 / 10000000).
Proof. exact half_way_ok. Qed.
Example c97_pass_refused : comparable 1000%R xo strict_calls (set_of (negb (a_into1 half_way)) half_way) qb 6 ∧
  ¬ kept_with strict_calls (set_of (negb (a_into1 half_way)) half_way) qb (6 / 10000000) 0.
Proof. exact half_way_bad. Qed.

(** Example 1: when the loop has ended there are 15 quadrilaterals in each set, they are
    quadrilaterals of the samplers, and any two of them that are in general position or in parallel
    planes are well spaced: with an angle of 30 degrees within the sets and 40 degrees across. *)
Theorem c97_example1_partial : ∀ top O srt ord, sorts srt → (∀ m, ord m ≡ₚ map_to_list m) → (2 <= top)%R →
  ∀ d1 d2, (∀ i, ex1_values (d1 i)) → (∀ i, ex1_values (d2 i)) →
  ∀ passes x, ex1 top O srt ord d1 d2 passes = AltDone x →
  (length (a_set1 x) = 15 ∧ length (a_set2 x) = 15) ∧
  (∀ e, e ∈ a_set1 x → sampled srt d1 e) ∧ (∀ e, e ∈ a_set2 x → sampled srt d2 e) ∧
  pairwise (spaced O (30 * PI / 180)) (a_set1 x) ∧ pairwise (spaced O (30 * PI / 180)) (a_set2 x) ∧
  crosswise (spaced O (40 * PI / 180)) (a_set1 x) (a_set2 x).
Proof.
  exact (λ top O srt ord HS Ho HT d1 d2 V1 V2 passes x E,
    conj (ex1_size top O srt ord Ho d1 d2 passes x E) (ex1_lemma top O srt ord HS Ho HT d1 d2 V1 V2 passes x (or_introl E))).
Qed.
Print Assumptions c97_example1_partial.
(** A run with centers in the unit cube: 15 layers at two corners of the cube. *)
Example c97_example1_case : (∀ i, ex1_values (layer_draws1 i)) ∧ (∀ i, ex1_values (layer_draws2 i)) ∧
  (∀ i, (i < 15)%N → in_box (mkBox (mkV3 0 0 0) (mkV3 1 1 1)) (d_center (layer_draws1 i)) ∧
    in_box (mkBox (mkV3 0 0 0) (mkV3 1 1 1)) (d_center (layer_draws2 i)))%R ∧
  ∃ x, ex1 1000%R exact_ops (isort edge_before) some_ord layer_draws1 layer_draws2 30 = AltDone x ∧
    pairwise decided_pair (a_set1 x) ∧ pairwise decided_pair (a_set2 x) ∧ crosswise decided_pair (a_set1 x) (a_set2 x).
Proof. exact (conj (λ i, level_values _) (conj (λ i, level_values _) (conj layers_inside layers_run))). Qed.
