(** C13-C15: constraints between entities. *)

From stdpp Require Import prelude list.
From Verif Require Import Base ConstraintsModel ConstraintsSpec ConstraintsProofs.

(** C13.  [h] is the sequence of setter calls made on a default constructed constraints
    object, [A] are the answers of the geometry kernel.  As soon as one constraint is set,
    the evaluation yields the conjunction of the active ones.  (Faces have no distance to a
    boundary; see [c13_equi_dim_distance_refuted].) *)
Theorem c13_evaluate :
  ∀ (num G Pt Arc Ell Edge Face : Type) (zero : num)
    (lt : num → num → Prop) (ltb geb : num → num → bool),
    (∀ x y, ltb x y = true ↔ lt x y) →
    (∀ x y, geb x y = true ↔ ¬ lt x y) →
    ∀ (A : answers num G Pt Arc Ell Edge Face) (h : list (cop num)) (g1 g2 : G),
      ¬ no_constraint (reverse h) →
      (active_is_distance (reverse h) ≠ None →
       ∀ p, p ∈ inter A (active_eps (reverse h)) g1 g2 → has_boundary_distance p) →
      ∃ b, evaluate ltb geb (kernel_of A) (crun zero h) g1 g2 = Ok b ∧
           (b = true ↔ admissible lt A (reverse h) g1 g2).
Proof. exact @evaluate_spec. Qed.
Print Assumptions c13_evaluate.

(** A world of seven entities: 0 and 1 intersect in a segment (two end points 10, 11), 0 and 2 do not
    touch (distance 7), 0 and 3 intersect in a face, 0 and 4 in an arc, everything else in a point. *)
Definition world : answers Z nat nat nat nat nat nat :=
  mkAnswers
    (λ _ g1 g2, match g1, g2 with
                | 0, 1 | 1, 0 => [PSegment 10 11]
                | 0, 2 | 2, 0 => [PEmpty; PEmpty]
                | 0, 3 | 3, 0 => [PFace 0]
                | 0, 4 | 4, 0 => [PArc 0; PEmpty]
                | _, _ => [PPoint 10]
                end)
    (λ _ _, 7%Z) (λ g1 g2 _, Z.of_nat (30 + g1 + g2)) (λ p, match p with PSegment _ _ => 5%Z | _ => 3%Z end)
    (λ p g, bool_decide (p = 10)) (λ p g, Z.of_nat p) (λ _ _, 2%Z)
    (λ a i, 20 + i) (λ a, 12) (λ a, 13) (λ e, 0) (λ e, 0) (λ _, 2%Z).
Notation weval h g1 g2 := (evaluate Z.ltb Z.geb (kernel_of world) (crun 0%Z h) g1 g2).

Example c13_example_hyps :
  (∀ x y, (x <? y)%Z = true ↔ (x < y)%Z) ∧ (∀ x y, (x >=? y)%Z = true ↔ ¬ (x < y)%Z).
Proof.
  split; intros x y; [apply Z.ltb_lt|]. rewrite Z.geb_leb, Z.leb_le. lia.
Qed.
Example c13_example :
  weval [SetMinMagnitude 5; SetMinAngle 31; SetMinIsDistance 11; SetMinDistance 8]%Z 0 1 = Ok true ∧
  weval [SetMinMagnitude 6]%Z 0 1 = Ok false ∧
  weval [SetMinMagnitude 6; NeglectMinMagnitude; SetMinAngle 31]%Z 0 1 = Ok true ∧
  weval [SetMinAngle 32]%Z 0 1 = Ok false ∧
  weval [SetMinIsDistance 12]%Z 0 1 = Ok false ∧
  weval [SetMinDistance 7]%Z 0 2 = Ok true ∧
  weval [SetMinDistance 8]%Z 0 2 = Ok false ∧
  weval [SetMinIsDistance 20]%Z 0 4 = Ok true ∧
  weval [SetMinIsDistance 21]%Z 0 4 = Ok false.
Proof. repeat split. Qed.

(** If the intersection algorithm throws, the evaluation does not return a verdict. *)
Theorem c13_failing_intersection :
  ∀ (num G Pt Arc Ell Edge Face : Type) (zero : num) (ltb geb : num → num → bool)
    (K : kernel num G Pt Arc Ell Edge Face) (h : list (cop num)) (g1 g2 : G)
    (o : outcome (list (piece Pt Arc Ell Edge Face G))),
    ¬ no_constraint (reverse h) →
    k_intersect K (active_eps (reverse h)) g1 g2 = o → (∀ is, o ≠ Ok is) →
    ∀ b, evaluate ltb geb K (crun zero h) g1 g2 ≠ Ok b.
Proof. exact @evaluate_intersect_fails. Qed.
Print Assumptions c13_failing_intersection.

(** Finding: with equi-dimensional intersections allowed, the constraint on the distance
    to the boundaries makes the evaluation throw for every intersection in a face. *)
Theorem c13_equi_dim_distance_refuted :
  ∃ (h : list (cop Z)) (g1 g2 : nat),
    equi_dim_allowed (reverse h) = true ∧
    inter world (active_eps (reverse h)) g1 g2 ≠ [] ∧
    weval h g1 g2 = Throw RuntimeError.
Proof. by exists [AllowEquiDim true; SetMinIsDistance 1%Z], 0, 3. Qed.
Print Assumptions c13_equi_dim_distance_refuted.

(** Exchanging the two entities does not change the meaning of the constraints if the
    kernel treats them symmetrically. *)
Theorem c13_symmetric :
  ∀ (num G Pt Arc Ell Edge Face : Type) (lt : num → num → Prop)
    (A : answers num G Pt Arc Ell Edge Face) (h : list (cop num)) (g1 g2 : G),
    inter A (active_eps h) g1 g2 ≡ₚ inter A (active_eps h) g2 g1 →
    dist A g1 g2 = dist A g2 g1 →
    angle A g1 g2 (inter A (active_eps h) g1 g2) = angle A g2 g1 (inter A (active_eps h) g2 g1) →
    gdim A g1 = gdim A g2 →
    admissible lt A h g1 g2 → admissible lt A h g2 g1.
Proof. exact @admissible_sym. Qed.
Print Assumptions c13_symmetric.

(** C14.  For every kernel, also one that throws: a set is accepted iff every pair is. *)
Theorem c14_set_entity :
  ∀ (num G Pt Arc Ell Edge Face : Type) (ltb geb : num → num → bool)
    (K : kernel num G Pt Arc Ell Edge Face) (c : constraints num) (es : list G) (e : G),
    evaluate_set_entity ltb geb K c es e = Ok true ↔
    ∀ x, x ∈ es → evaluate ltb geb K c x e = Ok true.
Proof. exact @set_entity_true. Qed.
Print Assumptions c14_set_entity.

(** ... and rejected iff some pair is rejected, if the kernel answers for all pairs. *)
Theorem c14_set_entity_rejected :
  ∀ (num G Pt Arc Ell Edge Face : Type) (ltb geb : num → num → bool)
    (K : kernel num G Pt Arc Ell Edge Face) (c : constraints num) (es : list G) (e : G),
    (∀ x, x ∈ es → ∃ b, evaluate ltb geb K c x e = Ok b) →
    (evaluate_set_entity ltb geb K c es e = Ok false ↔
     ∃ x, x ∈ es ∧ evaluate ltb geb K c x e = Ok false).
Proof. exact @set_entity_false. Qed.
Print Assumptions c14_set_entity_rejected.

Theorem c14_agree :
  ∀ (num G Pt Arc Ell Edge Face : Type) (ltb geb : num → num → bool)
    (K : kernel num G Pt Arc Ell Edge Face) (c : constraints num) (es : list G) (e : G),
    evaluate_entity_set ltb geb K c e es = evaluate_set_entity ltb geb K c es e.
Proof. exact (λ num G Pt Arc Ell Edge Face ltb geb K c es e, eq_refl). Qed.
Print Assumptions c14_agree.

(** Two sets: every pair, with the element of the second set as first argument. *)
Theorem c14_set_set :
  ∀ (num G Pt Arc Ell Edge Face : Type) (ltb geb : num → num → bool)
    (K : kernel num G Pt Arc Ell Edge Face) (c : constraints num) (es1 es2 : list G),
    evaluate_set_set ltb geb K c es1 es2 = Ok true ↔
    ∀ e1 e2, e1 ∈ es1 → e2 ∈ es2 → evaluate ltb geb K c e2 e1 = Ok true.
Proof. exact @set_set_true. Qed.
Print Assumptions c14_set_set.

Theorem c14_set_set_rejected :
  ∀ (num G Pt Arc Ell Edge Face : Type) (ltb geb : num → num → bool)
    (K : kernel num G Pt Arc Ell Edge Face) (c : constraints num) (es1 es2 : list G),
    (∀ e1 e2, e1 ∈ es1 → e2 ∈ es2 → ∃ b, evaluate ltb geb K c e2 e1 = Ok b) →
    (evaluate_set_set ltb geb K c es1 es2 = Ok false ↔
     ∃ e1 e2, e1 ∈ es1 ∧ e2 ∈ es2 ∧ evaluate ltb geb K c e2 e1 = Ok false).
Proof. exact @set_set_false. Qed.
Print Assumptions c14_set_set_rejected.

Example c14_example :
  let c := crun 0%Z [SetMinMagnitude 5; SetMinDistance 7]%Z in
  evaluate_set_set Z.ltb Z.geb (kernel_of world) c [0] [1; 2] = Ok true ∧
  evaluate_set_set Z.ltb Z.geb (kernel_of world) c [0; 5] [1; 2; 4] = Ok false ∧
  evaluate_set_set Z.ltb Z.geb (kernel_of world) c [] [1; 2; 4] = Ok true ∧
  evaluate_set_entity Z.ltb Z.geb (kernel_of world) c [] 3 = Ok true.
Proof. repeat split. Qed.

(** C15, restricted to constraints objects with at least one constraint set. *)
Theorem c15_equi_dim_partial :
  ∀ (num G Pt Arc Ell Edge Face : Type) (zero : num) (ltb geb : num → num → bool)
    (K : kernel num G Pt Arc Ell Edge Face) (h : list (cop num)) (g1 g2 : G)
    (is : list (piece Pt Arc Ell Edge Face G)) (p : piece Pt Arc Ell Edge Face G),
    ¬ no_constraint (reverse h) →
    equi_dim_allowed (reverse h) = false →
    k_intersect K (active_eps (reverse h)) g1 g2 = Ok is →
    p ∈ is → p ≠ PEmpty → (k_dim K g1 ≤ piece_dim K p)%Z →
    evaluate ltb geb K (crun zero h) g1 g2 = Ok false.
Proof. exact @equi_dim_rejected. Qed.
Print Assumptions c15_equi_dim_partial.

Example c15_example :
  weval [SetMinDistance 1]%Z 0 3 = Ok false ∧ weval [SetMinDistance 1; AllowEquiDim true]%Z 0 3 = Ok true.
Proof. split; reflexivity. Qed.

(** Finding: as long as no constraint is set, equi-dimensional intersections are accepted
    although they have not been allowed. *)
Theorem c15_default_accepts_refuted :
  ∃ (h : list (cop Z)) (g1 g2 : nat) (p : piece nat nat nat nat nat nat),
    equi_dim_allowed (reverse h) = false ∧
    inter world (active_eps (reverse h)) g1 g2 = [p] ∧ p ≠ PEmpty ∧
    dim_of world p = gdim world g1 ∧
    weval h g1 g2 = Ok true.
Proof. by exists [SetMinAngle 1%Z; NeglectMinAngle], 0, 3, (PFace 0). Qed.
Print Assumptions c15_default_accepts_refuted.
