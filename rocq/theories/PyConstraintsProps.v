(** C20 and C21: the Python constraint classes. *)

From stdpp Require Import prelude list.
From Verif Require Import Base PyConstraintsModel PyConstraintsSpec PyConstraintsProofs.

(** Entities are positions, constraints minimum distances. *)
Definition gap (c x y : Z) : outcome bool := Ok (bool_decide (c ≤ Z.abs (x - y))%Z).

(** C20 as far as it holds: a violated relation to a set that itself has relations is
    noticed.  Missing: relations to sets that were never named first in a pair. *)
Theorem c20_violation_noticed_partial :
  ∀ (C E : Type) (ev : C → E → E → outcome bool) h sets (e : E) id b c es x,
    (∀ c x y, ∃ r, ev c x y = Ok r) →
    (id, b, c) ∈ py_relations h → (∃ b' c', (b, b', c') ∈ py_relations h) →
    sets b = Some es → x ∈ es → ev c x e = Ok false →
    py_matrix_evaluate ev (pyrun h) sets e id = Ok false.
Proof. exact @c20_false_lemma. Qed.
Print Assumptions c20_violation_noticed_partial.

(** The relations that are enforced, exactly. *)
Theorem c20_enforced_relations :
  ∀ (C E : Type) (ev : C → E → E → outcome bool) h sets (e : E) id,
    py_matrix_evaluate ev (pyrun h) sets e id = Ok true ↔
    ∀ b c es x, (id, b, c) ∈ py_relations h → (∃ b' c', (b, b', c') ∈ py_relations h) →
                sets b = Some es → x ∈ es → ev c x e = Ok true.
Proof. exact @c20_lemma. Qed.
Print Assumptions c20_enforced_relations.

Definition sample_sets : N → option (list Z) :=
  λ id, match id with 1%N => Some [0; 20]%Z | 2%N => Some [10]%Z | _ => None end.
Example c20_case :
  let h := [(3%Z, Pairs [[1; 1]; [1; 2]]%N); (7%Z, OnePair [2; 1]%N)] in
  py_relations h = [(1%N, 1%N, 3%Z); (1%N, 2%N, 3%Z); (2%N, 1%N, 7%Z)] ∧
  py_matrix_evaluate gap (pyrun h) sample_sets 9%Z 1 = Ok false ∧
  py_matrix_evaluate gap (pyrun h) sample_sets 5%Z 1 = Ok true ∧
  py_matrix_evaluate gap (pyrun h) sample_sets 5%Z 2 = Ok false.
Proof. by vm_compute. Qed.

(** Finding: a relation (1,2) is ignored if 2 never occurs as first id. *)
Theorem c20_ignored_relation_refuted :
  ∃ h sets (e : Z) id b c es x,
    (id, b, c) ∈ py_relations h ∧ sets b = Some es ∧ x ∈ es ∧ gap c x e = Ok false ∧
    py_matrix_evaluate gap (pyrun h) sets e id = Ok true.
Proof.
  exists [(3%Z, Pairs [[1; 1]; [1; 2]]%N)], sample_sets, 9%Z, 1%N, 2%N, 3%Z, [10%Z], 10%Z.
  split; [vm_compute; right; left|]. split; [done|]. split; [left|]. by vm_compute.
Qed.
Print Assumptions c20_ignored_relation_refuted.

(** C21 as far as it holds: the second argument is a geometry, or one of them is empty. *)
Theorem c21_lists_partial :
  ∀ (C E : Type) (ev : C → E → E → outcome bool) c (a b : arg E),
    (∃ gb, b = AGeo gb) ∨ geos a = [] ∨ geos b = [] →
    (py_evaluate ev c a b = Ok true ↔ ∀ x y, x ∈ geos a → y ∈ geos b → ev c x y = Ok true).
Proof. exact @c21_lemma. Qed.
Print Assumptions c21_lists_partial.

Example c21_case :
  py_evaluate gap 3%Z (AList [0; 20]%Z) (AGeo 10%Z) = Ok true ∧
  py_evaluate gap 3%Z (AList [0; 20; 11]%Z) (AGeo 10%Z) = Ok false.
Proof. by vm_compute. Qed.

(** Finding: every other call with a list as second argument raises a TypeError. *)
Theorem c21_second_list_refuted :
  ∀ (C E : Type) (ev : C → E → E → outcome bool) c (a : arg E) lb,
    geos a ≠ [] → lb ≠ [] → py_evaluate ev c a (AList lb) = Throw TypeError.
Proof. exact @c21_refuted_lemma. Qed.
Print Assumptions c21_second_list_refuted.

Example c21_second_list_case :
  py_evaluate gap 3%Z (AGeo 10%Z) (AList [0; 20]%Z) = Throw TypeError.
Proof. done. Qed.
