(** Properties C10-C12 (entity sets). *)

From stdpp Require Import prelude gmap list.
From Verif Require Import Base EntitySetModel EntitySetSpec EntitySetProofs.

(** C10: what applyOnSet(id, f) passes to f is what the map of the specification holds. *)
Theorem c10_set_is_map {E} (tyname : nat → N) (ntypes : nat) (h : list (eop E)) (id : N) :
  Forall (typed ntypes) h →
  apply_on_set id (erun tyname ntypes h) = spec_run tyname ntypes h !! id.
Proof. exact (c10_lemma tyname ntypes h id). Qed.
Print Assumptions c10_set_is_map.

(** C10: a call succeeds or throws exactly as in the specification. *)
Theorem c10_outcomes {E} (tyname : nat → N) (ntypes : nat) (h : list (eop E)) (o : eop E) :
  Forall (typed ntypes) h → typed ntypes o →
  fst (estep tyname (erun tyname ntypes h) o) =
    match spec_step tyname ntypes (spec_run tyname ntypes h) o with
    | Some _ => Ok tt
    | None => Throw RuntimeError
    end.
Proof. exact (c10_outcome_lemma tyname ntypes h o). Qed.
Print Assumptions c10_outcomes.

Example c10_case :
  let h := [AddEntity 0 11 5; AddEntityPtr 1 21 6; AddEntity 1 31 5; AddEntity 0 12 5]%N in
  Forall (typed 2) h ∧
  apply_on_set 5 (erun N.of_nat 2 h) = Some (0, [11; 12]%N) ∧
  apply_on_set 6 (erun N.of_nat 2 h) = Some (1, [21]%N) ∧
  apply_on_set 7 (erun N.of_nat 2 h) = None.
Proof. split; [repeat constructor; simpl; lia|done]. Qed.

(** C11: an entity of another type is rejected without any effect. *)
Theorem c11_other_type_rejected {E} (tyname : nat → N) (ntypes : nat) (h : list (eop E))
    ty (e : E) id ty' es :
  Forall (typed ntypes) h → ty < ntypes →
  apply_on_set id (erun tyname ntypes h) = Some (ty', es) → ty ≠ ty' →
  estep tyname (erun tyname ntypes h) (AddEntity ty e id) = (Throw RuntimeError, erun tyname ntypes h).
Proof. exact (c11_lemma tyname ntypes h ty e id ty' es). Qed.
Print Assumptions c11_other_type_rejected.

(** C11: any failing call leaves the object as it was. *)
Theorem c11_failure_no_effect {E} (tyname : nat → N) (ntypes : nat) (h : list (eop E)) (o : eop E) :
  Forall (typed ntypes) h → typed ntypes o →
  fst (estep tyname (erun tyname ntypes h) o) ≠ Ok tt →
  snd (estep tyname (erun tyname ntypes h) o) = erun tyname ntypes h.
Proof. exact (c11_failure_lemma tyname ntypes h o). Qed.
Print Assumptions c11_failure_no_effect.

(** The geometry types may even share their name (here both are called 0). *)
Example c11_case :
  let h := [AddEntity 0 11 5]%N in
  apply_on_set 5 (erun (λ _, 0%N) 2 h) = Some (0, [11%N]) ∧
  estep (λ _, 0%N) (erun (λ _, 0%N) 2 h) (AddEntity 1 31 5)%N = (Throw RuntimeError, erun (λ _, 0%N) 2 h).
Proof. done. Qed.

(** C12: numEntities() counts every stored entity once, and is the sum of
    numEntities(id), whatever the iteration order of the hash map. *)
Theorem c12_num_entities {E} (tyname : nat → N) (ntypes : nat) (h : list (eop E)) (order : list (N * N)) :
  Forall (typed ntypes) h →
  order ≡ₚ map_to_list (names (erun tyname ntypes h)) →
  num_entities (erun tyname ntypes h) order = length (all_entities (spec_run tyname ntypes h)) ∧
  num_entities (erun tyname ntypes h) order =
    sum_list_with (λ id, num_entities_id id (erun tyname ntypes h)) order.*1.
Proof. exact (c12_num_lemma tyname ntypes h order). Qed.
Print Assumptions c12_num_entities.

(** C12: exporting hands over every stored entity exactly once ... *)
Theorem c12_export {E} (tyname : nat → N) (ntypes : nat) (h : list (eop E)) :
  Forall (typed ntypes) h →
  flatten (export_all (erun tyname ntypes h)) ≡ₚ all_entities (spec_run tyname ntypes h).
Proof. exact (c12_export_lemma tyname ntypes h). Qed.
Print Assumptions c12_export.

(** ... or exactly the entities of the requested ids (listed once or several times). *)
Theorem c12_export_ids {E} (tyname : nat → N) (ntypes : nat) (h : list (eop E)) (idl : list N) :
  Forall (typed ntypes) h →
  flatten (export_ids idl (erun tyname ntypes h)) ≡ₚ entities_of idl (spec_run tyname ntypes h).
Proof. exact (c12_export_ids_lemma tyname ntypes h idl). Qed.
Print Assumptions c12_export_ids.

Example c12_case :
  let h := [AddEntity 0 11 5; AddEntity 1 21 6; AddEntity 1 31 5; AddEntity 0 12 5; AddEntity 0 13 8]%N in
  Forall (typed 2) h ∧
  export_all (erun N.of_nat 2 h) = [(0, [11%N; 12%N]); (0, [13%N]); (1, [21%N])] ∧
  export_ids [6; 8; 6]%N (erun N.of_nat 2 h) = [(0, [13%N]); (1, [21%N])] ∧
  num_entities (erun N.of_nat 2 h) (map_to_list (names (erun N.of_nat 2 h))) = 4.
Proof. split; [repeat constructor; simpl; lia|done]. Qed.
