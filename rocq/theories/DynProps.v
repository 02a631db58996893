(** Properties of geometries behind pointers. *)

From Coq Require Import String.
From stdpp Require Import prelude list.
From Verif Require Import Base ConstraintsModel DynModel DynSpec DynProofs.

(** * C82: pointers to geometries *)

(** Pointers to disks and quadrilaterals, or the objects: the constraints are evaluated on the
    geometries pointed to. *)
Theorem c82_pair_partial {num} ltb geb {G Pt Arc Ell Edge Face} (K : kernel num G Pt Arc Ell Edge Face)
  c a1 a2 k1 (g1 : G) k2 g2 : disk_or_quad k1 → disk_or_quad k2 →
  stands_for a1 (k1, g1) → stands_for a2 (k2, g2) →
  evaluate_args ltb geb K c a1 a2 = evaluate ltb geb K c g1 g2.
Proof. exact (evaluate_known ltb geb K c a1 a2 k1 g1 k2 g2). Qed.
Theorem c82_sets_partial {num} ltb geb {G Pt Arc Ell Edge Face} (K : kernel num G Pt Arc Ell Edge Face)
  c (es1 es2 : list (arg G)) kes1 kes2 :
  Forall (λ x, disk_or_quad (fst x)) kes1 → Forall (λ x, disk_or_quad (fst x)) kes2 →
  Forall2 stands_for es1 kes1 → Forall2 stands_for es2 kes2 →
  evaluate_args_sets ltb geb K c es1 es2 = evaluate_set_set ltb geb K c (map snd kes1) (map snd kes2).
Proof. exact (evaluate_known_sets ltb geb K c es1 kes1 es2 kes2). Qed.
Theorem c82_magnitude_partial {num G} (mag : G → outcome num) p k g :
  disk_or_quad k → points_to p k g → contained_magnitude_ptr mag p = mag g.
Proof. exact (apply_known mag p k g). Qed.
(** Finding: all other classes, polygons among them, are rejected at run time, *)
Theorem c82_others_refuted {num} ltb geb {G Pt Arc Ell Edge Face} (K : kernel num G Pt Arc Ell Edge Face)
  c p k (g : G) : ¬ disk_or_quad k → points_to p k g →
  (∀ a, evaluate_args ltb geb K c (APtr p) a = Throw RuntimeError) ∧
  (∀ h, evaluate_args ltb geb K c (AObj h) (APtr p) = Throw RuntimeError) ∧
  (∀ q k' h, disk_or_quad k' → points_to q k' h →
     evaluate_args ltb geb K c (APtr q) (APtr p) = Throw RuntimeError).
Proof. exact (evaluate_other ltb geb K c p k g). Qed.
Theorem c82_magnitude_refuted {num G} (mag : G → outcome num) p k g :
  ¬ disk_or_quad k → points_to p k g → contained_magnitude_ptr mag p = Throw RuntimeError.
Proof. exact (apply_other mag p k g). Qed.
(** also where the constraints hold for all geometries. *)
Example c82_case : ¬ disk_or_quad KPolygon ∧
  ∀ num ltb geb G Pt Arc Ell Edge Face (K : kernel num G Pt Arc Ell Edge Face) zero (g h : G),
    evaluate ltb geb K (c_init zero) g h = Ok true.
Proof. split; [intros [E|E]; discriminate E|reflexivity]. Qed.
(** Finding: null pointers, and objects of other classes with the name of a disk, are not
    rejected but dereferenced. *)
Theorem c82_null_refuted {G R} (f : G → outcome R) : apply_on f None = UB.
Proof. exact (apply_null f). Qed.
Theorem c82_name_refuted {G R} (f : G → outcome R) o :
  o_name o = "Disk"%string → o_class o ≠ Some KDisk → apply_on f (Some o) = UB.
Proof. exact (apply_impostor f o). Qed.
Example c82_pointer_case : stands_for (APtr (Some (mkObject "Disk" (Some KDisk) 1))) (KDisk, 1) ∧
  stands_for (AObj 2) (KQuadrilateral, 2).
Proof. split; [right; eexists; split; reflexivity|left; reflexivity]. Qed.

(** assign(): true, and the geometry, exactly if the object is of the class of the target. *)
Theorem c82_assign_partial {G} (p : ptr G) k g k' : proper_class k → proper_class k' → points_to p k g →
  assign p k' = Ok (if bool_decide (k' = k) then Some g else None).
Proof. exact (assign_lemma p k g k'). Qed.
Example c82_assign_case : proper_class (KPoint 2) ∧ proper_class KPolygon ∧
  points_to (Some (mkObject "Point_2d" (Some (KPoint 2)) 1)) (KPoint 2) 1.
Proof. repeat split; cbn; lia. Qed.

Print Assumptions c82_assign_partial.
Print Assumptions c82_pair_partial.
Print Assumptions c82_sets_partial.
Print Assumptions c82_magnitude_partial.
Print Assumptions c82_others_refuted.
Print Assumptions c82_magnitude_refuted.
Print Assumptions c82_null_refuted.
Print Assumptions c82_name_refuted.
