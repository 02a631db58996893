(** Proofs on geometries behind pointers. *)

From Coq Require Import String.
From stdpp Require Import prelude list.
From Verif Require Import Base ConstraintsModel DynModel DynSpec.

Lemma class_name_disk k : class_name k = "Disk"%string → k = KDisk.
Proof. destruct k as [| | | |[|[|[|]]]| | | | |[|[|[|]]]| |[|[|[|]]]| | |[|[|[|]]]| | |[|[|[|]]]]; cbn; congruence. Qed.
Lemma class_name_quad k : class_name k = "Quadrilateral_3d"%string → k = KQuadrilateral.
Proof. destruct k as [| | | |[|[|[|]]]| | | | |[|[|[|]]]| |[|[|[|]]]| | |[|[|[|]]]| | |[|[|[|]]]]; cbn; congruence. Qed.

Section Dyn.
Context {G R : Type} (f : G → outcome R).
Lemma apply_known p k g : disk_or_quad k → points_to p k g → apply_on f p = f g.
Proof. intros [->| ->] ->; reflexivity. Qed.
Lemma apply_other p k g : ¬ disk_or_quad k → points_to p k g → apply_on f p = Throw RuntimeError.
Proof.
  intros Hk ->. unfold apply_on. cbn [o_name].
  destruct (String.eqb_spec (class_name k) "Disk") as [E|_]; [exfalso; apply Hk; left; apply class_name_disk, E|].
  destruct (String.eqb_spec (class_name k) "Quadrilateral_3d") as [E|_]; [exfalso; apply Hk; right; apply class_name_quad, E|].
  reflexivity.
Qed.
Lemma apply_null : apply_on f None = UB.
Proof. reflexivity. Qed.
Lemma apply_impostor o : o_name o = "Disk"%string → o_class o ≠ Some KDisk → apply_on f (Some o) = UB.
Proof. intros E Hc. unfold apply_on, assign. rewrite E. cbn. rewrite bool_decide_false by exact Hc. reflexivity. Qed.
End Dyn.

Section Constraints.
Context {num : Type} (ltb geb : num → num → bool) {G Pt Arc Ell Edge Face : Type}
  (K : kernel num G Pt Arc Ell Edge Face).
Notation eval := (evaluate ltb geb K).
Notation eval_args := (evaluate_args ltb geb K).

Lemma evaluate_known c a1 a2 k1 g1 k2 g2 : disk_or_quad k1 → disk_or_quad k2 →
  stands_for a1 (k1, g1) → stands_for a2 (k2, g2) → eval_args c a1 a2 = eval c g1 g2.
Proof.
  intros H1 H2 [->|(p1 & -> & P1)] [->|(p2 & -> & P2)]; cbn [snd fst] in *; cbn [evaluate_args].
  - reflexivity.
  - rewrite (apply_known _ _ _ _ H2 P2). reflexivity.
  - rewrite (apply_known _ _ _ _ H1 P1). reflexivity.
  - rewrite (apply_known _ _ _ _ H1 P1), (apply_known _ _ _ _ H2 P2). reflexivity.
Qed.
Lemma all_of_ext2 {A B} (f : A → outcome bool) (g : B → outcome bool) l m :
  Forall2 (λ x y, f x = g y) l m → all_of f l = all_of g m.
Proof. induction 1 as [|x y l m E _ IH]; cbn; [reflexivity|]. rewrite E, IH. reflexivity. Qed.
Lemma evaluate_known_set c es kes a kg : Forall (λ x, disk_or_quad (fst x)) kes → disk_or_quad (fst kg) →
  Forall2 stands_for es kes → stands_for a kg →
  evaluate_args_set ltb geb K c es a = evaluate_set_entity ltb geb K c (map snd kes) (snd kg).
Proof.
  intros Hk Hkg Hes Ha. unfold evaluate_args_set, evaluate_set_entity. apply all_of_ext2.
  induction Hes as [|x y l m Hx Hes IH]; cbn; [constructor|]. inversion Hk; subst. constructor; [|auto].
  destruct y, kg. apply (evaluate_known c _ _ g _ g1); assumption.
Qed.
Lemma evaluate_known_sets c es1 kes1 es2 kes2 : Forall (λ x, disk_or_quad (fst x)) kes1 → Forall (λ x, disk_or_quad (fst x)) kes2 →
  Forall2 stands_for es1 kes1 → Forall2 stands_for es2 kes2 →
  evaluate_args_sets ltb geb K c es1 es2 = evaluate_set_set ltb geb K c (map snd kes1) (map snd kes2).
Proof.
  intros H1 H2 Hs1 Hs2. unfold evaluate_args_sets, evaluate_set_set. apply all_of_ext2.
  induction Hs1 as [|x y l m Hx Hes IH]; cbn; [constructor|]. inversion H1; subst. constructor; [|auto].
  unfold evaluate_entity_set. apply evaluate_known_set; assumption.
Qed.
Lemma evaluate_other c p k g : ¬ disk_or_quad k → points_to p k g →
  (∀ a, eval_args c (APtr p) a = Throw RuntimeError) ∧ (∀ h, eval_args c (AObj h) (APtr p) = Throw RuntimeError) ∧
  (∀ q k' h, disk_or_quad k' → points_to q k' h → eval_args c (APtr q) (APtr p) = Throw RuntimeError).
Proof.
  intros Hk Hp. split; [|split].
  - intros [h|q]; cbn [evaluate_args]; apply (apply_other _ _ _ _ Hk Hp).
  - intros h. apply (apply_other _ _ _ _ Hk Hp).
  - intros q k' h Hk' Hq. cbn [evaluate_args]. rewrite (apply_known _ _ _ _ Hk' Hq). apply (apply_other _ _ _ _ Hk Hp).
Qed.
(** without active constraints everything is admissible *)
Lemma evaluate_none zero g h : eval (c_init zero) g h = Ok true.
Proof. reflexivity. Qed.
End Constraints.

(** the names of the classes differ *)
Lemma class_name_inj k k' : proper_class k → proper_class k' → class_name k = class_name k' → k = k'.
Proof.
  assert (forall wd, 1 ≤ wd ≤ 3 → wd = 1 ∨ wd = 2 ∨ wd = 3) as W by lia.
  intros Hk Hk'. destruct k, k'; cbn [proper_class] in Hk, Hk'; try reflexivity;
    repeat match goal with H : 1 ≤ ?wd ≤ 3 |- _ => apply W in H as [->|[->| ->]] end;
    first [reflexivity|discriminate].
Qed.
Lemma assign_lemma {G} (p : ptr G) k g k' : proper_class k → proper_class k' → points_to p k g →
  assign p k' = Ok (if bool_decide (k' = k) then Some g else None).
Proof.
  intros Hk Hk' ->. unfold assign. cbn [o_name o_class o_geo]. destruct (decide (k' = k)) as [E|E].
  - subst. rewrite String.eqb_refl, !bool_decide_eq_true_2; reflexivity.
  - rewrite (bool_decide_eq_false_2 (k' = k)) by exact E.
    destruct (String.eqb_spec (class_name k') (class_name k)) as [En|]; [|reflexivity].
    exfalso. apply E. by apply class_name_inj.
Qed.
