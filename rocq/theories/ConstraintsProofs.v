(** Proofs for C13-C15. *)

From stdpp Require Import prelude list.
From Verif Require Import Base ConstraintsModel ConstraintsSpec.

Section Settings.
Context {num : Type} (zero : num).

Definition abs_of (c : constraints num) : option num * option num * option num * option num * option num * bool :=
  ((if useMinDistance c then Some (minDistance c) else None),
   (if useMinIsAngle c then Some (minIsAngle c) else None),
   (if useMinIsMagnitude c then Some (minIsMagnitude c) else None),
   (if useMinIsDistance c then Some (minIsDistance c) else None),
   (if useIntersectionEps c then Some (intersectionEps c) else None),
   allowEquiDimIS c).

Lemma crun_snoc h o : crun zero (h ++ [o]) = cstep (crun zero h) o.
Proof. unfold crun. by rewrite fold_left_app. Qed.

Lemma settings h :
  abs_of (crun zero h) =
  (active_distance (reverse h), active_angle (reverse h), active_magnitude (reverse h),
   active_is_distance (reverse h), active_eps (reverse h), equi_dim_allowed (reverse h)).
Proof.
  induction h as [|o h IH] using rev_ind; [done|].
  rewrite crun_snoc, reverse_app. simpl (reverse [o] ++ _).
  change (reverse [o]) with [o]. simpl app.
  revert IH. generalize (crun zero h). intros c IH.
  destruct c as [d a m i ud ua um ui e ue al]. unfold abs_of in *. simpl in *.
  injection IH as H1 H2 H3 H4 H5 H6.
  destruct o; simpl; congruence.
Qed.
End Settings.

Lemma all_of_ok {A} (f : A → outcome bool) (P : A → Prop) l :
  (∀ x, x ∈ l → ∃ b, f x = Ok b ∧ (b = true ↔ P x)) →
  ∃ b, all_of f l = Ok b ∧ (b = true ↔ ∀ x, x ∈ l → P x).
Proof.
  induction l as [|x l IH]; intros H.
  { exists true. split; [done|]. split; [|done]. intros _ x Hx. by apply elem_of_nil in Hx. }
  destruct (H x) as (b & Hb & HP); [set_solver|].
  destruct IH as (b' & Hb' & HP'); [set_solver|].
  simpl. rewrite Hb. simpl. destruct b.
  - exists b'. split; [done|]. rewrite HP'. set_solver.
  - exists false. split; [done|]. split; [done|]. intros Hall.
    assert (P x) by set_solver. apply HP in H0. done.
Qed.

Lemma forallb_elem {A} (f : A → bool) l : forallb f l = true ↔ ∀ x, x ∈ l → f x = true.
Proof.
  rewrite forallb_forall. split; intros H x Hx; apply H; by apply elem_of_list_In.
Qed.

Section Empty.
Context {Pt Arc Ell Edge Face G : Type}.
Notation pc := (piece Pt Arc Ell Edge Face G).
Lemma is_empty_spec (is : list pc) : is_empty is = true ↔ ∀ p, p ∈ is → p = PEmpty.
Proof.
  unfold is_empty. rewrite forallb_elem.
  split; intros H p Hp; specialize (H p Hp); destruct p; done.
Qed.
Lemma is_empty_false (is : list pc) : is_empty is = false ↔ ∃ p, p ∈ is ∧ p ≠ PEmpty.
Proof.
  split.
  - induction is as [|p is IH]; [done|]. simpl. intros H. apply andb_false_iff in H as [H|H].
    + exists p. split; [set_solver|]. by intros ->.
    + destruct (IH H) as (q & ? & ?). exists q. set_solver.
  - intros (p & Hp & Hne). destruct (is_empty is) eqn:E; [|done].
    apply is_empty_spec with (p := p) in E; done.
Qed.

End Empty.

Section Eval.
Context {num G Pt Arc Ell Edge Face : Type}.
Context (zero : num) (lt : num → num → Prop) (ltb geb : num → num → bool).
Context (Hlt : ∀ x y, ltb x y = true ↔ lt x y) (Hge : ∀ x y, geb x y = true ↔ ¬ lt x y).
Notation pc := (piece Pt Arc Ell Edge Face G).
Variable A : answers num G Pt Arc Ell Edge Face.
Notation K := (kernel_of A).

Lemma negb_lt x y : negb (ltb x y) = true ↔ at_least lt x y.
Proof.
  unfold at_least. rewrite <- Hlt. destruct (ltb x y); simpl; split; intros; try done.
Qed.

Lemma piece_dim_of (p : pc) : piece_dim K p = dim_of A p.
Proof. by destruct p. Qed.

Lemma adm_dim_spec d (is : list pc) :
  adm_dim K (d - 1) is = true ↔ ∀ p, p ∈ is → (dim_of A p < d)%Z.
Proof.
  unfold adm_dim. rewrite forallb_elem.
  split; intros H p Hp; specialize (H p Hp).
  - apply bool_decide_eq_true in H. rewrite piece_dim_of in H. lia.
  - apply bool_decide_eq_true. rewrite piece_dim_of. lia.
Qed.

Lemma adm_mag_spec t (is : list pc) :
  ∃ b, adm_mag geb K t is = Ok b ∧
    (b = true ↔ ∀ p, p ∈ is → dim_of A p ≠ 0%Z → at_least lt (magnitude A p) t).
Proof.
  apply all_of_ok. intros p _. unfold adm_mag_piece.
  destruct (bool_decide_reflect (piece_dim K p = 0%Z)) as [E|E]; rewrite piece_dim_of in E.
  { exists true. split; [done|]. split; [|done]. intros _ ?. by destruct H. }
  destruct p; simpl in *; try (by destruct E);
    (eexists; split; [done|]); rewrite Hge; unfold at_least; intuition.
Qed.

Lemma adm_db_point_spec t p g :
  ∃ b, adm_db_point geb K t p g = Ok b ∧ (b = true ↔ clear lt A t g p).
Proof.
  unfold adm_db_point, clear. simpl. destruct (on_boundary A p g) eqn:E.
  - exists true. intuition.
  - simpl. eexists. split; [done|]. rewrite Hge. unfold at_least. intuition. done.
Qed.

Lemma adm_db_ends_spec t p q g :
  ∃ b, adm_db_ends geb K t p q g = Ok b ∧ (b = true ↔ clear lt A t g p ∧ clear lt A t g q).
Proof.
  unfold adm_db_ends.
  destruct (adm_db_point_spec t p g) as (b1 & -> & H1).
  destruct (adm_db_point_spec t q g) as (b2 & -> & H2).
  simpl. destruct b1.
  - exists b2. intuition.
  - exists false. split; [done|]. intuition. done.
Qed.

Lemma adm_db_piece_spec t g p :
  has_boundary_distance p →
  ∃ b, adm_db_piece ltb geb K t g p = Ok b ∧ (b = true ↔ clear_piece lt A t g p).
Proof.
  intros Hb. destruct p; simpl in *; try done.
  - exists true. done.
  - apply adm_db_point_spec.
  - apply adm_db_ends_spec.
  - unfold adm_db_arc. simpl.
    destruct (on_boundary A (arc_source A a) g) eqn:E1;
    destruct (on_boundary A (arc_target A a) g) eqn:E2; simpl.
    + exists true. split; [done|]. unfold clear. rewrite E1, E2. intuition.
    + eexists. split; [done|]. rewrite negb_lt. unfold clear. rewrite E1, E2. split.
      * intros H. split; [by left|by right].
      * intros [_ [?|H]]; done.
    + destruct (ltb (dist_boundary A (arc_source A a) g) t) eqn:E; simpl.
      * exists false. split; [done|]. split; [done|]. intros [[?|H] _]; [congruence|].
        destruct H. by apply Hlt.
      * exists true. split; [done|]. split; [|done]. intros _. unfold clear. rewrite E1, E2.
        split; [right|by left]. apply negb_lt. by rewrite E.
    + destruct (all_of_ok (λ i, obind (Ok (dist_boundary A (arc_point A a i) g)) (λ d, Ok (geb d t)))
        (λ i, at_least lt (dist_boundary A (arc_point A a i) g) t) [0;1;2;3;4]) as (b & Hb1 & Hb2).
      { intros i _. simpl. eexists. split; [done|]. apply Hge. }
      exists b. split; [exact Hb1|]. rewrite Hb2. split.
      * intros H i Hi. apply H. do 5 (destruct i; [set_solver|]). lia.
      * intros H i Hi. apply H.
        repeat (apply elem_of_cons in Hi as [->|Hi]; [lia|]). by apply elem_of_nil in Hi.
  - eexists. split; [done|]. apply Hge.
  - apply adm_db_ends_spec.
Qed.

Lemma adm_db_spec t g is :
  (∀ p, p ∈ is → has_boundary_distance p) →
  ∃ b, adm_db ltb geb K t g is = Ok b ∧ (b = true ↔ ∀ p, p ∈ is → clear_piece lt A t g p).
Proof. intros H. apply all_of_ok. intros p Hp. apply adm_db_piece_spec. by apply H. Qed.

Theorem evaluate_spec h g1 g2 :
  ¬ no_constraint (reverse h) →
  (active_is_distance (reverse h) ≠ None →
   ∀ p, p ∈ inter A (active_eps (reverse h)) g1 g2 → has_boundary_distance p) →
  ∃ b, evaluate ltb geb K (crun zero h) g1 g2 = Ok b ∧ (b = true ↔ admissible lt A (reverse h) g1 g2).
Proof.
  intros Hact Hbd. pose proof (settings zero h) as HS. revert HS Hact Hbd.
  generalize (reverse h) (crun zero h). clear h. intros h c HS.
  unfold abs_of in HS. injection HS as H1 H2 H3 H4 H5 H6.
  intros Hact Hbd. unfold no_constraint in Hact. unfold evaluate, admissible. simpl.
  rewrite <- H5 in *. rewrite <- H6. rewrite <- H1, <- H2, <- H3, <- H4 in *.
  clear H1 H2 H3 H4 H5 H6.
  destruct (negb _ && negb (useMinDistance c)) eqn:E0.
  { exfalso. apply Hact. apply andb_true_iff in E0 as [E0 E1].
    apply negb_true_iff in E0, E1. apply orb_false_iff in E0 as [E0 E2].
    apply orb_false_iff in E0 as [E0 E3]. by rewrite E0, E1, E2, E3. }
  clear E0 Hact.
  set (is := inter A _ g1 g2) in *.
  destruct (is_empty is) eqn:Ee; simpl.
  - pose proof (proj1 (is_empty_spec is) Ee) as He.
    destruct (useMinDistance c); simpl.
    + eexists. split; [done|]. rewrite Hge. split; [|by intros [H _]; apply H].
      intros H. split; [done|]. intros (p & Hp & Hne). destruct Hne. by apply He.
    + exists true. split; [done|]. split; [|done]. intros _. split; [done|].
      intros (p & Hp & Hne). destruct Hne. by apply He.
  - pose proof (proj1 (is_empty_false is) Ee) as He.
    assert (Hno : ¬ ∀ p, p ∈ is → p = PEmpty).
    { intros H. destruct He as (p & Hp & Hne). by destruct (Hne (H p Hp)). }
    destruct (negb (allowEquiDimIS c) && negb _) eqn:Ed.
    { exists false. split; [done|]. split; [done|]. intros [_ H].
      destruct (H He) as [[H0|H0] _].
      - by rewrite H0 in Ed.
      - apply adm_dim_spec in H0. rewrite H0 in Ed. by rewrite andb_false_r in Ed. }
    assert (Hd : allowEquiDimIS c = true ∨ ∀ p, p ∈ is → (dim_of A p < gdim A g1)%Z).
    { apply andb_false_iff in Ed as [Ed|Ed]; apply negb_false_iff in Ed; [by left|right].
      by apply adm_dim_spec. }
    clear Ed.
    assert (Hm : ∃ b, (if useMinIsMagnitude c then adm_mag geb K (minIsMagnitude c) is else Ok true) = Ok b ∧
       (b = true ↔ holds_if_set (if useMinIsMagnitude c then Some (minIsMagnitude c) else None)
       (λ t, ∀ p, p ∈ is → dim_of A p ≠ 0%Z → at_least lt (magnitude A p) t))).
    { destruct (useMinIsMagnitude c); [apply adm_mag_spec|]. by exists true. }
    destruct Hm as (bm & -> & Hm). simpl. destruct bm; simpl; cycle 1.
    { exists false. split; [done|]. split; [done|]. intros [_ H].
      destruct (H He) as (_ & H0 & _). by apply Hm. }
    assert (Ha : ∃ b, (if useMinIsAngle c then Ok (negb (ltb (angle A g1 g2 is) (minIsAngle c))) else Ok true) = Ok b ∧
       (b = true ↔ holds_if_set (if useMinIsAngle c then Some (minIsAngle c) else None)
         (at_least lt (angle A g1 g2 is)))).
    { destruct (useMinIsAngle c); [|by exists true]. eexists. split; [done|]. apply negb_lt. }
    destruct Ha as (ba & -> & Ha). simpl. destruct ba; simpl; cycle 1.
    { exists false. split; [done|]. split; [done|]. intros [_ H].
      destruct (H He) as (_ & _ & H0 & _). by apply Ha. }
    destruct (useMinIsDistance c); simpl in *; cycle 1.
    { exists true. split; [done|]. split; [|done]. intros _. split; [done|]. intros _. 
      split; [done|]. split; [by apply Hm|]. split; [by apply Ha|done]. }
    assert (Hbd' : ∀ p, p ∈ is → has_boundary_distance p) by (by apply Hbd).
    destruct (adm_db_spec (minIsDistance c) g1 is Hbd') as (b1 & -> & Hb1).
    destruct (adm_db_spec (minIsDistance c) g2 is Hbd') as (b2 & -> & Hb2).
    simpl. destruct b1; simpl.
    + exists b2. split; [done|]. rewrite Hb2. split.
      * intros H. split; [done|]. intros _. split; [done|]. split; [by apply Hm|].
        split; [by apply Ha|]. intros p Hp. split; [by apply Hb1|by apply H].
      * intros [_ H]. destruct (H He) as (_ & _ & _ & H0). intros p Hp. by apply H0.
    + exists false. split; [done|]. split; [done|]. intros [_ H].
      destruct (H He) as (_ & _ & _ & H0). apply Hb1. intros p Hp. by apply H0.
Qed.

End Eval.

(** Facts that hold for every kernel, also one that throws. *)
Section Any.
Context {num G Pt Arc Ell Edge Face : Type}.
Context (zero : num) (ltb geb : num → num → bool).
Variable K : kernel num G Pt Arc Ell Edge Face.

Lemma no_constraint_true h g1 g2 :
  no_constraint (reverse h) → evaluate ltb geb K (crun zero h) g1 g2 = Ok true.
Proof.
  pose proof (settings zero h) as HS. revert HS. generalize (reverse h) (crun zero h). clear h. intros h c HS.
  unfold abs_of in HS. injection HS as H1 H2 H3 H4 H5 H6. intros (E1 & E2 & E3 & E4).
  unfold evaluate. rewrite E1 in H1. rewrite E2 in H2. rewrite E3 in H3. rewrite E4 in H4.
  destruct (useMinDistance c), (useMinIsAngle c), (useMinIsMagnitude c), (useMinIsDistance c); done.
Qed.

Lemma equi_dim_rejected h g1 g2 is p :
  ¬ no_constraint (reverse h) →
  equi_dim_allowed (reverse h) = false →
  k_intersect K (active_eps (reverse h)) g1 g2 = Ok is →
  p ∈ is → p ≠ PEmpty → (k_dim K g1 ≤ piece_dim K p)%Z →
  evaluate ltb geb K (crun zero h) g1 g2 = Ok false.
Proof.
  pose proof (settings zero h) as HS. revert HS. generalize (reverse h) (crun zero h). clear h. intros h c HS.
  unfold abs_of in HS. injection HS as H1 H2 H3 H4 H5 H6.
  intros Hact Hal His Hp Hne Hdim. unfold no_constraint in Hact. unfold evaluate.
  destruct (negb _ && negb (useMinDistance c)) eqn:E0.
  { exfalso. apply Hact. apply andb_true_iff in E0 as [E0 E1].
    apply negb_true_iff in E0, E1. apply orb_false_iff in E0 as [E0 E2].
    apply orb_false_iff in E0 as [E0 E3]. rewrite <- H1, <- H2, <- H3, <- H4. by rewrite E0, E1, E2, E3. }
  rewrite H5, His. simpl.
  assert (is_empty is = false) as ->.
  { apply (proj2 (is_empty_false is)). eauto. }
  simpl. rewrite H6, Hal. simpl.
  destruct (adm_dim K (k_dim K g1 - 1) is) eqn:E; [|done].
  unfold adm_dim in E. rewrite forallb_elem in E. specialize (E p Hp).
  apply bool_decide_eq_true in E. lia.
Qed.

Lemma evaluate_intersect_fails h g1 g2 o :
  ¬ no_constraint (reverse h) →
  k_intersect K (active_eps (reverse h)) g1 g2 = o → (∀ is, o ≠ Ok is) →
  ∀ b, evaluate ltb geb K (crun zero h) g1 g2 ≠ Ok b.
Proof.
  pose proof (settings zero h) as HS. revert HS. generalize (reverse h) (crun zero h). clear h. intros h c HS.
  unfold abs_of in HS. injection HS as H1 H2 H3 H4 H5 H6.
  intros Hact His Hno b. unfold no_constraint in Hact. unfold evaluate.
  destruct (negb _ && negb (useMinDistance c)) eqn:E0.
  { exfalso. apply Hact. apply andb_true_iff in E0 as [E0 E1].
    apply negb_true_iff in E0, E1. apply orb_false_iff in E0 as [E0 E2].
    apply orb_false_iff in E0 as [E0 E3]. rewrite <- H1, <- H2, <- H3, <- H4. by rewrite E0, E1, E2, E3. }
  rewrite H5, His. destruct o; simpl; try done. by destruct (Hno a).
Qed.
End Any.

(** C14 *)
Section Sets.
Context {num G Pt Arc Ell Edge Face : Type}.
Context (ltb geb : num → num → bool).
Variable K : kernel num G Pt Arc Ell Edge Face.
Variable c : constraints num.
Notation ev := (evaluate ltb geb K c).

Lemma all_of_true {A} (f : A → outcome bool) l :
  all_of f l = Ok true ↔ ∀ x, x ∈ l → f x = Ok true.
Proof.
  induction l as [|x l IH]; simpl.
  { split; [|done]. intros _ x Hx. by apply elem_of_nil in Hx. }
  split.
  - destruct (f x) as [[]| | |] eqn:E; simpl; try done. intros H y Hy.
    apply elem_of_cons in Hy as [->|Hy]; [done|]. by apply IH.
  - intros H. rewrite (H x) by set_solver. simpl. apply IH. set_solver.
Qed.

(** The first pair that is not admissible decides. *)
Lemma all_of_false {A} (f : A → outcome bool) l :
  all_of f l = Ok false ↔
  ∃ l1 x l2, l = l1 ++ x :: l2 ∧ f x = Ok false ∧ ∀ y, y ∈ l1 → f y = Ok true.
Proof.
  induction l as [|x l IH]; simpl.
  { split; [done|]. intros (l1 & x & l2 & H & _). by destruct l1. }
  split.
  - destruct (f x) as [[]| | |] eqn:E; simpl; try done.
    + intros H. apply IH in H as (l1 & y & l2 & -> & Hy & H1).
      exists (x :: l1), y, l2. split; [done|]. split; [done|]. intros z Hz.
      apply elem_of_cons in Hz as [->|Hz]; [done|]. by apply H1.
    + intros _. exists [], x, l. split; [done|]. split; [done|]. intros y Hy. by apply elem_of_nil in Hy.
  - intros (l1 & y & l2 & Hl & Hy & H1). destruct l1 as [|z l1]; simplify_eq/=.
    + by rewrite Hy.
    + rewrite (H1 z) by set_solver. simpl. apply IH. exists l1, y, l2. set_solver.
Qed.

Lemma all_of_total {A} (f : A → outcome bool) l :
  (∀ x, x ∈ l → ∃ b, f x = Ok b) → ∃ b, all_of f l = Ok b.
Proof.
  induction l as [|x l IH]; intros H; simpl; [by exists true|].
  destruct (H x) as [b ->]; [set_solver|]. simpl. destruct b; [|by exists false].
  apply IH. set_solver.
Qed.

Lemma set_entity_true es e :
  evaluate_set_entity ltb geb K c es e = Ok true ↔ ∀ x, x ∈ es → ev x e = Ok true.
Proof. apply all_of_true. Qed.

Lemma set_set_true es1 es2 :
  evaluate_set_set ltb geb K c es1 es2 = Ok true ↔
  ∀ e1 e2, e1 ∈ es1 → e2 ∈ es2 → ev e2 e1 = Ok true.
Proof.
  unfold evaluate_set_set. rewrite all_of_true. unfold evaluate_entity_set.
  setoid_rewrite set_entity_true. split; eauto.
Qed.

Lemma set_entity_false es e :
  (∀ x, x ∈ es → ∃ b, ev x e = Ok b) →
  (evaluate_set_entity ltb geb K c es e = Ok false ↔ ∃ x, x ∈ es ∧ ev x e = Ok false).
Proof.
  intros Htot. split.
  - intros H. apply all_of_false in H as (l1 & x & l2 & -> & Hx & _). exists x. set_solver.
  - intros (x & Hx & Hf).
    destruct (all_of_total (λ x, ev x e) es Htot) as [[] Hb]; [|done].
    rewrite all_of_true in Hb. by rewrite Hb in Hf.
Qed.

Lemma set_set_false es1 es2 :
  (∀ e1 e2, e1 ∈ es1 → e2 ∈ es2 → ∃ b, ev e2 e1 = Ok b) →
  (evaluate_set_set ltb geb K c es1 es2 = Ok false ↔
   ∃ e1 e2, e1 ∈ es1 ∧ e2 ∈ es2 ∧ ev e2 e1 = Ok false).
Proof.
  intros Htot.
  assert (Hin : ∀ e1, e1 ∈ es1 → ∃ b, evaluate_entity_set ltb geb K c e1 es2 = Ok b).
  { intros e1 H1. apply all_of_total. intros e2 H2. by apply Htot. }
  split.
  - intros H. apply all_of_false in H as (l1 & x & l2 & -> & Hx & _).
    apply set_entity_false in Hx as (y & Hy & Hf); [exists x, y; set_solver|].
    intros e2 H2. apply Htot; [set_solver|done].
  - intros (e1 & e2 & H1 & H2 & Hf).
    destruct (all_of_total (λ e1, evaluate_entity_set ltb geb K c e1 es2) es1 Hin) as [[] Hb]; [|done].
    rewrite all_of_true in Hb. specialize (Hb e1 H1). apply set_entity_true with (x := e2) in Hb; congruence.
Qed.
End Sets.

(** Symmetry of the meaning, for a symmetric kernel. *)
Section Symmetry.
Context {num G Pt Arc Ell Edge Face : Type}.
Context (lt : num → num → Prop).
Variable A : answers num G Pt Arc Ell Edge Face.

Lemma admissible_sym h g1 g2 :
  inter A (active_eps h) g1 g2 ≡ₚ inter A (active_eps h) g2 g1 →
  dist A g1 g2 = dist A g2 g1 →
  angle A g1 g2 (inter A (active_eps h) g1 g2) = angle A g2 g1 (inter A (active_eps h) g2 g1) →
  gdim A g1 = gdim A g2 →
  admissible lt A h g1 g2 → admissible lt A h g2 g1.
Proof.
  intros HP Hd Ha Hg [H1 H2]. unfold admissible.
  assert (Hin : ∀ p, p ∈ inter A (active_eps h) g1 g2 ↔ p ∈ inter A (active_eps h) g2 g1).
  { intros p. by rewrite HP. }
  split.
  - intros H. rewrite <- Hd. apply H1. intros p Hp. apply H. by apply Hin.
  - intros (p & Hp & Hne). destruct H2 as (D & M & An & B).
    { exists p. split; [by apply Hin|done]. }
    rewrite <- Ha, <- Hg. split; [|split; [|split]].
    + destruct D as [D|D]; [by left|right]. intros q Hq. apply D. by apply Hin.
    + destruct (active_magnitude h); simpl in *; [|done]. intros q Hq. apply M. by apply Hin.
    + done.
    + destruct (active_is_distance h); simpl in *; [|done]. intros q Hq.
      split; apply B; by apply Hin.
Qed.
End Symmetry.
