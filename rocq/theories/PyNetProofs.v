From stdpp Require Import prelude gmap list.
From Verif Require Import Base NumModel PyBindModel BuilderModel BuilderSpec BuilderProofs PyNetModel PyNetSpec.

Section Geo.
Context {G S K num : Type} `{EqDecision S} `{Countable K} (key : S → K).
Variable kernel : BuilderModel.occ S num.
Variable ord : nat → list N → list N.
Variable gdim : G → Z.
Variable gshape : G → outcome S.
Notation gstep := (gstep key kernel ord gdim gshape).
Notation grun := (grun key kernel ord gdim gshape).
Hypothesis Hdim : ∀ g s, gshape g = Ok s → dim_of kernel s = gdim g.

Lemma geo_domain_ok c g s id r : gshape g = Ok s →
  geo_domain gdim gshape c g id r =
  match add_sub_domain kernel c s id r with
  | Ok r' => (r', Ok tt) | Throw x => (r, Throw x) | UB => (r, UB) | Diverge => (r, Diverge)
  end.
Proof.
  intros E. unfold geo_domain, add_sub_domain. rewrite (Hdim g s E), E.
  destruct (if bool_decide (networks r ≠ ∅) then _ else _); cbn [obind]; try done.
  destruct (if bool_decide (subDomains r ≠ ∅) then _ else _); cbn [obind]; try done.
  by destruct (subDomains r !! id).
Qed.
Lemma geo_entity_ok g s id r : gshape g = Ok s →
  geo_entity gdim gshape g id r =
  match add_entity kernel s id r with
  | Ok r' => (r', Ok tt) | Throw x => (r, Throw x) | UB => (r, UB) | Diverge => (r, Diverge)
  end.
Proof.
  intros E. unfold geo_entity, add_entity. rewrite (Hdim g s E), E.
  destruct (if bool_decide (networks r ≠ ∅) then _ else _); cbn [obind]; try done.
  by destruct (if bool_decide (subDomains r ≠ ∅) then _ else _); cbn [obind].
Qed.
Lemma geo_entities_ok gs ss id r : Forall2 (λ g s, gshape g = Ok s) gs ss →
  geo_entities gdim gshape gs id r = add_entities kernel ss id r.
Proof.
  intros E. revert r. induction E as [|g s gs ss E Es IH]; intros r; [done|].
  cbn [geo_entities add_entities]. rewrite (geo_entity_ok _ _ _ _ E).
  destruct (add_entity kernel s id r); auto.
Qed.
Lemma step_same k b o o' : same_call gshape o o' → gstep k b o = bstep key kernel ord k b o'.
Proof.
  destruct o, o'; cbn [same_call PyNetModel.gstep]; try done.
  - intros (-> & -> & E). unfold with_reg, bstep. rewrite (geo_domain_ok _ _ _ _ _ E).
    destruct (add_sub_domain kernel confining0 s id0 (reg b)); cbn; try done; by destruct b.
  - intros (-> & E). unfold with_reg, bstep. rewrite (geo_entities_ok _ _ _ _ E).
    by destruct (add_entities kernel ss id0 (reg b)).
  - by intros ->.
  - by intros ->.
Qed.
Lemma run_same k h h' : Forall2 (same_call gshape) h h' → grun k h = brun key kernel ord k h'.
Proof.
  unfold PyNetModel.grun, brun. generalize (b_init : builder S K num). intros b E. revert b.
  induction E as [|o o' h h' E Es IH]; intros b; [done|]. cbn. rewrite (step_same _ _ _ _ E). apply IH.
Qed.
Lemma c94_converted_lemma k h h' o o' : Forall2 (same_call gshape) h h' → same_call gshape o o' →
  gstep k (grun k h) o = bstep key kernel ord k (brun key kernel ord k h') o'.
Proof. intros E Eo. rewrite (run_same k h h' E). by apply step_same. Qed.
End Geo.

Section Failing.
Context {G S K num : Type} `{EqDecision S} `{Countable K} (key : S → K).
Variable kernel : BuilderModel.occ S num.
Variable ord : nat → list N → list N.
Variable gdim : G → Z.
Variable gshape : G → outcome S.
Notation gstep := (gstep key kernel ord gdim gshape).
Notation grun := (grun key kernel ord gdim gshape).

(** Dimensions are set as soon as something is registered. *)
Definition inv (r : registry S) : Prop :=
  (networks r ≠ ∅ → is_Some (entityDim r)) ∧ (subDomains r ≠ ∅ → is_Some (domainDim r)).
Lemma inv_domain c g id r : inv r → inv (geo_domain gdim gshape c g id r).1.
Proof.
  intros [H1 H2]. unfold geo_domain. cbv zeta.
  match goal with |- inv (match ?t with _ => _ end).1 => destruct t end; try done.
  destruct (gshape g); cbn; try done; split; cbn; eauto.
Qed.
Lemma inv_entity g id r : inv r → inv (geo_entity gdim gshape g id r).1.
Proof.
  intros [H1 H2]. unfold geo_entity. cbv zeta.
  match goal with |- inv (match ?t with _ => _ end).1 => destruct t end; try done.
  destruct (gshape g); cbn; try done; split; cbn; eauto.
Qed.
Lemma inv_entities gs id r : inv r → inv (geo_entities gdim gshape gs id r).1.
Proof.
  revert r. induction gs as [|g gs IH]; intros r Hr; [done|]. cbn [geo_entities].
  pose proof (inv_entity g id r Hr) as K'. destruct (geo_entity gdim gshape g id r) as [r' []]; cbn in *; auto.
Qed.
Lemma inv_reg_step k b o : inv (reg b) → inv (reg (gstep k b o).1).
Proof.
  intros Hr. destruct o; cbn [PyNetModel.gstep with_reg fst reg].
  - by apply inv_domain.
  - by apply inv_entities.
  - done.
  - done.
  - done.
  - cbn [bstep]. pose proof (build_reg key kernel ord k b) as E.
    destruct (build key kernel ord k b) as [b' n]. cbn in *. by rewrite E.
  - cbn. split; cbn; done.
Qed.
Lemma inv_run k h : inv (reg (grun k h)).
Proof.
  unfold PyNetModel.grun. assert (Hi : inv (reg (b_init : builder S K num))) by (split; cbn; done).
  revert Hi. generalize (b_init : builder S K num). induction h as [|o h IH]; intros b Hb; [done|].
  cbn. apply IH. by apply inv_reg_step.
Qed.

Lemma inl_case {X Y} (o : outcome X) (b b' : Y) : match o with Ok _ => b | _ => b end = b.
Proof. by destruct o. Qed.

Lemma geo_domain_fails c g id r x : inv r → gshape g = Throw x →
  let '(r', o) := geo_domain gdim gshape c g id r in
  (r' = r ∧ o = Throw RuntimeError) ∨
  (r' = mkReg (subDomains r) (bounds r) (networks r) (Some (gdim g)) (entityDim r) (confineUnion r)
   ∧ o = Throw x ∧ (subDomains r ≠ ∅ → domainDim r = Some (gdim g))).
Proof.
  intros [I1 I2] E. unfold geo_domain. cbv zeta.
  assert (H1 : (if bool_decide (networks r ≠ ∅)
               then with_dim (entityDim r) (λ e, if bool_decide (gdim g ≤ e)%Z then Throw RuntimeError else Ok tt)
               else Ok tt) = Ok tt ∨ (if bool_decide (networks r ≠ ∅)
               then with_dim (entityDim r) (λ e, if bool_decide (gdim g ≤ e)%Z then Throw RuntimeError else Ok tt)
               else Ok tt) = Throw RuntimeError).
  { destruct (bool_decide (networks r ≠ ∅)) eqn:En; [|by left]. apply bool_decide_eq_true in En.
    destruct (I1 En) as [e ->]. cbn. destruct (bool_decide _); auto. }
  destruct H1 as [-> | ->]; cbn [obind]; [|by left].
  assert (H2 : (subDomains r ≠ ∅ → domainDim r = Some (gdim g)) ∧ (if bool_decide (subDomains r ≠ ∅)
               then with_dim (domainDim r) (λ e, if bool_decide (gdim g ≠ e) then Throw RuntimeError else Ok tt)
               else Ok tt) = Ok tt ∨ (if bool_decide (subDomains r ≠ ∅)
               then with_dim (domainDim r) (λ e, if bool_decide (gdim g ≠ e) then Throw RuntimeError else Ok tt)
               else Ok tt) = Throw RuntimeError).
  { destruct (bool_decide (subDomains r ≠ ∅)) eqn:En; [apply bool_decide_eq_true in En|apply bool_decide_eq_false in En].
    - destruct (I2 En) as [e ->]. cbn. destruct (bool_decide (gdim g ≠ e)) eqn:Ed; [by right|].
      apply bool_decide_eq_false, dec_stable in Ed. subst. by left.
    - left. done. }
  destruct H2 as [[H2 ->] | ->]; cbn [obind]; [|by left].
  destruct (subDomains r !! id); cbn; [by left|]. rewrite E. by right.
Qed.

Lemma c94_domain_lemma k h c g id x : gshape g = Throw x →
  let b := grun k h in let '(b', o) := gstep k b (GAddSubDomain c g id) in
  (o = Throw x ∨ o = Throw RuntimeError) ∧ same_content b' b ∧
  networks (reg b') = networks (reg b) ∧ entityDim (reg b') = entityDim (reg b) ∧
  (subDomains (reg b) ≠ ∅ → b' = b).
Proof.
  intros E b. pose proof (inv_run k h) as I. fold b in I. clearbody b. destruct b as [r sc bu ne].
  cbn [PyNetModel.gstep with_reg reg]. cbn in I. unfold same_content. cbn [reg scr built net].
  pose proof (geo_domain_fails c g id r x I E) as F. destruct (geo_domain gdim gshape c g id r) as [r' o].
  destruct F as [[-> ->]|(-> & -> & F1)]; cbn; [by auto 20|].
  repeat match goal with |- _ ∧ _ => split end; auto.
  intros Hne. destruct r as [sd bd nw dd ed cu]. cbn in *. by rewrite F1.
Qed.

Lemma geo_entity_fails g id r x : inv r → gshape g = Throw x →
  let '(r', o) := geo_entity gdim gshape g id r in
  (r' = r ∧ o = Throw RuntimeError) ∨
  (r' = mkReg (subDomains r) (bounds r) (<[id := entry (networks r) id]> (networks r)) (domainDim r) (Some (gdim g)) (confineUnion r)
   ∧ o = Throw x ∧ (networks r ≠ ∅ → entityDim r = Some (gdim g)) ∧ (subDomains r ≠ ∅ → ∃ d, domainDim r = Some d ∧ (gdim g < d)%Z)).
Proof.
  intros [I1 I2] E. unfold geo_entity. cbv zeta.
  destruct (bool_decide (networks r ≠ ∅)) eqn:En;
    [apply bool_decide_eq_true in En; destruct (I1 En) as [e He]; rewrite He; cbn [with_dim];
     destruct (bool_decide (gdim g ≠ e)) eqn:Ee; cbn [obind]; [by left|]; apply bool_decide_eq_false, dec_stable in Ee; subst e
    |apply bool_decide_eq_false in En; cbn [obind]];
    (destruct (bool_decide (subDomains r ≠ ∅)) eqn:Es;
     [apply bool_decide_eq_true in Es; destruct (I2 Es) as [d Hd]; rewrite Hd; cbn [with_dim];
      destruct (bool_decide (d ≤ gdim g)%Z) eqn:Ed; [by left|]; apply bool_decide_eq_false in Ed
     |apply bool_decide_eq_false in Es]); rewrite E; right; rewrite app_nil_r; repeat match goal with |- _ ∧ _ => split end;
    try done; intros ?; try done; try (eexists; split; [done|lia]).
Qed.

Lemma c94_entity_lemma k h g id x : gshape g = Throw x →
  let b := grun k h in let '(b', o) := gstep k b (GAddEntities [g] id) in
  (o = Throw x ∨ o = Throw RuntimeError) ∧ same_content b' b ∧
  domainDim (reg b') = domainDim (reg b) ∧ (entry (networks (reg b)) id ≠ [] → b' = b).
Proof.
  intros E b. pose proof (inv_run k h) as I. fold b in I. clearbody b. destruct b as [r sc bu ne].
  cbn [PyNetModel.gstep with_reg geo_entities reg]. cbn in I. unfold same_content. cbn [reg scr built net].
  pose proof (geo_entity_fails g id r x I E) as F. destruct (geo_entity gdim gshape g id r) as [r' o].
  destruct F as [[-> ->]|(-> & -> & F1 & F2)]; cbn; [by auto 20|].
  repeat match goal with |- _ ∧ _ => split end; auto.
  - intros i. unfold entry. destruct (decide (i = id)) as [->|Hne]; [by rewrite lookup_insert|by rewrite lookup_insert_ne].
  - intros Hne. destruct r as [sd bd nw dd ed cu]. cbn in *. unfold entry in *. destruct (nw !! id) as [l|] eqn:El; [|done].
    cbn in *. rewrite insert_id by done. f_equal. f_equal. rewrite F1; [done|]. intros ->. by rewrite lookup_empty in El.
Qed.

Lemma c94_leftover_lemma k g x id : gshape g = Throw x →
  let b := grun k [GAddEntities [g] id] in
  (gstep k b_init (GAddEntities [g] id)).2 = Throw x ∧ same_content b b_init ∧
  (∀ g' s id', gshape g' = Ok s → gdim g' ≠ gdim g →
     (gstep k b_init (GAddEntities [g'] id')).2 = Ok None ∧ (gstep k b (GAddEntities [g'] id')).2 = Throw RuntimeError) ∧
  (∀ c g' s id', gshape g' = Ok s → (gdim g' ≤ gdim g)%Z →
     (gstep k b_init (GAddSubDomain c g' id')).2 = Ok None ∧ (gstep k b (GAddSubDomain c g' id')).2 = Throw RuntimeError).
Proof.
  intros E b. assert (Hb : b = mkB (mkReg ∅ ∅ {[id := []]} None (Some (gdim g)) true) (mkScr None None ∅ ∅ ∅) false None).
  { unfold b, PyNetModel.grun. cbn. unfold geo_entity. cbn. rewrite E. cbn. done. }
  clearbody b. subst b.
  assert (Hne : bool_decide ({[id := []]} ≠ (∅ : gmap N (list S))) = true).
  { apply bool_decide_eq_true. intros Q. apply (f_equal (.!! id)) in Q. by rewrite lookup_singleton in Q. }
  split; [|split; [|split]].
  - cbn. unfold geo_entity. cbn. by rewrite E.
  - unfold same_content. cbn. split; [done|]. split; [done|]. split; [|done]. intros i. unfold entry. destruct (decide (i = id)) as [->|Hn]; [by rewrite lookup_singleton|by rewrite lookup_singleton_ne].
  - intros g' s id' E' Hd. cbn. unfold geo_entity. cbn [networks subDomains reg b_init reg_init entityDim]. rewrite Hne. cbn.
    rewrite E'. cbn. split; [done|]. by rewrite bool_decide_eq_true_2 by done.
  - intros c g' s id' E' Hd. cbn. unfold geo_domain. cbn [networks subDomains reg b_init reg_init entityDim]. rewrite Hne. cbn.
    rewrite E'. cbn. split; [done|]. by rewrite bool_decide_eq_true_2 by done.
Qed.

Lemma confine_stuck r id ids c u c' : id ∈ ids →
  (∀ c u c', confine_one key kernel ord r id c ≠ (Ok u, c')) →
  confine_loop key kernel ord r ids c ≠ (Ok u, c').
Proof.
  intros Hin Hs. revert c. induction ids as [|i ids IH]; intros c; [by apply elem_of_nil in Hin|].
  cbn [confine_loop]. apply elem_of_cons in Hin as [<-|Hin].
  - destruct (confine_one key kernel ord r id c) as [[[]| | |] c1] eqn:E1; try done. by apply Hs in E1.
  - destruct (confine_one key kernel ord r i c) as [[| | |] c1]; try done. by apply IH.
Qed.

Lemma c94_build_lemma (Hord : ∀ i l, ord i l ≡ₚ l) k h g g' s id sd x :
  let b := grun k h in let b' := (gstep k b (GAddEntities [g] id)).1 in
  (∀ e t, common kernel e [] t = None) →
  gshape g = Throw x → gshape g' = Ok s → gdim g' = gdim g → (gstep k b (GAddEntities [g'] id)).2 = Ok None →
  subDomains (reg b) !! id = Some sd → bounds (reg b) !! id = Some true → entry (networks (reg b)) id = [] →
  ∀ n, (gstep k b' GBuild).2 ≠ Ok n.
Proof.
  intros b b' Hc E E' Hd Hok Hsd Hbd Hen n. pose proof (inv_run k h) as I. fold b in I.
  assert (Hb : subDomains (reg b') !! id = Some sd ∧ bounds (reg b') !! id = Some true ∧ networks (reg b') !! id = Some []).
  { unfold b'. clear b'. clearbody b. destruct b as [r sc bu ne]. cbn [PyNetModel.gstep with_reg geo_entities reg fst snd] in *.
    pose proof (geo_entity_fails g id r x I E) as F.
    assert (En : ∃ r2, geo_entity gdim gshape g id r = (r2, Throw x) ∧ networks r2 = <[id := entry (networks r) id]> (networks r) ∧ subDomains r2 = subDomains r ∧ bounds r2 = bounds r).
    { unfold geo_entity in *. cbv zeta in *. rewrite Hd in Hok. rewrite E, E' in *.
      match type of Hok with context [obind ?p ?q] => destruct (obind p q) as [[]|y| |] end; cbn in Hok; try done.
      eexists. split; [done|]. cbn. by rewrite app_nil_r. }
    destruct En as (r2 & -> & H1 & H2 & H3). cbn. rewrite H1, H2, H3, Hen, lookup_insert. auto. }
  clearbody b'. destruct Hb as (B1 & B2 & B3). cbn [PyNetModel.gstep bstep].
  unfold build. destruct (confine key kernel ord (reg b') (initial key (reg b') (tol (scr b')))) as [[u| | |] c1] eqn:Ec; try done.
  exfalso. revert Ec. unfold confine. apply (confine_stuck _ id).
  - unfold ids_in. rewrite Hord. apply elem_of_list_fmap. exists (id, []). split; [done|]. by apply elem_of_map_to_list.
  - intros c u' c'. unfold confine_one. rewrite B1, B2. unfold entry. rewrite B3. cbn.
    destruct (get_eps kernel ord (reg b') c) as [e c2]. by rewrite Hc.
Qed.
End Failing.

Section Py.
Context {A S K : Type} `{Num A} `{EqDecision S} `{Countable K} (key : S → K).
Variable kernel : BuilderModel.occ S A.
Variable ord : nat → list N → list N.
Variable oc_shape : geo A S → outcome S.
Notation py_step := (py_step key kernel ord oc_shape).
Notation py_run := (py_run key kernel ord oc_shape).
Notation gstep := (gstep key kernel ord geo_dim (geo_shape oc_shape)).
Notation grun := (grun key kernel ord geo_dim (geo_shape oc_shape)).

Lemma entity_arg (v : bval A S) g : geo_arg entity_classes v = Some g ↔ v = BGeo g ∧ is_entity g.
Proof.
  destruct v as [g'| | | | | |]; cbn [geo_arg]; try (split; [done|by intros [? _]]).
  destruct g' as [| | | | | | | | | | | | | | | | | | | | | | | |w s]; try destruct w; cbn;
    (split; [intros Q; first [discriminate Q|injection Q as <-; by split]|intros [[= <-] F]; first [done|destruct F]]).
Qed.
Lemma domain_arg (v : bval A S) g : geo_arg domain_classes v = Some g ↔ v = BGeo g ∧ is_domain g.
Proof.
  destruct v as [g'| | | | | |]; cbn [geo_arg]; try (split; [done|by intros [? _]]).
  destruct g' as [| | | | | | | | | | | | | | | | | | | | | | | |w s]; try destruct w; cbn;
    (split; [intros Q; first [discriminate Q|injection Q as <-; by split]|intros [[= <-] F]; first [done|destruct F]]).
Qed.

Lemma with_reg_id (b : builder S K A) : with_reg b (reg b, Ok tt) = (b, Ok None).
Proof. by destruct b. Qed.
Lemma gstep_cons k b g gs id :
  gstep k b (GAddEntities (g :: gs) id) =
  match gstep k b (GAddEntities [g] id) with
  | (b', Ok _) => gstep k b' (GAddEntities gs id)
  | r => r
  end.
Proof.
  cbn [PyNetModel.gstep geo_entities]. destruct (geo_entity geo_dim (geo_shape oc_shape) g id (reg b)) as [r' [u|x| |]]; cbn; done.
Qed.
Lemma py_entity_ok k b g id : is_entity g →
  py_entity key kernel ord oc_shape k b (BGeo g) (BId id) =
  let '(b', r) := gstep k b (GAddEntities [g] id) in (b', Returns r).
Proof. intros Hg. unfold py_entity. by rewrite (proj2 (entity_arg (BGeo g) g) (conj eq_refl Hg)). Qed.
Lemma py_entities_ok k b gs id : Forall is_entity gs →
  py_entities key kernel ord oc_shape k b (BGeo <$> gs) (BId id) =
  let '(b', r) := gstep k b (GAddEntities gs id) in (b', Returns r).
Proof.
  intros Hgs. revert b. induction Hgs as [|g gs Hg Hgs IH]; intros b.
  - cbn [fmap list_fmap py_entities PyNetModel.gstep geo_entities]. by rewrite with_reg_id.
  - rewrite gstep_cons. cbn [fmap list_fmap py_entities]. rewrite py_entity_ok by done.
    destruct (gstep k b (GAddEntities [g] id)) as [b' [u|x| |]]; [apply IH|done..].
Qed.
Lemma py_domain_ok k b c g id : is_domain g →
  py_domain key kernel ord oc_shape k b c (BGeo g) (BId id) =
  let '(b', r) := gstep k b (GAddSubDomain c g id) in (b', Returns r).
Proof. intros Hg. unfold py_domain. by rewrite (proj2 (domain_arg (BGeo g) g) (conj eq_refl Hg)). Qed.

Lemma c95_adders_lemma k b m args o : adder m args o ∨ (k = Plain ∧ plain_adder m args o) →
  py_step k b m args = let '(b', r) := gstep k b o in (b', Returns r).
Proof.
  intros [Ha|[-> Ha]]; destruct Ha; cbn [PyNetModel.py_step];
    first [by apply py_entity_ok|by apply py_entities_ok|by apply py_domain_ok].
Qed.
Lemma c95_type_error_lemma k b m args :
  m = MAddSubDomainEntity ∨ m = MAddSubDomain ∨ m = MAddConfiningSubDomain ∨ (m = MAddEntity ∧ k = Plain) →
  (∀ o, ¬ adder (num := A) m args o ∧ ¬ plain_adder (num := A) m args o) →
  py_step k b m args = (b, Returns (Throw TypeError)).
Proof.
  intros Hm Hn. destruct Hm as [->|[->|[->|[-> ->]]]]; cbn [PyNetModel.py_step].
  - destruct args as [|e [|i [|]]]; try done. unfold py_entity. destruct (geo_arg entity_classes e) as [g|] eqn:Eg; [|done].
    destruct i as [|id| | | | |]; cbn; try done. apply entity_arg in Eg as [-> Hg]. exfalso. eapply (proj1 (Hn _)). by constructor.
  - destruct args as [|e [|i [|]]]; try done. unfold py_domain. destruct (geo_arg domain_classes e) as [g|] eqn:Eg; [|done].
    destruct i as [|id| | | | |]; cbn; try done. apply domain_arg in Eg as [-> Hg]. exfalso. eapply (proj1 (Hn _)). by constructor.
  - destruct args as [|e [|i [|]]]; try done. unfold py_domain. destruct (geo_arg domain_classes e) as [g|] eqn:Eg; [|done].
    destruct i as [|id| | | | |]; cbn; try done. apply domain_arg in Eg as [-> Hg]. exfalso. eapply (proj1 (Hn _)). by constructor.
  - destruct args as [|e [|]]; try done. unfold py_entity. destruct (geo_arg entity_classes e) as [g|] eqn:Eg; [|done].
    apply entity_arg in Eg as [-> Hg]. exfalso. eapply (proj2 (Hn _)). by constructor.
Qed.
Lemma py_entities_app k b es v rest i b' :
  py_entities key kernel ord oc_shape k b es i = (b', Returns (Ok None)) →
  py_entities key kernel ord oc_shape k b (es ++ v :: rest) i =
  py_entities key kernel ord oc_shape k b' (v :: rest) i.
Proof.
  revert b. induction es as [|e es IH]; intros b E; cbn [app]; [cbn in E; by injection E as ->|].
  cbn [py_entities] in E |- *. destruct (py_entity key kernel ord oc_shape k b e i) as [b1 [|[u|x| |]]]; try done.
  by rewrite (IH b1).
Qed.
Lemma c95_list_lemma k b gs v rest id :
  Forall is_entity gs → (∀ g, is_entity g → v ≠ BGeo g) → (gstep k b (GAddEntities gs id)).2 = Ok None →
  py_step k b MAddSubDomainEntities [BList ((BGeo <$> gs) ++ v :: rest); BId id] =
  ((gstep k b (GAddEntities gs id)).1, Returns (Throw TypeError)).
Proof.
  intros Hgs Hv Hok. cbn [PyNetModel.py_step]. rewrite (py_entities_app _ _ _ _ _ _ (gstep k b (GAddEntities gs id)).1).
  - cbn [py_entities]. unfold py_entity. destruct (geo_arg entity_classes v) as [g|] eqn:Eg; [|done].
    apply entity_arg in Eg as [-> Hg]. by destruct (Hv g Hg).
  - rewrite py_entities_ok by done. destruct (gstep k b (GAddEntities gs id)) as [b' r]. cbn in *. by rewrite Hok.
Qed.

(** every call of a program is a sequence of C++ calls *)
Lemma py_entities_calls k b es i : ∃ h, Forall python_call h ∧
  (py_entities key kernel ord oc_shape k b es i).1 = fold_left (λ b o, (gstep k b o).1) h b.
Proof.
  revert b. induction es as [|e es IH]; intros b; [by exists []|]. cbn [py_entities].
  unfold py_entity. destruct (geo_arg entity_classes e) as [g|] eqn:Eg; [|by exists []].
  destruct (id_arg i) as [id|]; [|by exists []]. apply entity_arg in Eg as [_ Hg].
  cbn [cpp]. destruct (gstep k b (GAddEntities [g] id)) as [b' r] eqn:Es.
  destruct r as [u|x| |].
  - destruct (IH b') as (h & Hh & E). exists (GAddEntities [g] id :: h). split; [constructor; [by repeat constructor|done]|].
    cbn [fold_left]. by rewrite Es.
  - exists [GAddEntities [g] id]. split; [by repeat constructor|]. cbn [fold_left]. by rewrite Es.
  - exists [GAddEntities [g] id]. split; [by repeat constructor|]. cbn [fold_left]. by rewrite Es.
  - exists [GAddEntities [g] id]. split; [by repeat constructor|]. cbn [fold_left]. by rewrite Es.
Qed.
Lemma cpp_calls k b o : (∀ o', o = Some o' → python_call o') → ∃ h, Forall python_call h ∧
  (cpp key kernel ord oc_shape k b o).1 = fold_left (λ b o, (gstep k b o).1) h b.
Proof.
  intros Ho. destruct o as [o|]; [|by exists []]. exists [o]. split; [constructor; [by apply Ho|done]|].
  cbn. by destruct (gstep k b o).
Qed.
Lemma py_step_calls k b m args : ∃ h, Forall python_call h ∧
  (py_step k b m args).1 = fold_left (λ b o, (gstep k b o).1) h b.
Proof.
  assert (Ht : ∃ h, Forall python_call h ∧ b = fold_left (λ b o, (gstep k b o).1) h b) by by exists [].
  assert (He : ∀ e i, ∃ h, Forall python_call h ∧ (py_entity key kernel ord oc_shape k b e i).1 = fold_left (λ b o, (gstep k b o).1) h b).
  { intros e i. apply cpp_calls. intros o'. destruct (geo_arg entity_classes e) as [g|] eqn:Eg; [|done].
    destruct (id_arg i); [|done]. intros [= <-]. apply entity_arg in Eg as [_ ?]. by repeat constructor. }
  assert (Hd : ∀ c e i, ∃ h, Forall python_call h ∧ (py_domain key kernel ord oc_shape k b c e i).1 = fold_left (λ b o, (gstep k b o).1) h b).
  { intros c e i. apply cpp_calls. intros o'. destruct (geo_arg domain_classes e) as [g|] eqn:Eg; [|done].
    destruct (id_arg i); [|done]. intros [= <-]. by apply domain_arg in Eg as [_ ?]. }
  destruct m; cbn [PyNetModel.py_step]; try exact Ht.
  - destruct k; [|exact Ht]. destruct args as [|e [|]]; try exact Ht. apply He.
  - destruct k; [|exact Ht]. destruct args as [|[] [|]]; try exact Ht. apply py_entities_calls.
  - destruct args as [|e [|i [|]]]; try exact Ht. apply He.
  - destruct args as [|[] [|i [|]]]; try exact Ht. apply py_entities_calls.
  - destruct args as [|e [|i [|]]]; try exact Ht. apply Hd.
  - destruct args as [|e [|i [|]]]; try exact Ht. apply Hd.
  - destruct args as [|e [|]]; try exact Ht. apply cpp_calls. intros o'. destruct (bool_arg e); [|done]. by intros [= <-].
  - destruct args as [|e [|]]; try exact Ht. apply cpp_calls. intros o'. destruct (num_arg e); [|done]. by intros [= <-].
  - destruct args; [|exact Ht]. apply cpp_calls. by intros o' [= <-].
  - destruct args; [|exact Ht]. apply cpp_calls. by intros o' [= <-].
  - destruct args; [|exact Ht]. apply cpp_calls. by intros o' [= <-].
Qed.
Lemma c95_history_lemma k p : ∃ h, Forall python_call h ∧ py_run k p = grun k h.
Proof.
  unfold PyNetModel.py_run, PyNetModel.grun. generalize (b_init : builder S K A). induction p as [|[m args] p IH]; intros b; [by exists []|].
  cbn [fold_left fst snd]. destruct (py_step_calls k b m args) as (h1 & F1 & ->).
  destruct (IH (fold_left (λ b o, (gstep k b o).1) h1 b)) as (h2 & F2 & ->).
  exists (h1 ++ h2). split; [by apply Forall_app|]. by rewrite fold_left_app.
Qed.

(** the dimensions are 2 and 3 *)
Definition dims (r : registry S) : Prop :=
  (networks r ≠ ∅ → entityDim r = Some 2%Z) ∧ (subDomains r ≠ ∅ → domainDim r = Some 3%Z).
Lemma entity_dim (g : geo A S) : is_entity g → geo_dim g = 2%Z.
Proof. by destruct g as [| | | | | | | | | | | | | | | | | | | | | | | |[]]. Qed.
Lemma domain_dim (g : geo A S) : is_domain g → geo_dim g = 3%Z.
Proof. by destruct g as [| | | | | | | | | | | | | | | | | | | | | | | |[]]. Qed.
Lemma geo_entity_dims g id r : dims r → is_entity g →
  geo_entity geo_dim (geo_shape oc_shape) g id r =
  let nw l := mkReg (subDomains r) (bounds r) (<[id := entry (networks r) id ++ l]> (networks r)) (domainDim r) (Some 2%Z) (confineUnion r) in
  match geo_shape oc_shape g with Ok s => (nw [s], Ok tt) | Throw x => (nw [], Throw x) | UB => (r, UB) | Diverge => (r, Diverge) end.
Proof.
  intros [D1 D2] Hg. unfold geo_entity. rewrite (entity_dim g Hg). cbv zeta.
  destruct (bool_decide (networks r ≠ ∅)) eqn:En; [apply bool_decide_eq_true in En; rewrite (D1 En)|]; cbn [with_dim obind bool_decide];
    (destruct (bool_decide (subDomains r ≠ ∅)) eqn:Es; [apply bool_decide_eq_true in Es; rewrite (D2 Es)|]); cbn; done.
Qed.
Lemma geo_domain_dims c g id r : dims r → is_domain g →
  geo_domain geo_dim (geo_shape oc_shape) c g id r =
  match subDomains r !! id with
  | Some _ => (r, Throw RuntimeError)
  | None =>
    match geo_shape oc_shape g with
    | Ok s => (mkReg (<[id := s]> (subDomains r)) (<[id := c]> (bounds r)) (networks r) (Some 3%Z) (entityDim r) (confineUnion r), Ok tt)
    | Throw x => (mkReg (subDomains r) (bounds r) (networks r) (Some 3%Z) (entityDim r) (confineUnion r), Throw x)
    | UB => (r, UB) | Diverge => (r, Diverge) end
  end.
Proof.
  intros [D1 D2] Hg. unfold geo_domain. rewrite (domain_dim g Hg). cbv zeta.
  destruct (bool_decide (networks r ≠ ∅)) eqn:En; [apply bool_decide_eq_true in En; rewrite (D1 En)|]; cbn [with_dim obind bool_decide];
    (destruct (bool_decide (subDomains r ≠ ∅)) eqn:Es; [apply bool_decide_eq_true in Es; rewrite (D2 Es)|]); cbn; by destruct (subDomains r !! id).
Qed.
Lemma dims_entities gs id r : dims r → Forall is_entity gs → dims (geo_entities geo_dim (geo_shape oc_shape) gs id r).1.
Proof.
  intros Hr Hgs. revert r Hr. induction Hgs as [|g gs Hg Hgs IH]; intros r Hr; [done|]. cbn [geo_entities].
  rewrite geo_entity_dims by done. destruct Hr as [D1 D2]. destruct (geo_shape oc_shape g); cbn; try done; try apply IH; done.
Qed.
Lemma dims_step k b o : dims (reg b) → python_call o → dims (reg (gstep k b o).1).
Proof.
  intros Hr Ho. destruct o; cbn [PyNetModel.gstep with_reg fst reg]; cbn [python_call] in Ho.
  - rewrite geo_domain_dims by done. destruct Hr as [D1 D2]. destruct (subDomains (reg b) !! id); [done|].
    by destruct (geo_shape oc_shape g).
  - by apply dims_entities.
  - done.
  - done.
  - done.
  - cbn [bstep]. pose proof (build_reg key kernel ord k b) as E.
    destruct (build key kernel ord k b) as [b' n]. cbn in *. by rewrite E.
  - cbn. split; cbn; done.
Qed.
Lemma dims_run k p : dims (reg (py_run k p)).
Proof.
  destruct (c95_history_lemma k p) as (h & F & ->). unfold PyNetModel.grun.
  assert (Hi : dims (reg (b_init : builder S K A))) by (split; cbn; done).
  revert Hi. generalize (b_init : builder S K A). induction F as [|o h Ho F IH]; intros b Hb; [done|].
  cbn. apply IH. by apply dims_step.
Qed.
Lemma c95_entities_lemma k p gs ss id : Forall is_entity gs → Forall2 (λ g s, geo_shape oc_shape g = Ok s) gs ss →
  let b := py_run k p in
  let '(b', r) := py_step k b MAddSubDomainEntities [BList (BGeo <$> gs); BId id] in
  r = Returns (Ok None) ∧ subDomains (reg b') = subDomains (reg b) ∧ bounds (reg b') = bounds (reg b) ∧
  ∀ i, entry (networks (reg b')) i = entry (networks (reg b)) i ++ if bool_decide (i = id) then ss else [].
Proof.
  intros Hgs Hs b. rewrite (c95_adders_lemma k b _ _ (GAddEntities gs id)) by (left; by constructor).
  cbn [PyNetModel.gstep]. pose proof (dims_run k p) as D. fold b in D. clearbody b. destruct b as [r sc bu ne]. cbn in D.
  cbn [with_reg reg fst snd scr built net]. revert r D. induction Hs as [|g s gs ss E Es IH]; intros r D.
  - cbn. split; [done|]. split; [done|]. split; [done|]. intros i. destruct (bool_decide _); by rewrite app_nil_r.
  - cbn [geo_entities]. apply Forall_cons in Hgs as [Hg Hgs]. rewrite (geo_entity_dims g id r D Hg), E. cbv zeta.
    assert (D' : dims (mkReg (subDomains r) (bounds r) (<[id := entry (networks r) id ++ [s]]> (networks r)) (domainDim r) (Some 2%Z) (confineUnion r))).
    { destruct D as [D1 D2]. by split. }
    destruct (IH Hgs _ D') as (H1 & H2 & H3 & H4). split; [exact H1|]. cbn [subDomains bounds reg] in H2, H3.
    split; [exact H2|]. split; [exact H3|]. intros i. rewrite H4. cbn [networks reg]. unfold entry.
    destruct (bool_decide (i = id)) eqn:Ei; [apply bool_decide_eq_true in Ei; subst i|apply bool_decide_eq_false in Ei].
    + rewrite lookup_insert. cbn. by rewrite <-app_assoc.
    + by rewrite lookup_insert_ne.
Qed.
Lemma c95_domains_lemma k p (c : bool) g s id : is_domain g → geo_shape oc_shape g = Ok s →
  let b := py_run k p in
  let '(b', r) := py_step k b (if c then MAddConfiningSubDomain else MAddSubDomain) [BGeo g; BId id] in
  match subDomains (reg b) !! id with
  | Some _ => r = Returns (Throw RuntimeError) ∧ b' = b
  | None => r = Returns (Ok None) ∧ networks (reg b') = networks (reg b) ∧
            subDomains (reg b') = <[id := s]> (subDomains (reg b)) ∧ bounds (reg b') = <[id := c]> (bounds (reg b))
  end.
Proof.
  intros Hg E b. rewrite (c95_adders_lemma k b _ _ (GAddSubDomain c g id)) by (left; destruct c; by constructor).
  cbn [PyNetModel.gstep]. pose proof (dims_run k p) as D. fold b in D. clearbody b. destruct b as [r sc bu ne]. cbn in D.
  cbn [with_reg reg]. rewrite (geo_domain_dims c g id r D Hg), E.
  by destruct (subDomains r !! id).
Qed.
Lemma c95_contained_lemma (b : builder S K A) (args : list (bval A S)) :
  py_step Contained b MAddEntity args = (b, NoAttribute) ∧
  py_step Contained b MAddEntities args = (b, NoAttribute) ∧
  (∀ k : kind, py_step k b MNetwork args = (b, NoAttribute) ∧ py_step k b MIsBuilt args = (b, NoAttribute)).
Proof. cbn. destruct args as [|? [|]]; auto. Qed.
End Py.

Section Others.
Context {A S K : Type} `{Num A} `{EqDecision S} `{Countable K} (key : S → K).
Context (kernel : BuilderModel.occ S A) (ord : nat → list N → list N) (oc_shape : geo A S → outcome S).

Lemma truth_iff (v : bval A S) b : truth v b ↔ bool_arg v = Some b.
Proof.
  split.
  - intros T. destruct T; cbn; try done. by rewrite (proj2 (Z.eqb_neq z 0)).
  - destruct v; cbn; intros E; try done; try (injection E as <-; constructor).
    destruct (Z.eqb_spec z 0) as [->|N]; injection E as <-; by constructor.
Qed.
Lemma number_iff (v : bval A S) e : number v e ↔ num_arg v = Some e.
Proof.
  split.
  - intros T. by destruct T.
  - destruct v; cbn; intros E; try done; try (injection E as <-; constructor).
    destruct b; injection E as <-; constructor.
Qed.
Lemma c95_others_lemma k b m args o : other_call m args o →
  py_step key kernel ord oc_shape k b m args =
  let '(b', r) := gstep key kernel ord geo_dim (geo_shape oc_shape) k b o in (b', Returns r).
Proof.
  intros T. destruct T as [v c Hv|v e Hv| | |]; cbn [py_step].
  - apply truth_iff in Hv. by rewrite Hv.
  - apply number_iff in Hv. by rewrite Hv.
  - done.
  - done.
  - done.
Qed.
Lemma c95_others_error_lemma k b m args :
  m = MSetConfineUnion ∨ m = MSetEpsilon ∨ m = MSetDefaultEpsilon ∨ m = MBuild ∨ m = MClear →
  (∀ o, ¬ other_call m args o) →
  py_step key kernel ord oc_shape k b m args = (b, Returns (Throw TypeError)).
Proof.
  intros Hm HN. destruct Hm as [-> | [-> | [-> | [-> | ->]]]]; destruct args as [|v [|w r]]; cbn [py_step]; try done.
  - destruct (bool_arg v) as [c|] eqn:E; [|done]. apply truth_iff in E. destruct (HN (GSetConfineUnion c)). by constructor.
  - destruct (num_arg v) as [c|] eqn:E; [|done]. apply number_iff in E. destruct (HN (GSetEpsilon c)). by constructor.
  - destruct (HN GSetDefaultEpsilon). constructor.
  - destruct (HN GBuild). constructor.
  - destruct (HN GClear). constructor.
Qed.
Lemma c95_shapes_lemma k p s id :
  let b := py_run key kernel ord oc_shape k p in
  let '(b', r) := py_step key kernel ord oc_shape k b MAddSubDomainEntity [BGeo (GWrap WFace s); BId id] in
  r = Returns (Ok None) ∧ ∀ i, entry (networks (reg b')) i = entry (networks (reg b)) i ++ if bool_decide (i = id) then [s] else [].
Proof.
  intros b. pose proof (c95_entities_lemma key kernel ord oc_shape k p [GWrap WFace s] [s] id) as L.
  pose proof (c95_adders_lemma key kernel ord oc_shape k b MAddSubDomainEntity _ _ (or_introl (add_entity_to (GWrap WFace s) id I))) as E1.
  pose proof (c95_adders_lemma key kernel ord oc_shape k b MAddSubDomainEntities _ _ (or_introl (add_entities_to [GWrap WFace s] id ltac:(by repeat constructor)))) as E2.
  cbn [fmap list_fmap] in *. fold b in L. cbn zeta in L. rewrite E2 in L. rewrite E1.
  destruct (gstep _ _ _ _ _ _ _ _) as [b' r]. destruct L as (R & _ & _ & L); [by repeat constructor|by repeat constructor|]. done.
Qed.
End Others.
