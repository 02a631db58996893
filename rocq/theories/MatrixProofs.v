(** Proofs for C16-C19. *)

From stdpp Require Import prelude gmap list.
From Verif Require Import Base StatusModel StatusSpec StatusProofs EntitySetModel EntitySetSpec EntitySetProofs
  ConstraintsModel ConstraintsProofs MatrixModel MatrixSpec.

Section Matrix.
Context {C E : Type} (ev : C → E → E → outcome bool).
Implicit Types (m : matrix C) (l rels : list (relation C)).

Definition rel_list (a : N) rels : list (relation C) := filter (λ r, r_first r = a) rels.

Definition resolve m (il : list (N * nat)) : list (N * option C) :=
  (λ p, (p.1, m_constraints m !! p.2)) <$> il.
Definition as_pairs l : list (N * option C) := (λ r, (r_second r, Some (r_con r))) <$> l.

Record MI m rels : Prop := {
  mi_rel : ∀ a b, b ∈ default [] (m_relations m !! a) ↔ registered a b rels;
  mi_idx : ∀ a, match m_index m !! a with
                | None => rel_list a rels = []
                | Some il => il ≠ [] ∧ resolve m il = as_pairs (rel_list a rels)
                end;
}.

Lemma mi_init : MI m_init [].
Proof.
  split.
  - intros a b. unfold m_init. simpl. rewrite lookup_empty. simpl. unfold registered.
    rewrite Exists_nil. split; [apply not_elem_of_nil|done].
  - intros a. unfold m_init. simpl. by rewrite lookup_empty.
Qed.

Lemma resolve_add_constraint c m il l :
  resolve m il = as_pairs l → resolve (add_constraint c m) il = as_pairs l.
Proof.
  revert l. induction il as [|[b i] il IH]; intros [|r l]; unfold resolve, as_pairs; simpl; try done.
  intros [= -> Hi Hl]. rewrite lookup_app_l by (by eapply lookup_lt_Some). rewrite Hi. f_equal.
  by apply IH.
Qed.

Lemma mi_add_constraint c m rels : MI m rels → MI (add_constraint c m) rels.
Proof.
  intros [H1 H2]. split; [done|]. intros a. specialize (H2 a). simpl.
  destruct (m_index m !! a) as [il|]; [|done]. destruct H2 as [Hn H2]. split; [done|].
  by apply resolve_add_constraint.
Qed.

Lemma rel_list_snoc a r rels :
  rel_list a (rels ++ [r]) = rel_list a rels ++ (if bool_decide (r_first r = a) then [r] else []).
Proof.
  unfold rel_list. rewrite filter_app. f_equal. rewrite filter_cons, filter_nil.
  case_bool_decide; by case_decide.
Qed.

Lemma mi_update m rels a b c :
  MI m rels → last (m_constraints m) = Some c →
  if bool_decide (registered a b rels)
  then update_index_maps (a, b) m = (Throw RuntimeError, m)
  else ∃ m', update_index_maps (a, b) m = (Ok tt, m') ∧ MI m' (rels ++ [mkRel a b c]) ∧
             m_constraints m' = m_constraints m.
Proof.
  intros [H1 H2] Hc. unfold update_index_maps.
  destruct (bool_decide_reflect (registered a b rels)) as [Hr|Hr].
  { rewrite bool_decide_true; [done|]. by apply H1. }
  rewrite bool_decide_false by (by rewrite H1).
  eexists. split; [done|]. split; [|done]. split; simpl.
  - intros a' b'. unfold registered in *. rewrite Exists_app, Exists_cons, Exists_nil. simpl.
    rewrite <- H1. destruct (decide (a' = a)) as [->|Hne].
    + rewrite lookup_insert. simpl. rewrite elem_of_app, elem_of_list_singleton. naive_solver.
    + rewrite lookup_insert_ne by done. naive_solver.
  - intros a'. rewrite rel_list_snoc. simpl.
    destruct (decide (a' = a)) as [->|Hne].
    + rewrite lookup_insert. split; [intros H; by apply app_nil in H as [_ ?]|].
      rewrite bool_decide_true by done. unfold resolve, as_pairs. rewrite !fmap_app. simpl.
      f_equal.
      * specialize (H2 a). destruct (m_index m !! a); simpl; [by destruct H2|by rewrite H2].
      * rewrite last_lookup in Hc.
        replace (length (m_constraints m) - 1) with (pred (length (m_constraints m))) by lia.
        by rewrite Hc.
    + rewrite lookup_insert_ne by done. rewrite bool_decide_false by done. rewrite app_nil_r. apply H2.
Qed.

Lemma mi_update_all ps c : ∀ m rels,
  MI m rels → last (m_constraints m) = Some c →
  ∃ m', update_all ps m = ((if register_fails c ps rels then Throw RuntimeError else Ok tt), m') ∧
        MI m' (register c ps rels).
Proof.
  induction ps as [|[a b] ps IH]; intros m rels HM Hc; cbn [update_all register register_fails].
  { by exists m. }
  pose proof (mi_update m rels a b c HM Hc) as Hu.
  destruct (bool_decide (registered a b rels)).
  - rewrite Hu. by exists m.
  - destruct Hu as (m' & -> & HM' & Hc'). apply IH; [done|]. by rewrite Hc'.
Qed.

Lemma mi_add_constraints c ps m rels :
  MI m rels →
  fst (add_constraints c ps m) = (if register_fails c ps rels then Throw RuntimeError else Ok tt) ∧
  MI (snd (add_constraints c ps m)) (register c ps rels).
Proof.
  intros HM. unfold add_constraints.
  destruct (mi_update_all ps c (add_constraint c m) rels) as (m' & -> & HM').
  - by apply mi_add_constraint.
  - simpl. by rewrite last_snoc.
  - done.
Qed.

Lemma mi_run (h : list (mcall C)) : MI (mrun h) (relations_of h).
Proof.
  induction h as [|[c ps] h IH] using rev_ind; [apply mi_init|].
  unfold mrun, relations_of in *. rewrite !fold_left_app. simpl.
  by apply mi_add_constraints.
Qed.

(** Evaluation in terms of relations. *)
Definition rel_ok (sets : N → option (list E)) (e : E) (r : relation C) : Prop :=
  ∀ es x, sets (r_second r) = Some es → x ∈ es → ev (r_con r) x e = Ok true.

Lemma eval_relations_spec m sets e il l :
  resolve m il = as_pairs l →
  (eval_relations ev m sets e il = Ok true ↔ ∀ r, r ∈ l → rel_ok sets e r).
Proof.
  revert l. induction il as [|[b i] il IH]; intros [|r l]; simpl; try done.
  { intros _. split; [|done]. intros _ r Hr. by apply elem_of_nil in Hr. }
  intros [= -> Hi Hl]. rewrite Hi. specialize (IH l Hl).
  destruct (sets (r_second r)) as [es|] eqn:Es.
  - destruct (all_of (λ x, ev (r_con r) x e) es) as [[]| | |] eqn:Ea; simpl.
    + rewrite IH. split.
      * intros H q Hq. apply elem_of_cons in Hq as [->|Hq]; [|by apply H].
        intros es' x Hes' Hx. rewrite Es in Hes'. injection Hes' as <-.
        rewrite all_of_true in Ea. by apply Ea.
      * intros H q Hq. apply H. by right.
    + split; [done|]. intros H. assert (Hr := H r (elem_of_list_here _ _)).
      assert (all_of (λ x, ev (r_con r) x e) es = Ok true); [|congruence].
      apply all_of_true. intros x Hx. by eapply Hr.
    + split; [done|]. intros H. assert (Hr := H r (elem_of_list_here _ _)).
      assert (all_of (λ x, ev (r_con r) x e) es = Ok true); [|congruence].
      apply all_of_true. intros x Hx. by eapply Hr.
    + split; [done|]. intros H. assert (Hr := H r (elem_of_list_here _ _)).
      assert (all_of (λ x, ev (r_con r) x e) es = Ok true); [|congruence].
      apply all_of_true. intros x Hx. by eapply Hr.
    + split; [done|]. intros H. assert (Hr := H r (elem_of_list_here _ _)).
      assert (all_of (λ x, ev (r_con r) x e) es = Ok true); [|congruence].
      apply all_of_true. intros x Hx. by eapply Hr.
  - rewrite IH. split.
    + intros H q Hq. apply elem_of_cons in Hq as [->|Hq]; [|by apply H].
      intros es' x Hes'. congruence.
    + intros H q Hq. apply H. by right.
Qed.

Lemma eval_relations_total m sets e il l :
  resolve m il = as_pairs l →
  (∀ r es x, r ∈ l → sets (r_second r) = Some es → x ∈ es → ∃ b, ev (r_con r) x e = Ok b) →
  ∃ b, eval_relations ev m sets e il = Ok b.
Proof.
  revert l. induction il as [|[b i] il IH]; intros [|r l]; simpl; try done.
  { intros _ _. by exists true. }
  intros [= -> Hi Hl] Htot. rewrite Hi.
  destruct (IH l Hl) as [b' Hb'].
  { intros q es x Hq. apply Htot. by right. }
  destruct (sets (r_second r)) as [es|] eqn:Es; [|by exists b'].
  destruct (all_of_total (λ x, ev (r_con r) x e) es) as [bb Hbb].
  { intros x Hx. eapply Htot; [by left|done|done]. }
  rewrite Hbb. simpl. destruct bb; [by exists b'|by exists false].
Qed.

Lemma rel_list_elem a r rels : r ∈ rel_list a rels ↔ r ∈ rels ∧ r_first r = a.
Proof. unfold rel_list. rewrite elem_of_list_filter. naive_solver. Qed.

Lemma mi_evaluate m rels sets e id :
  MI m rels →
  (m_evaluate ev m sets e id = Ok true ↔
   (∃ r, r ∈ rels ∧ r_first r = id) ∧
   ∀ r, r ∈ rels → r_first r = id → rel_ok sets e r).
Proof.
  intros [_ H2]. specialize (H2 id). unfold m_evaluate.
  destruct (m_index m !! id) as [il|].
  - destruct H2 as [Hne H2]. rewrite (eval_relations_spec m sets e il _ H2). split.
    + intros H. split.
      * destruct (rel_list id rels) as [|r l] eqn:El.
        { destruct il; [by destruct Hne|done]. }
        exists r. apply rel_list_elem. rewrite El. left.
      * intros r Hr Hf. apply H. by apply rel_list_elem.
    + intros [_ H] r Hr. apply rel_list_elem in Hr as [??]. by apply H.
  - split; [done|]. intros [(r & Hr & Hf) _].
    assert (r ∈ rel_list id rels) by (by apply rel_list_elem). rewrite H2 in H. by apply elem_of_nil in H.
Qed.

Lemma mi_evaluate_false m rels sets e id :
  MI m rels →
  (∀ r es x, r ∈ rels → r_first r = id → sets (r_second r) = Some es → x ∈ es →
             ∃ b, ev (r_con r) x e = Ok b) →
  (m_evaluate ev m sets e id = Ok false ↔
   ∃ r es x, r ∈ rels ∧ r_first r = id ∧ sets (r_second r) = Some es ∧ x ∈ es ∧
             ev (r_con r) x e = Ok false).
Proof.
  intros [_ H2] Htot. specialize (H2 id). unfold m_evaluate.
  destruct (m_index m !! id) as [il|].
  - destruct H2 as [Hne H2]. split.
    + intros H.
      assert (∀ l, resolve m il = as_pairs l → (∀ r, r ∈ l → r ∈ rels ∧ r_first r = id) →
         ∃ r es x, r ∈ rels ∧ r_first r = id ∧ sets (r_second r) = Some es ∧ x ∈ es ∧
             ev (r_con r) x e = Ok false) as Hg; [|eapply (Hg _ H2); intros r; by rewrite rel_list_elem].
      clear H2 Hne. revert H. induction il as [|[b i] il IH]; intros H [|r l]; simpl; try done.
      intros [= -> Hi Hl] Hin. simpl in H. rewrite Hi in H.
      assert (Hin' : ∀ q, q ∈ l → q ∈ rels ∧ r_first q = id) by (intros q Hq; apply Hin; by right).
      destruct (sets (r_second r)) as [es|] eqn:Es; [|by eapply IH].
      destruct (all_of (λ x, ev (r_con r) x e) es) as [[]| | |] eqn:Ea; simpl in H; try done.
      * by eapply IH.
      * apply all_of_false in Ea as (l1 & x & l2 & -> & Hx & _).
        destruct (Hin r) as [Hr Hf]; [by left|].
        exists r, (l1 ++ x :: l2), x. repeat split; try done. apply elem_of_app. right. left.
    + intros (r & es & x & Hr & Hf & Hs & Hx & Hev).
      destruct (eval_relations_total m sets e il _ H2) as [[] Hb]; [| |done].
      { intros q es' y Hq. apply rel_list_elem in Hq as [??]. by apply Htot. }
      rewrite (eval_relations_spec m sets e il _ H2) in Hb.
      assert (rel_ok sets e r) as Hok by (apply Hb; by apply rel_list_elem).
      rewrite (Hok es x) in Hev; done.
  - split; [done|]. intros (r & es & x & Hr & Hf & _).
    assert (r ∈ rel_list id rels) by (by apply rel_list_elem). rewrite H2 in H. by apply elem_of_nil in H.
Qed.

Lemma mi_evaluate_throw m rels sets e id :
  MI m rels → (∀ r, r ∈ rels → r_first r ≠ id) → m_evaluate ev m sets e id = Throw RuntimeError.
Proof.
  intros [_ H2] Hno. specialize (H2 id). unfold m_evaluate.
  destruct (m_index m !! id) as [il|]; [|done]. destruct H2 as [Hne H2]. exfalso.
  destruct (rel_list id rels) as [|r l] eqn:El; [by destruct il|].
  assert (r ∈ rel_list id rels) as Hr by (rewrite El; left). apply rel_list_elem in Hr as [??].
  by eapply Hno.
Qed.

(** C16 *)
Lemma c16_true_lemma h sets e id :
  m_evaluate ev (mrun h) sets e id = Ok true ↔
  (∃ r, r ∈ relations_of h ∧ r_first r = id) ∧
  ∀ r es x, r ∈ relations_of h → r_first r = id → sets (r_second r) = Some es → x ∈ es →
            ev (r_con r) x e = Ok true.
Proof.
  rewrite (mi_evaluate (mrun h) (relations_of h)) by apply mi_run. unfold rel_ok. naive_solver.
Qed.
Lemma c16_false_lemma h sets e id :
  (∀ r es x, r ∈ relations_of h → r_first r = id → sets (r_second r) = Some es → x ∈ es →
             ∃ b, ev (r_con r) x e = Ok b) →
  (m_evaluate ev (mrun h) sets e id = Ok false ↔
   ∃ r es x, r ∈ relations_of h ∧ r_first r = id ∧ sets (r_second r) = Some es ∧ x ∈ es ∧
             ev (r_con r) x e = Ok false).
Proof. apply mi_evaluate_false, mi_run. Qed.
Lemma c16_throw_lemma h sets e id :
  (∀ c x y, ev c x y ≠ Throw RuntimeError) →
  (m_evaluate ev (mrun h) sets e id = Throw RuntimeError ↔
   ¬ ∃ r, r ∈ relations_of h ∧ r_first r = id).
Proof.
  intros Hev. split.
  - intros H (r & Hr & Hf).
    pose proof (mi_run h) as [_ H2]. specialize (H2 id). unfold m_evaluate in H.
    destruct (m_index (mrun h) !! id) as [il|].
    + destruct H2 as [_ H2]. clear Hr Hf. revert H H2. generalize (rel_list id (relations_of h)).
      induction il as [|[b i] il IH]; intros [|q l]; simpl; try done.
      intros H [= -> Hi Hl]. rewrite Hi in H.
      destruct (sets (r_second q)) as [es|]; [|by eapply IH].
      destruct (all_of (λ x, ev (r_con q) x e) es) as [[]|ex| |] eqn:Ea; simpl in H; try done.
      * by eapply IH.
      * injection H as ->. clear -Hev Ea. revert Ea.
        induction es as [|x es IHe]; simpl; [done|].
        destruct (ev (r_con q) x e) as [[]|ex| |] eqn:E1; simpl; try done.
        intros [= ->]. by eapply Hev.
    + assert (r ∈ rel_list id (relations_of h)) by (by apply rel_list_elem).
      rewrite H2 in H0. by apply elem_of_nil in H0.
  - intros Hno. eapply mi_evaluate_throw; [apply mi_run|]. intros r Hr Hf. apply Hno. eauto.
Qed.

(** C17 *)
Lemma register_single_fails (c : C) p l :
  register_fails c [p] l = true → register c [p] l = l.
Proof. destruct p as [a b]. simpl. by case_bool_decide. Qed.

Lemma c17_outcome_lemma (h : list (mcall C)) c ps :
  fst (add_constraints c ps (mrun h)) =
  (if register_fails c ps (relations_of h) then Throw RuntimeError else Ok tt).
Proof. apply mi_add_constraints, mi_run. Qed.

Lemma relations_of_app (h h' : list (mcall C)) :
  relations_of (h ++ h') = fold_left (λ l o, register o.1 o.2 l) h' (relations_of h).
Proof. unfold relations_of. by rewrite fold_left_app. Qed.

Lemma c17_single_lemma (h : list (mcall C)) c p :
  fst (add_constraints c [p] (mrun h)) = Throw RuntimeError →
  relations_of (h ++ [(c, [p])]) = relations_of h.
Proof.
  rewrite c17_outcome_lemma. destruct (register_fails c [p] (relations_of h)) eqn:Ef; [|done]. intros _.
  unfold relations_of. rewrite fold_left_app. cbn [fold_left fst snd]. by apply register_single_fails.
Qed.

Lemma eval_relations_ext m1 m2 sets e il1 il2 :
  resolve m1 il1 = resolve m2 il2 →
  eval_relations ev m1 sets e il1 = eval_relations ev m2 sets e il2.
Proof.
  revert il2. induction il1 as [|[b i] il1 IH]; intros [|[b' i'] il2]; simpl; try done.
  intros [= -> -> Hl]. rewrite (IH il2 Hl). done.
Qed.

(** Matrices with the same registered relations cannot be told apart. *)
Lemma mi_evaluate_ext m1 m2 rels sets e id :
  MI m1 rels → MI m2 rels → m_evaluate ev m1 sets e id = m_evaluate ev m2 sets e id.
Proof.
  intros [_ H1] [_ H2]. specialize (H1 id). specialize (H2 id). unfold m_evaluate.
  destruct (m_index m1 !! id) as [il1|], (m_index m2 !! id) as [il2|]; try done.
  - destruct H1 as [_ H1], H2 as [_ H2]. apply eval_relations_ext. congruence.
  - destruct H1 as [Hn H1]. rewrite H2 in H1. by destruct il1.
  - destruct H2 as [Hn H2]. rewrite H1 in H2. by destruct il2.
Qed.

Lemma c17_relations_lemma (h : list (mcall C)) c p :
  fst (add_constraints c [p] (mrun h)) = Throw RuntimeError →
  ∀ h', relations_of (h ++ [(c, [p])] ++ h') = relations_of (h ++ h').
Proof.
  intros Hf h'. rewrite (app_assoc h). rewrite relations_of_app, (relations_of_app h h').
  by rewrite c17_single_lemma.
Qed.

Lemma c17_lemma (h : list (mcall C)) c p :
  fst (add_constraints c [p] (mrun h)) = Throw RuntimeError →
  ∀ h' sets e id,
    m_evaluate ev (mrun (h ++ [(c, [p])] ++ h')) sets e id = m_evaluate ev (mrun (h ++ h')) sets e id.
Proof.
  intros Hf h' sets e id. eapply mi_evaluate_ext; [|apply mi_run].
  rewrite <- (c17_relations_lemma h c p Hf h'). apply mi_run.
Qed.
Lemma c17_outcomes_lemma (h : list (mcall C)) c p :
  fst (add_constraints c [p] (mrun h)) = Throw RuntimeError →
  ∀ h' c' ps,
    fst (add_constraints c' ps (mrun (h ++ [(c, [p])] ++ h'))) =
    fst (add_constraints c' ps (mrun (h ++ h'))).
Proof.
  intros Hf h' c' ps. rewrite !c17_outcome_lemma.
  by rewrite (c17_relations_lemma h c p Hf h').
Qed.

End Matrix.
