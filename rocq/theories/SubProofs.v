(** Proofs about sub-shapes and compounds *)

From stdpp Require Import prelude gmap list sorting.
From Verif Require Import Base SubModel SubSpec.

Section Proofs.
Context {V : Type}.
Implicit Types (h : heap V) (s t : shape V) (st : state V) (nd : node V).

Lemma fits_level c p : fits c p = true → p = Compound ∨ level p < level c.
Proof. destruct c, p; simpl; intros; first [by left | right; lia | done]. Qed.

(** the invariant of the heap *)
Definition kids_ok h : Prop :=
  ∀ n nd kid, h !! n = Some nd → kid ∈ n_kids nd →
    ∃ nd', h !! s_node kid = Some nd' ∧ n_free nd' = false ∧ fits (n_kind nd') (n_kind nd) = true.
Definition ranked h (rk : positive → nat) : Prop :=
  ∀ n nd kid, h !! n = Some nd → kid ∈ n_kids nd → rk (s_node kid) < rk n.
Definition good h : Prop := kids_ok h ∧ ∃ rk, ranked h rk.

(** ** the explorer *)
Lemma inside_assoc s kid kid' : inside (inside s kid) kid' = inside s (inside kid kid').
Proof. unfold inside; simpl. f_equal; [by rewrite app_assoc | by rewrite xorb_assoc]. Qed.

(** number of nodes of lower rank *)
Definition below h (rk : positive → nat) (n : positive) : nat :=
  size (filter (λ m, rk m < rk n) (dom h : gset positive)).
Lemma below_lt h rk n nd kid :
  ranked h rk → h !! n = Some nd → kid ∈ n_kids nd → is_Some (h !! s_node kid) →
  below h rk (s_node kid) < below h rk n.
Proof.
  intros R E K I. unfold below. pose proof (R _ _ _ E K) as L.
  apply subset_size. apply (elem_of_dom (D:=gset positive)) in I. split.
  - intros m. rewrite !elem_of_filter. intros [? ?]; split; [lia|done].
  - intros X. specialize (X (s_node kid)). rewrite !elem_of_filter in X.
    destruct (X (conj L I)). lia.
Qed.
Lemma below_size h rk n : is_Some (h !! n) → below h rk n < size h.
Proof.
  intros I. unfold below. rewrite <- (size_dom (D:=gset positive) h). apply subset_size.
  apply (elem_of_dom (D:=gset positive)) in I. split.
  - intros m. rewrite elem_of_filter. by intros [? ?].
  - intros X. specialize (X n I). rewrite elem_of_filter in X. lia.
Qed.

(** the same search without fuel *)
Inductive explores h k : shape V → list (shape V) → Prop :=
| ex_found s nd : h !! s_node s = Some nd → n_kind nd = k → explores h k s [s]
| ex_less s nd : h !! s_node s = Some nd → n_kind nd ≠ k → level k < level (n_kind nd) → explores h k s []
| ex_kids s nd ls : h !! s_node s = Some nd → n_kind nd ≠ k → ¬ level k < level (n_kind nd) →
    Forall2 (λ kid l, explores h k (inside s kid) l) (n_kids nd) ls → explores h k s (concat ls).

Lemma explore_ok h k rk : kids_ok h → ranked h rk →
  ∀ fuel s, is_Some (h !! s_node s) → below h rk (s_node s) < fuel →
  ∃ l, explore fuel h k s = Ok l ∧ explores h k s l.
Proof.
  intros KO R. induction fuel as [|fuel IH]; intros s [nd E] B; [lia|].
  cbn [explore]. rewrite E.
  destruct (decide (n_kind nd = k)) as [e|ne].
  { exists [s]. split; [done|]. by eapply ex_found. }
  destruct (decide (level k < level (n_kind nd))) as [l|nl].
  { exists []. split; [done|]. by eapply ex_less. }
  assert (∃ ls, fold_right (λ kid acc, obind (explore fuel h k (inside s kid)) (λ l,
                                      obind acc (λ r, Ok (l ++ r)))) (Ok []) (n_kids nd) = Ok (concat ls)
             ∧ Forall2 (λ kid l, explores h k (inside s kid) l) (n_kids nd) ls) as [ls [F1 F2]].
  { assert (∀ kid, kid ∈ n_kids nd → ∃ l, explore fuel h k (inside s kid) = Ok l ∧ explores h k (inside s kid) l) as K.
    { intros kid HK. destruct (KO _ _ _ E HK) as (nd' & E' & _ & _).
      apply IH; simpl; [eauto|].
      pose proof (below_lt _ _ _ _ _ R E HK (ex_intro _ _ E')). lia. }
    clear E. induction (n_kids nd) as [|kid kids IHk].
    - exists []. split; [done|constructor].
    - destruct (K kid) as (l & E1 & E2); [left|].
      destruct IHk as (ls & E3 & E4); [intros; apply K; by right|].
      exists (l :: ls). split; [|by constructor].
      cbn [fold_right]. rewrite E1, E3. done. }
  exists (concat ls). split; [done|]. by eapply ex_kids.
Qed.
Lemma get_sub_ok h k s : good h → is_Some (h !! s_node s) →
  ∃ l, get_sub h k s = Ok l ∧ explores h k s l.
Proof.
  intros (KO & rk & R) I. apply (explore_ok _ _ rk KO R); [done|]. by apply below_size.
Qed.

Lemma explores_ind2 h k (P : shape V → list (shape V) → Prop) :
  (∀ s nd, h !! s_node s = Some nd → n_kind nd = k → P s [s]) →
  (∀ s nd, h !! s_node s = Some nd → n_kind nd ≠ k → level k < level (n_kind nd) → P s []) →
  (∀ s nd ls, h !! s_node s = Some nd → n_kind nd ≠ k → ¬ level k < level (n_kind nd) →
     Forall2 (λ kid l, explores h k (inside s kid) l ∧ P (inside s kid) l) (n_kids nd) ls → P s (concat ls)) →
  ∀ s l, explores h k s l → P s l.
Proof.
  intros H1 H2 H3. fix IH 3. intros s l E. destruct E as [s nd ? ?|s nd ? ? ?|s nd ls E N L F].
  - by eapply H1.
  - by eapply H2.
  - apply (H3 s nd ls E N L). clear E N L.
    induction F as [|kid l kids ls X F' IHF]; constructor; [|exact IHF].
    split; [exact X|]. apply IH. exact X.
Qed.

Lemma explores_det h k s l l' : explores h k s l → explores h k s l' → l = l'.
Proof.
  intros E. revert l'. induction E as [s nd E1 E2|s nd E1 E2 E3|s nd ls E1 E2 E3 F] using explores_ind2;
    intros l' E'; inversion E' as [? nd' A1 A2|? nd' A1 A2 A3|? nd' ls' A1 A2 A3 F']; subst;
    rewrite E1 in A1; injection A1 as <-; try done; try lia.
  f_equal. clear E1 E2 E3 A2 A3 E'. revert ls' F'.
  induction F as [|kid l kids ls [_ X] F' IHF]; intros ls' G; inversion G; subst; [done|].
  f_equal; [by apply X|by apply IHF].
Qed.
Lemma get_sub_explores h k s l : good h → is_Some (h !! s_node s) →
  get_sub h k s = Ok l ↔ explores h k s l.
Proof.
  intros G I. destruct (get_sub_ok h k s G I) as (l' & E & X). rewrite E. split.
  - intros [= <-]. done.
  - intros Y. f_equal. by eapply explores_det.
Qed.

(** ** paths *)
Lemma follow_node h s p t : follow h s p = Some t → is_Some (h !! s_node t).
Proof.
  revert s. induction p as [|i p IH]; intros s; cbn [follow];
    (destruct (h !! s_node s) as [nd|] eqn:E; [|done]).
  - intros [= <-]. rewrite E. eauto.
  - destruct (n_kids nd !! i); [|done]. apply IH.
Qed.
Lemma follow_level h s p t nd nd' : kids_ok h → follow h s p = Some t →
  h !! s_node s = Some nd → h !! s_node t = Some nd' →
  level (n_kind nd) ≤ level (n_kind nd') ∧ (n_kind nd ≠ Compound → p ≠ [] → level (n_kind nd) < level (n_kind nd')).
Proof.
  intros KO. revert s nd. induction p as [|i p IH]; intros s nd F E E'; cbn [follow] in F; rewrite E in F.
  - injection F as <-. rewrite E in E'. injection E' as <-. split; [lia|done].
  - destruct (n_kids nd !! i) as [kid|] eqn:K; [|done].
    apply elem_of_list_lookup_2 in K. destruct (KO _ _ _ E K) as (nk & EK & _ & Fi).
    destruct (IH (inside s kid) nk F EK E') as [L1 L2].
    apply fits_level in Fi as [C|L].
    + rewrite C. split; [simpl; lia|done].
    + split; lia.
Qed.

Definition cons_paths (pss : list (list (list nat))) : list (list nat) :=
  concat (imap (λ i ps, (i ::.) <$> ps) pss).
Lemma cons_paths_gen (off : nat) (pss : list (list (list nat))) p :
  p ∈ concat (imap (λ i ps, ((off + i) ::.) <$> ps) pss) ↔
  ∃ i q ps, p = (off + i) :: q ∧ pss !! i = Some ps ∧ q ∈ ps.
Proof.
  revert off. induction pss as [|ps pss IH]; intros off; simpl.
  - split; [by intros ?%elem_of_nil|]. intros (i & q & ps & _ & H & _). by rewrite lookup_nil in H.
  - rewrite elem_of_app.
    assert (imap ((λ i ps0, ((off + i) ::.) <$> ps0) ∘ S) pss = imap (λ i ps0, ((S off + i) ::.) <$> ps0) pss) as ->.
    { apply imap_ext. intros i x _. simpl. by rewrite Nat.add_succ_r. }
    rewrite IH. rewrite elem_of_list_fmap. split.
    + intros [(q & -> & Q)|(i & q & ps' & -> & L & Q)].
      * exists 0, q, ps. done.
      * exists (S i), q, ps'. split; [f_equal; lia|done].
    + intros ([|i] & q & ps' & -> & L & Q); simpl in L.
      * injection L as ->. left. exists q. done.
      * right. exists i, q, ps'. split; [f_equal; lia|done].
Qed.
Lemma cons_paths_elem pss p :
  p ∈ cons_paths pss ↔ ∃ i q ps, p = i :: q ∧ pss !! i = Some ps ∧ q ∈ ps.
Proof. apply (cons_paths_gen 0). Qed.
Lemma cons_paths_nodup_gen off pss : Forall (λ ps : list (list nat), NoDup ps) pss →
  NoDup (concat (imap (λ i ps, ((off + i) ::.) <$> ps) pss)).
Proof.
  revert off. induction pss as [|ps pss IH]; intros off F; simpl; [constructor|].
  inversion F; subst.
  assert (imap ((λ i ps0, ((off + i) ::.) <$> ps0) ∘ S) pss = imap (λ i ps0, ((S off + i) ::.) <$> ps0) pss) as ->.
  { apply imap_ext. intros i x _. simpl. by rewrite Nat.add_succ_r. }
  apply NoDup_app. split; [|split].
  - apply NoDup_fmap_2; [|done]. intros x y [= ->]. done.
  - intros p P1 P2. apply elem_of_list_fmap in P1 as (q & -> & _).
    apply cons_paths_gen in P2 as (i & q' & ps' & E & _). injection E. lia.
  - by apply IH.
Qed.
Lemma cons_paths_nodup pss : Forall (λ ps : list (list nat), NoDup ps) pss → NoDup (cons_paths pss).
Proof. apply (cons_paths_nodup_gen 0). Qed.
Lemma cons_paths_forall2 (R : list nat → shape V → Prop) off pss ls :
  length pss = length ls →
  (∀ i ps l, pss !! i = Some ps → ls !! i = Some l → Forall2 (λ p t, R ((off + i) :: p) t) ps l) →
  Forall2 R (concat (imap (λ i ps, ((off + i) ::.) <$> ps) pss)) (concat ls).
Proof.
  revert off ls. induction pss as [|ps pss IH]; intros off [|l ls]; simpl; intros L H; try lia; [constructor|].
  assert (imap ((λ i ps0, ((off + i) ::.) <$> ps0) ∘ S) pss = imap (λ i ps0, ((S off + i) ::.) <$> ps0) pss) as ->.
  { apply imap_ext. intros i x _. simpl. by rewrite Nat.add_succ_r. }
  apply Forall2_app.
  - apply Forall2_fmap_l. apply (H 0); done.
  - apply IH; [lia|]. intros i ps' l' E1 E2. specialize (H (S i) ps' l' E1 E2).
    by rewrite Nat.add_succ_r in H.
Qed.

Lemma explores_lists h k s l : kids_ok h → k ≠ Compound → explores h k s l → lists_all h k s l.
Proof.
  intros KO NC E. induction E as [s nd E1 E2|s nd E1 E2 E3|s nd ls E1 E2 E3 F] using explores_ind2.
  - exists [[]]. split; [|split].
    + apply NoDup_singleton.
    + intros p. rewrite elem_of_list_singleton. split.
      * intros ->. exists s. cbn [follow]. rewrite E1. split; [done|].
        unfold of_kind, kind_of. rewrite E1. simpl. by rewrite E2.
      * intros (t & Fo & K). destruct p as [|i p]; [done|].
        unfold of_kind, kind_of in K. destruct (h !! s_node t) as [nt|] eqn:ET; [|done].
        injection K as K. destruct (follow_level _ _ _ _ _ _ KO Fo E1 ET) as [_ L].
        assert (n_kind nd ≠ Compound) as X by (rewrite E2; done).
        assert (i :: p ≠ []) as Y by done. specialize (L X Y). rewrite K, E2 in L. lia.
    + repeat constructor. cbn [follow]. by rewrite E1.
  - exists []. split; [constructor|]. split; [|constructor].
    intros p. split; [by intros ?%elem_of_nil|]. intros (t & Fo & K).
    unfold of_kind, kind_of in K. destruct (h !! s_node t) as [nt|] eqn:ET; [|done].
    injection K as K. destruct (follow_level _ _ _ _ _ _ KO Fo E1 ET) as [L _].
    rewrite K in L. lia.
  - assert (∃ pss, length pss = length (n_kids nd) ∧
              ∀ i kid l ps, n_kids nd !! i = Some kid → ls !! i = Some l → pss !! i = Some ps →
                NoDup ps ∧ (∀ p, p ∈ ps ↔ ∃ t, follow h (inside s kid) p = Some t ∧ of_kind h k t) ∧
                Forall2 (λ p t, follow h (inside s kid) p = Some t) ps l) as (pss & PL & PS).
    { clear E1 E2 E3. induction F as [|kid l kids ls [_ X] F' IHF].
      - exists []. split; [done|]. intros i kid l ps H. by rewrite lookup_nil in H.
      - destruct IHF as (pss & PL & PS). destruct X as (ps & X). exists (ps :: pss).
        split; [simpl; lia|]. intros [|i] kid' l' ps' A B C; simpl in A, B, C.
        + injection A as <-. injection B as <-. injection C as <-. exact X.
        + by eapply PS. }
    pose proof (Forall2_length _ _ _ F) as FL.
    exists (cons_paths pss). split; [|split].
    + apply cons_paths_nodup. apply Forall_lookup. intros i ps P.
      assert (i < length pss) as B by (by eapply lookup_lt_Some).
      destruct (lookup_lt_is_Some_2 (n_kids nd) i) as [kid K]; [lia|].
      destruct (lookup_lt_is_Some_2 ls i) as [l L]; [lia|].
      by destruct (PS _ _ _ _ K L P).
    + intros p. rewrite cons_paths_elem. split.
      * intros (i & q & ps & -> & P & Q).
        assert (i < length pss) as B by (by eapply lookup_lt_Some).
        destruct (lookup_lt_is_Some_2 (n_kids nd) i) as [kid K]; [lia|].
        destruct (lookup_lt_is_Some_2 ls i) as [l L]; [lia|].
        destruct (PS _ _ _ _ K L P) as (_ & IFF & _). apply IFF in Q as (t & Fo & Ki).
        exists t. cbn [follow]. rewrite E1, K. done.
      * intros (t & Fo & Ki). destruct p as [|i q]; cbn [follow] in Fo; rewrite E1 in Fo.
        { injection Fo as <-. unfold of_kind, kind_of in Ki. rewrite E1 in Ki. injection Ki as Ki. done. }
        destruct (n_kids nd !! i) as [kid|] eqn:K; [|done].
        assert (i < length (n_kids nd)) as B by (by eapply lookup_lt_Some).
        destruct (lookup_lt_is_Some_2 pss i) as [ps P]; [lia|].
        destruct (lookup_lt_is_Some_2 ls i) as [l L]; [lia|].
        exists i, q, ps. split; [done|]. split; [done|].
        destruct (PS _ _ _ _ K L P) as (_ & IFF & _). apply IFF. eauto.
    + apply (cons_paths_forall2 _ 0); [lia|]. intros i ps l P L. simpl.
      assert (i < length pss) as B by (by eapply lookup_lt_Some).
      destruct (lookup_lt_is_Some_2 (n_kids nd) i) as [kid K]; [lia|].
      destruct (PS _ _ _ _ K L P) as (_ & _ & F2).
      eapply Forall2_impl; [exact F2|]. intros p t Fo. cbn [follow]. rewrite E1, K. done.
Qed.

(** ** the builder *)
Definition frozen nd : node V := mkNode (n_kind nd) false (n_kids nd).
Lemma freeze_lookup n h m : freeze n h !! m = if decide (m = n) then frozen <$> h !! n else h !! m.
Proof.
  unfold freeze. destruct (h !! n) as [nd|] eqn:E.
  - destruct (decide (m = n)) as [->|N]; [by rewrite lookup_insert|by rewrite lookup_insert_ne].
  - destruct (decide (m = n)) as [->|N]; [by rewrite E|done].
Qed.

(** a heap after statements: the TShapes stay, with their kinds and the sub-shapes they have; a
    frozen TShape does not change at all *)
Definition grows h h' : Prop :=
  ∀ n nd, h !! n = Some nd → ∃ nd', h' !! n = Some nd' ∧ n_kind nd' = n_kind nd ∧
    (n_free nd = false → nd' = nd) ∧ (n_free nd' = true → n_free nd = true) ∧
    ∃ more, n_kids nd' = n_kids nd ++ more.
Lemma grows_refl h : grows h h.
Proof. intros n nd E. exists nd. repeat split; try done. exists []. by rewrite app_nil_r. Qed.
Lemma grows_trans h1 h2 h3 : grows h1 h2 → grows h2 h3 → grows h1 h3.
Proof.
  intros A B n nd E. destruct (A n nd E) as (nd2 & E2 & K2 & F2 & G2 & m2 & M2).
  destruct (B n nd2 E2) as (nd3 & E3 & K3 & F3 & G3 & m3 & M3).
  exists nd3. split; [done|]. split; [congruence|]. split; [|split].
  - intros F. specialize (F2 F). subst nd2. by apply F3.
  - intros F. by apply G2, G3.
  - exists (m2 ++ m3). rewrite M3, M2. by rewrite app_assoc.
Qed.

Lemma freeze_grows n h : grows h (freeze n h).
Proof.
  intros m nd E. rewrite freeze_lookup. destruct (decide (m = n)) as [->|N].
  - rewrite E. exists (frozen nd). simpl. repeat split; try done.
    + intros F. destruct nd; simpl in *. by subst.
    + exists []. by rewrite app_nil_r.
  - exists nd. repeat split; try done. exists []. by rewrite app_nil_r.
Qed.
Lemma freeze_good n h : good h → good (freeze n h).
Proof.
  intros (KO & rk & R). split.
  - intros m nd kid E K. rewrite freeze_lookup in E.
    assert (∃ nd0, h !! m = Some nd0 ∧ n_kind nd0 = n_kind nd ∧ n_kids nd0 = n_kids nd) as (nd0 & E0 & K0 & C0).
    { destruct (decide (m = n)) as [->|N]; [|eauto].
      destruct (h !! n) as [x|]; [|done]. injection E as <-. eauto. }
    rewrite <- C0 in K. destruct (KO _ _ _ E0 K) as (nk & EK & F & Fi).
    rewrite freeze_lookup. destruct (decide (s_node kid = n)) as [En|N].
    + subst n. rewrite EK. exists (frozen nk). simpl. repeat split; congruence.
    + exists nk. repeat split; congruence.
  - exists rk. intros m nd kid E K. rewrite freeze_lookup in E.
    destruct (decide (m = n)) as [->|N]; [|by eapply R].
    destruct (h !! n) as [x|] eqn:E0; [|done]. injection E as <-. by eapply R.
Qed.

Inductive added (p : positive) s h : heap V → outcome unit → Prop :=
| added_ok nd k : p ≠ s_node s → h !! p = Some nd → n_free nd = true → kind_of h (s_node s) = Some k →
    fits k (n_kind nd) = true →
    added p s h (<[p := mkNode (n_kind nd) true (n_kids nd ++ [s])]> (freeze (s_node s) h)) (Ok tt)
| added_no nd : h !! p = Some nd →
    (p = s_node s ∨ n_free nd = false ∨
     ∃ k, kind_of h (s_node s) = Some k ∧ fits k (n_kind nd) = false) →
    added p s h (freeze (s_node s) h) (Throw RuntimeError).
Lemma builder_add_spec p s h : is_Some (h !! p) → is_Some (h !! s_node s) →
  added p s h (builder_add p s h).1 (builder_add p s h).2.
Proof.
  intros [nd E] [ns ES]. unfold builder_add, kind_of. rewrite !freeze_lookup.
  destruct (decide (s_node s = s_node s)) as [_|X]; [|done]. rewrite ES. simpl.
  destruct (decide (p = s_node s)) as [->|N].
  - simpl. eapply added_no; [done|]. by left.
  - rewrite E. simpl. destruct (n_free nd) eqn:F; simpl.
    + destruct (fits (n_kind ns) (n_kind nd)) eqn:Fi; simpl.
      * eapply added_ok; try done. unfold kind_of. by rewrite ES.
      * eapply added_no; [done|]. right. right. exists (n_kind ns). unfold kind_of. by rewrite ES.
    + eapply added_no; [done|]. auto.
Qed.

Lemma added_good p s h h' r : good h → is_Some (h !! s_node s) → added p s h h' r → good h'.
Proof.
  intros G I A. destruct A as [nd k N E F KS Fi|nd E H]; [|by apply freeze_good].
  pose proof (freeze_good (s_node s) h G) as (KO & rk & R).
  set (h0 := freeze (s_node s) h) in *.
  assert (h0 !! p = Some nd) as E0.
  { unfold h0. rewrite freeze_lookup. by rewrite decide_False. }
  assert (∃ ns, h0 !! s_node s = Some ns ∧ n_free ns = false ∧ n_kind ns = k) as (ns & ES & FS & KS').
  { unfold h0. rewrite freeze_lookup, decide_True by done. unfold kind_of in KS.
    destruct (h !! s_node s) as [x|]; [|done]. injection KS as <-. exists (frozen x). done. }
  clearbody h0. clear G I E KS. subst k.
  (* nobody has p as a sub-shape *)
  assert (∀ n nd' kid, h0 !! n = Some nd' → kid ∈ n_kids nd' → s_node kid ≠ p) as NP.
  { intros n nd' kid E1 K Ek. destruct (KO _ _ _ E1 K) as (nk & Ek' & Fk & _).
    rewrite Ek, E0 in Ek'. injection Ek' as <-. congruence. }
  split.
  - intros m nm kid E1 K.
    assert (∃ nk, h0 !! s_node kid = Some nk ∧ n_free nk = false ∧ fits (n_kind nk) (n_kind nm) = true ∧ s_node kid ≠ p) as (nk & A1 & A2 & A3 & A4).
    { destruct (decide (m = p)) as [->|Nm].
      - rewrite lookup_insert in E1. injection E1 as <-. simpl in *.
        apply elem_of_app in K as [K|K%elem_of_list_singleton].
        + destruct (KO _ _ _ E0 K) as (nk & ? & ? & ?). exists nk. split; [done|]. split; [done|]. split; [done|]. exact (NP _ _ _ E0 K).
        + subst kid. exists ns. repeat split; done.
      - rewrite lookup_insert_ne in E1 by done.
        destruct (KO _ _ _ E1 K) as (nk & ? & ? & ?). exists nk. split; [done|]. split; [done|]. split; [done|]. exact (NP _ _ _ E1 K). }
    exists nk. rewrite lookup_insert_ne by done. done.
  - exists (λ n, if decide (n = p) then S (rk p + rk (s_node s)) else rk n).
    intros m nm kid E1 K. destruct (decide (m = p)) as [->|Nm].
    + rewrite lookup_insert in E1. injection E1 as <-. simpl in *.
      apply elem_of_app in K as [K|K%elem_of_list_singleton].
      * rewrite decide_False by (exact (NP _ _ _ E0 K)). pose proof (R _ _ _ E0 K). lia.
      * subst kid. rewrite decide_False by done. lia.
    + rewrite lookup_insert_ne in E1 by done.
      rewrite decide_False by (exact (NP _ _ _ E1 K)). by eapply R.
Qed.
Lemma added_grows p s h h' r : added p s h h' r → grows h h'.
Proof.
  intros [nd k N E F KS Fi|nd E H]; [|apply freeze_grows].
  eapply grows_trans; [apply freeze_grows|]. intros m nm Em.
  destruct (decide (m = p)) as [->|Nm].
  - rewrite lookup_insert. rewrite freeze_lookup, decide_False in Em by done.
    rewrite E in Em. injection Em as <-. eexists. split; [done|]. simpl.
    repeat split; try done; [congruence|]. eauto.
  - rewrite lookup_insert_ne by done. exists nm. repeat split; try done. exists []. by rewrite app_nil_r.
Qed.
Lemma added_dom p s h h' r : is_Some (h !! p) → added p s h h' r → ∀ n, is_Some (h' !! n) ↔ is_Some (h !! n).
Proof.
  intros I A n.
  assert (∀ m, is_Some (freeze (s_node s) h !! m) ↔ is_Some (h !! m)) as FZ.
  { intros m. rewrite freeze_lookup. destruct (decide (m = s_node s)) as [->|]; [|done].
    by rewrite fmap_is_Some. }
  destruct A as [nd k N E F KS Fi|nd E H]; [|apply FZ].
  destruct (decide (n = p)) as [->|Nn]; [rewrite lookup_insert; by split|].
  rewrite lookup_insert_ne by done. apply FZ.
Qed.

(** all sub-shapes of a shape of the kernel *)
Lemma builder_adds_spec p ss h : good h → is_Some (h !! p) → Forall (λ s, is_Some (h !! s_node s)) ss →
  let h' := (builder_adds p ss h).1 in
  good h' ∧ grows h h' ∧ (∀ n, is_Some (h' !! n) ↔ is_Some (h !! n)) ∧
  ((builder_adds p ss h).2 = Ok tt ∨ (builder_adds p ss h).2 = Throw RuntimeError).
Proof.
  revert h. induction ss as [|s ss IH]; intros h G I F; cbn [builder_adds].
  - simpl. split; [done|]. split; [apply grows_refl|]. split; [done|by left].
  - inversion F as [|? ? Fs Fss]; subst.
    pose proof (builder_add_spec p s h I Fs) as A.
    pose proof (added_good _ _ _ _ _ G Fs A) as G1.
    pose proof (added_grows _ _ _ _ _ A) as Gr1.
    pose proof (added_dom _ _ _ _ _ I A) as D1.
    destruct (builder_add p s h) as [h1 r] eqn:B. simpl in *.
    destruct A as [nd k N E Fr KS Fi|nd E H].
    + set (h1 := <[p:=_]> _) in *. clearbody h1.
      destruct (IH h1 G1) as (G2 & Gr2 & D2 & R2).
      { by apply D1. }
      { eapply Forall_impl; [exact Fss|]. intros x X. by apply D1. }
      split; [done|]. split; [by eapply grows_trans|]. split; [|done].
      intros n. rewrite D2. apply D1.
    + simpl. split; [done|]. split; [done|]. split; [done|by right].
Qed.

(** ** states *)
Definition obj_ok h (o : pobj V) : Prop :=
  match o_class o with
  | AnyShape => is_Some (h !! s_node (o_shape o))
  | Exactly k => k ≠ CompSolid ∧ kind_of h (s_node (o_shape o)) = Some k ∧
                 (k = Compound → o_shape o = plain (s_node (o_shape o)))
  end.
Definition inv st : Prop :=
  good (st_heap st) ∧ (∀ n, is_Some (st_heap st !! n) → (n < next_node st)%positive) ∧
  Forall (obj_ok (st_heap st)) (objs st).

Lemma kind_of_some h n k : kind_of h n = Some k → is_Some (h !! n).
Proof. unfold kind_of. destruct (h !! n); [eauto|done]. Qed.
Lemma obj_ok_some h o : obj_ok h o → is_Some (h !! s_node (o_shape o)).
Proof. unfold obj_ok. destruct (o_class o); [done|]. intros (_ & K & _). by eapply kind_of_some. Qed.
Lemma grows_kind h h' n k : grows h h' → kind_of h n = Some k → kind_of h' n = Some k.
Proof.
  unfold kind_of. intros G. destruct (h !! n) as [nd|] eqn:E; [|done]. intros [= <-].
  destruct (G n nd E) as (nd' & E' & K & _). rewrite E'. simpl. by rewrite K.
Qed.
Lemma grows_obj h h' o : grows h h' → obj_ok h o → obj_ok h' o.
Proof.
  intros G. unfold obj_ok. destruct (o_class o).
  - intros [nd E]. destruct (G _ _ E) as (nd' & E' & _). eauto.
  - intros (N & K & P). split; [done|]. split; [by eapply grows_kind|done].
Qed.
Lemma holds_ok st x o : inv st → holds st x o → obj_ok (st_heap st) o.
Proof. intros (_ & _ & F) H. rewrite Forall_lookup in F. by apply (F x). Qed.

Lemma fresh_grows k st : inv st → grows (st_heap st) (st_heap (fresh k st)).
Proof.
  intros (G & B & F) n nd E. simpl.
  assert (n ≠ next_node st).
  { intros ->. pose proof (B _ (ex_intro _ _ E)). lia. }
  exists nd. rewrite lookup_insert_ne by done. repeat split; try done. exists []. by rewrite app_nil_r.
Qed.
Lemma fresh_inv k st : inv st → inv (fresh k st).
Proof.
  intros I. pose proof (fresh_grows k st I) as Gr. destruct I as ((KO & rk & R) & B & F).
  assert (st_heap st !! next_node st = None) as NN.
  { destruct (st_heap st !! next_node st) eqn:E; [|done]. pose proof (B _ (ex_intro _ _ E)). lia. }
  split; [split|split].
  - intros n nd kid E K. simpl in E. destruct (decide (n = next_node st)) as [->|N].
    + rewrite lookup_insert in E. injection E as <-. simpl in K. by apply elem_of_nil in K.
    + rewrite lookup_insert_ne in E by done. destruct (KO _ _ _ E K) as (nk & EK & X).
      exists nk. simpl. rewrite lookup_insert_ne; [done|]. intros Y. rewrite <- Y, NN in EK. done.
  - exists rk. intros n nd kid E K. simpl in E. destruct (decide (n = next_node st)) as [->|N].
    + rewrite lookup_insert in E. injection E as <-. simpl in K. by apply elem_of_nil in K.
    + rewrite lookup_insert_ne in E by done. by eapply R.
  - simpl. intros n H. destruct (decide (n = next_node st)) as [->|N]; [lia|].
    rewrite lookup_insert_ne in H by done. pose proof (B _ H). lia.
  - simpl. eapply Forall_impl; [exact F|]. intros o. by apply grows_obj.
Qed.
Lemma hold_inv xs st : inv st → Forall (obj_ok (st_heap st)) xs → inv (hold xs st).
Proof. intros (G & B & F) X. split; [done|]. split; [done|]. simpl. by apply Forall_app. Qed.
Lemma heap_inv h st : inv st → good h → grows (st_heap st) h → (∀ n, is_Some (h !! n) ↔ is_Some (st_heap st !! n)) →
  inv (with_heap h st).
Proof.
  intros (G & B & F) GH Gr D. split; [done|]. split.
  - intros n H. simpl in *. apply B. by apply D.
  - simpl. eapply Forall_impl; [exact F|]. intros o. by apply grows_obj.
Qed.

Lemma lists_all_obj h k s l : listed k → lists_all h k s l →
  Forall (obj_ok h) (map (mkObj (Exactly k)) l).
Proof.
  intros [N1 N2] (ps & _ & P & F). apply Forall_map. apply Forall_lookup. intros i t L.
  destruct (Forall2_lookup_r _ _ _ _ _ F L) as (p & LP & Fo).
  apply elem_of_list_lookup_2, P in LP as (t' & Fo' & K). rewrite Fo in Fo'. injection Fo' as <-.
  simpl. split; [done|]. split; [done|]. intros ->. done.
Qed.

Lemma sub_classes_listed c k : c ∈ sub_classes k → listed k.
Proof. destruct k; simpl; intros H; try (by apply elem_of_nil in H); split; done. Qed.

Lemma py_sub_ok h k o : good h → obj_ok h o → o_class o ∈ sub_classes k →
  ∃ l, py_sub h k o = Ok (map (mkObj (Exactly k)) l) ∧ get_sub h k (o_shape o) = Ok l ∧
       explores h k (o_shape o) l ∧ lists_all h k (o_shape o) l.
Proof.
  intros G O C. unfold py_sub. rewrite decide_True by done.
  destruct (get_sub_ok h k (o_shape o) G (obj_ok_some _ _ O)) as (l & E & X).
  exists l. rewrite E. split; [done|]. split; [done|]. split; [done|].
  destruct G as [KO _]. apply explores_lists; try done. by apply (sub_classes_listed _ _ C).
Qed.

Lemma parse_ok h d v o : good h → obj_ok h o →
  py_translate h d v o = Ok (mkObj (translated_class (o_class o)) (moved d v (o_shape o))) ∧
  obj_ok h (mkObj (translated_class (o_class o)) (moved d v (o_shape o))).
Proof.
  intros G O. unfold py_translate, obj_ok in *. destruct o as [c s]. simpl in *.
  destruct c as [|k]; simpl; [done|]. destruct O as (N & K & P).
  assert (∀ fuel, explore fuel h k (moved d v s) = Ok [moved d v s]) as EX.
  { intros fuel. unfold kind_of in K. destruct (h !! s_node s) as [nd|] eqn:E; [|done]. injection K as K.
    destruct fuel; cbn [explore s_node moved]; rewrite E; by rewrite decide_True by done. }
  destruct k; simpl; [split; [done|by eapply kind_of_some]|done|..];
    unfold get_sub; rewrite EX; simpl; repeat split; done.
Qed.

Lemma step_inv o st : inv st →
  inv (step o st).1 ∧ grows (st_heap st) (st_heap (step o st).1) ∧
  (step o st).2 ≠ UB ∧ (step o st).2 ≠ Diverge.
Proof.
  intros I. destruct o as [k parts| |c x|x|x|k x|x v]; simpl.
  - pose proof (fresh_inv k st I) as I1. pose proof (fresh_grows k st I) as Gr1.
    set (ss := omap _ parts).
    destruct (forallb _ ss) eqn:FB; [|simpl; split; [done|]; split; [apply grows_refl|done]].
    assert (Forall (λ s : shape V, is_Some (st_heap (fresh k st) !! s_node s)) ss) as FS.
    { apply Forall_forall. intros s Hs. apply elem_of_list_omap in Hs as (i & _ & Hi).
      destruct (objs st !! i) as [ob|] eqn:Eo; [|done]. injection Hi as <-.
      apply obj_ok_some. eapply grows_obj; [exact Gr1|]. by eapply holds_ok. }
    assert (is_Some (st_heap (fresh k st) !! next_node st)) as IP.
    { simpl. rewrite lookup_insert. eauto. }
    destruct (builder_adds_spec (next_node st) ss (st_heap (fresh k st))) as (G2 & Gr2 & D2 & R2);
      [apply I1|done|done|].
    simpl in *.
    destruct (builder_adds (next_node st) ss _) as [h' r] eqn:B. simpl in *.
    assert (inv (with_heap h' (fresh k st))) as I2 by (apply heap_inv; done).
    destruct R2 as [-> | ->]; simpl.
    + split; [|split; [by eapply grows_trans|done]].
      apply hold_inv; [done|]. repeat constructor. simpl.
      assert (kind_of h' (next_node st) = Some k) as K.
      { eapply grows_kind; [exact Gr2|]. unfold kind_of. by rewrite lookup_insert. }
      unfold obj_ok. destruct k; simpl; try (split; [done|]; split; done). by eapply kind_of_some.
    + split; [done|]. split; [by eapply grows_trans|done].
  - pose proof (fresh_inv Compound st I) as I1.
    split; [|split; [by apply fresh_grows|done]].
    apply hold_inv; [done|]. repeat constructor; [done|]. simpl. unfold kind_of. by rewrite lookup_insert.
  - unfold obj_at. destruct (objs st !! c) as [oc|] eqn:Ec; [|simpl; split; [done|]; split; [apply grows_refl|done]].
    destruct (objs st !! x) as [ox|] eqn:Ex; [|simpl; split; [done|]; split; [apply grows_refl|done]].
    unfold py_add. destruct (decide (o_class oc = Exactly Compound)) as [C|C];
      [|simpl; split; [by destruct st|]; split; [apply grows_refl|done]].
    destruct (decide (o_class ox = Exactly Compound)) as [D|D];
      [simpl; split; [by destruct st|]; split; [apply grows_refl|done]|].
    pose proof (obj_ok_some _ _ (holds_ok _ _ _ I Ec)) as Ic.
    pose proof (obj_ok_some _ _ (holds_ok _ _ _ I Ex)) as Ix.
    pose proof (builder_add_spec _ _ _ Ic Ix) as A.
    pose proof (added_good _ _ _ _ _ (proj1 I) Ix A) as G1.
    pose proof (added_grows _ _ _ _ _ A) as Gr1.
    pose proof (added_dom _ _ _ _ _ Ic A) as D1.
    destruct (builder_add _ _ _) as [h' r]. simpl in *.
    split; [by apply heap_inv|]. split; [done|]. destruct A; done.
  - unfold obj_at. destruct (objs st !! x) as [ox|] eqn:Ex; simpl; (split; [|split; [apply grows_refl|done]]); [|done].
    apply hold_inv; [done|]. repeat constructor. unfold obj_ok. simpl. apply obj_ok_some. by eapply holds_ok.
  - unfold obj_at. destruct (objs st !! x) as [ox|] eqn:Ex; simpl; (split; [|split; [apply grows_refl|done]]); [|done].
    apply hold_inv; [done|]. repeat constructor. by eapply holds_ok.
  - unfold obj_at. destruct (objs st !! x) as [ox|] eqn:Ex; [|simpl; split; [done|]; split; [apply grows_refl|done]].
    destruct (decide (o_class ox ∈ sub_classes k)) as [C|C].
    + destruct (py_sub_ok (st_heap st) k ox) as (l & -> & _ & _ & L); [apply I|by eapply holds_ok|done|].
      simpl. split; [|split; [apply grows_refl|done]]. apply hold_inv; [done|].
      eapply lists_all_obj; [by eapply sub_classes_listed|done].
    + unfold py_sub. rewrite decide_False by done. simpl. split; [done|]. split; [apply grows_refl|done].
  - unfold obj_at. destruct (objs st !! x) as [ox|] eqn:Ex; [|simpl; split; [done|]; split; [apply grows_refl|done]].
    destruct (parse_ok (st_heap st) (next_datum st) v ox) as [-> L]; [apply I|by eapply holds_ok|].
    simpl. split; [|split; [apply grows_refl|done]].
    destruct I as (G & B & F). split; [done|]. split; [done|]. simpl. apply Forall_app. split; [done|].
    by repeat constructor.
Qed.
Lemma start_inv : inv start.
Proof.
  split; [split|split].
  - intros n nd kid E. done.
  - exists (λ _, 0). intros n nd kid E. done.
  - intros n [? H]. done.
  - constructor.
Qed.
Lemma run_inv ops st : inv st → inv (run ops st) ∧ grows (st_heap st) (st_heap (run ops st)).
Proof.
  revert st. induction ops as [|o ops IH]; intros st I; simpl; [split; [done|apply grows_refl]|].
  destruct (step_inv o st I) as (I1 & G1 & _). destruct (IH _ I1) as [I2 G2].
  split; [done|]. by eapply grows_trans.
Qed.
Lemma reachable_inv st : reachable st → inv st.
Proof. intros [ops <-]. apply run_inv, start_inv. Qed.
End Proofs.
