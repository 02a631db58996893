(** Proofs about sub-shapes and compounds: the properties *)

From stdpp Require Import prelude gmap list.
From Verif Require Import Base SubModel SubSpec SubProofs.

Section Proofs.
Context {V : Type}.
Implicit Types (h : heap V) (s t : shape V) (st : state V) (nd : node V).

(** ** lists of sub-shapes *)
Lemma classes_spec k o h : listed k → obj_ok h o → o_class o ∈ sub_classes k ↔ ¬ less_complex (o_class o) k.
Proof.
  intros [L1 L2] O. unfold obj_ok in O. destruct o as [c s]. simpl in *.
  destruct c as [|j]; [destruct k; simpl; set_solver|].
  destruct O as (N & _ & _).
  destruct k, j; simpl; try done;
    (split; [intros _; lia || (intros X; lia) |intros _; set_solver]) ||
    (split; [intros X; exfalso; set_solver | intros X; exfalso; apply X; lia]).
Qed.

Lemma query_ok st x o k : reachable st → holds st x o → listed k → ¬ less_complex (o_class o) k →
  ∃ l, queries st o k = Ok (map (mkObj (Exactly k)) l) ∧ lists_all (st_heap st) k (o_shape o) l.
Proof.
  intros R H L C. apply reachable_inv in R. pose proof (holds_ok _ _ _ R H) as O.
  destruct (py_sub_ok (st_heap st) k o) as (l & E & _ & _ & X).
  - apply R.
  - done.
  - by eapply classes_spec.
  - exists l. done.
Qed.
Lemma query_rejected st x o k : reachable st → holds st x o → listed k → less_complex (o_class o) k →
  queries st o k = Throw TypeError.
Proof.
  intros R H L C. apply reachable_inv in R. pose proof (holds_ok _ _ _ R H) as O.
  unfold queries, py_sub. rewrite decide_False; [done|]. intros X.
  by apply (classes_spec _ _ _ L O) in X.
Qed.
Lemma query_once st x o k l : reachable st → holds st x o → listed k → no_sharing (st_heap st) (o_shape o) →
  queries st o k = Ok l → NoDup (map (λ y, s_node (o_shape y)) l).
Proof.
  intros R H L NS Q. apply reachable_inv in R. pose proof (holds_ok _ _ _ R H) as O.
  unfold queries in Q. destruct (decide (o_class o ∈ sub_classes k)) as [C|C];
    [|unfold py_sub in Q; rewrite decide_False in Q by done; done].
  destruct (py_sub_ok (st_heap st) k o) as (l' & E & _ & _ & (ps & ND & P & F)); [apply R|done|done|].
  rewrite E in Q. injection Q as <-. rewrite map_map. simpl. clear E P.
  induction F as [|p t ps l' Fo F IH]; simpl; [constructor|].
  inversion ND as [|? ? NI ND']; subst. constructor; [|by apply IH].
  intros X. apply elem_of_list_fmap in X as (u & Eq & Hu).
  apply elem_of_list_lookup in Hu as (i & Hi).
  destruct (Forall2_lookup_r _ _ _ _ _ F Hi) as (q & Hq & Fq).
  pose proof (NS p q t u Fo Fq Eq) as <-. apply NI. by eapply elem_of_list_lookup_2.
Qed.
Lemma lists_members h k s l t : lists_all h k s l → t ∈ l ↔ of_kind h k t ∧ ∃ p, follow h s p = Some t.
Proof.
  intros (ps & _ & P & F). split.
  - intros H. apply elem_of_list_lookup in H as (i & Hi).
    destruct (Forall2_lookup_r _ _ _ _ _ F Hi) as (p & Hp & Fo).
    apply elem_of_list_lookup_2, P in Hp as (t' & Fo' & K). rewrite Fo in Fo'. injection Fo' as <-.
    eauto.
  - intros (K & p & Fo). assert (p ∈ ps) as Hp by (apply P; eauto).
    apply elem_of_list_lookup in Hp as (i & Hi).
    destruct (Forall2_lookup_l _ _ _ _ _ F Hi) as (t' & Ht & Fo'). rewrite Fo in Fo'. injection Fo' as <-.
    by eapply elem_of_list_lookup_2.
Qed.

(** ** overlap edges *)
Lemma is_same_spec s t : is_same s t = true ↔ s_node s = s_node t ∧ (s_loc s).*1 = (s_loc t).*1.
Proof. unfold is_same. rewrite andb_true_iff, !bool_decide_eq_true. done. Qed.
Lemma overlap_spec (l1 l2 : list (shape V)) e :
  e ∈ overlap l1 l2 ↔ e ∈ l1 ∧ ∃ e2, e2 ∈ l2 ∧ is_same e2 e = true.
Proof.
  unfold overlap. rewrite !elem_of_list_In, filter_In, existsb_exists.
  setoid_rewrite elem_of_list_In. done.
Qed.
Lemma overlap_ok st x y f1 f2 : reachable st → holds st x f1 → holds st y f2 →
  ∃ l, overlap_edges (st_heap st) (o_shape f1) (o_shape f2) = Ok l ∧
    ∀ e, e ∈ l ↔ of_kind (st_heap st) Edge e ∧ (∃ p, follow (st_heap st) (o_shape f1) p = Some e) ∧
                 ∃ e2, is_same e2 e = true ∧ ∃ q, follow (st_heap st) (o_shape f2) q = Some e2.
Proof.
  intros R H1 H2. apply reachable_inv in R.
  pose proof (holds_ok _ _ _ R H1) as O1. pose proof (holds_ok _ _ _ R H2) as O2.
  destruct (get_sub_ok (st_heap st) Edge (o_shape f1) (proj1 R) (obj_ok_some _ _ O1)) as (l1 & E1 & X1).
  destruct (get_sub_ok (st_heap st) Edge (o_shape f2) (proj1 R) (obj_ok_some _ _ O2)) as (l2 & E2 & X2).
  apply explores_lists in X1; [|apply R|done]. apply explores_lists in X2; [|apply R|done].
  exists (overlap l1 l2). unfold overlap_edges. rewrite E1, E2. simpl. split; [done|].
  intros e. rewrite overlap_spec, (lists_members _ _ _ _ _ X1). split.
  - intros [[K P] (e2 & M & S)]. apply (lists_members _ _ _ _ _ X2) in M as [K2 P2].
    split; [done|]. split; [done|]. exists e2. done.
  - intros (K & P & e2 & S & P2). split; [done|]. exists e2. split; [|done].
    apply (lists_members _ _ _ _ _ X2). split; [|done].
    apply is_same_spec in S as [S _]. unfold of_kind in *. by rewrite S.
Qed.
Lemma overlap_sym (l1 l2 : list (shape V)) e :
  e ∈ overlap l1 l2 → ∃ e', e' ∈ overlap l2 l1 ∧ is_same e' e = true.
Proof.
  intros H. apply overlap_spec in H as (M1 & e2 & M2 & S). exists e2. split; [|done].
  apply overlap_spec. split; [done|]. exists e. split; [done|].
  apply is_same_spec. apply is_same_spec in S as [? ?]. done.
Qed.
Lemma overlap_sym_ok st x y f1 f2 l1 l2 e : reachable st → holds st x f1 → holds st y f2 →
  overlap_edges (st_heap st) (o_shape f1) (o_shape f2) = Ok l1 →
  overlap_edges (st_heap st) (o_shape f2) (o_shape f1) = Ok l2 →
  e ∈ l1 → ∃ e', e' ∈ l2 ∧ is_same e' e = true.
Proof.
  intros R H1 H2 E1 E2. unfold overlap_edges in *.
  destruct (get_sub (st_heap st) Edge (o_shape f1)) as [a| | |]; try done.
  destruct (get_sub (st_heap st) Edge (o_shape f2)) as [b| | |]; try done.
  simpl in *. injection E1 as <-. injection E2 as <-. apply overlap_sym.
Qed.
Lemma overlap_once (l1 l2 : list (shape V)) : NoDup l1 → NoDup (overlap l1 l2).
Proof.
  unfold overlap. intros N. apply NoDup_ListNoDup. apply List.NoDup_filter. by apply NoDup_ListNoDup.
Qed.
Lemma overlap_once_ok st x f1 f2 l : reachable st → holds st x f1 → o_class f1 = Exactly Face →
  no_sharing (st_heap st) (o_shape f1) →
  overlap_edges (st_heap st) (o_shape f1) f2 = Ok l → NoDup l.
Proof.
  intros R H C NS E. unfold overlap_edges in E.
  destruct (get_sub (st_heap st) Edge (o_shape f1)) as [a| | |] eqn:EA; try done.
  destruct (get_sub (st_heap st) Edge f2) as [b| | |]; try done.
  simpl in E. injection E as <-. apply overlap_once.
  assert (NoDup (map (λ y, s_node (o_shape y)) (map (mkObj (Exactly Edge)) a))) as ND.
  { eapply (query_once st x f1 Edge); try done. unfold queries, py_sub. rewrite C.
    rewrite decide_True by (simpl; set_solver). by rewrite EA. }
  rewrite map_map in ND. simpl in ND. by eapply NoDup_fmap_1.
Qed.

(** ** frames *)
Lemma explores_change h h' c k :
  (∀ n nd, n ≠ c → h !! n = Some nd → ∃ nd', h' !! n = Some nd' ∧ n_kind nd' = n_kind nd ∧ n_kids nd' = n_kids nd) →
  (∀ n nd kid, h !! n = Some nd → kid ∈ n_kids nd → s_node kid ≠ c) →
  ∀ s l, explores h k s l → s_node s ≠ c → explores h' k s l.
Proof.
  intros H1 H2.
  apply (explores_ind2 h k (λ s l, s_node s ≠ c → explores h' k s l));
    [intros s nd E1 E2 N|intros s nd E1 E2 E3 N|intros s nd ls E1 E2 E3 F N];
    destruct (H1 _ _ N E1) as (nd' & A1 & A2 & A3).
  - eapply ex_found; [done|congruence].
  - eapply ex_less; [done|congruence|by rewrite A2].
  - eapply ex_kids; [done|congruence|by rewrite A2|]. rewrite A3.
    apply Forall2_same_length_lookup_2; [by eapply Forall2_length|].
    intros i kid l K L. destruct (Forall2_lookup_lr _ _ _ _ _ _ F K L) as [_ X].
    apply X. simpl. eapply H2; [done|]. by eapply elem_of_list_lookup_2.
Qed.
Lemma sub_change h h' c k o : good h → good h' → obj_ok h o → obj_ok h' o →
  (∀ n nd, n ≠ c → h !! n = Some nd → ∃ nd', h' !! n = Some nd' ∧ n_kind nd' = n_kind nd ∧ n_kids nd' = n_kids nd) →
  (∀ n nd kid, h !! n = Some nd → kid ∈ n_kids nd → s_node kid ≠ c) →
  s_node (o_shape o) ≠ c → py_sub h' k o = py_sub h k o.
Proof.
  intros G G' O O' H1 H2 N. unfold py_sub. destruct (decide (o_class o ∈ sub_classes k)); [|done].
  destruct (get_sub_ok h k (o_shape o) G (obj_ok_some _ _ O)) as (l & -> & X).
  f_equal. apply get_sub_explores; [done|by apply obj_ok_some|].
  by eapply explores_change.
Qed.

Lemma added_same p s h h' r : added p s h h' r →
  ∀ n nd, n ≠ p → h !! n = Some nd → ∃ nd', h' !! n = Some nd' ∧ n_kind nd' = n_kind nd ∧ n_kids nd' = n_kids nd.
Proof.
  intros A n nd N E.
  assert (∃ nd', freeze (s_node s) h !! n = Some nd' ∧ n_kind nd' = n_kind nd ∧ n_kids nd' = n_kids nd) as F.
  { rewrite freeze_lookup. destruct (decide (n = s_node s)) as [->|]; [|eauto]. rewrite E. simpl. eauto. }
  destruct A; [|done]. by rewrite lookup_insert_ne.
Qed.
Lemma added_throw p s h h' r : added p s h h' r → r ≠ Ok tt → h' = freeze (s_node s) h.
Proof. by intros []. Qed.
Lemma builder_adds_same p ss h : is_Some (h !! p) → Forall (λ s, is_Some (h !! s_node s)) ss →
  ∀ n nd, n ≠ p → h !! n = Some nd → ∃ nd', (builder_adds p ss h).1 !! n = Some nd' ∧ n_kind nd' = n_kind nd ∧ n_kids nd' = n_kids nd.
Proof.
  revert h. induction ss as [|s ss IH]; intros h I F n nd N E; cbn [builder_adds]; [eauto|].
  inversion F as [|? ? Fs Fss]; subst.
  pose proof (builder_add_spec p s h I Fs) as A.
  pose proof (added_dom _ _ _ _ _ I A) as D.
  destruct (added_same _ _ _ _ _ A n nd N E) as (n1 & E1 & K1 & C1).
  destruct (builder_add p s h) as [h1 r] eqn:B. simpl in *.
  destruct r as [u| | |]; simpl; eauto.
  destruct (IH h1) with (n:=n) (nd:=n1) as (n2 & E2 & K2 & C2); try done.
  - by apply D.
  - eapply Forall_impl; [exact Fss|]. intros y Y. by apply D.
  - exists n2. split; [done|]. split; congruence.
Qed.

Lemma free_no_parent h p nd : good h → h !! p = Some nd → n_free nd = true →
  ∀ n nd' kid, h !! n = Some nd' → kid ∈ n_kids nd' → s_node kid ≠ p.
Proof.
  intros [KO _] E F n nd' kid E' K Ek. destruct (KO _ _ _ E' K) as (nk & Ek' & Fk & _).
  rewrite Ek, E in Ek'. injection Ek' as <-. congruence.
Qed.
Lemma absent_no_parent h p : good h → h !! p = None →
  ∀ n nd' kid, h !! n = Some nd' → kid ∈ n_kids nd' → s_node kid ≠ p.
Proof.
  intros [KO _] E n nd' kid E' K Ek. destruct (KO _ _ _ E' K) as (nk & Ek' & _).
  rewrite Ek, E in Ek'. done.
Qed.
(** queries when nothing but flags changed *)
Lemma sub_flags h h' k o : good h → good h' → obj_ok h o → obj_ok h' o →
  (∀ n nd, h !! n = Some nd → ∃ nd', h' !! n = Some nd' ∧ n_kind nd' = n_kind nd ∧ n_kids nd' = n_kids nd) →
  py_sub h' k o = py_sub h k o.
Proof.
  intros G G' O O' H. unfold py_sub. destruct (decide (o_class o ∈ sub_classes k)); [|done].
  destruct (get_sub_ok h k (o_shape o) G (obj_ok_some _ _ O)) as (l & -> & X).
  f_equal. apply get_sub_explores; [done|by apply obj_ok_some|].
  clear O O'. revert X. generalize (o_shape o). intros s X. revert s l X.
  apply (explores_ind2 h k (λ s l, explores h' k s l));
    [intros s nd E1 E2|intros s nd E1 E2 E3|intros s nd ls E1 E2 E3 F];
    destruct (H _ _ E1) as (nd' & A1 & A2 & A3).
  - eapply ex_found; [done|congruence].
  - eapply ex_less; [done|congruence|by rewrite A2].
  - eapply ex_kids; [done|congruence|by rewrite A2|]. rewrite A3.
    eapply Forall2_impl; [exact F|]. by intros ? ? [_ ?].
Qed.

(** ** compounds *)
Lemma add_inversion st c x st' r : inv st → step (AddTo c x) st = (st', r) →
  (∃ oc ox, holds st c oc ∧ holds st x ox ∧ o_class oc = Exactly Compound ∧ o_class ox ≠ Exactly Compound ∧
     added (s_node (o_shape oc)) (o_shape ox) (st_heap st) (st_heap st') r) ∨
  (st_heap st' = st_heap st ∧ (r = Throw TypeError ∨ r = Throw NameError) ∧
   ∀ oc ox, holds st c oc → holds st x ox → o_class oc = Exactly Compound → o_class ox = Exactly Compound).
Proof.
  intros I E. cbn [step] in E. unfold obj_at in E.
  destruct (objs st !! c) as [oc|] eqn:Ec.
  2:{ injection E as <- <-. right. split; [done|]. split; [by right|]. intros oc ox H. unfold holds in H. by rewrite Ec in H. }
  destruct (objs st !! x) as [ox|] eqn:Ex.
  2:{ injection E as <- <-. right. split; [done|]. split; [by right|]. intros oc' ox _ H. unfold holds in H. by rewrite Ex in H. }
  unfold py_add in E. destruct (decide (o_class oc = Exactly Compound)) as [C|C].
  2:{ injection E as <- <-. right. split; [done|]. split; [by left|].
      intros oc' ox' H H' C'. unfold holds in H. rewrite Ec in H. injection H as <-. done. }
  destruct (decide (o_class ox = Exactly Compound)) as [D|D].
  { injection E as <- <-. right. split; [done|]. split; [by left|].
    intros oc' ox' H H' C'. unfold holds in H'. rewrite Ex in H'. injection H' as <-. done. }
  left. exists oc, ox. split; [done|]. split; [done|]. split; [done|]. split; [done|].
  pose proof (builder_add_spec (s_node (o_shape oc)) (o_shape ox) (st_heap st)
    (obj_ok_some _ _ (holds_ok _ _ _ I Ec)) (obj_ok_some _ _ (holds_ok _ _ _ I Ex))) as A.
  destruct (builder_add _ _ _) as [h' r']. injection E as <- <-. simpl. exact A.
Qed.

Lemma step_objs o st x p : holds st x p → holds (step o st).1 x p.
Proof.
  unfold holds. intros H.
  assert (∀ xs h nn d, objs (hold xs (mkState h nn d (objs st))) !! x = Some p) as K.
  { intros. simpl. by apply lookup_app_l_Some. }
  destruct o as [k parts| |c y|y|y|k y|y v]; simpl.
  - destruct (forallb _ _); [|done]. destruct (builder_adds _ _ _) as [h' [| | |]]; simpl; try done.
    by apply lookup_app_l_Some.
  - by apply lookup_app_l_Some.
  - unfold obj_at. destruct (objs st !! c); [|done]. destruct (objs st !! y); [|done].
    destruct (py_add _ _ _); done.
  - unfold obj_at. destruct (objs st !! y); [|done]. by apply lookup_app_l_Some.
  - unfold obj_at. destruct (objs st !! y); [|done]. by apply lookup_app_l_Some.
  - unfold obj_at. destruct (objs st !! y); [|done]. destruct (py_sub _ _ _); simpl; try done. by apply lookup_app_l_Some.
  - unfold obj_at. destruct (objs st !! y); [|done]. destruct (py_translate _ _ _ _); simpl; try done. by apply lookup_app_l_Some.
Qed.
Lemma run_objs ops st x p : holds st x p → holds (run ops st) x p.
Proof. revert st. induction ops as [|o ops IH]; intros st H; simpl; [done|]. apply IH. by apply step_objs. Qed.

Lemma add_contents st c x st' oc ox k : reachable st → holds st c oc → holds st x ox →
  step (AddTo c x) st = (st', Ok tt) → listed k →
  ∃ lc lx, queries st oc k = Ok (map (mkObj (Exactly k)) lc) ∧ lists_all (st_heap st) k (o_shape ox) lx ∧
    queries st' oc k = Ok (map (mkObj (Exactly k)) (lc ++ lx)).
Proof.
  intros R Hc Hx E L. apply reachable_inv in R.
  pose proof (step_inv (AddTo c x) st R) as (I' & Gr & _). rewrite E in I', Gr. simpl in I', Gr.
  destruct (add_inversion _ _ _ _ _ R E) as [(oc' & ox' & Hc' & Hx' & C & D & A)|(_ & [N|N] & _)]; try done.
  unfold holds in Hc, Hx, Hc', Hx'. rewrite Hc in Hc'. injection Hc' as <-. rewrite Hx in Hx'. injection Hx' as <-.
  pose proof (holds_ok _ _ _ R Hc) as Oc. pose proof (holds_ok _ _ _ R Hx) as Ox.
  inversion A as [nd ki N EN F KS Fi EH|]; subst.
  assert (o_class oc ∈ sub_classes k) as CK.
  { rewrite C. destruct L as [L1 L2]. destruct k; simpl; try done; set_solver. }
  destruct (py_sub_ok (st_heap st) k oc (proj1 R) Oc CK) as (lc & Q1 & _ & X1 & _).
  destruct (get_sub_ok (st_heap st) k (o_shape ox) (proj1 R) (obj_ok_some _ _ Ox)) as (lx & _ & X2).
  exists lc, lx. split; [done|]. split; [apply explores_lists; [apply R|apply L|done]|].
  unfold queries, py_sub. rewrite decide_True by done.
  assert (get_sub (st_heap st') k (o_shape oc) = Ok (lc ++ lx)) as ->; [|done].
  apply get_sub_explores; [apply I'|apply (obj_ok_some _ _ (grows_obj _ _ _ Gr Oc))|].
  pose proof (added_same _ _ _ _ _ A) as SM.
  pose proof (free_no_parent _ _ _ (proj1 R) EN F) as NP.
  (* the compound is plain *)
  unfold obj_ok in Oc. rewrite C in Oc. destruct Oc as (_ & KC & PC). specialize (PC eq_refl).
  unfold kind_of in KC. rewrite EN in KC. injection KC as KC.
  assert (st_heap st' !! s_node (o_shape oc) = Some (mkNode (n_kind nd) true (n_kids nd ++ [o_shape ox]))) as EN'.
  { rewrite <- EH. by rewrite lookup_insert. }
  inversion X1 as [s0 n1 A1 A2|s0 n1 A1 A2 A3|s0 n1 ls A1 A2 A3 FF]; subst s0; rewrite EN in A1; injection A1 as <-.
  - destruct L as [L1 L2]. congruence.
  - rewrite KC in A3. simpl in A3. lia.
  - assert (concat ls ++ lx = concat (ls ++ [lx])) as ->.
    { rewrite concat_app. simpl. by rewrite app_nil_r. }
    eapply ex_kids; [exact EN'|done|done|]. simpl. apply Forall2_app.
    + apply Forall2_same_length_lookup_2; [by eapply Forall2_length|].
      intros i kid l K Li. pose proof (Forall2_lookup_lr _ _ _ _ _ _ FF K Li) as X.
      eapply explores_change; [exact SM|exact NP|exact X|]. simpl. eapply NP; [exact EN|]. by eapply elem_of_list_lookup_2.
    + constructor; [|constructor].
      assert (inside (o_shape oc) (o_shape ox) = o_shape ox) as ->.
      { rewrite PC. unfold inside, plain. simpl. by destruct (o_shape ox) as [? ? []]. }
      eapply explores_change; [exact SM|exact NP|exact X2|done].
Qed.

Lemma add_others st c x st' oc y oy k : reachable st → holds st c oc → holds st y oy → ¬ aliases oy oc →
  step (AddTo c x) st = (st', Ok tt) → queries st' oy k = queries st oy k.
Proof.
  intros R Hc Hy NA E. apply reachable_inv in R.
  pose proof (step_inv (AddTo c x) st R) as (I' & Gr & _). rewrite E in I', Gr. simpl in I', Gr.
  destruct (add_inversion _ _ _ _ _ R E) as [(oc' & ox & Hc' & Hx & C & D & A)|(_ & [N|N] & _)]; try done.
  unfold holds in Hc, Hc'. rewrite Hc in Hc'. injection Hc' as <-.
  pose proof (holds_ok _ _ _ R Hy) as Oy.
  inversion A as [nd ki N EN F KS Fi EH|]; subst.
  eapply sub_change; [apply R|apply I'|done|by eapply grows_obj|by eapply added_same| |exact NA].
  by eapply free_no_parent; [apply R| |].
Qed.

Lemma frame st o y oy k : reachable st → holds st y oy →
  (∀ c x, o = AddTo c x → (step o st).2 ≠ Ok tt) →
  queries (step o st).1 oy k = queries st oy k.
Proof.
  intros R Hy NO. apply reachable_inv in R. pose proof (holds_ok _ _ _ R Hy) as Oy.
  pose proof (step_inv o st R) as (I' & Gr & _).
  pose proof (grows_obj _ _ _ Gr Oy) as Oy'.
  destruct o as [ki parts| |c x|x|x|ki x|x v].
  - eapply (sub_change _ _ (next_node st)); [apply R|apply I'|done|done| | |].
    + intros n nd N E. cbn [step].
      destruct (forallb _ _); [|simpl; eauto].
      pose proof (fresh_grows ki st R) as Gr1.
      destruct (Gr1 _ _ E) as (n1 & E1 & K1 & _).
      assert (n1 = nd) as ->.
      { simpl in E1. rewrite lookup_insert_ne in E1 by done. congruence. }
      set (ss := omap _ parts).
      assert (Forall (λ s : shape V, is_Some (st_heap (fresh ki st) !! s_node s)) ss) as FS.
      { apply Forall_forall. intros s Hs. apply elem_of_list_omap in Hs as (i & _ & Hi).
        destruct (objs st !! i) as [ob|] eqn:Eo; [|done]. injection Hi as <-.
        apply obj_ok_some. eapply grows_obj; [exact Gr1|]. by eapply holds_ok. }
      assert (is_Some (st_heap (fresh ki st) !! next_node st)) as IP.
      { simpl. rewrite lookup_insert. eauto. }
      destruct (builder_adds_same (next_node st) ss (st_heap (fresh ki st)) IP FS n nd N E1) as (n2 & E2 & K2 & C2).
      destruct (builder_adds (next_node st) ss (st_heap (fresh ki st))) as [h' r]. simpl in E2.
      exists n2. destruct r; simpl; split; [exact E2| |exact E2| |exact E2| |exact E2|]; split; done.
    + apply absent_no_parent; [apply R|]. destruct (st_heap st !! next_node st) eqn:E; [|done].
      destruct R as (_ & B & _). pose proof (B _ (ex_intro _ _ E)). lia.
    + intros X. destruct R as (_ & B & _). pose proof (B _ (obj_ok_some _ _ Oy)). lia.
  - eapply (sub_change _ _ (next_node st)); [apply R|apply I'|done|done| | |].
    + intros n nd N E. simpl. exists nd. by rewrite lookup_insert_ne.
    + apply absent_no_parent; [apply R|]. destruct (st_heap st !! next_node st) eqn:E; [|done].
      destruct R as (_ & B & _). pose proof (B _ (ex_intro _ _ E)). lia.
    + intros X. destruct R as (_ & B & _). pose proof (B _ (obj_ok_some _ _ Oy)). lia.
  - specialize (NO c x eq_refl). destruct (step (AddTo c x) st) as [st' r] eqn:E. simpl in *.
    destruct (add_inversion _ _ _ _ _ R E) as [(oc & ox & Hc & Hx & C & D & A)|(EH & _)].
    + unfold queries.
      eapply sub_flags; [apply R|apply I'|done|done|].
      intros n nd' E'.
      rewrite (added_throw _ _ _ _ _ A NO), freeze_lookup.
      destruct (decide (n = s_node (o_shape ox))) as [->|]; [|eauto].
      rewrite E'. simpl. eauto.
    + unfold queries. by rewrite EH.
  - cbn [step]. unfold obj_at. destruct (objs st !! x); done.
  - cbn [step]. unfold obj_at. destruct (objs st !! x); done.
  - cbn [step]. unfold obj_at. destruct (objs st !! x); [|done]. destruct (py_sub _ _ _); done.
  - cbn [step]. unfold obj_at. destruct (objs st !! x); [|done]. cbn zeta.
    destruct (py_translate _ _ _ _); done.
Qed.

(** ** when a compound takes shapes *)
Definition is_free h (n : positive) : Prop := ∃ nd, h !! n = Some nd ∧ n_free nd = true.
Lemma added_free p s h h' r n : added p s h h' r → is_free h' n ↔ is_free h n ∧ n ≠ s_node s.
Proof.
  assert (is_free (freeze (s_node s) h) n ↔ is_free h n ∧ n ≠ s_node s) as FZ.
  { unfold is_free. rewrite freeze_lookup. destruct (decide (n = s_node s)) as [->|N].
    - split; [|naive_solver]. intros (nd & E & F). destruct (h !! s_node s); [|done]. injection E as <-. done.
    - naive_solver. }
  intros [nd k N E F KS Fi|nd E H]; [|done].
  rewrite <- FZ. unfold is_free. destruct (decide (n = p)) as [->|Nn].
  - rewrite lookup_insert, freeze_lookup, decide_False by done. rewrite E. split; intros _; eauto.
  - by rewrite lookup_insert_ne.
Qed.
Lemma builder_adds_free p ss h n : is_Some (h !! p) → Forall (λ s, is_Some (h !! s_node s)) ss →
  (builder_adds p ss h).2 = Ok tt →
  is_free (builder_adds p ss h).1 n ↔ is_free h n ∧ Forall (λ s, n ≠ s_node s) ss.
Proof.
  revert h. induction ss as [|s ss IH]; intros h I F; cbn [builder_adds].
  - intros _. simpl. split; [intros ?; split; [done|constructor]|by intros [? _]].
  - inversion F as [|? ? Fs Fss]; subst.
    pose proof (builder_add_spec p s h I Fs) as A. pose proof (added_dom _ _ _ _ _ I A) as D.
    pose proof (added_free _ _ _ _ _ n A) as AF.
    destruct (builder_add p s h) as [h1 r] eqn:B. simpl in *.
    destruct r as [u| | |]; try done. intros E.
    rewrite IH; [|by apply D| |done].
    + rewrite AF, Forall_cons. tauto.
    + eapply Forall_impl; [exact Fss|]. intros y Y. by apply D.
Qed.

Lemma step_free o st p : inv st → (∃ x, holds st x p) →
  is_free (st_heap (step o st).1) (s_node (o_shape p)) ↔
  is_free (st_heap st) (s_node (o_shape p)) ∧ ¬ uses o st p.
Proof.
  intros I [z Hz]. pose proof (obj_ok_some _ _ (holds_ok _ _ _ I Hz)) as Ip.
  set (n := s_node (o_shape p)) in *.
  destruct o as [ki parts| |c x|x|x|ki x|x v].
  - cbn [uses]. cbn [step].
    set (ss := omap _ parts).
    destruct (forallb _ ss) eqn:FB; [|simpl; naive_solver].
    pose proof (fresh_grows ki st I) as Gr1.
    assert (Forall (λ s : shape V, is_Some (st_heap (fresh ki st) !! s_node s)) ss) as FS.
    { apply Forall_forall. intros s Hs. apply elem_of_list_omap in Hs as (i & _ & Hi).
      destruct (objs st !! i) as [ob|] eqn:Eo; [|done]. injection Hi as <-.
      apply obj_ok_some. eapply grows_obj; [exact Gr1|]. by eapply holds_ok. }
    assert (is_Some (st_heap (fresh ki st) !! next_node st)) as IP.
    { simpl. rewrite lookup_insert. eauto. }
    assert (n ≠ next_node st) as NN.
    { intros X. destruct I as (_ & B & _). pose proof (B _ Ip). lia. }
    assert (is_free (st_heap (fresh ki st)) n ↔ is_free (st_heap st) n) as F0.
    { unfold is_free. simpl. by rewrite lookup_insert_ne. }
    assert ((builder_adds (next_node st) ss (st_heap (fresh ki st))).2 = Ok tt) as OK.
    { assert (∀ h0, h0 !! next_node st = Some (mkNode ki true []) ∨ (∃ kids, h0 !! next_node st = Some (mkNode ki true kids)) →
        Forall (λ s, s_node s ≠ next_node st ∧ ∃ j, kind_of h0 (s_node s) = Some j ∧ fits j ki = true) ss →
        (builder_adds (next_node st) ss h0).2 = Ok tt) as GEN.
      { clear. induction ss as [|s ss IH]; intros h0 E F; cbn [builder_adds]; [done|].
        inversion F as [|? ? [Ns (j & Kj & Fj)] Fss]; subst.
        assert (∃ kids, h0 !! next_node st = Some (mkNode ki true kids)) as [kids Ek] by naive_solver.
        pose proof (kind_of_some _ _ _ Kj) as Is.
        pose proof (builder_add_spec (next_node st) s h0 (ex_intro _ _ Ek) Is) as A.
        pose proof (added_grows _ _ _ _ _ A) as Gr.
        destruct (builder_add (next_node st) s h0) as [h1 r] eqn:B. simpl in *.
        destruct A as [nd k N E' Fr KS Fi|nd E' [X|[X|(k & X & Y)]]].
        - set (h1 := <[next_node st:=_]> _) in *. simpl. apply IH.
          + right. unfold h1. rewrite lookup_insert. rewrite Ek in E'. injection E' as <-. simpl. eauto.
          + eapply Forall_impl; [exact Fss|]. intros y (Y1 & jy & Y2 & Y3). split; [done|].
            exists jy. split; [by eapply grows_kind|done].
        - congruence.
        - rewrite Ek in E'. injection E' as <-. done.
        - rewrite Ek in E'. injection E' as <-. rewrite Kj in X. injection X as <-. simpl in Y. congruence. }
      apply GEN.
      - left. simpl. by rewrite lookup_insert.
      - apply Forall_forall. intros s Hs. rewrite forallb_forall in FB.
        specialize (FB s). rewrite <- elem_of_list_In in FB. specialize (FB Hs).
        destruct (kind_of (st_heap st) (s_node s)) as [j|] eqn:Kj; [|done]. simpl in FB.
        split.
        + intros X. destruct I as (_ & B & _). pose proof (B _ (kind_of_some _ _ _ Kj)). lia.
        + exists j. split; [by eapply grows_kind|done]. }
    pose proof (builder_adds_free (next_node st) ss (st_heap (fresh ki st)) n IP FS OK) as BF.
    destruct (builder_adds (next_node st) ss (st_heap (fresh ki st))) as [h' r]. simpl in OK, BF. subst r.
    cbn [fst snd st_heap hold with_heap]. rewrite BF, F0.
    assert (Forall (λ s, n ≠ s_node s) ss ↔ ¬ ((Ok tt : outcome unit) = Ok tt ∧ ∃ i o', i ∈ parts ∧ holds st i o' ∧ aliases o' p)) as ->; [|done].
    rewrite Forall_forall. split.
    + intros H (_ & i & o' & Hi & Ho & Al). apply (H (o_shape o')); [|by rewrite Al].
      apply elem_of_list_omap. exists i. split; [done|]. unfold holds in Ho. by rewrite Ho.
    + intros H s Hs Es. apply elem_of_list_omap in Hs as (i & Hi & Ho).
      destruct (objs st !! i) as [o'|] eqn:Eo; [|done]. injection Ho as <-.
      apply H. split; [done|]. exists i, o'. done.
  - cbn [uses step]. simpl.
    assert (n ≠ next_node st) as NN.
    { intros X. destruct I as (_ & B & _). pose proof (B _ Ip). lia. }
    unfold is_free. rewrite lookup_insert_ne by done. naive_solver.
  - destruct (step (AddTo c x) st) as [st' r] eqn:E. cbn [uses fst].
    destruct (add_inversion _ _ _ _ _ I E) as [(oc & ox & Hc & Hx & C & D & A)|(EH & _ & NO)].
    + rewrite (added_free _ _ _ _ _ n A). split; intros [X Y]; (split; [done|]).
      * intros (oc' & ox' & Hc' & Hx' & _ & _ & Al). unfold holds in Hx, Hx'. rewrite Hx in Hx'. injection Hx' as <-.
        by apply Y.
      * intros Z. apply Y. exists oc, ox. done.
    + rewrite EH. split; [|by intros [? _]]. intros X. split; [done|].
      intros (oc & ox & Hc & Hx & C & D & _). apply D. by eapply NO.
  - cbn [uses step]. unfold obj_at. destruct (objs st !! x); simpl; naive_solver.
  - cbn [uses step]. unfold obj_at. destruct (objs st !! x); simpl; naive_solver.
  - cbn [uses step]. unfold obj_at. destruct (objs st !! x); [|simpl; naive_solver].
    destruct (py_sub _ _ _); simpl; naive_solver.
  - cbn [uses step]. unfold obj_at. destruct (objs st !! x); [|simpl; naive_solver]. cbn zeta.
    destruct (py_translate _ _ _ _); simpl; naive_solver.
Qed.
Lemma run_free ops st p : inv st → (∃ x, holds st x p) →
  is_free (st_heap (run ops st)) (s_node (o_shape p)) ↔
  is_free (st_heap st) (s_node (o_shape p)) ∧ never_used ops st p.
Proof.
  revert st. induction ops as [|o ops IH]; intros st I Hp; cbn [run never_used]; [tauto|].
  rewrite IH; [|by apply step_inv|destruct Hp as [x Hx]; exists x; by apply step_objs].
  rewrite step_free by done. tauto.
Qed.

Lemma add_free st c x oc ox : inv st → holds st c oc → holds st x ox → o_class oc = Exactly Compound →
  o_class ox ≠ Exactly Compound → ¬ aliases ox oc →
  ((step (AddTo c x) st).2 = Ok tt ↔ is_free (st_heap st) (s_node (o_shape oc))) ∧
  ((step (AddTo c x) st).2 = Ok tt ∨ (step (AddTo c x) st).2 = Throw RuntimeError).
Proof.
  intros I Hc Hx C D NA. destruct (step (AddTo c x) st) as [st' r] eqn:E. simpl.
  destruct (add_inversion _ _ _ _ _ I E) as [(oc' & ox' & Hc' & Hx' & _ & _ & A)|(EH & _ & NO)].
  - unfold holds in *. rewrite Hc in Hc'. injection Hc' as <-. rewrite Hx in Hx'. injection Hx' as <-.
    assert (∀ nd, st_heap st !! s_node (o_shape oc) = Some nd → n_kind nd = Compound) as KC.
    { intros nd E0. pose proof (holds_ok _ _ _ I Hc) as O. unfold obj_ok in O. rewrite C in O.
      destruct O as (_ & K & _). unfold kind_of in K. rewrite E0 in K. by injection K. }
    inversion A as [nd k N EN F KS Fi EH|nd EN W EH]; subst.
    + split; [|by left]. split; [|done]. intros _. exists nd. done.
    + split; [|by right]. split; [done|]. intros (nd' & E' & F'). rewrite EN in E'. injection E' as <-.
      destruct W as [X|[X|(k & X & Y)]].
      * exfalso. apply NA. by unfold aliases.
      * congruence.
      * exfalso. rewrite (KC _ EN) in Y. destruct k; done.
  - exfalso. apply D. by eapply NO.
Qed.
Lemma add_accepts st0 ops x ox :
  reachable st0 →
  let st1 := (step NewCompound st0).1 in
  let c := length (objs st0) in
  let oc := mkObj (Exactly Compound) (plain (next_node st0)) in
  let st := run ops st1 in
  holds st x ox → o_class ox ≠ Exactly Compound → ¬ aliases ox oc →
  (never_used ops st1 oc → (step (AddTo c x) st).2 = Ok tt) ∧
  (¬ never_used ops st1 oc → (step (AddTo c x) st).2 = Throw RuntimeError).
Proof.
  intros R st1 c oc st Hx D NA. apply reachable_inv in R.
  assert (inv st1) as I1 by (by apply step_inv).
  assert (holds st1 c oc) as H1.
  { unfold holds, st1. simpl. unfold c. rewrite lookup_app_r by lia. by rewrite Nat.sub_diag. }
  assert (inv st) as I by (by apply run_inv).
  assert (holds st c oc) as Hc by (by apply run_objs).
  assert (is_free (st_heap st1) (s_node (o_shape oc))) as F1.
  { unfold is_free. simpl. rewrite lookup_insert. eauto. }
  destruct (add_free st c x oc ox I Hc Hx eq_refl D NA) as [IFF OR].
  pose proof (run_free ops st1 oc I1 (ex_intro _ c H1)) as RF. fold st in RF.
  split.
  - intros NU. apply IFF. apply RF. done.
  - intros NU. destruct OR as [OK|?]; [|done]. exfalso. apply NU. apply IFF in OK. by apply RF in OK as [_ ?].
Qed.

(** a shape that fails to be added as part of itself *)
Lemma add_self st c x oc ox : reachable st → holds st c oc → holds st x ox → o_class oc = Exactly Compound →
  o_class ox ≠ Exactly Compound → aliases ox oc → (step (AddTo c x) st).2 = Throw RuntimeError.
Proof.
  intros R Hc Hx C D Al. apply reachable_inv in R.
  destruct (step (AddTo c x) st) as [st' r] eqn:E. simpl.
  destruct (add_inversion _ _ _ _ _ R E) as [(oc' & ox' & Hc' & Hx' & _ & _ & A)|(EH & _ & NO)].
  - unfold holds in *. rewrite Hc in Hc'. injection Hc' as <-. rewrite Hx in Hx'. injection Hx' as <-.
    inversion A as [nd k N EN F KS Fi EH|nd EN W EH]; subst; [|done]. exfalso. by apply N.
  - exfalso. apply D. by eapply NO.
Qed.
Lemma add_class st c x oc ox : holds st c oc → holds st x ox →
  o_class oc ≠ Exactly Compound ∨ o_class ox = Exactly Compound →
  step (AddTo c x) st = (st, Throw TypeError).
Proof.
  intros Hc Hx H. unfold holds in *. cbn [step]. unfold obj_at. rewrite Hc, Hx. unfold py_add.
  assert (with_heap (st_heap st) st = st) as W by (by destruct st).
  destruct (decide (o_class oc = Exactly Compound)) as [C|C]; [|by rewrite W].
  destruct H as [H|H]; [done|]. rewrite decide_True by done. by rewrite W.
Qed.

(** ** the history of a compound *)
Lemma step_kids o st p nd : inv st → (∃ x, holds st x p) → st_heap st !! s_node (o_shape p) = Some nd →
  ∃ nd', st_heap (step o st).1 !! s_node (o_shape p) = Some nd' ∧ n_kind nd' = n_kind nd ∧
         n_kids nd' = n_kids nd ++ put_in [o] st p.
Proof.
  intros I [z Hz] E. set (n := s_node (o_shape p)) in *.
  pose proof (step_inv o st I) as (I' & _).
  assert (n ≠ next_node st) as NN.
  { intros X. destruct I as (_ & B & _). pose proof (B _ (ex_intro _ _ E)). lia. }
  assert (∀ nd', st_heap (step o st).1 !! n = Some nd' ∧ n_kind nd' = n_kind nd ∧ n_kids nd' = n_kids nd →
    (∀ c x, o ≠ AddTo c x) →
    ∃ nd', st_heap (step o st).1 !! n = Some nd' ∧ n_kind nd' = n_kind nd ∧ n_kids nd' = n_kids nd ++ put_in [o] st p) as SAME.
  { intros nd' (A & B & C) N. exists nd'. split; [done|]. split; [done|]. rewrite C.
    destruct o; simpl; try by rewrite app_nil_r. by destruct (N c x). }
  destruct o as [ki parts| |c x|x|x|ki x|x v].
  - enough (∃ nd', st_heap (step (KernelShape ki parts) st).1 !! n = Some nd' ∧ n_kind nd' = n_kind nd ∧ n_kids nd' = n_kids nd) as [nd' X].
    { by apply (SAME nd' X). }
    clear SAME I'. cbn [step].
    destruct (forallb _ _); [|simpl; eauto].
    pose proof (fresh_grows ki st I) as Gr1.
    assert (st_heap (fresh ki st) !! n = Some nd) as E1 by (simpl; by rewrite lookup_insert_ne).
    set (ss := omap _ parts).
    assert (Forall (λ s : shape V, is_Some (st_heap (fresh ki st) !! s_node s)) ss) as FS.
    { apply Forall_forall. intros s Hs. apply elem_of_list_omap in Hs as (i & _ & Hi).
      destruct (objs st !! i) as [ob|] eqn:Eo; [|done]. injection Hi as <-.
      apply obj_ok_some. eapply grows_obj; [exact Gr1|]. by eapply holds_ok. }
    assert (is_Some (st_heap (fresh ki st) !! next_node st)) as IP.
    { simpl. rewrite lookup_insert. eauto. }
    destruct (builder_adds_same (next_node st) ss (st_heap (fresh ki st)) IP FS n nd NN E1) as (n2 & E2 & K2 & C2).
    destruct (builder_adds (next_node st) ss (st_heap (fresh ki st))) as [h' r]. simpl in E2.
    exists n2. destruct r; simpl; split; [exact E2| |exact E2| |exact E2| |exact E2|]; split; done.
  - apply (SAME nd); [|done]. simpl. by rewrite lookup_insert_ne.
  - clear SAME I'. cbn [put_in]. rewrite app_nil_r.
    destruct (step (AddTo c x) st) as [st' r] eqn:ES. cbn [fst snd].
    destruct (add_inversion _ _ _ _ _ I ES) as [(oc & ox & Hc & Hx & C & D & A)|(EH & R & _)].
    + unfold holds in Hc, Hx. rewrite Hc, Hx.
      destruct (decide (s_node (o_shape oc) = n)) as [En|En].
      * unfold n. rewrite decide_True by done. fold n.
        revert A. generalize (st_heap st'). intros h' A. destruct A as [nd1 k1 N1 EN F KS Fi|nd1 EN W].
        -- rewrite En in EN |- *. rewrite E in EN. injection EN as <-.
           exists (mkNode (n_kind nd) true (n_kids nd ++ [o_shape ox])).
           split; [|done]. by rewrite lookup_insert.
        -- rewrite freeze_lookup. rewrite En in EN. rewrite E in EN. injection EN as <-.
           destruct (decide (n = s_node (o_shape ox))) as [En2|].
           ++ rewrite <- En2, E. simpl. exists (frozen nd). rewrite app_nil_r. done.
           ++ exists nd. by rewrite app_nil_r.
      * destruct (added_same _ _ _ _ _ A n nd (not_eq_sym En) E) as (nd' & E' & K' & C').
        exists nd'. split; [done|]. split; [done|]. rewrite C'. unfold n. rewrite decide_False by done.
        destruct r; by rewrite app_nil_r.
    + rewrite EH. exists nd. split; [done|]. split; [done|].
      destruct (objs st !! c), (objs st !! x); try by rewrite app_nil_r.
      destruct R as [-> | ->]; by rewrite app_nil_r.
  - apply (SAME nd); [|done]. cbn [step]. unfold obj_at. destruct (objs st !! x); done.
  - apply (SAME nd); [|done]. cbn [step]. unfold obj_at. destruct (objs st !! x); done.
  - apply (SAME nd); [|done]. cbn [step]. unfold obj_at. destruct (objs st !! x); [|done]. destruct (py_sub _ _ _); done.
  - apply (SAME nd); [|done]. cbn [step]. unfold obj_at. destruct (objs st !! x); [|done]. cbn zeta.
    destruct (py_translate _ _ _ _); done.
Qed.
Lemma put_in_cons o ops st p : put_in (o :: ops) st p = put_in [o] st p ++ put_in ops (step o st).1 p.
Proof. cbn [put_in]. by rewrite app_nil_r. Qed.
Lemma run_kids ops st p nd : inv st → (∃ x, holds st x p) → st_heap st !! s_node (o_shape p) = Some nd →
  ∃ nd', st_heap (run ops st) !! s_node (o_shape p) = Some nd' ∧ n_kind nd' = n_kind nd ∧
         n_kids nd' = n_kids nd ++ put_in ops st p.
Proof.
  revert st nd. induction ops as [|o ops IH]; intros st nd I Hp E.
  - exists nd. simpl. by rewrite app_nil_r.
  - destruct (step_kids o st p nd I Hp E) as (n1 & E1 & K1 & C1).
    destruct (IH (step o st).1 n1) as (n2 & E2 & K2 & C2); [by apply step_inv| |done|].
    { destruct Hp as [x Hx]. exists x. by apply step_objs. }
    exists n2. split; [done|]. split; [congruence|]. rewrite C2, C1, (put_in_cons o ops). by rewrite app_assoc.
Qed.

Lemma history st0 ops k : reachable st0 → listed k →
  let st1 := (step NewCompound st0).1 in
  let oc := mkObj (Exactly Compound) (plain (next_node st0)) in
  let st := run ops st1 in
  ∃ ls, Forall2 (λ s l, lists_all (st_heap st) k s l) (put_in ops st1 oc) ls ∧
        queries st oc k = Ok (map (mkObj (Exactly k)) (concat ls)).
Proof.
  intros R L st1 oc st. apply reachable_inv in R.
  assert (inv st1) as I1 by (by apply step_inv).
  assert (holds st1 (length (objs st0)) oc) as H1.
  { unfold holds, st1. simpl. rewrite lookup_app_r by lia. by rewrite Nat.sub_diag. }
  assert (inv st) as I by (by apply run_inv).
  assert (st_heap st1 !! s_node (o_shape oc) = Some (mkNode Compound true [])) as E1.
  { simpl. by rewrite lookup_insert. }
  destruct (run_kids ops st1 oc _ I1 (ex_intro (λ x, holds st1 x oc) _ H1) E1) as (nd & E & K & C). fold st in E. simpl in K, C.
  assert (holds st (length (objs st0)) oc) as Hc by (by apply run_objs).
  assert (o_class oc ∈ sub_classes k) as CK.
  { simpl. destruct L as [L1 L2]. destruct k; simpl; try done; set_solver. }
  destruct (py_sub_ok (st_heap st) k oc (proj1 I) (holds_ok _ _ _ I Hc) CK) as (l & Q & _ & X & _).
  inversion X as [s0 n1 A1 A2|s0 n1 A1 A2 A3|s0 n1 ls A1 A2 A3 FF]; subst s0; rewrite E in A1; injection A1 as <-.
  - destruct L as [L1 L2]. congruence.
  - rewrite K in A3. simpl in A3. lia.
  - exists ls. split.
    + rewrite C in FF. eapply Forall2_impl; [exact FF|]. intros s l0 Y. apply explores_lists; [apply I|apply L|].
      assert (inside (o_shape oc) s = s) as <-; [|done].
      unfold inside. simpl. by destruct s as [? ? []].
    + unfold queries. rewrite Q. by subst l.
Qed.

(** ** shapes that became part of another one stay as they are *)
Lemma explores_frozen h h' k : kids_ok h → grows h h' →
  ∀ s l, explores h k s l → (∀ nd, h !! s_node s = Some nd → n_free nd = false) → explores h' k s l.
Proof.
  intros KO G.
  apply (explores_ind2 h k (λ s l, (∀ nd, h !! s_node s = Some nd → n_free nd = false) → explores h' k s l));
    [intros s nd E1 E2 N|intros s nd E1 E2 E3 N|intros s nd ls E1 E2 E3 F N];
    destruct (G _ _ E1) as (nd' & A1 & _ & A2 & _); rewrite (A2 (N _ E1)) in A1.
  - by eapply ex_found.
  - by eapply ex_less.
  - eapply ex_kids; [done|done|done|].
    apply Forall2_same_length_lookup_2; [by eapply Forall2_length|].
    intros i kid l Ki Li. destruct (Forall2_lookup_lr _ _ _ _ _ _ F Ki Li) as [_ X]. apply X.
    intros nk Ek. simpl in Ek. destruct (KO _ _ kid E1) as (nk' & Ek' & Fk & _); [by eapply elem_of_list_lookup_2|].
    congruence.
Qed.
Lemma used_stays st o y oy k ops : reachable st → holds st y oy → uses o st oy →
  queries (run ops (step o st).1) oy k = queries (step o st).1 oy k.
Proof.
  intros R Hy U. apply reachable_inv in R.
  pose proof (step_inv o st R) as (I1 & _).
  pose proof (run_inv ops _ I1) as I2.
  pose proof (holds_ok _ _ _ I1 (step_objs o _ _ _ Hy)) as O1.
  assert (∀ ops st, inv st → grows (st_heap st) (st_heap (run ops st))) as G.
  { clear. induction ops as [|o ops IH]; intros st I; simpl; [apply grows_refl|].
    destruct (step_inv o st I) as (I' & G & _). eapply grows_trans; [exact G|by apply IH]. }
  specialize (G ops _ I1).
  unfold queries, py_sub. destruct (decide (o_class oy ∈ sub_classes k)); [|done].
  destruct (get_sub_ok (st_heap (step o st).1) k (o_shape oy) (proj1 I1) (obj_ok_some _ _ O1)) as (l & -> & X).
  f_equal. apply get_sub_explores; [apply I2|apply (obj_ok_some _ _ (grows_obj _ _ _ G O1))|].
  eapply explores_frozen; [apply I1|exact G|exact X|].
  intros nd E. destruct (n_free nd) eqn:F; [|done]. exfalso.
  apply (step_free o st oy R (ex_intro (λ x, holds st x oy) _ Hy)); [|exact U].
  exists nd. done.
Qed.

(** nothing undefined, nothing endless *)
Lemma step_safe st o : reachable st → (step o st).2 ≠ UB ∧ (step o st).2 ≠ Diverge.
Proof. intros R. apply reachable_inv in R. by apply (step_inv o st R). Qed.

(** ** translation *)
Lemma moved_inside d v s kid : inside (moved d v s) kid = moved d v (inside s kid).
Proof. done. Qed.
Lemma moved_follow h d (v : V) s p : follow h (moved d v s) p = moved d v <$> follow h s p.
Proof.
  revert s. induction p as [|i p IH]; intros s; cbn [follow s_node moved];
    destruct (h !! s_node s) as [nd|]; try done.
  destruct (n_kids nd !! i) as [kid|]; [|done]. by rewrite moved_inside.
Qed.
Lemma moved_sub h d (v : V) k fuel s :
  explore fuel h k (moved d v s) = omapo (map (moved d v)) (explore fuel h k s).
Proof.
  revert s. induction fuel as [|fuel IH]; intros s; cbn [explore]; change (s_node (moved d v s)) with (s_node s);
    destruct (h !! s_node s) as [nd|]; try done;
    destruct (decide (n_kind nd = k)); try done;
    destruct (decide (level k < level (n_kind nd))); try done.
  induction (n_kids nd) as [|kid kids IHk]; [done|].
  cbn [fold_right]. rewrite moved_inside, IH.
  destruct (explore fuel h k (inside s kid)) as [l| | |]; simpl; try done.
  rewrite IHk. match goal with |- context [foldr ?f ?z kids] => generalize (foldr f z kids) end.
  intros [r| | |]; simpl; try done. by rewrite map_app.
Qed.
Lemma translate_ok st x ox v : reachable st → holds st x ox →
  let d := next_datum st in
  let y := mkObj (translated_class (o_class ox)) (moved d v (o_shape ox)) in
  (step (Translate x v) st).2 = Ok tt ∧
  objs (step (Translate x v) st).1 = objs st ++ [y] ∧
  st_heap (step (Translate x v) st).1 = st_heap st.
Proof.
  intros R Hx d y. apply reachable_inv in R. pose proof (holds_ok _ _ _ R Hx) as O.
  cbn [step]. unfold obj_at. unfold holds in Hx. rewrite Hx. cbn zeta. cbn [st_heap].
  destruct (parse_ok (st_heap st) (next_datum st) v ox) as [-> _]; [apply R|done|]. done.
Qed.
Lemma translate_query st x ox v k l : reachable st → holds st x ox → listed k → ¬ less_complex (o_class ox) k →
  queries st ox k = Ok l →
  queries st (mkObj (translated_class (o_class ox)) (moved (next_datum st) v (o_shape ox))) k
  = Ok (map (λ y, mkObj (o_class y) (moved (next_datum st) v (o_shape y))) l).
Proof.
  intros R H L C Q. apply reachable_inv in R. pose proof (holds_ok _ _ _ R H) as O.
  unfold queries, py_sub in *. destruct (decide (o_class ox ∈ sub_classes k)) as [D|]; [|done].
  rewrite decide_True.
  2:{ simpl. destruct (o_class ox) as [|[]]; try done. clear -L. destruct L. destruct k; simpl; try done; set_solver. }
  unfold get_sub in *. simpl. rewrite moved_sub.
  destruct (explore (size (st_heap st)) (st_heap st) k (o_shape ox)) as [l0| | |]; try done. simpl in *.
  injection Q as <-. f_equal. rewrite !map_map. done.
Qed.
Lemma follow_passes (h : heap V) s p t : follow h s p = Some t ↔ ∃ l, passes h (s_node s) p l ∧ placed (s :: l) t.
Proof.
  revert s t. induction p as [|i p IH]; intros s t.
  - cbn. destruct (h !! s_node s) as [nd|] eqn:E.
    + split.
      * intros [= <-]. exists []. split; [by econstructor|]. unfold placed. cbn. rewrite app_nil_r.
        split; [done|]. split; [done|]. by destruct (s_rev s).
      * intros (l & Hp & H1 & H2 & H3). inversion Hp; subst. cbn in *. rewrite app_nil_r in H2. f_equal.
        destruct s as [n lo re], t as [n' lo' re']. cbn in *. subst. injection H1 as ->. by destruct re.
    + split; [done|]. intros (l & Hp & _). inversion Hp. by simplify_eq.
  - cbn [follow]. destruct (h !! s_node s) as [nd|] eqn:E.
    2:{ split; [done|]. intros (l & Hp & _). inversion Hp. by simplify_eq. }
    destruct (n_kids nd !! i) as [kid|] eqn:Ek.
    2:{ split; [done|]. intros (l & Hp & _). inversion Hp. by simplify_eq. }
    rewrite IH. cbn [inside s_node].
    assert (P : ∀ l, placed (inside s kid :: l) t ↔ placed (s :: kid :: l) t).
    { intros l. unfold placed. cbn [map concat inside s_loc List.filter s_rev]. rewrite <-app_assoc.
      assert (L : s_node <$> last (inside s kid :: l) = s_node <$> last (s :: kid :: l)) by by destruct l.
      rewrite L. destruct (s_rev s), (s_rev kid); cbn [xorb length]; try done. }
    split.
    + intros (l & Hp & Hl). exists (kid :: l). split; [by econstructor|]. by apply P.
    + intros (l & Hp & Hl). inversion Hp; simplify_eq. eexists. split; [done|]. by apply P.
Qed.
Lemma step_get_sub st x ox k : reachable st → holds st x ox →
  match queries st ox k with
  | Ok l => (step (GetSub k x) st).2 = Ok tt ∧ objs (step (GetSub k x) st).1 = objs st ++ l
  | r => (step (GetSub k x) st).2 = omapo (λ _, tt) r ∧ objs (step (GetSub k x) st).1 = objs st
  end ∧ st_heap (step (GetSub k x) st).1 = st_heap st.
Proof.
  intros R Hx. cbn [step]. unfold obj_at. unfold holds in Hx. rewrite Hx. unfold queries.
  destruct (py_sub (st_heap st) k ox); done.
Qed.
Lemma step_wrap st x ox : holds st x ox →
  step (AsShape x) st = (hold [mkObj AnyShape (o_shape ox)] st, Ok tt) ∧ step (GetShape x) st = (hold [ox] st, Ok tt).
Proof. intros Hx. cbn [step]. unfold obj_at. unfold holds in Hx. by rewrite Hx. Qed.
Lemma step_wrap_objs st x ox : holds st x ox →
  (step (AsShape x) st).2 = Ok tt ∧ objs (step (AsShape x) st).1 = objs st ++ [mkObj AnyShape (o_shape ox)] ∧
  (step (GetShape x) st).2 = Ok tt ∧ objs (step (GetShape x) st).1 = objs st ++ [ox] ∧
  st_heap (step (AsShape x) st).1 = st_heap st ∧ st_heap (step (GetShape x) st).1 = st_heap st.
Proof. intros Hx. destruct (step_wrap st x ox Hx) as [-> ->]. done. Qed.
End Proofs.
