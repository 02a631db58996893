(** Proofs for the writers: the index of the entities, the intersection edges, and the
    maps of a whole network. *)

From stdpp Require Import prelude gmap list.
From Verif Require Import Base BuilderModel WriterModel WriterSpec WriterProofs.

Section Net.
Context {S K : Type} `{EqDecision S} `{Countable K} (key : S → K).
Variable T : topo S.
Variable shape_of : K → S.
Variable iter : gmap K N → list (K * N).
Hypothesis Hiter : ∀ m, iter m ≡ₚ map_to_list m.
Notation bind_all := (bind_all shape_of iter).
Notation bind_sub_domains := (bind_sub_domains shape_of iter).
Notation entity_map := (entity_map shape_of iter).

(** * The index map *)
Lemma fold_bind (off : N) (l : list (K * N)) : NoDup l.*1 → ∀ (acc : list S * gmap K N),
  let r := fold_left (λ (acc : list S * gmap K N) (p : K * N),
               (acc.1 ++ [shape_of p.1], <[p.1 := (p.2 + off)%N]> acc.2)) l acc in
  r.1 = acc.1 ++ (shape_of <$> l.*1) ∧
  ∀ k, r.2 !! k = match (list_to_map l : gmap K N) !! k with Some i => Some (i + off)%N | None => acc.2 !! k end.
Proof.
  induction l as [|[k0 v] l IH]; cbn [fmap list_fmap fst snd fold_left].
  { intros _ acc. cbv zeta. split; [by rewrite app_nil_r|]. intros k. cbn. by rewrite lookup_empty. }
  intros [Hk Hn]%NoDup_cons acc. cbv zeta. destruct (IH Hn (acc.1 ++ [shape_of k0], <[k0 := (v + off)%N]> acc.2)) as [H1 H2].
  split.
  - rewrite H1. cbn. by rewrite <- app_assoc.
  - intros k. rewrite H2. cbn. destruct (decide (k = k0)) as [->|Hne].
    + rewrite !lookup_insert. by rewrite not_elem_of_list_to_map_1.
    + by rewrite !lookup_insert_ne.
Qed.
Lemma bind_all_spec off m acc :
  (∀ f, f ∈ (bind_all off m acc).1 ↔ f ∈ acc.1 ∨ ∃ k, is_Some (m !! k) ∧ f = shape_of k) ∧
  ∀ k, (bind_all off m acc).2 !! k = match m !! k with Some i => Some (i + off)%N | None => acc.2 !! k end.
Proof.
  assert (Hn : NoDup (iter m).*1) by (rewrite Hiter; apply NoDup_fst_map_to_list).
  destruct (fold_bind off (iter m) Hn acc) as [H1 H2].
  assert (Hm : list_to_map (iter m) = m).
  { transitivity (list_to_map (map_to_list m) : gmap K N); [|apply list_to_map_to_list]. by apply list_to_map_proper. }
  rewrite Hm in H2. split; [|exact H2]. intros f. unfold WriterModel.bind_all. rewrite H1, elem_of_app.
  f_equiv. rewrite elem_of_list_fmap. split.
  - intros (k & -> & Hk). apply elem_of_list_fmap in Hk as ([k' v] & -> & Hk). cbn. exists k'. split; [|done].
    rewrite Hiter in Hk. apply elem_of_map_to_list in Hk. eauto.
  - intros (k & [v Hv] & ->). exists k. split; [done|]. apply elem_of_list_fmap. exists (k, v). split; [done|].
    rewrite Hiter. by apply elem_of_map_to_list.
Qed.

Fixpoint last_index (ids : list N) (index : gmap N (gmap K N)) (off : N) (k : K) : option N :=
  match ids with
  | [] => None
  | id :: ids =>
      match last_index ids index (off + N.of_nat (size (default ∅ (index !! id))))%N k with
      | Some t => Some t
      | None => (λ i, i + off)%N <$> (default ∅ (index !! id) !! k)
      end
  end.
Lemma bind_sub_domains_spec ids index : ∀ off acc r,
  bind_sub_domains ids index off acc = Ok r →
  (∀ f, f ∈ r.1 ↔ f ∈ acc.1 ∨ ∃ id m k, id ∈ ids ∧ index !! id = Some m ∧ is_Some (m !! k) ∧ f = shape_of k) ∧
  (∀ id, id ∈ ids → is_Some (index !! id)) ∧
  ∀ k, r.2 !! k = match last_index ids index off k with Some t => Some t | None => acc.2 !! k end.
Proof.
  induction ids as [|id ids IH]; intros off acc r; cbn [WriterModel.bind_sub_domains last_index].
  { intros [= <-]. split; [|split]; [|intros id Hid; by apply elem_of_nil in Hid|done].
    intros f. split; [by left|]. intros [?|(id & m & k & Hid & _)]; [done|]. by apply elem_of_nil in Hid. }
  destruct (index !! id) as [m|] eqn:Em; [|done]. cbn [from_option default Datatypes.id]. intros Hr.
  destruct (IH _ _ _ Hr) as (H1 & H2 & H3). destruct (bind_all_spec off m acc) as [B1 B2].
  split; [|split].
  - intros f. rewrite H1, B1. split.
    + intros [[?|(k & Hk & ->)]|(id' & m' & k & Hid & Hm & Hk & ->)]; [by left|right; exists id, m, k|right; exists id', m', k].
      * by repeat split; [left| |].
      * repeat split; [by right|done|done].
    + intros [?|(id' & m' & k & Hid & Hm & Hk & ->)]; [by left; left|].
      apply elem_of_cons in Hid as [->|Hid].
      * left. right. exists k. split; [|done]. congruence.
      * right. exists id', m', k. done.
  - intros id' [->|Hid]%elem_of_cons; [by rewrite Em|by apply H2].
  - intros k. rewrite H3. rewrite B2. destruct (last_index _ _ _ k); [done|]. by destruct (m !! k).
Qed.
Lemma last_index_none ids index off k :
  last_index ids index off k = None ↔ ∀ id, id ∈ ids → default ∅ (index !! id) !! k = None.
Proof.
  revert off. induction ids as [|id ids IH]; intros off; cbn [last_index].
  { split; [|done]. intros _ id Hid. by apply elem_of_nil in Hid. }
  destruct (last_index ids index _ k) eqn:E.
  - split; [done|]. intros Hn. assert (last_index ids index (off + N.of_nat (size (default ∅ (index !! id))))%N k = None) as E'; [|congruence]. apply IH. intros id' Hid. apply Hn. by right.
  - rewrite fmap_None. rewrite IH in E. split.
    + intros Hk id' [->|Hid]%elem_of_cons; [done|by apply E].
    + intros Hn. apply Hn. left.
Qed.
Lemma last_index_some ids index off k t :
  (∀ id, id ∈ ids → is_Some (index !! id)) →
  last_index ids index off k = Some t ↔
  ∃ l1 id l2 m i, ids = l1 ++ id :: l2 ∧ index !! id = Some m ∧ m !! k = Some i ∧
                  t = (off + (fragments_in index l1 + i))%N ∧
                  ∀ id', id' ∈ l2 → default ∅ (index !! id') !! k = None.
Proof.
  intros Hs. revert off t. induction ids as [|id ids IH]; intros off t; cbn [last_index].
  { split; [done|]. intros ([|] & id & l2 & m & i & E & _); discriminate. }
  assert (Hs' : ∀ id, id ∈ ids → is_Some (index !! id)) by (intros; apply Hs; by right).
  set (off' := (off + N.of_nat (size (default ∅ (index !! id))))%N).
  destruct (last_index ids index off' k) as [t'|] eqn:E.
  - pose proof E as E'. rewrite (IH Hs') in E; destruct E as (l1 & id' & l2 & m & i & -> & Hm & Hi & -> & Hn). split.
    + intros [= <-]. exists (id :: l1), id', l2, m, i. repeat split; [done|done| |done]. unfold off', fragments_in. cbn [foldr]. lia.
    + intros (l1' & id'' & l2' & m' & i' & Eq & Hm' & Hi' & -> & Hn').
      destruct l1' as [|x l1']; cbn in Eq; injection Eq as -> Eq.
      { exfalso. specialize (Hn' id'). rewrite Hm in Hn'. cbn in Hn'. rewrite <- Eq in Hn'.
        rewrite Hn' in Hi; [done|]. apply elem_of_app. right. left. }
      f_equal. symmetry. assert (last_index (l1 ++ id' :: l2) index off' k = Some (off' + (fragments_in index l1' + i'))%N) as E2.
      { apply (IH Hs'). exists l1', id'', l2', m', i'. done. }
      rewrite E' in E2. injection E2 as E2. unfold off', fragments_in in *. cbn [foldr]. lia.
  - rewrite last_index_none in E. destruct (Hs id) as [m Hm]; [left|]. rewrite Hm. cbn [from_option default Datatypes.id]. split.
    + intros (i & Hi & ->)%fmap_Some. exists [], id, ids, m, i. repeat split; [done|done| |done]. cbn. lia.
    + intros (l1' & id'' & l2' & m' & i' & Eq & Hm' & Hi' & -> & Hn').
      destruct l1' as [|x l1']; cbn in Eq; injection Eq as -> Eq.
      * rewrite Hm in Hm'. injection Hm' as <-. rewrite Hi'. cbn. f_equal. lia.
      * exfalso. specialize (E id''). rewrite Hm' in E. cbn in E. rewrite Eq in E. rewrite E in Hi'; [done|]. apply elem_of_app. right. left.
Qed.
Lemma entity_map_spec ids n ents idx :
  entity_map ids n = Ok (ents, idx) →
  (∀ f, f ∈ ents ↔ ∃ k, indexed ids n k ∧ f = shape_of k) ∧
  (∀ k t, idx !! k = Some t ↔ primary ids n k t).
Proof.
  destruct n as [ed frags index|ed dd sdf frags index]; cbn [WriterModel.entity_map indexed primary].
  - intros [= E]. destruct (bind_all_spec 0 index ([], ∅)) as [B1 B2]. rewrite E in *. cbn in B1, B2. split.
    + intros f. rewrite B1. split; [intros [?%elem_of_nil|?]|]; [done|done|by right].
    + intros k t. rewrite B2. destruct (index !! k) as [i|]; [|by rewrite lookup_empty]. by rewrite N.add_0_r.
  - intros E. apply bind_sub_domains_spec in E as (H1 & H2 & H3). cbn in *. split.
    + intros f. rewrite H1. split.
      * intros [?%elem_of_nil|(id & m & k & Hid & Hm & Hk & ->)]; [done|]. eauto 10.
      * intros (k & (id & m & Hid & Hm & Hk) & ->). right. eauto 10.
    + intros k t. rewrite H3. rewrite <- (last_index_some ids index 0 k t H2).
      destruct (last_index ids index 0 k); [done|]. by rewrite lookup_empty.
Qed.

(** * The intersection edges *)
Notation get_overlap_edges := (get_overlap_edges key T).
Notation inter_step := (inter_step key T).
Lemma elem_of_overlap f1 f2 e :
  e ∈ get_overlap_edges f1 f2 ↔ e ∈ t_edges T f1 ∧ ∃ e2, e2 ∈ t_edges T f2 ∧ key e2 = key e.
Proof.
  unfold WriterModel.get_overlap_edges. rewrite !elem_of_list_In, filter_In. f_equiv.
  unfold has_partner. rewrite existsb_exists. setoid_rewrite bool_decide_eq_true. setoid_rewrite elem_of_list_In. done.
Qed.

Definition held (inters : list (list S)) (e : S) : Prop := ∃ l, l ∈ inters ∧ e ∈ l.
Definition disjoint_lists (inters : list (list S)) : Prop :=
  ∀ i j li lj e, inters !! i = Some li → inters !! j = Some lj → e ∈ li → e ∈ lj → i = j.
Lemma holders_length inters e : disjoint_lists inters →
  (held inters e → length (List.filter (λ l, bool_decide (e ∈ l)) inters) = 1) ∧
  (¬ held inters e → List.filter (λ l, bool_decide (e ∈ l)) inters = []).
Proof.
  intros Hd. induction inters as [|l inters IH]; cbn [List.filter].
  { split; [|done]. intros (l & Hl & _). by apply elem_of_nil in Hl. }
  assert (Hd' : disjoint_lists inters).
  { intros i j li lj e' Hi Hj He1 He2. specialize (Hd (Datatypes.S i) (Datatypes.S j) li lj e' Hi Hj He1 He2). lia. }
  destruct (IH Hd') as [IH1 IH2]. destruct (bool_decide_reflect (e ∈ l)) as [He|He].
  - split.
    + intros _. cbn. rewrite IH2; [done|]. intros (l' & [j Hj]%elem_of_list_lookup & He').
      specialize (Hd 0 (Datatypes.S j) l l' e eq_refl Hj He He'). lia.
    + intros Hn. destruct Hn. exists l. split; [left|done].
  - split.
    + intros (l' & [->|Hl]%elem_of_cons & He'); [done|]. apply IH1. by exists l'.
    + intros Hn. apply IH2. intros (l' & Hl & He'). apply Hn. exists l'. split; [by right|done].
Qed.
Lemma elem_of_handled edges inters i :
  i ∈ handled edges inters ↔ ∃ e, edges !! i = Some e ∧ held inters e.
Proof.
  unfold handled. rewrite elem_of_list_In, in_concat. split.
  - intros (x & Hx & Hi). apply elem_of_list_In in Hx, Hi. apply elem_of_lookup_imap in Hx as (j & e & -> & He).
    apply elem_of_list_fmap in Hi as (l & -> & Hl). exists e. split; [done|].
    apply elem_of_list_In, filter_In in Hl as [Hl Hel%bool_decide_eq_true]. apply elem_of_list_In in Hl. by exists l.
  - intros (e & He & l & Hl & Hel). eexists. split.
    + apply elem_of_list_In, elem_of_lookup_imap. exists i, e. split; [reflexivity|done].
    + apply elem_of_list_In, elem_of_list_fmap. exists l. split; [done|].
      apply elem_of_list_In, filter_In. rewrite bool_decide_eq_true. split; [by apply elem_of_list_In|done].
Qed.
Lemma handled_length edges inters : disjoint_lists inters →
  length (handled edges inters) ≤ length edges ∧
  (length (handled edges inters) = length edges ↔ ∀ e, e ∈ edges → held inters e).
Proof.
  intros Hd. unfold handled.
  assert (Hg : ∀ (g : nat → nat),
    let h := concat (imap (λ eIdx e, (λ _, g eIdx) <$> List.filter (λ isList, bool_decide (e ∈ isList)) inters) edges) in
    length h ≤ length edges ∧ (length h = length edges ↔ ∀ e, e ∈ edges → held inters e)).
  2:{ apply (Hg id). }
  induction edges as [|e edges IH]; intros g.
  { cbn. split; [done|]. split; [|done]. intros _ e He. by apply elem_of_nil in He. }
  destruct (IH (g ∘ Datatypes.S)) as [IH1 IH2]. cbv zeta. rewrite imap_cons. cbn [concat length]. rewrite app_length, fmap_length.
  match goal with |- context [length (concat ?x)] => change (length (concat x)) with
     (length (concat (imap (λ eIdx e, (λ _, (g ∘ Datatypes.S) eIdx) <$> List.filter (λ isList, bool_decide (e ∈ isList)) inters) edges))) end.
  set (r := length (concat _)) in *. destruct (holders_length inters e Hd) as [Hy Hn].
  destruct (existsb (λ l, bool_decide (e ∈ l)) inters) eqn:Ex.
  - assert (He : held inters e).
    { apply existsb_exists in Ex as (l & Hl & Hel%bool_decide_eq_true). exists l. by rewrite elem_of_list_In. }
    rewrite Hy by done. split; [lia|]. split.
    + intros E. assert (r = length edges) as Er by lia. rewrite IH2 in Er. intros e' [->|?]%elem_of_cons; [done|by apply Er].
    + intros Ha. assert (r = length edges) as Er; [|lia]. apply IH2. intros; apply Ha; by right.
  - assert (He : ¬ held inters e).
    { intros (l & Hl & Hel). apply not_true_iff_false in Ex. apply Ex, existsb_exists. exists l.
      rewrite bool_decide_eq_true. split; [by apply elem_of_list_In|done]. }
    rewrite Hn by done. cbn. split; [lia|]. split; [lia|]. intros Ha. destruct He. apply Ha. left.
Qed.
Lemma elem_of_unhandled edges inters e :
  e ∈ unhandled_edges edges (handled edges inters) ↔ e ∈ edges ∧ ¬ held inters e.
Proof.
  unfold unhandled_edges. rewrite elem_of_list_In, in_concat. split.
  - intros (x & Hx & Hi). apply elem_of_list_In in Hx, Hi. apply elem_of_lookup_imap in Hx as (j & e' & -> & He).
    case_bool_decide as Hb; [by apply elem_of_nil in Hi|]. apply elem_of_list_singleton in Hi as <-.
    split; [by eapply elem_of_list_lookup_2|]. intros Hh. apply Hb, elem_of_handled. eauto.
  - intros ([j Hj]%elem_of_list_lookup & Hh). eexists. split.
    + apply elem_of_list_In, elem_of_lookup_imap. exists j, e. split; [reflexivity|done].
    + rewrite bool_decide_eq_false_2; [by left|]. intros (e' & He' & Hh')%elem_of_handled. congruence.
Qed.

Definition inters_ok (inters : list (list S)) : Prop := disjoint_lists inters ∧ Forall (λ l, l ≠ []) inters.
Lemma inter_step_ok f1 inters f2 : inters_ok inters →
  inters_ok (inter_step f1 inters f2) ∧
  ∀ e, held (inter_step f1 inters f2) e ↔ held inters e ∨ (key f1 ≠ key f2 ∧ e ∈ get_overlap_edges f1 f2).
Proof.
  intros [Hd Hne]. unfold WriterModel.inter_step. destruct (bool_decide_reflect (key f1 = key f2)) as [Hk|Hk].
  { split; [done|]. intros e. tauto. }
  set (edges := get_overlap_edges f1 f2). destruct (handled_length edges inters Hd) as [Hle Hall].
  destruct (bool_decide_reflect (length (handled edges inters) ≠ length edges)) as [Hl|Hl].
  - set (new := unhandled_edges edges (handled edges inters)).
    assert (Hex : ∃ e, e ∈ edges ∧ ¬ held inters e).
    { destruct (decide (Forall (λ e, existsb (λ l, bool_decide (e ∈ l)) inters = true) edges)) as [Hf|Hf].
      - exfalso. apply Hl, Hall. intros e He. rewrite Forall_forall in Hf. apply Hf in He.
        apply existsb_exists in He as (l & Hlin & Hel%bool_decide_eq_true). exists l. by rewrite elem_of_list_In.
      - apply not_Forall_Exists in Hf; [|intros ?; apply _]. apply Exists_exists in Hf as (e & He & Hn). exists e. split; [done|].
        intros (l & Hlin & Hel). apply Hn, existsb_exists. exists l. rewrite bool_decide_eq_true; split; [by apply elem_of_list_In|done]. }
    split; [split|].
    + intros i j li lj e Hi Hj He1 He2.
      destruct (decide (i < length inters)) as [Hi'|Hi'], (decide (j < length inters)) as [Hj'|Hj'].
      * rewrite lookup_app_l in Hi, Hj by done. eapply Hd; eauto.
      * rewrite lookup_app_l in Hi by done. rewrite lookup_app_r in Hj by lia.
        apply list_lookup_singleton_Some in Hj as [Hj <-]. apply elem_of_unhandled in He2 as [_ Hn]. destruct Hn.
        exists li. split; [by eapply elem_of_list_lookup_2|done].
      * rewrite lookup_app_l in Hj by done. rewrite lookup_app_r in Hi by lia.
        apply list_lookup_singleton_Some in Hi as [Hi <-]. apply elem_of_unhandled in He1 as [_ Hn]. destruct Hn.
        exists lj. split; [by eapply elem_of_list_lookup_2|done].
      * rewrite lookup_app_r in Hi, Hj by lia.
        apply list_lookup_singleton_Some in Hi as [Hi _]. apply list_lookup_singleton_Some in Hj as [Hj _]. lia.
    + apply Forall_app. split; [done|]. constructor; [|done]. destruct Hex as (e & He & Hn).
      intros E. assert (e ∈ new) as Hin by (by apply elem_of_unhandled). rewrite E in Hin. by apply elem_of_nil in Hin.
    + intros e. split.
      * intros (l & Hlin & Hel). apply elem_of_app in Hlin as [Hlin| ->%elem_of_list_singleton]; [left; by exists l|].
        right. split; [done|]. apply elem_of_unhandled in Hel. tauto.
      * intros [(l & Hlin & Hel)|[_ He]]; [exists l; rewrite elem_of_app; tauto|].
        destruct (existsb (λ l, bool_decide (e ∈ l)) inters) eqn:Ex.
        -- apply existsb_exists in Ex as (l & Hlin & Hel%bool_decide_eq_true). exists l. rewrite elem_of_app, elem_of_list_In. tauto.
        -- exists new. split; [apply elem_of_app; right; left|]. apply elem_of_unhandled. split; [done|].
           intros (l & Hlin & Hel). apply not_true_iff_false in Ex. apply Ex, existsb_exists. exists l.
           rewrite bool_decide_eq_true; split; [by apply elem_of_list_In|done].
  - split; [done|]. intros e. split; [by left|]. intros [?|[_ He]]; [done|]. apply Hall; [lia|done].
Qed.
Lemma inter_row_ok f1 l : ∀ inters, inters_ok inters →
  inters_ok (fold_left (inter_step f1) l inters) ∧
  ∀ e, held (fold_left (inter_step f1) l inters) e ↔
       held inters e ∨ ∃ f2, f2 ∈ l ∧ key f1 ≠ key f2 ∧ e ∈ get_overlap_edges f1 f2.
Proof.
  induction l as [|f2 l IH]; intros inters Hi; cbn [fold_left].
  { split; [done|]. intros e. split; [by left|]. intros [?|(f2 & Hf & _)]; [done|]. by apply elem_of_nil in Hf. }
  destruct (inter_step_ok f1 inters f2 Hi) as [Hi1 He1]. destruct (IH _ Hi1) as [Hi2 He2].
  split; [done|]. intros e. rewrite He2, He1. split.
  - intros [[?|[? ?]]|(f & Hf & ?)]; [by left|right; exists f2|right; exists f]; (split; [|done]); [left|by right].
  - intros [?|(f & [->|Hf]%elem_of_cons & ?)]; [by left; left|by left; right|right; by exists f].
Qed.
Lemma find_intersections_ok ents :
  inters_ok (find_intersections key T ents) ∧
  ∀ e, held (find_intersections key T ents) e ↔
       ∃ f1 f2, f1 ∈ ents ∧ f2 ∈ ents ∧ key f1 ≠ key f2 ∧ e ∈ get_overlap_edges f1 f2.
Proof.
  unfold find_intersections.
  assert (Hg : ∀ l inters, inters_ok inters →
    let r := fold_left (λ inters f1, fold_left (inter_step f1) ents inters) l inters in
    inters_ok r ∧ ∀ e, held r e ↔ held inters e ∨
       ∃ f1 f2, f1 ∈ l ∧ f2 ∈ ents ∧ key f1 ≠ key f2 ∧ e ∈ get_overlap_edges f1 f2).
  { induction l as [|f1 l IH]; intros inters Hi; cbn [fold_left].
    { split; [done|]. intros e. split; [by left|]. intros [?|(f1 & f2 & Hf & _)]; [done|]. by apply elem_of_nil in Hf. }
    destruct (inter_row_ok f1 ents inters Hi) as [Hi1 He1]. destruct (IH _ Hi1) as [Hi2 He2].
    split; [done|]. intros e. rewrite He2, He1. split.
    - intros [[?|(f2 & Hf & ? & ?)]|(f & f2 & Hf & ?)]; [by left|right; exists f1, f2|right; exists f, f2].
      + by repeat split; [left| | |].
      + split; [by right|done].
    - intros [?|(f & f2 & [->|Hf]%elem_of_cons & ?)]; [by left; left|left; right; by exists f2|right; by exists f, f2]. }
  destruct (Hg ents []) as [H1 H2].
  { split; [|constructor]. intros i j li lj e E. by rewrite lookup_nil in E. }
  split; [done|]. intros e. rewrite H2. split; [|by right]. intros [(l & Hl & _)|?]; [by apply elem_of_nil in Hl|done].
Qed.

(** * The maps of a network *)
Section Whole.
Variable ids : list N.
Variable n : network S K.
Variable idx : gmap K N.
Variable inters : list (list S).
Definition D (sd : N) (s : S) : Prop := ∃ x, domain_fragment ids n sd x ∧ s ∈ t_solids T x.
Notation sound := (sound (part_vertex T ids n) (part_edge T ids n) (part_wire T ids n)
                         (part_face T ids n) (part_shell T ids n) (part_solid T ids n)).
Record good (m : maps S) : Prop := {
  g_inv : ∃ sds, inv key idx inters D sds m;
  g_cl : cl5 key T m;
  g_sound : sound m;
}.
Lemma good_empty : good no_maps.
Proof.
  split.
  - exists []. apply inv_empty.
  - repeat split; intros x y Hx; by apply elem_of_nil in Hx.
  - repeat split; constructor.
Qed.
Lemma sd_step sd m x : domain_fragment ids n sd x → good m → let m' := add_solids key T idx inters sd m x in
  good m' ∧ grow m m' ∧ ∀ s, s ∈ t_solids T x → has key (somap m') s.
Proof.
  intros Hx [(sds & I) C Sd]. destruct (solids_post key T idx inters sd x m C) as (C' & Hg & Hh).
  split; [split|by split].
  - destruct (inv_solids key T idx inters D sds sd m x) as (sds' & I'); [|done|eauto]. intros s Hs. by exists x.
  - done.
  - apply sound_solids; try done; unfold part_vertex, part_edge, part_wire, part_face, part_shell, part_solid; eauto 10.
Qed.
Lemma en_step m x : entity_fragment ids n x → good m → let m' := add_faces key T idx inters m x in
  good m' ∧ grow m m' ∧ ∀ f, f ∈ t_faces T x → has key (fmap_ m') f.
Proof.
  intros Hx [(sds & I) C Sd]. destruct (cl5_faces key T idx inters x m C) as (C' & Hg & Hh).
  split; [split|by split].
  - exists sds. by apply inv_faces.
  - done.
  - apply sound_faces; try done; unfold part_vertex, part_edge, part_wire, part_face, part_shell, part_solid; eauto 10.
Qed.
Lemma sd_steps sd l : (∀ x, x ∈ l → domain_fragment ids n sd x) → ∀ m, good m →
  let m' := fold_left (add_solids key T idx inters sd) l m in
  good m' ∧ grow m m' ∧ ∀ x s, x ∈ l → s ∈ t_solids T x → has key (somap m') s.
Proof.
  induction l as [|x l IH]; intros Hl m G; cbn.
  { split; [done|]. split; [apply grow_refl|]. intros x s Hx. by apply elem_of_nil in Hx. }
  destruct (sd_step sd m x) as (G1 & g1 & h1); [apply Hl; left|done|].
  destruct (IH (λ y Hy, Hl y (elem_of_list_further _ _ _ Hy)) _ G1) as (G2 & g2 & h2).
  split; [done|]. split; [by eapply grow_trans|]. intros y s [->|Hy]%elem_of_cons Hs; [|by eapply h2].
  eapply has_grow_so; [exact g2|]. by apply h1.
Qed.
Lemma en_steps l : (∀ x, x ∈ l → entity_fragment ids n x) → ∀ m, good m →
  let m' := fold_left (add_faces key T idx inters) l m in
  good m' ∧ grow m m' ∧ ∀ x s, x ∈ l → s ∈ t_faces T x → has key (fmap_ m') s.
Proof.
  induction l as [|x l IH]; intros Hl m G; cbn.
  { split; [done|]. split; [apply grow_refl|]. intros x s Hx. by apply elem_of_nil in Hx. }
  destruct (en_step m x) as (G1 & g1 & h1); [apply Hl; left|done|].
  destruct (IH (λ y Hy, Hl y (elem_of_list_further _ _ _ Hy)) _ G1) as (G2 & g2 & h2).
  split; [done|]. split; [by eapply grow_trans|]. intros y s [->|Hy]%elem_of_cons Hs; [|by eapply h2].
  eapply has_grow_f; [exact g2|]. by apply h1.
Qed.
Lemma all_solids_ok sdf l : (∀ id fs x, id ∈ l → sdf !! id = Some fs → x ∈ fs → domain_fragment ids n id x) →
  ∀ m m', good m → all_solids key T idx inters l sdf m = Ok m' →
  good m' ∧ grow m m' ∧ ∀ id fs x s, id ∈ l → sdf !! id = Some fs → x ∈ fs → s ∈ t_solids T x → has key (somap m') s.
Proof.
  induction l as [|id l IH]; intros Hl m m' G; cbn [all_solids].
  { intros [= <-]. split; [done|]. split; [apply grow_refl|]. intros id fs x s Hx. by apply elem_of_nil in Hx. }
  unfold at_id. destruct (sdf !! id) as [fs|] eqn:Ef; [|done]. cbn [obind]. intros E.
  destruct (sd_steps id fs) with (m := m) as (G1 & g1 & h1); [intros x Hx; eapply Hl; [left|done|done]|done|].
  destruct (IH (λ i fs x Hi, Hl i fs x (elem_of_list_further _ _ _ Hi)) _ _ G1 E) as (G2 & g2 & h2).
  split; [done|]. split; [by eapply grow_trans|]. intros i fs' x s [->|Hi]%elem_of_cons Hf Hx Hs; [|by eapply h2].
  eapply has_grow_so; [exact g2|]. eapply h1; [|done]. congruence.
Qed.
Lemma all_faces_ok frags l : (∀ id fs x, id ∈ l → frags !! id = Some fs → x ∈ fs → entity_fragment ids n x) →
  ∀ m m', good m → all_faces key T idx inters l frags m = Ok m' →
  good m' ∧ grow m m' ∧ ∀ id fs x s, id ∈ l → frags !! id = Some fs → x ∈ fs → s ∈ t_faces T x → has key (fmap_ m') s.
Proof.
  induction l as [|id l IH]; intros Hl m m' G; cbn [all_faces].
  { intros [= <-]. split; [done|]. split; [apply grow_refl|]. intros id fs x s Hx. by apply elem_of_nil in Hx. }
  unfold at_id. destruct (frags !! id) as [fs|] eqn:Ef; [|done]. cbn [obind]. intros E.
  destruct (en_steps fs) with (m := m) as (G1 & g1 & h1); [intros x Hx; eapply Hl; [left|done|done]|done|].
  destruct (IH (λ i fs x Hi, Hl i fs x (elem_of_list_further _ _ _ Hi)) _ _ G1 E) as (G2 & g2 & h2).
  split; [done|]. split; [by eapply grow_trans|]. intros i fs' x s [->|Hi]%elem_of_cons Hf Hx Hs; [|by eapply h2].
  eapply has_grow_f; [exact g2|]. eapply h1; [|done]. congruence.
Qed.
Lemma sub_shape_maps_ok m : sub_shape_maps key T idx inters ids n = Ok m →
  good m ∧ (∀ s, part_solid T ids n s → has key (somap m) s) ∧
  (∀ x f, entity_fragment ids n x → f ∈ t_faces T x → has key (fmap_ m) f).
Proof.
  unfold part_solid.
  pose proof all_solids_ok as Hso. pose proof all_faces_ok as Hfa. pose proof en_steps as Hen. pose proof good_empty as G0.
  unfold sub_shape_maps. destruct n as [ed frags index|ed dd sdf frags index].
  - intros [= <-]. destruct (Hen frags (λ x Hx, Hx) no_maps G0) as (G & _ & h).
    split; [done|]. split; [by intros s (id & x & [] & _)|exact h].
  - destruct (all_solids key T idx inters ids sdf no_maps) as [m1| | |] eqn:E1; [|done..]. cbn [obind]. intros E2.
    destruct (Hso sdf ids) with (m := no_maps (S := S)) (m' := m1) as (G1 & g1 & h1); [cbn; eauto|done|done|].
    destruct (Hfa frags ids) with (m := m1) (m' := m) as (G2 & g2 & h2); [cbn; eauto|done|done|].
    split; [done|]. split.
    + intros s (id & x & (Hid & l & Hl & Hx) & Hs). eapply has_grow_so; [exact g2|]. by eapply h1.
    + intros x f (id & l & Hid & Hl & Hx) Hf. by eapply h2.
Qed.
End Whole.

(** * C67: the compound *)
Lemma has_same l s s' : has key l s → key s = key s' → has key l s'.
Proof. unfold has. by intros ? <-. Qed.
Lemma has_inv l s : has key l s → ∃ s', s' ∈ l ∧ key s' = key s.
Proof. unfold has. rewrite elem_of_list_fmap. intros (s' & E & Hs). eauto. Qed.
Lemma c67_lemma ids n m : consistent key T shape_of → writer key T shape_of iter ids n = Ok m →
  lists_once key (part_vertex T ids n) (vmap m) ∧ lists_once key (part_edge T ids n) (emap m) ∧
  lists_once key (part_wire T ids n) (wmap m) ∧ lists_once key (part_face T ids n) (fmap_ m) ∧
  lists_once key (part_shell T ids n) (shmap m) ∧ lists_once key (part_solid T ids n) (somap m).
Proof.
  intros Hc. unfold writer. destruct (dims_ok n); [|done]. cbn [negb].
  destruct (entity_map ids n) as [[ents idx]| | |] eqn:E; [|done..]. cbn [obind]. intros Hm.
  destruct (sub_shape_maps_ok _ _ _ _ _ Hm) as ([(sds & I) ((((Ce & Cw) & Cf) & Ch) & Co) Sd] & Hso & Hef).
  destruct Sd as (Sv & Se & Sw & Sf & Sh & So). rewrite Forall_forall in Sv, Se, Sw, Sf, Sh, So. destruct I.
  assert (Lsh : ∀ s, part_shell T ids n s → has key (shmap m) s).
  { intros s (x & Hx & Hs). apply Hso, has_inv in Hx as (x' & Hx' & Ek).
    destruct (co_shells _ _ _ Hc x x' s) as (s' & Hs' & Ek'); [done..|]. eapply has_same; [|exact Ek']. by eapply Co. }
  assert (Lf : ∀ s, part_face T ids n s → has key (fmap_ m) s).
  { intros s (x & [Hx|Hx] & Hs); [|by eapply Hef]. apply Lsh, has_inv in Hx as (x' & Hx' & Ek).
    destruct (co_faces _ _ _ Hc x x' s) as (s' & Hs' & Ek'); [done..|]. eapply has_same; [|exact Ek']. by eapply Ch. }
  assert (Lw : ∀ s, part_wire T ids n s → has key (wmap m) s).
  { intros s (x & Hx & Hs). apply Lf, has_inv in Hx as (x' & Hx' & Ek).
    destruct (co_wires _ _ _ Hc (t_forward T x) (t_forward T x') s) as (s' & Hs' & Ek'); [by rewrite !(co_forward _ _ _ Hc)|done|].
    eapply has_same; [|exact Ek']. by eapply Cf. }
  assert (Le : ∀ s, part_edge T ids n s → has key (emap m) s).
  { intros s (x & Hx & Hs). apply Lw, has_inv in Hx as (x' & Hx' & Ek).
    destruct (co_edges _ _ _ Hc x x' s) as (s' & Hs' & Ek'); [done..|]. eapply has_same; [|exact Ek']. by eapply Cw. }
  assert (Lv : ∀ s, part_vertex T ids n s → has key (vmap m) s).
  { intros s (x & Hx & Hs). apply Le, has_inv in Hx as (x' & Hx' & Ek).
    destruct (co_vertices _ _ _ Hc x x' s) as (s' & Hs' & Ek'); [done..|]. eapply has_same; [|exact Ek']. by eapply Ce. }
  by repeat split.
Qed.

(** * The file *)
Variable go : nat → gmap N (list N) → list (N * list N).
Hypothesis Hgo : ∀ i g, go i g ≡ₚ map_to_list g.

Lemma groups_app d l1 l2 : groups d (l1 ++ l2) = groups d l1 ++ groups d l2.
Proof. unfold groups. by rewrite omap_app. Qed.
Lemma statements_ok dim size (l : list (N * list N)) : (∀ t ps, (t, ps) ∈ l → ps ≠ []) →
  ∃ f, statements dim size l = Ok f ∧ groups dim f = l ∧ ∀ d, d ≠ dim → groups d f = [].
Proof.
  induction l as [|[t ps] l IH]; intros Hl; cbn [statements].
  { by exists []. }
  destruct IH as (f & E & G1 & G2); [intros; eapply Hl; by right|].
  destruct ps as [|p ps]; [by destruct (Hl t []); [left|]|].
  rewrite E. cbn. eexists. split; [reflexivity|].
  assert (Hs : ∀ d, groups d (match size with Some b => [SizeAt dim (p :: ps) b] | None => [] end) = []) by (by destruct size).
  split.
  - change (groups dim ([Physical dim t (p :: ps)] ++ (match size with Some b => [SizeAt dim (p :: ps) b] | None => [] end ++ f)) = (t, p :: ps) :: l).
    rewrite !groups_app, Hs, G1. cbn. by rewrite bool_decide_eq_true_2.
  - intros d Hd.
    change (groups d ([Physical dim t (p :: ps)] ++ (match size with Some b => [SizeAt dim (p :: ps) b] | None => [] end ++ f)) = []).
    rewrite !groups_app, Hs, G2 by done. cbn. by rewrite bool_decide_eq_false_2.
Qed.

Lemma geo_groups idx inters sds m (D : N → S → Prop) : inv key idx inters D sds m →
  ∃ file, geo_file go m = Ok file ∧ groups 3 file = go 0 (domainToFragments m) ∧
    groups 2 file = go 1 (entityToFragments m) ∧ groups 1 file = go 2 (intersectionsToFragments m).
Proof.
  intros I. unfold geo_file.
  assert (Hn : ∀ A i g (P : N → A → bool) l, tagged_by g P l → ∀ t ps, (t, ps) ∈ go i g → ps ≠ []).
  { intros A i g P l Ht t ps Hin. rewrite Hgo in Hin. apply elem_of_map_to_list in Hin. by apply (tagged_lookup _ _ _ _ _ Ht) in Hin as []. }
  destruct (statements_ok 3 (Some true) (go 0 (domainToFragments m))) as (f1 & E1 & A1 & B1); [eapply Hn, I|].
  destruct (statements_ok 2 (Some false) (go 1 (entityToFragments m))) as (f2 & E2 & A2 & B2); [eapply Hn, I|].
  destruct (statements_ok 1 None (go 2 (intersectionsToFragments m))) as (f3 & E3 & A3 & B3); [eapply Hn, I|].
  rewrite E1, E2, E3. cbn. eexists. split; [reflexivity|]. rewrite !groups_app, A1, A2, A3, !B1, !B2, !B3 by done.
  by rewrite !app_nil_r.
Qed.
Lemma go_proper {A} i g (P : N → A → bool) l : tagged_by g P l →
  NoDup (go i g).*1 ∧ ∀ t ps, (t, ps) ∈ go i g ↔ g !! t = Some ps.
Proof.
  intros Ht. split; [rewrite Hgo; apply NoDup_fst_map_to_list|]. intros t ps. by rewrite Hgo, elem_of_map_to_list.
Qed.

(** The results for the groups: tags, members. *)
Lemma file_lemma ids n m : writer key T shape_of iter ids n = Ok m →
  ∃ ents idx sds file, entity_map ids n = Ok (ents, idx) ∧
    inv key idx (find_intersections key T ents) (D ids n) sds m ∧ geo_file go m = Ok file ∧
    (∀ d, 1 ≤ d ≤ 3 → proper d file) ∧
    (∀ t ps, (t, ps) ∈ groups 3 file ↔ domainToFragments m !! t = Some ps) ∧
    (∀ t ps, (t, ps) ∈ groups 2 file ↔ entityToFragments m !! t = Some ps) ∧
    (∀ t ps, (t, ps) ∈ groups 1 file ↔ intersectionsToFragments m !! t = Some ps).
Proof.
  unfold writer. destruct (dims_ok n); [|done]. cbn [negb].
  destruct (entity_map ids n) as [[ents idx]| | |] eqn:E; [|done..]. cbn [obind]. intros Hm.
  destruct (sub_shape_maps_ok _ _ _ _ _ Hm) as ([(sds & I) _ _] & _ & _).
  destruct (geo_groups _ _ _ _ _ I) as (file & Ef & G3 & G2 & G1). exists ents, idx, sds, file.
  split; [done|]. split; [done|]. split; [done|].
  assert (Hp : ∀ A i g (P : N → A → bool) l d, tagged_by g P l → groups d file = go i g → proper d file).
  { intros A i g P l d Ht Eg. destruct (go_proper i g P l Ht) as [Hn Hi]. split; [by rewrite Eg|].
    intros t ps. rewrite Eg, Hi. intros Hin. apply (tagged_lookup _ _ _ _ _ Ht) in Hin as (? & ? & _). done. }
  split.
  - intros d Hd. assert (d = 1 ∨ d = 2 ∨ d = 3) as [->|[->| ->]] by lia; [eapply Hp; [apply (tg_e _ _ _ _ _ _ I)|exact G1]|eapply Hp; [apply (tg_f _ _ _ _ _ _ I)|exact G2]|eapply Hp; [apply (tg_so _ _ _ _ _ _ I)|exact G3]].
  - split; [|split]; intros t ps; rewrite ?G1, ?G2, ?G3; rewrite Hgo; apply elem_of_map_to_list.
Qed.

(** * C29 *)
Lemma c29_faces_lemma ids n m : consistent key T shape_of → listed key T ids n →
  writer key T shape_of iter ids n = Ok m →
  ∃ file, geo_file go m = Ok file ∧ proper 2 file ∧
    ∀ k tag, primary ids n k tag → ∃ p f, nth_at (fmap_ m) p = Some f ∧ key f = k ∧
      (∀ p' f', nth_at (fmap_ m) p' = Some f' → key f' = k → p' = p) ∧
      (∃ l, (tag, l) ∈ groups 2 file) ∧ ∀ tag' l, (tag', l) ∈ groups 2 file → p ∈ l ↔ tag' = tag.
Proof.
  intros Hc Hl Hm. destruct (c67_lemma _ _ _ Hc Hm) as (_ & _ & _ & (Hn & _ & Hf) & _).
  destruct (file_lemma _ _ _ Hm) as (ents & idx & sds & file & Ee & I & Ef & Hp & _ & G2 & _).
  exists file. split; [done|]. split; [apply Hp; lia|]. intros k tag Hk.
  destruct (entity_map_spec _ _ _ _ Ee) as [_ Hi]. apply Hi in Hk as Ek.
  destruct (Hl k) as (s & f & Hs & Hfs & Ekf).
  { destruct n as [ed frags index|ed dd sdf frags index]; cbn in *; [eauto|].
    destruct Hk as (l1 & id & l2 & m1 & i & -> & Hm1 & Hi1 & _). exists id, m1. split; [apply elem_of_app; right; left|]. eauto. }
  assert (Hh : has key (fmap_ m) f) by (apply Hf; exists s; eauto).
  apply has_inv in Hh as (f' & Hf' & Ekf'). apply elem_nth_at in Hf' as (p & Hp'). exists p, f'.
  split; [done|]. split; [congruence|]. split; [|split].
  - intros p' f'' Hp'' Ekf''. eapply (nth_at_nodup (key <$> fmap_ m)); [done| |].
    + rewrite nth_at_fmap, Hp''. cbn. exact (f_equal Some Ekf'').
    + rewrite nth_at_fmap, Hp'. cbn. congruence.
  - destruct (tagged_find _ _ _ tag p f' (tg_f _ _ _ _ _ _ I) Hp') as (ps & Eps & _).
    + unfold ent_tag. apply bool_decide_eq_true. by rewrite Ekf', Ekf.
    + exists ps. by apply G2.
  - intros tag' l Hin. apply G2 in Hin. destruct (tagged_lookup _ _ _ _ _ (tg_f _ _ _ _ _ _ I) Hin) as (_ & _ & Hmem).
    rewrite Hmem. split.
    + intros (x & Hx & Hb). rewrite Hp' in Hx. injection Hx as <-. unfold ent_tag in Hb. apply bool_decide_eq_true in Hb. congruence.
    + intros ->. exists f'. split; [done|]. unfold ent_tag. apply bool_decide_eq_true. congruence.
Qed.
Lemma c29_members_lemma ids n m file tag l p : writer key T shape_of iter ids n = Ok m → geo_file go m = Ok file →
  (tag, l) ∈ groups 2 file → p ∈ l → ∃ f, nth_at (fmap_ m) p = Some f ∧ primary ids n (key f) tag.
Proof.
  intros Hm Ef Hin Hp. destruct (file_lemma _ _ _ Hm) as (ents & idx & sds & file' & Ee & I & Ef' & _ & _ & G2 & _).
  rewrite Ef in Ef'. injection Ef' as <-. apply G2 in Hin.
  destruct (tagged_lookup _ _ _ _ _ (tg_f _ _ _ _ _ _ I) Hin) as (_ & _ & Hmem). apply Hmem in Hp as (f & Hf & Hb).
  exists f. split; [done|]. destruct (entity_map_spec _ _ _ _ Ee) as [_ Hi]. apply Hi. by apply bool_decide_eq_true in Hb.
Qed.
Lemma c29_solids_lemma ids n m : consistent key T shape_of → writer key T shape_of iter ids n = Ok m →
  ∃ file, geo_file go m = Ok file ∧ proper 3 file ∧
    ∀ s, part_solid T ids n s → ∃ p s', nth_at (somap m) p = Some s' ∧ key s' = key s ∧
      ∃ id, (∃ l, (id, l) ∈ groups 3 file) ∧ (∀ id' l, (id', l) ∈ groups 3 file → p ∈ l ↔ id' = id) ∧
            ∃ x, domain_fragment ids n id x ∧ s' ∈ t_solids T x.
Proof.
  intros Hc Hm. destruct (c67_lemma _ _ _ Hc Hm) as (_ & _ & _ & _ & _ & (Hn & _ & Hf)).
  destruct (file_lemma _ _ _ Hm) as (ents & idx & sds & file & Ee & I & Ef & Hp & G3 & _).
  exists file. split; [done|]. split; [apply Hp; lia|]. intros s Hs.
  apply Hf, has_inv in Hs as (s' & Hs' & Ek). apply elem_nth_at in Hs' as (p & Hp'). exists p, s'.
  split; [done|]. split; [done|].
  pose proof (al_so _ _ _ _ _ _ I) as Ha. pose proof (tg_so _ _ _ _ _ _ I) as Ht.
  apply nth_at_lookup in Hp' as (j & Hj & ->). destruct (Forall2_lookup_r _ _ _ _ _ Ha Hj) as (id & Hid & HD).
  assert (Hid' : nth_at sds (N.of_nat j + 1) = Some id) by (apply nth_at_lookup; eauto).
  exists id. split; [|split; [|done]].
  - destruct (tagged_find _ _ _ id _ id Ht Hid') as (ps & Eps & _); [by apply bool_decide_eq_true|]. exists ps. by apply G3.
  - intros id' l Hin. apply G3 in Hin. destruct (tagged_lookup _ _ _ _ _ Ht Hin) as (_ & _ & Hmem). rewrite Hmem. split.
    + intros (x & Hx & Hb%bool_decide_eq_true). congruence.
    + intros ->. exists id. split; [done|]. by apply bool_decide_eq_true.
Qed.

(** * C28 *)
Lemma shared_held ids n ents idx e : consistent key T shape_of → entity_map ids n = Ok (ents, idx) →
  held (find_intersections key T ents) e ↔ shared_edge key T shape_of ids n e.
Proof.
  intros Hc Ee. destruct (entity_map_spec _ _ _ _ Ee) as [He _]. destruct (find_intersections_ok ents) as [_ Hh].
  rewrite Hh. unfold shared_edge. split.
  - intros (f1 & f2 & (k1 & H1 & ->)%He & (k2 & H2 & ->)%He & Hk & (He1 & e2 & He2 & Ek)%elem_of_overlap).
    exists k1, k2, e2. rewrite !(co_shape_of _ _ _ Hc) in Hk. done.
  - intros (k1 & k2 & e2 & H1 & H2 & Hk & He1 & He2 & Ek). exists (shape_of k1), (shape_of k2).
    rewrite !He, !(co_shape_of _ _ _ Hc). split; [eauto|]. split; [eauto|]. split; [done|]. apply elem_of_overlap. eauto.
Qed.
Lemma c28_sound_lemma ids n m : consistent key T shape_of → writer key T shape_of iter ids n = Ok m →
  ∃ file, geo_file go m = Ok file ∧ proper 1 file ∧
    (∀ t l t' l' p, (t, l) ∈ groups 1 file → (t', l') ∈ groups 1 file → p ∈ l → p ∈ l' → t = t') ∧
    (∀ t l p, (t, l) ∈ groups 1 file → p ∈ l →
       ∃ e, nth_at (emap m) p = Some e ∧ shared_edge key T shape_of ids n e).
Proof.
  intros Hc Hm. destruct (file_lemma _ _ _ Hm) as (ents & idx & sds & file & Ee & I & Ef & Hp & _ & _ & G1).
  exists file. split; [done|]. split; [apply Hp; lia|].
  assert (Hg : ∀ t l p, (t, l) ∈ groups 1 file → p ∈ l → ∃ e il, nth_at (emap m) p = Some e ∧
             nth_at (find_intersections key T ents) t = Some il ∧ e ∈ il).
  { intros t l p Hin Hpl. apply G1 in Hin. destruct (tagged_lookup _ _ _ _ _ (tg_e _ _ _ _ _ _ I) Hin) as (_ & _ & Hmem).
    apply Hmem in Hpl as (e & He & Hb). apply inter_tag_spec in Hb as (il & Hil & Hel). eauto 10. }
  destruct (find_intersections_ok ents) as [[Hd _] _]. split.
  - intros t l t' l' p H1 H2 P1 P2. destruct (Hg _ _ _ H1 P1) as (e & il & He & Hil & Hel).
    destruct (Hg _ _ _ H2 P2) as (e' & il' & He' & Hil' & Hel'). rewrite He in He'. injection He' as <-.
    apply nth_at_lookup in Hil as (j & Hj & ->), Hil' as (j' & Hj' & ->). f_equal. f_equal. eapply Hd; eauto.
  - intros t l p H1 P1. destruct (Hg _ _ _ H1 P1) as (e & il & He & Hil & Hel). exists e. split; [done|].
    eapply shared_held; [done|done|]. exists il. split; [by eapply nth_at_elem|done].
Qed.
Lemma c28_complete_lemma ids n m : consistent key T shape_of → listed key T ids n →
  (∀ e e', part_edge T ids n e → shared_edge key T shape_of ids n e' → key e = key e' → shared_edge key T shape_of ids n e) →
  writer key T shape_of iter ids n = Ok m →
  ∃ file, geo_file go m = Ok file ∧
    ∀ e, shared_edge key T shape_of ids n e → ∃ p e', nth_at (emap m) p = Some e' ∧ key e' = key e ∧
      ∃ t l, (t, l) ∈ groups 1 file ∧ p ∈ l.
Proof.
  intros Hc Hl Ho Hm. destruct (c67_lemma _ _ _ Hc Hm) as (_ & (Hn & Hs & Hf) & _).
  destruct (file_lemma _ _ _ Hm) as (ents & idx & sds & file & Ee & I & Ef & Hp & _ & _ & G1).
  exists file. split; [done|]. intros e He. pose proof He as (k1 & k2 & e2 & H1 & H2 & Hk & He1 & He2 & Ek).
  destruct (Hl _ H1) as (s & f & Hsf & Hfs & Ekf).
  destruct (co_edges _ _ _ Hc (shape_of k1) f e) as (e1 & Hf1 & Eke1); [by rewrite (co_shape_of _ _ _ Hc)|done|].
  destruct (co_face_edges _ _ _ Hc _ _ _ Hfs Hf1) as (w & e' & Hw & He' & Eke).
  assert (Hpf : part_face T ids n f) by (exists s; eauto).
  destruct (co_wires _ _ _ Hc f (t_forward T f) w) as (w' & Hw' & Ekw).
  { by rewrite (co_forward _ _ _ Hc). }
  { done. }
  destruct (co_edges _ _ _ Hc w w' e') as (e'' & He'' & Eke'); [done|done|].
  assert (Hpe : part_edge T ids n e'') by (exists w'; split; [exists f|]; eauto).
  pose proof (Hf _ Hpe) as Hh. apply has_inv in Hh as (x & Hx & Ekx).
  assert (Hsx : shared_edge key T shape_of ids n x) by (apply (Ho x e); [by apply Hs|done|congruence]).
  apply elem_nth_at in Hx as (p & Hpx). exists p, x. split; [done|]. split; [congruence|].
  apply (shared_held _ _ _ _ _ Hc Ee) in Hsx as (il & Hil & Hel). apply elem_nth_at in Hil as (t & Ht).
  destruct (tagged_find _ _ _ t p x (tg_e _ _ _ _ _ _ I) Hpx) as (ps & Eps & Hps).
  { apply inter_tag_spec. eauto. }
  exists t, ps. split; [by apply G1|done].
Qed.
Lemma c28_forward_lemma ids ed frags index m : let n := Net ed frags index in
  consistent key T shape_of → listed key T ids n →
  (∀ f w e, w ∈ t_wires T f → e ∈ t_edges T w → e ∈ t_edges T f) →
  (∀ s f, s ∈ frags → f ∈ t_faces T s → indexed ids n (key f) ∧ t_forward T f = f ∧ shape_of (key f) = f) →
  writer key T shape_of iter ids n = Ok m →
  ∃ file, geo_file go m = Ok file ∧
    ∀ e, shared_edge key T shape_of ids n e → ∃ p e', nth_at (emap m) p = Some e' ∧ key e' = key e ∧
      ∃ t l, (t, l) ∈ groups 1 file ∧ p ∈ l.
Proof.
  intros n Hc Hl Hw Hfw Hm. apply (c28_complete_lemma ids n m); try done.
  intros e e' (w & (f & (s & [(x & (i & y & [] & _) & _)|Hs] & Hf) & Hwf) & He) (k1 & k2 & e2 & H1 & H2 & Hk & He1 & He2 & Ek) Eke.
  destruct (Hfw s f Hs Hf) as (Hi & E1 & E2). rewrite E1 in Hwf. pose proof (Hw _ _ _ Hwf He) as Hef.
  destruct (decide (key f = k1)) as [Ef|Ef].
  - exists (key f), k2, e2. rewrite E2. repeat split; try done; congruence.
  - exists (key f), k1, e'. rewrite E2. repeat split; done.
Qed.

(** * C30 *)
Lemma fragments_app index l1 l2 : fragments_in index (l1 ++ l2) = (fragments_in (K := K) index l1 + fragments_in index l2)%N.
Proof.
  induction l1 as [|i l1 IH]; [done|].
  change (N.of_nat (size (default ∅ (index !! i))) + fragments_in index (l1 ++ l2) =
          N.of_nat (size (default ∅ (index !! i))) + fragments_in index l1 + fragments_in index l2)%N. rewrite IH. lia.
Qed.
Lemma split_cases {A} (l1 l2 k1 k2 : list A) x y : l1 ++ x :: l2 = k1 ++ y :: k2 →
  (l1 = k1 ∧ x = y) ∨ (∃ z, k1 = l1 ++ x :: z) ∨ (∃ z, l1 = k1 ++ y :: z).
Proof.
  revert k1. induction l1 as [|a l1 IH]; intros [|b k1]; cbn; intros [= -> E]; [by left|eauto|eauto|].
  destruct (IH _ E) as [[-> ->]|[(z & ->)|(z & ->)]]; [by left|right; left; eauto|right; right; eauto].
Qed.
Lemma c30_separate ids ed dd sdf frags index k1 k2 t :
  let n : network S K := CNet ed dd sdf frags index in
  (∀ id mp k i, id ∈ ids → index !! id = Some mp → mp !! k = Some i → (1 ≤ i ≤ N.of_nat (size mp))%N) →
  primary ids n k1 t → primary ids n k2 t →
  ∃ id mp i, id ∈ ids ∧ index !! id = Some mp ∧ mp !! k1 = Some i ∧ mp !! k2 = Some i.
Proof.
  intros n Hb (l1 & id & l2 & mp & i & -> & Hid & Hk & -> & _) (l1' & id' & l2' & mp' & i' & El & Hid' & Hk' & Et & _).
  assert (Hi : (1 ≤ i ≤ N.of_nat (size mp))%N) by (eapply Hb; [|done|done]; set_solver).
  assert (Hi' : (1 ≤ i' ≤ N.of_nat (size mp'))%N) by (eapply Hb; [|done|done]; rewrite El; set_solver).
  destruct (split_cases _ _ _ _ _ _ El) as [[-> <-]|[(z & ->)|(z & ->)]].
  - rewrite Hid in Hid'. injection Hid' as <-. exists id, mp, i. split; [set_solver|]. split; [done|].
    assert (i' = i) as -> by lia. done.
  - rewrite fragments_app in Et. cbn in Et. rewrite Hid in Et. cbn in Et. lia.
  - rewrite fragments_app in Et. cbn in Et. rewrite Hid' in Et. cbn in Et. lia.
Qed.
Lemma c30_lemma ids ed dd sdf frags index m file t l p1 p2 :
  let n : network S K := CNet ed dd sdf frags index in
  (∀ id mp k i, id ∈ ids → index !! id = Some mp → mp !! k = Some i → (1 ≤ i ≤ N.of_nat (size mp))%N) →
  writer key T shape_of iter ids n = Ok m → geo_file go m = Ok file →
  (t, l) ∈ groups 2 file → p1 ∈ l → p2 ∈ l →
  ∃ f1 f2 id mp i, nth_at (fmap_ m) p1 = Some f1 ∧ nth_at (fmap_ m) p2 = Some f2 ∧
    id ∈ ids ∧ index !! id = Some mp ∧ mp !! key f1 = Some i ∧ mp !! key f2 = Some i.
Proof.
  intros n Hb Hm Ef Hin H1 H2.
  destruct (c29_members_lemma _ _ _ _ _ _ _ Hm Ef Hin H1) as (f1 & N1 & P1).
  destruct (c29_members_lemma _ _ _ _ _ _ _ Hm Ef Hin H2) as (f2 & N2 & P2).
  destruct (c30_separate _ _ _ _ _ _ _ _ _ Hb P1 P2) as (id & mp & i & ?). exists f1, f2, id, mp, i. naive_solver.
Qed.
End Net.

(** ** dimensions *)
Section Dims.
Context {S K : Type} `{EqDecision S} `{Countable K} (key : S → K) (T : topo S) (shape_of : K → S)
  (iter : gmap K N → list (K * N)).

Lemma bind_total ids (index : gmap N (gmap K N)) : (∀ id, id ∈ ids → is_Some (index !! id)) →
  ∀ off acc, ∃ r, bind_sub_domains shape_of iter ids index off acc = Ok r.
Proof.
  induction ids as [|id ids IH]; cbn; intros Hs off acc; [by eexists|].
  destruct (Hs id) as [m Hm]; [by left|]. rewrite Hm. apply IH. intros i Hi. apply Hs. by right.
Qed.
Lemma solids_total idx inters ids (sdf : gmap N (list S)) : (∀ id, id ∈ ids → is_Some (sdf !! id)) →
  ∀ m, ∃ r, all_solids key T idx inters ids sdf m = Ok r.
Proof.
  induction ids as [|id ids IH]; cbn; intros Hs m; [by eexists|].
  destruct (Hs id) as [l Hl]; [by left|]. unfold at_id. rewrite Hl. cbn. apply IH.
  intros i Hi. apply Hs. by right.
Qed.
Lemma faces_total idx inters ids (fr : gmap N (list S)) : (∀ id, id ∈ ids → is_Some (fr !! id)) →
  ∀ m, ∃ r, all_faces key T idx inters ids fr m = Ok r.
Proof.
  induction ids as [|id ids IH]; cbn; intros Hs m; [by eexists|].
  destruct (Hs id) as [l Hl]; [by left|]. unfold at_id. rewrite Hl. cbn. apply IH.
  intros i Hi. apply Hs. by right.
Qed.

Lemma writer_dims_plain ids ed frags index :
  (ed = 2%Z → ∃ m, writer key T shape_of iter ids (Net ed frags index) = Ok m) ∧
  (ed ≠ 2%Z → writer key T shape_of iter ids (Net ed frags index) = Throw RuntimeError).
Proof.
  unfold writer, dims_ok. split; intros He.
  - rewrite bool_decide_true by done. cbn. destruct (bind_all _ _ _ _ _) as [ents idx]. by eexists.
  - rewrite bool_decide_false by done. done.
Qed.

Lemma writer_dims_contained ids ed dd (sdf frags : gmap N (list S)) (index : gmap N (gmap K N)) :
  (∀ id, id ∈ ids → is_Some (sdf !! id) ∧ is_Some (frags !! id) ∧ is_Some (index !! id)) →
  (ed = 2%Z ∧ dd = 3%Z → ∃ m, writer key T shape_of iter ids (CNet ed dd sdf frags index) = Ok m) ∧
  (ed ≠ 2%Z ∨ dd ≠ (ed + 1)%Z →
     writer key T shape_of iter ids (CNet ed dd sdf frags index) = Throw RuntimeError).
Proof.
  intros Hs. unfold writer, dims_ok. split.
  - intros [-> ->]. rewrite !bool_decide_true by done. cbn.
    destruct (bind_total ids index) with (off := 0%N) (acc := ([] : list S, ∅ : gmap K N)) as [[ents idx] ->].
    { intros i Hi. by apply Hs. }
    cbn. destruct (solids_total idx (find_intersections key T ents) ids sdf) with (m := no_maps (S := S)) as [m ->].
    { intros i Hi. by apply Hs. }
    cbn. apply faces_total. intros i Hi. by apply Hs.
  - intros Hd. destruct (bool_decide_reflect (ed = 2%Z)), (bool_decide_reflect (dd = (ed + 1)%Z)); cbn; try done.
    tauto.
Qed.
End Dims.
