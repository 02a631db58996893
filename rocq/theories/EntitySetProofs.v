(** Proofs about MultiGeometryEntitySet: refinement to a finite map. *)

From stdpp Require Import prelude gmap list.
From Verif Require Import Base EntitySetModel EntitySetSpec.

Section Proofs.
Context {E : Type} (tyname : nat → N) (ntypes : nat).
Implicit Types (s : eset E) (m : smap E) (e : E) (h : list (eop E)).

(** Refinement relation. *)
Record Rel s m : Prop := {
  rel_len : length (sets s) = ntypes;
  rel_names : ∀ id, names s !! id = (λ p, tyname p.1) <$> (m !! id);
  rel_fwd : ∀ id ty es, m !! id = Some (ty, es) → ∃ l, sets s !! ty = Some l ∧ (es, id) ∈ l;
  rel_bwd : ∀ ty l es id, sets s !! ty = Some l → (es, id) ∈ l → m !! id = Some (ty, es);
  rel_nodup : ∀ ty l, sets s !! ty = Some l → NoDup l.*2;
}.

Lemma rel_init : Rel (es_init ntypes) ∅.
Proof.
  split; simpl.
  - apply replicate_length.
  - intros id. by rewrite !lookup_empty.
  - intros id ty es H. by rewrite lookup_empty in H.
  - intros ty l es id H Hin. apply lookup_replicate in H as [-> _]. by apply elem_of_nil in Hin.
  - intros ty l H. apply lookup_replicate in H as [-> _]. constructor.
Qed.

Lemma find_pair_elem id (l : list (list E * N)) es : find_pair id l = Some es → (es, id) ∈ l.
Proof.
  induction l as [|[x i] l IH]; simpl; [done|]. case_bool_decide.
  - intros [= ->]. subst. by left.
  - intros H'. right. by apply IH.
Qed.
Lemma find_pair_None id (l : list (list E * N)) : find_pair id l = None → ∀ es, (es, id) ∉ l.
Proof.
  induction l as [|[y i] l IH]; simpl; intros H x Hx; [by apply elem_of_nil in Hx|].
  case_bool_decide; [done|]. apply elem_of_cons in Hx as [[= -> ->]|Hx]; [done|]. by eapply IH.
Qed.
Lemma find_set_elem id (ls : list (list (list E * N))) ty es :
  find_set id ls = Some (ty, es) → ∃ l, ls !! ty = Some l ∧ (es, id) ∈ l.
Proof.
  revert ty. induction ls as [|l ls IH]; intros ty Hf; [done|]. cbn [find_set] in Hf.
  destruct (find_pair id l) as [y|] eqn:Ep.
  - injection Hf as <- <-. exists l. split; [done|]. by apply find_pair_elem.
  - destruct (find_set id ls) as [[ty' y]|]; [|done]. injection Hf as <- <-.
    destruct (IH ty' eq_refl) as (l' & Hl' & Hin). by exists l'.
Qed.
Lemma find_set_None id (ls : list (list (list E * N))) :
  find_set id ls = None → ∀ ty l es, ls !! ty = Some l → (es, id) ∉ l.
Proof.
  induction ls as [|l ls IH]; intros Hf ty l' es Hl; [done|].
  cbn [find_set] in Hf. destruct (find_pair id l) eqn:Ep; [done|].
  destruct (find_set id ls) as [[??]|]; [done|]. destruct ty as [|ty]; simpl in Hl.
  - injection Hl as <-. by apply find_pair_None.
  - by eapply IH.
Qed.

Lemma apply_on_set_rel s m id : Rel s m → apply_on_set id s = m !! id.
Proof.
  intros HR. unfold apply_on_set. rewrite (rel_names _ _ HR).
  destruct (m !! id) as [[ty es]|] eqn:Em; [|done]. simpl.
  destruct (find_set id (sets s)) as [[ty' es']|] eqn:Ef.
  - apply find_set_elem in Ef as (l & Hl & Hin).
    rewrite (rel_bwd _ _ HR _ _ _ _ Hl Hin) in Em. done.
  - exfalso. destruct (rel_fwd _ _ HR _ _ _ Em) as (l & Hl & Hin).
    by eapply find_set_None.
Qed.

Lemma push_into_spec e id (l : list (list E * N)) :
  NoDup l.*2 →
  match push_into e id l with
  | None => ∀ es, (es, id) ∉ l
  | Some l' => ∃ l1 es l2, l = l1 ++ (es, id) :: l2 ∧ l' = l1 ++ (es ++ [e], id) :: l2
  end.
Proof.
  induction l as [|[es i] l IH]; cbn [push_into]; intros Hnd.
  { intros es H. by apply elem_of_nil in H. }
  case_bool_decide as Hi.
  - subst. by exists [], es, l.
  - simpl in Hnd. apply NoDup_cons in Hnd as [_ Hnd]. specialize (IH Hnd).
    destruct (push_into e id l) as [l'|].
    + destruct IH as (l1 & es' & l2 & -> & ->). by exists ((es, i) :: l1), es', l2.
    + intros es' Hin. apply elem_of_cons in Hin as [[= -> ->]|Hin]; [done|]. by eapply IH.
Qed.

Lemma add_entity_refines s m ty e id :
  Rel s m → ty < ntypes →
  match spec_add ty e id m with
  | Some m' => fst (add_entity tyname ty e id s) = Ok tt ∧ Rel (snd (add_entity tyname ty e id s)) m'
  | None => add_entity tyname ty e id s = (Throw RuntimeError, s)
  end.
Proof.
  intros HR Hty. unfold add_entity, spec_add.
  destruct (lookup_lt_is_Some_2 (sets s) ty) as [l Hl]; [by rewrite (rel_len _ _ HR)|].
  rewrite Hl, (rel_names _ _ HR).
  destruct (m !! id) as [[ty' es]|] eqn:Em; simpl.
  - pose proof (push_into_spec e id l (rel_nodup _ _ HR _ _ Hl)) as Hp.
    destruct (bool_decide_reflect (tyname ty' ≠ tyname ty)) as [Hn|Hn].
    + rewrite bool_decide_eq_false_2; [done|]. by intros ->.
    + case_bool_decide as Hty'.
      * subst ty'. destruct (rel_fwd _ _ HR _ _ _ Em) as (l' & Hl' & Hin).
        rewrite Hl in Hl'. injection Hl' as <-.
        destruct (push_into e id l) as [l''|]; [|by exfalso; eapply Hp].
        destruct Hp as (l1 & es' & l2 & -> & ->).
        assert (es' = es) as ->.
        { assert (Hin' : (es', id) ∈ l1 ++ (es', id) :: l2) by set_solver.
          pose proof (rel_bwd _ _ HR _ _ _ _ Hl Hin') as Hm. congruence. }
        split; [done|]. cbn [snd].
        pose proof (rel_nodup _ _ HR _ _ Hl) as Hnd.
        rewrite fmap_app, fmap_cons in Hnd. cbn in Hnd.
        assert (Hlen : ty < length (sets s)) by (by rewrite (rel_len _ _ HR)).
        split; cbn [sets names].
        -- rewrite insert_length. apply HR.
        -- intros i. rewrite (rel_names _ _ HR). destruct (decide (i = id)) as [->|Hne].
           ++ by rewrite lookup_insert, Em.
           ++ by rewrite lookup_insert_ne.
        -- intros i t es0 Hi. destruct (decide (i = id)) as [->|Hne].
           ++ rewrite lookup_insert in Hi. injection Hi as <- <-.
              exists (l1 ++ (es ++ [e], id) :: l2). rewrite list_lookup_insert by done.
              split; [done|]. set_solver.
           ++ rewrite lookup_insert_ne in Hi by done.
              destruct (rel_fwd _ _ HR _ _ _ Hi) as (l0 & Hl0 & Hin0).
              destruct (decide (t = ty)) as [->|Hnt].
              ** exists (l1 ++ (es ++ [e], id) :: l2). rewrite list_lookup_insert by done.
                 split; [done|]. rewrite Hl in Hl0. injection Hl0 as <-.
                 rewrite elem_of_app, elem_of_cons in Hin0 |- *.
                 destruct Hin0 as [?|[[= -> ->]|?]]; auto. done.
              ** exists l0. by rewrite list_lookup_insert_ne.
        -- intros t l0 es0 i Hl0 Hin0. destruct (decide (t = ty)) as [->|Hnt].
           ++ rewrite list_lookup_insert in Hl0 by done. injection Hl0 as <-.
              apply NoDup_app in Hnd as (_ & Hnd1 & Hnd2). apply NoDup_cons in Hnd2 as [Hnd2 _].
              rewrite elem_of_app, elem_of_cons in Hin0.
              destruct Hin0 as [Hin0|[[= -> ->]|Hin0]].
              ** assert (i ≠ id).
                 { intros ->. apply (Hnd1 id); [|by left].
                   apply elem_of_list_fmap. by exists (es0, id). }
                 rewrite lookup_insert_ne by done. eapply (rel_bwd _ _ HR); [exact Hl|]. set_solver.
              ** by rewrite lookup_insert.
              ** assert (i ≠ id).
                 { intros ->. apply Hnd2. apply elem_of_list_fmap. by exists (es0, id). }
                 rewrite lookup_insert_ne by done. eapply (rel_bwd _ _ HR); [exact Hl|]. set_solver.
           ++ rewrite list_lookup_insert_ne in Hl0 by done.
              pose proof (rel_bwd _ _ HR _ _ _ _ Hl0 Hin0) as Hm.
              assert (i ≠ id) by (intros ->; congruence).
              by rewrite lookup_insert_ne.
        -- intros t l0 Hl0. destruct (decide (t = ty)) as [->|Hnt].
           ++ rewrite list_lookup_insert in Hl0 by done. injection Hl0 as <-.
              by rewrite fmap_app, fmap_cons.
           ++ rewrite list_lookup_insert_ne in Hl0 by done. by eapply HR.
      * destruct (push_into e id l) as [l''|]; [|done].
        exfalso. destruct Hp as (l1 & es' & l2 & -> & _).
        assert (Hin : (es', id) ∈ l1 ++ (es', id) :: l2) by set_solver.
        pose proof (rel_bwd _ _ HR _ _ _ _ Hl Hin). congruence.
  - split; [done|].
    assert (Hlen : ty < length (sets s)) by (by rewrite (rel_len _ _ HR)).
    split; cbn [sets names].
    + rewrite insert_length. apply HR.
    + intros i. destruct (decide (i = id)) as [->|Hne].
      * by rewrite !lookup_insert.
      * rewrite !lookup_insert_ne by done. apply HR.
    + intros i t es0 Hi. destruct (decide (i = id)) as [->|Hne].
      * rewrite lookup_insert in Hi. injection Hi as <- <-.
        eexists. rewrite list_lookup_insert by done. split; [done|]. set_solver.
      * rewrite lookup_insert_ne in Hi by done.
        destruct (rel_fwd _ _ HR _ _ _ Hi) as (l0 & Hl0 & Hin0).
        destruct (decide (t = ty)) as [->|Hnt].
        -- eexists. rewrite list_lookup_insert by done. split; [done|].
           rewrite Hl in Hl0. injection Hl0 as <-. set_solver.
        -- exists l0. by rewrite list_lookup_insert_ne.
    + intros t l0 es0 i Hl0 Hin0. destruct (decide (t = ty)) as [->|Hnt].
      * rewrite list_lookup_insert in Hl0 by done. injection Hl0 as <-.
        rewrite elem_of_app, elem_of_list_singleton in Hin0.
        destruct Hin0 as [Hin0|[= -> ->]].
        -- pose proof (rel_bwd _ _ HR _ _ _ _ Hl Hin0) as Hm.
           assert (i ≠ id) by (intros ->; congruence). by rewrite lookup_insert_ne.
        -- by rewrite lookup_insert.
      * rewrite list_lookup_insert_ne in Hl0 by done.
        pose proof (rel_bwd _ _ HR _ _ _ _ Hl0 Hin0) as Hm.
        assert (i ≠ id) by (intros ->; congruence). by rewrite lookup_insert_ne.
    + intros t l0 Hl0. destruct (decide (t = ty)) as [->|Hnt].
      * rewrite list_lookup_insert in Hl0 by done. injection Hl0 as <-.
        rewrite fmap_app. apply NoDup_app. split_and!.
        -- by eapply HR.
        -- intros i Hi Hi'. simpl in Hi'. apply elem_of_list_singleton in Hi'. subst i.
           apply elem_of_list_fmap in Hi as ([es0 i] & -> & Hin). simpl in *.
           pose proof (rel_bwd _ _ HR _ _ _ _ Hl Hin). congruence.
        -- apply NoDup_singleton.
      * rewrite list_lookup_insert_ne in Hl0 by done. by eapply HR.
Qed.

Lemma first_type_lt n ty0 k ty : first_type tyname n ty0 k = Some ty → ty < ty0 + k ∧ tyname ty = n.
Proof.
  revert ty0. induction k as [|k IH]; intros ty0; simpl; [done|].
  case_bool_decide.
  - intros [= <-]. split; [lia|done].
  - intros H'. apply IH in H' as [??]. split; [lia|done].
Qed.

Lemma estep_refines s m o :
  Rel s m → typed ntypes o →
  match spec_step tyname ntypes m o with
  | Some m' => fst (estep tyname s o) = Ok tt ∧ Rel (snd (estep tyname s o)) m'
  | None => estep tyname s o = (Throw RuntimeError, s)
  end.
Proof.
  intros HR Ho. destruct o as [ty e id|n e id]; cbn [estep spec_step].
  - by apply add_entity_refines.
  - unfold add_entity_ptr. rewrite (rel_len _ _ HR).
    destruct (first_type tyname n 0 ntypes) as [ty|] eqn:Ef; [|done].
    apply first_type_lt in Ef as [? _]. by apply add_entity_refines.
Qed.

Lemma erun_refines h : Forall (typed ntypes) h → Rel (erun tyname ntypes h) (spec_run tyname ntypes h).
Proof.
  induction h as [|o h IH] using rev_ind; intros Hh; [apply rel_init|].
  apply Forall_app in Hh as [Hh Ho]. rewrite Forall_singleton in Ho. specialize (IH Hh).
  unfold erun, spec_run in *. rewrite !fold_left_app. simpl.
  set (s := fold_left _ h (es_init ntypes)) in *. set (m := fold_left _ h (∅ : smap E)) in *.
  pose proof (estep_refines s m o IH Ho) as Hs.
  destruct (spec_step tyname ntypes m o) as [m'|]; simpl.
  - apply Hs.
  - by rewrite Hs.
Qed.

Lemma c10_lemma h id :
  Forall (typed ntypes) h →
  apply_on_set id (erun tyname ntypes h) = spec_run tyname ntypes h !! id.
Proof. intros Hh. apply apply_on_set_rel. by apply erun_refines. Qed.

Lemma c10_outcome_lemma h o :
  Forall (typed ntypes) h → typed ntypes o →
  fst (estep tyname (erun tyname ntypes h) o) =
    match spec_step tyname ntypes (spec_run tyname ntypes h) o with
    | Some _ => Ok tt
    | None => Throw RuntimeError
    end.
Proof.
  intros Hh Ho. pose proof (estep_refines _ _ o (erun_refines h Hh) Ho) as Hs.
  destruct (spec_step _ _ _ _); [apply Hs|by rewrite Hs].
Qed.

Lemma c11_lemma h ty e id ty' es :
  Forall (typed ntypes) h → ty < ntypes →
  apply_on_set id (erun tyname ntypes h) = Some (ty', es) → ty ≠ ty' →
  estep tyname (erun tyname ntypes h) (AddEntity ty e id) = (Throw RuntimeError, erun tyname ntypes h).
Proof.
  intros Hh Hty Ha Hne. rewrite c10_lemma in Ha by done.
  pose proof (estep_refines _ _ (AddEntity ty e id) (erun_refines h Hh) Hty) as Hs.
  cbn [spec_step] in Hs. unfold spec_add in Hs. rewrite Ha in Hs.
  rewrite bool_decide_eq_false_2 in Hs by done. done.
Qed.

Lemma c11_failure_lemma h o :
  Forall (typed ntypes) h → typed ntypes o →
  fst (estep tyname (erun tyname ntypes h) o) ≠ Ok tt →
  snd (estep tyname (erun tyname ntypes h) o) = erun tyname ntypes h.
Proof.
  intros Hh Ho Hf. pose proof (estep_refines _ _ o (erun_refines h Hh) Ho) as Hs.
  destruct (spec_step _ _ _ _); [by destruct Hs|by rewrite Hs].
Qed.

(** Counting. *)
Definition count_all m : nat := length (all_entities m).

Lemma num_entities_id_rel s m id :
  Rel s m → num_entities_id id s = match m !! id with Some (_, es) => length es | None => 0 end.
Proof. intros HR. unfold num_entities_id. by rewrite (apply_on_set_rel _ m). Qed.

Lemma fold_sum {A} (f : A → nat) l a : fold_left (λ acc x, acc + f x) l a = a + sum_list_with f l.
Proof. revert a. induction l as [|x l IH]; intros a; simpl; [lia|]. rewrite IH. lia. Qed.

Lemma sum_list_with_perm {A} (f : A → nat) l l' : l ≡ₚ l' → sum_list_with f l = sum_list_with f l'.
Proof. induction 1; simpl; lia. Qed.

Lemma all_entities_length m :
  length (all_entities m) = sum_list_with (λ kv, length kv.2.2) (map_to_list m).
Proof.
  unfold all_entities. induction (map_to_list m) as [|[k [t es]] l IH]; [done|].
  cbn. rewrite app_length, IH. f_equal. unfold tag. by rewrite fmap_length.
Qed.

Lemma names_dom s m : Rel s m → names s = (λ p, tyname p.1) <$> m.
Proof. intros HR. apply map_eq. intros i. rewrite lookup_fmap. apply HR. Qed.

Lemma c12_num_lemma h order :
  Forall (typed ntypes) h →
  order ≡ₚ map_to_list (names (erun tyname ntypes h)) →
  num_entities (erun tyname ntypes h) order = length (all_entities (spec_run tyname ntypes h)) ∧
  num_entities (erun tyname ntypes h) order =
    sum_list_with (λ id, num_entities_id id (erun tyname ntypes h)) order.*1.
Proof.
  intros Hh Hord. pose proof (erun_refines h Hh) as HR.
  set (s := erun tyname ntypes h) in *. set (m := spec_run tyname ntypes h) in *.
  unfold num_entities. rewrite (fold_sum (λ kn : N * N, num_entities_id kn.1 s)). cbn [Nat.add].
  split.
  - rewrite (sum_list_with_perm _ _ _ Hord), (names_dom _ _ HR).
    rewrite (sum_list_with_perm _ _ _ (map_to_list_fmap _ _)), all_entities_length.
    assert (Hin : ∀ kv, kv ∈ map_to_list m → m !! kv.1 = Some kv.2).
    { intros [k v] Hkv. by apply elem_of_map_to_list in Hkv. }
    induction (map_to_list m) as [|[k [t es]] l IH]; [done|].
    cbn. rewrite IH by (intros kv Hkv; apply Hin; by right). f_equal.
    rewrite (num_entities_id_rel _ m) by done.
    specialize (Hin (k, (t, es)) ltac:(by left)). simpl in Hin. by rewrite Hin.
  - clear. induction order as [|[k n] l IH]; [done|]. simpl. by rewrite IH.
Qed.

Lemma concat_mjoin {A} (L : list (list A)) : concat L = mjoin L.
Proof. induction L as [|l L IH]; [done|]. simpl. by rewrite IH. Qed.
Lemma concat_fmap_fmap {A B} (f : A → B) (L : list (list A)) : (f <$> (concat L : list A) : list B) = concat ((fmap f : list A → list B) <$> L).
Proof. induction L as [|l L IH]; [done|]. simpl. by rewrite fmap_app, IH. Qed.

(** Exporting: the entries of the tuple are exactly the entries of the map. *)
Definition entries (ls : list (list (list E * N))) : list (N * (nat * list E)) :=
  concat (imap (λ ty l, (λ p, (p.2, (ty, p.1))) <$> l) ls).

Lemma elem_entries ls id ty es :
  (id, (ty, es)) ∈ entries ls ↔ ∃ l, ls !! ty = Some l ∧ (es, id) ∈ l.
Proof.
  unfold entries. rewrite concat_mjoin, elem_of_list_join. split.
  - intros (x & Hx & Hin). apply elem_of_lookup_imap in Hin as (i & l & -> & Hl).
    apply elem_of_list_fmap in Hx as ([es' id'] & [= -> -> ->] & Hin'). eauto.
  - intros (l & Hl & Hin). exists ((λ p, (p.2, (ty, p.1))) <$> l). split.
    + apply elem_of_list_fmap. by exists (es, id).
    + apply elem_of_lookup_imap. eauto.
Qed.

Lemma entries_ids (ls : list (list (list E * N))) :
  (entries ls).*1 = concat ((λ l : list (list E * N), l.*2) <$> ls).
Proof.
  unfold entries. rewrite concat_fmap_fmap. f_equal. rewrite fmap_imap.
  rewrite (imap_ext _ (λ _ l, l.*2)).
  - apply imap_const.
  - intros i l _. simpl. rewrite <- list_fmap_compose. done.
Qed.

Lemma entries_NoDup s m : Rel s m → NoDup (entries (sets s)).*1.
Proof.
  intros HR. rewrite entries_ids.
  assert (Hgen : ∀ ls : list (list (list E * N)),
    (∀ ty l, ls !! ty = Some l → NoDup l.*2) →
    (∀ ty1 ty2 l1 l2 id es1 es2, ls !! ty1 = Some l1 → ls !! ty2 = Some l2 →
       (es1, id) ∈ l1 → (es2, id) ∈ l2 → ty1 = ty2) →
    NoDup (concat ((λ l : list (list E * N), l.*2) <$> ls))).
  { clear. induction ls as [|l ls IH]; intros Hnd Hdis; [constructor|].
    simpl. apply NoDup_app. split_and!.
    - by apply (Hnd 0).
    - intros i Hi Hi'.
      apply elem_of_list_fmap in Hi as ([es1 i1] & -> & Hin1).
      rewrite concat_mjoin in Hi'. apply elem_of_list_join in Hi' as (x & Hx & Hin2).
      apply elem_of_list_fmap in Hin2 as (l2 & -> & Hl2).
      apply elem_of_list_fmap in Hx as ([es2 i2] & Heq & Hin2). simpl in Heq. subst i2.
      apply elem_of_list_lookup in Hl2 as [ty2 Hl2].
      specialize (Hdis 0 (S ty2) l l2 i1 es1 es2 eq_refl Hl2 Hin1 Hin2). lia.
    - apply IH.
      + intros ty l' Hl'. by apply (Hnd (S ty)).
      + intros ty1 ty2 l1 l2 id es1 es2 H1 H2 Hi1 Hi2.
        specialize (Hdis (S ty1) (S ty2) l1 l2 id es1 es2 H1 H2 Hi1 Hi2). lia. }
  apply Hgen.
  - intros ty l Hl. by eapply HR.
  - intros ty1 ty2 l1 l2 id es1 es2 H1 H2 Hi1 Hi2.
    pose proof (rel_bwd _ _ HR _ _ _ _ H1 Hi1). pose proof (rel_bwd _ _ HR _ _ _ _ H2 Hi2). congruence.
Qed.

Lemma entries_perm s m : Rel s m → entries (sets s) ≡ₚ map_to_list m.
Proof.
  intros HR. apply NoDup_Permutation.
  - eapply NoDup_fmap_1. by eapply entries_NoDup.
  - apply NoDup_map_to_list.
  - intros [id [ty es]]. rewrite elem_entries, elem_of_map_to_list. split.
    + intros (l & Hl & Hin). by eapply HR.
    + intros Hm. by apply HR.
Qed.

Lemma export_all_entries s : export_all s = snd <$> entries (sets s).
Proof.
  unfold export_all, entries. rewrite concat_fmap_fmap. f_equal. rewrite fmap_imap.
  apply imap_ext. intros i l _. simpl. rewrite <- list_fmap_compose. done.
Qed.

Lemma export_ids_entries idl s :
  export_ids idl s = snd <$> filter (λ kv, kv.1 ∈ idl) (entries (sets s)).
Proof.
  unfold export_ids, entries.
  assert (Hf : ∀ L : list (list (N * (nat * list E))),
     filter (λ kv, kv.1 ∈ idl) (concat L) = concat (filter (λ kv, kv.1 ∈ idl) <$> L)).
  { induction L as [|x L IH]; [done|]. simpl. by rewrite filter_app, IH. }
  rewrite Hf, concat_fmap_fmap. f_equal. rewrite !fmap_imap. apply imap_ext.
  intros i l _. simpl. induction l as [|[es id] l IH]; [done|].
  rewrite fmap_cons, !filter_cons. simpl. destruct (decide (id ∈ idl)); [|done].
  rewrite !fmap_cons. by rewrite IH.
Qed.

Lemma flatten_perm (l l' : list (nat * list E)) : l ≡ₚ l' → flatten l ≡ₚ flatten l'.
Proof. intros H. unfold flatten. by rewrite H. Qed.

Lemma all_entities_flatten m : all_entities m = flatten (snd <$> map_to_list m).
Proof.
  unfold all_entities, flatten. induction (map_to_list m) as [|x l IH]; [done|].
  cbn. by rewrite IH.
Qed.

Lemma c12_export_lemma h :
  Forall (typed ntypes) h →
  flatten (export_all (erun tyname ntypes h)) ≡ₚ all_entities (spec_run tyname ntypes h).
Proof.
  intros Hh. rewrite all_entities_flatten, export_all_entries. apply flatten_perm.
  by rewrite (entries_perm _ _ (erun_refines h Hh)).
Qed.

Lemma c12_export_ids_lemma h idl :
  Forall (typed ntypes) h →
  flatten (export_ids idl (erun tyname ntypes h)) ≡ₚ entities_of idl (spec_run tyname ntypes h).
Proof.
  intros Hh. unfold entities_of. rewrite all_entities_flatten, export_ids_entries.
  apply flatten_perm. rewrite (entries_perm _ _ (erun_refines h Hh)).
  apply fmap_Permutation. apply NoDup_Permutation.
  - apply NoDup_filter, NoDup_map_to_list.
  - apply NoDup_map_to_list.
  - intros [k v]. rewrite elem_of_list_filter, !elem_of_map_to_list, map_filter_lookup_Some. tauto.
Qed.
End Proofs.
