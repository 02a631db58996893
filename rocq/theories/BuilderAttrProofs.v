(** Proofs for BuilderProps.v: attribution of the fragments. *)

From stdpp Require Import prelude gmap list.
From Verif Require Import Base StatusModel BuilderModel BuilderSpec BuilderProofs.

Lemma through_int_small id : (id < 2^31)%N → through_int id = id.
Proof.
  intros Hid. unfold through_int, int_of_size, size_of_int.
  rewrite N.mod_small by lia. rewrite bool_decide_true by lia.
  rewrite Z.mod_small by lia. lia.
Qed.

Section Files.
Context {S K : Type} `{EqDecision S} `{Countable K} (key : S → K).

(** List and map agree on what is filed. *)
Definition cover (lm : list S * gmap K N) : Prop :=
  ∀ κ, is_Some (lm.2 !! κ) ↔ ∃ g, g ∈ lm.1 ∧ key g = κ.

Lemma put_spec i f lm :
  cover lm →
  cover (put key i f lm) ∧
  (∀ g, g ∈ (put key i f lm).1 ↔ g ∈ lm.1 ∨ g = f) ∧
  (∀ κ j, (put key i f lm).2 !! κ = Some j → lm.2 !! κ = Some j ∨ (j = i ∧ κ = key f)).
Proof.
  destruct lm as [l m]. intros Hc. cbn [put].
  assert (Hl : ∀ g, g ∈ (if bool_decide (f ∈ l) then l else l ++ [f]) ↔ g ∈ l ∨ g = f).
  { intros g. destruct (bool_decide_reflect (f ∈ l)); set_solver. }
  split; [|split; [done|]].
  - intros κ. cbn. split.
    + destruct (m !! key f) as [j|] eqn:E.
      * intros (g & Hg & <-)%Hc. exists g. split; [apply Hl; by left|done].
      * intros Hs. destruct (decide (key f = κ)) as [<-|Hne]; [exists f; split; [apply Hl; by right|done]|].
        rewrite lookup_insert_ne in Hs by done. apply Hc in Hs as (g & Hg & <-).
        exists g. split; [apply Hl; by left|done].
    + intros (g & [Hg| ->]%Hl & <-).
      * assert (Hs : is_Some (m !! key g)) by (apply Hc; eauto).
        destruct (m !! key f); [done|]. apply lookup_insert_is_Some. destruct (decide (key f = key g)); [by left|by right].
      * destruct (m !! key f) eqn:E; [by rewrite E|]. rewrite lookup_insert. eauto.
  - cbn. intros κ j. destruct (m !! key f) eqn:E; [by left|].
    intros [[<- <-]|[_ ?]]%lookup_insert_Some; [by right|by left].
Qed.

Lemma puts_spec i fs lm :
  cover lm →
  let lm' := fold_left (λ lm f, put key i f lm) fs lm in
  cover lm' ∧ (∀ g, g ∈ lm'.1 ↔ g ∈ lm.1 ∨ g ∈ fs) ∧
  (∀ κ j, lm'.2 !! κ = Some j → lm.2 !! κ = Some j ∨ (j = i ∧ ∃ f, f ∈ fs ∧ κ = key f)).
Proof.
  revert lm. induction fs as [|f fs IH]; intros lm Hc; cbn [fold_left].
  { split; [done|]. split; [set_solver|]. intros κ j Hj. by left. }
  destruct (put_spec i f lm Hc) as (Hc1 & Hl1 & Hm1). destruct (IH _ Hc1) as (Hc2 & Hl2 & Hm2).
  split; [done|]. split.
  - intros g. rewrite Hl2, Hl1. set_solver.
  - intros κ j [Hj|(-> & f' & Hf' & ->)]%Hm2.
    + apply Hm1 in Hj as [?|[-> ->]]; [by left|]. right. split; [done|]. exists f. split; [left|done].
    + right. split; [done|]. exists f'. split; [by right|done].
Qed.

Lemma file_spec h s i lm :
  cover lm →
  cover (file key h s i lm) ∧
  (∀ g, g ∈ (file key h s i lm).1 ↔ g ∈ lm.1 ∨ piece h s g) ∧
  (∀ κ j, (file key h s i lm).2 !! κ = Some j → lm.2 !! κ = Some j ∨ (j = i ∧ ∃ g, piece h s g ∧ κ = key g)).
Proof.
  intros Hc. unfold file.
  destruct (negb (is_deleted h s) && bool_decide (generated h s = []) && bool_decide (modified h s = [])) eqn:E.
  - apply andb_true_iff in E as [E E3%bool_decide_eq_true]. apply andb_true_iff in E as [E1%negb_true_iff E2%bool_decide_eq_true].
    rewrite E2, E3. cbn [app fold_left].
    assert (Hp : ∀ g, piece h s g ↔ g = s).
    { intros g. unfold piece. rewrite E1, E2, E3. set_solver. }
    split; [|split].
    + intros κ. cbn. rewrite lookup_insert_is_Some. rewrite (Hc κ). split.
      * intros [<-|(_ & g & Hg & <-)]; [exists s; set_solver|exists g; set_solver].
      * intros (g & Hg & <-). destruct (decide (key s = key g)); [by left|right]. split; [done|].
        exists g. split; [|done]. set_solver.
    + intros g. cbn. rewrite elem_of_app, elem_of_list_singleton, Hp. done.
    + cbn. intros κ j [[<- <-]|[_ ?]]%lookup_insert_Some; [|by left].
      right. split; [done|]. exists s. split; [by apply Hp|done].
  - assert (Hp : ∀ g, piece h s g ↔ g ∈ generated h s ++ modified h s).
    { intros g. rewrite elem_of_app. unfold piece. split; [|tauto].
      intros [?|[?|(-> & E1 & E2 & E3)]]; [by left|by right|].
      by rewrite E1, E2, E3 in E. }
    destruct (puts_spec i (generated h s ++ modified h s) lm Hc) as (Hc1 & Hl1 & Hm1).
    split; [done|]. split.
    + intros g. rewrite Hl1, Hp. done.
    + intros κ j [?|(-> & f & Hf & ->)]%Hm1; [by left|]. right. split; [done|]. exists f. by rewrite Hp.
Qed.

(** All entities of a network. *)
Lemma file_all_ok h idx ss lm :
  (∀ s, s ∈ ss → is_Some (idx !! key s)) → ∃ lm', file_all key h idx ss lm = Ok lm'.
Proof.
  revert lm. induction ss as [|s ss IH]; intros lm Hs; [eauto|]. cbn [file_all].
  destruct (Hs s) as [i ->]; [left|]. apply IH. intros t Ht. apply Hs. by right.
Qed.

Lemma file_all_spec h idx ss lm lm' :
  cover lm → file_all key h idx ss lm = Ok lm' →
  cover lm' ∧
  (∀ g, g ∈ lm'.1 ↔ g ∈ lm.1 ∨ ∃ s, s ∈ ss ∧ piece h s g) ∧
  (∀ κ j, lm'.2 !! κ = Some j →
     lm.2 !! κ = Some j ∨ ∃ s g, s ∈ ss ∧ idx !! key s = Some j ∧ piece h s g ∧ κ = key g).
Proof.
  revert lm. induction ss as [|s ss IH]; intros lm Hc; cbn [file_all].
  { intros [= <-]. split; [done|]. split; [|by left]. intros g. set_solver. }
  destruct (idx !! key s) as [i|] eqn:Ei; [|done]. intros Hf.
  destruct (file_spec h s i lm Hc) as (Hc1 & Hl1 & Hm1).
  destruct (IH _ Hc1 Hf) as (Hc2 & Hl2 & Hm2). split; [done|]. split.
  - intros g. rewrite Hl2, Hl1. split.
    + intros [[?|?]|(t & Ht & ?)]; [by left|right; exists s; split; [left|done]|right; exists t; split; [by right|done]].
    + intros [?|(t & [->|Ht]%elem_of_cons & ?)]; [by left; left|by left; right|right; eauto].
  - intros κ j [Hj|(t & g & Ht & ? & ? & ?)]%Hm2.
    + apply Hm1 in Hj as [?|(-> & g & ? & ->)]; [by left|]. right. exists s, g. repeat split; try done. left.
    + right. exists t, g. repeat split; try done. by right.
Qed.

(** Initial numbering. *)
Lemma number_spec ss i m κ j :
  number key i ss m !! κ = Some j →
  m !! κ = Some j ∨ ∃ n s, ss !! n = Some s ∧ j = (i + N.of_nat n)%N ∧ κ = key s.
Proof.
  revert i m. induction ss as [|s ss IH]; intros i m; cbn [number]; [by left|].
  intros [Hj|(n & t & Ht & -> & ->)]%IH.
  - apply lookup_insert_Some in Hj as [[<- <-]|[_ ?]]; [|by left]. right. exists 0, s. split; [done|]. split; [lia|done].
  - right. exists (Datatypes.S n), t. split; [done|]. split; [lia|done].
Qed.

Lemma number_covers ss i m :
  ∀ s, s ∈ ss ∨ is_Some (m !! key s) → is_Some (number key i ss m !! key s).
Proof.
  revert i m. induction ss as [|s ss IH]; intros i m t; cbn [number].
  { intros [Ht|?]; [by apply elem_of_nil in Ht|done]. }
  intros [[->|Ht]%elem_of_cons|Ht]; apply IH.
  - right. rewrite lookup_insert. eauto.
  - by left.
  - right. apply lookup_insert_is_Some. destruct (decide (key s = key t)); [by left|by right].
Qed.

(** Tagging. *)
Lemma bind_ids_spec (t : list (S * N)) (s : S) id :
  (∀ p q, p ∈ t → q ∈ t → key p.1 = key q.1 → p.2 = q.2) →
  (s, id) ∈ t → bind_ids key t !! key s = Some (int_of_size id).
Proof.
  intros Hd Hs. unfold bind_ids.
  assert (G : ∀ t' (m : gmap K Z), (∀ p, p ∈ t' → key p.1 = key s → p.2 = id) →
            m !! key s = Some (int_of_size id) ∨ (s, id) ∈ t' →
            fold_left (λ m (p : S * N), <[key p.1 := int_of_size p.2]> m) t' m !! key s = Some (int_of_size id)).
  { induction t' as [|p t' IH]; intros m Ht [Hm|Hin]; cbn.
    - done.
    - by apply elem_of_nil in Hin.
    - apply IH; [intros q Hq; apply Ht; by right|]. left.
      destruct (decide (key p.1 = key s)) as [E|E].
      + rewrite E, lookup_insert. f_equal. f_equal. apply Ht; [left|done].
      + by rewrite lookup_insert_ne.
    - apply IH; [intros q Hq; apply Ht; by right|].
      apply elem_of_cons in Hin as [<-|Hin]; [|by right]. left. cbn. by rewrite lookup_insert. }
  apply G; [|by right]. intros p Hp E. by apply (Hd p (s, id)).
Qed.

(** Refiling: per id, the entities with that id are filed in turn. *)
Lemma refile_spec h ids maps (t : list (S * N)) acc :
  (∀ p, p ∈ t → ids !! key p.1 = Some (int_of_size p.2) ∧ through_int p.2 = p.2 ∧
                ∃ idx, maps !! p.2 = Some idx ∧ is_Some (idx !! key p.1)) →
  ∃ acc', refile key h ids maps t.*1 acc = Ok acc' ∧
  ∀ id, let ts := (filter (λ p, p.2 = id) t).*1 in
    (ts = [] → acc' !! id = acc !! id) ∧
    (ts ≠ [] → ∃ lm', acc' !! id = Some lm' ∧
       file_all key h (default ∅ (maps !! id)) ts (default ([], ∅) (acc !! id)) = Ok lm').
Proof.
  revert acc. induction t as [|[s i] t IH]; intros acc Ht; cbn [fmap list_fmap refile fst].
  { exists acc. split; [done|]. done. }
  destruct (Ht (s, i)) as (Hi & Hthr & idx & Hidx & [n Hn]); [left|]. cbn in *.
  rewrite Hi. unfold through_int in Hthr. rewrite Hthr, Hidx, Hn.
  destruct (IH (<[i:=file key h s n (default ([], ∅) (acc !! i))]> acc)) as (acc' & Hok & Hid).
  { intros p Hp. apply Ht. by right. }
  exists acc'. split; [done|]. intros id. cbv zeta. destruct (decide (i = id)) as [<-|Hne].
  - cbn. split; [done|]. intros _.
    rewrite Hidx. cbn. rewrite Hn. destruct (Hid i) as [H1 H2]. rewrite lookup_insert in H1, H2. cbn in H1, H2.
    rewrite Hidx in H2. cbn in H2. destruct (filter (λ p : S * N, p.2 = i) t) as [|q l].
    + exists (file key h s n (default ([], ∅) (acc !! i))). split; [by apply H1|done].
    + destruct H2 as (lm' & ? & ?); [done|]. eauto.
  - destruct (Hid id) as [H1 H2]. rewrite lookup_insert_ne in H1, H2 by done. done.
Qed.

(** Sub-domain fragments. *)
Lemma sd_file_spec h (s : S) l f : f ∈ sd_file h s l ↔ f ∈ l ∨ piece h s f.
Proof.
  unfold sd_file.
  assert (G : ∀ fs l, f ∈ fold_left (λ l f, sd_put f l) fs l ↔ f ∈ l ∨ f ∈ fs).
  { induction fs as [|g fs IH]; intros l'; cbn; [set_solver|]. rewrite IH. unfold sd_put.
    destruct (bool_decide_reflect (g ∈ l')); set_solver. }
  rewrite G. unfold piece.
  destruct (negb (is_deleted h s) && bool_decide (generated h s = []) && bool_decide (modified h s = [])) eqn:E.
  - apply andb_true_iff in E as [E E3%bool_decide_eq_true]. apply andb_true_iff in E as [E1%negb_true_iff E2%bool_decide_eq_true].
    rewrite E1, E2, E3. set_solver.
  - rewrite elem_of_app. split; [set_solver|]. intros [?|[?|[?|(-> & E1 & E2 & E3)]]]; [by left|set_solver|set_solver|].
    by rewrite E1, E2, E3 in E.
Qed.

Lemma sd_refile_spec h ids (t : list (S * N)) acc :
  (∀ p, p ∈ t → ids !! key p.1 = Some (int_of_size p.2) ∧ through_int p.2 = p.2) →
  ∃ acc', sd_refile key h ids t.*1 acc = Ok acc' ∧
  ∀ id, (is_Some (acc' !! id) ↔ is_Some (acc !! id) ∨ ∃ s, (s, id) ∈ t) ∧
    ∀ f, f ∈ entry acc' id ↔ f ∈ entry acc id ∨ ∃ s, (s, id) ∈ t ∧ piece h s f.
Proof.
  revert acc. induction t as [|[s i] t IH]; intros acc Ht; cbn [fmap list_fmap sd_refile fst].
  { exists acc. split; [done|]. intros id. set_solver. }
  destruct (Ht (s, i)) as (Hi & Hthr); [left|]. cbn in *. rewrite Hi. unfold through_int in Hthr. rewrite Hthr.
  destruct (IH (<[i:=sd_file h s (entry acc i)]> acc)) as (acc' & Hok & Hid).
  { intros p Hp. apply Ht. by right. }
  exists acc'. split; [done|]. intros id. destruct (Hid id) as [H1 H2]. split.
  - rewrite H1. destruct (decide (i = id)) as [<-|Hne].
    + rewrite lookup_insert. split; [|eauto]. intros _. right. exists s. left.
    + rewrite lookup_insert_ne by done. set_solver.
  - intros f. rewrite H2. unfold entry at 1. destruct (decide (i = id)) as [<-|Hne].
    + rewrite lookup_insert. cbn. rewrite sd_file_spec. split.
      * intros [[?|?]|(t' & ? & ?)]; [by left|right; exists s; split; [left|done]|right; exists t'; split; [by right|done]].
      * intros [?|(t' & [[= ->]|?]%elem_of_cons & ?)]; [by left; left|by left; right|right; eauto].
    + rewrite lookup_insert_ne by done. fold (entry acc id). set_solver.
Qed.
End Files.

Section Phases.
Context {S K num : Type} `{EqDecision S} `{Countable K} (key : S → K).
Variable kernel : occ S num.
Variable ord : nat → list N → list N.
Hypothesis Hord : ∀ i l, ord i l ≡ₚ l.
Variable r : registry S.
Variable a : registered S.
Hypothesis R : rel kernel r a.
Variable e : num.

Definition eps_is (c : scratch S K num) : Prop :=
  tol c = Some e ∨ (tol c = None ∧ default_tol kernel ord r = e).

Lemma get_eps_is c : eps_is c →
  ∃ c', get_eps kernel ord r c = (e, c') ∧ eps_is c' ∧ union c' = union c ∧ sdFrag c' = sdFrag c ∧
        nfl c' = nfl c ∧ nfm c' = nfm c.
Proof.
  intros [Ht|[Ht Hd]]; unfold get_eps; rewrite Ht.
  - exists c. split; [done|]. split; [by left|done].
  - rewrite Hd. eexists. split; [done|]. split; [by left|done].
Qed.

(** State of one network after confinement. *)
Definition conf_filed (hc : option (report S)) (nw l : list S) (m : gmap K N) : Prop :=
  cover key (l, m) ∧ (∀ g, g ∈ l ↔ ∃ s, s ∈ nw ∧ confined hc s g) ∧
  (∀ κ j, m !! κ = Some j → ∃ n s s' g, nw !! n = Some s ∧ j = (N.of_nat n + 1)%N ∧
                            same key s s' ∧ s' ∈ nw ∧ confined hc s' g ∧ κ = key g).

Lemma number_filed nw : conf_filed None nw nw (number key 1 nw ∅).
Proof.
  split; [|split].
  - intros κ. cbn. split.
    + intros [j Hj]. apply number_spec in Hj as [Hj|(n & s & Hs & -> & ->)]; [by rewrite lookup_empty in Hj|].
      exists s. split; [|done]. by apply elem_of_list_lookup_2 in Hs.
    + intros (g & Hg & <-). apply number_covers. by left.
  - intros g. cbn. split; [eauto|]. by intros (s & Hs & ->).
  - intros κ j [Hj|(n & s & Hs & -> & ->)]%number_spec; [by rewrite lookup_empty in Hj|].
    exists n, s, s, s. split; [done|]. split; [lia|]. repeat split. by apply elem_of_list_lookup_2 in Hs.
Qed.

Definition conf_inv (hc : N → option (report S)) (todo : list N) (c : scratch S K num) : Prop :=
  eps_is c ∧ (∀ u, union c = Some u → is_union kernel e a u) ∧ sdFrag c = ∅ ∧
  (∀ id, networks r !! id = None → subDomains r !! id = None → nfl c !! id = None ∧ nfm c !! id = None) ∧
  (∀ id sd, networks r !! id = None → subDomains r !! id = Some sd → nfl c !! id = Some [] ∧ nfm c !! id = Some ∅) ∧
  (∀ id nw, networks r !! id = Some nw → ∃ l m, nfl c !! id = Some l ∧ nfm c !! id = Some m ∧
       conf_filed (hc id) nw l m ∧
       (id ∈ todo → hc id = None ∧ m = number key 1 nw ∅) ∧
       (id ∉ todo → conf_by kernel e a (confineUnion r) id (hc id))).

Lemma sds_perm i : omap (λ id, subDomains r !! id) (ids_in ord i (subDomains r)) ≡ₚ
                   (λ p : N * (S * bool), p.2.1) <$> sds a.
Proof.
  unfold ids_in. rewrite Hord. rewrite (rel_sd _ _ _ R).
  assert (E : omap (λ id, (fst <$> sdmap (sds a)) !! id) (map_to_list (fst <$> sdmap (sds a))).*1 =
              (map_to_list (fst <$> sdmap (sds a))).*2).
  { set (m := fst <$> sdmap (sds a)).
    assert (G : ∀ l, (∀ p, p ∈ l → m !! p.1 = Some p.2) → omap (λ id, m !! id) l.*1 = l.*2).
    { induction l as [|p l IH]; intros Hl; [done|]. cbn. rewrite (Hl p) by left. f_equal. apply IH.
      intros q Hq. apply Hl. by right. }
    apply G. intros [i' x] Hp. by apply elem_of_map_to_list in Hp. }
  rewrite E. rewrite map_to_list_fmap. unfold sdmap.
  rewrite map_to_list_to_map by apply (rel_nodup _ _ _ R).
  rewrite <-!list_fmap_compose. done.
Qed.

Lemma get_union_is c o c' :
  eps_is c → (∀ u, union c = Some u → is_union kernel e a u) → get_union kernel ord r c = (o, c') →
  eps_is c' ∧ (∀ u, union c' = Some u → is_union kernel e a u) ∧ sdFrag c' = sdFrag c ∧
  nfl c' = nfl c ∧ nfm c' = nfm c ∧ (∀ u, o = Ok u → is_union kernel e a u).
Proof.
  intros He Hu. unfold get_union.
  destruct (union c) as [u0|] eqn:Eu.
  { intros [= <- <-]. split; [done|]. split; [rewrite Eu; done|]. repeat split; try done.
    intros u [= <-]. by apply Hu. }
  pose proof (sds_perm 2) as Hp. set (L := omap _ _) in *. clearbody L.
  destruct L as [|s1 [|s2 L']].
  - intros [= <- <-]. split; [done|]. split; [rewrite Eu; done|]. repeat split; done.
  - intros [= <- <-]. split; [by destruct He; [left|right]|].
    assert (is_union kernel e a s1) by (exists [s1]; split; done).
    split; [by intros u [= <-]|]. repeat split; try done. by intros u [= <-].
  - destruct (get_eps_is c He) as (c1 & -> & He1 & Hu1 & ? & ? & ?). 
    destruct (fuse kernel e (s1 :: s2 :: L')) as [u|] eqn:Ef; intros [= <- <-].
    + assert (is_union kernel e a u). { exists (s1 :: s2 :: L'). done. }
      split; [by destruct He1; [left|right]|]. split; [by intros u' [= <-]|]. repeat split; try done. by intros u' [= <-].
    + split; [done|]. split; [rewrite Hu1, Eu; done|]. repeat split; done.
Qed.

Lemma in_sds id s c : (id, (s, c)) ∈ sds a → ∀ s' c', (id, (s', c')) ∈ sds a → s' = s ∧ c' = c.
Proof.
  intros H1 s' c' H2.
  assert (E : sdmap (sds a) !! id = Some (s, c)) by (apply elem_of_list_to_map_1; [apply (rel_nodup _ _ _ R)|done]).
  assert (E' : sdmap (sds a) !! id = Some (s', c')) by (apply elem_of_list_to_map_1; [apply (rel_nodup _ _ _ R)|done]).
  rewrite E in E'. by injection E' as -> ->.
Qed.

Lemma nw_entry id nw : networks r !! id = Some nw → entry (networks r) id = nw ∧ ents_of id a = nw.
Proof.
  intros E. rewrite <-(entry_lookup _ _ _ _ R). unfold entry. by rewrite E.
Qed.

Lemma confine_go hc id todo c nw tool :
  conf_inv hc (id :: todo) c → id ∉ todo → networks r !! id = Some nw →
  (∀ h, common kernel e nw [tool] = Some h → conf_by kernel e a (confineUnion r) id (Some h)) →
  match (let '(e, c) := get_eps kernel ord r c in
        match common kernel e (entry (networks r) id) [tool] with
        | None => (Throw RuntimeError, c)
        | Some h =>
            match file_all key h (default ∅ (nfm c !! id)) (entry (networks r) id) ([], ∅) with
            | Ok (l, m) => (Ok tt, mkScr (tol c) (union c) (sdFrag c) (<[id := l]> (nfl c)) (<[id := m]> (nfm c)))
            | Throw x => (Throw x, c)
            | UB => (UB, c)
            | Diverge => (Diverge, c)
            end
        end) with
  | (Ok _, c') => ∃ hc', conf_inv hc' todo c'
  | (Throw x, _) => x = RuntimeError ∧ ¬ reliable kernel
  | _ => False
  end.
Proof.
  intros (He & Hu & Hsd & H0 & H1 & H2) Hni Hnw Hby.
  destruct (nw_entry id nw Hnw) as [-> Hents].
  destruct (get_eps_is c He) as (c1 & -> & He1 & Hu1 & Hsd1 & Hl1 & Hm1).
  destruct (common kernel e nw [tool]) as [h|] eqn:Ec.
  2:{ split; [done|]. intros (Hr & _). by apply Hr in Ec. }
  destruct (H2 id nw Hnw) as (l0 & m0 & El0 & Em0 & _ & Htodo & _).
  destruct Htodo as [Hh0 ->]; [left|].
  rewrite Hm1, Em0. cbn [from_option Datatypes.id].
  destruct (file_all_ok key h (number key 1 nw ∅) nw ([], ∅)) as [[l m] Ef].
  { intros s Hs. apply number_covers. by left. }
  rewrite Ef.
  assert (Hc0 : cover key (@nil S, (∅ : gmap K N))).
  { intros κ. cbn. rewrite lookup_empty. split; [by intros []|]. intros (g & Hg & _). by apply elem_of_nil in Hg. }
  destruct (file_all_spec key h _ _ _ _ Hc0 Ef) as (Hc & Hl & Hm). cbn [fst snd] in Hl, Hm.
  exists (λ j, if bool_decide (j = id) then Some h else hc j).
  assert (Hne : ∀ j, j ≠ id → bool_decide (j = id) = false) by (intros; by apply bool_decide_false).
  split; [by destruct He1; [left|right]|]. split; [cbn; by rewrite Hu1|]. split; [cbn; by rewrite Hsd1|].
  cbn [nfl nfm]. rewrite Hl1. split; [|split].
  - intros j Hj1 Hj2. assert (j ≠ id) by congruence. rewrite !lookup_insert_ne by done. by apply H0.
  - intros j sd Hj1 Hj2. assert (j ≠ id) by congruence. rewrite !lookup_insert_ne by done. by eapply H1.
  - intros j nw' Hj. destruct (decide (j = id)) as [->|Hjn].
    + rewrite Hnw in Hj. injection Hj as <-. rewrite !lookup_insert. rewrite bool_decide_true by done.
      exists l, m. split; [done|]. split; [done|]. split; [|split; [done|]].
      * split; [done|]. split.
        -- intros g. rewrite Hl. cbn [confined]. split; [intros [Hg|?]; [by apply elem_of_nil in Hg|done]|by right].
        -- intros κ j [Hj|(s & g & Hs & Hi & Hp & ->)]%Hm; [by rewrite lookup_empty in Hj|].
           apply number_spec in Hi as [Hi|(n & s0 & Hs0 & -> & Ek)]; [by rewrite lookup_empty in Hi|].
           exists n, s0, s, g. split; [done|]. split; [lia|]. split; [done|]. done.
      * intros _. by apply Hby.
    + rewrite !lookup_insert_ne by done. rewrite Hne by done.
      destruct (H2 j nw' Hj) as (l' & m' & ? & ? & ? & Ht & Hd). exists l', m'.
      split; [done|]. split; [done|]. split; [done|]. split.
      * intros Hin. apply Ht. by right.
      * intros Hin. apply Hd. rewrite not_elem_of_cons. done.
Qed.

Lemma confine_one_inv hc id todo c nw :
  conf_inv hc (id :: todo) c → id ∉ todo → networks r !! id = Some nw →
  match confine_one key kernel ord r id c with
  | (Ok _, c') => ∃ hc', conf_inv hc' todo c'
  | (Throw x, _) => x = RuntimeError ∧ ¬ reliable kernel
  | _ => False
  end.
Proof.
  intros HI Hni Hnw. destruct (nw_entry id nw Hnw) as [_ Hents].
  assert (Hskip : conf_by kernel e a (confineUnion r) id None → ∃ hc', conf_inv hc' todo c).
  { intros Hby. exists hc. destruct HI as (He & Hu & Hsd & H0 & H1 & H2).
    split; [done|]. split; [done|]. split; [done|]. split; [done|]. split; [done|].
    intros j nw' Hj. destruct (H2 j nw' Hj) as (l' & m' & ? & ? & ? & Ht & Hd). exists l', m'.
    split; [done|]. split; [done|]. split; [done|]. split.
    - intros Hin. apply Ht. by right.
    - intros Hin. destruct (decide (j = id)) as [->|Hjn].
      + destruct Ht as [-> _]; [left|]. done.
      + apply Hd. rewrite not_elem_of_cons. done. }
  unfold confine_one. destruct (subDomains r !! id) as [sd|] eqn:Esd.
  2:{ apply Hskip.
      assert (Hno : id ∉ (sds a).*1).
      { rewrite (rel_sd _ _ _ R), lookup_fmap, fmap_None in Esd. by apply not_elem_of_list_to_map in Esd. }
      assert (Hno2 : ∀ x, (id, x) ∉ sds a).
      { intros x Hx. apply Hno. apply elem_of_list_fmap. by exists (id, x). }
      split; [by intros s ?%Hno2|]. split; [by intros s ?%Hno2|]. split; [by intros s ?%Hno2|]. done. }
  apply (sdmap_lookup _ _ _ _ _ R) in Esd as [cf Hin].
  assert (Ebo : bounds r !! id = Some cf) by (apply (bounds_lookup _ _ _ _ _ R); eauto).
  assert (Hyes : id ∈ (sds a).*1) by (apply elem_of_list_fmap; by exists (id, (sd, cf))).
  rewrite Ebo. destruct cf.
  - apply (confine_go hc id todo c nw sd); try done. intros h Hh. split; [|split; [|split]].
    + intros s Hs. destruct (in_sds _ _ _ Hin _ _ Hs) as [-> _]. exists h. by rewrite Hents.
    + intros s Hs. by destruct (in_sds _ _ _ Hin _ _ Hs) as [_ ?].
    + intros s Hs. by destruct (in_sds _ _ _ Hin _ _ Hs) as [_ ?].
    + done.
  - destruct (confineUnion r) eqn:Ecu.
    2:{ apply Hskip. split; [|split; [|split]]; try done.
        intros s Hs. by destruct (in_sds _ _ _ Hin _ _ Hs) as [_ ?]. }
    destruct HI as (He & Hu & Hsd & H0 & H1 & H2).
    destruct (get_union kernel ord r c) as [o c1] eqn:Eu.
    destruct (get_union_is _ _ _ He Hu Eu) as (He1 & Hu1 & Hsd1 & Hl1 & Hm1 & Ho).
    assert (HI1 : conf_inv hc (id :: todo) c1).
    { split; [done|]. split; [done|]. split; [by rewrite Hsd1|]. rewrite Hl1, Hm1. done. }
    destruct o as [u|x| |].
    + apply (confine_go hc id todo c1 nw u); try done. intros h Hh. rewrite Ecu. split; [|split; [|split]].
      * intros s Hs. by destruct (in_sds _ _ _ Hin _ _ Hs) as [_ ?].
      * intros s Hs _. exists h, u. rewrite Hents. repeat split; try done. by apply Ho.
      * done.
      * done.
    + assert (Hlen : (omap (λ id, subDomains r !! id) (ids_in ord 2 (subDomains r))) ≠ []).
      { intros E. pose proof (sds_perm 2) as Hp. rewrite E in Hp. apply Permutation_nil_l in Hp.
        destruct (sds a); [by apply elem_of_nil in Hin|done]. }
      unfold get_union in Eu. destruct (union c); [done|].
      destruct (omap _ _) as [|s1 [|s2 L]]; [done|done|].
      destruct (get_eps_is c He) as (c2 & E2 & _). rewrite E2 in Eu.
      destruct (fuse kernel e _) eqn:Ef; [done|]. injection Eu as <- _. split; [done|].
      intros (_ & _ & Hr). by apply Hr in Ef.
    + unfold get_union in Eu. destruct (union c); [done|].
      destruct (omap _ _) as [|s1 [|s2 L]]; [done|done|].
      destruct (get_eps kernel ord r c). by destruct (fuse kernel _ _).
    + unfold get_union in Eu. destruct (union c); [done|].
      destruct (omap _ _) as [|s1 [|s2 L]]; [done|done|].
      destruct (get_eps kernel ord r c). by destruct (fuse kernel _ _).
Qed.

Lemma confine_loop_inv todo : ∀ hc c,
  conf_inv hc todo c → NoDup todo → (∀ id, id ∈ todo → is_Some (networks r !! id)) →
  match confine_loop key kernel ord r todo c with
  | (Ok _, c') => ∃ hc', conf_inv hc' [] c'
  | (Throw x, _) => x = RuntimeError ∧ ¬ reliable kernel
  | _ => False
  end.
Proof.
  induction todo as [|id todo IH]; intros hc c HI Hnd Hin; cbn [confine_loop]; [eauto|].
  apply NoDup_cons in Hnd as [Hni Hnd]. destruct (Hin id) as [nw Hnw]; [left|].
  pose proof (confine_one_inv hc id todo c nw HI Hni Hnw) as Ho.
  destruct (confine_one key kernel ord r id c) as [[u|x| |] c1]; try done.
  destruct Ho as [hc' HI']. apply (IH hc' c1 HI' Hnd). intros j Hj. apply Hin. by right.
Qed.

Lemma initial_inv t :
  (t = Some e ∨ (t = None ∧ default_tol kernel ord r = e)) →
  conf_inv (λ _, None) (ids_in ord 3 (networks r)) (initial key r t).
Proof.
  intros Ht. split; [done|]. split; [done|]. split; [done|]. unfold initial. cbn [nfl nfm]. split; [|split].
  - intros id E1 E2. rewrite lookup_fmap, lookup_union, E1, lookup_fmap, E2. done.
  - intros id sd E1 E2. rewrite lookup_fmap, lookup_union, E1, lookup_fmap, E2. done.
  - intros id nw E. rewrite lookup_fmap. rewrite (lookup_union_Some_l _ _ _ _ E). cbn.
    exists nw, (number key 1 nw ∅). split; [done|]. split; [done|]. split; [apply number_filed|]. split; [done|].
    intros Hn. exfalso. apply Hn. apply (elem_of_ids ord Hord). eauto.
Qed.

Lemma confine_inv t :
  (t = Some e ∨ (t = None ∧ default_tol kernel ord r = e)) →
  match confine key kernel ord r (initial key r t) with
  | (Ok _, c') => ∃ hc', conf_inv hc' [] c'
  | (Throw x, _) => x = RuntimeError ∧ ¬ reliable kernel
  | _ => False
  end.
Proof.
  intros Ht. unfold confine. apply confine_loop_inv with (λ _, None).
  - by apply initial_inv.
  - by apply nodup_ids.
  - intros id Hid. by apply (elem_of_ids ord Hord) in Hid.
Qed.

Lemma elem_of_tagged i (m : gmap N (list S)) (s : S) (id : N) :
  (s, id) ∈ tagged (ids_in ord i m) m ↔ s ∈ entry m id.
Proof.
  unfold tagged. rewrite elem_of_list_bind. split.
  - intros (id' & Hs & _). apply elem_of_list_fmap in Hs as (s' & [= -> ->] & Hs). done.
  - intros Hs. exists id. split; [apply elem_of_list_fmap; eauto|]. apply (elem_of_ids ord Hord).
    unfold entry in Hs. destruct (m !! id); [eauto|]. by apply elem_of_nil in Hs.
Qed.

Lemma tagged_filter i (m : gmap N (list S)) id :
  (filter (λ p : S * N, p.2 = id) (tagged (ids_in ord i m) m)).*1 = entry m id.
Proof.
  assert (G : ∀ ids, NoDup ids →
     (filter (λ p : S * N, p.2 = id) (tagged ids m)).*1 = if bool_decide (id ∈ ids) then entry m id else []).
  { induction ids as [|j ids IH]; intros Hnd; [done|]. apply NoDup_cons in Hnd as [Hj Hnd].
    unfold tagged in *. cbn [mbind list_bind]. rewrite filter_app, fmap_app, IH by done.
    assert (Hf : (filter (λ p : S * N, p.2 = id) ((λ s, (s, j)) <$> entry m j)).*1 = if bool_decide (j = id) then entry m id else []).
    { destruct (bool_decide_reflect (j = id)) as [->|Hne].
      - clear IH. induction (entry m id) as [|x l IHl]; [done|]. cbn. rewrite decide_True by done. cbn. f_equal. exact IHl.
      - clear IH. induction (entry m j) as [|x l IHl]; [done|]. cbn. rewrite decide_False by done. exact IHl. }
    rewrite Hf. destruct (bool_decide_reflect (j = id)) as [->|Hne].
    - rewrite bool_decide_false by done. rewrite bool_decide_true by left. apply app_nil_r.
    - cbn. destruct (bool_decide_reflect (id ∈ ids)).
      + rewrite bool_decide_true by (by right). done.
      + rewrite bool_decide_false; [done|]. rewrite not_elem_of_cons. done. }
  rewrite G by (by apply nodup_ids). destruct (bool_decide_reflect (id ∈ ids_in ord i m)) as [|Hn]; [done|].
  unfold entry. destruct (m !! id) eqn:E; [|done]. exfalso. apply Hn. apply (elem_of_ids ord Hord). eauto.
Qed.

Lemma fragment_inv v hc c :
  conf_inv hc [] c → Forall (λ id, id < 2^31)%N (all_ids a) → separate key a hc →
  (v = false → NoDup (key <$> ((λ p : N * (S * bool), p.2.1) <$> sds a))) →
  match fragment_all key kernel ord v r c with
  | (Ok _, c') => ∃ hf args,
      fragment kernel e args = Some hf ∧
      (∀ g, g ∈ args ↔ (∃ id s, s ∈ ents_of id a ∧ confined (hc id) s g) ∨
                       (v = false ∧ g ∈ (λ p : N * (S * bool), p.2.1) <$> sds a)) ∧
      (∀ id nw, networks r !! id = Some nw → ∃ l m,
         nfl c' !! id = Some l ∧ nfm c' !! id = Some m ∧ filed_ok key (hc id) hf nw l m) ∧
      (∀ id, networks r !! id = None → nfl c' !! id = nfl c !! id ∧ nfm c' !! id = nfm c !! id) ∧
      (v = false → ∀ id, (is_Some (sdFrag c' !! id) ↔ is_Some (subDomains r !! id)) ∧
         ∀ sd f, subDomains r !! id = Some sd → (f ∈ entry (sdFrag c') id ↔ piece hf sd f))
  | (Throw x, _) => x = RuntimeError ∧ ¬ reliable kernel
  | _ => False
  end.
Proof.
  intros (He & _ & Hsd & H0 & H1 & H2) Hsmall Hsep Hdk.
  (* what is in the lists before *)
  assert (Hents : ∀ id g, g ∈ entry (nfl c) id ↔ ∃ s, s ∈ ents_of id a ∧ confined (hc id) s g).
  { intros id g. unfold entry. destruct (networks r !! id) as [nw|] eqn:Enw.
    - destruct (nw_entry id nw Enw) as [_ ->]. destruct (H2 id nw Enw) as (l & m & -> & _ & (_ & Hl & _) & _).
      cbn. apply Hl.
    - assert (ents_of id a = []) as ->.
      { pose proof (rel_nw _ _ _ R id) as Hn. rewrite Enw in Hn. by destruct (ents_of id a). }
      assert (default [] (nfl c !! id) = []) as ->.
      { destruct (subDomains r !! id) as [sd|] eqn:Es.
        - by destruct (H1 id sd Enw Es) as [-> _].
        - by destruct (H0 id Enw Es) as [-> _]. }
      split; [intros Hg; by apply elem_of_nil in Hg|]. intros (s & Hs & _). by apply elem_of_nil in Hs. }
  assert (Hid : ∀ id s, s ∈ ents_of id a → (id < 2^31)%N).
  { intros id s Hs. unfold ents_of in Hs. apply elem_of_list_fmap in Hs as (p & -> & Hp).
    apply elem_of_list_filter in Hp as [<- Hp]. rewrite Forall_forall in Hsmall. apply Hsmall.
    unfold all_ids. apply elem_of_app. right. apply elem_of_list_fmap. eauto. }
  unfold fragment_all.
  set (te := tagged (ids_in ord 4 (nfl c)) (nfl c)).
  set (td := if v then [] else tagged (ids_in ord 5 (subDomains r)) ((λ s, [s]) <$> subDomains r)).
  assert (Hte : ∀ s id, (s, id) ∈ te ↔ s ∈ entry (nfl c) id) by (intros; apply elem_of_tagged).
  assert (Htd : ∀ s id, (s, id) ∈ td ↔ v = false ∧ subDomains r !! id = Some s).
  { intros s id. unfold td. destruct v.
    - split; [intros Hx; by apply elem_of_nil in Hx|by intros []].
    - unfold tagged. rewrite elem_of_list_bind. split.
      + intros (id' & Hs & _). apply elem_of_list_fmap in Hs as (s' & [= -> ->] & Hs). split; [done|].
        unfold entry in Hs. rewrite lookup_fmap in Hs. destruct (subDomains r !! id') as [x|]; cbn in Hs.
        * apply elem_of_list_singleton in Hs. by subst.
        * by apply elem_of_nil in Hs.
      + intros [_ Hs]. exists id. split.
        * apply elem_of_list_fmap. exists s. split; [done|]. unfold entry. rewrite lookup_fmap, Hs. left.
        * apply (elem_of_ids ord Hord). eauto. }
  destruct (get_eps_is c He) as (c1 & -> & He1 & Hu1 & Hsd1 & Hl1 & Hm1).
  destruct (fragment kernel e (te.*1 ++ td.*1)) as [hf|] eqn:Ef.
  2:{ split; [done|]. intros (_ & Hr & _). by apply Hr in Ef. }
  assert (Hbind : ∀ p, p ∈ te → bind_ids key te !! key p.1 = Some (int_of_size p.2)).
  { intros [s id] Hp. apply bind_ids_spec; [|done].
    intros [s1 i1] [s2 i2] Hp1%Hte Hp2%Hte Ek. cbn in *.
    apply Hents in Hp1 as (t1 & Ht1 & Hc1). apply Hents in Hp2 as (t2 & Ht2 & Hc2).
    by apply (Hsep i1 i2 t1 t2 s1 s2). }
  destruct (refile_spec key hf (bind_ids key te) (nfm c) te ∅) as (acc & Eacc & Hacc).
  { intros [s id] Hp. split; [by apply Hbind|]. cbn. apply Hte in Hp as Hin.
    pose proof Hin as (t & Ht & Hct)%Hents. split; [apply through_int_small; by eapply Hid|].
    destruct (networks r !! id) as [nw|] eqn:Enw.
    - destruct (H2 id nw Enw) as (l & m & El & Em & (Hcv & Hl & Hm) & _). exists m. split; [done|].
      apply Hcv. exists s. split; [|done]. unfold entry in Hin. by rewrite El in Hin.
    - pose proof (rel_nw _ _ _ R id) as Hn. rewrite Enw in Hn.
      destruct (ents_of id a); [by apply elem_of_nil in Ht|done]. }
  rewrite Hm1, Eacc. cbn [sdFrag]. rewrite Hsd1, Hsd.
  destruct (sd_refile_spec key hf (bind_ids key td) td ∅) as (sdf & Esdf & Hsdf).
  { intros [s id] Hp. split.
    - apply bind_ids_spec; [|done]. intros [s1 i1] [s2 i2] [Hv Hp1]%Htd [_ Hp2]%Htd Ek. cbn in *.
      specialize (Hdk Hv). apply (sdmap_lookup _ _ _ _ _ R) in Hp1 as [x1 Hp1].
      apply (sdmap_lookup _ _ _ _ _ R) in Hp2 as [x2 Hp2].
      rewrite <-list_fmap_compose in Hdk.
      apply elem_of_list_lookup in Hp1 as [n1 Hp1]. apply elem_of_list_lookup in Hp2 as [n2 Hp2].
      assert (n1 = n2) as ->.
      { eapply (NoDup_lookup _ n1 n2 (key s1) Hdk).
        - rewrite list_lookup_fmap, Hp1. done.
        - rewrite list_lookup_fmap, Hp2. cbn. by rewrite Ek. }
      congruence.
    - cbn. apply Htd in Hp as [Hv Hp]. apply through_int_small.
      apply (sdmap_lookup _ _ _ _ _ R) in Hp as [x Hp]. rewrite Forall_forall in Hsmall. apply Hsmall.
      unfold all_ids. apply elem_of_app. left. apply elem_of_list_fmap. by exists (id, (s, x)). }
  rewrite Esdf. cbn [nfl nfm sdFrag]. exists hf, (te.*1 ++ td.*1). split; [done|]. split; [|split; [|split]].
  - intros g. rewrite elem_of_app. rewrite !elem_of_list_fmap. split.
    + intros [([s id] & -> & (t & Ht & Hct)%Hte%Hents)|([s id] & -> & [Hv Hp]%Htd)]; [left; eauto|right]. split; [done|].
      apply (sdmap_lookup _ _ _ _ _ R) in Hp as [x Hp]. by exists (id, (s, x)).
    + intros [(id & s & Hs & Hc)|(Hv & [id [s x]] & -> & Hp)].
      * left. exists (g, id). split; [done|]. apply Hte, Hents. eauto.
      * right. exists (s, id). split; [done|]. apply Htd. split; [done|].
        apply (sdmap_lookup _ _ _ _ _ R). eauto.
  - intros id nw Enw. destruct (H2 id nw Enw) as (l0 & m0 & El0 & Em0 & (Hcv & Hl0 & Hm0) & _).
    specialize (Hacc id). cbv zeta in Hacc. unfold te in Hacc. rewrite tagged_filter in Hacc.
    unfold entry in Hacc. rewrite El0, Em0, lookup_empty in Hacc. cbn [from_option Datatypes.id] in Hacc.
    rewrite Hl1. rewrite !lookup_union, !lookup_fmap, El0, Em0.
    destruct (decide (l0 = [])) as [->|Hne].
    + destruct Hacc as [Hx0 _]. rewrite Hx0 by done. cbn. exists [], m0. split; [done|]. split; [done|]. split; [|split].
      * intros f. split; [intros Hx; by apply elem_of_nil in Hx|]. intros (s & Hs & g & Hg & _).
        exfalso. apply (not_elem_of_nil g). apply Hl0. eauto.
      * exact Hcv.
      * intros f i Hi. exfalso. assert (Hs : is_Some (m0 !! key f)) by eauto.
        apply Hcv in Hs as (g & Hg & _). by apply elem_of_nil in Hg.
    + destruct Hacc as [_ Hacc]. destruct (Hacc Hne) as ([l m] & -> & Hfa). cbn [fmap option_fmap option_map].
      assert (Hc0 : cover key (@nil S, (∅ : gmap K N))).
      { intros κ. cbn. rewrite lookup_empty. split; [by intros []|]. intros (g & Hg & _). by apply elem_of_nil in Hg. }
      destruct (file_all_spec key hf _ _ _ _ Hc0 Hfa) as (Hc & Hl & Hm). cbn [fst snd] in Hl, Hm.
      exists l, m. split; [done|]. split; [done|]. split; [|split].
      * intros f. rewrite Hl. split.
        -- intros [Hx|(g & Hg & Hp)]; [by apply elem_of_nil in Hx|]. apply Hl0 in Hg as (s & Hs & Hcf).
           exists s. split; [done|]. by exists g.
        -- intros (s & Hs & g & Hcf & Hp). right. exists g. split; [|done]. apply Hl0. eauto.
      * exact Hc.
      * intros f i [Hx|(g' & f' & Hg' & Hi & Hp & Ek)]%Hm; [by rewrite lookup_empty in Hx|].
        apply Hm0 in Hi as (n & s & s' & g & Hs & -> & Hss & Hs' & Hcf & Ekg).
        exists n, s. split; [done|]. split; [done|]. exists s', g, g', f'. repeat split; done.
  - intros id Enw. rewrite !lookup_union, !lookup_fmap.
    assert (Hnone : acc !! id = None).
    { specialize (Hacc id). cbv zeta in Hacc. unfold te in Hacc. rewrite tagged_filter in Hacc.
      destruct Hacc as [Hx _]. rewrite Hx; [done|]. unfold entry.
      destruct (subDomains r !! id) as [sd|] eqn:Es.
      - by destruct (H1 id sd Enw Es) as [-> _].
      - by destruct (H0 id Enw Es) as [-> _]. }
    rewrite Hnone, Hl1. cbn [fmap option_fmap option_map]. split; [by destruct (nfl c !! id)|by destruct (nfm c !! id)].
  - intros Hv id. destruct (Hsdf id) as [Hs1 Hs2]. split.
    + rewrite Hs1, lookup_empty. split.
      * intros [[? ?]|(s & [_ Hp]%Htd)]; [done|eauto].
      * intros [s Hs]. right. exists s. apply Htd. done.
    + intros sd f Es. rewrite Hs2. unfold entry. rewrite lookup_empty. cbn. split.
      * intros [Hx|(s & [_ Hp]%Htd & Hpc)]; [by apply elem_of_nil in Hx|]. rewrite Es in Hp. by injection Hp as <-.
      * intros Hpc. right. exists sd. split; [by apply Htd|done].
Qed.
End Phases.

(** Merging of the index maps. *)
Section Merge.
Context {K : Type} `{Countable K}.
Implicit Types maps : gmap N (gmap K N).

Fixpoint owners (ids : list N) maps (o : gmap K (N * N)) : gmap K (N * N) :=
  match ids with
  | [] => o
  | id :: ids => owners ids maps ((pair id <$> default ∅ (maps !! id)) ∪ o)
  end.
Fixpoint base (ids : list N) maps (offset : N) (id : N) : N :=
  match ids with
  | [] => 0%N
  | j :: ids => if bool_decide (id = j) then offset
                else base ids maps (offset + N.of_nat (size (default ∅ (maps !! j)))) id
  end.

Lemma owners_spec ids maps o κ p :
  owners ids maps o !! κ = Some p →
  o !! κ = Some p ∨ (p.1 ∈ ids ∧ default ∅ (maps !! p.1) !! κ = Some p.2).
Proof.
  revert o. induction ids as [|id ids IH]; intros o; cbn [owners]; [by left|].
  intros [Ho|[Hin Hm]]%IH.
  - apply lookup_union_Some_raw in Ho as [Ho|[_ Ho]]; [|by left].
    rewrite lookup_fmap in Ho. apply fmap_Some in Ho as (i & Hi & ->). right. split; [left|done].
  - right. split; [by right|done].
Qed.

Lemma owners_is_Some ids maps o κ :
  is_Some (owners ids maps o !! κ) ↔ is_Some (o !! κ) ∨ ∃ id, id ∈ ids ∧ is_Some (default ∅ (maps !! id) !! κ).
Proof.
  revert o. induction ids as [|id ids IH]; intros o; cbn [owners].
  { split; [by left|]. intros [?|(id & Hid & _)]; [done|by apply elem_of_nil in Hid]. }
  rewrite IH. rewrite lookup_union_is_Some, lookup_fmap, fmap_is_Some. split.
  - intros [[?|?]|(j & Hj & ?)]; [right; exists id; split; [left|done]|by left|right; exists j; split; [by right|done]].
  - intros [?|(j & [->|Hj]%elem_of_cons & ?)]; [by left; right|by left; left|right; eauto].
Qed.

Lemma merge_owners ids maps off m o (g : N * N → N) :
  NoDup ids → (∀ κ, m !! κ = g <$> o !! κ) → (∀ κ p, o !! κ = Some p → p.1 ∉ ids) →
  let b := λ p : N * N, if bool_decide (p.1 ∈ ids) then (base ids maps off p.1 + p.2)%N else g p in
  ∀ κ, merge_maps ids maps off m !! κ = b <$> owners ids maps o !! κ.
Proof.
  revert off m o g. induction ids as [|id ids IH]; intros off m o g Hnd Hm Ho b κ; cbn [merge_maps owners].
  { rewrite Hm. destruct (o !! κ); [|done]. cbn. done. }
  apply NoDup_cons in Hnd as [Hni Hnd].
  set (idx := default ∅ (maps !! id)).
  set (g' := λ p : N * N, if bool_decide (p.1 = id) then (off + p.2)%N else g p).
  rewrite (IH (off + N.of_nat (size idx))%N _ ((pair id <$> idx) ∪ o) g' Hnd).
  - destruct (owners ids maps ((pair id <$> idx) ∪ o) !! κ) as [p|] eqn:E; [|done]. cbn. f_equal.
    unfold b, g'. cbn [base]. destruct (bool_decide_reflect (p.1 = id)) as [Ep|Ep].
    + rewrite Ep. rewrite (bool_decide_false (id ∈ ids)) by done. rewrite bool_decide_true by left. done.
    + destruct (bool_decide_reflect (p.1 ∈ ids)).
      * rewrite bool_decide_true by (by right). done.
      * rewrite bool_decide_false; [done|]. by rewrite not_elem_of_cons.
  - intros κ'. rewrite !lookup_union, !lookup_fmap, Hm. destruct (idx !! κ') as [i|]; cbn.
    + destruct (o !! κ'); cbn; unfold g'; cbn; by rewrite bool_decide_true.
    + destruct (o !! κ') as [p|] eqn:E; [|done]. cbn. f_equal. unfold g'. rewrite bool_decide_false; [done|].
      apply Ho in E. rewrite not_elem_of_cons in E. by destruct E.
  - intros κ' p Hp. apply lookup_union_Some_raw in Hp as [Hp|[_ Hp]].
    + rewrite lookup_fmap in Hp. by apply fmap_Some in Hp as (i & Hi & ->).
    + apply Ho in Hp. rewrite not_elem_of_cons in Hp. by destruct Hp.
Qed.

Lemma base_ge ids maps off id : id ∈ ids → (off ≤ base ids maps off id)%N.
Proof.
  revert off. induction ids as [|j ids IH]; intros off Hin; [by apply elem_of_nil in Hin|]. cbn [base].
  destruct (bool_decide_reflect (id = j)); [lia|]. apply elem_of_cons in Hin as [?|Hin]; [done|].
  specialize (IH (off + N.of_nat (size (default ∅ (maps !! j))))%N Hin). lia.
Qed.

(** The index ranges of different ids do not overlap if no index exceeds the size of its map. *)
Lemma base_inj ids maps off (id1 id2 i1 i2 : N) :
  NoDup ids → id1 ∈ ids → id2 ∈ ids →
  (1 ≤ i1 ≤ N.of_nat (size (default ∅ (maps !! id1))))%N →
  (1 ≤ i2 ≤ N.of_nat (size (default ∅ (maps !! id2))))%N →
  (base ids maps off id1 + i1 = base ids maps off id2 + i2)%N → id1 = id2 ∧ i1 = i2.
Proof.
  revert off. induction ids as [|j ids IH]; intros off Hnd H1 H2 B1 B2 E; [by apply elem_of_nil in H1|].
  apply NoDup_cons in Hnd as [Hj Hnd]. cbn [base] in E.
  destruct (bool_decide_reflect (id1 = j)) as [->|N1], (bool_decide_reflect (id2 = j)) as [->|N2].
  - split; [done|lia].
  - apply elem_of_cons in H2 as [?|H2]; [done|].
    pose proof (base_ge ids maps (off + N.of_nat (size (default ∅ (maps !! j)))) id2 H2). lia.
  - apply elem_of_cons in H1 as [?|H1]; [done|].
    pose proof (base_ge ids maps (off + N.of_nat (size (default ∅ (maps !! j)))) id1 H1). lia.
  - apply elem_of_cons in H1 as [?|H1]; [done|]. apply elem_of_cons in H2 as [?|H2]; [done|]. by eapply IH.
Qed.

Lemma size_ge (m : gmap K N) (ks : list K) :
  NoDup ks → (∀ κ, κ ∈ ks → is_Some (m !! κ)) → length ks ≤ size m.
Proof.
  intros Hnd Hin. rewrite <-(size_list_to_set (C := gset K) ks Hnd). rewrite <-size_dom.
  apply subseteq_size. intros κ Hκ. apply elem_of_list_to_set in Hκ. apply elem_of_dom. by apply Hin.
Qed.
End Merge.

Section Builds.
Context {S K num : Type} `{EqDecision S} `{Countable K} (key : S → K).
Variable kernel : occ S num.
Variable ord : nat → list N → list N.
Hypothesis Hord : ∀ i l, ord i l ≡ₚ l.
Notation dim := (dim_of kernel).

Lemma brun_flag k h : confineUnion (reg (brun key kernel ord k h)) = union_flag h.
Proof.
  induction h as [|o h IH] using rev_ind; [done|]. rewrite brun_snoc. unfold union_flag. rewrite fold_left_app.
  fold (union_flag h). cbn [fold_left]. pose proof (brun_rel key kernel ord k h) as R.
  destruct o as [conf s id|ss id|v|x| | |]; cbn [bstep]; try done.
  - pose proof (add_sub_domain_spec kernel _ _ conf s id R) as Ha.
    destruct (add_sub_domain kernel conf s id _); cbn; try done. destruct Ha as (_ & _ & ->). done.
  - pose proof (add_entities_spec kernel ss id _ _ R) as Ha.
    destruct (add_entities kernel ss id _); cbn. by destruct Ha as (_ & -> & _).
  - pose proof (build_reg key kernel ord k (brun key kernel ord k h)) as Hb.
    destruct (build key kernel ord k _). cbn in *. by rewrite Hb.
Qed.

Lemma ents_in id s (a : registered S) : s ∈ ents_of id a ↔ (id, s) ∈ ents a.
Proof.
  unfold ents_of. rewrite elem_of_list_fmap. split.
  - intros ([i t] & -> & Hp). apply elem_of_list_filter in Hp as [E Hp]. cbn in *. by subst.
  - intros Hp. exists (id, s). split; [done|]. by apply elem_of_list_filter.
Qed.

Lemma networks_some k h id :
  is_Some (networks (reg (brun key kernel ord k h)) !! id) ↔ ents_of id (spec_run dim h) ≠ [].
Proof.
  rewrite (rel_nw _ _ _ (brun_rel key kernel ord k h)). destruct (ents_of id (spec_run dim h)).
  - split; [by intros [? ?]|done].
  - split; [done|eauto].
Qed.

Lemma build_core k h :
  let a := spec_run dim h in let cu := union_flag h in
  let sd := match k with Plain => false | Contained => true end in
  let r := reg (brun key kernel ord k h) in
  distinct key kernel a cu →
  (k = Contained → NoDup (key <$> ((λ p : N * (S * bool), p.2.1) <$> sds a))) →
  (∃ x b', build key kernel ord k (brun key kernel ord k h) = (b', Throw x) ∧ x = RuntimeError ∧ ¬ reliable kernel) ∨
  ∃ e hc hf (c' : scratch S K num), operations kernel a cu sd e hc hf ∧
    (build key kernel ord k (brun key kernel ord k h)).2 =
      match k, entityDim r, domainDim r with
      | Plain, Some ed, _ => Ok (Net ed (merge_lists ord c') (merge_maps (ids_in ord 7 (nfm c')) (nfm c') 0 ∅))
      | Contained, Some ed, Some dd => Ok (CNet ed dd (sdFrag c') (nfl c') (nfm c'))
      | _, _, _ => UB
      end ∧
    (∀ id, ents_of id a ≠ [] → ∃ l m,
         nfl c' !! id = Some l ∧ nfm c' !! id = Some m ∧ filed_ok key (hc id) hf (ents_of id a) l m) ∧
    (∀ id, ents_of id a = [] → id ∈ (sds a).*1 → nfl c' !! id = Some [] ∧ nfm c' !! id = Some ∅) ∧
    (∀ id, ents_of id a = [] → id ∉ (sds a).*1 → nfl c' !! id = None ∧ nfm c' !! id = None) ∧
    (k = Contained → ∀ id, (is_Some (sdFrag c' !! id) ↔ id ∈ (sds a).*1) ∧
         ∀ sd cf f, (id, (sd, cf)) ∈ sds a → (f ∈ entry (sdFrag c') id ↔ piece hf sd f)).
Proof.
  intros a cu sd r [Hsmall Hsep] Hdk. pose proof (brun_rel key kernel ord k h) as R. fold r a in R.
  pose proof (brun_flag k h) as Hcu. fold r cu in Hcu.
  unfold build. fold r.
  set (t := tol (scr (brun key kernel ord k h))).
  set (e := match t with Some e => e | None => default_tol kernel ord r end).
  assert (Ht : t = Some e ∨ (t = None ∧ default_tol kernel ord r = e)).
  { unfold e. destruct t; [by left|by right]. }
  pose proof (confine_inv key kernel ord Hord r a R e t Ht) as Hci.
  destruct (confine key kernel ord r (initial key r t)) as [[u|x| |] c]; try done.
  2:{ left. eexists x, _. split; [done|]. done. }
  destruct Hci as [hc Hci]. pose proof Hci as (_ & _ & _ & H0 & H1 & H2).
  assert (Hconf : ∀ id, ents_of id a ≠ [] → conf_by kernel e a cu id (hc id)).
  { intros id Hid. apply (networks_some k h) in Hid as [nw Hnw]. fold r in Hnw.
    destruct (H2 id nw Hnw) as (l & m & _ & _ & _ & _ & Hd). rewrite <-Hcu. apply Hd. apply not_elem_of_nil. }
  specialize (Hsep e hc Hconf).
  set (v := match k with Plain => true | Contained => false end).
  pose proof (fragment_inv key kernel ord Hord r a R e v hc c Hci Hsmall Hsep) as Hf.
  assert (Hv : v = false ↔ k = Contained) by (by destruct k).
  assert (Hsd : sd = negb v) by (by destruct k).
  destruct (fragment_all key kernel ord v r c) as [o c'].
  assert (Hf' := Hf (λ E, Hdk (proj1 Hv E))). clear Hf.
  destruct o as [u'|x| |]; try done.
  2:{ left. eexists x, _. split; [done|]. done. }
  destruct Hf' as (hf & args & Efr & Hargs & Hnw & Hnone & Hsdf).
  right. exists e, hc, hf, c'.
  split; [|split; [|split; [|split; [|split]]]].
  - split; [done|]. exists args. split; [done|]. intros g. rewrite Hargs, Hsd. assert (Hvx : v = false ↔ negb v = true) by (by destruct v). by rewrite Hvx.
  - by destruct k, (entityDim r), (domainDim r).
  - intros id Hid. pose proof Hid as [nw Hw]%(networks_some k h). fold r in Hw.
    destruct (nw_entry kernel r a R id nw Hw) as [_ <-] || (pose proof (nw_entry kernel r a R id nw Hw) as [_ ->]).
    apply Hnw. done.
  - intros id Hid Hin.
    assert (Hn : networks r !! id = None).
    { pose proof (networks_some k h id) as Hs. fold r a in Hs. destruct (networks r !! id); [|done].
      exfalso. by apply Hs. }
    destruct (Hnone id Hn) as [-> ->].
    apply elem_of_list_fmap in Hin as ([i [s cf]] & -> & Hin).
    apply (H1 i s Hn). apply (sdmap_lookup _ _ _ _ _ R). eauto.
  - intros id Hid Hin.
    assert (Hn : networks r !! id = None).
    { pose proof (networks_some k h id) as Hs. fold r a in Hs. destruct (networks r !! id); [|done].
      exfalso. by apply Hs. }
    destruct (Hnone id Hn) as [-> ->]. apply (H0 id Hn).
    destruct (subDomains r !! id) as [s|] eqn:E; [|done]. exfalso. apply Hin.
    apply (sdmap_lookup _ _ _ _ _ R) in E as [cf E]. apply elem_of_list_fmap. by exists (id, (s, cf)).
  - intros Hk id. destruct (Hsdf (proj2 Hv Hk) id) as [Hs1 Hs2]. split.
    + rewrite Hs1. split.
      * intros [s E]. apply (sdmap_lookup _ _ _ _ _ R) in E as [cf E]. apply elem_of_list_fmap. by exists (id, (s, cf)).
      * intros ([i [s cf]] & -> & Hin)%elem_of_list_fmap. exists s. apply (sdmap_lookup _ _ _ _ _ R). eauto.
    + intros s cf f Hin. apply Hs2. apply (sdmap_lookup _ _ _ _ _ R). eauto.
Qed.

Lemma dims_ok k h id s :
  (id, s) ∈ ents (spec_run dim h) → entityDim (reg (brun key kernel ord k h)) = Some (dim s).
Proof.
  intros Hin. pose proof (brun_rel key kernel ord k h) as R.
  destruct (rel_ed _ _ _ R) as (d & -> & Hd). { intros E. rewrite E in Hin. by apply elem_of_nil in Hin. }
  rewrite Forall_forall in Hd. apply Hd in Hin. cbn in Hin. by subst.
Qed.
Lemma ddims_ok k h id s c :
  (id, (s, c)) ∈ sds (spec_run dim h) → domainDim (reg (brun key kernel ord k h)) = Some (dim s).
Proof.
  intros Hin. pose proof (brun_rel key kernel ord k h) as R.
  destruct (rel_dd _ _ _ R) as (d & -> & Hd). { intros E. rewrite E in Hin. by apply elem_of_nil in Hin. }
  rewrite Forall_forall in Hd. apply Hd in Hin. cbn in Hin. by subst.
Qed.

Lemma bstep_build k b : (bstep key kernel ord k b Build).2 = omapo Some (build key kernel ord k b).2.
Proof. cbn [bstep]. by destruct (build key kernel ord k b). Qed.

Lemma c24_contained_lemma h n :
  let a := spec_run dim h in
  distinct key kernel a (union_flag h) →
  NoDup (key <$> ((λ p : N * (S * bool), p.2.1) <$> sds a)) →
  (bstep key kernel ord Contained (brun key kernel ord Contained h) Build).2 = Ok (Some n) →
  ∃ e hc hf, operations kernel a (union_flag h) true e hc hf ∧
             contained_ok key kernel a hc hf n ∧ sub_domains_ok a hf n.
Proof.
  intros a Hd Hnd. rewrite bstep_build. intros Hn.
  destruct (build_core Contained h Hd (λ _, Hnd)) as [(x & b' & Hb & _)|(e & hc & hf & c' & Hop & Hb & H1 & H2 & H3 & H4)].
  { by rewrite Hb in Hn. }
  rewrite Hb in Hn. exists e, hc, hf. split; [done|].
  destruct (entityDim _) as [ed|] eqn:Eed; [|done]. destruct (domainDim _) as [dd|] eqn:Edd; [|done].
  cbn in Hn. injection Hn as <-. specialize (H4 eq_refl). split.
  - split; [|split; [|split]].
    + intros id s Hs. apply (dims_ok Contained) in Hs. congruence.
    + intros id s c Hs. apply (ddims_ok Contained) in Hs. congruence.
    + done.
    + intros id Hin He. by apply H2.
  - split.
    + intros id. unfold sub_domain_ids. rewrite elem_of_list_fmap. unfold a. rewrite <-(proj1 (H4 id)). split.
      * intros ([i l] & -> & Hl). apply elem_of_map_to_list in Hl. eauto.
      * intros [l Hl]. exists (id, l). split; [done|]. by apply elem_of_map_to_list.
    + intros id s c Hin. destruct (H4 id) as [Hs Hp].
      assert (Hl : is_Some (sdFrag c' !! id)) by (apply Hs, elem_of_list_fmap; by exists (id, (s, c))).
      destruct Hl as [l Hl]. exists l. unfold at_id. rewrite Hl. split; [done|].
      intros f. rewrite <-(Hp s c f Hin). unfold entry. by rewrite Hl.
Qed.

Lemma filed_lookup (hc : option (report S)) hf es l (m : gmap K N) :
  filed_ok key hc hf es l m → ∀ κ i, m !! κ = Some i →
  (1 ≤ i)%N ∧ ∃ f s, f ∈ l ∧ key f = κ ∧ es !! N.to_nat (i - 1) = Some s ∧ stems_same key hc hf s f.
Proof.
  intros (H1 & H2 & H3) κ i Hi.
  assert (Hs : is_Some (m !! κ)) by eauto. apply H2 in Hs as (f & Hf & <-).
  apply H3 in Hi as (n & s & Hn & -> & Hst). split; [lia|].
  exists f, s. split; [done|]. split; [done|]. split; [|done].
  replace (N.to_nat (N.of_nat n + 1 - 1)) with n by lia. done.
Qed.

Lemma stems_same_key (hc : option (report S)) hf s f f' :
  key f = key f' → stems_same key hc hf s f → stems_same key hc hf s f'.
Proof.
  intros E (s' & g & g' & f1 & ? & ? & ? & ? & E1). exists s', g, g', f1. repeat split; try done.
  unfold same in *. congruence.
Qed.

Lemma c25_plain_lemma h n :
  let a := spec_run dim h in
  distinct key kernel a (union_flag h) →
  (bstep key kernel ord Plain (brun key kernel ord Plain h) Build).2 = Ok (Some n) →
  ∃ e hc hf, operations kernel a (union_flag h) false e hc hf ∧ plain_ok key kernel a hc hf n ∧
             (enough key a hc hf → owners_ok key a hc hf n).
Proof.
  intros a Hd. rewrite bstep_build. intros Hn.
  destruct (build_core Plain h Hd) as [(x & b' & Hb & _)|(e & hc & hf & c' & Hop & Hb & H1 & H2 & H3 & _)]; [done| |].
  { by rewrite Hb in Hn. }
  rewrite Hb in Hn. exists e, hc, hf. split; [done|].
  destruct (entityDim _) as [ed|] eqn:Eed; [|done].
  cbn in Hn. injection Hn as <-.
  set (ids := ids_in ord 7 (nfm c')).
  assert (Hids : ∀ id, id ∈ ids ↔ is_Some (nfm c' !! id)) by (intros; by apply elem_of_ids).
  assert (Hnd : NoDup ids) by (by apply nodup_ids).
  assert (Hfr : ∀ f, f ∈ merge_lists ord c' ↔ ∃ id, f ∈ entry (nfl c') id).
  { intros f. unfold merge_lists. rewrite elem_of_list_bind. split; [naive_solver|].
    intros [id Hf]. exists id. split; [done|]. apply (elem_of_ids ord Hord). unfold entry in Hf.
    destruct (nfl c' !! id); [eauto|by apply elem_of_nil in Hf]. }
  assert (Hcase : ∀ id, (ents_of id a = [] ∧ entry (nfl c') id = [] ∧ default ∅ (nfm c' !! id) = ∅) ∨
                        (filed_ok key (hc id) hf (ents_of id a) (entry (nfl c') id) (default ∅ (nfm c' !! id)) ∧ id ∈ ids)).
  { intros id. destruct (decide (ents_of id a = [])) as [E|E].
    - left. split; [done|]. unfold entry. destruct (decide (id ∈ (sds a).*1)) as [Hin|Hin].
      + by destruct (H2 id E Hin) as [-> ->].
      + by destruct (H3 id E Hin) as [-> ->].
    - right. destruct (H1 id E) as (l & m & El & Em & Hf). unfold entry. rewrite El, Em. split; [done|].
      apply Hids. rewrite Em. eauto. }
  assert (Hidx : ∀ κ, merge_maps ids (nfm c') 0 ∅ !! κ =
             (λ p : N * N, (base ids (nfm c') 0 p.1 + p.2)%N) <$> owners ids (nfm c') ∅ !! κ).
  { intros κ. rewrite (merge_owners ids (nfm c') 0 ∅ ∅ (λ _, 0%N) Hnd).
    - destruct (owners ids (nfm c') ∅ !! κ) as [p|] eqn:E; [|done]. cbn.
      apply owners_spec in E as [E|[E _]]; [by rewrite lookup_empty in E|]. by rewrite bool_decide_true.
    - done.
    - intros κ' p Hp. by rewrite lookup_empty in Hp. }
  assert (Hown : ∀ κ, is_Some (owners ids (nfm c') ∅ !! κ) ↔ ∃ f, f ∈ merge_lists ord c' ∧ key f = κ).
  { intros κ. rewrite owners_is_Some. rewrite lookup_empty. split.
    - intros [[? ?]|(id & Hid & Hs)]; [done|]. destruct (Hcase id) as [(_ & _ & E)|[(_ & Hk & _) _]].
      + rewrite E, lookup_empty in Hs. by destruct Hs.
      + apply Hk in Hs as (f & Hf & <-). exists f. split; [|done]. apply Hfr. eauto.
    - intros (f & [id Hf]%Hfr & <-). right. exists id. destruct (Hcase id) as [(_ & E & _)|[(_ & Hk & _) Hin]].
      + rewrite E in Hf. by apply elem_of_nil in Hf.
      + split; [done|]. apply Hk. eauto. }
  split.
  - split; [|split].
    + intros id s Hs. apply (dims_ok Plain) in Hs. congruence.
    + intros f. rewrite Hfr. split.
      * intros [id Hf]. destruct (Hcase id) as [(_ & E & _)|[(Hl & _) _]].
        -- rewrite E in Hf. by apply elem_of_nil in Hf.
        -- apply Hl in Hf. eauto.
      * intros (id & s & Hs & Hst). exists id. destruct (Hcase id) as [(E & _)|[(Hl & _) _]].
        -- rewrite E in Hs. by apply elem_of_nil in Hs.
        -- apply Hl. eauto.
    + intros κ. rewrite Hidx, fmap_is_Some. apply Hown.
  - intros Hen.
    set (O := owners ids (nfm c') ∅).
    assert (HO : ∀ κ p, O !! κ = Some p → p.1 ∈ ids ∧
       (1 ≤ p.2 ≤ N.of_nat (size (default ∅ (nfm c' !! p.1))))%N ∧
       ∃ f s, key f = κ ∧ ents_of p.1 a !! N.to_nat (p.2 - 1) = Some s ∧ stems_same key (hc p.1) hf s f).
    { intros κ p Hp. unfold O in Hp. apply owners_spec in Hp as [Hp|[Hin Hp]]; [by rewrite lookup_empty in Hp|].
      split; [done|]. destruct (Hcase p.1) as [(_ & _ & E)|[Hf _]]; [by rewrite E, lookup_empty in Hp|].
      destruct (filed_lookup _ _ _ _ _ Hf _ _ Hp) as (Hge & f & s & Hfl & Hk & Hs & Hst). split.
      - split; [done|]. destruct (Hen p.1) as (ks & Hnk & Hlk & Hks).
        assert (Hsz : length ks ≤ size (default ∅ (nfm c' !! p.1))).
        { apply size_ge; [done|]. intros κ' (s' & f' & Hs' & Hst' & Hk')%Hks. apply Hf. exists f'.
          split; [|done]. apply Hf. eauto. }
        apply lookup_lt_Some in Hs. lia.
      - exists f, s. done. }
    exists (λ f, match O !! key f with Some p => (p.1, N.to_nat (p.2 - 1)) | None => (0%N, 0) end). split.
    + intros f Hf. assert (Hs : is_Some (O !! key f)) by (apply Hown; eauto). destruct Hs as [p Hp].
      rewrite Hp. cbn. destruct (HO _ _ Hp) as (_ & _ & f' & s & Hk & Hs & Hst). exists s. split; [done|].
      by eapply stems_same_key.
    + intros f1 f2 Hf1 Hf2. rewrite !Hidx. fold O.
      assert (Hs1 : is_Some (O !! key f1)) by (apply Hown; eauto). destruct Hs1 as [p1 Hp1].
      assert (Hs2 : is_Some (O !! key f2)) by (apply Hown; eauto). destruct Hs2 as [p2 Hp2].
      rewrite Hp1, Hp2. cbn. destruct (HO _ _ Hp1) as (Hi1 & Hb1 & _). destruct (HO _ _ Hp2) as (Hi2 & Hb2 & _).
      split.
      * intros [= E]. destruct (base_inj ids (nfm c') 0 p1.1 p2.1 p1.2 p2.2 Hnd Hi1 Hi2 Hb1 Hb2 E) as [-> ->]. done.
      * intros [= E1 E2]. f_equal. rewrite E1. f_equal. lia.
Qed.

Lemma c24_succeeds_lemma k h :
  let a := spec_run dim h in
  reliable kernel → distinct key kernel a (union_flag h) →
  NoDup (key <$> ((λ p : N * (S * bool), p.2.1) <$> sds a)) →
  ents a ≠ [] → (k = Contained → sds a ≠ []) →
  ∃ n, (bstep key kernel ord k (brun key kernel ord k h) Build).2 = Ok (Some n).
Proof.
  intros a Hr Hd Hnd He Hs. rewrite bstep_build.
  destruct (build_core k h Hd (λ _, Hnd)) as [(x & b' & Hb & _ & Hx)|(e & hc & hf & c' & _ & Hb & _)]; [done|].
  rewrite Hb. destruct (ents a) as [|[i s] l] eqn:Ea; [done|].
  rewrite (dims_ok k h i s) by (fold a; rewrite Ea; left).
  destruct k; [eauto|]. destruct (sds a) as [|[j [t c]] l'] eqn:Es; [by destruct Hs|].
  rewrite (ddims_ok Contained h j t c) by (fold a; rewrite Es; left). eauto.
Qed.
End Builds.

Section Ids.
Context {S K num : Type} `{EqDecision S} `{Countable K} (key : S → K).
Variable kernel : occ S num.
Variable ord : nat → list N → list N.

Lemma c26_ids_lemma (Hord : ∀ i l, ord i l ≡ₚ l) h ed dd sdf frags index :
  let a := spec_run (dim_of kernel) h in
  distinct key kernel a (union_flag h) →
  NoDup (key <$> ((λ p : N * (S * bool), p.2.1) <$> sds a)) →
  (bstep key kernel ord Contained (brun key kernel ord Contained h) Build).2 =
    Ok (Some (CNet ed dd sdf frags index)) →
  (∀ id, id ∈ sub_domain_ids sdf ↔ id ∈ (sds a).*1) ∧
  (∀ id, ents_of id a ≠ [] → is_Some (frags !! id) ∧ is_Some (index !! id)).
Proof.
  intros a Hd Hnd Hb. destruct (c24_contained_lemma key kernel ord Hord h _ Hd Hnd Hb) as (e & hc & hf & _ & Hc & Hs).
  split; [apply Hs|]. intros id Hid. destruct Hc as (_ & _ & Hc & _).
  destruct (Hc id Hid) as (l & m & -> & -> & _). eauto.
Qed.

Lemma file_all_defined h idx (ss : list S) lm : file_all key h idx ss lm ≠ UB ∧ file_all key h idx ss lm ≠ Diverge.
Proof. revert lm. induction ss as [|s ss IH]; intros lm; [done|]. cbn. destruct (idx !! key s); [apply IH|done]. Qed.
Lemma refile_defined h ids maps (ss : list S) acc :
  refile key h ids maps ss acc ≠ UB ∧ refile key h ids maps ss acc ≠ Diverge.
Proof.
  revert acc. induction ss as [|s ss IH]; intros acc; [done|]. cbn. destruct (ids !! key s); [|done].
  destruct (maps !! _) as [idx|]; [|done]. destruct (idx !! key s); [apply IH|done].
Qed.
Lemma sd_refile_defined h ids (ss : list S) acc : sd_refile key h ids ss acc ≠ UB ∧ sd_refile key h ids ss acc ≠ Diverge.
Proof. revert acc. induction ss as [|s ss IH]; intros acc; [done|]. cbn. destruct (ids !! key s); [apply IH|done]. Qed.

Lemma get_union_defined r (c : scratch S K num) :
  (get_union kernel ord r c).1 ≠ UB ∧ (get_union kernel ord r c).1 ≠ Diverge.
Proof.
  unfold get_union. destruct (union c); [done|]. destruct (omap _ _) as [|s1 [|s2 l]]; [done|done|].
  destruct (get_eps kernel ord r c). by destruct (fuse kernel _ _).
Qed.

Lemma confine_one_defined r id (c : scratch S K num) :
  (confine_one key kernel ord r id c).1 ≠ UB ∧ (confine_one key kernel ord r id c).1 ≠ Diverge.
Proof.
  unfold confine_one. destruct (subDomains r !! id) as [sd|]; [|done].
  assert (Hgo : ∀ tool (c : scratch S K num), let o := (let '(e, c) := get_eps kernel ord r c in
        match common kernel e (entry (networks r) id) [tool] with
        | None => (Throw RuntimeError, c)
        | Some h =>
            match file_all key h (default ∅ (nfm c !! id)) (entry (networks r) id) ([], ∅) with
            | Ok (l, m) => (Ok tt, mkScr (tol c) (union c) (sdFrag c) (<[id := l]> (nfl c)) (<[id := m]> (nfm c)))
            | Throw x => (Throw x, c)
            | UB => (UB, c)
            | Diverge => (Diverge, c)
            end
        end) in o.1 ≠ UB ∧ o.1 ≠ Diverge).
  { intros tool c1. cbv zeta. destruct (get_eps kernel ord r c1) as [e c2]. destruct (common kernel e _ _) as [h|]; [|done].
    destruct (file_all_defined h (default ∅ (nfm c2 !! id)) (entry (networks r) id) ([], ∅)).
    destruct (file_all _ _ _ _ _) as [[l m]| | |]; done. }
  destruct (bounds r !! id) as [[]|]; [apply Hgo| |done]. destruct (confineUnion r); [|done].
  pose proof (get_union_defined r c) as [? ?].
  destruct (get_union kernel ord r c) as [[]]; first [done|apply Hgo].
Qed.

Lemma c66_defined_lemma k h :
  ents (spec_run (dim_of kernel) h) ≠ [] →
  (k = Contained → sds (spec_run (dim_of kernel) h) ≠ []) →
  (bstep key kernel ord k (brun key kernel ord k h) Build).2 ≠ UB ∧
  (bstep key kernel ord k (brun key kernel ord k h) Build).2 ≠ Diverge.
Proof.
  intros He Hs. rewrite bstep_build. set (b := brun key kernel ord k h).
  pose proof (brun_rel key kernel ord k h) as R.
  assert (Hed : is_Some (entityDim (reg b))).
  { destruct (rel_ed _ _ _ R He) as (d & E & _). eauto. }
  assert (Hdd : k = Contained → is_Some (domainDim (reg b))).
  { intros Hk. destruct (rel_dd _ _ _ R (Hs Hk)) as (d & E & _). eauto. }
  clear R. clearbody b. unfold build. set (r := reg b) in *.
  assert (Hc : ∀ ids c, (confine_loop key kernel ord r ids c).1 ≠ UB ∧ (confine_loop key kernel ord r ids c).1 ≠ Diverge).
  { induction ids as [|id ids IH]; intros c; [done|]. cbn [confine_loop].
    pose proof (confine_one_defined r id c) as [? ?].
    destruct (confine_one key kernel ord r id c) as [[] ?]; try done. }
  unfold confine.
  destruct (Hc (ids_in ord 3 (networks r)) (initial key r (tol (scr b)))) as [? ?].
  destruct (confine_loop key kernel ord r _ _) as [[] c]; try done.
  assert (Hf : ∀ v c, (fragment_all key kernel ord v r c).1 ≠ UB ∧ (fragment_all key kernel ord v r c).1 ≠ Diverge).
  { intros v c1. unfold fragment_all. destruct (get_eps kernel ord r c1) as [e c2].
    destruct (fragment kernel _ _) as [hf|]; [|done].
    match goal with |- context [refile ?a ?b ?c ?d ?e ?f] => destruct (refile_defined b c d e f); destruct (refile a b c d e f) end; try done.
    cbn [sdFrag].
    match goal with |- context [sd_refile ?a ?b ?c ?d ?e] => destruct (sd_refile_defined b c d e); destruct (sd_refile a b c d e) end; done. }
  destruct (Hf (match k with Plain => true | Contained => false end) c) as [? ?].
  destruct (fragment_all key kernel ord _ r c) as [[] c']; try done.
  destruct Hed as [ed ->]. destruct k; [done|]. destruct (Hdd eq_refl) as [dd ->]. done.
Qed.
End Ids.
