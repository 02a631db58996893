(** Networks that were built: the index maps have exactly the listed fragments. *)

From stdpp Require Import prelude gmap list.
From Verif Require Import Base StatusModel BuilderModel BuilderSpec BuilderProofs BuilderAttrProofs WriterModel WriterSpec.

Section Built.
Context {S K num : Type} `{EqDecision S} `{Countable K} (key : S → K).
Variable kernel : occ S num.
Variable ord : nat → list N → list N.
Hypothesis Hord : ∀ i l, ord i l ≡ₚ l.
Notation scratch := (scratch S K num).

Definition agrees (c : scratch) : Prop :=
  ∀ id, match nfl c !! id, nfm c !! id with
        | Some l, Some m => cover key (l, m)
        | None, None => True
        | _, _ => False
        end.
Lemma agrees_same (c c' : scratch) : nfl c' = nfl c → nfm c' = nfm c → agrees c → agrees c'.
Proof. intros E1 E2 Ha id. rewrite E1, E2. apply Ha. Qed.
Lemma cover_nil : cover key (([], ∅) : list S * gmap K N).
Proof.
  intros κ. cbn. rewrite lookup_empty. split; [by intros []|]. intros (g & Hg & _). by apply elem_of_nil in Hg.
Qed.
Lemma cover_number ss : cover key (ss, number key 1 ss ∅).
Proof.
  intros κ. cbn. split.
  - intros [j Hj]. apply number_spec in Hj as [Hj|(n & s & Hs & _ & ->)]; [by rewrite lookup_empty in Hj|].
    exists s. split; [by eapply elem_of_list_lookup_2|done].
  - intros (g & Hg & <-). apply number_covers. by left.
Qed.
Lemma agrees_initial r e : agrees (initial key r e).
Proof.
  intros id. unfold initial. cbn [nfl nfm]. rewrite lookup_fmap.
  destruct ((networks r ∪ ((λ _, []) <$> subDomains r)) !! id) as [l|]; cbn; [apply cover_number|done].
Qed.
Lemma get_eps_nf r (c : scratch) e c' : get_eps kernel ord r c = (e, c') → nfl c' = nfl c ∧ nfm c' = nfm c.
Proof. unfold get_eps. destruct (tol c); by intros [= _ <-]. Qed.
Lemma get_union_nf r (c : scratch) o c' : get_union kernel ord r c = (o, c') → nfl c' = nfl c ∧ nfm c' = nfm c.
Proof.
  unfold get_union. destruct (BuilderModel.union c); [by intros [= _ <-]|].
  destruct (omap _ _) as [|s [|s' l]]; [by intros [= _ <-]|by intros [= _ <-]|].
  destruct (get_eps kernel ord r c) as [e c1] eqn:E. apply get_eps_nf in E as [E1 E2].
  destruct (fuse _ _ _); intros [= _ <-]; cbn; done.
Qed.
Lemma agrees_confine_one r id (c : scratch) o c' : confine_one key kernel ord r id c = (o, c') → agrees c → agrees c'.
Proof.
  unfold confine_one. intros E Ha. destruct (subDomains r !! id) as [sd|]; [|by injection E as _ <-].
  assert (Hgo : ∀ (tool : S) (c0 : scratch) o c', agrees c0 →
    (let '(e, c) := get_eps kernel ord r c0 in
        match common kernel e (entry (networks r) id) [tool] with
        | None => (Throw RuntimeError, c)
        | Some h =>
            match file_all key h (default ∅ (nfm c !! id)) (entry (networks r) id) ([], ∅) with
            | Ok (l, m) => (Ok tt, mkScr (tol c) (BuilderModel.union c) (sdFrag c) (<[id := l]> (nfl c)) (<[id := m]> (nfm c)))
            | Throw x => (Throw x, c)
            | UB => (UB, c)
            | Diverge => (Diverge, c)
            end
        end) = (o, c') → agrees c').
  { clear E Ha c o c'. intros tool c0 o c' Ha. destruct (get_eps kernel ord r c0) as [e c] eqn:Eg. apply get_eps_nf in Eg as [E1 E2].
    assert (Ha' : agrees c) by (by eapply agrees_same).
    destruct (common _ _ _ _) as [h|]; [|by intros [= _ <-]].
    destruct (file_all _ _ _ _ _) as [[l m]| | |] eqn:Ef; intros [= _ <-]; [|done..].
    intros i. cbn [nfl nfm]. destruct (decide (i = id)) as [->|Hne].
    - rewrite !lookup_insert. apply (file_all_spec key h _ _ _ (l, m) cover_nil Ef).
    - rewrite !lookup_insert_ne by done. apply Ha'. }
  destruct (bounds r !! id) as [[]|]; [by eapply Hgo| |by injection E as _ <-].
  destruct (confineUnion r); [|by injection E as _ <-].
  destruct (get_union kernel ord r c) as [[u| | |] c1] eqn:Eu; apply get_union_nf in Eu as [E1 E2];
    assert (Ha' : agrees c1) by (by eapply agrees_same); [by eapply Hgo|by injection E as _ <-..].
Qed.
Lemma agrees_confine_loop r ids : ∀ (c : scratch) o c', confine_loop key kernel ord r ids c = (o, c') → agrees c → agrees c'.
Proof.
  induction ids as [|id ids IH]; intros c o c'; cbn [confine_loop]; [by intros [= _ <-]|].
  destruct (confine_one key kernel ord r id c) as [[u| | |] c1] eqn:E1; intros E Ha; pose proof (agrees_confine_one _ _ _ _ _ E1 Ha) as Ha1;
    [by eapply IH|by injection E as _ <-..].
Qed.
Lemma refile_cover h ids maps (ss : list S) : ∀ acc acc', (∀ id p, acc !! id = Some p → cover key p) →
  refile key h ids maps ss acc = Ok acc' → ∀ id p, acc' !! id = Some p → cover key p.
Proof.
  induction ss as [|s ss IH]; intros acc acc' Ha; cbn [refile]; [by intros [= <-]|].
  destruct (ids !! key s) as [z|]; [|done]. destruct (maps !! size_of_int z) as [idx|]; [|done].
  destruct (idx !! key s) as [i|]; [|done]. apply IH.
  intros id p [[<- <-]|[_ Hp]]%lookup_insert_Some; [|by eapply Ha].
  apply file_spec. destruct (acc !! size_of_int z) as [q|] eqn:Eq; cbn; [by eapply Ha|apply cover_nil].
Qed.
Lemma agrees_fragment v r (c : scratch) o c' : fragment_all key kernel ord v r c = (Ok o, c') → agrees c → agrees c'.
Proof.
  unfold fragment_all. destruct (get_eps kernel ord r c) as [e c1] eqn:Eg. apply get_eps_nf in Eg as [E1 E2]. intros E Ha.
  assert (Ha1 : agrees c1) by (by eapply agrees_same).
  destruct (fragment _ _ _) as [h|]; [|done].
  destruct (refile _ _ _ _ _ _) as [acc| | |] eqn:Er; [|done..].
  destruct (sd_refile _ _ _ _ _) as [sdf| | |]; [|done..]. injection E as _ <-.
  intros id. cbn [nfl nfm]. rewrite !lookup_union, !lookup_fmap. destruct (acc !! id) as [[l m]|] eqn:Ea.
  - assert (Hc : cover key (l, m)) by (eapply refile_cover in Er; [exact Er| |exact Ea]; intros i p; by rewrite lookup_empty).
    cbn. destruct (nfl c1 !! id), (nfm c1 !! id); done.
  - specialize (Ha1 id). cbn. by destruct (nfl c1 !! id), (nfm c1 !! id).
Qed.

Lemma merge_maps_some ids maps off m k :
  is_Some (merge_maps (K := K) ids maps off m !! k) ↔ is_Some (m !! k) ∨ ∃ id, id ∈ ids ∧ is_Some (default ∅ (maps !! id) !! k).
Proof.
  revert off m. induction ids as [|id ids IH]; intros off m; cbn [merge_maps].
  { split; [by left|]. intros [?|(i & Hi & _)]; [done|by apply elem_of_nil in Hi]. }
  rewrite IH, lookup_union_is_Some, lookup_fmap, fmap_is_Some. split.
  - intros [[?|?]|(i & Hi & ?)]; [right; exists id; split; [left|done]|by left|right; exists i; split; [by right|done]].
  - intros [?|(i & [->|Hi]%elem_of_cons & ?)]; [by left; right|by left; left|right; eauto].
Qed.

Lemma built_covers k b n (T : topo S) ids : (build key kernel ord k b).2 = Ok n →
  (∀ s, entity_fragment ids n s → s ∈ t_faces T s) →
  listed key T ids n ∧ ∀ s, entity_fragment ids n s → indexed ids n (key s).
Proof.
  unfold build. destruct (confine key kernel ord (reg b) (initial key (reg b) (tol (scr b)))) as [[u| | |] c1] eqn:E1; [|done..].
  apply agrees_confine_loop in E1; [|apply agrees_initial].
  destruct (fragment_all key kernel ord _ (reg b) c1) as [[u2| | |] c] eqn:E2; [|done..]. apply agrees_fragment in E2 as Ha; [|done].
  assert (H1 : ∀ id k, is_Some (default ∅ (nfm c !! id) !! k) → ∃ l g, nfl c !! id = Some l ∧ g ∈ l ∧ key g = k).
  { intros id κ. specialize (Ha id). destruct (nfl c !! id) as [l|], (nfm c !! id) as [m|]; try done; cbn.
    - intros (g & Hg & E)%Ha. eauto 10.
    - rewrite lookup_empty. by intros []. }
  assert (H2 : ∀ id l g, nfl c !! id = Some l → g ∈ l → ∃ m, nfm c !! id = Some m ∧ is_Some (m !! key g)).
  { intros id l g El Hg. specialize (Ha id). rewrite El in Ha. destruct (nfm c !! id) as [m|]; [|done]. exists m. split; [done|].
    apply Ha. eauto. }
  destruct k, (entityDim (reg b)) as [ed|], (domainDim (reg b)) as [dd|]; cbn; try done; intros [= <-] Hf.
  1-2: split;
    [ intros κ Hκ; cbn in Hκ; apply merge_maps_some in Hκ as [Hκ|(id & _ & Hκ)]; [rewrite lookup_empty in Hκ; by destruct Hκ|];
      apply H1 in Hκ as (l & g & El & Hg & <-); 
      assert (g ∈ merge_lists ord c) by (unfold merge_lists; apply elem_of_list_bind; exists id; split; [unfold entry; by rewrite El|];
        apply elem_of_ids; [done|eauto]); exists g, g; split; [done|]; split; [by apply Hf|done]
    | intros s Hs; cbn in *; unfold merge_lists in Hs; apply elem_of_list_bind in Hs as (id & Hs & _); unfold entry in Hs;
      destruct (nfl c !! id) as [l|] eqn:El; cbn in Hs; [|by apply elem_of_nil in Hs];
      destruct (H2 _ _ _ El Hs) as (m & Em & Hm); apply merge_maps_some; right; exists id; rewrite Em; split; [|done];
      apply elem_of_ids; [done|]; by rewrite Em ].
  split.
  - intros κ (id & m & Hid & Em & Hm). destruct (H1 id κ) as (l & g & El & Hg & <-); [by rewrite Em|].
    assert (Hx : entity_fragment ids (CNet ed dd (sdFrag c) (nfl c) (nfm c)) g) by (exists id, l; done).
    exists g, g. split; [done|]. split; [by apply Hf|done].
  - intros s (id & l & Hid & El & Hs). destruct (H2 _ _ _ El Hs) as (m & Em & Hm). exists id, m. done.
Qed.
End Built.
