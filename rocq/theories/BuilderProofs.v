(** Proofs for BuilderProps.v: registration, access to the network, tolerance. *)

From stdpp Require Import prelude gmap list.
From Verif Require Import Base BuilderModel BuilderSpec.

(** * C22 *)
Section Registration.
Context {S K num : Type} `{EqDecision S} `{Countable K} (key : S → K).
Variable kernel : occ S num.
Variable ord : nat → list N → list N.
Notation dim := (dim_of kernel).

Definition sdmap (l : list (N * (S * bool))) : gmap N (S * bool) := list_to_map l.

(** The registry holds what was accepted. *)
Record rel (r : registry S) (a : registered S) : Prop := mkRel {
  rel_nodup : NoDup (sds a).*1;
  rel_sd : subDomains r = fst <$> sdmap (sds a);
  rel_bo : bounds r = snd <$> sdmap (sds a);
  rel_nw : ∀ id, networks r !! id = match ents_of id a with [] => None | l => Some l end;
  rel_dd : sds a ≠ [] → ∃ d, domainDim r = Some d ∧ Forall (λ p : N * (S * bool), dim p.2.1 = d) (sds a);
  rel_ed : ents a ≠ [] → ∃ d, entityDim r = Some d ∧ Forall (λ p : N * S, dim p.2 = d) (ents a);
  rel_lt : Forall (λ p : N * (S * bool), Forall (λ q : N * S, (dim q.2 < dim p.2.1)%Z) (ents a)) (sds a);
}.

Lemma rel_sd_empty r a : rel r a → (subDomains r = ∅ ↔ sds a = []).
Proof.
  intros R. rewrite (rel_sd _ _ R). rewrite fmap_empty_iff. unfold sdmap. split.
  - intros E. destruct (sds a) as [|[i p] l]; [done|]. cbn in E.
    by apply insert_non_empty in E.
  - by intros ->.
Qed.

Lemma rel_nw_empty r a : rel r a → (networks r = ∅ ↔ ents a = []).
Proof.
  intros R. split.
  - intros E. destruct (ents a) as [|[i s] l] eqn:Ea; [done|].
    pose proof (rel_nw _ _ R i) as Hi. rewrite E, lookup_empty in Hi.
    unfold ents_of in Hi. rewrite Ea in Hi. cbn in Hi. by rewrite decide_True in Hi.
  - intros E. apply map_eq. intros i. rewrite (rel_nw _ _ R i). unfold ents_of. by rewrite E.
Qed.

Lemma rel_init : rel reg_init (mkRd [] []).
Proof. split; cbn; try done. 2,3: (by rewrite fmap_empty). by apply NoDup_nil. Qed.

Lemma forallb_bd {A} (P : A → Prop) `{∀ x, Decision (P x)} (l : list A) :
  forallb (λ x, bool_decide (P x)) l = bool_decide (Forall P l).
Proof.
  induction l as [|x l IH]; [done|]. cbn. rewrite IH.
  apply eq_bool_prop_intro. rewrite andb_True, !bool_decide_spec, Forall_cons. done.
Qed.

Lemma sdmap_snoc l id (p : S * bool) : id ∉ l.*1 → sdmap (l ++ [(id, p)]) = <[id := p]> (sdmap l).
Proof.
  intros Hn. unfold sdmap. induction l as [|[i q] l IH]; [done|]. cbn in *.
  rewrite IH by (intros Hx; apply Hn; by right).
  apply insert_commute. intros ->. apply Hn. left.
Qed.

Lemma add_sub_domain_spec r a conf s id :
  rel r a →
  match add_sub_domain kernel conf s id r with
  | Ok r' => sd_ok dim s id a = true ∧ rel r' (mkRd (sds a ++ [(id, (s, conf))]) (ents a)) ∧ confineUnion r' = confineUnion r
  | Throw RuntimeError => sd_ok dim s id a = false
  | _ => False
  end.
Proof.
  intros R. unfold add_sub_domain, sd_ok. rewrite !forallb_bd.
  assert (HE : (networks r ≠ ∅) ↔ ents a ≠ []) by (by rewrite (rel_nw_empty _ _ R)).
  assert (HS : (subDomains r ≠ ∅) ↔ sds a ≠ []) by (by rewrite (rel_sd_empty _ _ R)).
  set (P1 := Forall (λ x : N * (S * bool), x.1 ≠ id ∧ dim x.2.1 = dim s) (sds a)).
  set (P2 := Forall (λ x : N * S, (dim x.2 < dim s)%Z) (ents a)).
  assert (H1 : (if bool_decide (networks r ≠ ∅)
         then with_dim (entityDim r) (λ e, if bool_decide (dim s ≤ e)%Z then Throw RuntimeError else Ok tt)
         else Ok tt) = if bool_decide P2 then Ok tt else Throw RuntimeError).
  { destruct (bool_decide_reflect (networks r ≠ ∅)) as [Hn|Hn].
    - apply HE in Hn. destruct (rel_ed _ _ R Hn) as (d & -> & Hd). cbn.
      destruct (ents a) as [|q l] eqn:Ea; [done|].
      destruct (bool_decide_reflect (dim s ≤ d)%Z) as [Hle|Hle].
      + rewrite bool_decide_false; [done|]. unfold P2; rewrite ?Ea. intros [Hq _]%Forall_cons.
        apply Forall_cons in Hd as [Hd _]. lia.
      + rewrite bool_decide_true; [done|]. unfold P2; rewrite ?Ea.
        eapply Forall_impl; [exact Hd|]. cbn. intros x Hx. lia.
    - rewrite bool_decide_true; [done|]. unfold P2.
      assert (ents a = []) as -> by (destruct (ents a); [done|exfalso; apply Hn; by apply HE]). constructor. }
  rewrite H1. clear H1.
  destruct (bool_decide_reflect P2) as [HP2|HP2]; cbn [obind].
  2:{ by rewrite andb_false_r. }
  rewrite andb_true_r.
  assert (H1 : (if bool_decide (subDomains r ≠ ∅)
         then with_dim (domainDim r) (λ e, if bool_decide (dim s ≠ e) then Throw RuntimeError else Ok tt)
         else Ok tt) = if bool_decide (Forall (λ x : N * (S * bool), dim x.2.1 = dim s) (sds a)) then Ok tt else Throw RuntimeError).
  { destruct (bool_decide_reflect (subDomains r ≠ ∅)) as [Hn|Hn].
    - apply HS in Hn. destruct (rel_dd _ _ R Hn) as (d & -> & Hd). cbn.
      destruct (sds a) as [|q l] eqn:Ea; [done|].
      destruct (bool_decide_reflect (dim s ≠ d)) as [Hle|Hle].
      + rewrite bool_decide_false; [done|]. intros [Hq _]%Forall_cons.
        apply Forall_cons in Hd as [Hd _]. lia.
      + rewrite bool_decide_true; [done|].
        eapply Forall_impl; [exact Hd|]. cbn. intros x Hx. lia.
    - rewrite bool_decide_true; [done|].
      assert (sds a = []) as -> by (destruct (sds a); [done|exfalso; apply Hn; by apply HS]). constructor. }
  rewrite H1. clear H1.
  destruct (bool_decide_reflect (Forall (λ x : N * (S * bool), dim x.2.1 = dim s) (sds a))) as [Hd|Hd]; cbn [obind].
  2:{ apply bool_decide_false. intros HP1. apply Hd. eapply Forall_impl; [exact HP1|]. by intros x [_ ?]. }
  assert (Hlk : subDomains r !! id = None ↔ id ∉ (sds a).*1).
  { rewrite (rel_sd _ _ R), lookup_fmap, fmap_None. unfold sdmap. rewrite <-not_elem_of_list_to_map. done. }
  destruct (subDomains r !! id) as [s'|] eqn:El.
  - apply bool_decide_false. intros HP1. assert (Hn : id ∉ (sds a).*1); [|by apply Hlk in Hn].
    intros (p & -> & Hp)%elem_of_list_fmap. unfold P1 in HP1. rewrite Forall_forall in HP1.
    by apply HP1 in Hp as [Hp _].
  - assert (Hid : id ∉ (sds a).*1) by (by apply Hlk).
    split; [|split; [|done]].
    { apply bool_decide_true. unfold P1. rewrite Forall_forall in *. intros p Hp. split; [|by apply Hd].
      intros <-. apply Hid. apply elem_of_list_fmap. eauto. }
    split; cbn [subDomains bounds networks domainDim entityDim sds ents].
    + rewrite fmap_app. cbn. apply NoDup_app. split; [apply (rel_nodup _ _ R)|]. split.
      * intros x Hx Hy. apply elem_of_list_singleton in Hy. by subst.
      * apply NoDup_singleton.
    + rewrite sdmap_snoc by done. rewrite fmap_insert. by rewrite (rel_sd _ _ R).
    + rewrite sdmap_snoc by done. rewrite fmap_insert. by rewrite (rel_bo _ _ R).
    + intros i. rewrite (rel_nw _ _ R i). done.
    + intros _. exists (dim s). split; [done|]. apply Forall_app. split; [done|]. by repeat constructor.
    + apply (rel_ed _ _ R).
    + apply Forall_app. split; [apply (rel_lt _ _ R)|]. constructor; [|constructor]. cbn. exact HP2.
Qed.

Lemma add_entity_spec r a s id :
  rel r a →
  match add_entity kernel s id r with
  | Ok r' => ent_ok dim s a = true ∧ rel r' (mkRd (sds a) (ents a ++ [(id, s)])) ∧ confineUnion r' = confineUnion r
  | Throw RuntimeError => ent_ok dim s a = false
  | _ => False
  end.
Proof.
  intros R. unfold add_entity, ent_ok. rewrite !forallb_bd.
  assert (HE : (networks r ≠ ∅) ↔ ents a ≠ []) by (by rewrite (rel_nw_empty _ _ R)).
  assert (HS : (subDomains r ≠ ∅) ↔ sds a ≠ []) by (by rewrite (rel_sd_empty _ _ R)).
  assert (H1 : (if bool_decide (networks r ≠ ∅)
         then with_dim (entityDim r) (λ e, if bool_decide (dim s ≠ e) then Throw RuntimeError else Ok tt)
         else Ok tt) = if bool_decide (Forall (λ x : N * S, dim x.2 = dim s) (ents a)) then Ok tt else Throw RuntimeError).
  { destruct (bool_decide_reflect (networks r ≠ ∅)) as [Hn|Hn].
    - apply HE in Hn. destruct (rel_ed _ _ R Hn) as (d & -> & Hd). cbn.
      destruct (ents a) as [|q l] eqn:Ea; [done|].
      destruct (bool_decide_reflect (dim s ≠ d)) as [Hle|Hle].
      + rewrite bool_decide_false; [done|]. intros [Hq _]%Forall_cons.
        apply Forall_cons in Hd as [Hd _]. lia.
      + rewrite bool_decide_true; [done|].
        eapply Forall_impl; [exact Hd|]. cbn. intros x Hx. lia.
    - rewrite bool_decide_true; [done|].
      assert (ents a = []) as -> by (destruct (ents a); [done|exfalso; apply Hn; by apply HE]). constructor. }
  rewrite H1. clear H1.
  destruct (bool_decide_reflect (Forall (λ x : N * S, dim x.2 = dim s) (ents a))) as [HP1|HP1]; cbn [obind andb]; [|done].
  assert (H1 : (if bool_decide (subDomains r ≠ ∅)
         then with_dim (domainDim r) (λ e, if bool_decide (e ≤ dim s)%Z then Throw RuntimeError else Ok tt)
         else Ok tt) = if bool_decide (Forall (λ x : N * (S * bool), (dim s < dim x.2.1)%Z) (sds a)) then Ok tt else Throw RuntimeError).
  { destruct (bool_decide_reflect (subDomains r ≠ ∅)) as [Hn|Hn].
    - apply HS in Hn. destruct (rel_dd _ _ R Hn) as (d & -> & Hd). cbn.
      destruct (sds a) as [|q l] eqn:Ea; [done|].
      destruct (bool_decide_reflect (d ≤ dim s)%Z) as [Hle|Hle].
      + rewrite bool_decide_false; [done|]. intros [Hq _]%Forall_cons.
        apply Forall_cons in Hd as [Hd _]. lia.
      + rewrite bool_decide_true; [done|].
        eapply Forall_impl; [exact Hd|]. cbn. intros x Hx. lia.
    - rewrite bool_decide_true; [done|].
      assert (sds a = []) as -> by (destruct (sds a); [done|exfalso; apply Hn; by apply HS]). constructor. }
  rewrite H1. clear H1.
  destruct (bool_decide_reflect (Forall (λ x : N * (S * bool), (dim s < dim x.2.1)%Z) (sds a))) as [Hd|Hd]; cbn [obind]; [|done].
  split; [done|]. split; [|done].
  split; cbn [subDomains bounds networks domainDim entityDim sds ents].
  - apply (rel_nodup _ _ R).
  - apply (rel_sd _ _ R).
  - apply (rel_bo _ _ R).
  - intros i. unfold ents_of. cbn [ents]. rewrite filter_app, fmap_app.
    change ((λ p : N * S, p.2) <$> filter (λ p : N * S, p.1 = i) (ents a)) with (ents_of i a).
    destruct (decide (id = i)) as [->|Hne].
    + rewrite lookup_insert. rewrite filter_cons_True by done. cbn. unfold entry.
      rewrite (rel_nw _ _ R i). destruct (ents_of i a); done.
    + rewrite lookup_insert_ne by done. rewrite filter_cons_False by done. cbn.
      rewrite app_nil_r. apply (rel_nw _ _ R).
  - apply (rel_dd _ _ R).
  - intros _. exists (dim s). split; [done|]. apply Forall_app. split; [done|]. by repeat constructor.
  - pose proof (rel_lt _ _ R) as Hlt. rewrite Forall_forall in *. intros p Hp. apply Forall_app.
    split; [by apply Hlt|]. constructor; [|constructor]. by apply Hd.
Qed.

Lemma add_entities_spec ss id r a :
  rel r a →
  let '(r', x) := add_entities kernel ss id r in
  rel r' (accept dim ss id a) ∧ confineUnion r' = confineUnion r ∧
  x = if all_ok dim ss id a then Ok tt else Throw RuntimeError.
Proof.
  revert r a. induction ss as [|s ss IH]; intros r a R; [done|]. cbn [add_entities accept all_ok].
  pose proof (add_entity_spec r a s id R) as Hs.
  destruct (add_entity kernel s id r) as [r1|[]| |]; try done.
  - destruct Hs as (-> & R1 & Hc). cbn [andb].
    specialize (IH r1 _ R1). destruct (add_entities kernel ss id r1) as [r' x].
    destruct IH as (? & ? & ?). split; [done|]. split; [cbn; congruence|done].
  - rewrite Hs. done.
Qed.

Lemma rel_confine r a v :
  rel r a → rel (mkReg (subDomains r) (bounds r) (networks r) (domainDim r) (entityDim r) v) a.
Proof. intros []. by split. Qed.

Lemma build_reg k b : reg (build key kernel ord k b).1 = reg b.
Proof.
  unfold build. destruct (confine _ _ _ _ _) as [[] c]; try done.
  destruct (fragment_all _ _ _ _ _ _) as [[] c']; try done.
  destruct k, (entityDim (reg b)), (domainDim (reg b)); done.
Qed.

Notation bstep := (bstep key kernel ord).
Notation brun := (brun key kernel ord).

Lemma bstep_rel k b a (o : bcall) : rel (reg b) a → rel (reg (bstep k b o).1) (spec_step dim a o).
Proof.
  intros R. destruct o as [conf s id|ss id|v|e| | |]; cbn [bstep spec_step].
  - pose proof (add_sub_domain_spec (reg b) a conf s id R) as Hs.
    destruct (add_sub_domain kernel conf s id (reg b)) as [r1|[]| |]; try done.
    + destruct Hs as (-> & R1 & _). done.
    + by rewrite Hs.
  - pose proof (add_entities_spec ss id (reg b) a R) as Hs.
    destruct (add_entities kernel ss id (reg b)) as [r' x]. by destruct Hs as [? _].
  - by apply rel_confine.
  - done.
  - done.
  - pose proof (build_reg k b) as Hb. destruct (build key kernel ord k b) as [b' n]. cbn in *.
    by rewrite Hb.
  - cbn. destruct rel_init. split; cbn; done.
Qed.

Lemma brun_snoc k h (o : bcall) : brun k (h ++ [o]) = (bstep k (brun k h) o).1.
Proof. unfold brun. by rewrite fold_left_app. Qed.

Lemma brun_rel k h : rel (reg (brun k h)) (spec_run dim h).
Proof.
  induction h as [|o h IH] using rev_ind; [apply rel_init|].
  rewrite brun_snoc. unfold spec_run. rewrite fold_left_app. cbn. by apply bstep_rel.
Qed.

Lemma sdmap_lookup r a id s :
  rel r a → (subDomains r !! id = Some s ↔ ∃ c, (id, (s, c)) ∈ sds a).
Proof.
  intros R. rewrite (rel_sd _ _ R), lookup_fmap, fmap_Some. unfold sdmap. split.
  - intros ([s2 c] & Hl & E). cbn in E. subst s2. exists c. by apply elem_of_list_to_map_2 in Hl.
  - intros [c Hl]. exists (s, c). split; [|done]. apply elem_of_list_to_map_1; [|done]. apply (rel_nodup _ _ R).
Qed.
Lemma bounds_lookup r a id c :
  rel r a → (bounds r !! id = Some c ↔ ∃ s, (id, (s, c)) ∈ sds a).
Proof.
  intros R. rewrite (rel_bo _ _ R), lookup_fmap, fmap_Some. unfold sdmap. split.
  - intros ([s' c'] & Hl & ->). exists s'. by apply elem_of_list_to_map_2 in Hl.
  - intros [s Hl]. exists (s, c). split; [|done]. apply elem_of_list_to_map_1; [|done]. apply (rel_nodup _ _ R).
Qed.
Lemma entry_lookup r a id : rel r a → entry (networks r) id = ents_of id a.
Proof. intros R. unfold entry. rewrite (rel_nw _ _ R). by destruct (ents_of id a). Qed.

Lemma c22_holds_lemma k h id s :
  (subDomains (reg (brun k h)) !! id = Some s ↔ ∃ c, (id, (s, c)) ∈ sds (spec_run dim h)) ∧
  entry (networks (reg (brun k h))) id = ents_of id (spec_run dim h).
Proof.
  pose proof (brun_rel k h) as R. split; [by apply sdmap_lookup|by apply entry_lookup].
Qed.

Lemma c22_outcome_lemma k h o ok :
  accepted dim (spec_run dim h) o = Some ok →
  (bstep k (brun k h) o).2 = if ok then Ok None else Throw RuntimeError.
Proof.
  pose proof (brun_rel k h) as R. destruct o as [conf s id|ss id|v|e| | |]; cbn [accepted bstep]; intros Ho;
    try (injection Ho as <-); try done.
  - pose proof (add_sub_domain_spec _ _ conf s id R) as Hs.
    destruct (add_sub_domain kernel conf s id _) as [r1|[]| |]; try done.
    + by destruct Hs as (-> & _).
    + by rewrite Hs.
  - pose proof (add_entities_spec ss id _ _ R) as Hs.
    destruct (add_entities kernel ss id _) as [r' x]. destruct Hs as (_ & _ & ->). cbn.
    by destruct (all_ok dim ss id (spec_run dim h)).
Qed.

Lemma c22_rejected_lemma k h conf s id :
  sd_ok dim s id (spec_run dim h) = false →
  bstep k (brun k h) (AddSubDomain conf s id) = (brun k h, Throw RuntimeError).
Proof.
  intros Hs. pose proof (add_sub_domain_spec _ _ conf s id (brun_rel k h)) as Ha. cbn [bstep].
  destruct (add_sub_domain kernel conf s id _) as [r1|[]| |]; try done.
  destruct Ha as (Ha & _). congruence.
Qed.

Lemma c22_consistent_lemma k h :
  let r := reg (brun k h) in
  (∀ i1 i2 s1 s2, subDomains r !! i1 = Some s1 → subDomains r !! i2 = Some s2 → dim s1 = dim s2) ∧
  (∀ i1 i2 e1 e2, e1 ∈ entry (networks r) i1 → e2 ∈ entry (networks r) i2 → dim e1 = dim e2) ∧
  (∀ i1 i2 s e, subDomains r !! i1 = Some s → e ∈ entry (networks r) i2 → (dim e < dim s)%Z).
Proof.
  pose proof (brun_rel k h) as R. cbv zeta. set (r := reg (brun k h)) in *. set (a := spec_run dim h) in *.
  assert (HE : ∀ i e, e ∈ entry (networks r) i → ∃ i', (i', e) ∈ ents a).
  { intros i e. rewrite (entry_lookup _ _ _ R). unfold ents_of. intros (p & -> & Hp)%elem_of_list_fmap.
    apply elem_of_list_filter in Hp as [_ Hp]. destruct p; eauto. }
  split; [|split].
  - intros i1 i2 s1 s2 [c1 H1]%(sdmap_lookup _ _ _ _ R) [c2 H2]%(sdmap_lookup _ _ _ _ R).
    destruct (rel_dd _ _ R) as (d & _ & Hd). { intros E. rewrite E in H1. by apply elem_of_nil in H1. }
    rewrite Forall_forall in Hd. apply Hd in H1, H2. cbn in *. congruence.
  - intros i1 i2 e1 e2 [j1 H1]%HE [j2 H2]%HE.
    destruct (rel_ed _ _ R) as (d & _ & Hd). { intros E. rewrite E in H1. by apply elem_of_nil in H1. }
    rewrite Forall_forall in Hd. apply Hd in H1, H2. cbn in *. congruence.
  - intros i1 i2 s e [c1 H1]%(sdmap_lookup _ _ _ _ R) [j2 H2]%HE.
    pose proof (rel_lt _ _ R) as Hd. rewrite Forall_forall in Hd. apply Hd in H1. cbn in H1.
    rewrite Forall_forall in H1. by apply H1 in H2.
Qed.

(** * C23 *)
Lemma build_outcome k b :
  match build key kernel ord k b with
  | (b', Ok n) => built b' = true ∧ net b' = Some n
  | (b', _) => built b' = false
  end.
Proof.
  unfold build. destruct (confine _ _ _ _ _) as [[] c]; try done.
  destruct (fragment_all _ _ _ _ _ _) as [[] c']; try done.
  destruct k, (entityDim (reg b)), (domainDim (reg b)); done.
Qed.

Definition neutral (o : bcall (S := S) (num := num)) : Prop := o ≠ Build ∧ o ≠ Clear.

Lemma get_network_step k b (o : bcall) :
  get_network (bstep k b o).1 =
  match o with
  | Build => match (bstep k b Build).2 with Ok (Some n) => Ok n | _ => Throw RuntimeError end
  | Clear => Throw RuntimeError
  | _ => get_network b
  end.
Proof.
  destruct o as [conf s id|ss id|v|e| | |]; cbn [bstep]; try done.
  - destruct (add_sub_domain kernel conf s id _); done.
  - destruct (add_entities kernel ss id _); done.
  - pose proof (build_outcome k b) as Hb. unfold get_network.
    destruct (build key kernel ord k b) as [b' [n|x| |]]; cbn.
    + destruct Hb as [Hb Hn]. by rewrite Hb, Hn.
    + by rewrite Hb.
    + by rewrite Hb.
    + by rewrite Hb.
Qed.

Lemma c23_lemma k h n :
  get_network (brun k h) = Ok n ↔
  ∃ h1 h2, h = h1 ++ Build :: h2 ∧ Forall neutral h2 ∧ (bstep k (brun k h1) Build).2 = Ok (Some n).
Proof.
  induction h as [|o h IH] using rev_ind.
  { split; [done|]. intros ([] & ? & ? & _); done. }
  rewrite brun_snoc, get_network_step.
  assert (Hb : o ≠ Build → (∃ h1 h2, h ++ [o] = h1 ++ Build :: h2 ∧ Forall neutral h2 ∧
                                     (bstep k (brun k h1) Build).2 = Ok (Some n)) ↔
               neutral o ∧ get_network (brun k h) = Ok n).
  { intros Ho. rewrite IH. split.
    - intros (h1 & h2 & E & Hn & Hs). destruct h2 as [|x h2 _] using rev_ind.
      { apply app_inj_tail in E as [_ E]. congruence. }
      rewrite app_comm_cons, app_assoc in E. apply app_inj_tail in E as [-> ->].
      apply Forall_app in Hn as [Hn Hx]. rewrite Forall_singleton in Hx. split; [done|]. eauto.
    - intros (Hn & h1 & h2 & -> & Hn2 & Hs). exists h1, (h2 ++ [o]). rewrite <-app_assoc. split; [done|].
      split; [|done]. apply Forall_app. split; [done|]. by constructor. }
  destruct o as [conf s id|ss id|v|e| | |].
  1-5: (rewrite Hb by done; split; [intros ?; done|by intros [_ ?]]).
  - split.
    + intros E. exists h, []. split; [done|]. split; [constructor|].
      destruct (bstep k (brun k h) Build).2 as [[m|]|x| |]; congruence.
    + intros (h1 & h2 & E & Hn & Hs). destruct h2 as [|x h2 _] using rev_ind.
      { apply app_inj_tail in E as [-> _]. by rewrite Hs. }
      rewrite app_comm_cons, app_assoc in E. apply app_inj_tail in E as [-> <-].
      apply Forall_app in Hn as [_ Hx]. rewrite Forall_singleton in Hx. by destruct Hx.
  - split; [done|]. rewrite Hb by done. intros [[_ ?] _]. done.
Qed.

Lemma c23_throws_lemma k h : (∃ n, get_network (brun k h) = Ok n) ∨ get_network (brun k h) = Throw RuntimeError.
Proof.
  induction h as [|o h IH] using rev_ind; [by right|].
  rewrite brun_snoc, get_network_step. destruct o; try done; [|by right].
  destruct (bstep k (brun k h) Build).2 as [[m|]| | |]; eauto.
Qed.

(** * C27 *)
Lemma get_eps_some r (c : scratch S K num) e :
  tol c = Some e → get_eps kernel ord r c = (e, c).
Proof. unfold get_eps. by intros ->. Qed.

Lemma bstep_tol k b o e :
  tol (scr b) = Some e → sets_tol o = false → tol (scr (bstep k b o).1) = Some e.
Proof.
  intros Ht Ho. destruct o as [conf s id|ss id|v|x| | |]; cbn [bstep]; try done.
  - destruct (add_sub_domain kernel conf s id _); done.
  - destruct (add_entities kernel ss id _); done.
  - assert (Hc : ∀ c, tol c = Some e → tol (confine key kernel ord (reg b) c).2 = Some e).
    { intros c Hc. unfold confine. revert c Hc. induction (ids_in ord 3 (networks (reg b))) as [|id l IH]; intros c Hc; [done|].
      cbn [confine_loop].
      assert (Hone : tol (confine_one key kernel ord (reg b) id c).2 = Some e).
      { unfold confine_one. destruct (subDomains (reg b) !! id) as [sd|]; [|done].
        assert (Hgo : ∀ tool c, tol c = Some e →
          tol (let '(e, c) := get_eps kernel ord (reg b) c in
        match common kernel e (entry (networks (reg b)) id) [tool] with
        | None => (Throw RuntimeError, c)
        | Some h =>
            match file_all key h (default ∅ (nfm c !! id)) (entry (networks (reg b)) id) ([], ∅) with
            | Ok (l, m) => (Ok tt, mkScr (tol c) (union c) (sdFrag c) (<[id := l]> (nfl c)) (<[id := m]> (nfm c)))
            | Throw x => (Throw x, c)
            | UB => (UB, c)
            | Diverge => (Diverge, c)
            end
        end).2 = Some e).
        { intros tool c1 H1. rewrite (get_eps_some _ _ _ H1).
          destruct (common _ _ _ _); [|done]. destruct (file_all _ _ _ _ _) as [[]| | |]; done. }
        destruct (bounds (reg b) !! id) as [[]|]; [by apply Hgo| |done].
        destruct (confineUnion (reg b)); [|done].
        assert (Hu : tol (get_union kernel ord (reg b) c).2 = Some e).
        { unfold get_union. destruct (union c); [done|].
          destruct (omap _ _) as [|s1 [|s2 l']]; try done.
          rewrite (get_eps_some _ _ _ Hc). by destruct (fuse _ _ _). }
        destruct (get_union kernel ord (reg b) c) as [[]]; try done. by apply Hgo. }
      destruct (confine_one key kernel ord (reg b) id c) as [[] c']; try done. by apply IH. }
    assert (Hf : ∀ v c, tol c = Some e → tol (fragment_all key kernel ord v (reg b) c).2 = Some e).
    { intros v c H1. unfold fragment_all. rewrite (get_eps_some _ _ _ H1).
      destruct (fragment _ _ _); [|done]. destruct (refile _ _ _ _ _ _); try done.
      destruct (sd_refile _ _ _ _ _); done. }
    unfold build. specialize (Hc (initial key (reg b) (tol (scr b))) Ht).
    destruct (confine _ _ _ _ _) as [[] c]; try done.
    specialize (Hf (match k with Plain => true | Contained => false end) c Hc).
    destruct (fragment_all _ _ _ _ _ _) as [[] c']; try done.
    destruct k, (entityDim (reg b)), (domainDim (reg b)); done.
Qed.

Lemma brun_tol k h1 h2 e :
  forallb (λ o, negb (sets_tol o)) h2 = true →
  tol (scr (brun k (h1 ++ SetEpsilon e :: h2))) = Some e.
Proof.
  intros Hn. induction h2 as [|o h2 IH] using rev_ind.
  { rewrite brun_snoc. done. }
  rewrite app_comm_cons, app_assoc, brun_snoc. rewrite forallb_app in Hn.
  apply andb_true_iff in Hn as [Hn Ho]. cbn in Ho. apply bstep_tol; [by apply IH|].
  by destruct (sets_tol o).
Qed.

Lemma brun_tol_none k h :
  forallb (λ o, negb (sets_tol o || is_build o)) h = true → tol (scr (brun k h)) = None.
Proof.
  induction h as [|o h IH] using rev_ind; [done|]. rewrite forallb_app. intros [Hn Ho]%andb_true_iff.
  rewrite brun_snoc. cbn in Ho. specialize (IH Hn). destruct o as [conf s id|ss id|v|x| | |]; cbn [bstep]; try done.
  - destruct (add_sub_domain kernel conf s id _); done.
  - destruct (add_entities kernel ss id _); done.
Qed.
End Registration.

(** Two runs of the same phase whose scratch data differ in the tolerance only. *)
Section TwoRuns.
Context {S K num : Type} `{EqDecision S} `{Countable K} (key : S → K).
Variables k1 k2 : occ S num.
Variable ord : nat → list N → list N.
Variable r : registry S.
Variable e : num.
Hypothesis Hagree : agree_at e k1 k2.

(** The first run uses [e], possibly as the default value; the second one was told to. *)
Definition twin (c1 c2 : scratch S K num) : Prop :=
  (tol c1 = Some e ∨ (tol c1 = None ∧ default_tol k1 ord r = e)) ∧ tol c2 = Some e ∧
  union c1 = union c2 ∧ sdFrag c1 = sdFrag c2 ∧ nfl c1 = nfl c2 ∧ nfm c1 = nfm c2.
Definition twin_result {A} (x y : A * scratch S K num) : Prop := x.1 = y.1 ∧ twin x.2 y.2.

Lemma twin_get_eps c1 c2 :
  twin c1 c2 → ∃ c1' c2', get_eps k1 ord r c1 = (e, c1') ∧ get_eps k2 ord r c2 = (e, c2') ∧ twin c1' c2'.
Proof.
  intros (H1 & H2 & Hu & Hs & Hl & Hm). unfold get_eps. rewrite H2.
  destruct H1 as [H1|[H1 Hd]]; rewrite H1.
  - exists c1, c2. repeat split; try done. by left.
  - rewrite Hd. eexists _, c2. split; [done|]. split; [done|]. repeat split; try done. by left.
Qed.

Lemma twin_set_union c1 c2 u :
  twin c1 c2 → twin (mkScr (tol c1) u (sdFrag c1) (nfl c1) (nfm c1)) (mkScr (tol c2) u (sdFrag c2) (nfl c2) (nfm c2)).
Proof. intros (H1 & H2 & Hu & Hs & Hl & Hm). by repeat split. Qed.

Lemma twin_get_union c1 c2 : twin c1 c2 → twin_result (get_union k1 ord r c1) (get_union k2 ord r c2).
Proof.
  intros T. pose proof T as (H1 & H2 & Hu & Hs & Hl & Hm). unfold get_union. rewrite Hu.
  destruct (union c2); [by split|].
  destruct (omap _ _) as [|s1 [|s2 l]]; [by split|split; [done|by apply twin_set_union]|].
  destruct (twin_get_eps _ _ T) as (c1' & c2' & -> & -> & T').
  destruct Hagree as (_ & _ & _ & ->). destruct (fuse k2 e _); split; try done. by apply twin_set_union.
Qed.

Lemma twin_confine_one id c1 c2 :
  twin c1 c2 → twin_result (confine_one key k1 ord r id c1) (confine_one key k2 ord r id c2).
Proof.
  intros T. unfold confine_one. destruct (subDomains r !! id) as [sd|]; [|by split].
  match goal with |- context [match bounds r !! id with _ => _ end] => idtac end.
  assert (Hgo : ∀ tool c1 c2, twin c1 c2 → twin_result
     (let '(e, c) := get_eps k1 ord r c1 in
        match common k1 e (entry (networks r) id) [tool] with
        | None => (Throw RuntimeError, c)
        | Some h =>
            match file_all key h (default ∅ (nfm c !! id)) (entry (networks r) id) ([], ∅) with
            | Ok (l, m) => (Ok tt, mkScr (tol c) (union c) (sdFrag c) (<[id := l]> (nfl c)) (<[id := m]> (nfm c)))
            | Throw x => (Throw x, c)
            | UB => (UB, c)
            | Diverge => (Diverge, c)
            end
        end)
     (let '(e, c) := get_eps k2 ord r c2 in
        match common k2 e (entry (networks r) id) [tool] with
        | None => (Throw RuntimeError, c)
        | Some h =>
            match file_all key h (default ∅ (nfm c !! id)) (entry (networks r) id) ([], ∅) with
            | Ok (l, m) => (Ok tt, mkScr (tol c) (union c) (sdFrag c) (<[id := l]> (nfl c)) (<[id := m]> (nfm c)))
            | Throw x => (Throw x, c)
            | UB => (UB, c)
            | Diverge => (Diverge, c)
            end
        end)).
  { clear c1 c2 T. intros tool c1 c2 T.
    destruct (twin_get_eps _ _ T) as (c1' & c2' & -> & -> & T').
    destruct Hagree as (_ & -> & _ & _). destruct (common k2 e _ _); [|by split].
    pose proof T' as (H1 & H2 & Hu & Hs & Hl & Hm). rewrite Hm.
    destruct (file_all _ _ _ _ _) as [[l m]| | |]; split; try done.
    repeat split; cbn; try done; congruence. }
  destruct (bounds r !! id) as [[]|]; [by apply Hgo| |by split].
  destruct (confineUnion r); [|by split].
  destruct (twin_get_union _ _ T) as [E T'].
  destruct (get_union k1 ord r c1) as [[] c1'], (get_union k2 ord r c2) as [[] c2']; cbn in E, T'; try done.
  - injection E as <-. by apply Hgo.
  - split; [cbn; congruence|done].
Qed.

Lemma twin_confine_loop ids c1 c2 :
  twin c1 c2 → twin_result (confine_loop key k1 ord r ids c1) (confine_loop key k2 ord r ids c2).
Proof.
  revert c1 c2. induction ids as [|id ids IH]; intros c1 c2 T; [by split|]. cbn [confine_loop].
  destruct (twin_confine_one id _ _ T) as [E T'].
  destruct (confine_one key k1 ord r id c1) as [[] c1'], (confine_one key k2 ord r id c2) as [[] c2']; cbn in E, T'; try done.
  - by apply IH.
Qed.

Lemma twin_fragment_all v c1 c2 :
  twin c1 c2 → twin_result (fragment_all key k1 ord v r c1) (fragment_all key k2 ord v r c2).
Proof.
  intros T. unfold fragment_all.
  destruct (twin_get_eps _ _ T) as (c1' & c2' & -> & -> & T').
  pose proof T as (H1 & H2 & Hu & Hs & Hl & Hm). rewrite Hl.
  destruct Hagree as (_ & _ & -> & _). destruct (fragment k2 e _); [|by split].
  pose proof T' as (H1' & H2' & Hu' & Hs' & Hl' & Hm'). rewrite Hm'.
  destruct (refile _ _ _ _ _ _); try by split. cbn [sdFrag]. rewrite Hs'.
  destruct (sd_refile _ _ _ _ _); split; try done.
  all: repeat split; cbn; try done; congruence.
Qed.

Lemma twin_build k b1 b2 :
  reg b1 = r → reg b2 = r →
  (tol (scr b1) = Some e ∨ (tol (scr b1) = None ∧ default_tol k1 ord r = e)) → tol (scr b2) = Some e →
  (build key k1 ord k b1).2 = (build key k2 ord k b2).2.
Proof.
  intros R1 R2 T1 T2. unfold build. rewrite R1, R2. unfold confine.
  assert (T : twin (initial key r (tol (scr b1))) (initial key r (tol (scr b2)))) by (by repeat split).
  destruct (twin_confine_loop (ids_in ord 3 (networks r)) _ _ T) as [E T'].
  destruct (confine_loop key k1 _ _ _ _) as [[] c1'], (confine_loop key k2 _ _ _ _) as [[] c2']; cbn in E, T'; try done; [|cbn; congruence].
  destruct (twin_fragment_all (match k with Plain => true | Contained => false end) _ _ T') as [E2 T2'].
  destruct (fragment_all key k1 _ _ _ _) as [[] d1], (fragment_all key k2 _ _ _ _) as [[] d2]; cbn in E2, T2'; try done; [|cbn; congruence].
  destruct T2' as (_ & _ & Hu & Hs & Hl & Hm).
  destruct k, (entityDim r), (domainDim r); try done; cbn; unfold merge_lists; congruence.
Qed.
End TwoRuns.

Section Tolerance.
Context {S K num : Type} `{EqDecision S} `{Countable K} (key : S → K).
Variable kernel : occ S num.
Variable ord : nat → list N → list N.
Hypothesis Hord : ∀ i l, ord i l ≡ₚ l.

Lemma fold_least (le : relation num) `{!TotalOrder le} (l : list num) e0 :
  (∀ x y, (le x y ∧ minimum kernel x y = x) ∨ (le y x ∧ minimum kernel x y = y)) →
  least le (fold_left (minimum kernel) l e0) (e0 :: l).
Proof.
  intros Hm. revert e0. induction l as [|x l IH]; intros e0; cbn.
  { split; [left|]. intros y ->%elem_of_list_singleton. done. }
  destruct (IH (minimum kernel e0 x)) as [Hin Hle].
  destruct (Hm e0 x) as [[Ho E]|[Ho E]]; rewrite E in *; split.
  - apply elem_of_cons in Hin as [->|Hin]; [by left|by right; right].
  - intros y Hy. repeat (apply elem_of_cons in Hy as [->|Hy]).
    + apply Hle. left.
    + etrans; [|exact Ho]. apply Hle. left.
    + apply Hle. by right.
  - apply elem_of_cons in Hin as [->|Hin]; [by right; left|by right; right].
  - intros y Hy. repeat (apply elem_of_cons in Hy as [->|Hy]).
    + etrans; [|exact Ho]. apply Hle. left.
    + apply Hle. left.
    + apply Hle. by right.
Qed.

Lemma fold_left_bind {A B C} (f : C → B → C) (g : A → list B) (l : list A) c :
  fold_left (λ c a, fold_left f (g a) c) l c = fold_left f (l ≫= g) c.
Proof. revert c. induction l as [|a l IH]; intros c; [done|]. cbn. by rewrite fold_left_app, IH. Qed.

Lemma fold_left_omap {A B C} (f : C → B → C) (g : A → option B) (l : list A) c :
  fold_left (λ c a, match g a with Some b => f c b | None => c end) l c = fold_left f (omap g l) c.
Proof. revert c. induction l as [|a l IH]; intros c; [done|]. cbn. destruct (g a); cbn; by rewrite IH. Qed.

Lemma fold_left_fmap {A B C} (f : C → B → C) (g : A → B) (l : list A) c :
  fold_left (λ c a, f c (g a)) l c = fold_left f (g <$> l) c.
Proof. revert c. induction l as [|a l IH]; intros c; [done|]. cbn. by rewrite IH. Qed.

Lemma elem_of_ids {V} i (m : gmap N V) id : id ∈ ids_in ord i m ↔ is_Some (m !! id).
Proof.
  unfold ids_in. rewrite Hord. rewrite elem_of_list_fmap. split.
  - intros ([j v] & -> & Hj). apply elem_of_map_to_list in Hj. eauto.
  - intros [v Hv]. exists (id, v). split; [done|]. by apply elem_of_map_to_list.
Qed.

Lemma nodup_ids {V} i (m : gmap N V) : NoDup (ids_in ord i m).
Proof. unfold ids_in. rewrite Hord. apply NoDup_fst_map_to_list. Qed.

Lemma default_tol_least (le : relation num) `{!TotalOrder le} r a :
  rel kernel r a → ordered_by le kernel →
  match measured a with
  | [] => default_tol kernel ord r = confusion kernel
  | l => least le (default_tol kernel ord r) (eps_of kernel <$> l)
  end.
Proof.
  intros R [Hmin Hhuge].
  assert (Hge : ∀ e l, l ≠ [] → (∀ s, s ∈ l → le (eps_of kernel s) (huge kernel)) →
                least le e (huge kernel :: (eps_of kernel <$> l)) → least le e (eps_of kernel <$> l)).
  { intros e l Hl Hh [Hin Hle]. split.
    - apply elem_of_cons in Hin as [->|Hin]; [|done]. destruct l as [|s l]; [done|].
      assert (E : huge kernel = eps_of kernel s).
      { apply (anti_symm le); [apply Hle; right; left|apply Hh; left]. }
      rewrite E. left.
    - intros x Hx. apply Hle. by right. }
  assert (HE : networks r = ∅ ↔ ents a = []) by apply (rel_nw_empty _ _ _ R).
  assert (HS : subDomains r = ∅ ↔ sds a = []) by apply (rel_sd_empty _ _ _ R).
  assert (Hm : measured a = if bool_decide (sds a = []) then (λ p : N * S, p.2) <$> ents a
                            else (λ p : N * (S * bool), p.2.1) <$> sds a) by (unfold measured; by destruct (sds a)).
  rewrite Hm. clear Hm. unfold default_tol.
  destruct (bool_decide_reflect (sds a = [])) as [Es|Es].
  - destruct (decide (ents a = [])) as [Ee|Ee].
    + rewrite Ee. cbn. rewrite bool_decide_true; [done|]. split; [by apply HS|by apply HE].
    + rewrite bool_decide_false by (intros [_ Hx]; by apply Ee, HE).
      rewrite bool_decide_false by (intros Hx; by apply Hx, HS).
      assert (Hne : (λ p : N * S, p.2) <$> ents a ≠ []) by (by destruct (ents a)).
      destruct ((λ p : N * S, p.2) <$> ents a) as [|x0 xs] eqn:El; [done|]. rewrite <-El in *. clear Hne.
      rewrite fold_left_bind, fold_left_fmap.
      set (L := ids_in ord 1 (networks r) ≫= entry (networks r)).
      assert (HL : ∀ s, s ∈ L ↔ s ∈ (λ p : N * S, p.2) <$> ents a).
      { intros s. unfold L. rewrite elem_of_list_bind, elem_of_list_fmap. split.
        - intros (id & Hs & _). rewrite (entry_lookup _ _ _ _ R) in Hs. unfold ents_of in Hs.
          apply elem_of_list_fmap in Hs as (x & -> & Hx). apply elem_of_list_filter in Hx as [_ Hx]. eauto.
        - intros (x & -> & Hx). exists x.1.
          assert (Hin : x.2 ∈ entry (networks r) x.1).
          { rewrite (entry_lookup _ _ _ _ R). unfold ents_of. apply elem_of_list_fmap. exists x. split; [done|].
            by apply elem_of_list_filter. }
          split; [done|]. apply elem_of_ids. unfold entry in Hin. destruct (networks r !! x.1); [eauto|].
          by apply elem_of_nil in Hin. }
      destruct (Hge (fold_left (minimum kernel) (eps_of kernel <$> L) (huge kernel)) L) as [Hin Hle].
      * intros E. rewrite E in HL. destruct (HL x0) as [_ Hq]. apply (not_elem_of_nil x0). apply Hq.
        rewrite El. left.
      * done.
      * by apply fold_least.
      * split.
        -- apply elem_of_list_fmap in Hin as (s & Es' & Hs). rewrite Es'. apply elem_of_list_fmap. exists s. split; [done|]. by apply HL.
        -- intros x (s & -> & Hs)%elem_of_list_fmap. apply Hle. apply elem_of_list_fmap. exists s. split; [done|]. by apply HL.
  - rewrite bool_decide_false by (intros [Hx _]; by apply Es, HS).
    rewrite bool_decide_true by (by rewrite HS).
    assert (Hne : (λ p : N * (S * bool), p.2.1) <$> sds a ≠ []) by (by destruct (sds a)).
    destruct ((λ p : N * (S * bool), p.2.1) <$> sds a) as [|x0 xs] eqn:El; [done|]. rewrite <-El in *. clear Hne.
    rewrite fold_left_omap with (f := λ e s, minimum kernel e (eps_of kernel s)).
    rewrite fold_left_fmap.
    set (L := omap (λ a0, subDomains r !! a0) (ids_in ord 0 (subDomains r))).
    assert (HL : ∀ s, s ∈ L ↔ s ∈ (λ p : N * (S * bool), p.2.1) <$> sds a).
    { intros s. unfold L. rewrite elem_of_list_omap, elem_of_list_fmap. split.
      - intros (id & _ & Hs). apply (sdmap_lookup _ _ _ _ _ R) in Hs as [c Hc]. by exists (id, (s, c)).
      - intros ([id [s' c]] & -> & Hx). exists id. cbn.
        assert (Hl : subDomains r !! id = Some s') by (apply (sdmap_lookup _ _ _ _ _ R); eauto).
        split; [|done]. apply elem_of_ids. eauto. }
    destruct (Hge (fold_left (minimum kernel) (eps_of kernel <$> L) (huge kernel)) L) as [Hin Hle].
    + intros E. rewrite E in HL. destruct (HL x0) as [_ Hq]. apply (not_elem_of_nil x0). apply Hq.
      rewrite El. left.
    + done.
    + by apply fold_least.
    + split.
      * apply elem_of_list_fmap in Hin as (s & Es' & Hs). rewrite Es'. apply elem_of_list_fmap. exists s. split; [done|]. by apply HL.
      * intros x (s & -> & Hs)%elem_of_list_fmap. apply Hle. apply elem_of_list_fmap. exists s. split; [done|]. by apply HL.
Qed.

Lemma c27_explicit_lemma k h1 h2 e kernel2 :
  forallb (λ o, negb (sets_tol o)) h2 = true → agree_at e kernel kernel2 →
  let b := brun key kernel ord k (h1 ++ SetEpsilon e :: h2) in
  (bstep key kernel ord k b Build).2 = (bstep key kernel2 ord k b Build).2.
Proof.
  intros Hn Ha b. pose proof (brun_tol key kernel ord k h1 h2 e Hn) as Ht.
  pose proof (twin_build key kernel kernel2 ord (reg b) e Ha k b b eq_refl eq_refl (or_introl Ht) Ht) as Hb.
  cbn [bstep]. destruct (build key kernel ord k b), (build key kernel2 ord k b). cbn in *. by rewrite Hb.
Qed.

Lemma c27_first_lemma (le : relation num) `{!TotalOrder le} k h :
  ordered_by le kernel → forallb (λ o, negb (sets_tol o || is_build o)) h = true →
  measured (spec_run (dim_of kernel) h) ≠ [] →
  ∃ e, least le e (eps_of kernel <$> measured (spec_run (dim_of kernel) h)) ∧
       ∀ kernel2, agree_at e kernel kernel2 →
       (bstep key kernel ord k (brun key kernel ord k h) Build).2 =
       (bstep key kernel2 ord k (brun key kernel ord k (h ++ [SetEpsilon e])) Build).2.
Proof.
  intros Ho Hn Hm. set (b := brun key kernel ord k h). exists (default_tol kernel ord (reg b)). split.
  - pose proof (default_tol_least le (reg b) _ (brun_rel key kernel ord k h) Ho) as Hl.
    destruct (measured (spec_run (dim_of kernel) h)); done.
  - intros kernel2 Ha. rewrite brun_snoc. fold b. cbn [bstep fst].
    pose proof (brun_tol_none key kernel ord k h Hn) as Ht.
    pose proof (twin_build key kernel kernel2 ord (reg b) _ Ha k b
                  (set_tol (default_tol kernel ord (reg b)) b) eq_refl eq_refl
                  (or_intror (conj Ht eq_refl)) eq_refl) as Hb.
    destruct (build key kernel ord k b), (build key kernel2 ord k (set_tol _ b)). cbn in *. by rewrite Hb.
Qed.

Lemma c27_set_default_lemma (le : relation num) `{!TotalOrder le} k h1 :
  ordered_by le kernel →
  ∃ e, match measured (spec_run (dim_of kernel) h1) with
       | [] => e = confusion kernel
       | l => least le e (eps_of kernel <$> l)
       end ∧
       ∀ h2, brun key kernel ord k (h1 ++ SetDefaultEpsilon :: h2) = brun key kernel ord k (h1 ++ SetEpsilon e :: h2).
Proof.
  intros Ho. exists (default_tol kernel ord (reg (brun key kernel ord k h1))). split.
  - apply (default_tol_least le); [|done]. apply brun_rel.
  - intros h2. unfold brun. rewrite !fold_left_app. done.
Qed.
End Tolerance.
