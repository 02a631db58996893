(** Proofs for C18 and C19. *)

From stdpp Require Import prelude gmap list.
From Verif Require Import Base StatusModel StatusSpec StatusProofs EntitySetModel EntitySetSpec EntitySetProofs
  ConstraintsModel ConstraintsProofs MatrixModel MatrixSpec MatrixProofs.

Section OfId.
Context {E : Type}.
Lemma of_id_app id (l1 l2 : list (draw E)) : of_id id (l1 ++ l2) = of_id id l1 ++ of_id id l2.
Proof. unfold of_id. by rewrite filter_app, fmap_app. Qed.
Lemma of_id_single id (d : draw E) : of_id id [d] = if bool_decide (d_id d = id) then [d_geo d] else [].
Proof.
  unfold of_id. rewrite filter_cons, filter_nil. case_bool_decide; case_decide; try done.
Qed.
Lemma of_id_elem id (l : list (draw E)) e :
  e ∈ of_id id l ↔ ∃ d, d ∈ l ∧ d_id d = id ∧ d_geo d = e.
Proof.
  unfold of_id. rewrite elem_of_list_fmap. setoid_rewrite elem_of_list_filter. naive_solver.
Qed.

End OfId.

Section Loop.
Context {C E : Type} (ev : C → E → E → outcome bool).
Context (tyname : nat → N) (ntypes : nat).
Context (ord : gmap N N → list (N * N)) (Hord : ∀ m, ord m ≡ₚ map_to_list m).
Context (small domain : E → outcome bool).
Context (hm : list (mcall C)).
Context (ts : list (N * N)) (Hts : NoDup ts.*1) (Hbound : ∀ id t, (id, t) ∈ ts → (t < 2^64)%N).

Notation T := (target_calls ts).

Record Inv (used log : list (draw E)) (st : status) (s : eset E) : Prop := {
  inv_h : ∃ h, st = run h ∧ targets_first (rev h) ∧
     (∀ id, user_target id (rev h) = user_target id (rev T)) ∧
     (∀ id, successes id (rev h) = N.of_nat (length (of_id id log))) ∧
     (rejections (rev h) + N.of_nat (length log) = N.of_nat (length used))%N;
  inv_le : ∀ id, match user_target id (rev T) with
                 | Some t => (N.of_nat (length (of_id id log)) ≤ t)%N
                 | None => of_id id log = []
                 end;
  inv_sets : ∃ mp, Rel tyname ntypes s mp ∧ ∀ id, snd <$> mp !! id = opt_list (of_id id log);
  inv_checked : checked_in_order ev (relations_of hm) log;
  inv_ok : Forall (λ d, small (d_geo d) = Ok false ∧ domain (d_geo d) = Ok true) log;
  inv_sub : log `sublist_of` used;
}.

Lemma user_target_T id t : (id, t) ∈ ts → user_target id (rev T) = Some t.
Proof.
  clear Hbound. unfold target_calls. induction ts as [|[i u] l IH] using rev_ind; [by intros ?%elem_of_nil|].
  intros Hin. rewrite fmap_app in Hts. rewrite fmap_app. simpl. rewrite rev_unit. simpl.
  apply NoDup_app in Hts as (H1 & H2 & _).
  apply elem_of_app in Hin as [Hin|Hin].
  - destruct (bool_decide_reflect (i = id)) as [->|Hne].
    + exfalso. apply (H2 id); [|by left]. apply elem_of_list_fmap. by exists (id, t).
    + by apply IH.
  - apply elem_of_list_singleton in Hin. injection Hin as -> ->. by rewrite bool_decide_true.
Qed.
Lemma user_target_T_inv id t : user_target id (rev T) = Some t → (id, t) ∈ ts.
Proof.
  clear Hbound Hts. unfold target_calls. induction ts as [|[i u] l IH] using rev_ind; [done|].
  rewrite fmap_app. simpl. rewrite rev_unit. simpl.
  destruct (bool_decide_reflect (i = id)) as [->|Hne].
  - intros [= ->]. apply elem_of_app. right. by left.
  - intros H. apply elem_of_app. left. by apply IH.
Qed.

Lemma targets_first_T : targets_first (rev T).
Proof.
  clear Hts Hbound. unfold target_calls. induction ts as [|[i u] l IH] using rev_ind; [done|].
  rewrite fmap_app. simpl. rewrite rev_unit. simpl. done.
Qed.
Lemma successes_T id : successes id (rev T) = 0%N.
Proof.
  clear Hts Hbound. unfold target_calls. induction ts as [|[i u] l IH] using rev_ind; [done|].
  rewrite fmap_app. simpl. rewrite rev_unit. simpl. done.
Qed.
Lemma rejections_T : rejections (rev T) = 0%N.
Proof.
  clear Hts Hbound. unfold target_calls. induction ts as [|[i u] l IH] using rev_ind; [done|].
  rewrite fmap_app. simpl. rewrite rev_unit. simpl. done.
Qed.

Lemma inv_init : Inv [] [] (run T) (es_init ntypes).
Proof.
  split.
  - exists T. split; [done|]. split; [apply targets_first_T|]. split; [done|].
    split; [intros id; apply successes_T|]. rewrite rejections_T. done.
  - intros id. destruct (user_target id (rev T)); [|done]. simpl. lia.
  - exists ∅. split; [apply rel_init|]. intros id. by rewrite lookup_empty.
  - intros l1 d l2 d' r H. by destruct l1.
  - constructor.
  - constructor.
Qed.

Lemma run_snoc h o : run (h ++ [o]) = step (run h) o.
Proof. unfold run. by rewrite fold_left_app. Qed.

Lemma inv_reject used log st s d :
  Inv used log st s → Inv (used ++ [d]) log (increase_rejected st) s.
Proof.
  intros [(h & -> & H1 & H2 & H3 & H4) I2 I3 I4 I5 I6]. split; try done.
  - exists (h ++ [IncreaseRejected]). rewrite run_snoc. split; [done|]. rewrite rev_unit. simpl.
    split; [done|]. split; [done|]. split; [done|]. rewrite app_length. simpl. lia.
  - apply sublist_inserts_r. done.
Qed.

Lemma sets_of_spec used log st s id : Inv used log st s → sets_of s id = opt_list (of_id id log).
Proof.
  intros [_ _ (mp & HR & Hmp) _ _ _]. unfold sets_of.
  rewrite (apply_on_set_rel tyname ntypes s mp id HR). apply Hmp.
Qed.

Lemma inv_accept used log st s d s' :
  Inv used log st s →
  finished_id (d_id d) st = Ok false →
  small (d_geo d) = Ok false →
  m_evaluate ev (mrun hm) (sets_of s) (d_geo d) (d_id d) = Ok true →
  domain (d_geo d) = Ok true →
  add_entity tyname (d_ty d) (d_geo d) (d_id d) s = (Ok tt, s') →
  Inv (used ++ [d]) (log ++ [d]) (print_state false (fst (increase_counter (d_id d) st))) s'.
Proof.
  intros HI Hfin Hsm Hm Hdom Hadd.
  assert (Hset : ∀ id, sets_of s id = opt_list (of_id id log)) by (intros id; by eapply sets_of_spec).
  destruct HI as [(h & -> & H1 & H2 & H3 & H4) I2 (mp & HR & Hmp) I4 I5 I6].
  rewrite c02_finished_id_lemma in Hfin by done.
  destruct (user_target (d_id d) (rev h)) as [t|] eqn:Et; [|done].
  rewrite H2 in Et. injection Hfin as Hfin. apply bool_decide_eq_false in Hfin. apply N.nle_gt in Hfin.
  pose proof (I2 (d_id d)) as Hle. rewrite Et in Hle.
  assert (Ht : (t < 2^64)%N) by (eapply Hbound; by apply user_target_T_inv).
  assert (Hlt : (N.of_nat (length (of_id (d_id d) log)) < t)%N).
  { rewrite H3 in Hfin. destruct (N.lt_ge_cases (N.of_nat (length (of_id (d_id d) log))) (2^64)) as [Hs|Hs].
    - unfold wrap64 in Hfin. by rewrite N.mod_small in Hfin by done.
    - lia. }
  split.
  - exists (h ++ [Increase (d_id d)] ++ [Print false]). rewrite app_assoc, !run_snoc. split; [done|].
    rewrite !rev_unit. simpl.
    split; [split; [rewrite H2, Et; eauto|done]|]. split; [done|]. split.
    + intros id. rewrite of_id_app, app_length, of_id_single. rewrite H3.
      destruct (bool_decide_reflect (d_id d = id)); simpl; lia.
    + rewrite !app_length. simpl. lia.
  - intros id. specialize (I2 id). rewrite of_id_app, of_id_single.
    destruct (bool_decide_reflect (d_id d = id)) as [<-|Hne].
    + rewrite Et. rewrite app_length. simpl. lia.
    + rewrite app_nil_r. done.
  - assert (Hty : d_ty d < ntypes).
    { unfold add_entity in Hadd. destruct (sets s !! d_ty d) eqn:El; [|done].
      apply lookup_lt_Some in El. by rewrite (rel_len _ _ _ _ HR) in El. }
    pose proof (add_entity_refines tyname ntypes s mp (d_ty d) (d_geo d) (d_id d) HR Hty) as Hs.
    destruct (spec_add _ _ _ _) as [mp'|] eqn:Esp; [|congruence].
    rewrite Hadd in Hs. simpl in Hs. destruct Hs as [_ HR']. exists mp'. split; [done|].
    intros id. rewrite of_id_app, of_id_single. unfold spec_add in Esp.
    pose proof (Hmp (d_id d)) as Hd. specialize (Hmp id).
    destruct (mp !! d_id d) as [[ty es]|] eqn:Emp.
    + destruct (bool_decide_reflect (ty = d_ty d)); [|done]. injection Esp as <-.
      destruct (bool_decide_reflect (d_id d = id)) as [<-|Hne].
      * rewrite lookup_insert. simpl. simpl in Hd. destruct (of_id (d_id d) log); simplify_eq/=. done.
      * rewrite lookup_insert_ne by done. by rewrite app_nil_r.
    + injection Esp as <-. destruct (bool_decide_reflect (d_id d = id)) as [<-|Hne].
      * rewrite lookup_insert. simpl. simpl in Hd. destruct (of_id (d_id d) log); simplify_eq/=. done.
      * rewrite lookup_insert_ne by done. by rewrite app_nil_r.
  - intros l1 d0 l2 d' r Hl Hin Hr Hf Hsnd.
    destruct (decide (l2 = [])) as [->|Hl2].
    + apply app_inj_tail in Hl as [<- <-].
      apply c16_true_lemma in Hm as [_ Hm].
      apply (Hm r (of_id (r_second r) log)); [done|done| |].
      * rewrite Hset. unfold opt_list.
        destruct (of_id (r_second r) log) eqn:El; [exfalso|done].
        assert (d_geo d' ∈ of_id (r_second r) log) as Hx by (apply of_id_elem; eauto).
        rewrite El in Hx. by apply elem_of_nil in Hx.
      * apply of_id_elem. eauto.
    + destruct (exists_last Hl2) as (l3 & x & ->).
      assert (log = l1 ++ d0 :: l3) as ->.
      { replace (l1 ++ d0 :: l3 ++ [x]) with ((l1 ++ d0 :: l3) ++ [x]) in Hl by (by rewrite <- app_assoc).
        apply app_inj_tail in Hl as [? _]. done. }
      by eapply I4.
  - apply Forall_app. split; [done|]. by constructor.
  - by apply sublist_app.
Qed.

Lemma loop_body_inv used log st s d st' s' :
  Inv used log st s → loop_body ev tyname small domain (mrun hm) d st s = Ok (st', s') →
  Inv (used ++ [d]) log st' s' ∨ Inv (used ++ [d]) (log ++ [d]) st' s'.
Proof.
  intros HI. unfold loop_body, reject.
  destruct (finished_id (d_id d) st) as [[]| | |] eqn:E1; simpl; try done.
  { intros [= <- <-]. left. by apply inv_reject. }
  destruct (small (d_geo d)) as [[]| | |] eqn:E2; simpl; try done.
  { intros [= <- <-]. left. by apply inv_reject. }
  destruct (m_evaluate ev (mrun hm) (sets_of s) (d_geo d) (d_id d)) as [[]| | |] eqn:E3; simpl; try done.
  2: { intros [= <- <-]. left. by apply inv_reject. }
  destruct (domain (d_geo d)) as [[]| | |] eqn:E4; simpl; try done.
  2: { intros [= <- <-]. left. by apply inv_reject. }
  destruct (add_entity tyname (d_ty d) (d_geo d) (d_id d) s) as [[[]| | |] s1] eqn:E5; try done.
  intros [= <- <-]. right. by eapply inv_accept.
Qed.

Lemma loop_inv draws : ∀ used log st s,
  Inv used log st s →
  match loop ev tyname ord small domain (mrun hm) draws st s with
  | Done st' s' => finished_all st' (ord (counts st')) = Ok true ∧
                   ∃ used' rest log', draws = used' ++ rest ∧ Inv (used ++ used') log' st' s'
  | Running st' s' => finished_all st' (ord (counts st')) = Ok false ∧
                   ∃ log', Inv (used ++ draws) log' st' s'
  | Failed _ => True
  end.
Proof.
  induction draws as [|d draws IH]; intros used log st s HI; cbn [loop].
  - destruct (finished_all st (ord (counts st))) as [[]| | |] eqn:Ef; try done.
    + split; [done|]. exists [], [], log. split; [done|]. by rewrite app_nil_r.
    + split; [done|]. exists log. by rewrite app_nil_r.
  - destruct (finished_all st (ord (counts st))) as [[]| | |] eqn:Ef; try done.
    + split; [done|]. exists [], (d :: draws), log. split; [done|]. by rewrite app_nil_r.
    + destruct (loop_body ev tyname small domain (mrun hm) d st s) as [[st1 s1]| | |] eqn:Eb; try done.
      assert (∃ log1, Inv (used ++ [d]) log1 st1 s1) as [log1 HI1].
      { destruct (loop_body_inv _ _ _ _ _ _ _ HI Eb); eauto. }
      specialize (IH _ _ _ _ HI1).
      destruct (loop ev tyname ord small domain (mrun hm) draws st1 s1) as [st2 s2|st2 s2|x].
      * destruct IH as (Hf & u & rest & log2 & -> & HI2). split; [done|].
        exists (d :: u), rest, log2. split; [done|]. by rewrite <- app_assoc in HI2.
      * destruct IH as (Hf & log2 & HI2). split; [done|]. exists log2. by rewrite <- app_assoc in HI2.
      * done.
Qed.

Lemma finished_iff used log st s b :
  Inv used log st s → finished_all st (ord (counts st)) = Ok b →
  (b = true ↔ ∀ id t, (id, t) ∈ ts → N.of_nat (length (of_id id log)) = t).
Proof.
  intros [(h & -> & H1 & H2 & H3 & _) I2 _ _ _ _] Hf.
  destruct (c02_finished_lemma h (ord (counts (run h))) H1 (Hord _)) as (b' & Hb' & Hiff).
  rewrite Hb' in Hf. injection Hf as <-. rewrite Hiff. split.
  - intros H id t Hin. pose proof (user_target_T id t Hin) as Ht.
    specialize (I2 id). rewrite Ht in I2.
    specialize (H id t). rewrite H2 in H. specialize (H Ht). rewrite H3 in H. unfold wrap64 in H.
    pose proof (N.mod_le (N.of_nat (length (of_id id log))) (2^64)). lia.
  - intros H id t Ht. rewrite H2 in Ht. apply user_target_T_inv in Ht. rewrite H3.
    rewrite (H id t Ht). unfold wrap64. rewrite N.mod_small; [lia|by eapply Hbound].
Qed.

Theorem c18_lemma draws st s :
  loop ev tyname ord small domain (mrun hm) draws (run T) (es_init ntypes) = Done st s →
  ∃ used rest log,
    draws = used ++ rest ∧ log `sublist_of` used ∧
    (∀ id, sets_of s id = opt_list (of_id id log)) ∧
    (∀ id t, (id, t) ∈ ts → N.of_nat (length (of_id id log)) = t) ∧
    (∀ d, d ∈ log → d_id d ∈ ts.*1) ∧
    checked_in_order ev (relations_of hm) log ∧
    (∀ d, d ∈ log → small (d_geo d) = Ok false ∧ domain (d_geo d) = Ok true) ∧
    rejected st = (N.of_nat (length used - length log) mod 2^64)%N.
Proof.
  intros Hl. pose proof (loop_inv draws [] [] _ _ inv_init) as H. rewrite Hl in H.
  destruct H as (Hf & used & rest & log & Hd & HI). simpl in HI.
  exists used, rest, log. split; [done|]. split; [apply HI|].
  split; [intros id; by eapply sets_of_spec|].
  split; [by apply (finished_iff _ _ _ _ _ HI Hf)|].
  split.
  { intros d Hdin. pose proof (inv_le _ _ _ _ HI (d_id d)) as Hle.
    destruct (user_target (d_id d) (rev T)) as [t|] eqn:Et.
    - apply user_target_T_inv in Et. apply elem_of_list_fmap. by exists (d_id d, t).
    - assert (d_geo d ∈ of_id (d_id d) log) as Hx by (apply of_id_elem; eauto).
      rewrite Hle in Hx. by apply elem_of_nil in Hx. }
  split; [apply HI|]. split; [apply Forall_forall, HI|].
  destruct (inv_h _ _ _ _ HI) as (h & -> & _ & _ & _ & Hr).
  rewrite c04_rejected_lemma. unfold wrap64. f_equal. lia.
Qed.

Theorem c18_running_lemma draws st s :
  loop ev tyname ord small domain (mrun hm) draws (run T) (es_init ntypes) = Running st s →
  ∃ log, log `sublist_of` draws ∧
    (∀ id, sets_of s id = opt_list (of_id id log)) ∧
    (∃ id t, (id, t) ∈ ts ∧ (N.of_nat (length (of_id id log)) < t)%N) ∧
    (∀ id t, (id, t) ∈ ts → (N.of_nat (length (of_id id log)) ≤ t)%N) ∧
    checked_in_order ev (relations_of hm) log.
Proof.
  intros Hl. pose proof (loop_inv draws [] [] _ _ inv_init) as H. rewrite Hl in H.
  destruct H as (Hf & log & HI). simpl in HI.
  assert (Hle : ∀ id t, (id, t) ∈ ts → (N.of_nat (length (of_id id log)) ≤ t)%N).
  { intros id t Hin. pose proof (inv_le _ _ _ _ HI id) as Hle. by rewrite (user_target_T id t Hin) in Hle. }
  exists log. split; [apply HI|]. split; [intros id; by eapply sets_of_spec|].
  split.
  { pose proof (finished_iff _ _ _ _ _ HI Hf) as Hno.
    assert (Hd : ¬ Forall (λ p, N.of_nat (length (of_id p.1 log)) = p.2) ts).
    { intros HF. rewrite Forall_forall in HF. assert (false = true); [|done]. apply Hno.
      intros id t Hin. by apply (HF (id, t)). }
    apply not_Forall_Exists in Hd; [|apply _]. apply Exists_exists in Hd as ([id t] & Hin & Hne).
    exists id, t. split; [done|]. specialize (Hle id t Hin). simpl in Hne. lia. }
  split; [done|apply HI].
Qed.

End Loop.

(** Both directions registered: all pairs. *)
Lemma checked_before {C E} (ev : C → E → E → outcome bool) rels (log : list (draw E)) c i j d d' :
  checked_in_order ev rels log → i < j → log !! i = Some d → log !! j = Some d' →
  mkRel (d_id d') (d_id d) c ∈ rels → ev c (d_geo d) (d_geo d') = Ok true.
Proof.
  intros Hc Hlt Hi Hj Hr.
  apply (Hc (take j log) d' (drop (S j) log) d (mkRel (d_id d') (d_id d) c)); try done.
  - symmetry. by apply take_drop_middle.
  - apply elem_of_list_lookup. exists i. by rewrite lookup_take.
Qed.

Lemma checked_pairs {C E} (ev : C → E → E → outcome bool) rels (log : list (draw E)) c i j d d' :
  checked_in_order ev rels log →
  (∀ x y, ev c x y = Ok true → ev c y x = Ok true) →
  log !! i = Some d → log !! j = Some d' → i ≠ j →
  mkRel (d_id d) (d_id d') c ∈ rels → mkRel (d_id d') (d_id d) c ∈ rels →
  ev c (d_geo d) (d_geo d') = Ok true.
Proof.
  intros Hc Hsym Hi Hj Hne Hr1 Hr2.
  destruct (decide (i < j)).
  - by eapply checked_before.
  - apply Hsym. eapply (checked_before _ _ _ _ j i); [done|lia|done|done|done].
Qed.

Lemma c19_lemma {C E} (ev : C → E → E → outcome bool) (tyname : nat → N) (ntypes : nat)
    (ord : gmap N N → list (N * N)) (small domain : E → outcome bool)
    (hm : list (mcall C)) (ts : list (N * N)) (draws : list (draw E)) st s :
  (∀ m, ord m ≡ₚ map_to_list m) → NoDup ts.*1 → (∀ id t, (id, t) ∈ ts → (t < 2^64)%N) →
  loop ev tyname ord small domain (mrun hm) draws (run (target_calls ts)) (es_init ntypes) = Done st s →
  ∃ log, log `sublist_of` draws ∧
    (∀ id, sets_of s id = opt_list (of_id id log)) ∧
    ∀ a b c i j d d',
      mkRel a b c ∈ relations_of hm →
      log !! i = Some d → log !! j = Some d' → d_id d = b → d_id d' = a → i < j →
      ev c (d_geo d) (d_geo d') = Ok true.
Proof.
  intros Hord Hts Hb Hl.
  destruct (c18_lemma ev tyname ntypes ord Hord small domain hm ts Hts Hb draws st s Hl)
    as (used & rest & log & -> & Hsub & Hsets & _ & _ & Hc & _).
  exists log. split; [by apply sublist_inserts_r|]. split; [done|].
  intros a b c i j d d' Hr Hi Hj <- <- Hlt. by eapply checked_before.
Qed.

(** The pair version of C18. *)
Lemma c18_pairs_lemma {C E} (ev : C → E → E → outcome bool) (tyname : nat → N) (ntypes : nat)
    (ord : gmap N N → list (N * N)) (small domain : E → outcome bool)
    (hm : list (mcall C)) (ts : list (N * N)) (draws : list (draw E)) st s :
  (∀ m, ord m ≡ₚ map_to_list m) → NoDup ts.*1 → (∀ id t, (id, t) ∈ ts → (t < 2^64)%N) →
  loop ev tyname ord small domain (mrun hm) draws (run (target_calls ts)) (es_init ntypes) = Done st s →
  ∀ a b c es1 es2 x y,
    (∀ x y, ev c x y = Ok true → ev c y x = Ok true) →
    a ≠ b →
    mkRel a b c ∈ relations_of hm → mkRel b a c ∈ relations_of hm →
    sets_of s a = Some es1 → sets_of s b = Some es2 → x ∈ es1 → y ∈ es2 →
    ev c x y = Ok true.
Proof.
  intros Hord Hts Hb Hl a b c es1 es2 x y Hsym Hab Hr1 Hr2 Hs1 Hs2 Hx Hy.
  destruct (c18_lemma ev tyname ntypes ord Hord small domain hm ts Hts Hb draws st s Hl)
    as (used & rest & log & -> & Hsub & Hsets & _ & _ & Hc & _).
  rewrite Hsets in Hs1, Hs2.
  assert (Hx' : x ∈ of_id a log) by (destruct (of_id a log); simplify_eq/=; done).
  assert (Hy' : y ∈ of_id b log) by (destruct (of_id b log); simplify_eq/=; done).
  apply of_id_elem in Hx' as (d & Hd & <- & <-). apply of_id_elem in Hy' as (d' & Hd' & <- & <-).
  apply elem_of_list_lookup in Hd as [i Hi]. apply elem_of_list_lookup in Hd' as [j Hj].
  apply (checked_pairs ev (relations_of hm) log c i j d d'); try done. congruence.
Qed.

Lemma c18_same_set_lemma {C E} (ev : C → E → E → outcome bool) (tyname : nat → N) (ntypes : nat)
    (ord : gmap N N → list (N * N)) (small domain : E → outcome bool)
    (hm : list (mcall C)) (ts : list (N * N)) (draws : list (draw E)) st s :
  (∀ m, ord m ≡ₚ map_to_list m) → NoDup ts.*1 → (∀ id t, (id, t) ∈ ts → (t < 2^64)%N) →
  loop ev tyname ord small domain (mrun hm) draws (run (target_calls ts)) (es_init ntypes) = Done st s →
  ∀ a c es i j x y,
    mkRel a a c ∈ relations_of hm →
    sets_of s a = Some es → es !! i = Some x → es !! j = Some y → i < j →
    ev c x y = Ok true.
Proof.
  intros Hord Hts Hb Hl a c es i j x y Hr Hs Hi Hj Hlt.
  destruct (c18_lemma ev tyname ntypes ord Hord small domain hm ts Hts Hb draws st s Hl)
    as (used & rest & log & -> & Hsub & Hsets & _ & _ & Hc & _).
  rewrite Hsets in Hs.
  assert (of_id a log = es) as <- by (destruct (of_id a log); simplify_eq/=; done). clear Hs.
  revert i j Hi Hj Hlt. assert (Hc' : ∀ l1 d l2 d', log = l1 ++ d :: l2 → d' ∈ l1 → d_id d = a → d_id d' = a →
    ev c (d_geo d') (d_geo d) = Ok true).
  { intros l1 d l2 d' Hlog Hin <- Ha. apply (Hc l1 d l2 d' (mkRel (d_id d) (d_id d) c)); done. }
  clear -Hc'. induction log as [|d log IH] using rev_ind; intros i j Hi Hj Hlt; [done|].
  rewrite of_id_app, of_id_single in *. 
  assert (IHp : ∀ l1 d l2 d', log = l1 ++ d :: l2 → d' ∈ l1 → d_id d = a → d_id d' = a →
     ev c (d_geo d') (d_geo d) = Ok true).
  { intros l1 d0 l2 d' -> Hin. apply (Hc' l1 d0 (l2 ++ [d]) d'); [|done]. by rewrite <- app_assoc. }
  specialize (IH IHp).
  destruct (bool_decide_reflect (d_id d = a)) as [Ha|Ha]; [|rewrite app_nil_r in *; by eapply IH].
  destruct (decide (j < length (of_id a log))) as [Hjl|Hjl].
  - rewrite lookup_app_l in Hi by lia. rewrite lookup_app_l in Hj by lia. by eapply IH.
  - pose proof (lookup_lt_Some _ _ _ Hj) as Hb. rewrite app_length in Hb. simpl in Hb.
    rewrite lookup_app_r in Hj by lia. replace (j - length (of_id a log)) with 0 in Hj by lia.
    simpl in Hj. injection Hj as <-. rewrite lookup_app_l in Hi by lia.
    apply elem_of_list_lookup_2, of_id_elem in Hi as (d' & Hd' & Ha' & <-).
    by apply (Hc' log d [] d').
Qed.
