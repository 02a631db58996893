(** Proofs for C86: alternating between two sets. *)

From stdpp Require Import prelude gmap list.
From Verif Require Import Base StatusModel StatusSpec StatusProofs ConstraintsModel ConstraintsProofs
  AppModel AppSpec.

Section OfSet.
Context {E : Type}.
Lemma of_set_app b (l1 l2 : list (bool * E)) : of_set b (l1 ++ l2) = of_set b l1 ++ of_set b l2.
Proof. unfold of_set. by rewrite filter_app, fmap_app. Qed.
Lemma of_set_one b b' (e : E) : of_set b [(b', e)] = if bool_decide (b' = b) then [e] else [].
Proof. unfold of_set. rewrite filter_cons, filter_nil. case_bool_decide; case_decide; done. Qed.
Lemma of_set_elem b (l : list (bool * E)) e : e ∈ of_set b l ↔ (b, e) ∈ l.
Proof.
  unfold of_set. rewrite elem_of_list_fmap. split.
  - intros ([b' e'] & -> & Hin). apply elem_of_list_filter in Hin as [Hb Hin]. simpl in Hb. by subst.
  - intros Hin. exists (b, e). split; [done|]. by apply elem_of_list_filter.
Qed.
Lemma of_set_length (l : list (bool * E)) :
  length (of_set true l) + length (of_set false l) = length l.
Proof.
  induction l as [|[[] e] l IH]; [done| |];
    change (?x :: l) with ([x] ++ l); rewrite !of_set_app, !of_set_one, !app_length; simpl; lia.
Qed.
End OfSet.

Section Run.
Context {C E : Type} (ev : C → E → E → outcome bool).
Context (ord : gmap N N → list (N * N)) (Hord : ∀ m, ord m ≡ₚ map_to_list m).
Context (p : plan C E) (Hids : p_id1 p ≠ p_id2 p).
Context (Ht1 : (p_target1 p < 2^64)%N) (Ht2 : (p_target2 p < 2^64)%N).
Context (s1 s2 : N → outcome E).

Notation T := [SetTarget (p_id1 p) (p_target1 p); SetTarget (p_id2 p) (p_target2 p)].
Notation n1 x := (N.of_nat (length (a_set1 x))).
Notation n2 x := (N.of_nat (length (a_set2 x))).

Record hist_ok (acc used : nat) (x : alt E) : Prop := {
  h_run : ∃ h, a_status x = run h ∧ targets_first (rev h) ∧
     (∀ id, user_target id (rev h) = user_target id (rev T)) ∧
     successes (p_id1 p) (rev h) = n1 x ∧ successes (p_id2 p) (rev h) = n2 x ∧
     (rejections (rev h) + N.of_nat acc = N.of_nat used)%N;
}.

Lemma user_target_T id :
  user_target id (rev T) = if bool_decide (p_id2 p = id) then Some (p_target2 p)
                           else if bool_decide (p_id1 p = id) then Some (p_target1 p) else None.
Proof. simpl. repeat case_bool_decide; done. Qed.

Record inv (log : list (bool * E)) (ds1 ds2 : list E) (x : alt E) : Prop := {
  i_hist : hist_ok (length log) (length ds1 + length ds2) x;
  i_set1 : a_set1 x = of_set true log;
  i_set2 : a_set2 x = of_set false log;
  i_drawn1 : a_drawn1 x = N.of_nat (length ds1);
  i_drawn2 : a_drawn2 x = N.of_nat (length ds2);
  i_del1 : delivers s1 ds1;
  i_del2 : delivers s2 ds2;
  i_sub1 : a_set1 x `sublist_of` ds1;
  i_sub2 : a_set2 x `sublist_of` ds2;
  i_checked : checked ev p log;
  i_tested : tested p log;
}.

Lemma inv_init : inv [] [] [] (alt_init p).
Proof.
  split; simpl; try done.
  - split. exists T. split; [done|]. split; [simpl; done|]. split; [done|]. done.
  - intros l1 b e l2 b' e' Hl. by destruct l1.
  - intros b e t Hin. by apply elem_of_nil in Hin.
Qed.

Lemma delivers_snoc s (ds : list E) e :
  delivers s ds → s (N.of_nat (length ds)) = Ok e → delivers s (ds ++ [e]).
Proof.
  intros Hd He i e' Hi. destruct (decide (i < length ds)).
  - rewrite lookup_app_l in Hi by done. by apply Hd.
  - pose proof (lookup_lt_Some _ _ _ Hi) as Hl. rewrite app_length in Hl. simpl in Hl.
    assert (i = length ds) as -> by lia. rewrite lookup_app_r in Hi by lia.
    rewrite Nat.sub_diag in Hi. simpl in Hi. by simplify_eq.
Qed.

(** What a pass through the loop can do. *)
Inductive outcome_of (x : alt E) (e : E) : bool → bool → alt E → Prop :=
| OSkip : p_skip p = true →
    finished_id (if a_into1 x then p_id1 p else p_id2 p) (a_status x) = Ok true →
    outcome_of x e false true (alt_flip (alt_reject (alt_drawn x)))
| OReject :
    (p_skip p = true → finished_id (if a_into1 x then p_id1 p else p_id2 p) (a_status x) = Ok false) →
    outcome_of x e false false (alt_reject (alt_drawn x))
| OAccept :
    (p_skip p = true → finished_id (if a_into1 x then p_id1 p else p_id2 p) (a_status x) = Ok false) →
    (∀ t, t ∈ p_before p ++ p_after p → t e = Ok true) →
    (∀ y, y ∈ (if a_into1 x then a_set1 x else a_set2 x) →
          ev (if a_into1 x then p_self1 p else p_self2 p) y e = Ok true) →
    (∀ y, y ∈ (if a_into1 x then a_set2 x else a_set1 x) → ev (p_other p) y e = Ok true) →
    outcome_of x e true true
      (alt_flip (alt_accept (if a_into1 x then p_id1 p else p_id2 p) e (alt_drawn x))).

Lemma status_drawn x : a_status (alt_drawn x) = a_status (E := E) x.
Proof. destruct x as [[] ? ? ? ? ?]; done. Qed.

Lemma body_cases x x' :
  alt_body ev p s1 s2 x = Ok x' →
  ∃ e, (if a_into1 x then s1 (a_drawn1 x) else s2 (a_drawn2 x)) = Ok e ∧
       ∃ acc flip, outcome_of x e acc flip x'.
Proof.
  unfold alt_body. destruct (if a_into1 x then s1 (a_drawn1 x) else s2 (a_drawn2 x)) as [e| | |] eqn:Ee;
    simpl; try done.
  intros Hb. exists e. split; [done|]. rewrite status_drawn in Hb.
  destruct (if p_skip p then _ else Ok false) as [fin| | |] eqn:Ef; simpl in Hb; try done.
  destruct fin.
  { exists false, true. injection Hb as <-. destruct (p_skip p) eqn:Ep; [|done].
    constructor; [by rewrite Ep|done]. }
  assert (Hf : p_skip p = true →
     finished_id (if a_into1 x then p_id1 p else p_id2 p) (a_status x) = Ok false).
  { intros Hp. by rewrite Hp in Ef. }
  destruct (all_of (λ t, t e) (p_before p)) as [[]| | |] eqn:E1; simpl in Hb; try done.
  2: { exists false, false. injection Hb as <-. by constructor. }
  destruct (all_of (λ y, ev _ y e) (if a_into1 x then a_set1 x else a_set2 x)) as [[]| | |] eqn:E2;
    simpl in Hb; try done.
  2: { exists false, false. injection Hb as <-. by constructor. }
  destruct (all_of (λ y, ev _ y e) (if a_into1 x then a_set2 x else a_set1 x)) as [[]| | |] eqn:E3;
    simpl in Hb; try done.
  2: { exists false, false. injection Hb as <-. by constructor. }
  destruct (all_of (λ t, t e) (p_after p)) as [[]| | |] eqn:E4; simpl in Hb; try done.
  2: { exists false, false. injection Hb as <-. by constructor. }
  exists true, true. injection Hb as <-.
  constructor; [done| | |].
  - intros t [Ht|Ht]%elem_of_app; [by apply (all_of_true _ _) with (x := t) in E1|
      by apply (all_of_true _ _) with (x := t) in E4].
  - intros y Hy. by apply (all_of_true _ _) with (x := y) in E2.
  - intros y Hy. by apply (all_of_true _ _) with (x := y) in E3.
Qed.

Lemma hist_reject acc used x :
  hist_ok acc used x → hist_ok acc (S used) (alt_reject (alt_drawn x)).
Proof.
  intros [(h & H1 & H2 & H3 & H4 & H5 & H6)]. split. exists (h ++ [IncreaseRejected]).
  rewrite run_snoc, rev_unit. destruct x as [t u1 u2 st d1 d2]. simpl in H1. subst st.
  split; [by destruct t|]. split; [done|]. split; [done|]. split; [by destruct t|].
  split; [by destruct t|]. simpl. lia.
Qed.
Lemma hist_flip acc used x : hist_ok acc used x → hist_ok acc used (alt_flip x).
Proof. intros [(h & H)]. split. exists h. destruct x; simpl in *. done. Qed.
Lemma hist_accept acc used x e :
  hist_ok acc used x →
  hist_ok (S acc) (S used) (alt_accept (if a_into1 x then p_id1 p else p_id2 p) e (alt_drawn x)).
Proof.
  intros [(h & H1 & H2 & H3 & H4 & H5 & H6)]. split.
  set (id := if a_into1 x then p_id1 p else p_id2 p).
  exists (h ++ [Increase id] ++ [Print false]). rewrite app_assoc, !run_snoc, !rev_unit.
  assert (Hid : is_Some (user_target id (rev h))).
  { rewrite H3, user_target_T. unfold id. destruct (a_into1 x).
    - rewrite (bool_decide_false (p_id2 p = p_id1 p)) by congruence. rewrite bool_decide_true by done. eauto.
    - rewrite bool_decide_true by done. eauto. }
  destruct x as [[] u1 u2 st d1 d2]; simpl in *; subst st id; simpl.
  - split; [done|]. split; [done|]. split; [done|].
    rewrite (bool_decide_true (p_id1 p = p_id1 p)) by done.
    rewrite (bool_decide_false (p_id1 p = p_id2 p)) by done.
    rewrite H4, H5, app_length. simpl. split; [lia|]. split; [done|]. lia.
  - split; [done|]. split; [done|]. split; [done|].
    rewrite (bool_decide_true (p_id2 p = p_id2 p)) by done.
    rewrite (bool_decide_false (p_id2 p = p_id1 p)) by congruence.
    rewrite H4, H5, app_length. simpl. split; [done|]. split; [lia|]. lia.
Qed.

Definition next1 (x : alt E) (e : E) (ds1 : list E) := if a_into1 x then ds1 ++ [e] else ds1.
Definition next2 (x : alt E) (e : E) (ds2 : list E) := if a_into1 x then ds2 else ds2 ++ [e].

Lemma inv_reject log ds1 ds2 x e :
  inv log ds1 ds2 x → (if a_into1 x then s1 (a_drawn1 x) else s2 (a_drawn2 x)) = Ok e →
  inv log (next1 x e ds1) (next2 x e ds2) (alt_reject (alt_drawn x)).
Proof.
  intros [I1 I2 I3 I4 I5 I6 I7 I8 I9 I10 I11] He. unfold next1, next2.
  pose proof (hist_reject _ _ _ I1) as Hh.
  destruct x as [[] u1 u2 st d1 d2]; simpl in *; subst; split; simpl; try done;
    rewrite ?app_length; simpl; try lia.
  - rewrite <- plus_n_Sm, <- plus_n_O. done.
  - by apply delivers_snoc.
  - by apply sublist_inserts_r.
  - replace (length ds1 + (length ds2 + 1)) with (S (length ds1 + length ds2)) by lia. done.
  - by apply delivers_snoc.
  - by apply sublist_inserts_r.
Qed.

Lemma inv_flip log ds1 ds2 x : inv log ds1 ds2 x → inv log ds1 ds2 (alt_flip x).
Proof.
  intros [I1 I2 I3 I4 I5 I6 I7 I8 I9 I10 I11]. apply hist_flip in I1.
  destruct x as [t u1 u2 st d1 d2]; simpl in *; split; done.
Qed.

Lemma inv_accept log ds1 ds2 x e :
  inv log ds1 ds2 x → (if a_into1 x then s1 (a_drawn1 x) else s2 (a_drawn2 x)) = Ok e →
  (∀ t, t ∈ p_before p ++ p_after p → t e = Ok true) →
  (∀ y, y ∈ (if a_into1 x then a_set1 x else a_set2 x) →
          ev (if a_into1 x then p_self1 p else p_self2 p) y e = Ok true) →
  (∀ y, y ∈ (if a_into1 x then a_set2 x else a_set1 x) → ev (p_other p) y e = Ok true) →
  inv (log ++ [(a_into1 x, e)]) (next1 x e ds1) (next2 x e ds2)
      (alt_accept (if a_into1 x then p_id1 p else p_id2 p) e (alt_drawn x)).
Proof.
  intros [I1 I2 I3 I4 I5 I6 I7 I8 I9 I10 I11] He Ht Hself Hother. unfold next1, next2.
  pose proof (hist_accept _ _ _ e I1) as Hh.
  assert (Hc : checked ev p (log ++ [(a_into1 x, e)])).
  { intros l1 b e0 l2 b' e' Hl Hin.
    destruct (decide (l2 = [])) as [->|Hl2].
    - apply app_inj_tail in Hl as [<- [= <- <-]].
      apply of_set_elem in Hin.
      destruct (a_into1 x) eqn:Ei; destruct b'.
      + apply Hself. by rewrite I2.
      + apply Hother. by rewrite I3.
      + apply Hother. by rewrite I2.
      + apply Hself. by rewrite I3.
    - destruct (exists_last Hl2) as (l3 & z & ->).
      apply (I10 l1 b e0 l3 b' e'); [|done].
      replace (l1 ++ (b, e0) :: l3 ++ [z]) with ((l1 ++ (b, e0) :: l3) ++ [z]) in Hl
        by (by rewrite <- app_assoc).
      by apply app_inj_tail in Hl as [-> _]. }
  assert (Hte : tested p (log ++ [(a_into1 x, e)])).
  { intros b e0 t Hin Hti. apply elem_of_app in Hin as [Hin|Hin]; [by eapply I11|].
    apply elem_of_list_singleton in Hin as [= -> ->]. by apply Ht. }
  destruct x as [[] u1 u2 st d1 d2]; simpl in *; subst; split; simpl; try done;
    rewrite ?app_length, ?of_set_app, ?of_set_one; simpl; rewrite ?app_nil_r; try lia; try done.
  - replace (length log + 1) with (S (length log)) by lia.
    replace (length ds1 + 1 + length ds2) with (S (length ds1 + length ds2)) by lia. done.
  - by apply delivers_snoc.
  - by apply sublist_app.
  - replace (length log + 1) with (S (length log)) by lia.
    replace (length ds1 + (length ds2 + 1)) with (S (length ds1 + length ds2)) by lia. done.
  - by apply delivers_snoc.
  - by apply sublist_app.
Qed.

Lemma inv_step log ds1 ds2 x e acc flip x' :
  inv log ds1 ds2 x → (if a_into1 x then s1 (a_drawn1 x) else s2 (a_drawn2 x)) = Ok e →
  outcome_of x e acc flip x' →
  inv (if acc then log ++ [(a_into1 x, e)] else log) (next1 x e ds1) (next2 x e ds2) x'.
Proof.
  intros HI He Ho. destruct Ho.
  - apply inv_flip. by apply inv_reject.
  - by apply inv_reject.
  - apply inv_flip. by apply inv_accept.
Qed.

(** The sizes of the sets. *)
Definition sizes (x : alt E) : Prop :=
  if p_skip p then
    (n1 x ≤ p_target1 p)%N ∧ (n2 x ≤ p_target2 p)%N ∧
    (if a_into1 x
     then n1 x = n2 x ∨ (n2 x = p_target2 p ∧ n2 x ≤ n1 x)%N ∨ (n1 x = p_target1 p ∧ n1 x ≤ n2 x)%N
     else (n1 x = n2 x + 1)%N ∨ (n2 x = p_target2 p ∧ n2 x ≤ n1 x)%N ∨
          (n1 x = p_target1 p ∧ n1 x ≤ n2 x + 1)%N)
  else
    (if a_into1 x
     then n1 x = n2 x ∧ (n2 x = 0 ∨ n1 x < p_target1 p ∨ n2 x < p_target2 p + 1)%N
     else (n1 x = n2 x + 1 ∧ (n2 x < p_target1 p ∨ n2 x < p_target2 p))%N).

Lemma sizes_bound x : sizes x → (n1 x < 2^64)%N ∧ (n2 x < 2^64)%N.
Proof. unfold sizes. destruct (p_skip p), (a_into1 x); lia. Qed.

Lemma finished_sizes acc used x :
  hist_ok acc used x → sizes x →
  ∃ b, finished_all (a_status x) (ord (counts (a_status x))) = Ok b ∧
       (b = true ↔ (p_target1 p ≤ n1 x ∧ p_target2 p ≤ n2 x)%N).
Proof.
  intros [(h & -> & H1 & H2 & H3 & H4 & _)] Hs.
  destruct (c02_finished_lemma h (ord (counts (run h))) H1 (Hord _)) as (b & Hb & Hiff).
  exists b. split; [done|]. rewrite Hiff. apply sizes_bound in Hs as [B1 B2].
  split.
  - intros H. split.
    + specialize (H (p_id1 p) (p_target1 p)). rewrite H2, user_target_T in H.
      rewrite (bool_decide_false (p_id2 p = p_id1 p)), bool_decide_true in H by congruence.
      specialize (H eq_refl). rewrite H3 in H. unfold wrap64 in H. by rewrite N.mod_small in H.
    + specialize (H (p_id2 p) (p_target2 p)). rewrite H2, user_target_T in H.
      rewrite bool_decide_true in H by congruence.
      specialize (H eq_refl). rewrite H4 in H. unfold wrap64 in H. by rewrite N.mod_small in H.
  - intros [F1 F2] id t Ht. rewrite H2, user_target_T in Ht.
    destruct (bool_decide_reflect (p_id2 p = id)) as [<-|]; [simplify_eq|].
    { rewrite H4. unfold wrap64. by rewrite N.mod_small. }
    destruct (bool_decide_reflect (p_id1 p = id)) as [<-|]; [simplify_eq|done].
    rewrite H3. unfold wrap64. by rewrite N.mod_small.
Qed.

Lemma finished_id_sizes acc used x (b : bool) :
  hist_ok acc used x → sizes x →
  finished_id (if b then p_id1 p else p_id2 p) (a_status x) =
    Ok (if b then bool_decide (p_target1 p ≤ n1 x)%N else bool_decide (p_target2 p ≤ n2 x)%N).
Proof.
  intros [(h & -> & H1 & H2 & H3 & H4 & _)] Hs. apply sizes_bound in Hs as [B1 B2].
  rewrite c02_finished_id_lemma by done. rewrite H2, user_target_T. destruct b.
  - rewrite (bool_decide_false (p_id2 p = p_id1 p)), (bool_decide_true (p_id1 p = p_id1 p)) by congruence.
    rewrite H3. unfold wrap64. by rewrite N.mod_small.
  - rewrite (bool_decide_true (p_id2 p = p_id2 p)) by congruence.
    rewrite H4. unfold wrap64. by rewrite N.mod_small.
Qed.

Lemma sizes_step acc used x e a f x' :
  hist_ok acc used x → sizes x → (n1 x < p_target1 p ∨ n2 x < p_target2 p)%N →
  outcome_of x e a f x' → sizes x'.
Proof.
  intros Hh Hs Hun Ho.
  pose proof (finished_id_sizes _ _ _ (a_into1 x) Hh Hs) as Hf.
  destruct Ho as [Hp Hfin|Hfin|Hfin _ _ _].
  - rewrite Hf in Hfin. unfold sizes in *. rewrite Hp in *.
    destruct x as [[] u1 u2 st d1 d2]; simpl in *; injection Hfin as Hfin%bool_decide_eq_true; lia.
  - unfold sizes in *. destruct x as [[] u1 u2 st d1 d2]; simpl in *; done.
  - unfold sizes in *. destruct (p_skip p).
    + rewrite Hf in Hfin. specialize (Hfin eq_refl).
      destruct x as [[] u1 u2 st d1 d2]; simpl in *; injection Hfin as Hfin%bool_decide_eq_false;
        rewrite !app_length; simpl; lia.
    + clear Hf Hfin. destruct x as [[] u1 u2 st d1 d2]; simpl in *; rewrite !app_length; simpl; lia.
Qed.

(** Pairs across the sets. *)
Definition cross (x : alt E) : Prop := crosswise (λ y z, ev (p_other p) y z = Ok true) (a_set1 x) (a_set2 x).

Lemma cross_step acc used x e a f x' :
  hist_ok acc used x → sizes x → cross x → outcome_of x e a f x' → cross x'.
Proof.
  intros Hh Hs Hc Ho.
  pose proof (finished_id_sizes _ _ _ (a_into1 x) Hh Hs) as Hf.
  destruct Ho as [Hp Hfin|Hfin|Hfin _ _ Hother].
  - destruct x as [[] u1 u2 st d1 d2]; done.
  - destruct x as [[] u1 u2 st d1 d2]; done.
  - assert (Hn : if a_into1 x then (n2 x ≤ n1 x)%N else (n1 x ≤ n2 x + 1)%N).
    { unfold sizes in Hs. destruct (p_skip p).
      - rewrite Hf in Hfin. specialize (Hfin eq_refl).
        destruct (a_into1 x); injection Hfin as Hfin%bool_decide_eq_false; lia.
      - destruct (a_into1 x); lia. }
    unfold cross, crosswise in *. destruct x as [[] u1 u2 st d1 d2]; simpl in *; intros i j y z Hi Hj.
    + destruct (decide (i < length u1)).
      * rewrite lookup_app_l in Hi by done. by apply Hc.
      * pose proof (lookup_lt_Some _ _ _ Hi) as Hl. rewrite app_length in Hl. simpl in Hl.
        rewrite lookup_app_r in Hi by lia. replace (i - length u1) with 0 in Hi by lia. simplify_eq/=.
        pose proof (lookup_lt_Some _ _ _ Hj). split; [lia|]. intros _. apply Hother.
        by eapply elem_of_list_lookup_2.
    + destruct (decide (j < length u2)).
      * rewrite lookup_app_l in Hj by done. by apply Hc.
      * pose proof (lookup_lt_Some _ _ _ Hj) as Hl. rewrite app_length in Hl. simpl in Hl.
        rewrite lookup_app_r in Hj by lia. replace (j - length u2) with 0 in Hj by lia. simplify_eq/=.
        pose proof (lookup_lt_Some _ _ _ Hi). split; [|lia]. intros _. apply Hother.
        by eapply elem_of_list_lookup_2.
Qed.

(** Turns. *)
Definition turns (log : list (bool * E)) (x : alt E) : Prop :=
  (p_skip p = false → (∀ i b e, log !! i = Some (b, e) → b = Nat.even i) ∧
                      a_into1 x = Nat.even (length log)) ∧
  (∀ l1 b e e' l2, log = l1 ++ (b, e) :: (b, e') :: l2 →
     N.of_nat (length (of_set (negb b) l1)) = (if b then p_target2 p else p_target1 p)) ∧
  (∀ l b e, log = l ++ [(b, e)] → a_into1 x = b →
     N.of_nat (length (of_set (negb b) l)) = (if b then p_target2 p else p_target1 p)).

Lemma turns_step log ds1 ds2 x e a f x' :
  inv log ds1 ds2 x → sizes x → turns log x → outcome_of x e a f x' →
  turns (if a then log ++ [(a_into1 x, e)] else log) x'.
Proof.
  intros HI Hs (Hn & Hsk & Hlast) Ho.
  pose proof (finished_id_sizes _ _ _ (a_into1 x) (i_hist _ _ _ _ HI) Hs) as Hf.
  destruct Ho as [Hp Hfin|Hfin|Hfin _ _ _].
  - split; [by rewrite Hp|]. split; [done|]. intros l b e0 Hl Hb.
    rewrite Hf in Hfin. unfold sizes in Hs. rewrite Hp in Hs.
    destruct HI as [_ I2 I3 _ _ _ _ _ _ _ _].
    assert (Hx : a_into1 (alt_flip (alt_reject (alt_drawn x))) = negb (a_into1 x))
      by (destruct x as [[] ? ? ? ? ?]; done). rewrite Hx in Hb. clear Hx.
    rewrite I2, I3, Hl, !of_set_app, !of_set_one, !app_length in *.
    destruct (a_into1 x); simpl in Hb; subst b; simpl in *; injection Hfin as Hfin%bool_decide_eq_true; lia.
  - assert (Hx : a_into1 (alt_reject (alt_drawn x)) = a_into1 x) by (destruct x as [[] ? ? ? ? ?]; done).
    unfold turns. by rewrite Hx.
  - assert (Hx : ∀ id, a_into1 (alt_flip (alt_accept id e (alt_drawn x))) = negb (a_into1 x))
      by (intros id; destruct x as [[] ? ? ? ? ?]; done).
    split; [|split].
    + intros Hp. destruct (Hn Hp) as [Hn1 Hn2]. split.
      * intros i b e0 Hi. destruct (decide (i < length log)).
        -- rewrite lookup_app_l in Hi by done. by eapply Hn1.
        -- pose proof (lookup_lt_Some _ _ _ Hi) as Hl. rewrite app_length in Hl. simpl in Hl.
           rewrite lookup_app_r in Hi by lia. replace (i - length log) with 0 in Hi by lia. simplify_eq/=.
           rewrite Hn2. f_equal. lia.
      * rewrite Hx, Hn2, app_length. simpl. rewrite Nat.add_1_r, Nat.even_succ. by rewrite <- Nat.negb_even.
    + intros l1 b e1 e2 l2 Hl. destruct (decide (l2 = [])) as [->|Hl2].
      * replace (l1 ++ [(b, e1); (b, e2)]) with ((l1 ++ [(b, e1)]) ++ [(b, e2)]) in Hl
          by (by rewrite <- app_assoc).
        apply app_inj_tail in Hl as [Hl [= Hb _]]. by eapply Hlast.
      * destruct (exists_last Hl2) as (l3 & z & ->).
        replace (l1 ++ (b, e1) :: (b, e2) :: l3 ++ [z]) with ((l1 ++ (b, e1) :: (b, e2) :: l3) ++ [z]) in Hl
          by (by rewrite <- app_assoc).
        apply app_inj_tail in Hl as [Hl _]. by eapply Hsk.
    + intros l b e0 Hl Hb. rewrite Hx in Hb. apply app_inj_tail in Hl as [_ [= <- _]].
      by destruct (a_into1 x).
Qed.

(** Failures. *)
Lemma all_of_fails {B} (f : B → outcome bool) l o :
  fails o (all_of f l) → ∃ x, x ∈ l ∧ fails o (f x).
Proof.
  induction l as [|y l IH]; simpl; intros [Hn Ho]; [by destruct (Hn true)|].
  destruct (f y) as [b|ex| |] eqn:Ey; simpl in *.
  - destruct b; [|by destruct (Hn false)]. destruct IH as (z & Hz & Hf); [done|].
    exists z. split; [by right|done].
  - exists y. split; [by left|]. by rewrite Ey.
  - exists y. split; [by left|]. by rewrite Ey.
  - exists y. split; [by left|]. by rewrite Ey.
Qed.
Lemma fails_bind {B D} (x : outcome B) (g : B → outcome D) o :
  fails o (obind x g) → fails o x ∨ ∃ b, x = Ok b ∧ fails o (g b).
Proof. destruct x; simpl; intros [Hn Ho]; [right|left|left|left]; try done. eexists; split; done. Qed.

Lemma body_fails acc used x o :
  hist_ok acc used x → sizes x → fails o (alt_body ev p s1 s2 x) → somewhere ev p s1 s2 o.
Proof.
  intros Hh Hs Hf. unfold alt_body in Hf. unfold somewhere.
  apply fails_bind in Hf as [Hf|(e & _ & Hf)].
  { left. destruct (a_into1 x); eauto. }
  rewrite status_drawn in Hf.
  apply fails_bind in Hf as [Hf|(fin & _ & Hf)].
  { destruct (p_skip p); [|by destruct Hf as [Hn _]; destruct (Hn false)].
    rewrite (finished_id_sizes _ _ _ (a_into1 x) Hh Hs) in Hf. destruct Hf as [Hn _]. by edestruct Hn. }
  destruct fin; [destruct Hf as [Hn _]; by edestruct Hn|].
  apply fails_bind in Hf as [Hf|(b & _ & Hf)].
  { apply all_of_fails in Hf as (t & Ht & Hf). right. left. exists t, e. rewrite elem_of_app. eauto. }
  destruct b; [|destruct Hf as [Hn _]; by edestruct Hn]. simpl in Hf.
  apply fails_bind in Hf as [Hf|(b & _ & Hf)].
  { apply all_of_fails in Hf as (t & Ht & Hf). right. right. eauto. }
  destruct b; [|destruct Hf as [Hn _]; by edestruct Hn]. simpl in Hf.
  apply fails_bind in Hf as [Hf|(b & _ & Hf)].
  { apply all_of_fails in Hf as (t & Ht & Hf). right. right. eauto. }
  destruct b; [|destruct Hf as [Hn _]; by edestruct Hn]. simpl in Hf.
  apply fails_bind in Hf as [Hf|(b & _ & Hf)].
  { apply all_of_fails in Hf as (t & Ht & Hf). right. left. exists t, e. rewrite elem_of_app. eauto. }
  destruct b; destruct Hf as [Hn _]; by edestruct Hn.
Qed.

(** The whole loop. *)
Definition good log ds1 ds2 x : Prop := inv log ds1 ds2 x ∧ sizes x ∧ cross x ∧ turns log x.

Lemma good_init : good [] [] [] (alt_init p).
Proof.
  split; [apply inv_init|]. split; [|split].
  - unfold sizes. simpl. destruct (p_skip p); lia.
  - intros i j y z Hi. done.
  - split; [|split].
    + done.
    + intros l1 b e e' l2 Hl. by destruct l1.
    + intros l b e Hl. by destruct l.
Qed.

Lemma loop_good passes : ∀ log ds1 ds2 x,
  good log ds1 ds2 x →
  match alt_loop ev ord p s1 s2 passes x with
  | AltDone x' => finished_all (a_status x') (ord (counts (a_status x'))) = Ok true ∧
                  ∃ log' ds1' ds2', good log' ds1' ds2' x' ∧
                    length ds1' + length ds2' ≤ length ds1 + length ds2 + passes
  | AltRunning x' => finished_all (a_status x') (ord (counts (a_status x'))) = Ok false ∧
                  ∃ log' ds1' ds2', good log' ds1' ds2' x' ∧
                    length ds1' + length ds2' = length ds1 + length ds2 + passes
  | AltFailed o => somewhere ev p s1 s2 o
  end.
Proof.
  induction passes as [|passes IH]; intros log ds1 ds2 x (HI & Hs & Hc & Ht); cbn [alt_loop];
    destruct (finished_sizes _ _ _ (i_hist _ _ _ _ HI) Hs) as (b & Hb & Hiff); rewrite Hb.
  - destruct b; split; try done; exists log, ds1, ds2; (split; [done|lia]).
  - destruct b.
    { split; [done|]. exists log, ds1, ds2. split; [done|lia]. }
    destruct (alt_body ev p s1 s2 x) as [x'|ex| |] eqn:Eb.
    + destruct (body_cases _ _ Eb) as (e & He & a & f & Ho).
      assert (Hun : (n1 x < p_target1 p ∨ n2 x < p_target2 p)%N).
      { destruct (N.lt_ge_cases (n1 x) (p_target1 p)); [by left|].
        destruct (N.lt_ge_cases (n2 x) (p_target2 p)); [by right|]. naive_solver. }
      assert (Hg : good (if a then log ++ [(a_into1 x, e)] else log) (next1 x e ds1) (next2 x e ds2) x').
      { split; [by eapply inv_step|]. split; [by eapply sizes_step; [apply HI|..]|].
        split; [by eapply cross_step; [apply HI|..]|]. by eapply turns_step. }
      specialize (IH _ _ _ _ Hg).
      assert (Hlen : length (next1 x e ds1) + length (next2 x e ds2) = S (length ds1 + length ds2)).
      { unfold next1, next2. destruct (a_into1 x); rewrite app_length; simpl; lia. }
      destruct (alt_loop ev ord p s1 s2 passes x') as [y|y|o]; [| |done].
      * destruct IH as (Hy & log' & d1 & d2 & Hg' & Hl). split; [done|]. exists log', d1, d2.
        split; [done|]. lia.
      * destruct IH as (Hy & log' & d1 & d2 & Hg' & Hl). split; [done|]. exists log', d1, d2.
        split; [done|]. lia.
    + eapply (body_fails _ _ _ _ (i_hist _ _ _ _ HI) Hs). rewrite Eb. done.
    + eapply (body_fails _ _ _ _ (i_hist _ _ _ _ HI) Hs). rewrite Eb. done.
    + eapply (body_fails _ _ _ _ (i_hist _ _ _ _ HI) Hs). rewrite Eb. done.
Qed.

Lemma reached_good passes x :
  reached (alt_run ev ord p s1 s2 passes) x →
  ∃ log ds1 ds2, good log ds1 ds2 x ∧ length ds1 + length ds2 ≤ passes.
Proof.
  intros Hr. pose proof (loop_good passes _ _ _ _ good_init) as Hl. unfold alt_run in Hr.
  destruct Hr as [Hr|Hr]; rewrite Hr in Hl; destruct Hl as (_ & log & d1 & d2 & Hg & Hlen);
    exists log, d1, d2; (split; [done|]); simpl in Hlen; lia.
Qed.

Lemma c86_lemma passes x :
  reached (alt_run ev ord p s1 s2 passes) x →
  ∃ log ds1 ds2,
    a_set1 x = of_set true log ∧ a_set2 x = of_set false log ∧
    delivers s1 ds1 ∧ delivers s2 ds2 ∧ a_set1 x `sublist_of` ds1 ∧ a_set2 x `sublist_of` ds2 ∧
    checked ev p log ∧ tested p log ∧
    length ds1 + length ds2 ≤ passes ∧
    rejected (a_status x) = (N.of_nat (length ds1 + length ds2 - length log) mod 2^64)%N.
Proof.
  intros Hr. destruct (reached_good _ _ Hr) as (log & ds1 & ds2 & (HI & _) & Hlen).
  exists log, ds1, ds2. destruct HI as [[(h & Hh & _ & _ & _ & _ & Hrej)] I2 I3 I4 I5 I6 I7 I8 I9 I10 I11].
  split; [done|]. split; [done|]. split; [done|]. split; [done|]. split; [done|]. split; [done|].
  split; [done|]. split; [done|]. split; [done|]. rewrite Hh, c04_rejected_lemma. unfold wrap64. f_equal. lia.
Qed.

Lemma c86_pairs_lemma passes x :
  reached (alt_run ev ord p s1 s2 passes) x →
  pairwise (λ y z, ev (p_self1 p) y z = Ok true) (a_set1 x) ∧
  pairwise (λ y z, ev (p_self2 p) y z = Ok true) (a_set2 x) ∧
  crosswise (λ y z, ev (p_other p) y z = Ok true) (a_set1 x) (a_set2 x).
Proof.
  intros Hr. destruct (reached_good _ _ Hr) as (log & ds1 & ds2 & (HI & _ & Hc & _) & _).
  split; [|split; [|exact Hc]].
  - rewrite (i_set1 _ _ _ _ HI). pose proof (i_checked _ _ _ _ HI) as Hck. clear -Hck.
    induction log as [|[b e] log IH] using rev_ind; [by intros ????? |].
    rewrite of_set_app, of_set_one.
    assert (Hck' : checked ev p log).
    { intros l1 b0 e0 l2 b' e' -> Hin. apply (Hck l1 b0 e0 (l2 ++ [(b, e)]) b' e'); [|done].
      by rewrite <- app_assoc. }
    specialize (IH Hck'). case_bool_decide as Hb; [|by rewrite app_nil_r]. subst b.
    intros i j y z Hij Hi Hj. destruct (decide (j < length (of_set true log))).
    + rewrite lookup_app_l in Hi by lia. rewrite lookup_app_l in Hj by lia. exact (IH i j y z Hij Hi Hj).
    + pose proof (lookup_lt_Some _ _ _ Hj) as Hl. rewrite app_length in Hl. simpl in Hl.
      rewrite lookup_app_r in Hj by lia. replace (j - length (of_set true log)) with 0 in Hj by lia.
      simplify_eq/=. rewrite lookup_app_l in Hi by lia. apply elem_of_list_lookup_2, of_set_elem in Hi.
      by apply (Hck log true z [] true y).
  - rewrite (i_set2 _ _ _ _ HI). pose proof (i_checked _ _ _ _ HI) as Hck. clear -Hck.
    induction log as [|[b e] log IH] using rev_ind; [by intros ????? |].
    rewrite of_set_app, of_set_one.
    assert (Hck' : checked ev p log).
    { intros l1 b0 e0 l2 b' e' -> Hin. apply (Hck l1 b0 e0 (l2 ++ [(b, e)]) b' e'); [|done].
      by rewrite <- app_assoc. }
    specialize (IH Hck'). case_bool_decide as Hb; [|by rewrite app_nil_r]. subst b.
    intros i j y z Hij Hi Hj. destruct (decide (j < length (of_set false log))).
    + rewrite lookup_app_l in Hi by lia. rewrite lookup_app_l in Hj by lia. exact (IH i j y z Hij Hi Hj).
    + pose proof (lookup_lt_Some _ _ _ Hj) as Hl. rewrite app_length in Hl. simpl in Hl.
      rewrite lookup_app_r in Hj by lia. replace (j - length (of_set false log)) with 0 in Hj by lia.
      simplify_eq/=. rewrite lookup_app_l in Hi by lia. apply elem_of_list_lookup_2, of_set_elem in Hi.
      by apply (Hck log false z [] false y).
Qed.

Lemma done_finished passes x :
  alt_run ev ord p s1 s2 passes = AltDone x →
  ∃ log ds1 ds2, good log ds1 ds2 x ∧ (p_target1 p ≤ n1 x ∧ p_target2 p ≤ n2 x)%N.
Proof.
  intros Hr. pose proof (loop_good passes _ _ _ _ good_init) as Hl. unfold alt_run in Hr. rewrite Hr in Hl.
  destruct Hl as (Hf & log & d1 & d2 & Hg & Hlen). exists log, d1, d2. split; [done|].
  destruct Hg as (HI & Hs & _).
  destruct (finished_sizes _ _ _ (i_hist _ _ _ _ HI) Hs) as (b & Hb & Hiff).
  rewrite Hf in Hb. injection Hb as <-. by apply Hiff.
Qed.

Lemma c86_sizes_lemma passes x :
  alt_run ev ord p s1 s2 passes = AltDone x →
  (n1 x, n2 x) =
    if p_skip p then (p_target1 p, p_target2 p)
    else if bool_decide (p_target1 p ≤ p_target2 p)%N then (p_target2 p, p_target2 p)
    else (p_target1 p, p_target1 p - 1)%N.
Proof.
  intros Hr. destruct (done_finished _ _ Hr) as (log & d1 & d2 & (_ & Hs & _) & Hf).
  unfold sizes in Hs. destruct (p_skip p).
  - f_equal; lia.
  - case_bool_decide; destruct (a_into1 x); f_equal; lia.
Qed.

Lemma c86_running_lemma passes x :
  reached (alt_run ev ord p s1 s2 passes) x →
  if p_skip p then (n1 x ≤ p_target1 p ∧ n2 x ≤ p_target2 p)%N
  else (n2 x ≤ n1 x ≤ n2 x + 1)%N.
Proof.
  intros Hr. destruct (reached_good _ _ Hr) as (log & ds1 & ds2 & (_ & Hs & _) & _).
  unfold sizes in Hs. destruct (p_skip p), (a_into1 x); lia.
Qed.

Lemma c86_turns_lemma passes x :
  reached (alt_run ev ord p s1 s2 passes) x →
  ∃ log, a_set1 x = of_set true log ∧ a_set2 x = of_set false log ∧ checked ev p log ∧
    (p_skip p = false → ∀ i b e, log !! i = Some (b, e) → b = Nat.even i) ∧
    (∀ l1 b e e' l2, log = l1 ++ (b, e) :: (b, e') :: l2 →
       N.of_nat (length (of_set (negb b) l1)) = (if b then p_target2 p else p_target1 p)).
Proof.
  intros Hr. destruct (reached_good _ _ Hr) as (log & ds1 & ds2 & (HI & _ & _ & Hn & Hsk & _) & _).
  exists log. split; [apply HI|]. split; [apply HI|]. split; [apply HI|]. split; [|done].
  intros Hp. by apply Hn.
Qed.

Lemma c86_fails_lemma passes o :
  alt_run ev ord p s1 s2 passes = AltFailed o → somewhere ev p s1 s2 o.
Proof.
  intros Hr. pose proof (loop_good passes _ _ _ _ good_init) as Hl. unfold alt_run in Hr. by rewrite Hr in Hl.
Qed.

(** Compatible samples are all accepted. *)
Definition perfect (x : alt E) : Prop :=
  a_drawn1 x = n1 x ∧ a_drawn2 x = n2 x ∧ delivers s1 (a_set1 x) ∧ delivers s2 (a_set2 x) ∧
  rejected (a_status x) = 0%N.

Lemma body_perfect log ds1 ds2 x :
  all_compatible ev p s1 s2 → p_skip p = false → p_target1 p = p_target2 p →
  (n1 x < p_target1 p ∨ n2 x < p_target2 p)%N → good log ds1 ds2 x → perfect x →
  ∃ x', alt_body ev p s1 s2 x = Ok x' ∧ perfect x' ∧ (n1 x' + n2 x' = n1 x + n2 x + 1)%N.
Proof.
  intros (C1 & C2 & C3 & C4 & C5) Hp Htt Hun (HI & Hs & _) (P1 & P2 & P3 & P4 & P5).
  unfold sizes in Hs. rewrite Hp in Hs.
  assert (Hall : ∀ (l : list E) f, (∀ y, y ∈ l → f y = Ok true) → all_of f l = Ok true)
    by (intros l f; apply all_of_true).
  destruct x as [t u1 u2 st d1 d2]; simpl in *. subst d1 d2. destruct t.
  - destruct (C1 (N.of_nat (length u1)) ltac:(lia)) as (e & He & Ht).
    eexists. split.
    { unfold alt_body. simpl. rewrite He. simpl. rewrite Hp. simpl.
      rewrite (proj2 (all_of_true (λ t, t e) (p_before p))) by (intros t ?; apply Ht; set_solver). simpl.
      rewrite (Hall u1).
      2: { intros y Hy. apply elem_of_list_lookup in Hy as [i Hi]. pose proof (lookup_lt_Some _ _ _ Hi).
           eapply C3; [|by apply P3|done]. lia. }
      simpl. rewrite (Hall u2).
      2: { intros y Hy. apply elem_of_list_lookup in Hy as [i Hi]. pose proof (lookup_lt_Some _ _ _ Hi).
           apply (C5 (N.of_nat (length u1)) (N.of_nat i) e y ltac:(lia) ltac:(lia) He (P4 _ _ Hi)). lia. }
      simpl. rewrite (proj2 (all_of_true (λ t, t e) (p_after p))) by (intros t ?; apply Ht; set_solver).
      simpl. reflexivity. }
    split; simpl.
    + unfold perfect. simpl. rewrite !app_length. simpl. split; [lia|]. split; [done|].
      split; [by apply delivers_snoc|]. done.
    + rewrite !app_length. simpl. lia.
  - destruct (C2 (N.of_nat (length u2)) ltac:(lia)) as (e & He & Ht).
    eexists. split.
    { unfold alt_body. simpl. rewrite He. simpl. rewrite Hp. simpl.
      rewrite (proj2 (all_of_true (λ t, t e) (p_before p))) by (intros t ?; apply Ht; set_solver). simpl.
      rewrite (Hall u2).
      2: { intros y Hy. apply elem_of_list_lookup in Hy as [i Hi]. pose proof (lookup_lt_Some _ _ _ Hi).
           eapply C4; [|by apply P4|done]. lia. }
      simpl. rewrite (Hall u1).
      2: { intros y Hy. apply elem_of_list_lookup in Hy as [i Hi]. pose proof (lookup_lt_Some _ _ _ Hi).
           apply (C5 (N.of_nat i) (N.of_nat (length u2)) y e ltac:(lia) ltac:(lia) (P3 _ _ Hi) He). lia. }
      simpl. rewrite (proj2 (all_of_true (λ t, t e) (p_after p))) by (intros t ?; apply Ht; set_solver).
      simpl. reflexivity. }
    split; simpl.
    + unfold perfect. simpl. rewrite !app_length. simpl. split; [done|]. split; [lia|].
      split; [done|]. split; [by apply delivers_snoc|]. done.
    + rewrite !app_length. simpl. lia.
Qed.

Lemma loop_perfect passes : ∀ log ds1 ds2 x,
  all_compatible ev p s1 s2 → p_skip p = false → p_target1 p = p_target2 p →
  good log ds1 ds2 x → perfect x →
  (2 * p_target1 p ≤ n1 x + n2 x + N.of_nat passes)%N →
  ∃ x', alt_loop ev ord p s1 s2 passes x = AltDone x' ∧ perfect x'.
Proof.
  induction passes as [|passes IH]; intros log ds1 ds2 x Hco Hp Ht Hg Hper Hn; cbn [alt_loop];
    pose proof Hg as (HI & Hs & _);
    destruct (finished_sizes _ _ _ (i_hist _ _ _ _ HI) Hs) as (b & Hb & Hiff); rewrite Hb.
  - assert (b = true) as -> by (apply Hiff; unfold sizes in Hs; rewrite Hp in Hs; destruct (a_into1 x); lia).
    by exists x.
  - destruct b; [by exists x|].
    assert (Hun : (n1 x < p_target1 p ∨ n2 x < p_target2 p)%N).
    { destruct (N.lt_ge_cases (n1 x) (p_target1 p)); [by left|].
      destruct (N.lt_ge_cases (n2 x) (p_target2 p)); [by right|]. naive_solver. }
    destruct (body_perfect _ _ _ _ Hco Hp Ht Hun Hg Hper) as (x' & Hx' & Hper' & Hn'). rewrite Hx'.
    destruct (body_cases _ _ Hx') as (e & He & a & f & Ho).
    destruct Hg as (_ & _ & Hc & Htu).
    eapply (IH (if a then log ++ [(a_into1 x, e)] else log) (next1 x e ds1) (next2 x e ds2)); try done.
    + split; [by eapply inv_step|]. split; [by eapply sizes_step; [apply HI|..]|].
      split; [by eapply cross_step; [apply HI|..]|]. by eapply turns_step.
    + lia.
Qed.

Lemma c86_compatible_lemma passes :
  all_compatible ev p s1 s2 → p_skip p = false → p_target1 p = p_target2 p →
  (2 * p_target1 p ≤ N.of_nat passes)%N →
  ∃ x, alt_run ev ord p s1 s2 passes = AltDone x ∧
       delivers s1 (a_set1 x) ∧ delivers s2 (a_set2 x) ∧ rejected (a_status x) = 0%N.
Proof.
  intros Hco Hp Ht Hn. destruct (loop_perfect passes [] [] [] (alt_init p)) as (x & Hx & P); try done.
  - apply good_init.
  - unfold perfect. simpl. repeat split; try done.
    unfold set_target_count. simpl. repeat case_match; done.
  - exists x. unfold perfect in P. naive_solver.
Qed.
End Run.
