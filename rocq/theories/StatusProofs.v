(** Proofs about the SamplingStatus model. *)

From stdpp Require Import prelude gmap.
From Coq Require Import ZifyN ZifyNat.
From Verif Require Import Base StatusModel StatusSpec.
Local Open Scope N_scope.

(** Running a history one call at a time. *)
Lemma run_snoc h o : run (h ++ [o]) = step (run h) o.
Proof. unfold run. by rewrite fold_left_app. Qed.

(** [hist h] = the history as the specification wants it, latest call first. *)
Lemma run_rev_cons o r : run (rev (o :: r)) = step (run (rev r)) o.
Proof. simpl. apply run_snoc. Qed.

Lemma subscript_insert k k' v m :
  subscript k (<[k' := v]> m) = if bool_decide (k' = k) then v else subscript k m.
Proof.
  unfold subscript. case_bool_decide.
  - subst. by rewrite lookup_insert.
  - by rewrite lookup_insert_ne.
Qed.

Lemma subscript_at_or_insert k k' m : subscript k (at_or_insert k' m) = subscript k m.
Proof.
  unfold at_or_insert. destruct (m !! k') eqn:E; [done|].
  rewrite subscript_insert. case_bool_decide; [|done]. subst.
  unfold subscript. by rewrite E.
Qed.

Lemma subscript_fmap_zero k (m : gmap N N) : subscript k ((λ _, 0) <$> m) = 0.
Proof. unfold subscript. rewrite lookup_fmap. by destruct (m !! k). Qed.

Lemma wrap64_idem n : wrap64 (wrap64 n) = wrap64 n.
Proof. unfold wrap64. by rewrite N.mod_mod. Qed.

Lemma wrap64_add n m : wrap64 (wrap64 n + m) = wrap64 (n + m).
Proof. unfold wrap64. by rewrite N.add_mod_idemp_l. Qed.

Lemma count_is_successes r id :
  subscript id (counts (run (rev r))) = wrap64 (successes id r).
Proof.
  induction r as [|o r IH]; [done|].
  rewrite run_rev_cons. set (s := run (rev r)) in *.
  destruct o; cbn [step successes fst]; try exact IH; try done.
  - unfold set_target_count. destruct (counts s !! id0) eqn:E; simpl; [done|].
    rewrite subscript_insert. case_bool_decide; [|done]. subst.
    rewrite <- IH. unfold subscript. by rewrite E.
  - simpl. apply subscript_fmap_zero.
  - simpl. rewrite subscript_insert. case_bool_decide; [done|]. exact IH.
  - unfold increase_counter; simpl. rewrite subscript_insert. case_bool_decide; [|done].
    subst. rewrite IH. apply wrap64_add.
  - simpl. rewrite subscript_at_or_insert. exact IH.
Qed.

Lemma c01_lemma h id : snd (get_count id (run h)) = wrap64 (successes id (rev h)).
Proof. simpl. rewrite <- count_is_successes. by rewrite rev_involutive. Qed.

Lemma c01_frame_lemma h o id :
  mentions id o = false ->
  snd (get_count id (step (run h) o)) = snd (get_count id (run h)).
Proof.
  intros Hm. rewrite <- run_snoc, !c01_lemma. rewrite rev_app_distr. simpl.
  destruct o; simpl in *; try done; by rewrite Hm.
Qed.

Lemma rejected_is_rejections r : rejected (run (rev r)) = wrap64 (rejections r).
Proof.
  induction r as [|o r IH]; [done|].
  rewrite run_rev_cons. set (s := run (rev r)) in *.
  destruct o; cbn [step rejections fst]; try exact IH; try done.
  - unfold set_target_count. by destruct (counts s !! id).
  - simpl. rewrite IH. apply wrap64_add.
Qed.

(** Targets. *)
Lemma targets_user_target r :
  targets_first r -> ∀ id, targets (run (rev r)) !! id = user_target id r.
Proof.
  induction r as [|o r IH]; intros Hf id; [done|].
  rewrite run_rev_cons. set (s := run (rev r)) in *.
  destruct o; cbn [step user_target fst targets_first] in *; try (by apply IH).
  - unfold set_target_count. destruct (counts s !! id0) eqn:E; simpl;
      (case_bool_decide; [subst; by rewrite lookup_insert | rewrite lookup_insert_ne by done; by apply IH]).
  - done.
  - destruct Hf as [_ Hf]. simpl. by apply IH.
  - unfold increase_counter; simpl. destruct Hf as [[t Ht] Hf].
    unfold at_or_insert. rewrite (IH Hf id0), Ht. by apply IH.
  - destruct Hf as [_ Hf]. simpl. by apply IH.
Qed.

Lemma counts_dom r :
  targets_first r ->
  ∀ id, is_Some (counts (run (rev r)) !! id) ↔ is_Some (user_target id r).
Proof.
  induction r as [|o r IH]; intros Hf id.
  { simpl. rewrite lookup_empty. by split; intros [? ?]. }
  rewrite run_rev_cons. set (s := run (rev r)) in *.
  destruct o; cbn [step user_target fst targets_first] in *; try (by apply IH).
  - unfold set_target_count. destruct (counts s !! id0) eqn:E; simpl; case_bool_decide; subst.
    + rewrite E. split; eauto.
    + by apply IH.
    + rewrite lookup_insert. split; eauto.
    + rewrite lookup_insert_ne by done. by apply IH.
  - simpl. rewrite lookup_empty. by split; intros [? ?].
  - simpl. rewrite lookup_fmap, fmap_is_Some. by apply IH.
  - destruct Hf as [Ht Hf]. simpl. destruct (decide (id0 = id)) as [->|Hne].
    + rewrite lookup_insert. split; eauto.
    + rewrite lookup_insert_ne by done. by apply IH.
  - destruct Hf as [Ht Hf]. unfold increase_counter; simpl.
    destruct (decide (id0 = id)) as [->|Hne].
    + rewrite lookup_insert. split; eauto.
    + rewrite lookup_insert_ne by done. by apply IH.
  - destruct Hf as [Ht Hf]. simpl. unfold at_or_insert.
    destruct (counts s !! id0) eqn:E; [by apply IH|].
    destruct (decide (id0 = id)) as [->|Hne].
    + rewrite lookup_insert. split; eauto.
    + rewrite lookup_insert_ne by done. by apply IH.
Qed.

Lemma finished_loop_spec tgt order :
  (∀ k c, (k, c) ∈ order → is_Some (tgt !! k)) →
  ∃ b, finished_loop tgt order = Ok b ∧
       (b = true ↔ ∀ k c t, (k, c) ∈ order → tgt !! k = Some t → t ≤ c).
Proof.
  induction order as [|[k c] order IH]; intros Hall; simpl.
  { exists true. split; [done|]. split; [|done]. intros _ k c t Hin. by apply elem_of_nil in Hin. }
  destruct (Hall k c) as [t Ht]; [by left|]. rewrite Ht.
  case_bool_decide as Hlt.
  - exists false. split; [done|]. split; [done|]. intros H.
    exfalso. specialize (H k c t). rewrite N.lt_nge in Hlt. apply Hlt, H; [by left|done].
  - destruct IH as (b & Hb & Hiff). { intros k' c' Hin. eapply Hall. by right. }
    exists b. split; [done|]. rewrite Hiff. split.
    + intros H k' c' t' Hin Ht'. apply elem_of_cons in Hin as [[= -> ->]|Hin].
      * rewrite Ht in Ht'. injection Ht' as <-. lia.
      * by eapply H.
    + intros H k' c' t' Hin Ht'. eapply H; [by right|done].
Qed.

Lemma subscript_lookup m k c : m !! k = Some c → subscript k m = c.
Proof. unfold subscript. by intros ->. Qed.

Lemma c02_finished_lemma h order :
  targets_first (rev h) →
  iteration_order (counts (run h)) order →
  ∃ b, finished_all (run h) order = Ok b ∧
       (b = true ↔ ∀ id t, user_target id (rev h) = Some t →
                           t ≤ wrap64 (successes id (rev h))).
Proof.
  intros Hf Hord. set (r := rev h) in *.
  assert (Hr : run h = run (rev r)) by (unfold r; by rewrite rev_involutive).
  rewrite Hr in Hord |- *. unfold finished_all.
  assert (Hin : ∀ k c, (k, c) ∈ order ↔ counts (run (rev r)) !! k = Some c).
  { intros k c. rewrite Hord. apply elem_of_map_to_list. }
  destruct (finished_loop_spec (targets (run (rev r))) order) as (b & Hb & Hiff).
  { intros k c Hkc. rewrite targets_user_target by done.
    apply counts_dom; [done|]. apply Hin in Hkc. eauto. }
  exists b. split; [done|]. rewrite Hiff. split.
  - intros H id t Ht. destruct (proj2 (counts_dom r Hf id)) as [c Hc]; [eauto|].
    rewrite <- count_is_successes. rewrite (subscript_lookup _ _ _ Hc).
    eapply H; [by apply Hin|]. by rewrite targets_user_target.
  - intros H k c t Hkc Ht. apply Hin in Hkc. rewrite targets_user_target in Ht by done.
    specialize (H k t Ht). rewrite <- count_is_successes in H.
    by rewrite (subscript_lookup _ _ _ Hkc) in H.
Qed.

Lemma c02_finished_id_lemma h id :
  targets_first (rev h) →
  finished_id id (run h) =
    match user_target id (rev h) with
    | None => Throw RuntimeError
    | Some t => Ok (bool_decide (t ≤ wrap64 (successes id (rev h))))
    end.
Proof.
  intros Hf. set (r := rev h) in *.
  assert (Hr : run h = run (rev r)) by (unfold r; by rewrite rev_involutive).
  rewrite Hr. unfold finished_id.
  pose proof (counts_dom r Hf id) as Hd.
  rewrite <- count_is_successes. unfold subscript.
  destruct (counts (run (rev r)) !! id) as [c|] eqn:Ec.
  - rewrite targets_user_target by done.
    destruct (user_target id r) as [t|] eqn:Et; [done|].
    destruct (proj1 Hd) as [? Hx]; [eauto|done].
  - destruct (user_target id r) as [t|] eqn:Et; [|done].
    destruct (proj2 Hd) as [? Hx]; [eauto|done].
Qed.

(** A status asked for the count of an id without target no longer answers finished(). *)
Definition c02_witness : list op := [SetTarget 1 0; GetCount 2].

Lemma c02_refuted_lemma :
  ∃ h id, (∀ order, iteration_order (counts (run h)) order →
                    finished_all (run h) order = Ok true) ∧
          (∀ order, iteration_order (counts (run (h ++ [GetCount id]))) order →
                    finished_all (run (h ++ [GetCount id])) order = Throw OutOfRange).
Proof.
  exists [SetTarget 1 0], 2. split; intros order Hord.
  - assert (Hp : order ≡ₚ [(1, 0)]) by exact Hord.
    symmetry in Hp. apply Permutation_singleton_l in Hp. subst. done.
  - assert (Hp : order ≡ₚ map_to_list (counts (run c02_witness))) by exact Hord.
    assert (Hcase : order = [(1,0);(2,0)] ∨ order = [(2,0);(1,0)]).
    { assert (Hm : map_to_list (counts (run c02_witness)) ≡ₚ [(1,0);(2,0)]).
      { vm_compute. first [reflexivity | apply Permutation_swap]. }
      rewrite Hm in Hp. symmetry in Hp.
      apply Permutation_length_2_inv in Hp. naive_solver. }
    destruct Hcase; subst; done.
Qed.

(** C03: the conversion through int keeps the sum modulo 2^32. *)
Lemma int_of_size_spec n :
  ((int_of_size n) mod 2^32 = Z.of_N n mod 2^32)%Z ∧ (- 2^31 ≤ int_of_size n < 2^31)%Z.
Proof.
  unfold int_of_size. rewrite N2Z.inj_mod. change (Z.of_N (2^32)) with (2^32)%Z.
  pose proof (Z.mod_pos_bound (Z.of_N n) (2^32)%Z ltac:(lia)) as Hb.
  case_bool_decide; (split; [|lia]).
  - by rewrite Z.mod_mod.
  - rewrite Zminus_mod, Z.mod_same, Z.sub_0_r, !Z.mod_mod by lia. done.
Qed.

Lemma int_of_size_unique n z :
  (z mod 2^32 = Z.of_N n mod 2^32)%Z → (- 2^31 ≤ z < 2^31)%Z → int_of_size n = z.
Proof.
  intros Hm Hz. destruct (int_of_size_spec n) as [Hm' Hz'].
  set (i := int_of_size n) in *. clearbody i.
  rewrite <- Hm' in Hm. clear Hm'.
  pose proof (Z.div_mod i (2^32) ltac:(lia)).
  pose proof (Z.div_mod z (2^32) ltac:(lia)). lia.
Qed.

Lemma sum_counts_perm l l' : l ≡ₚ l' → sum_counts l = sum_counts l'.
Proof.
  unfold sum_counts. induction 1; simpl; lia.
Qed.

Lemma size_of_int_mod z : (Z.of_N (size_of_int z) mod 2^32 = z mod 2^32)%Z.
Proof.
  unfold size_of_int.
  rewrite Z2N.id by (apply Z.mod_pos_bound; lia).
  change (2^64)%Z with (2^32 * 2^32)%Z.
  rewrite Z.rem_mul_r by lia.
  rewrite Z.add_mod, Z.mod_mod by lia.
  rewrite (Z.mul_comm (2^32)), Z.mod_mul, Z.add_0_r, Z.mod_mod by lia. done.
Qed.

Lemma wrap64_mod32 n : (Z.of_N (wrap64 n) mod 2^32 = Z.of_N n mod 2^32)%Z.
Proof.
  unfold wrap64. rewrite N2Z.inj_mod. change (Z.of_N (2^64)) with (2^32 * 2^32)%Z.
  rewrite Z.rem_mul_r by lia.
  rewrite Z.add_mod, Z.mod_mod by lia.
  rewrite (Z.mul_comm (2^32)), Z.mod_mul, Z.add_0_r, Z.mod_mod by lia. done.
Qed.

Lemma fold_int_spec l acc :
  (- 2^31 ≤ acc < 2^31)%Z →
  let res := fold_left (λ a kc, int_of_size (wrap64 (size_of_int a + kc.2))) l acc in
  (res mod 2^32 = (acc + Z.of_N (sum_counts l)) mod 2^32)%Z ∧ (- 2^31 ≤ res < 2^31)%Z.
Proof.
  revert acc. induction l as [|[k c] l IH]; intros acc Hacc.
  { simpl. by rewrite Z.add_0_r. }
  cbn [fold_left snd]. set (a' := int_of_size _).
  destruct (int_of_size_spec (wrap64 (size_of_int acc + c))) as [Hm Hb].
  fold a' in Hm, Hb. destruct (IH a' Hb) as [IHm IHb].
  split; [|done]. etransitivity; [exact IHm|].
  change (sum_counts ((k,c) :: l)) with (c + sum_counts l).
  rewrite <- (Zplus_mod_idemp_l a'), Hm, wrap64_mod32, Zplus_mod_idemp_l.
  rewrite N2Z.inj_add, <- Z.add_assoc.
  rewrite <- Zplus_mod_idemp_l, size_of_int_mod, Zplus_mod_idemp_l. f_equal. lia.
Qed.

Lemma get_count_all_spec l :
  get_count_all l = size_of_int (int_of_size (sum_counts l)).
Proof.
  unfold get_count_all. f_equal. symmetry. apply int_of_size_unique.
  - destruct (fold_int_spec l 0 ltac:(lia)) as [H _]. exact H.
  - destruct (fold_int_spec l 0 ltac:(lia)) as [_ H]. exact H.
Qed.

Lemma get_count_all_small l : sum_counts l < 2^31 → get_count_all l = sum_counts l.
Proof.
  intros Hs. rewrite get_count_all_spec.
  rewrite (int_of_size_unique _ (Z.of_N (sum_counts l))); [|done|lia].
  unfold size_of_int. rewrite Z.mod_small by lia. lia.
Qed.

(** Sum of getCount(id) over the ids that were ever used. *)
Definition total (ids : list N) (h : list op) : N :=
  foldr (λ id acc, wrap64 (successes id (rev h)) + acc) 0 ids.

Lemma total_perm ids ids' h : ids ≡ₚ ids' → total ids h = total ids' h.
Proof. unfold total. induction 1; simpl; lia. Qed.

Lemma total_app l1 l2 h : total (l1 ++ l2) h = total l1 h + total l2 h.
Proof. unfold total. induction l1 as [|x l1 IH]; simpl; [done|]. rewrite IH. lia. Qed.

Lemma total_zero l h : (∀ x, x ∈ l → wrap64 (successes x (rev h)) = 0) → total l h = 0.
Proof.
  induction l as [|x l IH]; intros H; [done|]. unfold total in *. simpl.
  rewrite IH by (intros y Hy; apply H; by right). rewrite H by (by left). done.
Qed.

Lemma sum_counts_total l h :
  (∀ k c, (k,c) ∈ l → counts (run h) !! k = Some c) →
  sum_counts l = total l.*1 h.
Proof.
  induction l as [|[k c] l IH]; intros Hall; [done|].
  unfold sum_counts, total in *. simpl. rewrite IH.
  - f_equal. rewrite <- c01_lemma. simpl. unfold subscript.
    by rewrite (Hall k c) by (by left).
  - intros k' c' Hin. apply Hall. by right.
Qed.

Lemma c03_lemma h order ids :
  iteration_order (counts (run h)) order →
  NoDup ids →
  (∀ id, wrap64 (successes id (rev h)) ≠ 0 → id ∈ ids) →
  total ids h < 2^31 →
  get_count_all order = total ids h.
Proof.
  intros Hord Hnd Hcov Hlt.
  assert (Hsum : sum_counts order = total ids h).
  { assert (Hin : ∀ k c, (k, c) ∈ order ↔ counts (run h) !! k = Some c).
    { intros k c. rewrite Hord. apply elem_of_map_to_list. }
    rewrite (sum_counts_total _ h) by (intros; by apply Hin).
    assert (Hndo : NoDup order.*1).
    { rewrite Hord. apply NoDup_fst_map_to_list. }
    assert (Hzero : ∀ x, x ∉ order.*1 → wrap64 (successes x (rev h)) = 0).
    { intros x Hx. rewrite <- c01_lemma. simpl. unfold subscript.
      destruct (counts (run h) !! x) as [c|] eqn:E; [|done]. exfalso. apply Hx.
      apply elem_of_list_fmap. exists (x, c). split; [done|]. by apply Hin. }
    generalize dependent (order.*1). intros ks Hnk Hz. clear -Hnd Hcov Hnk Hz.
    (* split both lists along membership in the other *)
    assert (H1 : ks ≡ₚ filter (λ x, x ∈ ids) ks ++ filter (λ x, ¬ x ∈ ids) ks).
    { symmetry. clear. induction ks as [|a ks IH]; [done|]. rewrite !filter_cons.
      destruct (decide (a ∈ ids)); destruct (decide (¬ a ∈ ids)); try tauto; simpl.
      - by rewrite IH.
      - rewrite <- Permutation_middle. by rewrite IH. }
    assert (H2 : ids ≡ₚ filter (λ x, x ∈ ks) ids ++ filter (λ x, ¬ x ∈ ks) ids).
    { symmetry. clear. induction ids as [|a ids IH]; [done|]. rewrite !filter_cons.
      destruct (decide (a ∈ ks)); destruct (decide (¬ a ∈ ks)); try tauto; simpl.
      - by rewrite IH.
      - rewrite <- Permutation_middle. by rewrite IH. }
    rewrite (total_perm _ _ _ H1), (total_perm _ _ _ H2), !total_app.
    rewrite (total_zero (filter (λ x, ¬ x ∈ ids) ks)).
    2:{ intros x Hx. apply elem_of_list_filter in Hx as [Hx _].
        destruct (decide (wrap64 (successes x (rev h)) = 0)) as [Hz0|Hne]; [done|].
        exfalso. by apply Hx, Hcov. }
    rewrite (total_zero (filter (λ x, ¬ x ∈ ks) ids)).
    2:{ intros x Hx. apply elem_of_list_filter in Hx as [Hx _]. by apply Hz. }
    f_equal. apply total_perm. apply NoDup_Permutation.
    - by apply NoDup_filter.
    - by apply NoDup_filter.
    - intros x. rewrite !elem_of_list_filter. tauto. }
  rewrite get_count_all_small; lia.
Qed.

Lemma sum_get_count_total ids h : sum_get_count ids (run h) = total ids h.
Proof.
  unfold sum_get_count, total. induction ids as [|x ids IH]; [done|].
  cbn [foldr]. by rewrite IH, c01_lemma.
Qed.

Lemma c03_get_count_lemma h order ids :
  iteration_order (counts (run h)) order →
  NoDup ids →
  (∀ id, snd (get_count id (run h)) ≠ 0 → id ∈ ids) →
  sum_get_count ids (run h) < 2^31 →
  get_count_all order = sum_get_count ids (run h).
Proof.
  intros Hord Hnd Hcov Hlt. rewrite sum_get_count_total in *.
  apply c03_lemma; try done.
  intros id Hid. apply Hcov. by rewrite c01_lemma.
Qed.

(** A sum of 2^31 comes back as a huge number. *)
Lemma c03_refuted_lemma :
  ∃ order : list (N * N), NoDup order.*1 ∧ (∀ k c, (k,c) ∈ order → c < 2^64) ∧
    sum_counts order = 2^31 ∧ get_count_all order = 2^64 - 2^31.
Proof.
  exists [(1, 2^30); (2, 2^30)]. split_and!.
  - repeat constructor; set_solver.
  - intros k c Hin. repeat (apply elem_of_cons in Hin as [[= -> ->]|Hin]; [done|]).
    by apply elem_of_nil in Hin.
  - done.
  - by vm_compute.
Qed.

(** ... and such counters are reached by calling increaseCounter often enough. *)
Lemma count_reachable id n : n < 2^64 → snd (get_count id (run (replicate (N.to_nat n) (Increase id)))) = n.
Proof.
  intros Hn. rewrite c01_lemma.
  assert (H : ∀ m, successes id (rev (replicate m (Increase id))) = N.of_nat m).
  { intros m. rewrite rev_alt.
    change (rev_append (replicate m (Increase id)) []) with (reverse (replicate m (Increase id))).
    rewrite reverse_replicate.
    induction m as [|m IH]; [done|]. cbn [replicate successes].
    rewrite bool_decide_eq_true_2 by done. rewrite IH. lia. }
  rewrite H. unfold wrap64. rewrite N2Nat.id. by rewrite N.mod_small.
Qed.

Lemma single_increase_counts id n :
  (0 < n)%nat → dom (counts (run (replicate n (Increase id)))) = {[ id ]}.
Proof.
  intros Hn. destruct n as [|n]; [lia|]. clear Hn. induction n as [|n IH].
  - unfold run. simpl. set_solver.
  - rewrite replicate_S_end, run_snoc. cbn [step increase_counter fst counts].
    rewrite dom_insert_L, IH. set_solver.
Qed.

Lemma c03_reachable_refuted_lemma :
  ∃ h order, iteration_order (counts (run h)) order ∧
    snd (get_count 1 (run h)) = 2^31 ∧
    (∀ id, id ≠ 1 → snd (get_count id (run h)) = 0) ∧
    get_count_all order = 2^64 - 2^31.
Proof.
  set (n := N.to_nat (2^31)).
  exists (replicate n (Increase 1)), (map_to_list (counts (run (replicate n (Increase 1))))).
  assert (H1 : snd (get_count 1 (run (replicate n (Increase 1)))) = 2^31)
    by (apply count_reachable; done).
  assert (Hd : dom (counts (run (replicate n (Increase 1)))) = {[ 1 ]}).
  { apply single_increase_counts. subst n. lia. }
  generalize dependent (run (replicate n (Increase 1))). intros s H1 Hd.
  assert (Hc : counts s = {[ 1 := 2^31 ]}).
  { apply map_eq. intros i. destruct (decide (i = 1)) as [->|Hne].
    - rewrite lookup_singleton. change (subscript 1 (counts s) = 2^31) in H1. unfold subscript in H1.
      destruct (counts s !! 1) eqn:E; [by f_equal|]. done.
    - rewrite lookup_singleton_ne by done. apply not_elem_of_dom. rewrite Hd. set_solver. }
  split_and!.
  - unfold iteration_order. done.
  - exact H1.
  - intros id Hid. simpl. unfold subscript. rewrite Hc. by rewrite lookup_singleton_ne.
  - rewrite Hc, map_to_list_singleton. by vm_compute.
Qed.

(** C04 *)
Lemma c04_reset_lemma h : run (h ++ [Reset]) = init.
Proof. by rewrite run_snoc. Qed.

Lemma c04_reset_counters_lemma h :
  let s := run (h ++ [ResetCounters]) in
  (∀ id, snd (get_count id s) = 0) ∧ targets s = targets (run h) ∧
  dom (counts s) = dom (counts (run h)).
Proof.
  rewrite run_snoc. simpl. split_and!; [|done|].
  - intros id. apply subscript_fmap_zero.
  - by rewrite dom_fmap_L.
Qed.

Lemma c04_refuted_lemma :
  ∃ h, rejected (run (h ++ [ResetCounters])) = 1 ∧
       rejections_since_counters_reset (rev (h ++ [ResetCounters])) = 0.
Proof. by exists [IncreaseRejected]. Qed.

Lemma c04_rejected_lemma h : rejected (run h) = wrap64 (rejections (rev h)).
Proof. rewrite <- rejected_is_rejections. by rewrite rev_involutive. Qed.

(** * C68: the warnings *)
Lemma target_default r id : subscript id (targets (run (rev r))) = default 0 (user_target id r).
Proof.
  induction r as [|o r IH]; [done|].
  rewrite run_rev_cons. set (s := run (rev r)) in *.
  destruct o; cbn [step user_target fst]; try exact IH; try done.
  - unfold set_target_count. destruct (counts s !! id0) eqn:E; simpl; rewrite subscript_insert;
      case_bool_decide; done.
  - simpl. rewrite subscript_at_or_insert. exact IH.
Qed.
Lemma c68_increase_lemma h id :
  (increase_counter id (run h)).2 =
    bool_decide (default 0 (user_target id (rev h)) < (successes id (rev h) + 1) mod 2^64).
Proof.
  unfold increase_counter. cbn [snd]. rewrite subscript_at_or_insert, <- target_default, rev_involutive.
  pose proof (count_is_successes (rev h) id) as E. rewrite rev_involutive in E. rewrite E, wrap64_add. done.
Qed.
Lemma c68_target_lemma h id t :
  (set_target_count id t (run h)).2 = bool_decide (t < successes id (rev h) mod 2^64).
Proof.
  pose proof (count_is_successes (rev h) id) as E. rewrite rev_involutive in E. unfold subscript in E.
  unfold set_target_count. destruct (counts (run h) !! id) as [c|]; cbn [snd].
  - by rewrite E.
  - fold (wrap64 (successes id (rev h))). rewrite <- E. symmetry. apply bool_decide_eq_false. lia.
Qed.
