(** Proofs about strategies and the multi geometry sampler. *)

From stdpp Require Import prelude list.
From Verif Require Import Base StrategyModel StrategySpec.

(** * Sequential strategy *)

Lemma run_snoc_ids h o : seq_run (h ++ [o]) = sstep seq_next (seq_run h) o.
Proof. unfold seq_run. by rewrite fold_left_app. Qed.

Lemma registered_snoc h o :
  registered (h ++ [o]) =
    match o with
    | AddId id => if bool_decide (id ∈ registered h) then registered h else registered h ++ [id]
    | _ => registered h
    end.
Proof. unfold registered. rewrite fold_left_app. by destruct o. Qed.

Lemma get_next_ids {S} (nx : next_fun S) s : ids (snd (get_next nx s)) = ids s.
Proof. unfold get_next. by destruct (nx (ids s) (priv s)). Qed.

Lemma seq_ids h : ids (seq_run h) = registered h.
Proof.
  induction h as [|o h IH] using rev_ind; [done|].
  rewrite run_snoc_ids, registered_snoc. destruct o; cbn [sstep].
  - unfold add_id, has_id. rewrite IH. by case_bool_decide.
  - done.
  - by rewrite get_next_ids.
Qed.

Lemma registered_NoDup h : NoDup (registered h).
Proof.
  induction h as [|o h IH] using rev_ind; [constructor|].
  rewrite registered_snoc. destruct o; try done. case_bool_decide; [done|].
  apply NoDup_app. split_and!; [done| |apply NoDup_singleton].
  intros x Hx Hx'. apply elem_of_list_singleton in Hx'. by subst.
Qed.

Lemma registered_iff h id : id ∈ registered h ↔ AddId id ∈ h.
Proof.
  induction h as [|o h IH] using rev_ind; [split; intros H; by apply elem_of_nil in H|].
  rewrite registered_snoc, elem_of_app, elem_of_list_singleton.
  destruct o as [i|i|]; cbn.
  - case_bool_decide as Hi.
    + rewrite IH. split; [by left|]. intros [H|[= ->]]; [done|]. by apply IH.
    + rewrite elem_of_app, elem_of_list_singleton, IH. naive_solver.
  - rewrite IH. naive_solver.
  - rewrite IH. naive_solver.
Qed.

(** The index stays within the list. *)
Lemma seq_index h : ids (seq_run h) = [] ∧ priv (seq_run h) = 0 ∨
                    priv (seq_run h) < length (ids (seq_run h)).
Proof.
  induction h as [|o h IH] using rev_ind; [by left|].
  rewrite run_snoc_ids. set (s := seq_run h) in *.
  destruct o; cbn [sstep].
  - unfold add_id, has_id. case_bool_decide; [done|]. right. simpl.
    rewrite app_length. simpl. destruct IH as [[? ->]|?]; lia.
  - done.
  - unfold get_next, seq_next. case_bool_decide as Hn.
    + simpl. destruct IH as [?|Hlt]; [by left|]. rewrite Hn in Hlt. simpl in Hlt. lia.
    + destruct IH as [[? ?]|Hlt]; [done|].
      destruct (lookup_lt_is_Some_2 _ _ Hlt) as [x Hx]. rewrite Hx. simpl. right.
      case_bool_decide; lia.
Qed.

Lemma c07_lemma h :
  ids (seq_run h) = registered h ∧ NoDup (registered h) ∧
  (∀ id, id ∈ registered h ↔ AddId id ∈ h) ∧
  match fst (get_next seq_next (seq_run h)) with
  | Ok id => id ∈ registered h
  | Throw e => e = RuntimeError ∧ registered h = []
  | _ => False
  end.
Proof.
  split_and!; [apply seq_ids|apply registered_NoDup|intros; apply registered_iff|].
  unfold get_next, seq_next. pose proof (seq_index h) as Hi. rewrite seq_ids in *.
  case_bool_decide as Hn; [by rewrite Hn|].
  destruct Hi as [[? ?]|Hlt]; [done|].
  destruct (lookup_lt_is_Some_2 _ _ Hlt) as [x Hx]. rewrite Hx. simpl.
  by eapply elem_of_list_lookup_2.
Qed.

(** Consecutive draws of a well-formed sequential strategy walk around the list. *)
Definition succ_idx (n c : nat) : nat := if bool_decide (c = n - 1) then 0 else S c.

Lemma seq_get_next l c x :
  l !! c = Some x →
  get_next seq_next (mkStrategy l c) = (Ok x, mkStrategy l (succ_idx (length l) c)).
Proof.
  intros Hx. unfold get_next, seq_next. simpl. case_bool_decide; [by subst|]. by rewrite Hx.
Qed.

Lemma draws_suffix l c k :
  c + k ≤ length l → c < length l →
  draws seq_next k (mkStrategy l c) =
    (Ok <$> take k (drop c l),
     mkStrategy l (if bool_decide (c + k = length l) then 0 else c + k)).
Proof.
  revert c. induction k as [|k IH]; intros c Hk Hc.
  - simpl. rewrite Nat.add_0_r. rewrite bool_decide_eq_false_2 by lia. done.
  - destruct (lookup_lt_is_Some_2 _ _ Hc) as [x Hx].
    cbn [draws]. rewrite (seq_get_next _ _ _ Hx).
    rewrite (drop_S _ _ _ Hx). cbn [take fmap list_fmap].
    unfold succ_idx. case_bool_decide as Hl.
    + assert (k = 0) as -> by lia. simpl. rewrite bool_decide_eq_true_2 by lia. done.
    + rewrite IH by lia. f_equal.
      replace (S c + k) with (c + S k) by lia. done.
Qed.

(** One full round: the list rotated to the current position. *)
Lemma draws_round l c :
  c < length l →
  draws seq_next (length l) (mkStrategy l c) = (Ok <$> (drop c l ++ take c l), mkStrategy l c).
Proof.
  intros Hc.
  assert (Hsplit : ∀ a b s, draws seq_next (a + b) s =
            (fst (draws seq_next a s) ++ fst (draws seq_next b (snd (draws seq_next a s))),
             snd (draws seq_next b (snd (draws seq_next a s))))).
  { clear. intros a. induction a as [|a IH]; intros b s.
    - simpl. by destruct (draws seq_next b s).
    - cbn [draws Nat.add]. destruct (get_next seq_next s) as [r s1] eqn:Eg.
      rewrite IH. destruct (draws seq_next a s1) as [rs s2] eqn:Ea. simpl.
      by destruct (draws seq_next b s2). }
  replace (length l) with ((length l - c) + c) at 1 by lia.
  rewrite Hsplit. rewrite (draws_suffix l c (length l - c)) by lia. simpl.
  rewrite bool_decide_eq_true_2 by lia.
  rewrite (draws_suffix l 0 c) by lia. simpl.
  rewrite take_ge by (rewrite drop_length; lia). rewrite drop_0, fmap_app.
  f_equal. f_equal. case_bool_decide; lia.
Qed.

Lemma draws_app {S} (nx : next_fun S) a b s :
  draws nx (a + b) s =
    (fst (draws nx a s) ++ fst (draws nx b (snd (draws nx a s))),
     snd (draws nx b (snd (draws nx a s)))).
Proof.
  revert b s. induction a as [|a IH]; intros b s.
  - simpl. by destruct (draws nx b s).
  - cbn [draws Nat.add]. destruct (get_next nx s) as [r s1] eqn:Eg.
    rewrite IH. destruct (draws nx a s1) as [rs s2] eqn:Ea. simpl.
    by destruct (draws nx b s2).
Qed.

Lemma times_app id l1 l2 : times id (l1 ++ l2) = times id l1 + times id l2.
Proof. induction l1 as [|[i|e| |] l1 IH]; simpl; rewrite ?IH; lia. Qed.

Lemma times_perm id l1 l2 : l1 ≡ₚ l2 → times id l1 = times id l2.
Proof.
  induction 1 as [|x l1 l2 _ IH|x y l|]; simpl; try lia.
  - destruct x; lia.
  - destruct x, y; lia.
Qed.

Lemma times_NoDup id l : NoDup l → times id (Ok <$> l) = if bool_decide (id ∈ l) then 1 else 0.
Proof.
  induction 1 as [|x l Hx Hnd IH]; [done|].
  cbn [fmap list_fmap times]. fold (Ok <$> l). rewrite IH. clear IH.
  repeat case_bool_decide; subst; try set_solver; lia.
Qed.

Lemma round_perm (l : list N) c : drop c l ++ take c l ≡ₚ l.
Proof. rewrite Permutation_app_comm, take_drop. done. Qed.

Lemma c06_round_lemma h :
  registered h ≠ [] →
  fst (draws seq_next (length (registered h)) (seq_run h)) ≡ₚ Ok <$> registered h.
Proof.
  intros Hne. pose proof (seq_index h) as Hi. pose proof (seq_ids h) as Hids.
  destruct (seq_run h) as [l c]. simpl in *. subst l.
  destruct Hi as [[? ?]|Hc]; [done|].
  rewrite draws_round by done. simpl. by rewrite round_perm.
Qed.

Lemma times_prefix_le id (l : list N) r : NoDup l → times id (Ok <$> take r l) ≤ 1.
Proof.
  intros Hnd. rewrite times_NoDup.
  - case_bool_decide; lia.
  - rewrite <- (take_drop r l) in Hnd. by apply NoDup_app in Hnd as [? _].
Qed.

Lemma draws_prefix_of_round l c r :
  c < length l → r ≤ length l →
  fst (draws seq_next r (mkStrategy l c)) = Ok <$> take r (drop c l ++ take c l).
Proof.
  intros Hc Hr.
  pose proof (draws_app seq_next r (length l - r) (mkStrategy l c)) as Happ.
  replace (r + (length l - r)) with (length l) in Happ by lia.
  rewrite draws_round in Happ by done.
  apply (f_equal fst) in Happ. simpl in Happ.
  assert (Hlen : length (fst (draws seq_next r (mkStrategy l c))) = r).
  { clear. generalize (mkStrategy l c). induction r as [|r IH]; intros s; [done|].
    cbn [draws]. destruct (get_next seq_next s) as [x s1]. specialize (IH s1).
    destruct (draws seq_next r s1) as [rs s2]. simpl in *. by rewrite IH. }
  rewrite fmap_take, Happ. by rewrite take_app_alt.
Qed.

Lemma draws_counts l c m id :
  NoDup l → c < length l → id ∈ l →
  m / length l ≤ times id (fst (draws seq_next m (mkStrategy l c))) ≤ m / length l + 1.
Proof.
  intros Hnd Hc Hid. set (n := length l) in *.
  assert (Hq : ∀ q, times id (fst (draws seq_next (q * n) (mkStrategy l c))) = q ∧
                    snd (draws seq_next (q * n) (mkStrategy l c)) = mkStrategy l c).
  { induction q as [|q [IH1 IH2]]; [done|].
    replace (S q * n) with (n + q * n) by lia. rewrite draws_app.
    rewrite (draws_round l c Hc : draws seq_next n _ = _). simpl.
    rewrite times_app, IH1, IH2. split; [|done].
    rewrite (times_perm _ (Ok <$> (drop c l ++ take c l)) (Ok <$> l)) by (by rewrite round_perm).
    rewrite times_NoDup by done. by rewrite bool_decide_eq_true_2. }
  pose proof (Nat.div_mod m n ltac:(lia)) as Hm.
  pose proof (Nat.mod_upper_bound m n ltac:(lia)) as Hr.
  set (q := m / n) in *. set (r := m mod n) in *.
  replace m with (q * n + r) by lia. rewrite draws_app. destruct (Hq q) as [Hq1 Hq2].
  cbn [fst snd]. rewrite times_app, Hq1, Hq2.
  rewrite draws_prefix_of_round by (unfold n in *; lia).
  assert (Hle : times id (Ok <$> take r (drop c l ++ take c l)) ≤ 1); [|lia].
  apply times_prefix_le. by rewrite round_perm.
Qed.

Lemma c06_fair_lemma h m id1 id2 :
  id1 ∈ registered h → id2 ∈ registered h →
  let rs := fst (draws seq_next m (seq_run h)) in
  times id1 rs ≤ times id2 rs + 1.
Proof.
  intros H1 H2. pose proof (seq_index h) as Hi. pose proof (seq_ids h) as Hids.
  pose proof (registered_NoDup h) as Hnd.
  destruct (seq_run h) as [l c]. simpl in *. subst l.
  destruct Hi as [[Hn ?]|Hc]; [by rewrite Hn in H1; apply elem_of_nil in H1|].
  pose proof (draws_counts _ c m id1 Hnd Hc H1).
  pose proof (draws_counts _ c m id2 Hnd Hc H2). lia.
Qed.

Lemma draws_all_ok h m :
  registered h ≠ [] →
  Forall (λ r, ∃ id, r = Ok id ∧ id ∈ registered h) (fst (draws seq_next m (seq_run h))).
Proof.
  intros Hne.
  assert (Hgen : ∀ k h', registered h' = registered h →
     Forall (λ r, ∃ id, r = Ok id ∧ id ∈ registered h) (fst (draws seq_next k (seq_run h')))).
  { induction k as [|k IH]; intros h' Hh'; [constructor|].
    cbn [draws]. destruct (get_next seq_next (seq_run h')) as [r s1] eqn:Eg.
    assert (Hs1 : s1 = seq_run (h' ++ [Next])) by (rewrite run_snoc_ids; cbn [sstep]; by rewrite Eg).
    specialize (IH (h' ++ [Next])). rewrite registered_snoc in IH. specialize (IH Hh').
    rewrite <- Hs1 in IH. destruct (draws seq_next k s1) as [rs s2]. simpl in *.
    constructor; [|done].
    destruct (c07_lemma h') as (_ & _ & _ & Hc). rewrite Eg in Hc. simpl in Hc. rewrite Hh' in Hc.
    destruct r; try done; [eauto|]. destruct Hc as [_ Hc]. done. }
  by apply Hgen.
Qed.

(** * Multi geometry sampler *)

Section Multi.
Context {Smp S : Type} (nx : next_fun S).
Implicit Types (m : multi Smp S) (h : list (mop Smp S)).

Lemma mrun_snoc m h o : mrun nx m (h ++ [o]) = mstep nx (mrun nx m h) o.
Proof. unfold mrun. by rewrite fold_left_app. Qed.

Lemma find_in_type_elem id (l : list (Smp * N)) x : find_in_type id l = Some x → (x, id) ∈ l.
Proof.
  induction l as [|[y i] l IH]; simpl; [done|]. case_bool_decide.
  - intros [= ->]. subst. by left.
  - intros H'. right. by apply IH.
Qed.

Lemma find_in_type_None id (l : list (Smp * N)) : find_in_type id l = None → ∀ x, (x, id) ∉ l.
Proof.
  induction l as [|[y i] l IH]; simpl; intros H x Hx; [by apply elem_of_nil in Hx|].
  case_bool_decide; [done|]. apply elem_of_cons in Hx as [[= -> ->]|Hx]; [done|]. by eapply IH.
Qed.

Lemma find_sampler_elem id (ls : list (list (Smp * N))) ty x :
  find_sampler id ls = Some (ty, x) → ∃ l, ls !! ty = Some l ∧ (x, id) ∈ l.
Proof.
  revert ty. induction ls as [|l ls IH]; intros ty Hf; [done|]. cbn [find_sampler] in Hf.
  destruct (find_in_type id l) as [y|] eqn:E.
  - injection Hf as <- <-. exists l. split; [done|]. by apply find_in_type_elem.
  - destruct (find_sampler id ls) as [[ty' y]|]; [|done]. injection Hf as <- <-.
    destruct (IH ty' eq_refl) as (l' & Hl' & Hin). by exists l'.
Qed.

Lemma find_sampler_None id (ls : list (list (Smp * N))) :
  find_sampler id ls = None ↔ ∀ l x, l ∈ ls → (x, id) ∉ l.
Proof.
  induction ls as [|l ls IH].
  { split; [|done]. intros _ l x Hl. by apply elem_of_nil in Hl. }
  cbn [find_sampler]. destruct (find_in_type id l) as [y|] eqn:E.
  - split; [done|]. intros H. exfalso. apply (H l y); [by left|]. by apply find_in_type_elem.
  - assert (Hl : ∀ x, (x, id) ∉ l).
    { by apply find_in_type_None. }
    destruct (find_sampler id ls) as [[ty x]|].
    + split; [done|]. intros H. exfalso. assert (Hx : Some (ty, x) = None); [|done].
      apply IH. intros l' x' Hl'. apply H. by right.
    + split; [|done]. intros _ l' x' Hl'. apply elem_of_cons in Hl' as [->|Hl']; [by apply Hl|].
      by apply IH.
Qed.

(** Any drawn sampler was registered under the reported id -- whatever strategy. *)
Lemma draw_registered_gen m0 h :
  (∀ l, l ∈ samplers m0 → l = []) →
  ∀ id ty x, fst (draw nx (mrun nx m0 h)) = Ok (id, ty, x) → AddSampler ty x id ∈ h.
Proof.
  intros H0.
  assert (Hinv : ∀ ty l x id, samplers (mrun nx m0 h) !! ty = Some l → (x, id) ∈ l →
                              AddSampler ty x id ∈ h).
  { induction h as [|o h IH] using rev_ind; intros ty l x id Hl Hin.
    - exfalso. rewrite (H0 l) in Hin by (by eapply elem_of_list_lookup_2). by apply elem_of_nil in Hin.
    - rewrite mrun_snoc in Hl. apply elem_of_app. destruct o as [st|ty' x' id'|]; cbn [mstep] in Hl.
      + left. by eapply IH.
      + unfold add_sampler in Hl. destruct (has_id id' _).
        * left. by eapply IH.
        * cbn [snd samplers] in Hl. destruct (decide (ty' = ty)) as [->|Hne].
          -- rewrite list_lookup_alter in Hl. apply fmap_Some in Hl as (l0 & Hl0 & ->).
             apply elem_of_app in Hin as [Hin|Hin]; [left; by eapply IH|].
             apply elem_of_list_singleton in Hin. injection Hin as <- <-. right. by left.
          -- rewrite list_lookup_alter_ne in Hl by done. left. by eapply IH.
      + left. unfold draw in Hl. destruct (get_next nx _) as [r st].
        assert (Hs : samplers (mrun nx m0 h) !! ty = Some l).
        { destruct r; try destruct (find_sampler _ _) as [[??]|]; done. }
        by eapply IH. }
  intros id ty x Hd. unfold draw in Hd. destruct (get_next nx _) as [[i|e| |] st]; try done.
  destruct (find_sampler i _) as [[ty' x']|] eqn:Ef; [|done]. injection Hd as <- <- <-.
  apply find_sampler_elem in Ef as (l & Hl & Hin). by eapply Hinv.
Qed.

Lemma add_dup_lemma m ty x id :
  id ∈ ids (strat m) → add_sampler ty x id m = (Throw RuntimeError, m).
Proof. intros H. unfold add_sampler, has_id. by rewrite bool_decide_eq_true_2. Qed.

(** Invariant of samplers whose strategy was never replaced. *)
Definition minv (ntypes : nat) h m : Prop :=
  length (samplers m) = ntypes ∧
  NoDup (ids (strat m)) ∧
  (∀ id, id ∈ ids (strat m) ↔ is_Some (sampler_of id h)) ∧
  (∀ id, find_sampler id (samplers m) = sampler_of id h).

Lemma find_in_type_app id l y i :
  find_in_type id (l ++ [(y, i)] : list (Smp * N)) =
    match find_in_type id l with
    | Some x => Some x
    | None => if bool_decide (i = id) then Some y else None
    end.
Proof.
  induction l as [|[a b] l IH]; simpl; [done|]. destruct (bool_decide (b = id)); [done|exact IH].
Qed.

Lemma find_sampler_alter id (ls : list (list (Smp * N))) ty y i :
  ty < length ls → find_sampler i ls = None →
  find_sampler id (alter (λ l, l ++ [(y, i)]) ty ls) =
    if bool_decide (i = id) then Some (ty, y) else find_sampler id ls.
Proof.
  revert ty. induction ls as [|l ls IH]; intros ty Hty Hno; [simpl in Hty; lia|].
  cbn [find_sampler] in Hno. destruct (find_in_type i l) eqn:El; [done|].
  assert (Hno' : find_sampler i ls = None) by (by destruct (find_sampler i ls) as [[??]|]).
  destruct ty as [|ty].
  - change (alter (λ l, l ++ [(y,i)]) 0 (l :: ls)) with ((l ++ [(y,i)]) :: ls).
    cbn [find_sampler]. rewrite find_in_type_app. case_bool_decide as Hi.
    + subst. by rewrite El.
    + by destruct (find_in_type id l).
  - change (alter (λ l, l ++ [(y,i)]) (Datatypes.S ty) (l :: ls)) with (l :: alter (λ l, l ++ [(y,i)]) ty ls).
    cbn [find_sampler]. rewrite IH; [|simpl in Hty; lia|done].
    case_bool_decide as Hi; [|done]. subst. by rewrite El.
Qed.

Lemma sampler_of_snoc id h o :
  sampler_of id (h ++ [o]) =
    match sampler_of id h with
    | Some r => Some r
    | None => match o with
              | AddSampler ty x i => if bool_decide (i = id) then Some (ty, x) else None
              | _ => None
              end
    end.
Proof.
  induction h as [|o' h IH]; simpl.
  - destruct o; done.
  - destruct o'; try exact IH. case_bool_decide; [done|exact IH].
Qed.

Lemma minv_run ntypes st h :
  ids st = [] → Forall (plain ntypes) h → minv ntypes h (mrun nx (multi_init ntypes st) h).
Proof.
  intros Hst. induction h as [|o h IH] using rev_ind; intros Hp.
  - unfold minv. simpl. rewrite Hst. split_and!.
    + apply replicate_length.
    + constructor.
    + intros id. split; [intros H; by apply elem_of_nil in H|by intros [? ?]].
    + intros id. apply find_sampler_None. intros l x Hl.
      apply elem_of_replicate in Hl as [-> _]. apply not_elem_of_nil.
  - apply Forall_app in Hp as [Hp Ho]. rewrite Forall_singleton in Ho.
    specialize (IH Hp). rewrite mrun_snoc. revert IH. generalize (mrun nx (multi_init ntypes st) h). intros m IH.
    destruct IH as (Hlen & Hnd & Hids & Hfind).
    destruct o as [st'|ty x i|]; [destruct Ho| |].
    + simpl in Ho. cbn [mstep]. unfold add_sampler, has_id.
      case_bool_decide as Hin.
      * apply Hids in Hin as [r Hr].
        assert (Hsame : ∀ id, sampler_of id (h ++ [AddSampler ty x i]) = sampler_of id h).
        { intros id. rewrite sampler_of_snoc. destruct (sampler_of id h) eqn:E; [done|].
          case_bool_decide; [|done]. congruence. }
        unfold minv. simpl. split_and!; try done; intros id; rewrite Hsame; auto.
      * assert (Hno : sampler_of i h = None).
        { destruct (sampler_of i h) eqn:E; [|done]. exfalso. apply Hin, Hids. eauto. }
        assert (Hstep : ∀ id, sampler_of id (h ++ [AddSampler ty x i]) =
                        if bool_decide (i = id) then Some (ty, x) else sampler_of id h).
        { intros id. rewrite sampler_of_snoc. case_bool_decide; subst.
          - by rewrite Hno.
          - by destruct (sampler_of id h). }
        unfold minv. cbn [snd samplers strat]. unfold add_id, has_id.
        rewrite bool_decide_eq_false_2 by done. cbn [ids]. split_and!.
        -- by rewrite alter_length.
        -- apply NoDup_app. split_and!; [done| |apply NoDup_singleton].
           intros z Hz Hz'. apply elem_of_list_singleton in Hz'. by subst.
        -- intros id. rewrite elem_of_app, elem_of_list_singleton, Hids, Hstep.
           case_bool_decide as Hi; subst.
           ++ split; eauto.
           ++ split; [|by left]. intros [?|?]; congruence || done.
        -- intros id. rewrite find_sampler_alter; [|lia|by rewrite Hfind].
           rewrite Hstep. case_bool_decide; [done|]. apply Hfind.
    + assert (Hsame : ∀ id, sampler_of id (h ++ [Draw]) = sampler_of id h).
      { intros id. rewrite sampler_of_snoc. by destruct (sampler_of id h). }
      cbn [mstep]. unfold draw. pose proof (get_next_ids nx (strat m)) as Hgi.
      destruct (get_next nx (strat m)) as [r st'] eqn:Eg. simpl in Hgi.
      assert (Hm' : snd (match r with
                | Ok id => match find_sampler id (samplers m) with
                  | Some (ty, x) => (Ok (id, ty, x), mkMulti (samplers m) st')
                  | None => (Throw RuntimeError, mkMulti (samplers m) st') end
                | Throw e => (Throw e, mkMulti (samplers m) st')
                | UB => (UB, mkMulti (samplers m) st')
                | Diverge => (Diverge, mkMulti (samplers m) st') end) = mkMulti (samplers m) st').
      { destruct r; try done. by destruct (find_sampler _ _) as [[??]|]. }
      rewrite Hm'. unfold minv. simpl. rewrite Hgi.
      split_and!; try done; intros id; rewrite Hsame; auto.
Qed.

End Multi.

(** C08 for the default (sequential) strategy. *)
Lemma c08_draw_lemma {Smp} ntypes (h : list (mop Smp nat)) :
  Forall (plain ntypes) h →
  let m := mrun seq_next (multi_init ntypes seq_init) h in
  match fst (draw seq_next m) with
  | Ok (id, ty, x) => sampler_of id h = Some (ty, x)
  | Throw e => e = RuntimeError ∧ ∀ id, sampler_of id h = None
  | _ => False
  end.
Proof.
  intros Hp m.
  destruct (minv_run seq_next ntypes seq_init h eq_refl Hp) as (Hlen & Hnd & Hids & Hfind).
  fold m in Hlen, Hnd, Hids, Hfind.
  (* the strategy inside is a reachable sequential strategy *)
  assert (Hreach : ids (strat m) = [] ∧ priv (strat m) = 0 ∨ priv (strat m) < length (ids (strat m))).
  { clear Hlen Hnd Hids Hfind. unfold m. clear m. induction h as [|o h IH] using rev_ind; [by left|].
    apply Forall_app in Hp as [Hp Ho]. rewrite Forall_singleton in Ho. specialize (IH Hp).
    rewrite mrun_snoc. set (m := mrun _ _ h) in *. destruct o as [|ty x i|]; [destruct Ho| |]; cbn [mstep].
    - unfold add_sampler. destruct (has_id i (strat m)) eqn:Eh; [done|]. cbn [snd strat].
      unfold add_id. rewrite Eh. simpl. right. rewrite app_length. simpl.
      destruct IH as [[? ->]|?]; lia.
    - unfold draw. destruct (get_next seq_next (strat m)) as [r st] eqn:Eg.
      assert (Hst : ids st = [] ∧ priv st = 0 ∨ priv st < length (ids st)).
      { unfold get_next, seq_next in Eg. case_bool_decide as Hn.
        - injection Eg as <- <-. simpl. destruct IH as [?|Hlt]; [by left|].
          rewrite Hn in Hlt. simpl in Hlt. lia.
        - destruct IH as [[? ?]|Hlt]; [done|].
          destruct (lookup_lt_is_Some_2 _ _ Hlt) as [y Hy]. rewrite Hy in Eg.
          injection Eg as <- <-. simpl. right. case_bool_decide; lia. }
      destruct r; try done. by destruct (find_sampler _ _) as [[??]|]. }
  unfold draw, get_next, seq_next. case_bool_decide as Hn.
  - simpl. split; [done|]. intros id. destruct (sampler_of id h) eqn:E; [|done].
    assert (Hin : id ∈ ids (strat m)) by (apply Hids; eauto). rewrite Hn in Hin.
    by apply elem_of_nil in Hin.
  - destruct Hreach as [[? ?]|Hlt]; [done|].
    destruct (lookup_lt_is_Some_2 _ _ Hlt) as [id Hid]. rewrite Hid.
    assert (Hin : id ∈ ids (strat m)) by (by eapply elem_of_list_lookup_2).
    apply Hids in Hin as [[ty x] Hx]. rewrite Hfind, Hx. simpl. done.
Qed.

Lemma c08_duplicate_lemma {Smp} ntypes (h : list (mop Smp nat)) ty x id :
  Forall (plain ntypes) h →
  let m := mrun seq_next (multi_init ntypes seq_init) h in
  is_Some (sampler_of id h) →
  add_sampler ty x id m = (Throw RuntimeError, m).
Proof.
  intros Hp m Hs.
  destruct (minv_run seq_next ntypes seq_init h eq_refl Hp) as (_ & _ & Hids & _).
  apply add_dup_lemma. by apply Hids.
Qed.

Lemma c08_fresh_lemma {Smp} ntypes (h : list (mop Smp nat)) ty x id :
  Forall (plain ntypes) h →
  let m := mrun seq_next (multi_init ntypes seq_init) h in
  sampler_of id h = None →
  fst (add_sampler ty x id m) = Ok tt.
Proof.
  intros Hp m Hs.
  destruct (minv_run seq_next ntypes seq_init h eq_refl Hp) as (_ & _ & Hids & _).
  unfold add_sampler, has_id. rewrite bool_decide_eq_false_2; [done|].
  intros Hin. apply Hids in Hin as [? Hx]. congruence.
Qed.

(** C09 *)
Lemma c09_lost_refuted_lemma :
  ∃ h : list (mop N nat), Forall (λ o, match o with SetStrategy st => st = seq_init | _ => True end) h ∧
    let m := mrun seq_next (multi_init 1 seq_init) h in
    sampler_of 7%N h = Some (0, 70%N) ∧ fst (draw seq_next m) = Throw RuntimeError.
Proof.
  exists [AddSampler 0 70%N 7%N; SetStrategy seq_init]. split; [|done].
  repeat constructor.
Qed.

Lemma c09_shadow_refuted_lemma :
  ∃ h : list (mop N nat),
    let m := mrun seq_next (multi_init 1 seq_init) h in
    (* the second registration under id 7 is accepted ... *)
    fst (add_sampler 0 71%N 7%N m) = Ok tt ∧
    (* ... but never used *)
    fst (draw seq_next (snd (add_sampler 0 71%N 7%N m))) = Ok (7%N, 0, 70%N).
Proof. by exists [AddSampler 0 70%N 7%N; SetStrategy seq_init]. Qed.

(** Replacing the strategy by one that holds exactly the registered ids. *)
Lemma c09_keep_lemma {Smp} ntypes (h : list (mop Smp nat)) l c :
  Forall (plain ntypes) h →
  (∀ id, id ∈ l ↔ is_Some (sampler_of id h)) → c < length l →
  let m := set_strategy (mkStrategy l c) (mrun seq_next (multi_init ntypes seq_init) h) in
  (∃ id ty x, fst (draw seq_next m) = Ok (id, ty, x) ∧ sampler_of id h = Some (ty, x)) ∧
  (∀ ty x id, is_Some (sampler_of id h) → add_sampler ty x id m = (Throw RuntimeError, m)).
Proof.
  intros Hp Hl Hc m.
  destruct (minv_run seq_next ntypes seq_init h eq_refl Hp) as (_ & _ & _ & Hfind).
  split.
  - destruct (lookup_lt_is_Some_2 _ _ Hc) as [id Hid].
    assert (Hin : id ∈ l) by (by eapply elem_of_list_lookup_2).
    apply Hl in Hin as [[ty x] Hx]. exists id, ty, x. split; [|done].
    unfold draw, m, set_strategy. cbn [strat samplers].
    rewrite (seq_get_next _ _ _ Hid). rewrite Hfind, Hx. done.
  - intros ty x id Hs. apply add_dup_lemma. simpl. by apply Hl.
Qed.
