(** Properties C06-C09 (sampling strategies, multi geometry sampler). *)

From stdpp Require Import prelude list.
From Verif Require Import Base StrategyModel StrategySpec StrategyProofs.

(** C06: after any history of calls, as many draws as there are ids return every
    registered id exactly once (the results are a permutation of the ids). *)
Theorem c06_round (h : list sop) :
  registered h ≠ [] →
  fst (draws seq_next (length (registered h)) (seq_run h)) ≡ₚ Ok <$> registered h.
Proof. exact (c06_round_lemma h). Qed.
Print Assumptions c06_round.

(** C06: over any number [m] of consecutive draws two ids are drawn equally often up to
    one draw. *)
Theorem c06_fair (h : list sop) (m : nat) (id1 id2 : N) :
  id1 ∈ registered h → id2 ∈ registered h →
  let rs := fst (draws seq_next m (seq_run h)) in
  times id1 rs ≤ times id2 rs + 1.
Proof. exact (c06_fair_lemma h m id1 id2). Qed.
Print Assumptions c06_fair.

Example c06_case :
  let h := [AddId 4; AddId 9; Next; AddId 4; AddId 2; Next] in
  registered h = [4; 9; 2]%N ∧
  fst (draws seq_next 5 (seq_run h)) = [Ok 2; Ok 4; Ok 9; Ok 2; Ok 4]%N.
Proof. done. Qed.

(** C07: ids are stored once and in order; getNextId() throws iff nothing is registered,
    otherwise returns a registered id (and never runs out of bounds). *)
Theorem c07_strategy_ids (h : list sop) :
  ids (seq_run h) = registered h ∧ NoDup (registered h) ∧
  (∀ id, id ∈ registered h ↔ AddId id ∈ h) ∧
  match fst (get_next seq_next (seq_run h)) with
  | Ok id => id ∈ registered h
  | Throw e => e = RuntimeError ∧ registered h = []
  | _ => False
  end.
Proof. exact (c07_lemma h). Qed.
Print Assumptions c07_strategy_ids.

(** C07 for whole runs of draws. *)
Theorem c07_draws (h : list sop) (m : nat) :
  registered h ≠ [] →
  Forall (λ r, ∃ id, r = Ok id ∧ id ∈ registered h) (fst (draws seq_next m (seq_run h))).
Proof. exact (draws_all_ok h m). Qed.
Print Assumptions c07_draws.

Example c07_case :
  registered [AddId 1; Next; AddId 1; AddId 3] = [1; 3]%N ∧
  fst (get_next seq_next (seq_run [Next; Next])) = Throw RuntimeError.
Proof. done. Qed.

(** C08: with the default strategy a draw reports the id of the sampler that produced the
    geometry, and fails only if no sampler was added. *)
Theorem c08_draw {Smp} (ntypes : nat) (h : list (mop Smp nat)) :
  Forall (plain ntypes) h →
  let m := mrun seq_next (multi_init ntypes seq_init) h in
  match fst (draw seq_next m) with
  | Ok (id, ty, x) => sampler_of id h = Some (ty, x)
  | Throw e => e = RuntimeError ∧ ∀ id, sampler_of id h = None
  | _ => False
  end.
Proof. exact (c08_draw_lemma ntypes h). Qed.
Print Assumptions c08_draw.

Theorem c08_duplicate_rejected {Smp} (ntypes : nat) (h : list (mop Smp nat)) ty (x : Smp) id :
  Forall (plain ntypes) h →
  let m := mrun seq_next (multi_init ntypes seq_init) h in
  is_Some (sampler_of id h) →
  add_sampler ty x id m = (Throw RuntimeError, m).
Proof. exact (c08_duplicate_lemma ntypes h ty x id). Qed.
Print Assumptions c08_duplicate_rejected.

Theorem c08_new_id_accepted {Smp} (ntypes : nat) (h : list (mop Smp nat)) ty (x : Smp) id :
  Forall (plain ntypes) h →
  let m := mrun seq_next (multi_init ntypes seq_init) h in
  sampler_of id h = None →
  fst (add_sampler ty x id m) = Ok tt.
Proof. exact (c08_fresh_lemma ntypes h ty x id). Qed.
Print Assumptions c08_new_id_accepted.

(** C08 for arbitrary user-defined strategies, including replaced ones: a successful draw
    always comes from a sampler that was added under the reported id. *)
Theorem c08_any_strategy {Smp S} (nx : next_fun S) (m0 : multi Smp S) (h : list (mop Smp S)) :
  (∀ l, l ∈ samplers m0 → l = []) →
  ∀ id ty x, fst (draw nx (mrun nx m0 h)) = Ok (id, ty, x) → AddSampler ty x id ∈ h.
Proof. exact (draw_registered_gen nx m0 h). Qed.
Print Assumptions c08_any_strategy.

Example c08_case :
  let h := [AddSampler 1 10%N 5%N; AddSampler 0 20%N 6%N; Draw; AddSampler 0 30%N 5%N] in
  Forall (plain 2) h ∧
  fst (draw seq_next (mrun seq_next (multi_init 2 seq_init) h)) = Ok (6%N, 0, 20%N) ∧
  fst (draw seq_next (mrun seq_next (multi_init 2 seq_init) (h ++ [Draw]))) = Ok (5%N, 1, 10%N).
Proof. split; [repeat constructor; simpl; lia|done]. Qed.

(** C09 as far as it holds: the new strategy must already contain the registered ids. *)
Theorem c09_replace_strategy_partial {Smp} (ntypes : nat) (h : list (mop Smp nat)) (l : list N) (c : nat) :
  Forall (plain ntypes) h →
  (∀ id, id ∈ l ↔ is_Some (sampler_of id h)) → c < length l →
  let m := set_strategy (mkStrategy l c) (mrun seq_next (multi_init ntypes seq_init) h) in
  (∃ id ty x, fst (draw seq_next m) = Ok (id, ty, x) ∧ sampler_of id h = Some (ty, x)) ∧
  (∀ ty x id, is_Some (sampler_of id h) → add_sampler ty x id m = (Throw RuntimeError, m)).
Proof. exact (c09_keep_lemma ntypes h l c). Qed.
Print Assumptions c09_replace_strategy_partial.

Example c09_case :
  let h : list (mop N nat) := [AddSampler 0 70%N 7%N; AddSampler 0 80%N 8%N] in
  Forall (plain 1) h ∧ (∀ id, id ∈ [8; 7]%N ↔ is_Some (sampler_of id h)).
Proof.
  split; [repeat constructor; simpl; lia|]. intros id. rewrite !elem_of_cons. simpl.
  split.
  - intros [->|[->|Hid]]; simpl; eauto. by apply elem_of_nil in Hid.
  - repeat case_bool_decide; subst; eauto. by intros [? ?].
Qed.

(** A fresh strategy forgets the registered samplers ... *)
Theorem c09_strategy_loses_ids_refuted :
  ∃ h : list (mop N nat), Forall (λ o, match o with SetStrategy st => st = seq_init | _ => True end) h ∧
    let m := mrun seq_next (multi_init 1 seq_init) h in
    sampler_of 7%N h = Some (0, 70%N) ∧ fst (draw seq_next m) = Throw RuntimeError.
Proof. exact c09_lost_refuted_lemma. Qed.
Print Assumptions c09_strategy_loses_ids_refuted.

(** ... and lets a second sampler be registered under a taken id, which is never used. *)
Theorem c09_duplicate_id_refuted :
  ∃ h : list (mop N nat),
    let m := mrun seq_next (multi_init 1 seq_init) h in
    fst (add_sampler 0 71%N 7%N m) = Ok tt ∧
    fst (draw seq_next (snd (add_sampler 0 71%N 7%N m))) = Ok (7%N, 0, 70%N).
Proof. exact c09_shadow_refuted_lemma. Qed.
Print Assumptions c09_duplicate_id_refuted.
