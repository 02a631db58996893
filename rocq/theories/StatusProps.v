(** Properties C01-C05 and C68 (SamplingStatus). *)

From Coq Require Import Reals.
From stdpp Require Import prelude gmap.
From Verif Require Import Base StatusModel StatusSpec StatusPrintModel
  StatusProofs StatusPrintProofs.
Local Open Scope N_scope.

(** C01: getCount(id) = number of increaseCounter(id) since the last reset of id
    (in size_t arithmetic, i.e. modulo 2^64), for every history of calls. *)
Theorem c01_count_is_successes (h : list op) (id : N) :
  snd (get_count id (run h)) = successes id (rev h) mod 2^64.
Proof. exact (c01_lemma h id). Qed.
Print Assumptions c01_count_is_successes.

Example c01_case :
  let h := [SetTarget 1 3; Increase 1; Increase 2; ResetCounter 2; Increase 1; Finished; Increase 2] in
  snd (get_count 1 (run h)) = 2 ∧ snd (get_count 2 (run h)) = 1.
Proof. by vm_compute. Qed.

(** C01, frame: a call that neither targets [id] nor resets everything leaves its
    count alone. *)
Theorem c01_frame (h : list op) (o : op) (id : N) :
  mentions id o = false →
  snd (get_count id (step (run h) o)) = snd (get_count id (run h)).
Proof. exact (c01_frame_lemma h o id). Qed.
Print Assumptions c01_frame.

Example c01_frame_case : mentions 1 (Increase 2) = false ∧ mentions 1 (Increase 1) = true.
Proof. done. Qed.

(** C02: finished() answers (whatever the iteration order of the hash map) whether every
    id with a target has reached it, provided ids got their target before being used. *)
Theorem c02_finished_iff (h : list op) (order : list (N * N)) :
  targets_first (rev h) →
  iteration_order (counts (run h)) order →
  ∃ b, finished_all (run h) order = Ok b ∧
       (b = true ↔ ∀ id t, user_target id (rev h) = Some t →
                           t ≤ successes id (rev h) mod 2^64).
Proof. exact (c02_finished_lemma h order). Qed.
Print Assumptions c02_finished_iff.

Theorem c02_finished_id (h : list op) (id : N) :
  targets_first (rev h) →
  finished_id id (run h) =
    match user_target id (rev h) with
    | None => Throw RuntimeError
    | Some t => Ok (bool_decide (t ≤ successes id (rev h) mod 2^64))
    end.
Proof. exact (c02_finished_id_lemma h id). Qed.
Print Assumptions c02_finished_id.

Example c02_case :
  let h := [SetTarget 1 2; SetTarget 2 1; Increase 1; GetCount 2; Increase 2; ResetCounter 1; Increase 1] in
  targets_first (rev h) ∧ finished_id 2 (run h) = Ok true ∧ finished_id 1 (run h) = Ok false ∧
  finished_id 3 (run h) = Throw RuntimeError ∧
  finished_all (run h) (map_to_list (counts (run h))) = Ok false.
Proof. simpl. split_and!; eauto. Qed.

(** C02, last sentence ("querying never changes the answer") is false: asking for the
    count of an id that has no target makes finished() throw std::out_of_range. *)
Theorem c02_query_changes_finished_refuted :
  ∃ h id, (∀ order, iteration_order (counts (run h)) order →
                    finished_all (run h) order = Ok true) ∧
          (∀ order, iteration_order (counts (run (h ++ [GetCount id]))) order →
                    finished_all (run (h ++ [GetCount id])) order = Throw OutOfRange).
Proof. exact c02_refuted_lemma. Qed.
Print Assumptions c02_query_changes_finished_refuted.

(** C03 as far as it holds: below 2^31. *)
Theorem c03_total_count_partial (h : list op) (order : list (N * N)) (ids : list N) :
  iteration_order (counts (run h)) order →
  NoDup ids →
  (∀ id, snd (get_count id (run h)) ≠ 0 → id ∈ ids) →
  sum_get_count ids (run h) < 2^31 →
  get_count_all order = sum_get_count ids (run h).
Proof. exact (c03_get_count_lemma h order ids). Qed.
Print Assumptions c03_total_count_partial.

Example c03_case :
  let h := [Increase 1; Increase 2; Increase 2] in
  NoDup [1;2] ∧ sum_get_count [1;2] (run h) = 3 ∧
  get_count_all (map_to_list (counts (run h))) = 3.
Proof. simpl. split_and!; [|by vm_compute..]. repeat constructor; set_solver. Qed.

(** C03 in full is false: the accumulator is an int, so 2^31 entities are reported as
    2^64 - 2^31. *)
Theorem c03_total_count_refuted :
  ∃ h order, iteration_order (counts (run h)) order ∧
    snd (get_count 1 (run h)) = 2^31 ∧
    (∀ id, id ≠ 1 → snd (get_count id (run h)) = 0) ∧
    get_count_all order = 2^64 - 2^31.
Proof. exact c03_reachable_refuted_lemma. Qed.
Print Assumptions c03_total_count_refuted.

(** C04: reset() gives a newly constructed status. *)
Theorem c04_reset_is_fresh (h : list op) : run (h ++ [Reset]) = init.
Proof. exact (c04_reset_lemma h). Qed.
Print Assumptions c04_reset_is_fresh.

(** C04, second part as far as it holds: counters zero, ids and targets kept. *)
Theorem c04_reset_counters_partial (h : list op) :
  let s := run (h ++ [ResetCounters]) in
  (∀ id, snd (get_count id s) = 0) ∧ targets s = targets (run h) ∧
  dom (counts s) = dom (counts (run h)).
Proof. exact (c04_reset_counters_lemma h). Qed.
Print Assumptions c04_reset_counters_partial.

(** The rejected counter only counts from the last reset(). *)
Theorem c04_rejected_counter (h : list op) :
  rejected (run h) = rejections (rev h) mod 2^64.
Proof. exact (c04_rejected_lemma h). Qed.
Print Assumptions c04_rejected_counter.

Example c04_case :
  rejected (run [IncreaseRejected; IncreaseRejected; Increase 1]) = 2 ∧
  run [SetTarget 1 2; Increase 1; IncreaseRejected; Reset] = init.
Proof. done. Qed.

(** resetCounters() does not reset the counter of rejected samples. *)
Theorem c04_rejected_not_reset_refuted :
  ∃ h, rejected (run (h ++ [ResetCounters])) = 1 ∧
       rejections_since_counters_reset (rev (h ++ [ResetCounters])) = 0.
Proof. exact c04_refuted_lemma. Qed.
Print Assumptions c04_rejected_not_reset_refuted.

(** C05 as far as it holds: something was sampled, the targets are positive, at most 13
    digits, progress below 99900 %.  The first two columns then have a fixed width, the
    last two may be one character too wide. *)
Theorem c05_print_partial (rnd : R → R) (h : list op) (oc ot : list (N * N)) :
  ieee_like rnd →
  iteration_order (counts (run h)) oc → iteration_order (targets (run h)) ot →
  let accepted := sum_counts oc in
  let rej := rejections (rev h) in
  let target := sum_counts ot in
  0 < accepted + rej → 0 < target →
  accepted < 10^13 → rej < 10^13 →
  accepted ≤ 999 * target → target ≤ 9 * 10^10 →
  ∃ r, print rnd (run h) oc ot = Ok r ∧
    w_count r = 13 ∧ w_rejected r = 13 ∧
    16 ≤ w_ratio r ≤ 17 ∧ 8 ≤ w_progress r ≤ 9.
Proof. exact (c05_status_lemma rnd h oc ot). Qed.
Print Assumptions c05_print_partial.

(** binary64 round-to-nearest-even is such a rounding function. *)
Example c05_case : ieee_like rnd64.
Proof. exact rnd64_ieee. Qed.

(** Printing before the first sample divides 0 by 0 and converts NaN to int. *)
Theorem c05_print_fresh_refuted (rnd : R → R) :
  ∃ h, targets_first (rev h) ∧ (∃ t, user_target 1 (rev h) = Some t ∧ 0 < t) ∧
   ∀ oc ot,
    iteration_order (counts (run h)) oc → iteration_order (targets (run h)) ot →
    print rnd (run h) oc ot = UB.
Proof. exact (c05_ub_refuted_lemma rnd). Qed.
Print Assumptions c05_print_fresh_refuted.

(** A counter 1000 times its target: the padding wraps, std::string throws. *)
Theorem c05_print_throws_refuted (rnd : R → R) :
  ieee_like rnd →
  ∃ h, ∀ oc ot,
    iteration_order (counts (run h)) oc → iteration_order (targets (run h)) ot →
    print rnd (run h) oc ot = Throw LengthError.
Proof. exact (c05_length_refuted_lemma rnd). Qed.
Print Assumptions c05_print_throws_refuted.

(** 99999 accepted, 1 rejected: the ratio column is one character too wide. *)
Theorem c05_misaligned_refuted (rnd : R → R) :
  ieee_like rnd →
  ∃ r, print_row rnd 99999 1 100000 = Ok r ∧ w_ratio r = 17.
Proof. exact (c05_misaligned_lemma rnd). Qed.
Print Assumptions c05_misaligned_refuted.

(** C68: increaseCounter warns iff the count of the id then exceeds its target (0 if none
    was set), setTargetCount iff the count exceeds the new target. *)
Theorem c68_increase_warns (h : list op) (id : N) :
  (increase_counter id (run h)).2 =
    bool_decide (default 0 (user_target id (rev h)) < (successes id (rev h) + 1) mod 2^64).
Proof. exact (c68_increase_lemma h id). Qed.
Print Assumptions c68_increase_warns.

Theorem c68_target_warns (h : list op) (id t : N) :
  (set_target_count id t (run h)).2 = bool_decide (t < successes id (rev h) mod 2^64).
Proof. exact (c68_target_lemma h id t). Qed.
Print Assumptions c68_target_warns.

Example c68_case :
  let h := [SetTarget 1 2; Increase 1] in
  (increase_counter 1 (run h)).2 = false ∧ (increase_counter 1 (run (h ++ [Increase 1]))).2 = true ∧
  (set_target_count 1 0 (run h)).2 = true ∧ (set_target_count 1 1 (run h)).2 = false.
Proof. by vm_compute. Qed.
