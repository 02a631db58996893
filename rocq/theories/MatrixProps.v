(** C16-C19: constraints matrix and rejection sampling. *)

From stdpp Require Import prelude gmap list.
From Verif Require Import Base StatusModel EntitySetModel MatrixModel MatrixSpec MatrixProofs LoopProofs.

(** A sample world for the examples: entities are positions, the constraint is a minimum distance. *)
Definition apart (c x y : Z) : outcome bool := Ok (bool_decide (c ≤ Z.abs (x - y))%Z).

(** C16.  [h] is any history of addConstraints calls (also failing ones), [sets] the
    content of the entity sets. *)
Theorem c16_accepts_iff :
  ∀ (C E : Type) (ev : C → E → E → outcome bool) (h : list (mcall C))
    (sets : N → option (list E)) (e : E) (id : N),
    m_evaluate ev (mrun h) sets e id = Ok true ↔
    (∃ r, r ∈ relations_of h ∧ r_first r = id) ∧
    ∀ r es x, r ∈ relations_of h → r_first r = id → sets (r_second r) = Some es → x ∈ es →
              ev (r_con r) x e = Ok true.
Proof. exact @c16_true_lemma. Qed.
Print Assumptions c16_accepts_iff.

Theorem c16_rejects_iff :
  ∀ (C E : Type) (ev : C → E → E → outcome bool) (h : list (mcall C))
    (sets : N → option (list E)) (e : E) (id : N),
    (∀ r es x, r ∈ relations_of h → r_first r = id → sets (r_second r) = Some es → x ∈ es →
               ∃ b, ev (r_con r) x e = Ok b) →
    (m_evaluate ev (mrun h) sets e id = Ok false ↔
     ∃ r es x, r ∈ relations_of h ∧ r_first r = id ∧ sets (r_second r) = Some es ∧ x ∈ es ∧
               ev (r_con r) x e = Ok false).
Proof. exact @c16_false_lemma. Qed.
Print Assumptions c16_rejects_iff.

Theorem c16_throws_iff :
  ∀ (C E : Type) (ev : C → E → E → outcome bool) (h : list (mcall C))
    (sets : N → option (list E)) (e : E) (id : N),
    (∀ c x y, ev c x y ≠ Throw RuntimeError) →
    (m_evaluate ev (mrun h) sets e id = Throw RuntimeError ↔
     ¬ ∃ r, r ∈ relations_of h ∧ r_first r = id).
Proof. exact @c16_throw_lemma. Qed.
Print Assumptions c16_throws_iff.

Example c16_case :
  let h := [(3%Z, [(1, 1); (1, 2)]%N); (7%Z, [(2, 2)]%N); (1%Z, [(1, 2)]%N)] in
  let sets := λ id : N, match id with 1%N => Some [0; 20]%Z | 2%N => Some [10]%Z | _ => None end in
  relations_of h = [mkRel 1 1 3%Z; mkRel 1 2 3%Z; mkRel 2 2 7%Z] ∧
  m_evaluate apart (mrun h) sets 5%Z 1 = Ok true ∧
  m_evaluate apart (mrun h) sets 8%Z 1 = Ok false ∧
  m_evaluate apart (mrun h) sets 5%Z 2 = Ok false ∧
  m_evaluate apart (mrun h) sets 5%Z 3 = Throw RuntimeError.
Proof. by vm_compute. Qed.

(** C17 for the call with one pair: a failing call cannot be observed by any later
    evaluation or registration. *)
Theorem c17_failed_add_partial :
  ∀ (C E : Type) (ev : C → E → E → outcome bool) (h : list (mcall C)) (c : C) (p : N * N),
    fst (add_constraints c [p] (mrun h)) = Throw RuntimeError →
    (∀ h' sets e id,
       m_evaluate ev (mrun (h ++ [(c, [p])] ++ h')) sets e id = m_evaluate ev (mrun (h ++ h')) sets e id) ∧
    (∀ h' c' ps,
       fst (add_constraints c' ps (mrun (h ++ [(c, [p])] ++ h'))) =
       fst (add_constraints c' ps (mrun (h ++ h')))).
Proof. exact (λ C E ev h c p H, conj (c17_lemma ev h c p H) (c17_outcomes_lemma ev h c p H)). Qed.
Print Assumptions c17_failed_add_partial.

Example c17_case :
  fst (add_constraints 5%Z [(1, 2)%N] (mrun [(3%Z, [(1, 1); (1, 2)]%N)])) = Throw RuntimeError.
Proof. by vm_compute. Qed.

(** Which calls fail: those naming a pair that is known or named twice. *)
Theorem c17_outcome :
  ∀ (C : Type) (h : list (mcall C)) (c : C) (ps : list (N * N)),
    fst (add_constraints c ps (mrun h)) =
    (if register_fails c ps (relations_of h) then Throw RuntimeError else Ok tt).
Proof. exact (λ C, c17_outcome_lemma (λ (_ : C) (_ _ : unit), Ok true)). Qed.
Print Assumptions c17_outcome.

(** Finding: the call with a list of pairs registers the pairs before the failing one. *)
Theorem c17_list_refuted :
  ∃ (h : list (mcall Z)) c ps sets e id,
    fst (add_constraints c ps (mrun h)) = Throw RuntimeError ∧
    m_evaluate apart (mrun h) sets e id = Ok true ∧
    m_evaluate apart (mrun (h ++ [(c, ps)])) sets e id = Ok false.
Proof.
  by exists [(1%Z, [(1, 1)]%N)], 5%Z, [(1, 2); (1, 1)]%N,
    (λ id : N, match id with 2%N => Some [10]%Z | _ => None end), 8%Z, 1%N.
Qed.
Print Assumptions c17_list_refuted.

(** C18.  The generation loop with arbitrary draws, geometry checks and iteration order of
    the counter map.  If it ends, [log] lists the accepted draws: they are the content of the
    sets, their numbers are the targets, and each satisfies all relations of its set against the
    entities accepted before. *)
Theorem c18_loop :
  ∀ (C E : Type) (ev : C → E → E → outcome bool) (tyname : nat → N) (ntypes : nat)
    (ord : gmap N N → list (N * N)),
    (∀ m, ord m ≡ₚ map_to_list m) →
    ∀ (small domain : E → outcome bool) (hm : list (mcall C)) (ts : list (N * N)),
      NoDup ts.*1 → (∀ id t, (id, t) ∈ ts → (t < 2^64)%N) →
      ∀ (draws : list (draw E)) (st : status) (s : eset E),
        loop ev tyname ord small domain (mrun hm) draws (run (target_calls ts)) (es_init ntypes) = Done st s →
        ∃ used rest log,
          draws = used ++ rest ∧ log `sublist_of` used ∧
          (∀ id, sets_of s id = opt_list (of_id id log)) ∧
          (∀ id t, (id, t) ∈ ts → N.of_nat (length (of_id id log)) = t) ∧
          (∀ d, d ∈ log → d_id d ∈ ts.*1) ∧
          checked_in_order ev (relations_of hm) log ∧
          (∀ d, d ∈ log → small (d_geo d) = Ok false ∧ domain (d_geo d) = Ok true) ∧
          rejected st = (N.of_nat (length used - length log) mod 2^64)%N.
Proof. exact @c18_lemma. Qed.
Print Assumptions c18_loop.

(** ... and while it has not ended, no set holds more than requested and some set less. *)
Theorem c18_running :
  ∀ (C E : Type) (ev : C → E → E → outcome bool) (tyname : nat → N) (ntypes : nat)
    (ord : gmap N N → list (N * N)),
    (∀ m, ord m ≡ₚ map_to_list m) →
    ∀ (small domain : E → outcome bool) (hm : list (mcall C)) (ts : list (N * N)),
      NoDup ts.*1 → (∀ id t, (id, t) ∈ ts → (t < 2^64)%N) →
      ∀ (draws : list (draw E)) (st : status) (s : eset E),
        loop ev tyname ord small domain (mrun hm) draws (run (target_calls ts)) (es_init ntypes) = Running st s →
        ∃ log, log `sublist_of` draws ∧
          (∀ id, sets_of s id = opt_list (of_id id log)) ∧
          (∃ id t, (id, t) ∈ ts ∧ (N.of_nat (length (of_id id log)) < t)%N) ∧
          (∀ id t, (id, t) ∈ ts → (N.of_nat (length (of_id id log)) ≤ t)%N) ∧
          checked_in_order ev (relations_of hm) log.
Proof. exact @c18_running_lemma. Qed.
Print Assumptions c18_running.

(** Relations registered in both directions: every pair of entities of the two sets. *)
Theorem c18_pairs :
  ∀ (C E : Type) (ev : C → E → E → outcome bool) (tyname : nat → N) (ntypes : nat)
    (ord : gmap N N → list (N * N)) (small domain : E → outcome bool)
    (hm : list (mcall C)) (ts : list (N * N)) (draws : list (draw E)) (st : status) (s : eset E),
  (∀ m, ord m ≡ₚ map_to_list m) → NoDup ts.*1 → (∀ id t, (id, t) ∈ ts → (t < 2^64)%N) →
  loop ev tyname ord small domain (mrun hm) draws (run (target_calls ts)) (es_init ntypes) = Done st s →
  ∀ a b c es1 es2 x y,
    (∀ x y, ev c x y = Ok true → ev c y x = Ok true) →
    a ≠ b →
    mkRel a b c ∈ relations_of hm → mkRel b a c ∈ relations_of hm →
    sets_of s a = Some es1 → sets_of s b = Some es2 → x ∈ es1 → y ∈ es2 →
    ev c x y = Ok true.
Proof. exact @c18_pairs_lemma. Qed.
Print Assumptions c18_pairs.

(** A relation of a set with itself: every pair of entities of the set. *)
Theorem c18_same_set :
  ∀ (C E : Type) (ev : C → E → E → outcome bool) (tyname : nat → N) (ntypes : nat)
    (ord : gmap N N → list (N * N)) (small domain : E → outcome bool)
    (hm : list (mcall C)) (ts : list (N * N)) (draws : list (draw E)) (st : status) (s : eset E),
  (∀ m, ord m ≡ₚ map_to_list m) → NoDup ts.*1 → (∀ id t, (id, t) ∈ ts → (t < 2^64)%N) →
  loop ev tyname ord small domain (mrun hm) draws (run (target_calls ts)) (es_init ntypes) = Done st s →
  ∀ a c es i j x y,
    mkRel a a c ∈ relations_of hm →
    sets_of s a = Some es → es !! i = Some x → es !! j = Some y → i < j →
    ev c x y = Ok true.
Proof. exact @c18_same_set_lemma. Qed.
Print Assumptions c18_same_set.

(** The set-up of the example application in one dimension: two sets, targets 2 and 1. *)
Example c18_case :
  ∃ st s,
  loop apart N.of_nat (λ m, map_to_list m) (λ e, Ok (bool_decide (e < 0)%Z)) (λ e, Ok (bool_decide (e ≤ 100)%Z))
    (mrun [(3%Z, [(1, 1)]%N); (7%Z, [(2, 2)]%N); (5%Z, [(1, 2); (2, 1)]%N)])
    [mkDraw 1 0 10%Z; mkDraw 2 1 12%Z; mkDraw 1 0 (-4)%Z; mkDraw 1 0 11%Z; mkDraw 2 1 110%Z;
     mkDraw 2 1 20%Z; mkDraw 2 1 50%Z; mkDraw 1 0 14%Z; mkDraw 1 0 70%Z]
    (run (target_calls [(1, 2); (2, 1)]%N)) (es_init 2) = Done st s ∧
  sets_of s 1 = Some [10; 14]%Z ∧ sets_of s 2 = Some [20]%Z ∧ rejected st = 5%N.
Proof. eexists _, _. split; [vm_compute; reflexivity|]. by vm_compute. Qed.

(** C19 as far as it holds: an entity of the first set is checked against the entities of
    the second set that are present.  Missing: entities of the second set added later. *)
Theorem c19_one_direction_partial :
  ∀ (C E : Type) (ev : C → E → E → outcome bool) (tyname : nat → N) (ntypes : nat)
    (ord : gmap N N → list (N * N)) (small domain : E → outcome bool)
    (hm : list (mcall C)) (ts : list (N * N)) (draws : list (draw E)) (st : status) (s : eset E),
  (∀ m, ord m ≡ₚ map_to_list m) → NoDup ts.*1 → (∀ id t, (id, t) ∈ ts → (t < 2^64)%N) →
  loop ev tyname ord small domain (mrun hm) draws (run (target_calls ts)) (es_init ntypes) = Done st s →
  ∃ log, log `sublist_of` draws ∧
    (∀ id, sets_of s id = opt_list (of_id id log)) ∧
    ∀ a b c i j d d',
      mkRel a b c ∈ relations_of hm →
      log !! i = Some d → log !! j = Some d' → d_id d = b → d_id d' = a → i < j →
      ev c (d_geo d) (d_geo d') = Ok true.
Proof. exact @c19_lemma. Qed.
Print Assumptions c19_one_direction_partial.
Example c19_case : ∃ st s,
  mkRel 1%N 2%N 5%Z ∈ relations_of [(5%Z, [(1, 2)]%N); (1%Z, [(2, 2)]%N)] ∧
  loop apart N.of_nat (λ m, map_to_list m) (λ _, Ok false) (λ _, Ok true) (mrun [(5%Z, [(1, 2)]%N); (1%Z, [(2, 2)]%N)])
    [mkDraw 2 0 0%Z; mkDraw 1 0 1%Z; mkDraw 1 0 7%Z] (run (target_calls [(1, 1); (2, 1)]%N)) (es_init 1) = Done st s ∧
  sets_of s 1 = Some [7]%Z ∧ sets_of s 2 = Some [0]%Z.
Proof. eexists _, _. split; [vm_compute; left|]. split; [vm_compute; reflexivity|]. by vm_compute. Qed.

(** Finding: entities of the second set that come later are not checked. *)
Theorem c19_one_direction_refuted :
  ∃ (hm : list (mcall Z)) (a b : N) (c : Z) (draws : list (draw Z)) st s es1 es2 x y,
    mkRel a b c ∈ relations_of hm ∧
    loop apart N.of_nat (λ m, map_to_list m) (λ _, Ok false) (λ _, Ok true) (mrun hm) draws
      (run (target_calls [(a, 1%N); (b, 1%N)])) (es_init 1) = Done st s ∧
    sets_of s a = Some es1 ∧ sets_of s b = Some es2 ∧ x ∈ es1 ∧ y ∈ es2 ∧
    apart c x y = Ok false ∧ apart c y x = Ok false.
Proof.
  eexists [(5%Z, [(1, 2)]%N); (1%Z, [(2, 2)]%N)], 1%N, 2%N, 5%Z, [mkDraw 1 0 0%Z; mkDraw 2 0 1%Z], _, _, [0%Z], [1%Z], 0%Z, 1%Z.
  split; [vm_compute; left|]. split; [vm_compute; reflexivity|].
  split; [by vm_compute|]. split; [by vm_compute|]. split; [left|]. split; [left|]. by vm_compute.
Qed.
Print Assumptions c19_one_direction_refuted.
