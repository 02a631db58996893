(** Properties C86-C89 (the example programs).  [ord] is the order in which the hash map of
    the sampling status is traversed, [s1], [s2], ... are the streams of sampled entities. *)

From Coq Require Import Reals.
From stdpp Require Import prelude gmap list.
From Verif Require Import Base NumModel VecModel StatusModel ConstraintsModel ConstraintsSpec
  BuilderModel BuilderSpec BuilderExamples
  AppModel AppSpec AppNetSpec AppProofs AppEvalProofs AppTunnelProofs AppTunnelEvalProofs AppNetProofs AppExamples.

(** C86: the two sets are made of entities the samplers delivered, in the order of delivery;
    every entity satisfies the constraints with respect to all entities accepted before, and
    the other tests; the candidates that were not accepted are counted as rejected. *)
Theorem c86_accepted {C E} (ev : C → E → E → outcome bool) ord (Hord : ∀ m, ord m ≡ₚ map_to_list m)
    (p : plan C E) (Hids : p_id1 p ≠ p_id2 p) (Ht1 : (p_target1 p < 2^64)%N) (Ht2 : (p_target2 p < 2^64)%N)
    s1 s2 passes x :
  reached (alt_run ev ord p s1 s2 passes) x →
  ∃ log ds1 ds2,
    a_set1 x = of_set true log ∧ a_set2 x = of_set false log ∧
    delivers s1 ds1 ∧ delivers s2 ds2 ∧ a_set1 x `sublist_of` ds1 ∧ a_set2 x `sublist_of` ds2 ∧
    checked ev p log ∧ tested p log ∧
    length ds1 + length ds2 ≤ passes ∧
    rejected (a_status x) = (N.of_nat (length ds1 + length ds2 - length log) mod 2^64)%N.
Proof. exact (c86_lemma ev ord Hord p Hids Ht1 Ht2 s1 s2 passes x). Qed.
Print Assumptions c86_accepted.

(** C86: hence all pairs satisfy the constraints. *)
Theorem c86_pairs {C E} (ev : C → E → E → outcome bool) ord (Hord : ∀ m, ord m ≡ₚ map_to_list m)
    (p : plan C E) (Hids : p_id1 p ≠ p_id2 p) (Ht1 : (p_target1 p < 2^64)%N) (Ht2 : (p_target2 p < 2^64)%N)
    s1 s2 passes x :
  reached (alt_run ev ord p s1 s2 passes) x →
  pairwise (λ y z, ev (p_self1 p) y z = Ok true) (a_set1 x) ∧
  pairwise (λ y z, ev (p_self2 p) y z = Ok true) (a_set2 x) ∧
  crosswise (λ y z, ev (p_other p) y z = Ok true) (a_set1 x) (a_set2 x).
Proof. exact (c86_pairs_lemma ev ord Hord p Hids Ht1 Ht2 s1 s2 passes x). Qed.
Print Assumptions c86_pairs.

(** C86: the sizes of the sets when the loop has ended.  With [p_skip] (example 3) the targets
    are met; without (examples 1 and 2) the sets are filled in turns, and both targets are met
    only if they are equal. *)
Theorem c86_sizes {C E} (ev : C → E → E → outcome bool) ord (Hord : ∀ m, ord m ≡ₚ map_to_list m)
    (p : plan C E) (Hids : p_id1 p ≠ p_id2 p) (Ht1 : (p_target1 p < 2^64)%N) (Ht2 : (p_target2 p < 2^64)%N)
    s1 s2 passes x :
  alt_run ev ord p s1 s2 passes = AltDone x →
  (N.of_nat (length (a_set1 x)), N.of_nat (length (a_set2 x))) =
    if p_skip p then (p_target1 p, p_target2 p)
    else if bool_decide (p_target1 p ≤ p_target2 p)%N then (p_target2 p, p_target2 p)
    else (p_target1 p, p_target1 p - 1)%N.
Proof. exact (c86_sizes_lemma ev ord Hord p Hids Ht1 Ht2 s1 s2 passes x). Qed.
Print Assumptions c86_sizes.

(** C86: while the loop runs, no set exceeds its target, or the sets are balanced. *)
Theorem c86_running {C E} (ev : C → E → E → outcome bool) ord (Hord : ∀ m, ord m ≡ₚ map_to_list m)
    (p : plan C E) (Hids : p_id1 p ≠ p_id2 p) (Ht1 : (p_target1 p < 2^64)%N) (Ht2 : (p_target2 p < 2^64)%N)
    s1 s2 passes x :
  reached (alt_run ev ord p s1 s2 passes) x →
  let n1 := N.of_nat (length (a_set1 x)) in
  let n2 := N.of_nat (length (a_set2 x)) in
  if p_skip p then (n1 ≤ p_target1 p ∧ n2 ≤ p_target2 p)%N else (n2 ≤ n1 ≤ n2 + 1)%N.
Proof. exact (c86_running_lemma ev ord Hord p Hids Ht1 Ht2 s1 s2 passes x). Qed.
Print Assumptions c86_running.

(** C86: entities of the two sets are accepted in turns; with [p_skip], two entities in a row
    are of the same set only if the other set is complete. *)
Theorem c86_turns {C E} (ev : C → E → E → outcome bool) ord (Hord : ∀ m, ord m ≡ₚ map_to_list m)
    (p : plan C E) (Hids : p_id1 p ≠ p_id2 p) (Ht1 : (p_target1 p < 2^64)%N) (Ht2 : (p_target2 p < 2^64)%N)
    s1 s2 passes x :
  reached (alt_run ev ord p s1 s2 passes) x →
  ∃ log, a_set1 x = of_set true log ∧ a_set2 x = of_set false log ∧ checked ev p log ∧
    (p_skip p = false → ∀ i b e, log !! i = Some (b, e) → b = Nat.even i) ∧
    (∀ l1 b e e' l2, log = l1 ++ (b, e) :: (b, e') :: l2 →
       N.of_nat (length (of_set (negb b) l1)) = (if b then p_target2 p else p_target1 p)).
Proof. exact (c86_turns_lemma ev ord Hord p Hids Ht1 Ht2 s1 s2 passes x). Qed.
Print Assumptions c86_turns.

(** C86: the loop fails only if a sampler, a test or a constraint does. *)
Theorem c86_fails {C E} (ev : C → E → E → outcome bool) ord (Hord : ∀ m, ord m ≡ₚ map_to_list m)
    (p : plan C E) (Hids : p_id1 p ≠ p_id2 p) (Ht1 : (p_target1 p < 2^64)%N) (Ht2 : (p_target2 p < 2^64)%N)
    s1 s2 passes o :
  alt_run ev ord p s1 s2 passes = AltFailed o → somewhere ev p s1 s2 o.
Proof. exact (c86_fails_lemma ev ord Hord p Hids Ht1 Ht2 s1 s2 passes o). Qed.
Print Assumptions c86_fails.

(** C86: it ends without rejections if the first entities of the samplers are compatible. *)
Theorem c86_compatible {C E} (ev : C → E → E → outcome bool) ord (Hord : ∀ m, ord m ≡ₚ map_to_list m)
    (p : plan C E) (Hids : p_id1 p ≠ p_id2 p) (Ht1 : (p_target1 p < 2^64)%N) (Ht2 : (p_target2 p < 2^64)%N)
    s1 s2 passes :
  all_compatible ev p s1 s2 → p_skip p = false → p_target1 p = p_target2 p →
  (2 * p_target1 p ≤ N.of_nat passes)%N →
  ∃ x, alt_run ev ord p s1 s2 passes = AltDone x ∧
       delivers s1 (a_set1 x) ∧ delivers s2 (a_set2 x) ∧ rejected (a_status x) = 0%N.
Proof. exact (c86_compatible_lemma ev ord Hord p Hids Ht1 Ht2 s1 s2 passes). Qed.
Print Assumptions c86_compatible.

(** Points on a line, in turns: 4 of set 1 and 3 of set 2 are there when both targets (4 and
    1) are met; with [p_skip], set 2 is left alone after the first. *)
Example c86_case :
  (match alt_run line_ev line_ord (line_plan false 4 1) line_s1 line_s2 100 with
   | AltDone x => Some (a_set1 x, a_set2 x, rejected (a_status x))
   | _ => None
   end) = Some ([0; 14; 28; 42], [8; 22; 36], 6)%N ∧
  (match alt_run line_ev line_ord (line_plan true 4 1) line_s1 line_s2 100 with
   | AltDone x => Some (a_set1 x, a_set2 x, rejected (a_status x))
   | _ => None
   end) = Some ([0; 14; 28; 42], [8], 6)%N ∧
  (match alt_run line_ev line_ord (line_plan false 4 4) (λ _, Throw RuntimeError) line_s2 100 with
   | AltFailed (Throw RuntimeError) => true | _ => false end) = true.
Proof. vm_compute. done. Qed.
Example c86_compatible_case :
  all_compatible line_ev (line_plan false 4 4) (λ i, Ok (20 * i)%N) (λ i, Ok (20 * i + 5)%N) ∧
  line_ev 10 (20 * 1) (20 * 1) = Ok false.
Proof. exact (conj line_compatible eq_refl). Qed.

(** C86, example 1. *)
Theorem c86_example1 {G Pt Arc Ell Edge Face} (A : answers R G Pt Arc Ell Edge Face)
    ord (Hord : ∀ m, ord m ≡ₚ map_to_list m) s1 s2 passes x :
  alt_run (evaluate nltb (λ x y : R, nleb y x) (kernel_of A)) ord ex1_plan s1 s2 passes = AltDone x →
  length (a_set1 x) = 15 ∧ length (a_set2 x) = 15 ∧
  pairwise (keeps Rlt A (1/20)%R (30 * PI / 180)%R (1/20)%R (1/20)%R) (a_set1 x) ∧
  pairwise (keeps Rlt A (1/20)%R (30 * PI / 180)%R (1/20)%R (1/20)%R) (a_set2 x) ∧
  crosswise (keeps Rlt A (1/20)%R (40 * PI / 180)%R (1/20)%R (1/20)%R) (a_set1 x) (a_set2 x).
Proof. exact (ex1_lemma A ord Hord s1 s2 passes x). Qed.
Print Assumptions c86_example1.

(** C86, example 2 ([top], [bottom], [lateral]: the faces of the cylinder, [contained]: the
    area of the part in the cylinder). *)
Theorem c86_example2 {G Pt Arc Ell Edge Face} (A : answers R G Pt Arc Ell Edge Face)
    ord (Hord : ∀ m, ord m ≡ₚ map_to_list m) s1 s2 passes top bottom lateral contained target x :
  (target < 2^64)%N →
  alt_run (evaluate nltb (λ x y : R, nleb y x) (kernel_of A)) ord
    (ex2_plan (kernel_of A) top bottom lateral contained target) s1 s2 passes = AltDone x →
  N.of_nat (length (a_set1 x)) = target ∧ N.of_nat (length (a_set2 x)) = target ∧
  pairwise (keeps Rlt A (1/20)%R (30 * PI / 180)%R (1/20)%R (1/20)%R) (a_set1 x) ∧
  pairwise (keeps Rlt A (1/20)%R (30 * PI / 180)%R (1/20)%R (1/20)%R) (a_set2 x) ∧
  crosswise (keeps Rlt A (1/20)%R (40 * PI / 180)%R (1/20)%R (1/20)%R) (a_set1 x) (a_set2 x) ∧
  ∀ e, e ∈ a_set1 x ++ a_set2 x →
    (∀ f, f ∈ [top; bottom; lateral] →
       keeps Rlt A (1/20)%R (30 * PI / 180)%R (1/20)%R (1/20)%R f e) ∧
    ∃ a, contained e = Ok a ∧ (1/100 <= a)%R.
Proof. exact (ex2_lemma A ord Hord s1 s2 passes top bottom lateral contained target x). Qed.
Print Assumptions c86_example2.

(** C86, example 3 (Python; [boundary]: the faces of the layer). *)
Theorem c86_example3 {G Pt Arc Ell Edge Face} (A : answers R G Pt Arc Ell Edge Face)
    ord (Hord : ∀ m, ord m ≡ₚ map_to_list m) s1 s2 passes boundary contained x :
  alt_run (evaluate nltb (λ x y : R, nleb y x) (kernel_of A)) ord
    (ex3_plan (kernel_of A) boundary contained) s1 s2 passes = AltDone x →
  length (a_set1 x) = 12 ∧ length (a_set2 x) = 16 ∧
  pairwise (keeps Rlt A (5/2)%R (25 * PI / 180)%R 5%R (5/2)%R) (a_set1 x) ∧
  pairwise (keeps Rlt A 5%R (25 * PI / 180)%R 5%R (5/2)%R) (a_set2 x) ∧
  crosswise (keeps Rlt A (5/2)%R (40 * PI / 180)%R 5%R (5/2)%R) (a_set1 x) (a_set2 x) ∧
  ∀ e, e ∈ a_set1 x ++ a_set2 x →
    (∀ f, f ∈ boundary → keeps Rlt A (5/2)%R (15 * PI / 180)%R 5%R (5/2)%R f e) ∧
    ∃ a, contained e = Ok a ∧ (350 <= a)%R.
Proof. exact (ex3_lemma A ord Hord s1 s2 passes boundary contained x). Qed.
Print Assumptions c86_example3.

(** The three loops end, e.g. if all entities are far away from each other. *)
Example c86_examples_end :
  (∃ x, alt_run far_eval line_ord ex1_plan (λ _, Ok true) (λ _, Ok false) 30 = AltDone x) ∧
  (∃ x, alt_run far_eval line_ord (ex2_plan (kernel_of far) true false true (λ _, Ok 1%R) 12)
          (λ _, Ok true) (λ _, Ok false) 24 = AltDone x) ∧
  (∃ x, alt_run far_eval line_ord (ex3_plan (kernel_of far) [true; false] (λ _, Ok 400%R))
          (λ _, Ok true) (λ _, Ok false) 40 = AltDone x).
Proof. split; [exact ex1_done|]. split; [exact ex2_done|exact ex3_done]. Qed.

(** C86: in example 2, the lengths in the direction of the strike of the second set are to be
    distributed uniformly "between 0.5 and 0.1", for which std::uniform_real_distribution is
    not defined; those in the direction of the dip are fine. *)
Theorem c86_strike_length_refuted :
  ex2_strike_length2 (A := R) = UB ∧ ex2_dip_length2 (A := R) = Ok (2/5, 3/5)%R.
Proof. exact ex2_lengths_lemma. Qed.
Print Assumptions c86_strike_length_refuted.

(** C87, step 1: candidates are drawn until the set is complete; the part of a candidate in
    the domain is taken exactly if it satisfies all conditions ([ok1]).  So the entities meet
    the tunnel, have no vertex close to it, keep the constraints to each other and to the
    boundaries, and have at least a quarter of the area of the candidate. *)
Theorem c87_step1 {A Pt Arc Ell Edge Face P F V IS} `{Num A} `{Trig A}
    (K : kernel A F Pt Arc Ell Edge Face) (T : tunnel A P F V IS) ord k target s passes x :
  (∀ m, ord m ≡ₚ map_to_list m) → (target < 2^64)%N →
  (stage1 K T ord k target s passes = StageDone x → N.of_nat (length (g_set x)) = target) ∧
  (stage1 K T ord k target s passes = StageRunning x → (N.of_nat (length (g_set x)) < target)%N) ∧
  (stage1 K T ord k target s passes = StageDone x ∨ stage1 K T ord k target s passes = StageRunning x →
   ∃ n areas r,
     draws s (ok1 K T k) n (g_set x) areas r ∧ n = (N.of_nat (length (g_set x)) + r)%N ∧
     (stage1 K T ord k target s passes = StageRunning x → n = N.of_nat passes) ∧
     length areas = length (g_set x) ∧
     g_area x = total n0 areas ∧ rejected (g_status x) = (r mod 2^64)%N ∧
     snd (get_count 1 (g_status x)) = N.of_nat (length (g_set x)) ∧
     pairwise (λ y z, evaluate nltb (λ a b, nleb b a) K (c4_1 k) y z = Ok true) (g_set x) ∧
     ∀ i f a, g_set x !! i = Some f → areas !! i = Some a →
       bounded K T k f ∧ ∃ m c, (m < n)%N ∧ s m = Ok c ∧ at_tunnel T c f a).
Proof. exact (c87_step1_lemma K T ord k target s passes x). Qed.
Print Assumptions c87_step1.

Theorem c87_step1_fails {A Pt Arc Ell Edge Face P F V IS} `{Num A} `{Trig A}
    (K : kernel A F Pt Arc Ell Edge Face) (T : tunnel A P F V IS) ord k target s passes o :
  (∀ m, ord m ≡ₚ map_to_list m) → (target < 2^64)%N →
  all_answer K T → (∀ n, ∃ c, s n = Ok c) →
  stage1 K T ord k target s passes ≠ StageFailed o.
Proof. exact (c87_step1_answers_lemma K T ord k target s passes o). Qed.
Print Assumptions c87_step1_fails.

(** C87, step 2: for every entity of step 1, candidates are drawn until one is accepted, at
    most [m] + 1; it meets the entity, no vertices are close to the intersection, and the
    constraints are kept to both sets and to the boundaries. *)
Theorem c87_step2 {A Pt Arc Ell Edge Face P F V IS} `{Num A} `{Trig A}
    (K : kernel A F Pt Arc Ell Edge Face) (T : tunnel A P F V IS) k m s x y fs :
  (N.of_nat (length (g_set x)) < 2^64)%N →
  stage2 K T k m s x = Ok (y, fs) →
  ∃ news,
    searched_all s (ok2 K T k (g_set x)) m (g_set x) fs news ∧ g_set y = faces_of news ∧
    g_area y = total (g_area x) (areas_of news) ∧ rejected (g_status y) = (left_over fs mod 2^64)%N ∧
    snd (get_count 2 (g_status y)) = N.of_nat (length (g_set y)) ∧
    length (g_set y) ≤ length (g_set x) ∧ (∀ r, r ∈ fs → (0 < f_tries r ≤ m + 1)%N) ∧
    pairwise (λ y z, evaluate nltb (λ a b, nleb b a) K (c4_2 k) y z = Ok true) (g_set y) ∧
    ∀ f, f ∈ g_set y → bounded K T k f ∧ respects K (c4_other k) (g_set x) f ∧
      ∃ e c a, e ∈ g_set x ∧ at_entity T e c f a.
Proof. exact (c87_step2_lemma K T k m s x y fs). Qed.
Print Assumptions c87_step2.

(** C87, step 3: the same for the entities of step 2. *)
Theorem c87_step3 {A Pt Arc Ell Edge Face P F V IS} `{Num A} `{Trig A}
    (K : kernel A F Pt Arc Ell Edge Face) (T : tunnel A P F V IS) k m s set1 x y fs :
  (N.of_nat (length (g_set x)) < 2^64)%N →
  stage3 K T k m s set1 x = Ok (y, fs) →
  ∃ news,
    searched_all s (ok3 K T k set1 (g_set x)) m (g_set x) fs news ∧ g_set y = faces_of news ∧
    g_area y = total (g_area x) (areas_of news) ∧ rejected (g_status y) = (left_over fs mod 2^64)%N ∧
    snd (get_count 3 (g_status y)) = N.of_nat (length (g_set y)) ∧
    length (g_set y) ≤ length (g_set x) ∧ (∀ r, r ∈ fs → (0 < f_tries r ≤ m + 1)%N) ∧
    pairwise (λ y z, evaluate nltb (λ a b, nleb b a) K (c4_3 k) y z = Ok true) (g_set y) ∧
    ∀ f, f ∈ g_set y → bounded K T k f ∧ respects K (c4_other k) set1 f ∧
      respects K (c4_other k) (g_set x) f ∧ ∃ e c a, e ∈ g_set x ∧ at_entity T e c f a.
Proof. exact (c87_step3_lemma K T k m s set1 x y fs). Qed.
Print Assumptions c87_step3.

(** C87: steps 2 and 3 end, whatever the samplers deliver, if the geometric operations do. *)
Theorem c87_search_ends {A Pt Arc Ell Edge Face P F V IS} `{Num A} `{Trig A}
    (K : kernel A F Pt Arc Ell Edge Face) (T : tunnel A P F V IS) k m s set1 x :
  all_answer K T → (∀ n e, ∃ sampler, s n e = Ok sampler ∧ ∀ i, ∃ c, sampler i = Ok c) →
  (∃ r, stage2 K T k m s x = Ok r) ∧ (∃ r, stage3 K T k m s set1 x = Ok r).
Proof. exact (c87_search_ends_lemma K T k m s set1 x). Qed.
Print Assumptions c87_search_ends.

(** The three steps with the candidates 0, 1, ...: steps 2 and 3 find the same points again
    (the distance 1 of the kernel is as large as demanded); in step 2 with other candidates,
    nothing is found for the point 1. *)
Example c87_case :
  (match stage1 pt_kernel pt_tunnel line_ord pt_k 3 counting 10 with
   | StageDone x =>
       match stage2 pt_kernel pt_tunnel pt_k 2 (λ n _, Ok (λ i, Ok (2 * i)%N)) x with
       | Ok (y, fs) =>
           match stage3 pt_kernel pt_tunnel pt_k 2 (λ _ _, Ok counting) (g_set x) y with
           | Ok (z, gs) => Some (g_set x, g_set y, fs, g_set z, gs, rejected (g_status y))
           | _ => None
           end
       | _ => None
       end
   | _ => None
   end) =
  Some ([0; 1; 2], [0; 2], [mkFound 1 true false; mkFound 3 false true; mkFound 2 true true], [0; 2],
        [mkFound 1 true false; mkFound 3 true true], 4)%N.
Proof. vm_compute. done. Qed.
Example c87_answers_case : all_answer (kernel_of far) far_tunnel.
Proof. exact far_answers. Qed.

(** C87: if the operations are exact ([in_p], [in_f]: the points of polygons and faces, [dom]:
    the domain, [tun]: the tunnel surface), all entities are in the domain; those of the first
    step meet the tunnel, those of the others an entity of the step before, and an entity for
    which the search was successful meets an entity of the next step. *)
Theorem c87_connected {A Pt Arc Ell Edge Face P F V IS} `{Num A} `{Trig A}
    (K : kernel A F Pt Arc Ell Edge Face) (T : tunnel A P F V IS)
    {X} (in_p : P → X → Prop) (in_f : F → X → Prop) (dom tun : X → Prop)
    (Hcont : ∀ c f, t_contained T c = Ok [f] → ∀ x, in_f f x ↔ in_p c x ∧ dom x)
    (Hmeet : ∀ c e is, t_meet T c e = Ok is → t_empty T is = false → ∃ x, in_p c x ∧ in_f e x)
    (Htun : ∀ c is, t_meet_tunnel T c = Ok is → t_empty T is = false → ∃ x, in_p c x ∧ tun x)
    (Hdom : ∀ x, tun x → dom x)
    ord k target m1 m2 s1 s2 s3 passes x1 x2 x3 fs2 fs3 :
  (∀ m, ord m ≡ₚ map_to_list m) → (target < 2^64)%N →
  stage1 K T ord k target s1 passes = StageDone x1 →
  stage2 K T k m1 s2 x1 = Ok (x2, fs2) → stage3 K T k m2 s3 (g_set x1) x2 = Ok (x3, fs3) →
  (∀ f, f ∈ g_set x1 → ∃ x, in_f f x ∧ tun x) ∧
  (∀ f, f ∈ g_set x2 → ∃ e x, e ∈ g_set x1 ∧ in_f f x ∧ in_f e x) ∧
  (∀ f, f ∈ g_set x3 → ∃ e x, e ∈ g_set x2 ∧ in_f f x ∧ in_f e x) ∧
  (∀ f, f ∈ g_set x1 ++ g_set x2 ++ g_set x3 → ∀ x, in_f f x → dom x) ∧
  (∀ n e r, g_set x1 !! n = Some e → fs2 !! n = Some r → f_accepted r = true →
     ∃ f x, f ∈ g_set x2 ∧ in_f f x ∧ in_f e x) ∧
  (∀ n e r, g_set x2 !! n = Some e → fs3 !! n = Some r → f_accepted r = true →
     ∃ f x, f ∈ g_set x3 ∧ in_f f x ∧ in_f e x).
Proof.
  exact (c87_connected_lemma K T in_p in_f dom tun Hcont Hmeet Htun Hdom ord k target m1 m2 s1 s2 s3 passes
           x1 x2 x3 fs2 fs3).
Qed.
Print Assumptions c87_connected.
Example c87_connected_case :
  (∀ c f, t_contained pt_tunnel c = Ok [f] → ∀ x, f = x ↔ c = x ∧ True) ∧
  (∀ c e is, t_meet pt_tunnel c e = Ok is → t_empty pt_tunnel is = false → ∃ x, c = x ∧ e = x) ∧
  (∀ c is, t_meet_tunnel pt_tunnel c = Ok is → t_empty pt_tunnel is = false → ∃ x, c = x ∧ (x < 100)%N).
Proof.
  split; [intros c f [= ->]; tauto|]. split.
  - intros c e is [= <-]. destruct (N.eqb_spec c e) as [->|]; [|done]. by exists e.
  - intros c is [= <-]. destruct (N.ltb_spec c 100); [|done]. by exists c.
Qed.

(** C87: but entities for which the search was not successful need not be connected to any
    other one, although "all entities of the network are connected to at least one other". *)
Theorem c87_isolated_refuted :
  ∃ (K : kernel float N unit unit unit unit unit) (T : tunnel float N N N (option N)) k
    (in_f : N → N → Prop) (tun : N → Prop) s1 s2 s3 x1 x2 x3 fs2 fs3,
    (∀ c f, t_contained T c = Ok [f] → f = c) ∧
    (∀ c e is, t_meet T c e = Ok is → t_empty T is = false ↔ ∃ x, in_f c x ∧ in_f e x) ∧
    (∀ c is, t_meet_tunnel T c = Ok is → t_empty T is = false ↔ ∃ x, in_f c x ∧ tun x) ∧
    stage1 K T line_ord k 2 s1 2 = StageDone x1 ∧ stage2 K T k ex4_tries s2 x1 = Ok (x2, fs2) ∧
    stage3 K T k ex4_tries s3 (g_set x1) x2 = Ok (x3, fs3) ∧
    ∃ e f, e ∈ g_set x1 ++ g_set x2 ++ g_set x3 ∧ f ∈ g_set x1 ++ g_set x2 ++ g_set x3 ∧ e ≠ f ∧
      ∀ g, g ∈ g_set x1 ++ g_set x2 ++ g_set x3 → g ≠ e → ¬ ∃ x, in_f g x ∧ in_f e x.
Proof. exact c87_isolated_refuted_lemma. Qed.
Print Assumptions c87_isolated_refuted.

(** C87: 501 candidates are tried instead of 500 ... *)
Theorem c87_tries_refuted :
  ∃ y r, stage2 pt_kernel pt_tunnel pt_k ex4_tries (λ _ _, Ok (λ _, Ok 7%N)) (pt_stage [1%N]) = Ok (y, [r]) ∧
    f_accepted r = false ∧ f_tries r = 501%N.
Proof. exact c87_tries_refuted_lemma. Qed.
Print Assumptions c87_tries_refuted.
(** ... and the message that the search for an entity was skipped after 500 unsuccessful tries
    is also printed if the 500th candidate is accepted. *)
Theorem c87_message_refuted :
  ∃ y r, stage2 pt_kernel pt_tunnel pt_k ex4_tries (λ _ _, Ok counting) (pt_stage [499%N]) = Ok (y, [r]) ∧
    f_accepted r = true ∧ g_set y = [499%N] ∧ f_skipped r = true.
Proof. exact c87_message_refuted_lemma. Qed.
Print Assumptions c87_message_refuted.

(** C87, the numbers of example 4, for the program in Python and the one in C++. *)
Theorem c87_example4 {F Pt Arc Ell Edge Face P V IS} (A : answers R F Pt Arc Ell Edge Face)
    (T : tunnel R P F V IS) ord k d2 d3 s1 s2 s3 passes x1 x2 x3 fs2 fs3 :
  (∀ m, ord m ≡ₚ map_to_list m) →
  (k = ex4_py ∧ d2 = (1/2)%R ∧ d3 = (3/20)%R) ∨ (k = ex4_cc ∧ d2 = (3/20)%R ∧ d3 = 1%R) →
  stage1 (kernel_of A) T ord k ex4_target s1 passes = StageDone x1 →
  stage2 (kernel_of A) T k ex4_tries s2 x1 = Ok (x2, fs2) →
  stage3 (kernel_of A) T k ex4_tries s3 (g_set x1) x2 = Ok (x3, fs3) →
  length (g_set x1) = 75 ∧ length (g_set x2) ≤ 75 ∧ length (g_set x3) ≤ length (g_set x2) ∧
  pairwise (keeps Rlt A 1%R (25 * PI / 180)%R (1/10)%R (1/10)%R) (g_set x1) ∧
  pairwise (keeps Rlt A d2 (25 * PI / 180)%R (1/10)%R (1/10)%R) (g_set x2) ∧
  pairwise (keeps Rlt A d3 (25 * PI / 180)%R (1/10)%R (1/10)%R) (g_set x3) ∧
  (∀ e f, (e ∈ g_set x1 ∧ f ∈ g_set x2 ++ g_set x3) ∨ (e ∈ g_set x2 ∧ f ∈ g_set x3) →
     keeps Rlt A (1/4)%R (30 * PI / 180)%R (1/10)%R (1/10)%R e f) ∧
  ∀ b f, b ∈ [t_tunnel T; t_sphere T] → f ∈ g_set x1 ++ g_set x2 ++ g_set x3 →
    keeps Rlt A 1%R (10 * PI / 180)%R (1/10)%R (1/10)%R b f.
Proof. exact (c87_example4_lemma A T ord k d2 d3 s1 s2 s3 passes x1 x2 x3 fs2 fs3). Qed.
Print Assumptions c87_example4.
Example c87_example4_case k :
  k = ex4_py ∨ k = ex4_cc →
  ∃ x1 x2 x3 fs2 fs3,
    stage1 (kernel_of far) far_tunnel line_ord k ex4_target (λ _, Ok tt) 75 = StageDone x1 ∧
    stage2 (kernel_of far) far_tunnel k ex4_tries (λ _ _, Ok (λ _, Ok tt)) x1 = Ok (x2, fs2) ∧
    stage3 (kernel_of far) far_tunnel k ex4_tries (λ _ _, Ok (λ _, Ok tt)) (g_set x1) x2 = Ok (x3, fs3).
Proof. exact (ex4_done k). Qed.

(** C88: the meaning of the constraints of example 4. *)
Theorem c88_rules {F Pt Arc Ell Edge Face} (A : answers R F Pt Arc Ell Edge Face) (x y : F) :
  let eval := evaluate nltb (λ x y : R, nleb y x) (kernel_of A) in
  (∀ k, k = ex4_cc ∨ k = ex4_py →
    (eval (c4_1 k) x y = Ok true ↔ keeps Rlt A 1%R (25 * PI / 180)%R (1/10)%R (1/10)%R x y) ∧
    (eval (c4_other k) x y = Ok true ↔ keeps Rlt A (1/4)%R (30 * PI / 180)%R (1/10)%R (1/10)%R x y) ∧
    (eval (c4_boundary k) x y = Ok true ↔ keeps Rlt A 1%R (10 * PI / 180)%R (1/10)%R (1/10)%R x y)) ∧
  (eval (c4_2 ex4_py) x y = Ok true ↔ keeps Rlt A (1/2)%R (25 * PI / 180)%R (1/10)%R (1/10)%R x y) ∧
  (eval (c4_3 ex4_py) x y = Ok true ↔ keeps Rlt A (3/20)%R (25 * PI / 180)%R (1/10)%R (1/10)%R x y) ∧
  (eval (c4_2 ex4_cc) x y = Ok true ↔ keeps Rlt A (3/20)%R (25 * PI / 180)%R (1/10)%R (1/10)%R x y) ∧
  (eval (c4_3 ex4_cc) x y = Ok true ↔ keeps Rlt A 1%R (25 * PI / 180)%R (1/10)%R (1/10)%R x y).
Proof. exact (c88_rules_lemma A x y). Qed.
Print Assumptions c88_rules.
Example c88_rules_case :
  keeps Rlt (no_meet (1/2)) (1/2)%R (25 * PI / 180)%R (1/10)%R (1/10)%R true false ∧
  ¬ keeps Rlt (no_meet (1/4)) (1/2)%R (25 * PI / 180)%R (1/10)%R (1/10)%R true false.
Proof. rewrite !keeps_no_meet. split; Lra.lra. Qed.

(** C88: the C++ and the Python program differ: entities of set 2 may be 0.3 apart in C++ but
    not in Python, those of set 3 must not be 0.5 apart in C++ but may in Python; and in both,
    the spacing of set 2 is smaller than that of set 1, although "larger spacing" is wanted. *)
Theorem c88_spacing_refuted :
  (∃ (A : answers R bool unit unit unit unit unit) x y, inter A None x y = [] ∧ dist A x y = (3/10)%R ∧
     evaluate nltb (λ x y : R, nleb y x) (kernel_of A) (c4_2 ex4_cc) x y = Ok true ∧
     ¬ evaluate nltb (λ x y : R, nleb y x) (kernel_of A) (c4_2 ex4_py) x y = Ok true) ∧
  (∃ (A : answers R bool unit unit unit unit unit) x y, inter A None x y = [] ∧ dist A x y = (1/2)%R ∧
     ¬ evaluate nltb (λ x y : R, nleb y x) (kernel_of A) (c4_3 ex4_cc) x y = Ok true ∧
     evaluate nltb (λ x y : R, nleb y x) (kernel_of A) (c4_3 ex4_py) x y = Ok true) ∧
  (∃ (A : answers R bool unit unit unit unit unit) x y, inter A None x y = [] ∧
     ∀ k, k = ex4_cc ∨ k = ex4_py →
     ¬ evaluate nltb (λ x y : R, nleb y x) (kernel_of A) (c4_1 k) x y = Ok true ∧
     evaluate nltb (λ x y : R, nleb y x) (kernel_of A) (c4_2 k) x y = Ok true).
Proof. exact c88_refuted_lemma. Qed.
Print Assumptions c88_spacing_refuted.

(** C89, example 1: the network consists of the fragments of all entities. *)
Theorem c89_plain {S K num} `{EqDecision S} `{Countable K} (key : S → K) (kernel : occ S num)
    (ord : nat → list N → list N) (Hord : ∀ i l, ord i l ≡ₚ l) set1 set2 :
  let h := ex1_calls set1 set2 in
  proper kernel [] (set1 ++ set2) →
  (∀ n, (bstep key kernel ord Plain (brun key kernel ord Plain h) Build).2 = Ok (Some n) →
     ∃ e hf ed frags index, n = Net ed frags index ∧
       cut kernel e None hf [] (set1 ++ set2) ∧ made_of None hf (set1 ++ set2) frags) ∧
  (reliable kernel →
     ∃ n, (bstep key kernel ord Plain (brun key kernel ord Plain h) Build).2 = Ok (Some n)).
Proof. exact (c89_plain_lemma key kernel ord Hord set1 set2). Qed.
Print Assumptions c89_plain.

(** C89, examples 2 and 4: the network consists of the fragments of what the domain [d] leaves
    of the entities, and of the fragments of the domain. *)
Theorem c89_contained {S K num} `{EqDecision S} `{Countable K} (key : S → K) (kernel : occ S num)
    (ord : nat → list N → list N) (Hord : ∀ i l, ord i l ≡ₚ l) d es h :
  (∃ set1 set2, h = ex2_calls d set1 set2 ∧ es = set1 ++ set2) ∨
  (∃ set1 set2 set3, h = ex4_calls d set1 set2 set3 ∧ es = set1 ++ set2 ++ set3) →
  proper kernel [d] es →
  (∀ n, (bstep key kernel ord Contained (brun key kernel ord Contained h) Build).2 = Ok (Some n) →
     ∃ e hc hf ed dd sdf frags index l ld, n = CNet ed dd sdf frags index ∧
       common kernel e es [d] = Some hc ∧ cut kernel e (Some hc) hf [d] es ∧
       frags !! 1%N = Some l ∧ made_of (Some hc) hf es l ∧
       (∀ id, id ∈ sub_domain_ids sdf ↔ id = 1%N) ∧
       at_id sdf 1 = Ok ld ∧ ∀ f, f ∈ ld ↔ piece hf d f) ∧
  (reliable kernel →
     ∃ n, (bstep key kernel ord Contained (brun key kernel ord Contained h) Build).2 = Ok (Some n)).
Proof. exact (c89_contained_lemma key kernel ord Hord d es h). Qed.
Print Assumptions c89_contained.

(** C89, example 3, contained networks: confined to the second layer, or ([b] = false) to the
    union of all layers. *)
Theorem c89_layers {S K num} `{EqDecision S} `{Countable K} (key : S → K) (kernel : occ S num)
    (ord : nat → list N → list N) (Hord : ∀ i l, ord i l ≡ₚ l) b l1 l2 l3 set1 set2 h :
  let es := set1 ++ set2 in
  (b = true ∧ h = ex3_calls1 l1 l2 l3 set1 set2) ∨ (b = false ∧ h = ex3_calls2 l1 l2 l3 set1 set2) →
  proper kernel [l1; l2; l3] es → NoDup [key l1; key l2; key l3] →
  (∀ n, (bstep key kernel ord Contained (brun key kernel ord Contained h) Build).2 = Ok (Some n) →
     ∃ e hc hf ed dd sdf frags index l, n = CNet ed dd sdf frags index ∧
       (if b then common kernel e es [l2] = Some hc
        else ∃ ls u, ls ≡ₚ [l1; l2; l3] ∧ fuse kernel e ls = Some u ∧ common kernel e es [u] = Some hc) ∧
       cut kernel e (Some hc) hf [l1; l2; l3] es ∧
       frags !! 1%N = Some [] ∧ frags !! 2%N = Some l ∧ frags !! 3%N = Some [] ∧ made_of (Some hc) hf es l ∧
       (∀ id, id ∈ sub_domain_ids sdf ↔ id ∈ [1; 2; 3]%N) ∧
       ∀ id d, (id, d) ∈ [(1, l1); (2, l2); (3, l3)]%N →
         ∃ ld, at_id sdf id = Ok ld ∧ ∀ f, f ∈ ld ↔ piece hf d f) ∧
  (reliable kernel →
     ∃ n, (bstep key kernel ord Contained (brun key kernel ord Contained h) Build).2 = Ok (Some n)).
Proof. exact (c89_layers_lemma key kernel ord Hord b l1 l2 l3 set1 set2 h). Qed.
Print Assumptions c89_layers.

(** C89, example 3, networks without the domain: confined to the second layer or not. *)
Theorem c89_uncontained {S K num} `{EqDecision S} `{Countable K} (key : S → K) (kernel : occ S num)
    (ord : nat → list N → list N) (Hord : ∀ i l, ord i l ≡ₚ l) b l2 set1 set2 h :
  let es := set1 ++ set2 in
  (b = true ∧ h = ex3_calls3 l2 set1 set2) ∨ (b = false ∧ h = ex3_calls4 l2 set1 set2) →
  proper kernel [l2] es →
  (∀ n, (bstep key kernel ord Plain (brun key kernel ord Plain h) Build).2 = Ok (Some n) →
     ∃ e hc hf ed frags index, n = Net ed frags index ∧
       (if b then ∃ h', hc = Some h' ∧ common kernel e es [l2] = Some h' else hc = None) ∧
       cut kernel e hc hf [] es ∧ made_of hc hf es frags) ∧
  (reliable kernel →
     ∃ n, (bstep key kernel ord Plain (brun key kernel ord Plain h) Build).2 = Ok (Some n)).
Proof. exact (c89_uncontained_lemma key kernel ord Hord b l2 set1 set2 h). Qed.
Print Assumptions c89_uncontained.

(** Layers 1, 2 and 3, entities 101, 102 and 103: 101 is confined to 111, which is cut in
    two, nothing remains of 102, and 103 is unchanged; layer 1 is cut in two. *)
Example c89_case :
  let cf := [(101, [111]); (102, [])]%N in
  let fr := λ _ : N, [(111, [121; 122]); (1, [11; 12])]%N in
  proper (toy cf fr) [1; 2; 3]%N ([101; 102] ++ [103])%N ∧ reliable (toy cf fr) ∧ NoDup [1; 2; 3]%N ∧
  (match (tstep cf fr Contained (trun cf fr Contained (ex3_calls2 1 2 3 [101; 102] [103])) Build).2 with
   | Ok (Some (CNet 2 3 sdf frags index)) => (frags !! 1, frags !! 2, frags !! 3, sdf !! 1)
   | _ => (None, None, None, None)
   end)%N = (Some [], Some [121; 122; 103], Some [], Some [11; 12])%N ∧
  (match (tstep cf fr Plain (trun cf fr Plain (ex1_calls [101; 102] [103])) Build).2 with
   | Ok (Some (Net 2 frags _)) => frags
   | _ => []
   end)%N = [101; 102; 103]%N.
Proof.
  intros cf fr. split; [|split; [apply toy_reliable|split]].
  - split; [done|]. repeat match goal with |- _ ∧ _ => split end; intros x y Hx Hy; simpl in *;
      repeat (apply elem_of_cons in Hx as [->|Hx]); try (by apply elem_of_nil in Hx);
      repeat (apply elem_of_cons in Hy as [->|Hy]); try (by apply elem_of_nil in Hy); done.
  - repeat constructor; set_solver.
  - vm_compute. done.
Qed.
