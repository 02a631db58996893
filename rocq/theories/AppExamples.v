(** Small instances for C86-C89. *)

From Coq Require Import Reals Lra.
From Coq Require PrimFloat.
From stdpp Require Import prelude gmap list.
From Verif Require Import Base NumModel VecModel StatusModel ConstraintsModel ConstraintsSpec
  ConstraintsProofs AppModel AppSpec AppProofs AppEvalProofs AppTunnelProofs AppTunnelEvalProofs.

(** ** Points on a line; the constraints are minimal distances *)
Definition line_ev (d : N) (x y : N) : outcome bool := Ok (bool_decide (d ≤ x - y ∨ d ≤ y - x)%N).
Definition line_ord (m : gmap N N) : list (N * N) := map_to_list m.
(** Within the sets a distance of 10, across the sets 3; positions above 1000 fail. *)
Definition line_plan (skip : bool) (t1 t2 : N) : plan N N :=
  mkPlan 10%N 10%N 3%N [λ e, Ok (bool_decide (e ≤ 1000)%N)] [] 1 2 t1 t2 skip.
Definition line_s1 (i : N) : outcome N := Ok (7 * i)%N.
Definition line_s2 (i : N) : outcome N := Ok (7 * i + 1)%N.
Local Lemma ok_eq (x y : N) : Ok x = Ok y → y = x.
Proof. congruence. Qed.
Lemma line_compatible : all_compatible line_ev (line_plan false 4 4) (λ i, Ok (20 * i)%N) (λ i, Ok (20 * i + 5)%N).
Proof.
  unfold all_compatible, line_plan, line_ev. cbn [p_target1 p_target2 p_before p_after p_self1 p_self2 p_other].
  split; [|split; [|split; [|split]]].
  - intros i Hi. eexists. split; [done|]. intros t Ht. apply elem_of_list_singleton in Ht as ->. f_equal. apply bool_decide_eq_true. lia.
  - intros i Hi. eexists. split; [done|]. intros t Ht. apply elem_of_list_singleton in Ht as ->. f_equal. apply bool_decide_eq_true. lia.
  - intros i j x y Hij Hx Hy. apply ok_eq in Hx, Hy. subst x y. f_equal. apply bool_decide_eq_true. lia.
  - intros i j x y Hij Hx Hy. apply ok_eq in Hx, Hy. subst x y. f_equal. apply bool_decide_eq_true. lia.
  - intros i j x y Hi Hj Hx Hy. apply ok_eq in Hx, Hy. subst x y. split; intros; f_equal; apply bool_decide_eq_true; lia.
Qed.

(** ** Geometries as sets of points *)
Definition no_meet (d : R) : answers R bool unit unit unit unit unit :=
  mkAnswers
    (λ _ _ _, []) (λ _ _, d) (λ _ _ _, 0%R) (λ _, 0%R) (λ _ _, false) (λ _ _, 0%R) (λ _ _, 0%R)
    (λ _ _, tt) (λ _, tt) (λ _, tt) (λ _, tt) (λ _, tt) (λ _, 2%Z).

Lemma keeps_no_meet d d' a m b x y :
  keeps Rlt (no_meet d) d' a m b x y ↔ (d' <= d)%R.
Proof.
  unfold keeps. simpl. unfold at_least. split.
  - intros [H _]. destruct (Rle_dec d' d); [done|]. exfalso. apply H; [|lra]. intros p Hp.
    by apply elem_of_nil in Hp.
  - intros H. split; [intros _; lra|]. intros (p & Hp & _). by apply elem_of_nil in Hp.
Qed.

Lemma c88_refuted_lemma :
  (∃ (A : answers R bool unit unit unit unit unit) x y, inter A None x y = [] ∧ dist A x y = (3/10)%R ∧
     evaluate nltb (λ x y : R, nleb y x) (kernel_of A) (c4_2 ex4_cc) x y = Ok true ∧
     ¬ evaluate nltb (λ x y : R, nleb y x) (kernel_of A) (c4_2 ex4_py) x y = Ok true) ∧
  (∃ (A : answers R bool unit unit unit unit unit) x y, inter A None x y = [] ∧ dist A x y = (1/2)%R ∧
     ¬ evaluate nltb (λ x y : R, nleb y x) (kernel_of A) (c4_3 ex4_cc) x y = Ok true ∧
     evaluate nltb (λ x y : R, nleb y x) (kernel_of A) (c4_3 ex4_py) x y = Ok true) ∧
  (∃ (A : answers R bool unit unit unit unit unit) x y, inter A None x y = [] ∧
     ∀ k, k = ex4_cc ∨ k = ex4_py →
     ¬ evaluate nltb (λ x y : R, nleb y x) (kernel_of A) (c4_1 k) x y = Ok true ∧
     evaluate nltb (λ x y : R, nleb y x) (kernel_of A) (c4_2 k) x y = Ok true).
Proof.
  split; [|split].
  - exists (no_meet (3/10)), true, false. split; [done|]. split; [done|].
    destruct (c88_rules_lemma (no_meet (3/10)) true false) as (_ & H2 & _ & H4 & _).
    rewrite H2, H4, !keeps_no_meet. lra.
  - exists (no_meet (1/2)), true, false. split; [done|]. split; [done|].
    destruct (c88_rules_lemma (no_meet (1/2)) true false) as (_ & _ & H3 & _ & H5).
    rewrite H3, H5, !keeps_no_meet. lra.
  - exists (no_meet (3/4)), true, false. split; [done|]. intros k Hk.
    destruct (c88_rules_lemma (no_meet (3/4)) true false) as (H1 & H2 & _ & H4 & _).
    destruct (H1 k Hk) as (-> & _). rewrite keeps_no_meet. split; [lra|].
    destruct Hk as [->| ->]; [rewrite H4|rewrite H2]; rewrite keeps_no_meet; lra.
Qed.

(** ** The tunnel: every polygon and every face is a single point of the domain *)
Notation float := PrimFloat.float.
Definition pt_kernel : kernel float N unit unit unit unit unit :=
  mkKernel
    (λ _ x y, Ok []) (λ _ _, Ok PrimFloat.one) (λ _ _ _, Ok PrimFloat.one) (λ _, Ok PrimFloat.one)
    (λ _ _, Ok false) (λ _ _, Ok PrimFloat.one) (λ _ _, Ok PrimFloat.one)
    (λ _ _, tt) (λ _, tt) (λ _, tt) (λ _, tt) (λ _, tt) (λ _, 2%Z).
(** The constraints: a distance of 1. *)
Definition pt_c : constraints float := crun n0 [SetMinDistance n1].
Definition pt_k : ex4_constraints float := mkEx4 pt_c pt_c pt_c pt_c pt_c.
(** The tunnel surface consists of the points below 100. *)
Definition pt_tunnel : tunnel float N N N (option N) :=
  mkTunnel (λ c, Ok (if (c <? 100)%N then Some c else None)) (λ c e, Ok (if (c =? e)%N then Some c else None))
    (λ is, match is with None => true | Some _ => false end)
    (λ _, []) (λ _, []) (λ _ _, Ok PrimFloat.one) (λ c, Ok [c]) (λ _, Ok PrimFloat.one) (λ _, PrimFloat.one)
    1000%N 2000%N.
(** The candidates 0, 1, ... *)
Definition counting (i : N) : outcome N := Ok i.

Definition pt_stage (set : list N) : stage float N :=
  mkStage init set n0.

Lemma c87_tries_refuted_lemma :
  ∃ y r, stage2 pt_kernel pt_tunnel pt_k ex4_tries (λ _ _, Ok (λ _, Ok 7%N)) (pt_stage [1%N]) = Ok (y, [r]) ∧
    f_accepted r = false ∧ f_tries r = 501%N.
Proof. eexists _, _. split; [vm_compute; reflexivity|]. done. Qed.
Lemma c87_message_refuted_lemma :
  ∃ y r, stage2 pt_kernel pt_tunnel pt_k ex4_tries (λ _ _, Ok counting) (pt_stage [499%N]) = Ok (y, [r]) ∧
    f_accepted r = true ∧ g_set y = [499%N] ∧ f_skipped r = true.
Proof. eexists _, _. split; [vm_compute; reflexivity|]. done. Qed.

Lemma c87_isolated_refuted_lemma :
  ∃ (K : kernel float N unit unit unit unit unit) (T : tunnel float N N N (option N)) k (in_f : N → N → Prop) (tun : N → Prop)
    s1 s2 s3 x1 x2 x3 fs2 fs3,
    (∀ c f, t_contained T c = Ok [f] → f = c) ∧
    (∀ c e is, t_meet T c e = Ok is → t_empty T is = false ↔ ∃ x, in_f c x ∧ in_f e x) ∧
    (∀ c is, t_meet_tunnel T c = Ok is → t_empty T is = false ↔ ∃ x, in_f c x ∧ tun x) ∧
    stage1 K T line_ord k 2 s1 2 = StageDone x1 ∧ stage2 K T k ex4_tries s2 x1 = Ok (x2, fs2) ∧
    stage3 K T k ex4_tries s3 (g_set x1) x2 = Ok (x3, fs3) ∧
    ∃ e f, e ∈ g_set x1 ++ g_set x2 ++ g_set x3 ∧ f ∈ g_set x1 ++ g_set x2 ++ g_set x3 ∧ e ≠ f ∧
      ∀ g, g ∈ g_set x1 ++ g_set x2 ++ g_set x3 → g ≠ e → ¬ ∃ x, in_f g x ∧ in_f e x.
Proof.
  eexists pt_kernel, pt_tunnel, pt_k, (λ f x, f = x), (λ x, x < 100)%N, counting, (λ _ _, Ok (λ _, Ok 7%N)),
    (λ _ _, Ok (λ _, Ok 7%N)), _, _, _, _, _.
  split; [by intros c f [= ->]|]. split; [|split].
  - intros c e is [= <-]. destruct (N.eqb_spec c e) as [->|Hne]; simpl; split; try done.
    + intros _. by exists e.
    + intros (x & -> & ->). done.
  - intros c is [= <-]. destruct (N.ltb_spec c 100); simpl; split; try done.
    + intros _. by exists c.
    + intros (x & -> & Hx). lia.
  - split; [vm_compute; reflexivity|]. split; [vm_compute; reflexivity|]. split; [vm_compute; reflexivity|].
    exists 0%N, 1%N. simpl. split; [left|]. split; [right; left|]. split; [done|].
    intros g Hg Hne (x & H1 & H2). congruence.
Qed.

(** ** Examples 1-4 with entities far away from each other *)
Notation far := (no_meet 10).
Notation far_eval := (evaluate nltb (λ x y : R, nleb y x) (kernel_of far)).

Lemma far_total c x y : ∃ b, far_eval c x y = Ok b.
Proof.
  unfold evaluate. destruct (_ && _); [by eexists|]. simpl. destruct (useMinDistance c); by eexists.
Qed.
Lemma far_rule c d a m b x y : rule far c d a m b → (d <= 10)%R → far_eval c x y = Ok true.
Proof. intros Hr Hd. apply Hr. by apply keeps_no_meet. Qed.

Lemma line_ord_perm m : line_ord m ≡ₚ map_to_list m.
Proof. done. Qed.

Lemma ex1_done : ∃ x, alt_run far_eval line_ord ex1_plan (λ _, Ok true) (λ _, Ok false) 30 = AltDone x.
Proof.
  destruct (c86_compatible_lemma far_eval line_ord line_ord_perm ex1_plan ltac:(done) ltac:(done) ltac:(done)
    (λ _, Ok true) (λ _, Ok false) 30) as (x & Hx & _); try done; [|by exists x].
  assert (Hs : ∀ x y, far_eval ex1_self x y = Ok true).
  { intros x y. eapply far_rule; [apply rule_ex1_self|lra]. }
  assert (Ho : ∀ x y, far_eval ex1_other x y = Ok true).
  { intros x y. eapply far_rule; [apply rule_ex1_other|lra]. }
  split; [|split; [|split; [|split]]].
  - intros ? _. exists true. split; [done|]. intros t Ht. by apply elem_of_nil in Ht.
  - intros ? _. exists false. split; [done|]. intros t Ht. by apply elem_of_nil in Ht.
  - intros. apply Hs.
  - intros. apply Hs.
  - intros. split; intros; apply Ho.
Qed.

Lemma ex2_done :
  ∃ x, alt_run far_eval line_ord (ex2_plan (kernel_of far) true false true (λ _, Ok 1%R) 12)
         (λ _, Ok true) (λ _, Ok false) 24 = AltDone x.
Proof.
  set (p := ex2_plan _ _ _ _ _ _).
  destruct (c86_compatible_lemma far_eval line_ord line_ord_perm p ltac:(done) ltac:(done) ltac:(done)
    (λ _, Ok true) (λ _, Ok false) 24) as (x & Hx & _); try done; [|by exists x].
  assert (Hs : ∀ x y, far_eval ex1_self x y = Ok true).
  { intros x y. eapply far_rule; [apply rule_ex1_self|lra]. }
  assert (Ho : ∀ x y, far_eval ex1_other x y = Ok true).
  { intros x y. eapply far_rule; [apply rule_ex1_other|lra]. }
  assert (Ht : ∀ e t, t ∈ p_before p ++ p_after p → t e = Ok true).
  { intros e t Ht. simpl in Ht. repeat apply elem_of_cons in Ht as [->|Ht]; try apply Hs.
    - simpl. unfold Rltb. destruct (Rlt_dec 1 (1/100)); [exfalso; lra|done].
    - by apply elem_of_nil in Ht. }
  split; [|split; [|split; [|split]]].
  - intros ? _. exists true. split; [done|]. apply Ht.
  - intros ? _. exists false. split; [done|]. apply Ht.
  - intros. apply Hs.
  - intros. apply Hs.
  - intros. split; intros; apply Ho.
Qed.

Lemma all_done {C} (c1 c2 c3 : C) :
  ∃ x, alt_run (λ _ _ _, Ok true) line_ord (mkPlan c1 c2 c3 [λ _, Ok true] [λ _, Ok true] 1 2 12 16 true)
         (λ _, Ok true) (λ _, Ok false) 40 = AltDone x.
Proof. eexists. vm_compute. reflexivity. Qed.

(** The same for constraints and tests that always hold. *)
Lemma always_done {C E} (ev : C → E → E → outcome bool) ord (p p' : plan C E) s1 s2 n :
  (∀ c x y, c = p_self1 p ∨ c = p_self2 p ∨ c = p_other p → ev c x y = Ok true) →
  (∀ t e, t ∈ p_before p ++ p_after p → t e = Ok true) →
  p' = mkPlan (p_self1 p) (p_self2 p) (p_other p) [λ _, Ok true] [λ _, Ok true] (p_id1 p) (p_id2 p)
         (p_target1 p) (p_target2 p) (p_skip p) →
  alt_run ev ord p s1 s2 n = alt_run (λ _ _ _, Ok true) ord p' s1 s2 n.
Proof.
  intros He Ht ->. unfold alt_run. change (alt_init (mkPlan _ _ _ _ _ _ _ _ _ _)) with (alt_init (E := E) p).
  generalize (alt_init (E := E) p). induction n as [|n IH]; intros x; simpl.
  { by destruct (finished_all _ _) as [[]| | |]. }
  destruct (finished_all _ _) as [[]| | |]; try done.
  set (b := alt_body ev p s1 s2 x). set (b' := alt_body _ _ s1 s2 x).
  replace b with b'; [by destruct b'|]. unfold b, b', alt_body. simpl.
  destruct (if a_into1 x then s1 (a_drawn1 x) else s2 (a_drawn2 x)) as [e| | |]; try done. simpl.
  destruct (if p_skip p then _ else _) as [[]| | |]; try done. simpl.
  rewrite (proj2 (all_of_true (λ t, t e) (p_before p))) by (intros t Htt; apply Ht; set_solver).
  rewrite (proj2 (all_of_true (λ t, t e) (p_after p))) by (intros t Htt; apply Ht; set_solver).
  rewrite (proj2 (all_of_true (λ y, ev (if a_into1 x then p_self1 p else p_self2 p) y e) _))
    by (intros y _; apply He; destruct (a_into1 x); auto).
  rewrite (proj2 (all_of_true (λ y, ev (p_other p) y e) _)) by (intros y _; apply He; auto).
  rewrite !(proj2 (all_of_true (λ _, Ok true) _)) by done. done.
Qed.

Lemma ex3_done :
  ∃ x, alt_run far_eval line_ord (ex3_plan (kernel_of far) [true; false] (λ _, Ok 400%R))
         (λ _, Ok true) (λ _, Ok false) 40 = AltDone x.
Proof.
  erewrite always_done; [apply all_done| | |reflexivity].
  - intros c x y [->|[->| ->]]; simpl; (eapply far_rule; [first
      [apply rule_ex3_default|apply rule_ex3_self2|apply rule_ex3_other]|lra]).
  - intros t e Ht. apply elem_of_app in Ht as [Ht|Ht].
    + apply elem_of_list_singleton in Ht as ->. simpl. unfold Rltb. destruct (Rlt_dec 400 350); [exfalso; lra|done].
    + apply elem_of_list_singleton in Ht as ->. apply all_of_true. intros f _.
      eapply far_rule; [apply rule_ex3_domain|lra].
Qed.

(** Example 4: one candidate that is always accepted. *)
Definition far_tunnel : tunnel R unit bool unit unit :=
  mkTunnel (λ _, Ok tt) (λ _ _, Ok tt) (λ _, false) (λ _, [tt]) (λ _, [tt]) (λ _ _, Ok 1%R)
    (λ _, Ok [true]) (λ _, Ok 1%R) (λ _, 1%R) true false.
Lemma far_answers : all_answer (kernel_of far) far_tunnel.
Proof.
  split; [by eexists|]. split; [by eexists|]. split; [by eexists|]. split; [by eexists|].
  split; [by eexists|]. apply far_total.
Qed.

Lemma ex4_done k :
  k = ex4_py ∨ k = ex4_cc →
  ∃ x1 x2 x3 fs2 fs3,
    stage1 (kernel_of far) far_tunnel line_ord k ex4_target (λ _, Ok tt) 75 = StageDone x1 ∧
    stage2 (kernel_of far) far_tunnel k ex4_tries (λ _ _, Ok (λ _, Ok tt)) x1 = Ok (x2, fs2) ∧
    stage3 (kernel_of far) far_tunnel k ex4_tries (λ _ _, Ok (λ _, Ok tt)) (g_set x1) x2 = Ok (x3, fs3).
Proof.
  intros Hk.
  assert (Hl : ∀ a b : R, (b <= a)%R → nltb a b = false).
  { intros a b Hab. simpl. unfold Rltb. destruct (Rlt_dec a b); [lra|done]. }
  assert (Hok : ∀ own, ok1 (kernel_of far) far_tunnel k own tt true 1%R).
  { intros own. split; [split|split].
    - split; [done|]. split; [done|]. simpl. apply (Hl 1 (1/4 * 1))%R. lra.
    - exists tt. split; [done|]. split; [done|]. intros v _. exists 1%R. split; [done|].
      apply (Hl 1 (1/1000))%R. lra.
    - intros e _. apply (far_rule _ 1 (25 * PI / 180) (1/10) (1/10)); [|lra].
      destruct Hk as [->| ->]; apply rule_ex4_default.
    - split; (apply (far_rule _ 1 (10 * PI / 180) (1/10) (1/10)); [|lra]); destruct Hk as [->| ->]; apply rule_ex4_boundary. }
  destruct (stage1 (kernel_of far) far_tunnel line_ord k ex4_target (λ _, Ok tt) 75) as [x1|x1|o] eqn:E1.
  - destruct (c87_search_ends_lemma (kernel_of far) far_tunnel k ex4_tries (λ _ _, Ok (λ _, Ok tt)) [] x1)
      as [[[x2 fs2] E2] _]; [apply far_answers|intros n e; by eexists; split; [reflexivity|intros; eexists]|].
    destruct (c87_search_ends_lemma (kernel_of far) far_tunnel k ex4_tries (λ _ _, Ok (λ _, Ok tt)) (g_set x1) x2)
      as [_ [[x3 fs3] E3]]; [apply far_answers|intros n e; by eexists; split; [reflexivity|intros; eexists]|].
    by exists x1, x2, x3, fs2, fs3.
  - exfalso. destruct (c87_step1_lemma (kernel_of far) far_tunnel line_ord k ex4_target (λ _, Ok tt) 75 x1)
      as (_ & H2 & H3); [done|done|].
    specialize (H2 E1). destruct H3 as (n & areas & r & Hd & Hn & Hp & _); [by right|]. specialize (Hp E1).
    assert (r = 0)%N as ->.
    { clear -Hd Hok. induction Hd as [| |n set areas r c Hd IH Hs Hno]; try done.
      exfalso. injection Hs as <-. exact (Hno true 1%R (Hok set)). }
    unfold ex4_target in H2. lia.
  - exfalso. eapply c87_step1_answers_lemma in E1; try done; [apply far_answers|by eexists].
Qed.
