(** Proofs for C86: what the accepted pairs satisfy. *)

From Coq Require Import Reals Lra.
From stdpp Require Import prelude gmap list.
From Verif Require Import Base NumModel VecModel StatusModel ConstraintsModel ConstraintsSpec
  ConstraintsProofs AppModel AppSpec AppProofs.

Section True.
Context {num G Pt Arc Ell Edge Face : Type}.
Context (zero : num) (lt : num → num → Prop) (ltb geb : num → num → bool).
Context (Hlt : ∀ x y, ltb x y = true ↔ lt x y) (Hge : ∀ x y, geb x y = true ↔ ¬ lt x y).
Variable A : answers num G Pt Arc Ell Edge Face.
Notation K := (kernel_of A).

Global Instance has_boundary_distance_dec (p : piece Pt Arc Ell Edge Face G) :
  Decision (has_boundary_distance p).
Proof. destruct p; simpl; apply _. Defined.

Lemma evaluate_true_db c g1 g2 :
  evaluate ltb geb K c g1 g2 = Ok true → useMinIsDistance c = true →
  let is := inter A (if useIntersectionEps c then Some (intersectionEps c) else None) g1 g2 in
  is_empty is = true ∨ ∀ p, p ∈ is → has_boundary_distance p.
Proof.
  intros He Hd is. unfold evaluate in He. rewrite Hd in He. rewrite orb_true_r in He. simpl in He.
  fold is in He. destruct (is_empty is); [by left|]. right. simpl in He.
  destruct (negb (allowEquiDimIS c) && _); [done|].
  destruct (if useMinIsMagnitude c then _ else _) as [[]| | |]; simpl in He; try done.
  destruct (if useMinIsAngle c then _ else _) as [[]| | |]; simpl in He; try done.
  destruct (adm_db ltb geb K (minIsDistance c) g1 is) as [[]| | |] eqn:E1; simpl in He; try done.
  intros p Hp. apply (all_of_true _ _) with (x := p) in E1; [|done]. by destruct p.
Qed.

Lemma evaluate_true h g1 g2 :
  ¬ no_constraint (reverse h) →
  evaluate ltb geb K (crun zero h) g1 g2 = Ok true ↔ admissible lt A (reverse h) g1 g2.
Proof.
  intros Hno. pose proof (settings zero h) as HS. unfold abs_of in HS.
  injection HS as H1 H2 H3 H4 H5 H6.
  destruct (decide (Forall has_boundary_distance (inter A (active_eps (reverse h)) g1 g2))) as [HF|HF].
  { destruct (evaluate_spec zero lt ltb geb Hlt Hge A h g1 g2 Hno) as (b & Hb & Hiff).
    - intros _. by apply Forall_forall.
    - rewrite Hb, <- Hiff. split; congruence. }
  destruct (active_is_distance (reverse h)) as [t|] eqn:Ed.
  2: { destruct (evaluate_spec zero lt ltb geb Hlt Hge A h g1 g2 Hno) as (b & Hb & Hiff).
       - intros []. done.
       - rewrite Hb, <- Hiff. split; congruence. }
  assert (Hu : useMinIsDistance (crun zero h) = true) by (by destruct (useMinIsDistance _)).
  split; intros H; exfalso; apply HF; apply Forall_forall.
  - destruct (evaluate_true_db _ _ _ H Hu) as [He|Hall].
    + rewrite H5 in He. intros p Hp. by rewrite (proj1 (is_empty_spec _) He p Hp).
    + by rewrite H5 in Hall.
  - destruct H as [_ H]. intros p Hp.
    destruct (decide (has_boundary_distance p)) as [Hb|Hb]; [done|].
    destruct H as (_ & _ & _ & H).
    { exists p. split; [done|]. by intros ->. }
    rewrite Ed in H. simpl in H. destruct (H p Hp) as [Hc _]. by destruct p.
Qed.
End True.

Section Reals.
Context {G Pt Arc Ell Edge Face : Type} (A : answers R G Pt Arc Ell Edge Face).
Notation eval := (evaluate nltb (λ x y : R, nleb y x) (kernel_of A)).

Lemma nltb_R (x y : R) : nltb x y = true ↔ (x < y)%R.
Proof. simpl. unfold Rltb. destruct (Rlt_dec x y); split; done. Qed.
Lemma ngeb_R (x y : R) : nleb y x = true ↔ ¬ (x < y)%R.
Proof. simpl. unfold Rleb. destruct (Rle_dec y x); split; try done; intros; lra. Qed.

Lemma keeps_iff (h : list (cop R)) d a m b g1 g2 :
  active_distance (reverse h) = Some d → active_angle (reverse h) = Some a →
  active_magnitude (reverse h) = Some m → active_is_distance (reverse h) = Some b →
  active_eps (reverse h) = None → equi_dim_allowed (reverse h) = false →
  eval (crun n0 h) g1 g2 = Ok true ↔ keeps Rlt A d a m b g1 g2.
Proof.
  intros H1 H2 H3 H4 H5 H6.
  rewrite (evaluate_true n0 Rlt nltb (λ x y : R, nleb y x) nltb_R ngeb_R A h g1 g2).
  - unfold admissible, keeps. rewrite H1, H2, H3, H4, H5, H6. simpl. naive_solver.
  - unfold no_constraint. rewrite H1. naive_solver.
Qed.

(** The constraints of the examples. *)
Definition rule (c : constraints R) (d a m b : R) : Prop :=
  ∀ g1 g2, eval c g1 g2 = Ok true ↔ keeps Rlt A d a m b g1 g2.

Lemma rule_ex1_self : rule ex1_self (1/20) (30 * PI / 180) (1/20) (1/20).
Proof. intros g1 g2. by apply keeps_iff. Qed.
Lemma rule_ex1_other : rule ex1_other (1/20) (40 * PI / 180) (1/20) (1/20).
Proof. intros g1 g2. unfold ex1_other, ex1_self. rewrite <- crun_snoc. by apply keeps_iff. Qed.
Lemma rule_ex3_default : rule ex3_default (5/2) (25 * PI / 180) 5 (5/2).
Proof. intros g1 g2. by apply keeps_iff. Qed.
Lemma rule_ex3_self2 : rule ex3_self2 5 (25 * PI / 180) 5 (5/2).
Proof. intros g1 g2. unfold ex3_self2, ex3_default. rewrite <- crun_snoc. by apply keeps_iff. Qed.
Lemma rule_ex3_other : rule ex3_other (5/2) (40 * PI / 180) 5 (5/2).
Proof. intros g1 g2. unfold ex3_other, ex3_default. rewrite <- !crun_snoc. by apply keeps_iff. Qed.
Lemma rule_ex3_domain : rule ex3_domain (5/2) (15 * PI / 180) 5 (5/2).
Proof. intros g1 g2. unfold ex3_domain, ex3_default. rewrite <- crun_snoc. by apply keeps_iff. Qed.

Lemma pairwise_impl {B} (P Q : B → B → Prop) l : (∀ x y, P x y → Q x y) → pairwise P l → pairwise Q l.
Proof. intros HPQ HP i j x y Hij Hi Hj. apply HPQ. exact (HP i j x y Hij Hi Hj). Qed.
Lemma crosswise_impl {B} (P Q : B → B → Prop) l1 l2 :
  (∀ x y, P x y → Q x y) → crosswise P l1 l2 → crosswise Q l1 l2.
Proof.
  intros HPQ HP i j x y Hi Hj. destruct (HP i j x y Hi Hj) as [H1 H2].
  split; intros H; apply HPQ; auto.
Qed.

Context (ord : gmap N N → list (N * N)) (Hord : ∀ m, ord m ≡ₚ map_to_list m).
Context (s1 s2 : N → outcome G) (passes : nat).

Lemma ex1_lemma x :
  alt_run eval ord ex1_plan s1 s2 passes = AltDone x →
  length (a_set1 x) = 15 ∧ length (a_set2 x) = 15 ∧
  pairwise (keeps Rlt A (1/20)%R (30 * PI / 180)%R (1/20)%R (1/20)%R) (a_set1 x) ∧
  pairwise (keeps Rlt A (1/20)%R (30 * PI / 180)%R (1/20)%R (1/20)%R) (a_set2 x) ∧
  crosswise (keeps Rlt A (1/20)%R (40 * PI / 180)%R (1/20)%R (1/20)%R) (a_set1 x) (a_set2 x).
Proof.
  intros Hr.
  pose proof (c86_sizes_lemma eval ord Hord ex1_plan ltac:(done) ltac:(done) ltac:(done) s1 s2 passes x Hr) as Hn.
  simpl in Hn. injection Hn as Hn1 Hn2.
  destruct (c86_pairs_lemma eval ord Hord ex1_plan ltac:(done) ltac:(done) ltac:(done) s1 s2 passes x) as (P1 & P2 & P3);
    [by left|].
  split; [lia|]. split; [lia|]. split; [|split].
  - eapply pairwise_impl; [|exact P1]. intros y z. apply rule_ex1_self.
  - eapply pairwise_impl; [|exact P2]. intros y z. apply rule_ex1_self.
  - eapply crosswise_impl; [|exact P3]. intros y z. apply rule_ex1_other.
Qed.

Lemma at_least_lit (contained : G → outcome R) (r : R) e :
  omapo (λ a, negb (nltb a r)) (contained e) = Ok true → ∃ a, contained e = Ok a ∧ (r <= a)%R.
Proof.
  destruct (contained e) as [a| | |]; simpl; try done. intros [= H]. exists a. split; [done|].
  apply negb_true_iff in H. unfold Rltb in H. destruct (Rlt_dec a r); [done|]. lra.
Qed.

Lemma all_tested x :
  ∀ plan, p_id1 plan ≠ p_id2 plan → (p_target1 plan < 2^64)%N → (p_target2 plan < 2^64)%N →
  alt_run eval ord plan s1 s2 passes = AltDone x →
  ∀ e t, e ∈ a_set1 x ++ a_set2 x → t ∈ p_before plan ++ p_after plan → t e = Ok true.
Proof.
  intros plan H1 H2 H3 Hr e t He Ht.
  destruct (c86_lemma eval ord Hord plan H1 H2 H3 s1 s2 passes x) as
    (log & ds1 & ds2 & Hs1 & Hs2 & _ & _ & _ & _ & _ & Htd & _); [by left|].
  rewrite Hs1, Hs2 in He. apply elem_of_app in He as [He|He]; apply of_set_elem in He; by eapply Htd.
Qed.

Lemma ex2_lemma top bottom lateral contained target x :
  (target < 2^64)%N →
  alt_run eval ord (ex2_plan (kernel_of A) top bottom lateral contained target) s1 s2 passes = AltDone x →
  N.of_nat (length (a_set1 x)) = target ∧ N.of_nat (length (a_set2 x)) = target ∧
  pairwise (keeps Rlt A (1/20)%R (30 * PI / 180)%R (1/20)%R (1/20)%R) (a_set1 x) ∧
  pairwise (keeps Rlt A (1/20)%R (30 * PI / 180)%R (1/20)%R (1/20)%R) (a_set2 x) ∧
  crosswise (keeps Rlt A (1/20)%R (40 * PI / 180)%R (1/20)%R (1/20)%R) (a_set1 x) (a_set2 x) ∧
  ∀ e, e ∈ a_set1 x ++ a_set2 x →
    (∀ f, f ∈ [top; bottom; lateral] → keeps Rlt A (1/20)%R (30 * PI / 180)%R (1/20)%R (1/20)%R f e) ∧
    ∃ a, contained e = Ok a ∧ (1/100 <= a)%R.
Proof.
  intros Ht Hr. set (plan := ex2_plan _ _ _ _ _ _) in Hr.
  pose proof (c86_sizes_lemma eval ord Hord plan ltac:(done) Ht Ht s1 s2 passes x Hr) as Hn.
  simpl in Hn. rewrite bool_decide_true in Hn by lia. injection Hn as Hn1 Hn2.
  destruct (c86_pairs_lemma eval ord Hord plan ltac:(done) Ht Ht s1 s2 passes x) as (P1 & P2 & P3);
    [by left|].
  split; [done|]. split; [done|]. split; [|split; [|split]].
  - eapply pairwise_impl; [|exact P1]. intros y z. apply rule_ex1_self.
  - eapply pairwise_impl; [|exact P2]. intros y z. apply rule_ex1_self.
  - eapply crosswise_impl; [|exact P3]. intros y z. apply rule_ex1_other.
  - intros e He. pose proof (all_tested x plan ltac:(done) Ht Ht Hr e) as Htd. split.
    + intros f Hf. apply rule_ex1_self. specialize (Htd (eval ex1_self f) He). apply Htd. simpl.
      apply elem_of_cons in Hf as [->|Hf]; [by left|].
      apply elem_of_cons in Hf as [->|Hf]; [by right; left|].
      apply elem_of_list_singleton in Hf as ->. by right; right; left.
    + replace (1/100)%R with (nlit 1 100 : R) by (unfold nlit; simpl; unfold Rlit; simpl; lra).
      apply at_least_lit.
      apply (Htd (λ e, omapo (λ a, negb (nltb a (nlit 1 100))) (contained e)) He). simpl. do 3 right. by left.
Qed.

Lemma ex3_lemma boundary contained x :
  alt_run eval ord (ex3_plan (kernel_of A) boundary contained) s1 s2 passes = AltDone x →
  length (a_set1 x) = 12 ∧ length (a_set2 x) = 16 ∧
  pairwise (keeps Rlt A (5/2)%R (25 * PI / 180)%R 5%R (5/2)%R) (a_set1 x) ∧
  pairwise (keeps Rlt A 5%R (25 * PI / 180)%R 5%R (5/2)%R) (a_set2 x) ∧
  crosswise (keeps Rlt A (5/2)%R (40 * PI / 180)%R 5%R (5/2)%R) (a_set1 x) (a_set2 x) ∧
  ∀ e, e ∈ a_set1 x ++ a_set2 x →
    (∀ f, f ∈ boundary → keeps Rlt A (5/2)%R (15 * PI / 180)%R 5%R (5/2)%R f e) ∧
    ∃ a, contained e = Ok a ∧ (350 <= a)%R.
Proof.
  intros Hr. set (plan := ex3_plan _ _ _) in Hr.
  pose proof (c86_sizes_lemma eval ord Hord plan ltac:(done) ltac:(done) ltac:(done) s1 s2 passes x Hr) as Hn.
  simpl in Hn. injection Hn as Hn1 Hn2.
  destruct (c86_pairs_lemma eval ord Hord plan ltac:(done) ltac:(done) ltac:(done) s1 s2 passes x) as (P1 & P2 & P3);
    [by left|].
  split; [lia|]. split; [lia|]. split; [|split; [|split]].
  - eapply pairwise_impl; [|exact P1]. intros y z. apply rule_ex3_default.
  - eapply pairwise_impl; [|exact P2]. intros y z. apply rule_ex3_self2.
  - eapply crosswise_impl; [|exact P3]. intros y z. apply rule_ex3_other.
  - intros e He. pose proof (all_tested x plan ltac:(done) ltac:(done) ltac:(done) Hr e) as Htd. split.
    + intros f Hf. apply rule_ex3_domain.
      specialize (Htd (λ e, all_of (λ f, eval ex3_domain f e) boundary) He). simpl in Htd.
      assert (Ha : all_of (λ f, eval ex3_domain f e) boundary = Ok true) by (apply Htd; right; by left).
      by apply (all_of_true _ _) with (x := f) in Ha.
    + replace (350)%R with (nlit 350 1 : R) by (unfold nlit; simpl; unfold Rlit; simpl; lra).
      apply at_least_lit.
      apply (Htd (λ e, omapo (λ a, negb (nltb a (nlit 350 1))) (contained e)) He). simpl. by left.
Qed.
End Reals.

Lemma ex2_lengths_lemma :
  ex2_strike_length2 (A := R) = UB ∧ ex2_dip_length2 (A := R) = Ok (2/5, 3/5)%R.
Proof.
  unfold ex2_strike_length2, ex2_dip_length2, uniform_distro. simpl. unfold Rleb, Rlit.
  split.
  - destruct (Rle_dec (1/2) (1/10)); [exfalso; lra|done].
  - destruct (Rle_dec (2/5) (3/5)); [done|exfalso; lra].
Qed.
