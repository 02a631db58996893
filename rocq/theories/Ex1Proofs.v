(** The network of example 1: proofs. *)

From Coq Require Import Reals Lra.
From stdpp Require Import prelude gmap list.
From Verif Require Import Base StatusModel ConstraintsModel ConstraintsSpec ConstraintsProofs AppModel AppSpec AppProofs.
From Verif Require Import NumModel VecModel LinModel RoundModel PolyModel DistModel IntModel AngModel CylIntModel EvalModel SampModel Ex1Model
  GeoSpec LinSpec RoundSpec PolySpec DistSpec IntSpec AngSpec EvalSpec SampSpec Ex1Spec EvalProofs Ex1Quad.

Section Kept.
Context (top : R) (O : ent_ops R) (ord : gmap N N → list (N * N)) (Hord : ∀ m, ord m ≡ₚ map_to_list m).
Context (p : plan (constraints R) (ent R)) (Hids : p_id1 p ≠ p_id2 p).
Context (Ht1 : (p_target1 p < 2^64)%N) (Ht2 : (p_target2 p < 2^64)%N).
Context (h1 h2 h12 : list (cop R)).
Context (Hn1 : ¬ no_constraint h1) (Hn2 : ¬ no_constraint h2) (Hn12 : ¬ no_constraint h12).
Context (E1 : p_self1 p = crun 0%R (rev h1)) (E2 : p_self2 p = crun 0%R (rev h2)) (E12 : p_other p = crun 0%R (rev h12)).

Lemma face_kept_true h e1 e2 : ¬ no_constraint h → ent_evaluate top O (crun 0%R (rev h)) e1 e2 = Ok true → face_kept top O h e1 e2.
Proof.
  intros Hn He f1 f2 t1 t2 M -> -> HP. destruct (eval_faces top O h f1 f2 t1 t2 M Hn HP) as (b & Hb & _ & Hk). apply Hk. congruence.
Qed.
Lemma kept_lemma s1 s2 passes x : reached (alt_run (ent_evaluate top O) ord p s1 s2 passes) x →
  pairwise (face_kept top O h1) (a_set1 x) ∧ pairwise (face_kept top O h2) (a_set2 x) ∧
  crosswise (face_kept top O h12) (a_set1 x) (a_set2 x).
Proof.
  intros Hr. destruct (c86_pairs_lemma _ ord Hord p Hids Ht1 Ht2 s1 s2 passes x Hr) as (A & B & C). rewrite E1 in A. rewrite E2 in B. rewrite E12 in C.
  split; [|split].
  - intros i j y z Hij Hy Hz. apply face_kept_true; [done|]. by eapply A.
  - intros i j y z Hij Hy Hz. apply face_kept_true; [done|]. by eapply B.
  - intros i j y z Hy Hz. destruct (C i j y z Hy Hz) as [C1 C2]. split; intros Hij; apply face_kept_true; auto.
Qed.

Lemma all_faces h es f M : ¬ no_constraint h → comparable top O h es f M →
  ∃ b, all_of (λ y, ent_evaluate top O (crun 0%R (rev h)) y (EFace f)) es = Ok b ∧
    (kept_with h es f 0 (M / 10000000) → b = true) ∧ (b = true → kept_with h es f (M / 10000000) 0).
Proof.
  intros Hn. induction es as [|e es IH]; intros Hc.
  { exists true. split; [done|]. split; [done|]. intros _ e g t1 t2 []. }
  destruct (Hc e (or_introl eq_refl)) as (g & t1 & t2 & -> & HP).
  destruct (eval_faces top O h g f t1 t2 M Hn HP) as (b & Hb & K1 & K2).
  destruct IH as (b' & Hb' & K1' & K2'). { intros e He. apply Hc. by right. }
  cbn [all_of]. rewrite Hb. cbn [obind]. destruct b.
  - exists b'. split; [done|]. split.
    + intros Hk. apply K1'. intros e g' u1 u2 He. apply Hk. by right.
    + intros ->. intros e g' u1 u2 [<-|He] Eg U1 U2.
      * injection Eg as <-. assert (u1 = t1) as -> by (pose proof (po_t1 _ _ _ _ _ _ _ _ HP); congruence).
        assert (u2 = t2) as -> by (pose proof (po_t2 _ _ _ _ _ _ _ _ HP); congruence). by apply K2.
      * by eapply K2'.
  - exists false. split; [done|]. split; [|done]. intros Hk. apply K1. eapply Hk; [by left|done|apply HP|apply HP].
Qed.

Lemma pass_lemma s1 s2 x f M : p_before p = [] → p_after p = [] → p_skip p = false →
  (if a_into1 x then s1 (a_drawn1 x) else s2 (a_drawn2 x)) = Ok (EFace f) →
  let own := set_of (a_into1 x) x in let other := set_of (negb (a_into1 x)) x in
  let h := if a_into1 x then h1 else h2 in
  comparable top O h own f M → comparable top O h12 other f M →
  ∃ x', alt_body (ent_evaluate top O) p s1 s2 x = Ok x' ∧
    (kept_with h own f 0 (M / 10000000) → kept_with h12 other f 0 (M / 10000000) → taken x (EFace f) x') ∧
    (¬ kept_with h own f (M / 10000000) 0 ∨ ¬ kept_with h12 other f (M / 10000000) 0 → refused x x').
Proof.
  intros Pb Pa Ps Ee own other h C1 C2.
  assert (Hh : ¬ no_constraint h) by (unfold h; by destruct (a_into1 x)).
  destruct (all_faces h own f M Hh C1) as (b1 & B1 & K1 & K1').
  destruct (all_faces h12 other f M Hn12 C2) as (b2 & B2 & K2 & K2').
  assert (Es : (if a_into1 x then p_self1 p else p_self2 p) = crun 0%R (rev h)) by (unfold h; by destruct (a_into1 x)).
  unfold alt_body. rewrite Ee. cbn [obind]. rewrite Ps. cbn [obind]. rewrite Pb, Pa. cbn [all_of obind negb]. rewrite Es, E12.
  replace (if a_into1 x then a_set1 x else a_set2 x) with own by reflexivity.
  replace (if a_into1 x then a_set2 x else a_set1 x) with other by (unfold other, set_of; by destruct (a_into1 x)).
  rewrite B1. cbn [obind]. destruct b1; cbn [negb].
  2: { eexists. split; [done|]. split; [intros Hk; by specialize (K1 Hk)|].
       intros _. unfold refused. by destruct x as [[] ? ? ? ? ?]. }
  rewrite B2. cbn [obind]. destruct b2; cbn [negb].
  2: { eexists. split; [done|]. split; [intros _ Hk; by specialize (K2 Hk)|].
       intros _. unfold refused. by destruct x as [[] ? ? ? ? ?]. }
  eexists. split; [done|]. split.
  - intros _ _. unfold taken, own, set_of. destruct x as [[] u1 u2 st ? ?]; cbn [a_into1 a_set1 a_set2 a_status negb alt_drawn alt_accept alt_flip].
    + split; [done|]. split; [done|]. split; [done|]. unfold print_state, increase_counter. by repeat case_match.
    + split; [done|]. split; [done|]. split; [done|]. unfold print_state, increase_counter. by repeat case_match.
  - intros [Hn|Hn]; exfalso; apply Hn; [by apply K1'|by apply K2'].
Qed.
End Kept.

(** example 1 *)
Definition h_self : list (cop R) := rev [SetMinDistance (1/20)%R; SetMinAngle (30 * PI / 180)%R; SetMinMagnitude (1/20)%R; SetMinIsDistance (1/20)%R].
Definition h_other : list (cop R) := SetMinAngle (40 * PI / 180)%R :: h_self.
Lemma self_is : (ex1_self : constraints R) = crun 0%R (rev h_self).
Proof.
  unfold ex1_self. change (n0 : R) with 0%R. change (nlit 1 20 : R) with (1 / 20)%R.
  replace (to_radians (nlit 30 1) : R) with (30 * PI / 180)%R by (unfold to_radians; simpl; field). reflexivity.
Qed.
Lemma other_is : (ex1_other : constraints R) = crun 0%R (rev h_other).
Proof.
  unfold ex1_other. rewrite self_is.
  replace (to_radians (nlit 40 1) : R) with (40 * PI / 180)%R by (unfold to_radians; simpl; field). reflexivity.
Qed.
Lemma h_self_calls : calls_of (30 * PI / 180) h_self.
Proof. repeat split. Qed.
Lemma h_other_calls : calls_of (40 * PI / 180) h_other.
Proof. repeat split. Qed.

Section Ex1.
Context (top : R) (O : ent_ops R) (srt : list (V3 R) → list (V3 R)) (ord : gmap N N → list (N * N)).
Context (HS : sorts srt) (Hord : ∀ m, ord m ≡ₚ map_to_list m) (HT : (2 <= top)%R).
Context (d1 d2 : N → poly_draws R) (HV1 : ∀ i, ex1_values (d1 i)) (HV2 : ∀ i, ex1_values (d2 i)).

Lemma delivered d ds l e : delivers (quad_sampler srt d) ds → l `sublist_of` ds → e ∈ l → sampled srt d e.
Proof.
  intros Hd Hl He. assert (He' : e ∈ ds) by (by eapply elem_of_submseteq; [done|apply sublist_submseteq]).
  apply elem_of_list_lookup in He' as [i Hi]. specialize (Hd i e Hi). unfold quad_sampler in Hd.
  destruct (sample_quad srt (d (N.of_nat i))) as [q| | |] eqn:Eq; try done. cbn in Hd. exists (N.of_nat i), q. split; [done|]. congruence.
Qed.
Lemma spaced_true thr h da db e1 e2 : calls_of thr h → (∀ i, ex1_values (da i)) → (∀ i, ex1_values (db i)) →
  sampled srt da e1 → sampled srt db e2 → ent_evaluate top O (crun 0%R (rev h)) e1 e2 = Ok true → spaced O thr e1 e2.
Proof.
  intros Hc Va Vb (i & r1 & S1 & ->) (j & r2 & S2 & ->) He q1 q2 Q1 Q2 HD. injection Q1 as <-. injection Q2 as <-.
  by eapply (eval_spaced top O srt HS HT thr h Hc (da i) (db j)).
Qed.

Lemma ex1_lemma passes x : reached (ex1 top O srt ord d1 d2 passes) x →
  (∀ e, e ∈ a_set1 x → sampled srt d1 e) ∧ (∀ e, e ∈ a_set2 x → sampled srt d2 e) ∧
  pairwise (spaced O (30 * PI / 180)) (a_set1 x) ∧ pairwise (spaced O (30 * PI / 180)) (a_set2 x) ∧
  crosswise (spaced O (40 * PI / 180)) (a_set1 x) (a_set2 x).
Proof.
  intros Hr. unfold ex1 in Hr.
  destruct (c86_lemma _ ord Hord ex1_plan ltac:(done) ltac:(done) ltac:(done) _ _ passes x Hr) as (lg & ds1 & ds2 & _ & _ & D1 & D2 & L1 & L2 & _).
  destruct (c86_pairs_lemma _ ord Hord ex1_plan ltac:(done) ltac:(done) ltac:(done) _ _ passes x Hr) as (A & B & C).
  assert (S1 : ∀ e, e ∈ a_set1 x → sampled srt d1 e) by (intros; by eapply delivered).
  assert (S2 : ∀ e, e ∈ a_set2 x → sampled srt d2 e) by (intros; by eapply delivered).
  change (p_self1 ex1_plan) with (ex1_self : constraints R) in A. change (p_self2 ex1_plan) with (ex1_self : constraints R) in B.
  change (p_other ex1_plan) with (ex1_other : constraints R) in C. rewrite self_is in A, B. rewrite other_is in C.
  split; [done|]. split; [done|]. split; [|split].
  - intros i j y z Hij Hy Hz. eapply (spaced_true _ _ d1 d1); eauto using h_self_calls, elem_of_list_lookup_2.
  - intros i j y z Hij Hy Hz. eapply (spaced_true _ _ d2 d2); eauto using h_self_calls, elem_of_list_lookup_2.
  - intros i j y z Hy Hz. destruct (C i j y z Hy Hz) as [C1 C2].
    split; intros Hij; [eapply (spaced_true _ _ d1 d2)|eapply (spaced_true _ _ d2 d1)]; eauto using h_other_calls, elem_of_list_lookup_2.
Qed.
Lemma ex1_size passes x : ex1 top O srt ord d1 d2 passes = AltDone x → length (a_set1 x) = 15 ∧ length (a_set2 x) = 15.
Proof.
  intros Hr. pose proof (c86_sizes_lemma _ ord Hord ex1_plan ltac:(done) ltac:(done) ltac:(done) _ _ passes x Hr) as E.
  cbn in E. injection E as E1 E2. lia.
Qed.
End Ex1.
