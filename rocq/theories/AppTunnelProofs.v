(** Proofs for C87: the network around the tunnel. *)

From stdpp Require Import prelude gmap list.
From Verif Require Import Base NumModel VecModel StatusModel StatusProofs ConstraintsModel ConstraintsSpec
  ConstraintsProofs AppModel AppSpec.

Section Tunnel.
Context {A : Type} `{Num A} `{Trig A} {Pt Arc Ell Edge Face P F V IS : Type}.
Context (K : kernel A F Pt Arc Ell Edge Face) (T : tunnel A P F V IS).
Notation eval := (evaluate nltb (λ a b, nleb b a) K).

Lemma small_scale_false vs is : small_scale T vs is = Ok false ↔ vertices_clear T vs is.
Proof.
  unfold vertices_clear, small_scale. induction vs as [|v vs IH]; simpl.
  { split; [|done]. intros _ v Hv. by apply elem_of_nil in Hv. }
  split.
  - destruct (t_distance T v is) as [d| | |] eqn:E; simpl; try done.
    destruct (nltb d (nlit 1 1000)) eqn:El; simpl; [done|]. intros Hr w Hw.
    apply elem_of_cons in Hw as [->|Hw]; [by exists d|]. by apply IH.
  - intros Hr. destruct (Hr v) as (d & -> & Hd); [left|]. simpl. rewrite Hd. simpl. apply IH.
    intros w Hw. apply Hr. by right.
Qed.

Lemma part_of_some c f a : part_of T c = Ok (Some (f, a)) ↔ remains T c f a.
Proof.
  unfold part_of, remains. split.
  - destruct (t_contained T c) as [[|g [|]]| | |] eqn:E; simpl; try done.
    destruct (t_area_f T g) as [b| | |] eqn:Ea; simpl; try done.
    destruct (nltb b _) eqn:El; [done|]. intros [= <- <-]. done.
  - intros (-> & Ha & Hl). simpl. rewrite Ha. simpl. by rewrite Hl.
Qed.

Lemma judge_some c is others l f a :
  judge K T c is others l = Ok (Some (f, a)) ↔
  t_empty T is = false ∧ vertices_clear T (t_vertices_p T c) is ∧ vertices_clear T others is ∧
  remains T c f a ∧ ∀ p, p ∈ l → respects K p.1 p.2 f.
Proof.
  unfold judge. split.
  - destruct (t_empty T is); [done|].
    destruct (small_scale T (t_vertices_p T c) is) as [[]| | |] eqn:E1; simpl; try done.
    destruct (small_scale T others is) as [[]| | |] eqn:E2; simpl; try done.
    destruct (part_of T c) as [[[g b]|]| | |] eqn:E3; simpl; try done.
    destruct (fits K g l) as [[]| | |] eqn:E4; simpl; try done. intros [= <- <-].
    apply small_scale_false in E1, E2. apply part_of_some in E3.
    repeat match goal with |- _ /\ _ => split end; try done.
    intros p Hp. apply (proj1 (all_of_true _ _) E4 p) in Hp. intros e He. apply (proj1 (all_of_true _ _) Hp e He).
  - intros (-> & E1 & E2 & E3 & E4). apply small_scale_false in E1, E2. apply part_of_some in E3.
    rewrite E1. simpl. rewrite E2. simpl. rewrite E3. simpl.
    replace (fits K f l) with (Ok true); [done|]. symmetry. apply all_of_true. intros p Hp.
    apply all_of_true. by apply E4.
Qed.

Lemma judge1_some k own c f a : judge1 K T k own c = Ok (Some (f, a)) ↔ ok1 K T k own c f a.
Proof.
  unfold judge1, ok1, at_tunnel, bounded. split.
  - destruct (t_meet_tunnel T c) as [is| | |] eqn:E; simpl; try done. intros Hj.
    apply judge_some in Hj as (H1 & H2 & _ & H3 & H4).
    split; [split; [done|]; by exists is|]. split; [apply (H4 (c4_1 k, own)); left|].
    split.
    + apply (H4 (c4_boundary k, [t_tunnel T])); [right; left|by left].
    + apply (H4 (c4_boundary k, [t_sphere T])); [right; right; left|by left].
  - intros ((H3 & is & -> & H1 & H2) & H4 & H5 & H6). simpl. apply judge_some.
    repeat match goal with |- _ /\ _ => split end; try done.
    { intros v Hv. by apply elem_of_nil in Hv. }
    intros p Hp. apply elem_of_cons in Hp as [->|Hp]; [done|].
    apply elem_of_cons in Hp as [->|Hp]; [|apply elem_of_list_singleton in Hp as ->];
      intros e He; by apply elem_of_list_singleton in He as ->.
Qed.

Lemma judge2_some k set1 own e c f a :
  judge2 K T k set1 own e c = Ok (Some (f, a)) ↔ ok2 K T k set1 own e c f a.
Proof.
  unfold judge2, ok2, at_entity, bounded. split.
  - destruct (t_meet T c e) as [is| | |] eqn:E; simpl; try done. intros Hj.
    apply judge_some in Hj as (H1 & H2 & H2' & H3 & H4).
    split; [split; [done|]; by exists is|]. split; [apply (H4 (c4_other k, set1)); left|].
    split; [apply (H4 (c4_2 k, own)); right; left|].
    split.
    + apply (H4 (c4_boundary k, [t_tunnel T])); [do 3 right; left|by left].
    + apply (H4 (c4_boundary k, [t_sphere T])); [do 2 right; left|by left].
  - intros ((H3 & is & -> & H1 & H2 & H2') & H4 & H5 & H6 & H7). simpl. apply judge_some.
    repeat match goal with |- _ /\ _ => split end; try done.
    intros p Hp. apply elem_of_cons in Hp as [->|Hp]; [done|].
    apply elem_of_cons in Hp as [->|Hp]; [done|].
    apply elem_of_cons in Hp as [->|Hp]; [|apply elem_of_list_singleton in Hp as ->];
      intros g Hg; by apply elem_of_list_singleton in Hg as ->.
Qed.

Lemma judge3_some k set1 set2 own e c f a :
  judge3 K T k set1 set2 own e c = Ok (Some (f, a)) ↔ ok3 K T k set1 set2 own e c f a.
Proof.
  unfold judge3, ok3, at_entity, bounded. split.
  - destruct (t_meet T c e) as [is| | |] eqn:E; simpl; try done. intros Hj.
    apply judge_some in Hj as (H1 & H2 & H2' & H3 & H4).
    split; [split; [done|]; by exists is|]. split; [apply (H4 (c4_other k, set1)); left|].
    split; [apply (H4 (c4_other k, set2)); right; left|].
    split; [apply (H4 (c4_3 k, own)); do 2 right; left|].
    split.
    + apply (H4 (c4_boundary k, [t_tunnel T])); [do 4 right; left|by left].
    + apply (H4 (c4_boundary k, [t_sphere T])); [do 3 right; left|by left].
  - intros ((H3 & is & -> & H1 & H2 & H2') & H4 & H4' & H5 & H6 & H7). simpl. apply judge_some.
    repeat match goal with |- _ /\ _ => split end; try done.
    intros p Hp. apply elem_of_cons in Hp as [->|Hp]; [done|].
    apply elem_of_cons in Hp as [->|Hp]; [done|].
    apply elem_of_cons in Hp as [->|Hp]; [done|].
    apply elem_of_cons in Hp as [->|Hp]; [|apply elem_of_list_singleton in Hp as ->];
      intros g Hg; by apply elem_of_list_singleton in Hg as ->.
Qed.

Lemma total_snoc (start : A) l a : total start (l ++ [a]) = nadd (total start l) a.
Proof. unfold total. by rewrite fold_left_app. Qed.
Lemma total_app (start : A) l1 l2 : total start (l1 ++ l2) = total (total start l1) l2.
Proof. unfold total. by rewrite fold_left_app. Qed.

Lemma pairwise_snoc {B} (R : B → B → Prop) l x :
  pairwise R l → (∀ y, y ∈ l → R y x) → pairwise R (l ++ [x]).
Proof.
  intros Hp Hx i j y z Hij Hi Hj.
  destruct (decide (j < length l)) as [Hl|Hl].
  - rewrite lookup_app_l in Hi by lia. rewrite lookup_app_l in Hj by lia. exact (Hp i j y z Hij Hi Hj).
  - apply lookup_lt_Some in Hj as Hj'. rewrite app_length in Hj'. simpl in Hj'.
    assert (j = length l) as -> by lia. rewrite lookup_app_l in Hi by lia.
    rewrite lookup_app_r, Nat.sub_diag in Hj by lia. injection Hj as <-.
    apply Hx. by eapply elem_of_list_lookup_2.
Qed.

(** ** Step 1 *)
Section Step1.
Context (ord : gmap N N → list (N * N)) (Hord : ∀ m, ord m ≡ₚ map_to_list m).
Context (k : ex4_constraints A) (target : N) (Ht : (target < 2^64)%N) (s : N → outcome P).

Record inv1 (n : N) (x : stage A F) : Prop := {
  i1_draws : ∃ areas r, draws s (ok1 K T k) n (g_set x) areas r ∧ g_area x = total n0 areas ∧
    rejected (g_status x) = wrap64 r ∧ n = (N.of_nat (length (g_set x)) + r)%N;
  i1_counts : counts (g_status x) = {[1%N := N.of_nat (length (g_set x))]};
  i1_targets : targets (g_status x) = {[1%N := target]};
  i1_len : (N.of_nat (length (g_set x)) ≤ target)%N }.

Lemma finished1 n x : inv1 n x →
  finished_all (g_status x) (ord (counts (g_status x))) = Ok (bool_decide (N.of_nat (length (g_set x)) = target)).
Proof.
  intros [_ Hc Htg Hl]. pose proof (Hord (counts (g_status x))) as Hp.
  rewrite Hc in Hp at 2. rewrite map_to_list_singleton in Hp.
  symmetry in Hp. apply Permutation_singleton_inj in Hp || apply Permutation_length_1_inv in Hp.
  rewrite Hp. unfold finished_all. simpl. rewrite Htg, lookup_singleton.
  case_bool_decide; case_bool_decide; try done; lia.
Qed.

Lemma inv1_next n x c o :
  inv1 n x → N.of_nat (length (g_set x)) ≠ target → s n = Ok c → judge1 K T k (g_set x) c = Ok o →
  inv1 (n + 1) (stage_next 1 o x).
Proof.
  intros [(areas & r & Hd & Ha & Hr & Hn) Hc Htg Hl] Hne Hs Hj. destruct o as [[f a]|]; simpl.
  - apply judge1_some in Hj. split; simpl.
    + exists (areas ++ [a]), r. rewrite total_snoc, Ha, app_length. simpl.
      split; [|split; [done|]; split; [done|lia]]. by eapply draws_taken.
    + rewrite Hc. unfold subscript. rewrite lookup_singleton, insert_singleton, app_length. simpl.
      f_equal. unfold wrap64. rewrite N.mod_small; lia.
    + rewrite Htg. unfold at_or_insert. by rewrite lookup_singleton.
    + rewrite app_length. simpl. lia.
  - split; simpl; [|done..]. exists areas, (r + 1)%N. split.
    + eapply draws_left; [done..|]. intros f a Hok. apply judge1_some in Hok. congruence.
    + split; [done|]. split; [|lia]. rewrite Hr. apply wrap64_add.
Qed.

Lemma loop1 passes : ∀ n x, inv1 n x →
  match stage1_loop K T ord k s passes n x with
  | StageDone y => ∃ m, inv1 m y ∧ (m ≤ n + N.of_nat passes)%N ∧ N.of_nat (length (g_set y)) = target
  | StageRunning y => inv1 (n + N.of_nat passes) y ∧ (N.of_nat (length (g_set y)) < target)%N
  | StageFailed o => ∃ m y, inv1 m y ∧ (m < n + N.of_nat passes)%N ∧
      (∀ z, obind (s m) (judge1 K T k (g_set y)) ≠ Ok z) ∧
      omapo (λ _, tt) (obind (s m) (judge1 K T k (g_set y))) = o
  end.
Proof.
  induction passes as [|passes IH]; intros n x Hx; simpl; rewrite (finished1 n x Hx);
    pose proof (i1_len _ _ Hx) as Hle.
  - case_bool_decide as Hd; [exists n; split; [done|]; split; [lia|done]|].
    rewrite N.add_0_r. split; [done|lia].
  - case_bool_decide as Hd; [exists n; split; [done|]; split; [lia|done]|].
    destruct (obind (s n) (judge1 K T k (g_set x))) as [o|e| |] eqn:E.
    2-4: exists n, x; rewrite E; split; [done|]; split; [lia|]; split; done.
    assert (Hi : inv1 (n + 1) (stage_next 1 o x)).
    { destruct (s n) as [c| | |] eqn:Es; simpl in E; try done. by eapply inv1_next. }
    specialize (IH _ _ Hi). destruct (stage1_loop K T ord k s passes (n + 1) _).
    + destruct IH as (m & H1 & H2 & H3). exists m. split; [done|]. split; [lia|done].
    + replace (n + N.pos (Pos.of_succ_nat passes))%N with (n + 1 + N.of_nat passes)%N by lia. done.
    + destruct IH as (m & y & H1 & H2 & H3). exists m, y. split; [done|]. split; [lia|done].
Qed.

Lemma inv1_init : inv1 0 (mkStage (fst (set_target_count 1 target init)) [] n0).
Proof.
  split; simpl; try done; try lia.
  exists [], 0%N. split; [constructor|]. split; [done|]. split; [done|lia].
Qed.
End Step1.

Lemma draws_facts k s n set areas r :
  draws s (ok1 K T k) n set areas r →
  n = (N.of_nat (length set) + r)%N ∧ length areas = length set ∧
  pairwise (λ x y, eval (c4_1 k) x y = Ok true) set ∧
  ∀ i f a, set !! i = Some f → areas !! i = Some a →
    bounded K T k f ∧ ∃ m c, (m < n)%N ∧ s m = Ok c ∧ at_tunnel T c f a.
Proof.
  induction 1 as [|n set areas r c f a Hd IH Hs Hok|n set areas r c Hd IH Hs Hok].
  - split; [done|]. split; [done|]. split; [by intros i j x y|]. by intros i f a.
  - destruct IH as (H1 & H2 & H3 & H4). destruct Hok as (O1 & O2 & O3).
    rewrite !app_length. simpl. split; [lia|]. split; [lia|]. split.
    { apply pairwise_snoc; [done|]. intros y Hy. by apply O2. }
    intros i g b Hg Hb. destruct (decide (i < length set)) as [Hi|Hi].
    + rewrite lookup_app_l in Hg by lia. rewrite lookup_app_l in Hb by lia. destruct (H4 i g b Hg Hb) as (? & m & c' & ? & ? & ?).
      split; [done|]. exists m, c'. split; [lia|done].
    + apply lookup_lt_Some in Hg as Hl. rewrite app_length in Hl. simpl in Hl.
      assert (i = length set) as -> by lia.
      rewrite lookup_app_r, Nat.sub_diag in Hg by lia. rewrite lookup_app_r in Hb by lia.
      rewrite H2, Nat.sub_diag in Hb. injection Hg as <-. injection Hb as <-. split; [done|].
      exists n, c. split; [lia|done].
  - destruct IH as (H1 & H2 & H3 & H4). split; [lia|]. split; [done|]. split; [done|].
    intros i g b Hg Hb. destruct (H4 i g b Hg Hb) as (? & m & c' & ? & ? & ?).
    split; [done|]. exists m, c'. split; [lia|done].
Qed.

(** ** The search for one entity *)
Section Search.
Context (id m : N) (ok : list F → P → F → A → Prop) (jdg : list F → P → outcome (option (F * A))).
Context (Hj : ∀ own c f a, jdg own c = Ok (Some (f, a)) ↔ ok own c f a).
Context (s : N → outcome P).

Lemma search_spec fuel : ∀ i x y t acc,
  (N.to_nat (m + 1 - i) ≤ fuel)%nat → (i ≤ m + 1)%N →
  search id m jdg s fuel i x = Ok (y, t, acc) →
  (i ≤ t ≤ m + 1)%N ∧
  if acc then
    (i < t)%N ∧
    (∀ j, (i ≤ j < t - 1)%N → ∃ c, s j = Ok c ∧ ∀ f a, ¬ ok (g_set x) c f a) ∧
    ∃ c f a, s (t - 1)%N = Ok c ∧ ok (g_set x) c f a ∧
      y = stage_accept id (f, a) (Nat.iter (N.to_nat (t - 1 - i)) stage_reject x)
  else
    t = (m + 1)%N ∧ (∀ j, (i ≤ j ≤ m)%N → ∃ c, s j = Ok c ∧ ∀ f a, ¬ ok (g_set x) c f a) ∧
    y = Nat.iter (N.to_nat (t - i)) stage_reject x.
Proof.
  induction fuel as [|fuel IH]; intros i x y t acc Hf Hi.
  { simpl. destruct (N.leb_spec i m) as [Him|Him]; [lia|]. intros [= <- <- <-].
    split; [lia|]. split; [lia|]. split; [intros; lia|].
    replace (N.to_nat (i - i)) with 0 by lia. done. }
  simpl. destruct (N.leb_spec i m) as [Him|Him].
  2: { intros [= <- <- <-]. split; [lia|]. split; [lia|]. split; [intros; lia|].
       replace (N.to_nat (i - i)) with 0 by lia. done. }
  destruct (s i) as [c| | |] eqn:Es; simpl; try done.
  destruct (jdg (g_set x) c) as [[[f a]|]| | |] eqn:Ej; simpl; try done.
  - intros [= <- <- <-]. split; [lia|]. split; [lia|]. split; [intros; lia|].
    exists c, f, a. replace (i + 1 - 1)%N with i by lia. apply Hj in Ej.
    replace (N.to_nat (i - i)) with 0 by lia. done.
  - intros Hs.
    assert (Hno : ∀ f a, ¬ ok (g_set x) c f a).
    { intros f a Hok. apply Hj in Hok. congruence. }
    apply IH in Hs; [|lia..]. simpl in Hs. destruct Hs as (Ht & Hs). split; [lia|].
    destruct acc.
    + destruct Hs as (H1 & H2 & c' & f & a & H3 & H4 & ->). split; [lia|]. split.
      { intros j Hjj. destruct (decide (j = i)) as [->|]; [by exists c|]. apply H2. lia. }
      exists c', f, a. split; [done|]. split; [done|]. f_equal.
      replace (N.to_nat (t - 1 - i)) with (S (N.to_nat (t - 1 - (i + 1)))) by lia.
      rewrite Nat.iter_succ_r. done.
    + destruct Hs as (H1 & H2 & ->). split; [done|]. split.
      { intros j Hjj. destruct (decide (j = i)) as [->|]; [by exists c|]. apply H2. lia. }
      replace (N.to_nat (t - i)) with (S (N.to_nat (t - (i + 1)))) by lia.
      rewrite Nat.iter_succ_r. done.
Qed.

Lemma search_ends fuel : ∀ i x,
  (N.to_nat (m + 1 - i) ≤ fuel)%nat →
  (∀ i own, ∃ o, obind (s i) (jdg own) = Ok o) →
  ∃ r, search id m jdg s fuel i x = Ok r.
Proof.
  induction fuel as [|fuel IH]; intros i x Hf Hall; simpl.
  { destruct (N.leb_spec i m) as [Him|Him]; [lia|]. by eexists. }
  destruct (N.leb_spec i m) as [Him|Him]; [|by eexists]. destruct (Hall i (g_set x)) as [o ->]. simpl.
  destruct o as [fa|]; [by eexists|]. apply IH; [lia|done].
Qed.

Lemma search_never_diverges fuel : ∀ i x,
  (N.to_nat (m + 1 - i) ≤ fuel)%nat →
  (∀ i own, obind (s i) (jdg own) ≠ Diverge) →
  search id m jdg s fuel i x ≠ Diverge.
Proof.
  induction fuel as [|fuel IH]; intros i x Hf Hall; simpl.
  { destruct (N.leb_spec i m) as [Him|Him]; [lia|done]. }
  destruct (N.leb_spec i m) as [Him|Him]; [|done]. specialize (Hall i (g_set x)) as Hi.
  destruct (obind (s i) (jdg (g_set x))) as [[fa|]| | |]; simpl; try done. apply IH; [lia|done].
Qed.
End Search.

Lemma reject_iter n (x : stage A F) :
  g_set (Nat.iter n stage_reject x) = g_set x ∧ g_area (Nat.iter n stage_reject x) = g_area x ∧
  counts (g_status (Nat.iter n stage_reject x)) = counts (g_status x) ∧
  targets (g_status (Nat.iter n stage_reject x)) = targets (g_status x) ∧
  wrap64 (rejected (g_status (Nat.iter n stage_reject x))) = wrap64 (rejected (g_status x) + N.of_nat n) ∧
  (rejected (g_status x) < 2^64 → rejected (g_status (Nat.iter n stage_reject x)) < 2^64)%N.
Proof.
  induction n as [|n IH]; simpl.
  { by rewrite N.add_0_r. }
  destruct IH as (H1 & H2 & H3 & H4 & H5 & H6). repeat match goal with |- _ /\ _ => split end; try done.
  - rewrite wrap64_idem. rewrite <- wrap64_add, H5, wrap64_add. f_equal. lia.
  - intros _. by apply N.mod_lt.
Qed.

(** ** Steps 2 and 3 *)
Section Steps.
Context (id m : N) (ok : list F → F → P → F → A → Prop).
Context (jdg : list F → F → P → outcome (option (F * A))).
Context (Hj : ∀ own e c f a, jdg own e c = Ok (Some (f, a)) ↔ ok own e c f a).
Context (s : N → F → outcome (N → outcome P)).

Lemma stage_loop_spec : ∀ es n x y fs,
  stage_loop id m jdg s n es x = Ok (y, fs) →
  ∃ news, length fs = length es ∧ length news = length es ∧
    g_set y = g_set x ++ faces_of news ∧ g_area y = total (g_area x) (areas_of news) ∧
    wrap64 (rejected (g_status y)) = wrap64 (rejected (g_status x) + left_over fs) ∧
    (rejected (g_status x) < 2^64 → rejected (g_status y) < 2^64)%N ∧
    (∀ t, targets (g_status x) = {[id := t]} → counts (g_status x) = {[id := wrap64 (N.of_nat (length (g_set x)))]} →
       targets (g_status y) = {[id := t]} ∧ counts (g_status y) = {[id := wrap64 (N.of_nat (length (g_set y)))]}) ∧
    ∀ i e r o, es !! i = Some e → fs !! i = Some r → news !! i = Some o →
      ∃ sampler, s (n + N.of_nat i)%N e = Ok sampler ∧
        searched sampler (ok (g_set x ++ faces_of (take i news)) e) m r o.
Proof.
  induction es as [|e es IH]; intros n x y fs; cbn [stage_loop].
  { intros [= <- <-]. exists []. simpl. rewrite app_nil_r, N.add_0_r.
    repeat match goal with |- _ /\ _ => split end; try done. }
  destruct (s n e) as [sampler| | |] eqn:Es; cbn [obind]; try done.
  destruct (search id m (λ own, jdg own e) sampler (S (N.to_nat m)) 0 x) as [[[x1 t] acc]| | |] eqn:Er;
    cbn [obind]; try done.
  destruct (stage_loop id m jdg s (n + 1) es x1) as [[y' fs']| | |] eqn:El; cbn [obind]; try done.
  intros Heq. injection Heq as Hy Hfs. subst y fs.
  pose proof (search_spec id m (λ own, ok own e) (λ own, jdg own e) (λ own c f a, Hj own e c f a) sampler
    (S (N.to_nat m)) 0 x x1 t acc ltac:(lia) ltac:(lia) Er) as Er'. clear Er. rename Er' into Er.
  destruct (IH _ _ _ _ El) as (news & L1 & L2 & G1 & G2 & G3 & G6 & G4 & G5).
  destruct Er as (Ht & Er). destruct acc.
  - destruct Er as (E1 & E2 & c & f & a & E3 & E4 & ->).
    destruct (reject_iter (N.to_nat (t - 1 - 0)) x) as (R1 & R2 & R3 & R4 & R5 & R6).
    exists (Some (c, f, a) :: news). simpl in *.
    repeat match goal with |- _ /\ _ => split end; try lia.
    + rewrite G1, R1. simpl. by rewrite <- app_assoc.
    + rewrite G2, R2. done.
    + rewrite G3. rewrite <- wrap64_add, R5, wrap64_add. f_equal. lia.
    + intros t' T1 T2. apply G4.
      * rewrite R4, T1. unfold at_or_insert. by rewrite lookup_singleton.
      * rewrite R3, T2. unfold subscript. rewrite lookup_singleton, insert_singleton, R1, app_length. simpl.
        f_equal. rewrite wrap64_add. f_equal. lia.
    + intros i e' r o Hi Hr Ho. destruct i as [|i]; simpl in *.
      * simplify_eq. exists sampler. replace (n + 0)%N with n by lia. split; [done|].
        rewrite app_nil_r. split; simpl.
        { by apply bool_decide_decide || (destruct (N.leb_spec m t); symmetry; [by apply bool_decide_eq_true|apply bool_decide_eq_false; lia]). }
        repeat match goal with |- _ /\ _ => split end; try done; try lia. intros i Hi. apply E2. lia.
      * destruct (G5 i e' r o Hi Hr Ho) as (sm & S1 & S2). exists sm. split; [rewrite <- S1; f_equal; lia|].
        rewrite R1 in S2. by rewrite <- app_assoc in S2.
  - destruct Er as (E1 & E2 & ->).
    destruct (reject_iter (N.to_nat (t - 0)) x) as (R1 & R2 & R3 & R4 & R5 & R6).
    exists (None :: news). simpl in *.
    repeat match goal with |- _ /\ _ => split end; try lia.
    + by rewrite G1, R1.
    + by rewrite G2, R2.
    + rewrite G3. rewrite <- wrap64_add, R5, wrap64_add. f_equal. lia.
    + intros t' T1 T2. apply G4; [by rewrite R4|]. by rewrite R3, R1.
    + intros i e' r o Hi Hr Ho. destruct i as [|i]; simpl in *.
      * simplify_eq. exists sampler. replace (n + 0)%N with n by lia. split; [done|].
        rewrite app_nil_r. split; simpl.
        { destruct (N.leb_spec m (m + 1)); symmetry; [by apply bool_decide_eq_true|lia]. }
        split; [done|]. split; [done|]. intros i Hi. apply E2. lia.
      * destruct (G5 i e' r o Hi Hr Ho) as (sm & S1 & S2). exists sm. split; [rewrite <- S1; f_equal; lia|].
        by rewrite R1 in S2.
Qed.

Lemma stage_loop_ends : ∀ es n x,
  (∀ n e, ∃ sampler, s n e = Ok sampler ∧ ∀ i, ∃ c, sampler i = Ok c) →
  (∀ own e c, ∃ o, jdg own e c = Ok o) →
  ∃ r, stage_loop id m jdg s n es x = Ok r.
Proof.
  induction es as [|e es IH]; intros n x Hs Hall; cbn [stage_loop]; [by eexists|].
  destruct (Hs n e) as (sm & -> & Hsm). cbn [obind].
  destruct (search_ends id m (λ own, jdg own e) sm (S (N.to_nat m)) 0 x) as ([[x1 t] acc] & ->).
  { lia. }
  { intros i own. destruct (Hsm i) as (c & ->). simpl. apply Hall. }
  simpl. destruct (IH (n + 1)%N x1 Hs Hall) as ([y fs] & ->). simpl. by eexists.
Qed.
End Steps.

Lemma judge_total c is others l : all_answer K T → ∃ o, judge K T c is others l = Ok o.
Proof.
  intros (A1 & A2 & A3 & A4 & A5 & A6). unfold judge. destruct (t_empty T is); [by eexists|].
  assert (Hsm : ∀ vs, ∃ b, small_scale T vs is = Ok b).
  { intros vs. unfold small_scale. induction vs as [|v vs [b IH]]; simpl; [by eexists|].
    destruct (A3 v is) as [d ->]. simpl. destruct (nltb _ _); [by eexists|]. by exists b. }
  destruct (Hsm (t_vertices_p T c)) as [[] ->]; simpl; [by eexists|].
  destruct (Hsm others) as [[] ->]; simpl; [by eexists|].
  assert (Hp : ∃ o, part_of T c = Ok o).
  { unfold part_of. destruct (A4 c) as [fs ->]. simpl. destruct fs as [|f [|]]; [by eexists| |by eexists].
    destruct (A5 f) as [a ->]. simpl. destruct (nltb _ _); by eexists. }
  destruct Hp as [[[f a]|] ->]; simpl; [|by eexists].
  destruct (all_of_total (λ p, evaluate_set_entity nltb (λ a b, nleb b a) K p.1 p.2 f) l) as [b Hb].
  { intros p _. apply all_of_total. intros. apply A6. }
  unfold fits. rewrite Hb. simpl. by eexists.
Qed.

Lemma searched_bounds sampler ok m r o :
  searched (P := P) (F := F) (A := A) sampler ok m r o → (0 < f_tries r ≤ m + 1)%N.
Proof. intros [_ Hs]. destruct o as [[[c f] a]|]; naive_solver lia. Qed.

Lemma faces_of_app (l1 l2 : list (option (P * F * A))) : faces_of (l1 ++ l2) = faces_of l1 ++ faces_of l2.
Proof. unfold faces_of. apply omap_app. Qed.
Lemma faces_of_elem (l : list (option (P * F * A))) f :
  f ∈ faces_of l ↔ ∃ i c a, l !! i = Some (Some (c, f, a)).
Proof.
  unfold faces_of. rewrite elem_of_list_omap. split.
  - intros (o & Ho & Hf). destruct o as [[[c g] a]|]; simplify_eq/=.
    apply elem_of_list_lookup in Ho as [i Hi]. by exists i, c, a.
  - intros (i & c & a & Hi). exists (Some (c, f, a)). split; [by eapply elem_of_list_lookup_2|done].
Qed.

Lemma faces_of_length (l : list (option (P * F * A))) : length (faces_of l) ≤ length l.
Proof.
  induction l as [|o l IH]; [done|]. change (o :: l) with ([o] ++ l). rewrite faces_of_app, !app_length.
  destruct o; simpl; lia.
Qed.
Lemma faces_pairwise (R : F → F → Prop) (news : list (option (P * F * A))) :
  (∀ i c f a, news !! i = Some (Some (c, f, a)) → ∀ g, g ∈ faces_of (take i news) → R g f) →
  pairwise R (faces_of news).
Proof.
  induction news as [|o news IH] using rev_ind; intros HR.
  { by intros i j x y. }
  rewrite faces_of_app. assert (pairwise R (faces_of news)).
  { apply IH. intros i c f a Hi g Hg. apply (HR i c f a).
    - rewrite lookup_app_l; [done|]. by eapply lookup_lt_Some.
    - rewrite take_app_le; [done|]. apply lookup_lt_Some in Hi. lia. }
  destruct o as [[[c f] a]|]; simpl; [|by rewrite app_nil_r].
  apply pairwise_snoc; [done|]. intros g Hg. apply (HR (length news) c f a).
  - rewrite lookup_app_r, Nat.sub_diag by lia. done.
  - by rewrite take_app.
Qed.

Lemma judge_total1 k own c : all_answer K T → ∃ o, judge1 K T k own c = Ok o.
Proof. intros HA. unfold judge1. destruct (proj1 HA c) as [is ->]. simpl. by apply judge_total. Qed.
Lemma judge_total2 k set1 own e c : all_answer K T → ∃ o, judge2 K T k set1 own e c = Ok o.
Proof. intros HA. unfold judge2. destruct (proj1 (proj2 HA) c e) as [is ->]. simpl. by apply judge_total. Qed.
Lemma judge_total3 k set1 set2 own e c : all_answer K T → ∃ o, judge3 K T k set1 set2 own e c = Ok o.
Proof. intros HA. unfold judge3. destruct (proj1 (proj2 HA) c e) as [is ->]. simpl. by apply judge_total. Qed.

(** ** The properties *)
Lemma c87_step1_lemma ord k target s passes x :
  (∀ m, ord m ≡ₚ map_to_list m) → (target < 2^64)%N →
  (stage1 K T ord k target s passes = StageDone x → N.of_nat (length (g_set x)) = target) ∧
  (stage1 K T ord k target s passes = StageRunning x → (N.of_nat (length (g_set x)) < target)%N) ∧
  (stage1 K T ord k target s passes = StageDone x ∨ stage1 K T ord k target s passes = StageRunning x →
   ∃ n areas r,
     draws s (ok1 K T k) n (g_set x) areas r ∧ n = (N.of_nat (length (g_set x)) + r)%N ∧
     (stage1 K T ord k target s passes = StageRunning x → n = N.of_nat passes) ∧
     length areas = length (g_set x) ∧
     g_area x = total n0 areas ∧ rejected (g_status x) = (r mod 2^64)%N ∧
     snd (get_count 1 (g_status x)) = N.of_nat (length (g_set x)) ∧
     pairwise (λ y z, eval (c4_1 k) y z = Ok true) (g_set x) ∧
     ∀ i f a, g_set x !! i = Some f → areas !! i = Some a →
       bounded K T k f ∧ ∃ m c, (m < n)%N ∧ s m = Ok c ∧ at_tunnel T c f a).
Proof.
  intros Ho Ht. pose proof (loop1 ord Ho k target Ht s passes 0 _ (inv1_init k target Ht s)) as Hl.
  unfold stage1.
  assert (Hgo : ∀ n, inv1 k target s n x → ∃ areas r,
     draws s (ok1 K T k) n (g_set x) areas r ∧ n = (N.of_nat (length (g_set x)) + r)%N ∧
     length areas = length (g_set x) ∧
     g_area x = total n0 areas ∧ rejected (g_status x) = (r mod 2^64)%N ∧
     snd (get_count 1 (g_status x)) = N.of_nat (length (g_set x)) ∧
     pairwise (λ y z, eval (c4_1 k) y z = Ok true) (g_set x) ∧
     ∀ i f a, g_set x !! i = Some f → areas !! i = Some a →
       bounded K T k f ∧ ∃ m c, (m < n)%N ∧ s m = Ok c ∧ at_tunnel T c f a).
  { intros n [(areas & r & Hd & Ha & Hr & Hn) Hc _ _]. exists areas, r.
    destruct (draws_facts _ _ _ _ _ _ Hd) as (_ & D2 & D3 & D4).
    repeat match goal with |- _ /\ _ => split end; try done.
    simpl. rewrite Hc. unfold subscript. by rewrite lookup_singleton. }
  destruct (stage1_loop K T ord k s passes 0 _) as [z|z|o] eqn:E.
  - destruct Hl as (n & Hi & _ & Hlen). split; [by intros [= <-]|]. split; [done|].
    intros [[= ->]|?]; [|done]. destruct (Hgo n Hi) as (areas & r & H1 & H2 & H3).
    exists n, areas, r. split; [done|]. split; [done|]. split; [done|]. done.
  - destruct Hl as (Hi & Hlen). split; [done|]. split; [by intros [= <-]|].
    intros [?|[= ->]]; [done|]. destruct (Hgo _ Hi) as (areas & r & H1 & H2 & H3).
    exists (0 + N.of_nat passes)%N, areas, r. split; [done|]. split; [done|]. split; [|done].
    intros _. lia.
  - naive_solver.
Qed.

Lemma c87_step1_fails_lemma ord k target s passes o :
  (∀ m, ord m ≡ₚ map_to_list m) → (target < 2^64)%N →
  stage1 K T ord k target s passes = StageFailed o →
  ∃ n own, (n < N.of_nat passes)%N ∧ fails o (obind (s n) (judge1 K T k own)).
Proof.
  intros Ho Ht Hf. pose proof (loop1 ord Ho k target Ht s passes 0 _ (inv1_init k target Ht s)) as Hl.
  unfold stage1 in Hf. rewrite Hf in Hl. destruct Hl as (n & y & _ & H1 & H2 & H3).
  exists n, (g_set y). split; [lia|]. done.
Qed.
Lemma c87_step1_answers_lemma ord k target s passes o :
  (∀ m, ord m ≡ₚ map_to_list m) → (target < 2^64)%N →
  all_answer K T → (∀ n, ∃ c, s n = Ok c) →
  stage1 K T ord k target s passes ≠ StageFailed o.
Proof.
  intros Ho Ht HA Hs Hf. destruct (c87_step1_fails_lemma _ _ _ _ _ _ Ho Ht Hf) as (n & own & _ & Hn & _).
  destruct (Hs n) as [c Hc]. destruct (judge_total1 k own c HA) as [z Hz].
  apply (Hn z). by rewrite Hc.
Qed.

Lemma step_facts id m ok jdg s es st area y fs :
  (∀ own e c f a, jdg own e c = Ok (Some (f, a)) ↔ ok own e c f a) →
  (N.of_nat (length es) < 2^64)%N →
  stage_loop id m jdg s 0 es
    (mkStage (fst (set_target_count id (N.of_nat (length es)) (reset st))) [] area) = Ok (y, fs) →
  ∃ news : list (option (P * F * A)),
    searched_all s ok m es fs news ∧ g_set y = faces_of news ∧
    g_area y = total area (areas_of news) ∧
    rejected (g_status y) = (left_over fs mod 2^64)%N ∧
    snd (get_count id (g_status y)) = N.of_nat (length (g_set y)).
Proof.
  intros Hj Hlen Hs. apply (stage_loop_spec id m ok jdg Hj s) in Hs.
  destruct Hs as (news & L1 & L2 & G1 & G2 & G3 & G6 & G4 & G5). simpl in *.
  exists news. destruct (G4 (N.of_nat (length es))) as [_ G4']; [done|done|].
  assert (Hle : length (faces_of news) ≤ length news).
  { apply faces_of_length. }
  split; [|split; [done|]; split; [done|]; split].
  - split; [done|]. split; [done|]. intros n e r o He Hr Ho. apply (G5 n e r o He Hr Ho).
  - unfold wrap64 in G3. rewrite N.mod_small in G3 by (by apply G6). done.
  - rewrite G4'. unfold subscript. rewrite lookup_singleton. unfold wrap64. rewrite N.mod_small; [done|].
    rewrite G1. lia.
Qed.

Lemma searched_all_facts s ok m es fs news :
  searched_all (P := P) (A := A) s ok m es fs news →
  (∀ r, r ∈ fs → (0 < f_tries r ≤ m + 1)%N) ∧
  length (faces_of news) ≤ length es ∧
  (∀ f, f ∈ faces_of news → ∃ n e own c a, es !! n = Some e ∧ ok own e c f a) ∧
  (∀ R : F → F → Prop, (∀ own e c f a, ok own e c f a → ∀ g, g ∈ own → R g f) → pairwise R (faces_of news)).
Proof.
  intros (L1 & L2 & Hs).
  assert (Hel : ∀ i c f a, news !! i = Some (Some (c, f, a)) →
    ∃ e, es !! i = Some e ∧ ok (faces_of (take i news)) e c f a).
  { intros i c f a Hi. apply lookup_lt_Some in Hi as Hl.
    destruct (lookup_lt_is_Some_2 es i) as [e He]; [lia|].
    destruct (lookup_lt_is_Some_2 fs i) as [r Hr]; [lia|].
    destruct (Hs i e r _ He Hr Hi) as (sm & _ & _ & _ & _ & _ & Hok & _). by exists e. }
  split; [|split; [|split]].
  - intros r Hr. apply elem_of_list_lookup in Hr as [i Hi]. apply lookup_lt_Some in Hi as Hl.
    destruct (lookup_lt_is_Some_2 es i) as [e He]; [lia|].
    destruct (lookup_lt_is_Some_2 news i) as [o Ho]; [lia|].
    destruct (Hs i e r o He Hi Ho) as (sm & _ & Hse). by apply searched_bounds in Hse.
  - rewrite <- L2. apply faces_of_length.
  - intros f Hf. apply faces_of_elem in Hf as (i & c & a & Hi). destruct (Hel i c f a Hi) as (e & He & Hok).
    by exists i, e, (faces_of (take i news)), c, a.
  - intros R HR. apply faces_pairwise. intros i c f a Hi g Hg.
    destruct (Hel i c f a Hi) as (e & He & Hok). exact (HR _ _ _ _ _ Hok g Hg).
Qed.

Lemma c87_step2_lemma k m s x y fs :
  (N.of_nat (length (g_set x)) < 2^64)%N →
  stage2 K T k m s x = Ok (y, fs) →
  ∃ news,
    searched_all s (ok2 K T k (g_set x)) m (g_set x) fs news ∧ g_set y = faces_of news ∧
    g_area y = total (g_area x) (areas_of news) ∧ rejected (g_status y) = (left_over fs mod 2^64)%N ∧
    snd (get_count 2 (g_status y)) = N.of_nat (length (g_set y)) ∧
    length (g_set y) ≤ length (g_set x) ∧ (∀ r, r ∈ fs → (0 < f_tries r ≤ m + 1)%N) ∧
    pairwise (λ y z, eval (c4_2 k) y z = Ok true) (g_set y) ∧
    ∀ f, f ∈ g_set y → bounded K T k f ∧ respects K (c4_other k) (g_set x) f ∧
      ∃ e c a, e ∈ g_set x ∧ at_entity T e c f a.
Proof.
  intros Hl Hs. unfold stage2 in Hs. cbv zeta in Hs.
  apply (step_facts 2 m (λ own e, ok2 K T k (g_set x) own e)) in Hs; [|intros; apply judge2_some|done].
  destruct Hs as (news & H1 & H2 & H3 & H4 & H5). exists news.
  destruct (searched_all_facts _ _ _ _ _ _ H1) as (F1 & F2 & F3 & F4).
  repeat match goal with |- _ /\ _ => split end; try done.
  - by rewrite H2.
  - rewrite H2. apply F4. intros own e c f a Hok g Hg. by apply Hok.
  - intros f Hf. rewrite H2 in Hf. destruct (F3 f Hf) as (n & e & own & c & a & He & Hok).
    destruct Hok as (O1 & O2 & O3 & O4). split; [done|]. split; [done|].
    exists e, c, a. split; [by eapply elem_of_list_lookup_2|done].
Qed.

Lemma c87_step3_lemma k m s set1 x y fs :
  (N.of_nat (length (g_set x)) < 2^64)%N →
  stage3 K T k m s set1 x = Ok (y, fs) →
  ∃ news,
    searched_all s (ok3 K T k set1 (g_set x)) m (g_set x) fs news ∧ g_set y = faces_of news ∧
    g_area y = total (g_area x) (areas_of news) ∧ rejected (g_status y) = (left_over fs mod 2^64)%N ∧
    snd (get_count 3 (g_status y)) = N.of_nat (length (g_set y)) ∧
    length (g_set y) ≤ length (g_set x) ∧ (∀ r, r ∈ fs → (0 < f_tries r ≤ m + 1)%N) ∧
    pairwise (λ y z, eval (c4_3 k) y z = Ok true) (g_set y) ∧
    ∀ f, f ∈ g_set y → bounded K T k f ∧ respects K (c4_other k) set1 f ∧
      respects K (c4_other k) (g_set x) f ∧ ∃ e c a, e ∈ g_set x ∧ at_entity T e c f a.
Proof.
  intros Hl Hs. unfold stage3 in Hs. cbv zeta in Hs.
  apply (step_facts 3 m (λ own e, ok3 K T k set1 (g_set x) own e)) in Hs; [|intros; apply judge3_some|done].
  destruct Hs as (news & H1 & H2 & H3 & H4 & H5). exists news.
  destruct (searched_all_facts _ _ _ _ _ _ H1) as (F1 & F2 & F3 & F4).
  repeat match goal with |- _ /\ _ => split end; try done.
  - by rewrite H2.
  - rewrite H2. apply F4. intros own e c f a Hok g Hg. by apply Hok.
  - intros f Hf. rewrite H2 in Hf. destruct (F3 f Hf) as (n & e & own & c & a & He & Hok).
    destruct Hok as (O1 & O2 & O3 & O4 & O5). split; [done|]. split; [done|]. split; [done|].
    exists e, c, a. split; [by eapply elem_of_list_lookup_2|done].
Qed.

Lemma c87_search_ends_lemma k m s set1 x :
  all_answer K T → (∀ n e, ∃ sampler, s n e = Ok sampler ∧ ∀ i, ∃ c, sampler i = Ok c) →
  (∃ r, stage2 K T k m s x = Ok r) ∧ (∃ r, stage3 K T k m s set1 x = Ok r).
Proof.
  intros HA Hs. split.
  - eapply stage_loop_ends; [|done|]; intros; [apply judge2_some|by apply judge_total2].
  - eapply stage_loop_ends; [|done|]; intros; [apply judge3_some|by apply judge_total3].
Qed.

(** ** Connections *)
Section Meets.
Context {X : Type} (in_p : P → X → Prop) (in_f : F → X → Prop) (dom tun : X → Prop).
Hypothesis Hcont : ∀ c f, t_contained T c = Ok [f] → ∀ x, in_f f x ↔ in_p c x ∧ dom x.
Hypothesis Hmeet : ∀ c e is, t_meet T c e = Ok is → t_empty T is = false → ∃ x, in_p c x ∧ in_f e x.
Hypothesis Htun : ∀ c is, t_meet_tunnel T c = Ok is → t_empty T is = false → ∃ x, in_p c x ∧ tun x.
Hypothesis Hdom : ∀ x, tun x → dom x.

Lemma at_tunnel_meets c f a : at_tunnel T c f a → (∃ x, in_f f x ∧ tun x) ∧ ∀ x, in_f f x → dom x.
Proof.
  intros ((Hc & _) & is & Hi & He & _). split.
  - destruct (Htun c is Hi He) as (x & H1 & H2). exists x. split; [|done]. apply (Hcont c f Hc). auto.
  - intros x Hx. by apply (Hcont c f Hc) in Hx as [_ ?].
Qed.
Lemma at_entity_meets e c f a :
  (∀ x, in_f e x → dom x) → at_entity T e c f a → (∃ x, in_f f x ∧ in_f e x) ∧ ∀ x, in_f f x → dom x.
Proof.
  intros Hd ((Hc & _) & is & Hi & He & _). split.
  - destruct (Hmeet c e is Hi He) as (x & H1 & H2). exists x. split; [|done]. apply (Hcont c f Hc). auto.
  - intros x Hx. by apply (Hcont c f Hc) in Hx as [_ ?].
Qed.

Lemma c87_connected_lemma ord k target m1 m2 s1 s2 s3 passes x1 x2 x3 fs2 fs3 :
  (∀ m, ord m ≡ₚ map_to_list m) → (target < 2^64)%N →
  stage1 K T ord k target s1 passes = StageDone x1 →
  stage2 K T k m1 s2 x1 = Ok (x2, fs2) → stage3 K T k m2 s3 (g_set x1) x2 = Ok (x3, fs3) →
  (∀ f, f ∈ g_set x1 → ∃ x, in_f f x ∧ tun x) ∧
  (∀ f, f ∈ g_set x2 → ∃ e x, e ∈ g_set x1 ∧ in_f f x ∧ in_f e x) ∧
  (∀ f, f ∈ g_set x3 → ∃ e x, e ∈ g_set x2 ∧ in_f f x ∧ in_f e x) ∧
  (∀ f, f ∈ g_set x1 ++ g_set x2 ++ g_set x3 → ∀ x, in_f f x → dom x) ∧
  (∀ n e r, g_set x1 !! n = Some e → fs2 !! n = Some r → f_accepted r = true →
     ∃ f x, f ∈ g_set x2 ∧ in_f f x ∧ in_f e x) ∧
  (∀ n e r, g_set x2 !! n = Some e → fs3 !! n = Some r → f_accepted r = true →
     ∃ f x, f ∈ g_set x3 ∧ in_f f x ∧ in_f e x).
Proof.
  intros Ho Ht R1 R2 R3.
  destruct (c87_step1_lemma ord k target s1 passes x1 Ho Ht) as (L & _ & S1).
  specialize (L R1). destruct S1 as (n & areas & r & _ & _ & _ & La & _ & _ & _ & _ & S1); [by left|].
  destruct (c87_step2_lemma k m1 s2 x1 x2 fs2) as (news2 & Q2 & G2 & _ & _ & _ & L2 & _ & _ & S2); [lia|done|].
  destruct (c87_step3_lemma k m2 s3 (g_set x1) x2 x3 fs3) as (news3 & Q3 & G3 & _ & _ & _ & L3 & _ & _ & S3);
    [lia|done|].
  assert (D1 : ∀ f, f ∈ g_set x1 → (∃ x, in_f f x ∧ tun x) ∧ ∀ x, in_f f x → dom x).
  { intros f Hf. apply elem_of_list_lookup in Hf as [i Hi]. apply lookup_lt_Some in Hi as Hl.
    destruct (lookup_lt_is_Some_2 areas i) as [a Ha]; [lia|].
    destruct (S1 i f a Hi Ha) as (_ & m & c & _ & _ & Hat). by eapply at_tunnel_meets. }
  assert (D2 : ∀ f, f ∈ g_set x2 → (∃ e x, e ∈ g_set x1 ∧ in_f f x ∧ in_f e x) ∧ ∀ x, in_f f x → dom x).
  { intros f Hf. destruct (S2 f Hf) as (_ & _ & e & c & a & He & Hat).
    destruct (at_entity_meets e c f a (proj2 (D1 e He)) Hat) as [(x & ? & ?) ?]. split; [|done].
    by exists e, x. }
  assert (D3 : ∀ f, f ∈ g_set x3 → (∃ e x, e ∈ g_set x2 ∧ in_f f x ∧ in_f e x) ∧ ∀ x, in_f f x → dom x).
  { intros f Hf. destruct (S3 f Hf) as (_ & _ & _ & e & c & a & He & Hat).
    destruct (at_entity_meets e c f a (proj2 (D2 e He)) Hat) as [(x & ? & ?) ?]. split; [|done].
    by exists e, x. }
  assert (Hfound : ∀ (ok : list F → F → P → F → A → Prop) m s es fs news,
    searched_all s ok m es fs news → (∀ own e c f a, ok own e c f a → at_entity T e c f a) →
    ∀ n e r, es !! n = Some e → fs !! n = Some r → f_accepted r = true →
    ∃ f c a, f ∈ faces_of news ∧ at_entity T e c f a).
  { intros ok m s es fs news (La1 & La2 & Hs) Hok i e q He Hq Hacc.
    apply lookup_lt_Some in He as Hl. destruct (lookup_lt_is_Some_2 news i) as [o Hoo]; [lia|].
    destruct (Hs i e q o He Hq Hoo) as (sm & _ & _ & Hm). destruct o as [[[c f] a]|].
    - destruct Hm as (_ & _ & _ & Hk & _). exists f, c, a. split; [|by eapply Hok].
      apply faces_of_elem. by exists i, c, a.
    - destruct Hm as (Hm & _). congruence. }
  split; [intros f Hf; by apply D1|]. split; [intros f Hf; by apply D2|]. split; [intros f Hf; by apply D3|].
  split; [|split].
  - intros f Hf. apply elem_of_app in Hf as [Hf|Hf]; [by apply D1|].
    apply elem_of_app in Hf as [Hf|Hf]; [by apply D2|by apply D3].
  - intros i e q He Hq Hacc.
    destruct (Hfound _ _ _ _ _ _ Q2 (λ own e c f a Hk, proj1 Hk) i e q He Hq Hacc) as (f & c & a & Hf & Hat).
    rewrite <- G2 in Hf. apply elem_of_list_lookup_2 in He.
    destruct (at_entity_meets e c f a (proj2 (D1 e He)) Hat) as [(x & ? & ?) _]. by exists f, x.
  - intros i e q He Hq Hacc.
    destruct (Hfound _ _ _ _ _ _ Q3 (λ own e c f a Hk, proj1 Hk) i e q He Hq Hacc) as (f & c & a & Hf & Hat).
    rewrite <- G3 in Hf. apply elem_of_list_lookup_2 in He.
    destruct (at_entity_meets e c f a (proj2 (D2 e He)) Hat) as [(x & ? & ?) _]. by exists f, x.
Qed.
End Meets.
End Tunnel.
