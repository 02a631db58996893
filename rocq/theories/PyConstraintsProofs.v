(** Proofs for C20 and C21. *)

From stdpp Require Import prelude list.
From Verif Require Import Base ConstraintsModel ConstraintsProofs PyConstraintsModel PyConstraintsSpec.

Section Dict.
Context {V : Type}.
Implicit Types (d : pydict V).
Lemma dget_dset k v d k' : dget k' (dset k v d) = if bool_decide (k = k') then Some v else dget k' d.
Proof.
  induction d as [|[k0 v0] d IH]; simpl; [by destruct (bool_decide_reflect (k = k'))|].
  destruct (bool_decide_reflect (k0 = k)) as [->|Hn]; simpl.
  - by destruct (bool_decide_reflect (k = k')).
  - rewrite IH. destruct (bool_decide_reflect (k0 = k')) as [->|]; [|done].
    by rewrite bool_decide_false.
Qed.
Lemma keys_dset k v d k' : k' ∈ (fst <$> dset k v d : list N) ↔ k' = k ∨ k' ∈ (fst <$> d : list N).
Proof.
  induction d as [|[k0 v0] d IH]; simpl; [set_solver|].
  destruct (bool_decide_reflect (k0 = k)) as [->|Hn]; simpl; set_solver.
Qed.
Lemma dget_keys k d : dget k d ≠ None ↔ k ∈ (fst <$> d : list N).
Proof.
  induction d as [|[k0 v0] d IH]; simpl; [set_solver|].
  destruct (bool_decide_reflect (k0 = k)) as [->|Hn]; simpl; set_solver.
Qed.
End Dict.

Section Py.
Context {C E : Type} (ev : C → E → E → outcome bool).

Definition PI (m : pymatrix C) (l : list (N * N * C)) : Prop :=
  (∀ a b c, (∃ row, dget a m = Some row ∧ dget b row = Some c) ↔ (a, b, c) ∈ l) ∧
  (∀ a row, dget a m = Some row → ∃ b c, dget b row = Some c).

Lemma pi_init : PI [] [].
Proof. split; [|done]. intros a b c. split; [by intros (row & ? & _)|by intros ?%elem_of_nil]. Qed.

Lemma pi_add c p m l :
  PI m l →
  PI (snd (add_id_pair c p m)) (py_register c [p] l) ∧
  (fst (add_id_pair c p m) = Ok tt ∧ (∀ ps, py_register c (p :: ps) l = py_register c ps (py_register c [p] l)) ∨
   fst (add_id_pair c p m) = Throw RuntimeError ∧ ∀ ps, py_register c (p :: ps) l = py_register c [p] l).
Proof.
  intros [H1 H2].
  destruct p as [|a [|b [|x p]]]; simpl.
  1,2,4: (split; [by split|by right]).
  destruct (bool_decide_reflect ((a, b) ∈ (fst <$> l : list (N * N)))) as [Hin|Hnin].
  - apply elem_of_list_fmap in Hin as ([[a' b'] c'] & [= <- <-] & Hin).
    apply H1 in Hin as (row & Hr & Hc). rewrite Hr, Hc. simpl. split; [by split|by right].
  - assert (Hno : ∀ row c', dget a m = Some row → dget b row = Some c' → False).
    { intros row c' Hr Hc. apply Hnin. apply elem_of_list_fmap. exists (a, b, c'). split; [done|].
      apply H1. eauto. }
    assert (HPI : ∀ row', (∀ b' c', dget b' row' = Some c' ↔ (b' = b ∧ c' = c) ∨
                (∃ row, dget a m = Some row ∧ dget b' row = Some c')) →
              PI (dset a row' m) (l ++ [(a, b, c)])).
    { intros row' Hrow'. split.
      - intros a' b' c'. rewrite dget_dset, elem_of_app, elem_of_list_singleton, <- H1.
        destruct (bool_decide_reflect (a = a')) as [<-|Hne].
        + split.
          * intros (row & [= <-] & Hc). apply Hrow' in Hc as [[-> ->]|Hc]; [by right|by left].
          * intros Hx. exists row'. split; [done|]. apply Hrow'.
            destruct Hx as [Hx|Hx]; [by right|left]. by injection Hx.
        + split; [intros Hx; by left|]. intros [Hx|Hx]; [done|]. injection Hx. intros. congruence.
      - intros a' row. rewrite dget_dset. destruct (bool_decide_reflect (a = a')) as [<-|Hne]; [|by apply H2].
        intros [= <-]. exists b, c. apply Hrow'. by left. }
    destruct (dget a m) as [row|] eqn:Er.
    + destruct (dget b row) as [c'|] eqn:Ec; [by destruct (Hno row c')|]. simpl. split; [|by left].
      apply HPI. intros b' c'. rewrite dget_dset.
      destruct (bool_decide_reflect (b = b')) as [<-|Hne].
      * split; [intros [= <-]; by left|]. intros [[_ ->]|(row0 & [= <-] & Hx)]; [done|congruence].
      * split; [intros Hx; right; eauto|]. intros [[-> _]|(row0 & [= <-] & Hx)]; [done|done].
    + simpl. split; [|by left]. apply HPI. intros b' c'. simpl.
      destruct (bool_decide_reflect (b = b')) as [<-|Hne].
      * split; [intros [= <-]; by left|]. intros [[_ ->]|(row0 & ? & _)]; [done|done].
      * split; [done|]. intros [[-> _]|(row0 & ? & _)]; done.
Qed.

Lemma pi_add_pairs c ps : ∀ m l, PI m l → PI (snd (add_id_pairs c ps m)) (py_register c ps l).
Proof.
  induction ps as [|p ps IH]; intros m l HI; [done|]. cbn [add_id_pairs].
  destruct (pi_add c p m l HI) as [HP [[Hok Hr]|[Hf Hr]]]; rewrite Hr.
  - destruct (add_id_pair c p m) as [o m']. simpl in *. subst o. by apply IH.
  - destruct (add_id_pair c p m) as [o m']. simpl in *. by subst o.
Qed.

Lemma pi_run h : PI (pyrun h) (py_relations h).
Proof.
  induction h as [|[c a] h IH] using rev_ind; [apply pi_init|].
  unfold pyrun, py_relations in *. rewrite !fold_left_app. simpl.
  destruct a as [[|x p]|[|p ps]]; cbn [py_add_constraints pairs_of snd]; try done.
  - by apply (pi_add c (x :: p)).
  - by apply (pi_add_pairs c (p :: ps)).
Qed.

Lemma list_geo c es e :
  py_evaluate ev c (AList es) (AGeo e) = all_of (λ x, ev c x e) es.
Proof. done. Qed.

Lemma eval_keys_spec row sets e keys :
  py_eval_keys ev row sets e keys = Ok true ↔
  ∀ k c es x, k ∈ keys → dget k row = Some c → sets k = Some es → x ∈ es → ev c x e = Ok true.
Proof.
  induction keys as [|k keys IH]; cbn [py_eval_keys].
  { split; [|done]. intros _ k c es x Hk. by apply elem_of_nil in Hk. }
  destruct (sets k) as [es|] eqn:Es; cycle 1.
  { rewrite IH. split.
    - intros H k' c es x Hk. apply elem_of_cons in Hk as [->|Hk]; [congruence|]. by eapply H.
    - intros H k' c es x Hk. apply H. by right. }
  destruct (dget k row) as [c|] eqn:Ec; cycle 1.
  { rewrite IH. split.
    - intros H k' c es' x Hk. apply elem_of_cons in Hk as [->|Hk]; [congruence|]. by eapply H.
    - intros H k' c es' x Hk. apply H. by right. }
  rewrite list_geo.
  split.
  - destruct (all_of (λ x, ev c x e) es) as [[]| | |] eqn:Ea; simpl; try done. intros H.
    rewrite IH in H. intros k' c' es' x Hk Hc Hs Hx.
    apply elem_of_cons in Hk as [->|Hk]; [|by eapply H].
    simplify_eq. rewrite all_of_true in Ea. by apply Ea.
  - intros H.
    assert (all_of (λ x, ev c x e) es = Ok true) as ->.
    { apply all_of_true. intros x Hx. eapply H; [by left|done|done|done]. }
    simpl. rewrite IH. intros k' c' es' x Hk. apply H. by right.
Qed.

(** Exactly which relations are enforced. *)
Lemma c20_lemma h sets e id :
  py_matrix_evaluate ev (pyrun h) sets e id = Ok true ↔
  ∀ b c es x, (id, b, c) ∈ py_relations h → (∃ b' c', (b, b', c') ∈ py_relations h) →
              sets b = Some es → x ∈ es → ev c x e = Ok true.
Proof.
  destruct (pi_run h) as [H1 H2]. unfold py_matrix_evaluate.
  destruct (dget id (pyrun h)) as [row|] eqn:Er.
  - rewrite eval_keys_spec. split.
    + intros H b c es x Hin (b' & c' & Hb) Hs Hx.
      apply H1 in Hin as (row' & Hr & Hc). rewrite Er in Hr. injection Hr as <-.
      apply H1 in Hb as (row2 & Hr2 & _).
      eapply H; [|done|done|done]. apply dget_keys. by rewrite Hr2.
    + intros H k c es x Hk Hc Hs Hx. eapply (H k c es x); [|..|done|done].
      * apply H1. eauto.
      * apply dget_keys in Hk. destruct (dget k (pyrun h)) as [row2|] eqn:E2; [|done].
        destruct (H2 _ _ E2) as (b' & c' & Hb'). exists b', c'. apply H1. eauto.
  - split; [|done]. intros _ b c es x Hin. apply H1 in Hin as (row & ? & _). congruence.
Qed.

Lemma c20_false_lemma h sets e id b c es x :
  (∀ c x y, ∃ r, ev c x y = Ok r) →
  (id, b, c) ∈ py_relations h → (∃ b' c', (b, b', c') ∈ py_relations h) →
  sets b = Some es → x ∈ es → ev c x e = Ok false →
  py_matrix_evaluate ev (pyrun h) sets e id = Ok false.
Proof.
  intros Htot Hin Hb Hs Hx Hev.
  assert (Hno : py_matrix_evaluate ev (pyrun h) sets e id ≠ Ok true).
  { intros H. rewrite c20_lemma in H. specialize (H b c es x Hin Hb Hs Hx). congruence. }
  assert (Ht : ∃ r, py_matrix_evaluate ev (pyrun h) sets e id = Ok r).
  { unfold py_matrix_evaluate. destruct (dget id (pyrun h)) as [row|]; [|by exists true].
    induction (fst <$> pyrun h : list N) as [|k keys IH]; [by exists true|]. cbn [py_eval_keys].
    destruct (sets k) as [es'|]; [|done]. destruct (dget k row) as [c'|]; [|done].
    rewrite list_geo. destruct (all_of_total (λ x, ev c' x e) es') as [r Hr]; [intros; apply Htot|].
    rewrite Hr. simpl. destruct r; [done|by exists false]. }
  destruct Ht as [[] Ht]; congruence.
Qed.

(** C21 *)
Lemma c21_lemma c a b :
  (∃ gb, b = AGeo gb) ∨ geos a = [] ∨ geos b = [] →
  (py_evaluate ev c a b = Ok true ↔ ∀ x y, x ∈ geos a → y ∈ geos b → ev c x y = Ok true).
Proof.
  destruct a as [ga|la], b as [gb|lb]; simpl.
  - intros _. split.
    + by intros H x y ->%elem_of_list_singleton ->%elem_of_list_singleton.
    + intros H. apply H; by left.
  - intros [[? ?]|[?|?]]; [done..|]. subst. unfold eval_list. simpl. split; [|done].
    intros _ x y _ Hy. by apply elem_of_nil in Hy.
  - intros _. unfold eval_list. rewrite all_of_true. simpl. split.
    + intros H x y Hx ->%elem_of_list_singleton. by apply H.
    + intros H x Hx. apply H; [done|by left].
  - intros [[? ?]|[?|?]]; [done|..]; subst.
    + simpl. split; [|done]. intros _ x y Hx. by apply elem_of_nil in Hx.
    + rewrite all_of_true. split; [|done]. intros _ x y _ Hy. by apply elem_of_nil in Hy.
Qed.

Lemma c21_refuted_lemma c a lb :
  geos a ≠ [] → lb ≠ [] → py_evaluate ev c a (AList lb) = Throw TypeError.
Proof.
  intros Ha Hb. destruct lb as [|y lb]; [done|]. destruct a as [g|[|x la]]; done.
Qed.
End Py.
