(** Proofs for C89: the networks of the examples. *)

From stdpp Require Import prelude gmap list.
From Verif Require Import Base BuilderModel BuilderSpec BuilderProofs BuilderAttrProofs AppModel AppNetSpec.

Section Net.
Context {S K num : Type} `{EqDecision S} `{Countable K} (key : S → K) (kernel : occ S num).
Context (ord : nat → list N → list N) (Hord : ∀ i l, ord i l ≡ₚ l).
Notation dim := (dim_of kernel).
Notation build k h := (bstep key kernel ord k (brun key kernel ord k h) Build).2.

Lemma ents_of_one j (sd : list (N * (S * bool))) (es : list S) id :
  ents_of id (mkRd sd ((λ e, (j, e)) <$> es)) = if bool_decide (id = j) then es else [].
Proof.
  unfold ents_of. simpl. case_bool_decide as Hid; induction es as [|e es IH]; try done; rewrite fmap_cons.
  - rewrite filter_cons_True by done. rewrite fmap_cons, IH. done.
  - rewrite filter_cons_False by (simpl; congruence). exact IH.
Qed.

Lemma one_distinct j sd es cu :
  (j < 2^31)%N → Forall (λ p : N * (S * bool), p.1 < 2^31)%N sd →
  distinct key kernel (mkRd sd ((λ e, (j, e)) <$> es)) cu.
Proof.
  intros Hj Hsd. split.
  - unfold all_ids. simpl. apply Forall_app. split; [by apply Forall_fmap|].
    apply Forall_fmap, Forall_fmap. apply Forall_forall. intros e _. done.
  - intros e hc _ id1 id2 s1 s2 g1 g2. rewrite !ents_of_one.
    do 2 case_bool_decide; try (intros []%elem_of_nil); try (intros ? []%elem_of_nil); congruence.
Qed.

Lemma accept_one j (es0 es : list S) sd :
  (∀ e e', e ∈ es0 ++ es → e' ∈ es0 ++ es → dim e = dim e') →
  (∀ e p, e ∈ es → p ∈ sd → (dim e < dim p.2.1)%Z) →
  accept dim es j (mkRd sd ((λ e, (j, e)) <$> es0)) = mkRd sd ((λ e, (j, e)) <$> (es0 ++ es)).
Proof.
  revert es0. induction es as [|e es IH]; intros es0 H1 H2; simpl.
  { by rewrite app_nil_r. }
  replace (ent_ok dim e _) with true.
  2: { symmetry. unfold ent_ok. apply andb_true_iff. split; apply forallb_forall; simpl.
       - intros p Hp. apply elem_of_list_In, elem_of_list_fmap in Hp as (e' & -> & He'). simpl.
         apply bool_decide_eq_true. apply H1; set_solver.
       - intros p Hp. apply elem_of_list_In in Hp. apply bool_decide_eq_true. apply H2; set_solver. }
  replace (mkRd _ _) with (mkRd sd ((λ e, (j, e)) <$> (es0 ++ [e]))) by (by rewrite fmap_app).
  rewrite IH.
  - by rewrite <- app_assoc.
  - intros. apply H1; by rewrite <- app_assoc in *.
  - intros. apply H2; set_solver.
Qed.

Lemma one_contained h sd j es n :
  spec_run (num := num) dim h = mkRd sd ((λ e, (j, e)) <$> es) → (j < 2^31)%N →
  Forall (λ p : N * (S * bool), p.1 < 2^31)%N sd → NoDup (key <$> ((λ p, p.2.1) <$> sd)) → es ≠ [] →
  union_flag h = true → build Contained h = Ok (Some n) →
  ∃ e hc hf ed dd sdf frags index l,
    conf_by kernel e (mkRd sd ((λ e, (j, e)) <$> es)) true j hc ∧
    cut kernel e hc hf ((λ p, p.2.1) <$> sd) es ∧
    n = CNet ed dd sdf frags index ∧ frags !! j = Some l ∧ made_of hc hf es l ∧
    (∀ id, id ∈ sub_domain_ids sdf ↔ id ∈ sd.*1) ∧
    (∀ id s c, (id, (s, c)) ∈ sd → ∃ l, at_id sdf id = Ok l ∧ ∀ f, f ∈ l ↔ piece hf s f) ∧
    (∀ id, id ∈ sd.*1 → id ≠ j → frags !! id = Some []).
Proof.
  intros Ha Hj Hsd Hnd Hes Hu Hb.
  destruct (c24_contained_lemma key kernel ord Hord h n) as (e & hc & hf & Hop & Hc & Hs); [..|done|].
  { rewrite Ha. by apply one_distinct. }
  { by rewrite Ha. }
  rewrite Ha in Hop, Hc, Hs. rewrite Hu in Hop. destruct n as [|ed dd sdf frags index]; [done|].
  destruct Hc as (_ & _ & Hc1 & Hc2). destruct Hs as (Hs1 & Hs2). destruct Hop as (Ho1 & args & Ho2 & Ho3).
  assert (Hej : ents_of j (mkRd sd ((λ e, (j, e)) <$> es)) = es) by (rewrite ents_of_one; by case_bool_decide).
  destruct (Hc1 j) as (l & m & Hl & _ & Hf); [by rewrite Hej|]. rewrite Hej in Hf.
  exists e, (hc j), hf, ed, dd, sdf, frags, index, l.
  split; [apply Ho1; by rewrite Hej|]. split.
  { exists args. split; [done|]. intros g. rewrite (Ho3 g). simpl. split.
    - intros [(id & s & Hin & Hg)|[_ Hg]]; [|by right]. left. rewrite ents_of_one in Hin.
      case_bool_decide; [subst; by exists s|by apply elem_of_nil in Hin].
    - intros [(s & Hin & Hg)|Hg]; [|by right]. left. exists j, s. by rewrite Hej. }
  split; [done|]. split; [done|]. split; [exact (proj1 Hf)|]. split; [done|]. split; [done|].
  intros id Hid Hne. apply Hc2; [done|]. rewrite ents_of_one. by rewrite bool_decide_false.
Qed.

Lemma one_plain h sd j es n :
  spec_run (num := num) dim h = mkRd sd ((λ e, (j, e)) <$> es) → (j < 2^31)%N →
  Forall (λ p : N * (S * bool), p.1 < 2^31)%N sd → es ≠ [] →
  union_flag h = true → build Plain h = Ok (Some n) →
  ∃ e hc hf ed frags index,
    conf_by kernel e (mkRd sd ((λ e, (j, e)) <$> es)) true j hc ∧
    cut kernel e hc hf [] es ∧ n = Net ed frags index ∧ made_of hc hf es frags.
Proof.
  intros Ha Hj Hsd Hes Hu Hb.
  destruct (c25_plain_lemma key kernel ord Hord h n) as (e & hc & hf & Hop & Hc & _); [..|done|].
  { rewrite Ha. by apply one_distinct. }
  rewrite Ha in Hop, Hc. rewrite Hu in Hop. destruct n as [ed frags index|]; [|done].
  destruct Hc as (_ & Hc & _). destruct Hop as (Ho1 & args & Ho2 & Ho3).
  assert (Hej : ents_of j (mkRd sd ((λ e, (j, e)) <$> es)) = es) by (rewrite ents_of_one; by case_bool_decide).
  exists e, (hc j), hf, ed, frags, index.
  split; [apply Ho1; by rewrite Hej|]. split.
  { exists args. split; [done|]. intros g. rewrite (Ho3 g). simpl. split.
    - intros [(id & s & Hin & Hg)|[? _]]; [|done]. left. rewrite ents_of_one in Hin.
      case_bool_decide; [subst; by exists s|by apply elem_of_nil in Hin].
    - intros [(s & Hin & Hg)|Hg]; [|by apply elem_of_nil in Hg]. left. exists j, s. by rewrite Hej. }
  split; [done|]. intros f. rewrite Hc. split.
  - intros (id & s & Hin & Hg). rewrite ents_of_one in Hin.
    case_bool_decide; [subst; by exists s|by apply elem_of_nil in Hin].
  - intros (s & Hin & Hg). exists j, s. by rewrite Hej.
Qed.

Lemma one_succeeds k h sd j es :
  spec_run (num := num) dim h = mkRd sd ((λ e, (j, e)) <$> es) → (j < 2^31)%N →
  Forall (λ p : N * (S * bool), p.1 < 2^31)%N sd → NoDup (key <$> ((λ p, p.2.1) <$> sd)) → es ≠ [] →
  (k = Contained → sd ≠ []) → reliable kernel → ∃ n, build k h = Ok (Some n).
Proof.
  intros Ha Hj Hsd Hnd Hes Hk Hr.
  apply (c24_succeeds_lemma key kernel ord Hord k h); [done|rewrite Ha..].
  - by apply one_distinct.
  - done.
  - simpl. by destruct es.
  - done.
Qed.

(** The registrations of the examples. *)
Lemma run_ex1 set1 set2 : proper kernel [] (set1 ++ set2) →
  spec_run (num := num) dim (ex1_calls set1 set2) = mkRd [] ((λ e, (0%N, e)) <$> (set1 ++ set2)).
Proof.
  intros (_ & P1 & _ & _). unfold spec_run, ex1_calls. simpl.
  etransitivity; [apply (f_equal (accept dim set2 0)), (accept_one 0 [] set1)|
    apply (accept_one 0 set1 set2)]; try done; try (intros e p _ []%elem_of_nil).
  intros; apply P1; set_solver.
Qed.

Lemma sd_ok_nil s id : sd_ok dim s id (mkRd [] []) = true.
Proof. done. Qed.

Lemma run_domain j (d : S) (sets : list (list S)) b :
  (∀ e e', e ∈ concat sets → e' ∈ concat sets → dim e = dim e') →
  (∀ e, e ∈ concat sets → (dim e < dim d)%Z) →
  fold_left (spec_step (num := num) dim) ((λ l, AddEntities l j) <$> sets) (mkRd [(j, (d, b))] []) =
    mkRd (S := S) [(j, (d, b))] ((λ e, (j, e)) <$> concat sets).
Proof.
  intros H1 H2.
  assert (Hgo : ∀ es0, (∀ e e', e ∈ es0 ++ concat sets → e' ∈ es0 ++ concat sets → dim e = dim e') →
    fold_left (spec_step (num := num) dim) ((λ l, AddEntities l j) <$> sets)
      (mkRd [(j, (d, b))] ((λ e, (j, e)) <$> es0)) =
    mkRd [(j, (d, b))] ((λ e, (j, e)) <$> (es0 ++ concat sets))).
  { clear H1. revert H2. induction sets as [|l sets IH]; intros H2 es0 H1; simpl in *.
    { by rewrite app_nil_r. }
    rewrite accept_one.
    - rewrite IH; [by rewrite app_assoc|..]; intros; [apply H2|apply H1]; set_solver.
    - intros; apply H1; set_solver.
    - intros e p He Hp. apply elem_of_list_singleton in Hp as ->. apply H2. set_solver. }
  apply (Hgo []). done.
Qed.

Lemma run_ex2 d set1 set2 : proper kernel [d] (set1 ++ set2) →
  spec_run (num := num) dim (ex2_calls d set1 set2) = mkRd [(1%N, (d, true))] ((λ e, (1%N, e)) <$> (set1 ++ set2)).
Proof.
  intros (_ & P1 & _ & P3).
  pose proof (run_domain 1 d [set1; set2] true) as Hr. simpl concat in Hr. rewrite app_nil_r in Hr.
  apply Hr; [done|]. intros e He. apply P3; [done|by left].
Qed.
Lemma run_ex4 d set1 set2 set3 : proper kernel [d] (set1 ++ set2 ++ set3) →
  spec_run (num := num) dim (ex4_calls d set1 set2 set3) =
    mkRd [(1%N, (d, true))] ((λ e, (1%N, e)) <$> (set1 ++ set2 ++ set3)).
Proof.
  intros (_ & P1 & _ & P3).
  pose proof (run_domain 1 d [set1; set2; set3] true) as Hr. simpl concat in Hr. rewrite app_nil_r in Hr.
  apply Hr; [done|]. intros e He. apply P3; [done|by left].
Qed.

Lemma run_layers b (l1 l2 l3 : S) set1 set2 : proper kernel [l1; l2; l3] (set1 ++ set2) →
  fold_left (spec_step (num := num) dim) [AddSubDomain b l1 1; AddSubDomain b l2 2; AddSubDomain b l3 3;
     AddEntities set1 2; AddEntities set2 2] (mkRd [] []) =
    mkRd [(1, (l1, b)); (2, (l2, b)); (3, (l3, b))]%N ((λ e, (2%N, e)) <$> (set1 ++ set2)).
Proof.
  intros (_ & P1 & P2 & P3). cbn [fold_left spec_step]. rewrite sd_ok_nil. cbn [sds ents app].
  assert (H2 : sd_ok dim l2 2 (mkRd [(1%N, (l1, b))] []) = true).
  { unfold sd_ok. simpl. rewrite bool_decide_true; [done|]. split; [done|]. apply P2; set_solver. }
  rewrite H2. cbn [sds ents app].
  assert (H3 : sd_ok dim l3 3 (mkRd [(1, (l1, b)); (2, (l2, b))]%N []) = true).
  { unfold sd_ok. simpl. rewrite !bool_decide_true; [done|split; [done|]; apply P2; set_solver..]. }
  rewrite H3. cbn [sds ents app].
  assert (Hp : ∀ e p, e ∈ set1 ++ set2 → p ∈ [(1, (l1, b)); (2, (l2, b)); (3, (l3, b))]%N →
    (dim e < dim p.2.1)%Z).
  { intros e p He Hp. apply P3; [done|]. apply elem_of_cons in Hp as [->|Hp]; [set_solver|].
    apply elem_of_cons in Hp as [->|Hp]; [set_solver|]. apply elem_of_list_singleton in Hp as ->. set_solver. }
  etransitivity; [apply (f_equal (accept dim set2 2)), (accept_one 2 [] set1); simpl|].
  - intros; apply P1; set_solver.
  - intros e p He. apply Hp. set_solver.
  - apply (accept_one 2 set1 set2); [done|]. intros e p He. apply Hp. set_solver.
Qed.

Lemma c89_plain_lemma set1 set2 :
  proper kernel [] (set1 ++ set2) →
  (∀ n, build Plain (ex1_calls set1 set2) = Ok (Some n) →
     ∃ e hf ed frags index, n = Net ed frags index ∧
       cut kernel e None hf [] (set1 ++ set2) ∧ made_of None hf (set1 ++ set2) frags) ∧
  (reliable kernel → ∃ n, build Plain (ex1_calls set1 set2) = Ok (Some n)).
Proof.
  intros HP. pose proof (run_ex1 _ _ HP) as Hr. split.
  - intros n Hn.
    destruct (one_plain _ [] 0 _ n Hr) as (e & hc & hf & ed & frags & index & H1 & H2 & -> & H4);
      [done|done|apply HP|done|done|].
    destruct H1 as (_ & _ & _ & H1). simpl in H1. rewrite H1 in H2, H4 by (intros []%elem_of_nil).
    by exists e, hf, ed, frags, index.
  - intros Hrel. eapply one_succeeds; [done|done|done|constructor|apply HP|done|done].
Qed.

Lemma c89_contained_lemma d es h :
  (∃ set1 set2, h = ex2_calls d set1 set2 ∧ es = set1 ++ set2) ∨
  (∃ set1 set2 set3, h = ex4_calls d set1 set2 set3 ∧ es = set1 ++ set2 ++ set3) →
  proper kernel [d] es →
  (∀ n, build Contained h = Ok (Some n) →
     ∃ e hc hf ed dd sdf frags index l ld, n = CNet ed dd sdf frags index ∧
       common kernel e es [d] = Some hc ∧ cut kernel e (Some hc) hf [d] es ∧
       frags !! 1%N = Some l ∧ made_of (Some hc) hf es l ∧
       (∀ id, id ∈ sub_domain_ids sdf ↔ id = 1%N) ∧
       at_id sdf 1 = Ok ld ∧ ∀ f, f ∈ ld ↔ piece hf d f) ∧
  (reliable kernel → ∃ n, build Contained h = Ok (Some n)).
Proof.
  intros Hh HP.
  assert (Hr : spec_run (num := num) dim h = mkRd [(1%N, (d, true))] ((λ e, (1%N, e)) <$> es) ∧ union_flag h = true).
  { destruct Hh as [(s1 & s2 & -> & ->)|(s1 & s2 & s3 & -> & ->)]; (split; [|done]).
    - by apply run_ex2.
    - by apply run_ex4. }
  destruct Hr as [Hr Hu]. split.
  - intros n Hn.
    destruct (one_contained _ _ 1 _ n Hr) as
      (e & hc & hf & ed & dd & sdf & frags & index & l & H1 & H2 & -> & H4 & H5 & H6 & H7 & _);
      [done|by repeat constructor|simpl; apply NoDup_singleton|apply HP|done|done|].
    destruct H1 as (H1 & _). destruct (H1 d) as (hcc & -> & Hco); [by left|].
    rewrite ents_of_one, bool_decide_true in Hco by done.
    destruct (H7 1%N d true) as (ld & Hld & Hpd); [by left|].
    exists e, hcc, hf, ed, dd, sdf, frags, index, l, ld.
    repeat match goal with |- _ /\ _ => split end; try done.
    intros id. rewrite H6. simpl. by rewrite elem_of_list_singleton.
  - intros Hrel. eapply one_succeeds; [done|done|by repeat constructor|simpl; apply NoDup_singleton|apply HP|done|done].
Qed.

Lemma run_app_clear (h h' : list (bcall (S := S) (num := num))) :
  spec_run (num := num) dim (h ++ [Build; Clear] ++ h') = fold_left (spec_step (num := num) dim) h' (mkRd [] []).
Proof. unfold spec_run. by rewrite !fold_left_app. Qed.

Lemma c89_layers_lemma b l1 l2 l3 set1 set2 h :
  let es := set1 ++ set2 in
  (b = true ∧ h = ex3_calls1 l1 l2 l3 set1 set2) ∨ (b = false ∧ h = ex3_calls2 l1 l2 l3 set1 set2) →
  proper kernel [l1; l2; l3] es → NoDup [key l1; key l2; key l3] →
  (∀ n, build Contained h = Ok (Some n) →
     ∃ e hc hf ed dd sdf frags index l, n = CNet ed dd sdf frags index ∧
       (if b then common kernel e es [l2] = Some hc
        else ∃ ls u, ls ≡ₚ [l1; l2; l3] ∧ fuse kernel e ls = Some u ∧ common kernel e es [u] = Some hc) ∧
       cut kernel e (Some hc) hf [l1; l2; l3] es ∧
       frags !! 1%N = Some [] ∧ frags !! 2%N = Some l ∧ frags !! 3%N = Some [] ∧ made_of (Some hc) hf es l ∧
       (∀ id, id ∈ sub_domain_ids sdf ↔ id ∈ [1; 2; 3]%N) ∧
       ∀ id d, (id, d) ∈ [(1, l1); (2, l2); (3, l3)]%N → ∃ ld, at_id sdf id = Ok ld ∧ ∀ f, f ∈ ld ↔ piece hf d f) ∧
  (reliable kernel → ∃ n, build Contained h = Ok (Some n)).
Proof.
  intros es Hh HP Hk.
  assert (Hr : spec_run (num := num) dim h = mkRd [(1, (l1, b)); (2, (l2, b)); (3, (l3, b))]%N ((λ e, (2%N, e)) <$> es) ∧
               union_flag h = true).
  { destruct Hh as [(-> & ->)|(-> & ->)]; (split; [|done]).
    - by apply run_layers.
    - unfold ex3_calls2. etransitivity; [apply run_app_clear|]. by apply run_layers. }
  destruct Hr as [Hr Hu]. split.
  - intros n Hn.
    destruct (one_contained _ _ 2 _ n Hr) as
      (e & hc & hf & ed & dd & sdf & frags & index & l & H1 & H2 & -> & H4 & H5 & H6 & H7 & H8);
      [done|by repeat constructor|done|apply HP|done|done|].
    assert (Hc : ∃ h', hc = Some h' ∧
      if b then common kernel e es [l2] = Some h'
      else ∃ ls u, ls ≡ₚ [l1; l2; l3] ∧ fuse kernel e ls = Some u ∧ common kernel e es [u] = Some h').
    { destruct H1 as (Q1 & Q2 & _). destruct b.
      - destruct (Q1 l2) as (h' & -> & Hco); [set_solver|].
        rewrite ents_of_one, bool_decide_true in Hco by done. by exists h'.
      - destruct (Q2 l2) as (h' & u & -> & (ls & Hls & Hu') & Hco); [set_solver|done|].
        rewrite ents_of_one, bool_decide_true in Hco by done. exists h'. split; [done|]. exists ls, u.
        split; [done|]. split; [|done]. simpl in Hls.
        apply Permutation_length in Hls as Hlen. destruct ls as [|? [|? ?]]; try done. }
    destruct Hc as (h' & -> & Hc). exists e, h', hf, ed, dd, sdf, frags, index, l.
    repeat match goal with |- _ /\ _ => split end; try done.
    + apply H8; [set_solver|done].
    + apply H8; [set_solver|done].
    + intros id d Hid. apply (H7 id d b). set_solver.
  - intros Hrel. eapply one_succeeds; [done|done|by repeat constructor|done|apply HP|done|done].
Qed.

Lemma c89_uncontained_lemma b l2 set1 set2 h :
  let es := set1 ++ set2 in
  (b = true ∧ h = ex3_calls3 l2 set1 set2) ∨ (b = false ∧ h = ex3_calls4 l2 set1 set2) →
  proper kernel [l2] es →
  (∀ n, build Plain h = Ok (Some n) →
     ∃ e hc hf ed frags index, n = Net ed frags index ∧
       (if b then ∃ h', hc = Some h' ∧ common kernel e es [l2] = Some h' else hc = None) ∧
       cut kernel e hc hf [] es ∧ made_of hc hf es frags) ∧
  (reliable kernel → ∃ n, build Plain h = Ok (Some n)).
Proof.
  intros es Hh HP.
  assert (Hr : spec_run (num := num) dim h = mkRd (if b then [(2%N, (l2, true))] else []) ((λ e, (2%N, e)) <$> es) ∧
               union_flag h = true).
  { destruct HP as (_ & P1 & _ & P3). destruct Hh as [(-> & ->)|(-> & ->)]; (split; [|done]).
    - pose proof (run_domain 2 l2 [set1; set2] true) as Hq. simpl concat in Hq. rewrite app_nil_r in Hq.
      apply Hq; [done|]. intros e He. apply P3; [done|by left].
    - unfold ex3_calls4. etransitivity; [apply run_app_clear|]. simpl.
      etransitivity; [apply (f_equal (accept dim set2 2)), (accept_one 2 [] set1)|
        apply (accept_one 2 set1 set2)]; try done; try (intros e p _ []%elem_of_nil).
      intros; apply P1; set_solver. }
  destruct Hr as [Hr Hu]. split.
  - intros n Hn.
    destruct (one_plain _ _ 2 _ n Hr) as (e & hc & hf & ed & frags & index & H1 & H2 & -> & H4);
      [done|by destruct b; repeat constructor|apply HP|done|done|].
    exists e, hc, hf, ed, frags, index. split; [done|]. split; [|done]. destruct H1 as (Q1 & _ & _ & Q4).
    destruct b.
    + destruct (Q1 l2) as (h' & -> & Hco); [by left|].
      rewrite ents_of_one, bool_decide_true in Hco by done. by exists h'.
    + apply Q4. simpl. intros []%elem_of_nil.
  - intros Hrel. eapply one_succeeds; [done|done|by destruct b; repeat constructor| |apply HP|done|done].
    destruct b; simpl; [apply NoDup_singleton|constructor].
Qed.
End Net.
