(** A toy kernel with tabulated results, for the examples and counterexamples of
    BuilderProps.v.  Shapes are numbers; below 100 they are sub-domains (dimension 3),
    from 100 on entities (dimension 2). *)

From stdpp Require Import prelude gmap list.
From Verif Require Import Base BuilderModel BuilderSpec BuilderProofs BuilderAttrProofs.

Definition table := list (N * list N).
Definition tab (t : table) (s : N) : option (list N) :=
  snd <$> list_find (λ p : N * list N, p.1 = s) t ≫= (λ q, Some (q.1, q.2.2)).
(** [tab t s = Some []]: deleted; [Some l]: modified into [l]; [None]: unchanged. *)
Definition tab_report (t : table) : report N :=
  mkReport (λ s, match tab t s with Some [] => true | _ => false end) (λ _, [])
           (λ s, default [] (tab t s)).
Definition toy (cf : table) (fr : N → table) : occ N N :=
  mkOcc (λ s, if bool_decide (s < 100)%N then 3%Z else 2%Z)
        (λ _ _ _, Some (tab_report cf)) (λ e _, Some (tab_report (fr e))) (λ _ _, Some 99%N)
        (λ s, s) 1%N 1000%N N.min.
Definition in_order (i : nat) (l : list N) : list N := l.

Lemma in_order_perm i l : in_order i l ≡ₚ l.
Proof. done. Qed.
Lemma toy_reliable cf fr : reliable (toy cf fr).
Proof. done. Qed.

Notation tstep cf fr := (bstep (K := N) id (toy cf fr) in_order).
Notation trun cf fr := (brun (K := N) id (toy cf fr) in_order).

(** Separation can be checked on the table if every entity is confined, or none. *)
Definition tab_pieces (t : table) (s : N) : list N :=
  match tab t s with Some l => l | None => [s] end.
Lemma tab_piece t s f : piece (tab_report t) s f ↔ f ∈ tab_pieces t s.
Proof.
  unfold piece, tab_pieces. cbn. destruct (tab t s) as [[|x l]|]; cbn; set_solver.
Qed.

Lemma toy_conf cf fr e (a : registered N) cu id hc :
  conf_by (toy cf fr) e a cu id hc → hc = None ∨ hc = Some (tab_report cf).
Proof.
  intros (H1 & H2 & H3 & H4). destruct (decide (id ∈ (sds a).*1)) as [Hin|Hin].
  - apply elem_of_list_fmap in Hin as ([i [s c]] & -> & Hin). destruct c.
    + destruct (H1 s Hin) as (h & -> & [= <-]). by right.
    + destruct cu.
      * destruct (H2 s Hin eq_refl) as (h & u & -> & _ & [= <-]). by right.
      * left. by apply (H3 s).
  - left. by apply H4.
Qed.

(** It suffices that the entities and their pieces of different ids are different. *)
Definition sep_check (cf : table) (a : registered N) : bool :=
  forallb (λ p, forallb (λ q, bool_decide (p.1 = q.1) ||
     bool_decide (Forall (λ x, x ∉ q.2 :: tab_pieces cf q.2) (p.2 :: tab_pieces cf p.2))) (ents a)) (ents a).
Lemma toy_distinct cf fr (a : registered N) cu :
  forallb (λ id, bool_decide (id < 2^31)%N) (all_ids a) = true → sep_check cf a = true →
  distinct (id : N → N) (toy cf fr) a cu.
Proof.
  intros Hs Hc. split.
  - rewrite forallb_bd in Hs. by apply bool_decide_eq_true in Hs.
  - intros e hc Hconf id1 id2 s1 s2 g1 g2 Hs1 Hs2 Hg1 Hg2 E. unfold same in E. cbn in E. subst g2.
    destruct (decide (id1 = id2)) as [|Hne]; [done|]. exfalso.
    assert (H1 : g1 ∈ s1 :: tab_pieces cf s1).
    { destruct (toy_conf cf fr e a cu id1 (hc id1)) as [E|E].
      - apply Hconf. intros E. rewrite E in Hs1. by apply elem_of_nil in Hs1.
      - rewrite E in Hg1. cbn in Hg1. subst. left.
      - rewrite E in Hg1. right. by apply tab_piece. }
    assert (H2 : g1 ∈ s2 :: tab_pieces cf s2).
    { destruct (toy_conf cf fr e a cu id2 (hc id2)) as [E|E].
      - apply Hconf. intros E. rewrite E in Hs2. by apply elem_of_nil in Hs2.
      - rewrite E in Hg2. cbn in Hg2. subst. left.
      - rewrite E in Hg2. right. by apply tab_piece. }
    apply ents_in in Hs1, Hs2. unfold sep_check in Hc. rewrite forallb_forall in Hc.
    specialize (Hc (id1, s1)). rewrite <-elem_of_list_In in Hc. specialize (Hc Hs1).
    rewrite forallb_forall in Hc. specialize (Hc (id2, s2)). rewrite <-elem_of_list_In in Hc. specialize (Hc Hs2).
    apply orb_true_iff in Hc as [Hc|Hc]; apply bool_decide_eq_true in Hc; [done|]. cbn in Hc.
    rewrite Forall_forall in Hc. by apply (Hc g1 H1).
Qed.

(** * Counterexamples *)

(** Confinement removes the first entities of sub-domain 1: {103 ↦ 3}, one fragment, so
    that the entities of sub-domain 2 start at 2. *)
Definition hist25 : list (bcall (S := N) (num := N)) :=
  [AddSubDomain true 1 1; AddSubDomain true 2 2; AddEntities [101; 102; 103] 1;
   AddEntities [201; 202] 2]%N.
Definition cf25 : table := [(101, []); (102, [])]%N.
Definition fr0 : N → table := λ _, [].

Definition c25_check (n : outcome (option (network N N))) : bool :=
  match n with
  | Ok (Some (Net _ frags index)) =>
      bool_decide (103 ∈ frags)%N && bool_decide (202 ∈ frags)%N &&
      bool_decide (index !! 103 = Some 3)%N && bool_decide (index !! 202 = Some 3)%N
  | _ => false
  end.
Lemma c25_compute : c25_check (tstep cf25 fr0 Plain (trun cf25 fr0 Plain hist25) Build).2 = true.
Proof. vm_compute. reflexivity. Qed.

(** The entity 101 is registered for two sub-domains and is cut into 111 and 112. *)
Definition hist24 : list (bcall (S := N) (num := N)) :=
  [AddSubDomain false 1 1; AddSubDomain false 2 2; SetConfineUnion false;
   AddEntities [101] 1; AddEntities [101] 2]%N.
Definition fr24 : N → table := λ _, [(101, [111; 112])]%N.
Definition c24_check (n : outcome (option (network N N))) : bool :=
  match n with
  | Ok (Some (CNet _ _ _ frags _)) =>
      bool_decide (frags !! 1%N = Some [101%N]) || bool_decide (frags !! 2%N = Some [101%N])
  | _ => false
  end.
Lemma c24_compute : c24_check (tstep [] fr24 Contained (trun [] fr24 Contained hist24) Build).2 = true.
Proof. vm_compute. reflexivity. Qed.

(** The id 2^32+1 is stored as 1. *)
Definition hist26 : list (bcall (S := N) (num := N)) :=
  [AddSubDomain false 1 4294967297; AddSubDomain false 2 7; AddEntities [101] 7]%N.
Definition c26_check (n : outcome (option (network N N))) : bool :=
  match n with
  | Ok (Some (CNet _ _ sdf _ _)) => bool_decide (sub_domain_ids sdf ≡ₚ [1; 7]%N)
  | _ => false
  end.
Lemma c26_compute : c26_check (tstep [] fr0 Contained (trun [] fr0 Contained hist26) Build).2 = true.
Proof. vm_compute. reflexivity. Qed.

(** The tolerance of a first build is still in force after clear(). *)
Definition hist27 : list (bcall (S := N) (num := N)) :=
  [AddEntities [500] 0; Build; Clear; AddEntities [105] 0]%N.
Definition hist27' : list (bcall (S := N) (num := N)) := [AddEntities [105] 0]%N.
Definition fr27 : N → table := λ e, if bool_decide (e < 200)%N then [(105, [151; 152])]%N else [].
Definition frags_of (n : outcome (option (network N N))) : option (list N) :=
  match n with Ok (Some (Net _ frags _)) => Some frags | _ => None end.
Lemma c27_compute :
  frags_of (tstep [] fr27 Plain (trun [] fr27 Plain hist27) Build).2 = Some [105%N] ∧
  frags_of (tstep [] fr27 Plain (trun [] fr27 Plain hist27') Build).2 = Some [151; 152]%N.
Proof. vm_compute. done. Qed.

Lemma in_tab_list : ∀ t s, tab t s = None → tab_pieces t s = [s].
Proof. intros t s E. unfold tab_pieces. by rewrite E. Qed.

(** * Large ids *)
Lemma through_int_large id : (2^31 ≤ id < 2^64 - 2^31)%N → through_int id ≠ id.
Proof.
  intros Hid. unfold through_int, StatusModel.int_of_size, StatusModel.size_of_int.
  pose proof (N.mod_lt id (2^32) ltac:(lia)) as Hm. set (m := (id mod 2^32)%N) in *. clearbody m.
  destruct (bool_decide_reflect (Z.of_N m < 2^31)%Z).
  - rewrite Z.mod_small by lia. lia.
  - replace ((Z.of_N m - 2^32) mod 2^64)%Z with (2^64 - 2^32 + Z.of_N m)%Z; [lia|].
    apply Z.mod_unique with (q := (-1)%Z); lia.
Qed.

Section Large.
Context {S K num : Type} `{EqDecision S} `{Countable K} (key : S → K).
Variable kernel : occ S num.
Variable ord : nat → list N → list N.
Hypothesis Hord : ∀ i l, ord i l ≡ₚ l.

Lemma ids_in_singleton {V} i id (v : V) : ids_in ord i {[ id := v ]} = [id].
Proof. unfold ids_in. rewrite map_to_list_singleton. cbn. apply Permutation_length_1_inv. symmetry. apply Hord. Qed.

Lemma c26_large_lemma (s : S) id :
  reliable kernel → (2^31 ≤ id < 2^64 - 2^31)%N →
  (bstep key kernel ord Plain (brun key kernel ord Plain [AddEntities [s] id]) Build).2 = Throw OutOfRange.
Proof.
  intros Hr Hid. rewrite bstep_build. unfold brun. cbn [fold_left].
  set (b := (bstep key kernel ord Plain b_init (AddEntities [s] id)).1).
  assert (Hb : reg b = mkReg ∅ ∅ {[ id := [s] ]} None (Some (dim_of kernel s)) true ∧ scr b = mkScr None None ∅ ∅ ∅ ).
  { unfold b. cbn [bstep add_entities]. unfold add_entity. cbn [reg reg_init b_init networks subDomains].
    rewrite !bool_decide_false by (intros Hx; by apply Hx). cbn [obind]. split; done. }
  destruct Hb as [Hb Hs]. clearbody b. unfold build. rewrite Hb, Hs. cbn [tol].
  set (r := mkReg _ _ _ _ _ _).
  assert (Hi : initial (num := num) key r None = mkScr None None ∅ {[ id := [s] ]} {[ id := {[ key s := 1%N ]} ]}).
  { unfold initial. cbn [networks subDomains r]. rewrite fmap_empty, right_id_L by apply _. rewrite map_fmap_singleton. done. }
  rewrite Hi. unfold confine. cbn [networks r]. rewrite ids_in_singleton. cbn [confine_loop].
  unfold confine_one. cbn [subDomains r]. rewrite lookup_empty. cbn [fst snd].
  unfold fragment_all. cbn [nfl]. rewrite ids_in_singleton. unfold tagged. cbn [mbind list_bind].
  unfold entry. rewrite lookup_singleton. cbn.
  destruct (fragment kernel _ [s]) as [hf|] eqn:Ef.
  2:{ destruct Hr as (_ & Hr & _). by apply Hr in Ef. }
  unfold bind_ids. cbn. rewrite lookup_insert.
  rewrite lookup_singleton_ne; [done|]. intros E. apply (through_int_large id Hid). by symmetry.
Qed.

(** Without entities the entity dimension is not initialised. *)
Lemma c66_lemma conf (s : S) id :
  reliable kernel → (id < 2^31)%N →
  (bstep key kernel ord Contained (brun key kernel ord Contained [AddSubDomain conf s id]) Build).2 = UB.
Proof.
  intros Hr Hid. rewrite bstep_build. set (h := [AddSubDomain conf s id]).
  assert (Hs : spec_run (dim_of kernel) h = mkRd [(id, (s, conf))] []) by done.
  destruct (build_core key kernel ord Hord Contained h) as [(x & b' & _ & _ & Hx)|(e & hc & hf & c' & _ & Hb & _)].
  - rewrite Hs. split; [by repeat constructor|]. intros e hc _ id1 id2 s1 s2 g1 g2 H1. by apply elem_of_nil in H1.
  - intros _. rewrite Hs. cbn. apply NoDup_singleton.
  - done.
  - rewrite Hb. assert (entityDim (reg (brun key kernel ord Contained h)) = None) as ->; [|done].
    unfold h, brun. cbn [fold_left bstep]. unfold add_sub_domain. cbn [reg reg_init b_init networks subDomains].
    rewrite !bool_decide_false by (intros Hx; by apply Hx). cbn [obind]. rewrite lookup_empty. done.
Qed.
End Large.

(** * The refutations *)
Lemma c24_refuted_lemma :
  ∃ (kernel : occ N N) (h : list bcall) (hf : report N) (s f : N),
    reliable kernel ∧ (∀ e args, fragment kernel e args = Some hf) ∧ piece hf s f ∧ f ≠ s ∧
    (∀ id, id = 1%N ∨ id = 2%N → s ∈ ents_of id (spec_run (dim_of kernel) h)) ∧
    union_flag h = false ∧
    ∃ ed dd sdf frags index,
      (bstep (K := N) id kernel in_order Contained (brun (K := N) id kernel in_order Contained h) Build).2 =
        Ok (Some (CNet ed dd sdf frags index)) ∧
      (frags !! 1%N = Some [s] ∨ frags !! 2%N = Some [s]).
Proof.
  exists (toy [] fr24), hist24, (tab_report (fr24 0%N)), 101%N, 111%N.
  split; [done|]. split; [done|]. split; [by right; left; left|]. split; [done|]. split.
  { intros id [->| ->]; vm_compute; left. }
  split; [done|]. pose proof c24_compute as Hc.
  destruct (bstep _ _ _ _ _ _) as [b [[[ed fr ix|ed dd sdf frags index]|]| | |]]; try done.
  exists ed, dd, sdf, frags, index. split; [done|]. cbn in Hc.
  apply orb_true_iff in Hc as [Hc|Hc]; apply bool_decide_eq_true in Hc; [by left|by right].
Qed.

Lemma c25_refuted_lemma :
  ∃ (kernel : occ N N) (h : list bcall),
    reliable kernel ∧ distinct id kernel (spec_run (dim_of kernel) h) (union_flag h) ∧
    (1, 103)%N ∈ ents (spec_run (dim_of kernel) h) ∧ (2, 202)%N ∈ ents (spec_run (dim_of kernel) h) ∧
    ∃ ed frags index i,
      (bstep (K := N) id kernel in_order Plain (brun (K := N) id kernel in_order Plain h) Build).2 =
        Ok (Some (Net ed frags index)) ∧
      103%N ∈ frags ∧ 202%N ∈ frags ∧ index !! 103%N = Some i ∧ index !! 202%N = Some i.
Proof.
  exists (toy cf25 fr0), hist25. split; [done|]. split; [apply toy_distinct; vm_compute; reflexivity|].
  split; [vm_compute; right; right; left|]. split; [vm_compute; right; right; right; right; left|].
  pose proof c25_compute as Hc.
  destruct (bstep _ _ _ _ _ _) as [b [[[ed fr ix|ed dd sdf frags index]|]| | |]]; try done.
  exists ed, fr, ix, 3%N. split; [done|]. cbn in Hc.
  apply andb_true_iff in Hc as [Hc H4%bool_decide_eq_true].
  apply andb_true_iff in Hc as [Hc H3%bool_decide_eq_true].
  apply andb_true_iff in Hc as [H1%bool_decide_eq_true H2%bool_decide_eq_true]. done.
Qed.

Lemma c26_refuted_lemma :
  ∃ (kernel : occ N N) (h : list bcall),
    reliable kernel ∧ (sds (spec_run (dim_of kernel) h)).*1 = [2^32 + 1; 7]%N ∧
    ∃ ed dd sdf frags index,
      (bstep (K := N) id kernel in_order Contained (brun (K := N) id kernel in_order Contained h) Build).2 =
        Ok (Some (CNet ed dd sdf frags index)) ∧
      sub_domain_ids sdf ≡ₚ [1; 7]%N.
Proof.
  exists (toy [] fr0), hist26. split; [done|]. split; [done|]. pose proof c26_compute as Hc.
  destruct (bstep _ _ _ _ _ _) as [b [[[ed fr ix|ed dd sdf frags index]|]| | |]]; try done.
  exists ed, dd, sdf, frags, index. split; [done|]. cbn in Hc. by apply bool_decide_eq_true in Hc.
Qed.

Lemma c27_refuted_lemma :
  ∃ (kernel : occ N N) (h h' : list bcall),
    ordered_by N.le kernel ∧
    forallb (λ o, negb (sets_tol o)) (h ++ h') = true ∧
    spec_run (dim_of kernel) h = spec_run (dim_of kernel) h' ∧
    (bstep (K := N) id kernel in_order Plain (brun (K := N) id kernel in_order Plain h) Build).2 ≠
    (bstep (K := N) id kernel in_order Plain (brun (K := N) id kernel in_order Plain h') Build).2.
Proof.
  set (kernel := mkOcc (dim_of (toy [] fr27)) (common (toy [] fr27)) (fragment (toy [] fr27)) (fuse (toy [] fr27))
                       (λ s, s `min` 1000)%N 1%N 1000%N N.min).
  exists kernel, hist27, hist27'. split.
  { split; [intros x y; cbn; destruct (N.le_ge_cases x y); [left|right]; split; lia|]. intros s. cbn. lia. }
  split; [done|]. split; [done|]. intros E.
  assert (E' : frags_of (bstep (K := N) id kernel in_order Plain (brun (K := N) id kernel in_order Plain hist27) Build).2 =
               frags_of (bstep (K := N) id kernel in_order Plain (brun (K := N) id kernel in_order Plain hist27') Build).2)
    by (by rewrite E).
  vm_compute in E'. done.
Qed.

Definition c65_check (n : outcome (option (network N N))) : bool :=
  match n with
  | Ok (Some (CNet _ _ sdf _ _)) => bool_decide (length (sub_domain_ids sdf) = 1)
  | _ => false
  end.
Lemma c65_refuted_lemma :
  ∃ (kernel : occ N N) (h : list bcall),
    reliable kernel ∧ (sds (spec_run (dim_of kernel) h)).*1 = [3; 4]%N ∧
    ∃ ed dd sdf frags index,
      (bstep (K := N) id kernel in_order Contained (brun (K := N) id kernel in_order Contained h) Build).2 =
        Ok (Some (CNet ed dd sdf frags index)) ∧
      length (sub_domain_ids sdf) = 1.
Proof.
  exists (toy [] fr0), [AddSubDomain true 1 3; AddSubDomain true 1 4; AddEntities [101] 3]%N.
  split; [done|]. split; [done|].
  assert (Hc : c65_check (tstep [] fr0 Contained (trun [] fr0 Contained
     [AddSubDomain true 1 3; AddSubDomain true 1 4; AddEntities [101] 3]%N) Build).2 = true) by (vm_compute; reflexivity).
  destruct (bstep _ _ _ _ _ _) as [b [[[ed fr ix|ed dd sdf frags index]|]| | |]]; try done.
  exists ed, dd, sdf, frags, index. split; [done|]. cbn in Hc. by apply bool_decide_eq_true in Hc.
Qed.
