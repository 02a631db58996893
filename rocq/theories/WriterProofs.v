(** Proofs for the writers. *)

From stdpp Require Import prelude gmap list.
From Verif Require Import Base BuilderModel WriterModel WriterSpec.

(** * Positions *)
Section Positions.
Context {A : Type}.
Implicit Types (l : list A) (P : A → bool).

Lemma positions_from_app i P l1 l2 :
  positions_from i P (l1 ++ l2) =
  positions_from i P l1 ++ positions_from (i + N.of_nat (length l1)) P l2.
Proof.
  revert i. induction l1 as [|x l1 IH]; intros i; cbn [app positions_from length].
  { by rewrite N.add_0_r. }
  rewrite IH. replace (i + 1 + N.of_nat (length l1))%N with (i + N.of_nat (S (length l1)))%N by lia.
  by destruct (P x).
Qed.
Lemma positions_snoc P l x :
  positions P (l ++ [x]) = positions P l ++ (if P x then [(N.of_nat (length l) + 1)%N] else []).
Proof.
  unfold positions. rewrite positions_from_app. cbn [positions_from].
  replace (1 + N.of_nat (length l))%N with (N.of_nat (length l) + 1)%N by lia. by destruct (P x).
Qed.
Lemma elem_of_positions_from i P l p :
  p ∈ positions_from i P l ↔ ∃ j x, l !! j = Some x ∧ p = (i + N.of_nat j)%N ∧ P x = true.
Proof.
  revert i. induction l as [|y l IH]; intros i; cbn [positions_from].
  { split; [by intros ?%elem_of_nil|]. intros (j & x & E & _). by rewrite lookup_nil in E. }
  assert (E : p ∈ (if P y then i :: positions_from (i + 1) P l else positions_from (i + 1) P l) ↔
              (P y = true ∧ p = i) ∨ p ∈ positions_from (i + 1) P l).
  { destruct (P y); rewrite ?elem_of_cons; naive_solver. }
  rewrite E, IH. split.
  - intros [[HP ->]|(j & x & Ej & -> & HP)].
    + exists 0, y. repeat split; [by rewrite N.add_0_r|done].
    + exists (S j), x. repeat split; [done|lia|done].
  - intros ([|j] & x & Ej & -> & HP).
    + left. cbn in Ej. simplify_eq. split; [done|lia].
    + right. exists j, x. repeat split; [done|lia|done].
Qed.
Lemma elem_of_positions P l p : p ∈ positions P l ↔ ∃ x, nth_at l p = Some x ∧ P x = true.
Proof.
  unfold positions. rewrite elem_of_positions_from. split.
  - intros (j & x & Ej & -> & HP). exists x. split; [|done]. unfold nth_at.
    destruct (1 + N.of_nat j)%N eqn:Ep; [lia|]. rewrite <- Ep. by replace (N.to_nat (1 + N.of_nat j - 1)) with j by lia.
  - intros (x & Ep & HP). unfold nth_at in Ep. destruct p as [|p]; [done|].
    eexists _, x. split; [done|]. split; [lia|done].
Qed.
Lemma positions_from_lb i P l p : p ∈ positions_from i P l → (i ≤ p)%N.
Proof. rewrite elem_of_positions_from. intros (j & x & _ & -> & _). lia. Qed.
Lemma positions_nodup P l : NoDup (positions P l).
Proof.
  unfold positions. generalize 1%N. induction l as [|x l IH]; intros i; cbn [positions_from]; [constructor|].
  destruct (P x); [|done]. constructor; [|done]. intros ?%positions_from_lb. lia.
Qed.
Lemma nth_at_lookup l p x : nth_at l p = Some x ↔ ∃ j, l !! j = Some x ∧ p = (N.of_nat j + 1)%N.
Proof.
  unfold nth_at. split.
  - destruct p; [done|]. intros E. eexists. split; [done|]. lia.
  - intros (j & E & ->). destruct (N.of_nat j + 1)%N eqn:Ep; [lia|]. rewrite <- Ep.
    by replace (N.to_nat (N.of_nat j + 1 - 1)) with j by lia.
Qed.
Lemma nth_at_elem l p x : nth_at l p = Some x → x ∈ l.
Proof. rewrite nth_at_lookup. intros (j & E & _). by eapply elem_of_list_lookup_2. Qed.
Lemma elem_nth_at l x : x ∈ l → ∃ p, nth_at l p = Some x.
Proof. intros [j E]%elem_of_list_lookup. eexists. apply nth_at_lookup. eauto. Qed.
Lemma nth_at_fmap {B} (f : A → B) l p : nth_at (f <$> l) p = f <$> nth_at l p.
Proof. unfold nth_at. destruct p; [done|]. by rewrite list_lookup_fmap. Qed.
Lemma nth_at_nodup l p q x : NoDup l → nth_at l p = Some x → nth_at l q = Some x → p = q.
Proof.
  rewrite !nth_at_lookup. intros Hn (i & Ei & ->) (j & Ej & ->). f_equal. f_equal. by eapply NoDup_lookup.
Qed.

(** A map from tags to the positions of the elements that carry the tag. *)
Definition nonempty (l : list N) : option (list N) := match l with [] => None | _ => Some l end.
Definition tagged_by (g : gmap N (list N)) (P : N → A → bool) l : Prop :=
  ∀ t, g !! t = nonempty (positions (P t) l).
Lemma tagged_nil (P : N → A → bool) : tagged_by ∅ P [].
Proof. intros t. by rewrite lookup_empty. Qed.
Lemma tagged_same g (P : N → A → bool) l x : tagged_by g P l → (∀ t, P t x = false) → tagged_by g P (l ++ [x]).
Proof. intros Hg HP t. by rewrite positions_snoc, HP, app_nil_r. Qed.
Lemma default_nonempty (l : list N) : default [] (nonempty l) = l.
Proof. by destruct l. Qed.
Lemma nonempty_snoc (l : list N) x : nonempty (l ++ [x]) = Some (l ++ [x]).
Proof. by destruct l. Qed.
Lemma tagged_push g (P : N → A → bool) l x t :
  tagged_by g P l → (∀ t', P t' x = bool_decide (t' = t)) →
  tagged_by (push t (next_index l) g) P (l ++ [x]).
Proof.
  intros Hg HP t'. rewrite positions_snoc, HP. unfold push, next_index.
  destruct (bool_decide_reflect (t' = t)) as [->|Ht].
  - by rewrite lookup_insert, Hg, default_nonempty, nonempty_snoc.
  - by rewrite lookup_insert_ne, app_nil_r, Hg.
Qed.
Lemma tagged_lookup g (P : N → A → bool) l t ps :
  tagged_by g P l → g !! t = Some ps → ps ≠ [] ∧ NoDup ps ∧ ∀ p, p ∈ ps ↔ ∃ x, nth_at l p = Some x ∧ P t x = true.
Proof.
  intros Hg E. rewrite Hg in E. destruct (positions (P t) l) as [|q qs] eqn:Eq; [done|].
  cbn in E. injection E as <-. split; [done|]. rewrite <- Eq. split; [apply positions_nodup|]. intros p. apply elem_of_positions.
Qed.
Lemma tagged_find g (P : N → A → bool) l t p x :
  tagged_by g P l → nth_at l p = Some x → P t x = true → ∃ ps, g !! t = Some ps ∧ p ∈ ps.
Proof.
  intros Hg E HP. assert (p ∈ positions (P t) l) as Hp by (apply elem_of_positions; eauto).
  rewrite Hg. destruct (positions (P t) l); [by apply elem_of_nil in Hp|]. eauto.
Qed.
End Positions.

Section Proofs.
Context {S K : Type} `{EqDecision S} `{Countable K} (key : S → K).
Variable T : topo S.
Variable idx : gmap K N.
Variable inters : list (list S).
Notation maps := (maps S).
Notation add_edge := (add_edge key T inters).
Notation add_wire := (add_wire key T inters).
Notation add_face := (add_face key T idx inters).
Notation add_faces := (add_faces key T idx inters).
Notation add_shell := (add_shell key T idx inters).
Notation add_solid := (add_solid key T idx inters).
Notation add_solids := (add_solids key T idx inters).

Definition has (l : list S) (s : S) : Prop := key s ∈ key <$> l.
Lemma has_mono l l' s : l `prefix_of` l' → has l s → has l' s.
Proof. intros [k ->]. unfold has. rewrite fmap_app. set_solver. Qed.
Lemma has_snoc l s : has (l ++ [s]) s.
Proof. unfold has. rewrite fmap_app. set_solver. Qed.
Lemma in_map_has s l : in_map key s l = true ↔ has l s.
Proof. unfold in_map. by rewrite bool_decide_eq_true. Qed.
Lemma in_map_false s l : in_map key s l = false ↔ ¬ has l s.
Proof. unfold in_map. by rewrite bool_decide_eq_false. Qed.
Lemma nodup_snoc l s : NoDup (key <$> l) → ¬ has l s → NoDup (key <$> (l ++ [s])).
Proof.
  intros Hn Hs. rewrite fmap_app. apply NoDup_app. split; [done|]. split; [|apply NoDup_singleton].
  intros x Hx. cbn. rewrite elem_of_list_singleton. by intros ->.
Qed.

(** ** The tags of the intersections *)
Definition tag_from (i : N) (ls : list (list S)) (t : N) (e : S) : bool :=
  if (i <? t)%N then match ls !! N.to_nat (t - i - 1) with Some l => bool_decide (e ∈ l) | None => false end
  else false.
Definition inter_tag : N → S → bool := tag_from 0 inters.
Lemma inter_tag_spec t e : inter_tag t e = true ↔ ∃ l, nth_at inters t = Some l ∧ e ∈ l.
Proof.
  unfold inter_tag, tag_from. setoid_rewrite nth_at_lookup. destruct (N.ltb_spec 0 t) as [Ht|Ht].
  - destruct (inters !! N.to_nat (t - 0 - 1)) as [l|] eqn:El.
    + rewrite bool_decide_eq_true. split.
      * intros He. exists l. split; [|done]. eexists. split; [done|]. lia.
      * intros (l' & (j & E & ->) & He). replace (N.to_nat (N.of_nat j + 1 - 0 - 1)) with j in El by lia. congruence.
    + split; [done|]. intros (l' & (j & E & ->) & He).
      replace (N.to_nat (N.of_nat j + 1 - 0 - 1)) with j in El by lia. congruence.
  - split; [done|]. intros (l' & (j & E & ->) & He). lia.
Qed.
Lemma push_inters_lookup e p ls : ∀ i g t,
  push_inters i ls e p g !! t =
  if tag_from i ls t e then Some (default [] (g !! t) ++ [p]) else g !! t.
Proof.
  induction ls as [|l ls IH]; intros i g t; cbn [push_inters].
  { unfold tag_from. rewrite lookup_nil. by destruct (i <? t)%N. }
  rewrite IH. clear IH. unfold tag_from.
  destruct (N.ltb_spec (i + 1) t) as [H1|H1].
  - destruct (N.ltb_spec i t); [|lia].
    replace (N.to_nat (t - i - 1)) with (Datatypes.S (N.to_nat (t - (i + 1) - 1))) by lia. cbn.
    destruct (bool_decide_reflect (e ∈ l)); [|done]. unfold push. by rewrite lookup_insert_ne by lia.
  - destruct (N.ltb_spec i t).
    + assert (t = i + 1)%N as -> by lia. replace (N.to_nat (i + 1 - i - 1)) with 0 by lia. cbn.
      destruct (bool_decide_reflect (e ∈ l)); [|done]. unfold push. by rewrite lookup_insert.
    + destruct (bool_decide_reflect (e ∈ l)); [|done]. unfold push. by rewrite lookup_insert_ne by lia.
Qed.
Lemma tagged_inters g l e :
  tagged_by g inter_tag l → tagged_by (push_inters 0 inters e (next_index l) g) inter_tag (l ++ [e]).
Proof.
  intros Hg t. rewrite push_inters_lookup, positions_snoc, (Hg t). unfold inter_tag at 1 4.
  destruct (tag_from 0 inters t e).
  - by rewrite default_nonempty, nonempty_snoc.
  - by rewrite app_nil_r.
Qed.

(** ** Invariant: shapes are listed once, tags are positions *)
(** [sds]: for each solid the sub-domain for which it was added. *)
Variable D : N → S → Prop.
Definition ent_tag (t : N) (f : S) : bool := bool_decide (idx !! key f = Some t).
Record inv (sds : list N) (m : maps) : Prop := {
  nd_v : NoDup (key <$> vmap m);
  nd_e : NoDup (key <$> emap m);
  nd_w : NoDup (key <$> wmap m);
  nd_f : NoDup (key <$> fmap_ m);
  nd_sh : NoDup (key <$> shmap m);
  nd_so : NoDup (key <$> somap m);
  tg_e : tagged_by (intersectionsToFragments m) inter_tag (emap m);
  tg_f : tagged_by (entityToFragments m) ent_tag (fmap_ m);
  tg_so : tagged_by (domainToFragments m) (λ t sd, bool_decide (sd = t)) sds;
  al_so : Forall2 D sds (somap m);
}.
Lemma inv_empty : inv [] (no_maps (S := S)).
Proof. split; cbn; try constructor; apply tagged_nil. Qed.

Lemma fold_keeps {B} (P : maps → Prop) (f : maps → B → maps) l :
  (∀ m x, P m → P (f m x)) → ∀ m, P m → P (fold_left f l m).
Proof. intros Hf. induction l as [|x l IH]; intros m Hm; cbn; [done|]. apply IH. by apply Hf. Qed.

Lemma inv_vertex sds m v : inv sds m → inv sds (add_vertex key m v).
Proof.
  intros I. unfold add_vertex. destruct (in_map key v (vmap m)) eqn:E; [done|].
  apply in_map_false in E. destruct I. split; cbn; try done. by apply nodup_snoc.
Qed.
Lemma inv_edge sds m e : inv sds m → inv sds (add_edge m e).
Proof.
  intros I. unfold WriterModel.add_edge. destruct (in_map key e (emap m)) eqn:E; [done|].
  apply in_map_false in E. apply fold_keeps; [intros; by apply inv_vertex|].
  destruct I. split; cbn; try done; [by apply nodup_snoc|]. by apply tagged_inters.
Qed.
Lemma inv_wire sds m w : inv sds m → inv sds (add_wire m w).
Proof.
  intros I. unfold WriterModel.add_wire. destruct (in_map key w (wmap m)) eqn:E; [done|].
  apply in_map_false in E. apply fold_keeps; [intros; by apply inv_edge|].
  destruct I. split; cbn; try done; by apply nodup_snoc.
Qed.
Lemma inv_face sds m f : inv sds m → inv sds (add_face m f).
Proof.
  intros I. unfold WriterModel.add_face. destruct (in_map key f (fmap_ m)) eqn:E; [done|].
  apply in_map_false in E. apply fold_keeps; [intros; by apply inv_wire|].
  destruct I. split; cbn; try done; [by apply nodup_snoc|].
  destruct (idx !! key f) as [i|] eqn:Ei.
  - apply tagged_push; [done|]. intros t. unfold ent_tag. rewrite Ei. apply bool_decide_ext. naive_solver.
  - apply tagged_same; [done|]. intros t. unfold ent_tag. by rewrite Ei.
Qed.
Lemma inv_faces sds m s : inv sds m → inv sds (add_faces m s).
Proof. unfold WriterModel.add_faces. apply fold_keeps. intros. by apply inv_face. Qed.
Lemma inv_shell sds m s : inv sds m → inv sds (add_shell m s).
Proof.
  intros I. unfold WriterModel.add_shell. destruct (in_map key s (shmap m)) eqn:E; [done|].
  apply in_map_false in E. apply inv_faces. destruct I. split; cbn; try done; by apply nodup_snoc.
Qed.
Lemma inv_solid sds sd m s : D sd s → inv sds m → ∃ sds', inv (sds ++ sds') (add_solid sd m s) ∧ Forall (eq sd) sds'.
Proof.
  intros HD I. unfold WriterModel.add_solid. destruct (in_map key s (somap m)) eqn:E.
  { exists []. by rewrite app_nil_r. }
  apply in_map_false in E. exists [sd]. split; [|by repeat constructor].
  apply fold_keeps; [intros; by apply inv_shell|].
  destruct I. split; cbn; try done; [by apply nodup_snoc| |apply Forall2_app; [done|by repeat constructor]].
  replace (next_index (somap m)) with (next_index sds) by (unfold next_index; by rewrite (Forall2_length _ _ _ al_so0)).
  apply tagged_push; [done|]. intros t. apply bool_decide_ext. naive_solver.
Qed.

(** ** Completeness: everything that is explored is listed *)
Definition grow (m m' : maps) : Prop :=
  vmap m `prefix_of` vmap m' ∧ emap m `prefix_of` emap m' ∧ wmap m `prefix_of` wmap m' ∧
  fmap_ m `prefix_of` fmap_ m' ∧ shmap m `prefix_of` shmap m' ∧ somap m `prefix_of` somap m'.
Lemma grow_refl m : grow m m.
Proof. by repeat split. Qed.
Lemma grow_trans m1 m2 m3 : grow m1 m2 → grow m2 m3 → grow m1 m3.
Proof. intros (?&?&?&?&?&?) (?&?&?&?&?&?). repeat split; by etrans. Qed.

Definition cl_e m := ∀ e v, e ∈ emap m → v ∈ t_vertices T e → has (vmap m) v.
Definition cl_w m := ∀ w e, w ∈ wmap m → e ∈ t_edges T w → has (emap m) e.
Definition cl_f m := ∀ f w, f ∈ fmap_ m → w ∈ t_wires T (t_forward T f) → has (wmap m) w.
Definition cl_sh m := ∀ s f, s ∈ shmap m → f ∈ t_faces T s → has (fmap_ m) f.
Definition cl_so m := ∀ s h, s ∈ somap m → h ∈ t_shells T s → has (shmap m) h.

Lemma fold_post (I : maps → Prop) (R : maps → maps → Prop) (f : maps → S → maps) (hx : maps → S → Prop) :
  (∀ m, R m m) → (∀ m1 m2 m3, R m1 m2 → R m2 m3 → R m1 m3) →
  (∀ m m' x, R m m' → hx m x → hx m' x) →
  (∀ m x, I m → I (f m x) ∧ R m (f m x) ∧ hx (f m x) x) →
  ∀ l m, I m → I (fold_left f l m) ∧ R m (fold_left f l m) ∧ ∀ x, x ∈ l → hx (fold_left f l m) x.
Proof.
  intros Hr Ht Hm Hf. induction l as [|x l IH]; intros m HI; cbn.
  { split; [done|]. split; [apply Hr|]. intros x Hx. by apply elem_of_nil in Hx. }
  destruct (Hf m x HI) as (HI1 & HR1 & Hx1). destruct (IH _ HI1) as (HI2 & HR2 & Hx2).
  split; [done|]. split; [by eapply Ht|]. intros y Hy. apply elem_of_cons in Hy as [->|Hy]; eauto.
Qed.

Definition abv_v (m m' : maps) := grow m m' ∧ emap m' = emap m ∧ wmap m' = wmap m ∧ fmap_ m' = fmap_ m ∧ shmap m' = shmap m ∧ somap m' = somap m.
Definition abv_e (m m' : maps) := grow m m' ∧ wmap m' = wmap m ∧ fmap_ m' = fmap_ m ∧ shmap m' = shmap m ∧ somap m' = somap m.
Definition abv_w (m m' : maps) := grow m m' ∧ fmap_ m' = fmap_ m ∧ shmap m' = shmap m ∧ somap m' = somap m.
Definition abv_f (m m' : maps) := grow m m' ∧ shmap m' = shmap m ∧ somap m' = somap m.
Definition abv_sh (m m' : maps) := grow m m' ∧ somap m' = somap m.
Ltac prep := repeat split; cbn; try apply grow_refl; try reflexivity; try (by apply prefix_app_r); try done.

Lemma abv_v_trans m1 m2 m3 : abv_v m1 m2 → abv_v m2 m3 → abv_v m1 m3.
Proof. intros (?&?&?&?&?&?) (?&?&?&?&?&?). split; [by eapply grow_trans|]. repeat split; congruence. Qed.
Lemma abv_e_trans m1 m2 m3 : abv_e m1 m2 → abv_e m2 m3 → abv_e m1 m3.
Proof. intros (?&?&?&?&?) (?&?&?&?&?). split; [by eapply grow_trans|]. repeat split; congruence. Qed.
Lemma abv_w_trans m1 m2 m3 : abv_w m1 m2 → abv_w m2 m3 → abv_w m1 m3.
Proof. intros (?&?&?&?) (?&?&?&?). split; [by eapply grow_trans|]. repeat split; congruence. Qed.
Lemma abv_f_trans m1 m2 m3 : abv_f m1 m2 → abv_f m2 m3 → abv_f m1 m3.
Proof. intros (?&?&?) (?&?&?). split; [by eapply grow_trans|]. repeat split; congruence. Qed.
Lemma abv_sh_trans m1 m2 m3 : abv_sh m1 m2 → abv_sh m2 m3 → abv_sh m1 m3.
Proof. intros (?&?) (?&?). split; [by eapply grow_trans|]. repeat split; congruence. Qed.

Lemma vertex_post m v : abv_v m (add_vertex key m v) ∧ has (vmap (add_vertex key m v)) v.
Proof.
  unfold add_vertex. destruct (in_map key v (vmap m)) eqn:E.
  - split; [prep|]. by apply in_map_has.
  - split; [prep|]. cbn. apply has_snoc.
Qed.
Lemma vertices_post l m :
  abv_v m (fold_left (add_vertex key) l m) ∧ ∀ v, v ∈ l → has (vmap (fold_left (add_vertex key) l m)) v.
Proof.
  apply (fold_post (λ _, True) abv_v (add_vertex key) (λ m v, has (vmap m) v)); [prep|apply abv_v_trans| | |done].
  - intros m0 m' x ((Hp & _) & _). by apply has_mono.
  - intros m0 x _. split; [done|]. apply vertex_post.
Qed.

Lemma edge_post m e : cl_e m → cl_e (add_edge m e) ∧ abv_e m (add_edge m e) ∧ has (emap (add_edge m e)) e.
Proof.
  intros C. unfold WriterModel.add_edge. destruct (in_map key e (emap m)) eqn:E.
  { split; [done|]. split; [prep|]. by apply in_map_has. }
  match goal with |- context [fold_left _ _ ?m1] => set (m0 := m1) end.
  destruct (vertices_post (t_vertices T e) m0) as ((Hg & He & Hw & Hf & Hs & Ho) & Hv).
  split; [|split].
  - intros e' v. rewrite He. cbn. rewrite elem_of_app, elem_of_list_singleton. intros [He'| ->] Hv'; [|by apply Hv].
    destruct Hg as (Hp & _). eapply has_mono; [exact Hp|]. cbn. eapply C; eauto.
  - split; [|by rewrite Hw, Hf, Hs, Ho]. eapply grow_trans; [|exact Hg]. prep.
  - rewrite He. apply has_snoc.
Qed.
Lemma edges_post l m : cl_e m → let m' := fold_left add_edge l m in
  cl_e m' ∧ abv_e m m' ∧ ∀ e, e ∈ l → has (emap m') e.
Proof.
  apply (fold_post cl_e abv_e add_edge (λ m v, has (emap m) v)); [prep|apply abv_e_trans| |].
  - intros m0 m' x ((_ & Hp & _) & _). by apply has_mono.
  - intros m0 x. apply edge_post.
Qed.

Lemma wire_post m w : cl_e m ∧ cl_w m →
  (cl_e (add_wire m w) ∧ cl_w (add_wire m w)) ∧ abv_w m (add_wire m w) ∧ has (wmap (add_wire m w)) w.
Proof.
  intros [Ce C]. unfold WriterModel.add_wire. destruct (in_map key w (wmap m)) eqn:E.
  { split; [done|]. split; [prep|]. by apply in_map_has. }
  match goal with |- context [fold_left _ _ ?m1] => set (m0 := m1) end.
  destruct (edges_post (t_edges T w) m0 Ce) as (Ce' & (Hg & Hw & Hf & Hs & Ho) & Hv).
  split; [split; [done|]|split].
  - intros e' v. rewrite Hw. cbn. rewrite elem_of_app, elem_of_list_singleton. intros [He'| ->] Hv'; [|by apply Hv].
    destruct Hg as (_ & Hp & _). eapply has_mono; [exact Hp|]. cbn. eapply C; eauto.
  - split; [|by rewrite Hf, Hs, Ho]. eapply grow_trans; [|exact Hg]. prep.
  - rewrite Hw. apply has_snoc.
Qed.
Lemma wires_post l m : cl_e m ∧ cl_w m → let m' := fold_left add_wire l m in
  (cl_e m' ∧ cl_w m') ∧ abv_w m m' ∧ ∀ w, w ∈ l → has (wmap m') w.
Proof.
  apply (fold_post (λ m, cl_e m ∧ cl_w m) abv_w add_wire (λ m v, has (wmap m) v)); [prep|apply abv_w_trans| |].
  - intros m0 m' x ((_ & _ & Hp & _) & _). by apply has_mono.
  - intros m0 x. apply wire_post.
Qed.

Definition cl3 m := (cl_e m ∧ cl_w m) ∧ cl_f m.
Lemma face_post m f : cl3 m → cl3 (add_face m f) ∧ abv_f m (add_face m f) ∧ has (fmap_ (add_face m f)) f.
Proof.
  intros [Ce C]. unfold WriterModel.add_face. destruct (in_map key f (fmap_ m)) eqn:E.
  { split; [done|]. split; [prep|]. by apply in_map_has. }
  match goal with |- context [fold_left _ _ ?m1] => set (m0 := m1) end.
  destruct (wires_post (t_wires T (t_forward T f)) m0 Ce) as (Ce' & (Hg & Hf & Hs & Ho) & Hv).
  split; [split; [done|]|split].
  - intros e' v. rewrite Hf. cbn. rewrite elem_of_app, elem_of_list_singleton. intros [He'| ->] Hv'; [|by apply Hv].
    destruct Hg as (_ & _ & Hp & _). eapply has_mono; [exact Hp|]. cbn. eapply C; eauto.
  - split; [|by rewrite Hs, Ho]. eapply grow_trans; [|exact Hg]. prep.
  - rewrite Hf. apply has_snoc.
Qed.
Lemma faces_post s m : cl3 m → let m' := add_faces m s in
  cl3 m' ∧ abv_f m m' ∧ ∀ f, f ∈ t_faces T s → has (fmap_ m') f.
Proof.
  apply (fold_post cl3 abv_f add_face (λ m v, has (fmap_ m) v)); [prep|apply abv_f_trans| |].
  - intros m0 m' x ((_ & _ & _ & Hp & _) & _). by apply has_mono.
  - intros m0 x. apply face_post.
Qed.
Definition cl4 m := cl3 m ∧ cl_sh m.
Lemma shell_post m s : cl4 m → cl4 (add_shell m s) ∧ abv_sh m (add_shell m s) ∧ has (shmap (add_shell m s)) s.
Proof.
  intros [Ce C]. unfold WriterModel.add_shell. destruct (in_map key s (shmap m)) eqn:E.
  { split; [done|]. split; [prep|]. by apply in_map_has. }
  match goal with |- context [WriterModel.add_faces _ _ _ _ ?m1 _] => set (m0 := m1) end.
  destruct (faces_post s m0 Ce) as (Ce' & (Hg & Hs & Ho) & Hv).
  split; [split; [done|]|split].
  - intros e' v. rewrite Hs. cbn. rewrite elem_of_app, elem_of_list_singleton. intros [He'| ->] Hv'; [|by apply Hv].
    destruct Hg as (_ & _ & _ & Hp & _). eapply has_mono; [exact Hp|]. cbn. eapply C; eauto.
  - split; [|by rewrite Ho]. eapply grow_trans; [|exact Hg]. prep.
  - rewrite Hs. apply has_snoc.
Qed.
Lemma shells_post l m : cl4 m → let m' := fold_left add_shell l m in
  cl4 m' ∧ abv_sh m m' ∧ ∀ s, s ∈ l → has (shmap m') s.
Proof.
  apply (fold_post cl4 abv_sh add_shell (λ m v, has (shmap m) v)); [prep|apply abv_sh_trans| |].
  - intros m0 m' x ((_ & _ & _ & _ & Hp & _) & _). by apply has_mono.
  - intros m0 x. apply shell_post.
Qed.
Definition cl5 m := cl4 m ∧ cl_so m.
Lemma solid_post sd m s : cl5 m → cl5 (add_solid sd m s) ∧ grow m (add_solid sd m s) ∧ has (somap (add_solid sd m s)) s.
Proof.
  intros [Ce C]. unfold WriterModel.add_solid. destruct (in_map key s (somap m)) eqn:E.
  { split; [done|]. split; [prep|]. by apply in_map_has. }
  match goal with |- context [fold_left _ _ ?m1] => set (m0 := m1) end.
  destruct (shells_post (t_shells T s) m0 Ce) as (Ce' & (Hg & Ho) & Hv).
  split; [split; [done|]|split].
  - intros e' v. rewrite Ho. cbn. rewrite elem_of_app, elem_of_list_singleton. intros [He'| ->] Hv'; [|by apply Hv].
    destruct Hg as (_ & _ & _ & _ & Hp & _). eapply has_mono; [exact Hp|]. cbn. eapply C; eauto.
  - eapply grow_trans; [|exact Hg]. prep.
  - rewrite Ho. apply has_snoc.
Qed.
Lemma has_grow_so m m' s : grow m m' → has (somap m) s → has (somap m') s.
Proof. intros (_ & _ & _ & _ & _ & Hp). by apply has_mono. Qed.
Lemma has_grow_f m m' s : grow m m' → has (fmap_ m) s → has (fmap_ m') s.
Proof. intros (_ & _ & _ & Hp & _). by apply has_mono. Qed.
Lemma solids_post sd s m : cl5 m → let m' := add_solids sd m s in
  cl5 m' ∧ grow m m' ∧ ∀ x, x ∈ t_solids T s → has (somap m') x.
Proof.
  apply (fold_post cl5 grow (add_solid sd) (λ m v, has (somap m) v)); [apply grow_refl|apply grow_trans|apply has_grow_so|].
  intros m0 x. apply solid_post.
Qed.
Lemma cl5_faces s m : cl5 m → cl5 (add_faces m s) ∧ grow m (add_faces m s) ∧ ∀ f, f ∈ t_faces T s → has (fmap_ (add_faces m s)) f.
Proof.
  intros [[C3 C4] C5]. destruct (faces_post s m C3) as (C3' & (Hg & Hs & Ho) & Hv).
  split; [split; [split; [done|]|]|by split].
  - intros x f. rewrite Hs. intros Hx Hf. eapply has_grow_f; [exact Hg|]. eapply C4; eauto.
  - intros x f. rewrite Ho. intros Hx Hf. unfold has. rewrite Hs. eapply C5; eauto.
Qed.

(** ** Soundness: nothing else is listed *)
Section Sound.
Variables PV PE PW PF PH PO : S → Prop.
Hypothesis HPE : ∀ x y, PE x → y ∈ t_vertices T x → PV y.
Hypothesis HPW : ∀ x y, PW x → y ∈ t_edges T x → PE y.
Hypothesis HPF : ∀ x y, PF x → y ∈ t_wires T (t_forward T x) → PW y.
Hypothesis HPH : ∀ x y, PH x → y ∈ t_faces T x → PF y.
Hypothesis HPO : ∀ x y, PO x → y ∈ t_shells T x → PH y.
Definition sound (m : maps) : Prop :=
  Forall PV (vmap m) ∧ Forall PE (emap m) ∧ Forall PW (wmap m) ∧ Forall PF (fmap_ m) ∧
  Forall PH (shmap m) ∧ Forall PO (somap m).
Lemma fold_sound (Q : S → Prop) (f : maps → S → maps) l :
  (∀ m x, sound m → Q x → sound (f m x)) → (∀ x, x ∈ l → Q x) → ∀ m, sound m → sound (fold_left f l m).
Proof.
  intros Hf. induction l as [|x l IH]; intros Hl m Hm; cbn; [done|].
  apply IH; [intros; apply Hl; by right|]. apply Hf; [done|]. apply Hl. left.
Qed.
Lemma sound_vertex m x : sound m → PV x → sound (add_vertex key m x).
Proof.
  intros Hs Hx. unfold add_vertex. destruct (in_map _ _ _); [done|]. destruct Hs as (?&?&?&?&?&?).
  repeat split; cbn; try done. apply Forall_app. split; [done|]. by constructor.
Qed.
Lemma sound_edge m x : sound m → PE x → sound (add_edge m x).
Proof.
  intros Hs Hx. unfold WriterModel.add_edge. destruct (in_map _ _ _); [done|].
  apply (fold_sound PV); [apply sound_vertex|eauto|]. destruct Hs as (?&?&?&?&?&?).
  repeat split; cbn; try done. apply Forall_app. split; [done|]. by constructor.
Qed.
Lemma sound_wire m x : sound m → PW x → sound (add_wire m x).
Proof.
  intros Hs Hx. unfold WriterModel.add_wire. destruct (in_map _ _ _); [done|].
  apply (fold_sound PE); [apply sound_edge|eauto|]. destruct Hs as (?&?&?&?&?&?).
  repeat split; cbn; try done. apply Forall_app. split; [done|]. by constructor.
Qed.
Lemma sound_face m x : sound m → PF x → sound (add_face m x).
Proof.
  intros Hs Hx. unfold WriterModel.add_face. destruct (in_map _ _ _); [done|].
  apply (fold_sound PW); [apply sound_wire|eauto|]. destruct Hs as (?&?&?&?&?&?).
  repeat split; cbn; try done. apply Forall_app. split; [done|]. by constructor.
Qed.
Lemma sound_faces m s : sound m → (∀ f, f ∈ t_faces T s → PF f) → sound (add_faces m s).
Proof. intros Hs Hf. apply (fold_sound PF); [apply sound_face|done|done]. Qed.
Lemma sound_shell m x : sound m → PH x → sound (add_shell m x).
Proof.
  intros Hs Hx. unfold WriterModel.add_shell. destruct (in_map _ _ _); [done|].
  apply sound_faces; [|eauto]. destruct Hs as (?&?&?&?&?&?).
  repeat split; cbn; try done. apply Forall_app. split; [done|]. by constructor.
Qed.
Lemma sound_solid sd m x : sound m → PO x → sound (add_solid sd m x).
Proof.
  intros Hs Hx. unfold WriterModel.add_solid. destruct (in_map _ _ _); [done|].
  apply (fold_sound PH); [apply sound_shell|eauto|]. destruct Hs as (?&?&?&?&?&?).
  repeat split; cbn; try done. apply Forall_app. split; [done|]. by constructor.
Qed.
Lemma sound_solids sd m s : sound m → (∀ f, f ∈ t_solids T s → PO f) → sound (add_solids sd m s).
Proof. intros Hs Hf. apply (fold_sound PO); [apply sound_solid|done|done]. Qed.
End Sound.

Lemma inv_solids sds sd m s :
  (∀ x, x ∈ t_solids T s → D sd x) → inv sds m → ∃ sds', inv (sds ++ sds') (add_solids sd m s).
Proof.
  intros HD. unfold WriterModel.add_solids. revert sds m. induction (t_solids T s) as [|x l IH]; intros sds m I; cbn.
  { exists []. by rewrite app_nil_r. }
  destruct (inv_solid sds sd m x) as (s1 & I1 & _); [apply HD; left|done|].
  destruct (IH) with (sds := sds ++ s1) (m := add_solid sd m x) as (s2 & I2); [intros; apply HD; by right|done|].
  exists (s1 ++ s2). by rewrite app_assoc.
Qed.
End Proofs.
