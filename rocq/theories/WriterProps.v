(** Properties C28-C30 and C67 (BRepWriter, GmshWriter).  [T], [shape_of] describe the shapes,
    [iter] and [go] the traversal of the index maps and of the hash maps of the writer.
    Positions in the lists of sub-shapes are the numbers used in the .geo file; [groups d]
    are the physical groups of dimension d in the file. *)

From stdpp Require Import prelude gmap list.
From Verif Require Import Base BuilderModel BuilderSpec BuilderExamples WriterModel WriterSpec WriterProofs
  WriterNetProofs WriterBuildProofs WriterExamples.

(** C28: the groups of intersection edges have different tags, are not empty, are disjoint,
    and contain only edges that two fragments share. *)
Theorem c28_groups {S K} `{EqDecision S} `{Countable K} (key : S → K) (T : topo S) (shape_of : K → S)
    (iter : gmap K N → list (K * N)) (go : nat → gmap N (list N) → list (N * list N)) ids n m :
  (∀ i, iter i ≡ₚ map_to_list i) → (∀ i g, go i g ≡ₚ map_to_list g) →
  consistent key T shape_of → writer key T shape_of iter ids n = Ok m →
  ∃ file, geo_file go m = Ok file ∧ proper 1 file ∧
    (∀ t l t' l' p, (t, l) ∈ groups 1 file → (t', l') ∈ groups 1 file → p ∈ l → p ∈ l' → t = t') ∧
    (∀ t l p, (t, l) ∈ groups 1 file → p ∈ l →
       ∃ e, nth_at (emap m) p = Some e ∧ shared_edge key T shape_of ids n e).
Proof. intros Hiter Hgo. exact (c28_sound_lemma key T shape_of iter Hiter go Hgo ids n m). Qed.
Print Assumptions c28_groups.

(** C28, partial: every shared edge is in a group, provided that the directions in which the
    written shapes have it are directions in which the fragments have it. *)
Theorem c28_complete_partial {S K} `{EqDecision S} `{Countable K} (key : S → K) (T : topo S) (shape_of : K → S)
    (iter : gmap K N → list (K * N)) (go : nat → gmap N (list N) → list (N * list N)) ids n m :
  (∀ i, iter i ≡ₚ map_to_list i) → (∀ i g, go i g ≡ₚ map_to_list g) →
  consistent key T shape_of → listed key T ids n →
  (∀ e e', part_edge T ids n e → shared_edge key T shape_of ids n e' → key e = key e' →
           shared_edge key T shape_of ids n e) →
  writer key T shape_of iter ids n = Ok m →
  ∃ file, geo_file go m = Ok file ∧
    ∀ e, shared_edge key T shape_of ids n e → ∃ p e', nth_at (emap m) p = Some e' ∧ key e' = key e ∧
      ∃ t l, (t, l) ∈ groups 1 file ∧ p ∈ l.
Proof. intros Hiter Hgo. exact (c28_complete_lemma key T shape_of iter Hiter go Hgo ids n m). Qed.
Print Assumptions c28_complete_partial.

(** C28: this is the case for networks without sub-domains if all fragments are faces with
    orientation FORWARD. *)
Theorem c28_forward {S K} `{EqDecision S} `{Countable K} (key : S → K) (T : topo S) (shape_of : K → S)
    (iter : gmap K N → list (K * N)) (go : nat → gmap N (list N) → list (N * list N)) ids ed frags index m :
  let n := Net ed frags index in
  (∀ i, iter i ≡ₚ map_to_list i) → (∀ i g, go i g ≡ₚ map_to_list g) →
  consistent key T shape_of → listed key T ids n →
  (∀ f w e, w ∈ t_wires T f → e ∈ t_edges T w → e ∈ t_edges T f) →
  (∀ s f, s ∈ frags → f ∈ t_faces T s → indexed ids n (key f) ∧ t_forward T f = f ∧ shape_of (key f) = f) →
  writer key T shape_of iter ids n = Ok m →
  ∃ file, geo_file go m = Ok file ∧
    ∀ e, shared_edge key T shape_of ids n e → ∃ p e', nth_at (emap m) p = Some e' ∧ key e' = key e ∧
      ∃ t l, (t, l) ∈ groups 1 file ∧ p ∈ l.
Proof. intros n Hiter Hgo. exact (c28_forward_lemma key T shape_of iter Hiter go Hgo ids ed frags index m). Qed.
Print Assumptions c28_forward.

(** Two fractures of two fragments each that meet in one edge, once in the other
    direction; the edges are numbered 2000, 2001, ... in the order of the file. *)
Example c28_case :
  consistent (fst : shape → N) (tab_topo cross) (λ k, (k, false)) ∧
  listed (fst : shape → N) (tab_topo cross) [] cross_net ∧
  let w := twriter cross [] cross_net in
  w = Ok (tab_maps w) ∧ (λ e : shape, e.1) <$> emap (tab_maps w) = [2000; 2001; 2002; 2003; 2004]%N ∧
  match tfile (tab_maps w) with
  | Ok f => f = [Physical 2 1 [1; 2]; SizeAt 2 [1; 2] false; Physical 2 2 [3; 4]; SizeAt 2 [3; 4] false; Physical 1 1 [1]]%N
  | _ => False
  end.
Proof. split; [by apply tab_consistent|]. split; [exact cross_listed|]. exact cross_file. Qed.

(** C28, refuted in general: two fragments meet in an edge of the boundary of the domain;
    a face of the boundary, which is written first, has it in the other direction.  The
    edge is written, but there is no group at all.  (All shapes of the network have
    orientation FORWARD.) *)
Theorem c28_complete_refuted :
  consistent (fst : shape → N) (tab_topo boundary) (λ k, (k, false)) ∧
  listed (fst : shape → N) (tab_topo boundary) [1%N] boundary_net ∧
  shared_edge (fst : shape → N) (tab_topo boundary) (λ k, (k, false)) [1%N] boundary_net (2000%N, false) ∧
  ∃ m file, twriter boundary [1%N] boundary_net = Ok m ∧ tfile m = Ok file ∧
    (∃ p e', nth_at (emap m) p = Some e' ∧ e'.1 = 2000%N) ∧ ∀ t l, (t, l) ∉ groups 1 file.
Proof.
  exact (conj (tab_consistent boundary (λ _, false) eq_refl)
              (conj boundary_listed (conj boundary_shared boundary_refuted))).
Qed.
Print Assumptions c28_complete_refuted.

(** C29: a fragment with index [tag] has exactly one number among the surfaces and is in the
    group [tag] and in no other; groups have different tags and are not empty. *)
Theorem c29_surfaces {S K} `{EqDecision S} `{Countable K} (key : S → K) (T : topo S) (shape_of : K → S)
    (iter : gmap K N → list (K * N)) (go : nat → gmap N (list N) → list (N * list N)) ids n m :
  (∀ i, iter i ≡ₚ map_to_list i) → (∀ i g, go i g ≡ₚ map_to_list g) →
  consistent key T shape_of → listed key T ids n → writer key T shape_of iter ids n = Ok m →
  ∃ file, geo_file go m = Ok file ∧ proper 2 file ∧
    ∀ k tag, primary ids n k tag → ∃ p f, nth_at (fmap_ m) p = Some f ∧ key f = k ∧
      (∀ p' f', nth_at (fmap_ m) p' = Some f' → key f' = k → p' = p) ∧
      (∃ l, (tag, l) ∈ groups 2 file) ∧ ∀ tag' l, (tag', l) ∈ groups 2 file → p ∈ l ↔ tag' = tag.
Proof. intros Hiter Hgo. exact (c29_faces_lemma key T shape_of iter Hiter go Hgo ids n m). Qed.
Print Assumptions c29_surfaces.

(** C29: the groups contain nothing but fragments with their index. *)
Theorem c29_members {S K} `{EqDecision S} `{Countable K} (key : S → K) (T : topo S) (shape_of : K → S)
    (iter : gmap K N → list (K * N)) (go : nat → gmap N (list N) → list (N * list N)) ids n m file tag l p :
  (∀ i, iter i ≡ₚ map_to_list i) → (∀ i g, go i g ≡ₚ map_to_list g) →
  writer key T shape_of iter ids n = Ok m → geo_file go m = Ok file →
  (tag, l) ∈ groups 2 file → p ∈ l → ∃ f, nth_at (fmap_ m) p = Some f ∧ primary ids n (key f) tag.
Proof. intros Hiter Hgo. exact (c29_members_lemma key T shape_of iter Hiter go Hgo ids n m file tag l p). Qed.
Print Assumptions c29_members.

(** C29: every solid of a sub-domain is in exactly one of the groups of volumes, that of a
    sub-domain it is a fragment of. *)
Theorem c29_volumes {S K} `{EqDecision S} `{Countable K} (key : S → K) (T : topo S) (shape_of : K → S)
    (iter : gmap K N → list (K * N)) (go : nat → gmap N (list N) → list (N * list N)) ids n m :
  (∀ i g, go i g ≡ₚ map_to_list g) →
  consistent key T shape_of → writer key T shape_of iter ids n = Ok m →
  ∃ file, geo_file go m = Ok file ∧ proper 3 file ∧
    ∀ s, part_solid T ids n s → ∃ p s', nth_at (somap m) p = Some s' ∧ key s' = key s ∧
      ∃ id, (∃ l, (id, l) ∈ groups 3 file) ∧ (∀ id' l, (id', l) ∈ groups 3 file → p ∈ l ↔ id' = id) ∧
            ∃ x, domain_fragment ids n id x ∧ s' ∈ t_solids T x.
Proof. intros Hgo. exact (c29_solids_lemma key T shape_of iter go Hgo ids n m). Qed.
Print Assumptions c29_volumes.

(** C29: what the builders return meets the hypothesis [listed], and all fragments have an
    index. *)
Theorem c29_built {S K num} `{EqDecision S} `{Countable K} (key : S → K) (kernel : occ S num)
    (ord : nat → list N → list N) k b n (T : topo S) ids :
  (∀ i l, ord i l ≡ₚ l) → (build key kernel ord k b).2 = Ok n →
  (∀ s, entity_fragment ids n s → s ∈ t_faces T s) →
  listed key T ids n ∧ ∀ s, entity_fragment ids n s → indexed ids n (key s).
Proof. intros Hord. exact (built_covers key kernel ord Hord k b n T ids). Qed.
Print Assumptions c29_built.

(** The network above: fragments 100 and 101 have index 1, 102 and 103 have index 2. *)
Example c29_case :
  primary [] cross_net 101%N 1 ∧ primary [] cross_net 102%N 2 ∧
  (∀ s, entity_fragment [] cross_net s → s ∈ t_faces (tab_topo cross) s).
Proof.
  split; [reflexivity|]. split; [reflexivity|]. intros s Hs. cbn in Hs.
  repeat (apply elem_of_cons in Hs as [->|Hs]; [left|]). by apply elem_of_nil in Hs.
Qed.

(** C30, partial: if in every sub-domain the indices do not exceed the number of fragments,
    then two members of a group are fragments of the same entity. *)
Theorem c30_separate_partial {S K} `{EqDecision S} `{Countable K} (key : S → K) (T : topo S) (shape_of : K → S)
    (iter : gmap K N → list (K * N)) (go : nat → gmap N (list N) → list (N * list N))
    ids ed dd sdf frags index m file t l p1 p2 :
  let n : network S K := CNet ed dd sdf frags index in
  (∀ i, iter i ≡ₚ map_to_list i) → (∀ i g, go i g ≡ₚ map_to_list g) →
  (∀ id mp k i, id ∈ ids → index !! id = Some mp → mp !! k = Some i → (1 ≤ i ≤ N.of_nat (size mp))%N) →
  writer key T shape_of iter ids n = Ok m → geo_file go m = Ok file →
  (t, l) ∈ groups 2 file → p1 ∈ l → p2 ∈ l →
  ∃ f1 f2 id mp i, nth_at (fmap_ m) p1 = Some f1 ∧ nth_at (fmap_ m) p2 = Some f2 ∧
    id ∈ ids ∧ index !! id = Some mp ∧ mp !! key f1 = Some i ∧ mp !! key f2 = Some i.
Proof. intros n Hiter Hgo. exact (c30_lemma key T shape_of iter Hiter go Hgo ids ed dd sdf frags index m file t l p1 p2). Qed.
Print Assumptions c30_separate_partial.

Example c30_case :
  match boundary_net with
  | CNet _ _ _ _ index =>
      (∀ id mp k i, id ∈ [1]%N → index !! id = Some mp → mp !! k = Some i → (1 ≤ i ≤ N.of_nat (size mp))%N) ∧
      match tfile (tab_maps (twriter boundary [1%N] boundary_net)) with
      | Ok f => groups 2 f = [(1, [3]); (2, [4])]%N
      | _ => False
      end
  | Net _ _ _ => False
  end.
Proof.
  cbn [boundary_net]. split; [|vm_compute; reflexivity].
  intros id mp k i _ Hm Hk. apply elem_of_list_to_map_2, elem_of_list_singleton in Hm. injection Hm as -> ->.
  apply lookup_insert_Some in Hk as [[_ <-]|[_ Hk]]; [by vm_compute|].
  apply lookup_insert_Some in Hk as [[_ <-]|[_ Hk]]; [by vm_compute|]. by rewrite lookup_empty in Hk.
Qed.

(** C30, refuted in general: sub-domain 1 has the entities 101, 102, 103, of which only 103
    is left; sub-domain 2 has the entities 201, 202.  The fragments of the entities 103 and
    202 are in the same group, with tag 3. *)
Theorem c30_refuted :
  consistent (id : N → N) bare id ∧
  spec_run (dim_of (toy cf25 fr0)) hist25 =
    mkRd [(1, (1, true)); (2, (2, true))]%N [(1, 101); (1, 102); (1, 103); (2, 201); (2, 202)]%N ∧
  ∃ n m file l p1 p2,
    (tstep cf25 fr0 Contained (trun cf25 fr0 Contained hist25) Build).2 = Ok (Some n) ∧
    writer (id : N → N) bare id in_tree [1; 2]%N n = Ok m ∧ tfile m = Ok file ∧
    (3%N, l) ∈ groups 2 file ∧ p1 ∈ l ∧ p2 ∈ l ∧ nth_at (fmap_ m) p1 = Some 103%N ∧ nth_at (fmap_ m) p2 = Some 202%N.
Proof. exact (conj bare_consistent (conj hist25_registers c30_witness)). Qed.
Print Assumptions c30_refuted.

(** C67: the compound has each sub-shape of the network exactly once, and nothing else. *)
Theorem c67_compound {S K} `{EqDecision S} `{Countable K} (key : S → K) (T : topo S) (shape_of : K → S)
    (iter : gmap K N → list (K * N)) ids n m :
  consistent key T shape_of → writer key T shape_of iter ids n = Ok m →
  compound m = vmap m ++ emap m ++ wmap m ++ fmap_ m ++ shmap m ++ somap m ∧
  lists_once key (part_vertex T ids n) (vmap m) ∧ lists_once key (part_edge T ids n) (emap m) ∧
  lists_once key (part_wire T ids n) (wmap m) ∧ lists_once key (part_face T ids n) (fmap_ m) ∧
  lists_once key (part_shell T ids n) (shmap m) ∧ lists_once key (part_solid T ids n) (somap m).
Proof. intros Hc Hm. exact (conj eq_refl (c67_lemma key T shape_of iter ids n m Hc Hm)). Qed.
Print Assumptions c67_compound.

Example c67_case :
  (λ e : shape, e.1) <$> compound (tab_maps (twriter cross [] cross_net)) =
    [3000; 3001; 2000; 2001; 2002; 2003; 2004; 1000; 1001; 1002; 1003; 100; 101; 102; 103]%N ∧
  (λ e : shape, e.1) <$> compound (tab_maps (twriter boundary [1%N] boundary_net)) =
    [2000; 2010; 2011; 2001; 2002; 1010; 1011; 1000; 1001; 110; 111; 100; 101; 11; 1]%N.
Proof. vm_compute. done. Qed.

(** C69: networks of other dimensions are rejected, all others are written. *)
Theorem c69_plain {S K} `{EqDecision S} `{Countable K} (key : S → K) (T : topo S) (shape_of : K → S)
    (iter : gmap K N → list (K * N)) ids ed frags (index : gmap K N) :
  (ed = 2%Z → ∃ m, writer key T shape_of iter ids (Net ed frags index) = Ok m) ∧
  (ed ≠ 2%Z → writer key T shape_of iter ids (Net ed frags index) = Throw RuntimeError).
Proof. exact (writer_dims_plain key T shape_of iter ids ed frags index). Qed.
Print Assumptions c69_plain.

Theorem c69_contained {S K} `{EqDecision S} `{Countable K} (key : S → K) (T : topo S) (shape_of : K → S)
    (iter : gmap K N → list (K * N)) ids ed dd (sdf frags : gmap N (list S)) (index : gmap N (gmap K N)) :
  (∀ id, id ∈ ids → is_Some (sdf !! id) ∧ is_Some (frags !! id) ∧ is_Some (index !! id)) →
  (ed = 2%Z ∧ dd = 3%Z → ∃ m, writer key T shape_of iter ids (CNet ed dd sdf frags index) = Ok m) ∧
  (ed ≠ 2%Z ∨ dd ≠ (ed + 1)%Z →
     writer key T shape_of iter ids (CNet ed dd sdf frags index) = Throw RuntimeError).
Proof. exact (writer_dims_contained key T shape_of iter ids ed dd sdf frags index). Qed.
Print Assumptions c69_contained.

Example c69_case :
  (∃ m, twriter boundary [1%N] boundary_net = Ok m) ∧
  match boundary_net with
  | CNet ed dd sdf fr index => ed = 2%Z ∧ dd = 3%Z ∧
      twriter boundary [1%N] (CNet ed 4 sdf fr index) = Throw RuntimeError
  | Net _ _ _ => False
  end.
Proof. split; [eexists; vm_compute; reflexivity|]. vm_compute. done. Qed.
