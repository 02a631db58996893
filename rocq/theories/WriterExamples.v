(** Tabulated topologies for the examples and counterexamples of WriterProps.v.  A shape is
    a number with a flag (true: REVERSED); its parts are listed in a table, and reversing a
    shape reverses its parts. *)

From stdpp Require Import prelude gmap list.
From Verif Require Import Base BuilderModel BuilderSpec BuilderExamples WriterModel WriterSpec WriterProofs WriterNetProofs.

Notation shape := (N * bool)%type.
(** Numbers: solids below 10, shells from 10, faces from 100, wires from 1000, edges from
    2000, vertices from 3000.  Solid s has the shell s + 10 and face f the wire f + 900;
    [tf], [te], [tv] list the faces of a shell, the edges of a wire and the vertices of an
    edge. *)
Record tables := mkTab { tf : list (N * list shape); te : list (N * list shape); tv : list (N * list shape) }.
Definition look (t : list (N * list shape)) (i : N) : list shape := default [] ((list_to_map t : gmap N (list shape)) !! i).
Definition turned (r : bool) (l : list shape) : list shape := (λ x : shape, (x.1, xorb x.2 r)) <$> l.
Definition tab_topo (t : tables) : topo shape :=
  mkTopo (λ s, if bool_decide (s.1 < 10)%N then [s] else [])
         (λ s, if bool_decide (s.1 < 10)%N then [(s.1 + 10, s.2)%N] else [])
         (λ s, if bool_decide (s.1 < 100)%N then turned s.2 (look (tf t) s.1)
               else if bool_decide (s.1 < 1000)%N then [s] else [])
         (λ s, if bool_decide (s.1 < 1000)%N then [(s.1 + 900, s.2)%N] else [])
         (λ s, turned s.2 (look (te t) (if bool_decide (s.1 < 1000)%N then s.1 + 900 else s.1)%N))
         (λ s, turned s.2 (look (tv t) s.1))
         (λ s, (s.1, false)).
Definition tab_ok (t : tables) : bool :=
  forallb (λ p, forallb (λ f : shape, bool_decide (100 ≤ f.1 < 1000)%N) p.2) (tf t).

Lemma turned_parts r r' l x : x ∈ turned r l → ∃ y, y ∈ turned r' l ∧ y.1 = x.1.
Proof.
  unfold turned. intros (z & -> & Hz)%elem_of_list_fmap. exists (z.1, xorb z.2 r'). split; [|done].
  apply elem_of_list_fmap. eauto.
Qed.
Lemma look_in t i x : x ∈ look t i → ∃ l, (i, l) ∈ t ∧ x ∈ l.
Proof.
  unfold look. destruct ((list_to_map t : gmap N _) !! i) as [l|] eqn:E; cbn; [|by intros ?%elem_of_nil].
  apply elem_of_list_to_map_2 in E. eauto.
Qed.
Lemma tab_consistent t (o : N → bool) : tab_ok t = true → consistent (fst : shape → N) (tab_topo t) (λ k, (k, o k)).
Proof.
  intros Hok. split; cbn.
  1-6: intros [i r] [j r'] x E; cbn in E; subst; cbn; intros Hx.
  - destruct (bool_decide (j < 10)%N); [|by apply elem_of_nil in Hx]. apply elem_of_list_singleton in Hx as ->.
    exists (j, r'). split; [left|done].
  - destruct (bool_decide (j < 10)%N); [|by apply elem_of_nil in Hx]. apply elem_of_list_singleton in Hx as ->.
    exists ((j + 10)%N, r'). split; [left|done].
  - destruct (bool_decide (j < 100)%N); [by eapply turned_parts|].
    destruct (bool_decide (j < 1000)%N); [|by apply elem_of_nil in Hx]. apply elem_of_list_singleton in Hx as ->.
    exists (j, r'). split; [left|done].
  - destruct (bool_decide (j < 1000)%N); [|by apply elem_of_nil in Hx]. apply elem_of_list_singleton in Hx as ->.
    exists ((j + 900)%N, r'). split; [left|done].
  - by eapply turned_parts.
  - by eapply turned_parts.
  - done.
  - intros [s rs] [f r] e. cbn. intros Hf He.
    assert (Hr : (100 ≤ f < 1000)%N).
    { destruct (bool_decide_reflect (s < 100)%N) as [Hs|Hs].
      - unfold turned in Hf. apply elem_of_list_fmap in Hf as ([z rz] & [= -> _] & Hz). apply look_in in Hz as (l & Hl & Hz).
        unfold tab_ok in Hok. rewrite forallb_forall in Hok. apply elem_of_list_In in Hl. apply Hok in Hl.
        rewrite forallb_forall in Hl. apply elem_of_list_In in Hz. apply Hl in Hz. by apply bool_decide_eq_true in Hz.
      - destruct (bool_decide_reflect (s < 1000)%N); [|by apply elem_of_nil in Hf].
        apply elem_of_list_singleton in Hf as [= -> ->]. lia. }
    rewrite bool_decide_eq_true_2 in He by lia. rewrite bool_decide_eq_true_2 by lia.
    exists ((f + 900)%N, r), e. split; [left|]. split; [|done]. cbn. by rewrite bool_decide_eq_false_2 by lia.
  - done.
Qed.

(** Iteration in the order of the tree. *)
Definition in_tree (m : gmap N N) : list (N * N) := map_to_list m.
Definition in_tree_go (i : nat) (g : gmap N (list N)) : list (N * list N) := map_to_list g.
Lemma in_tree_ok m : in_tree m ≡ₚ map_to_list m.
Proof. done. Qed.
Lemma in_tree_go_ok i g : in_tree_go i g ≡ₚ map_to_list g.
Proof. done. Qed.
Notation twriter t := (writer (fst : shape → N) (tab_topo t) (λ k, (k, false)) in_tree).
Notation tfile := (geo_file in_tree_go).

(** Two crossing fractures, cut into the fragments 100, 101 and 102, 103 which meet in the
    edge 2000; fragment 102 has it in the other direction. *)
Definition cross : tables :=
  mkTab [] [(1000, [(2000, false); (2001, false)]); (1001, [(2000, false); (2002, false)]);
            (1002, [(2000, true); (2003, false)]); (1003, [(2004, true); (2000, false)])]%N
        [(2000, [(3000, false); (3001, true)]); (2001, [(3001, false); (3000, true)]);
         (2002, [(3001, false); (3000, true)]); (2003, [(3000, false); (3001, true)]);
         (2004, [(3000, false); (3001, true)])]%N.
Definition cross_net : network shape N :=
  Net 2 [(100, false); (101, false); (102, false); (103, false)]%N
      (list_to_map [(100, 1); (101, 1); (102, 2); (103, 2)]%N).

(** Two fractures 100 and 101 which meet in an edge of the boundary of the domain: the
    solid 1 has faces 110 and 111 with this edge. *)
Definition boundary : tables :=
  mkTab [(11, [(110, false); (111, false)])]%N
        [(1010, [(2000, true); (2010, false)]); (1011, [(2000, false); (2011, false)]);
         (1000, [(2000, false); (2001, false)]); (1001, [(2000, false); (2002, false)])]%N
        [].
Definition boundary_net : network shape N :=
  CNet 2 3 (list_to_map [(1, [(1, false)])]%N) (list_to_map [(1, [(100, false); (101, false)])]%N)
       (list_to_map [(1, list_to_map [(100, 1); (101, 2)])]%N).
Definition tab_maps (o : outcome (maps shape)) : maps shape := match o with Ok m => m | _ => no_maps end.

Lemma boundary_shared : shared_edge (fst : shape → N) (tab_topo boundary) (λ k, (k, false)) [1%N] boundary_net (2000%N, false).
Proof.
  exists 100%N, 101%N, (2000%N, false). split; [|split; [|split; [done|split; [|split; [|done]]]]].
  - exists 1%N. eexists. split; [left|]. split; [reflexivity|]. eexists. vm_compute. reflexivity.
  - exists 1%N. eexists. split; [left|]. split; [reflexivity|]. eexists. vm_compute. reflexivity.
  - apply (bool_decide_eq_true_1 _). vm_compute. reflexivity.
  - apply (bool_decide_eq_true_1 _). vm_compute. reflexivity.
Qed.
Lemma boundary_listed : listed (fst : shape → N) (tab_topo boundary) [1%N] boundary_net.
Proof.
  intros k (id & m & Hid & Hm & Hk). apply elem_of_list_singleton in Hid as ->.
  apply elem_of_list_to_map_2 in Hm. apply elem_of_list_singleton in Hm. injection Hm as ->.
  assert (k = 100 ∨ k = 101)%N as [-> | ->].
  { destruct Hk as [v Hk]. apply lookup_insert_Some in Hk as [[-> _]|[_ Hk]]; [by left|].
    apply lookup_insert_Some in Hk as [[-> _]|[_ Hk]]; [by right|]. by rewrite lookup_empty in Hk. }
  - exists (100%N, false), (100%N, false). split; [|split; [|done]].
    + exists 1%N. eexists. split; [left|]. split; [reflexivity|]. set_solver.
    + left.
  - exists (101%N, false), (101%N, false). split; [|split; [|done]].
    + exists 1%N. eexists. split; [left|]. split; [reflexivity|]. set_solver.
    + left.
Qed.
Lemma boundary_file : let w := twriter boundary [1%N] boundary_net in
  w = Ok (tab_maps w) ∧ match tfile (tab_maps w) with Ok f => f <> [] ∧ groups 1 f = [] | _ => False end ∧
  (λ e : shape, e.1) <$> emap (tab_maps w) = [2000; 2010; 2011; 2001; 2002]%N.
Proof. vm_compute. split; [done|]. split; [split; done|done]. Qed.

(** The contained network of hist25 (BuilderExamples.v): entity 103 of sub-domain 1 and
    entity 202 of sub-domain 2. *)
Notation net30 := ((tstep cf25 fr0 Contained (trun cf25 fr0 Contained hist25) Build).2).
(** Shapes without parts: a solid or a face each. *)
Definition bare : topo N :=
  mkTopo (λ s, if bool_decide (s < 100)%N then [s] else []) (λ _, [])
         (λ s, if bool_decide (s < 100)%N then [] else [s]) (λ _, []) (λ _, []) (λ _, []) id.
Lemma bare_consistent : consistent (id : N → N) bare id.
Proof.
  split; try (intros s t x E; cbn in E; subst; eauto); try done.
Qed.
Definition c30_check (net : outcome (option (network N N))) : bool :=
  match net with
  | Ok (Some n) =>
      match writer (id : N → N) bare id in_tree [1; 2]%N n with
      | Ok m => match tfile m with
                | Ok f => match nth_at (fmap_ m) 1, nth_at (fmap_ m) 3 with
                          | Some a, Some b => bool_decide (a = 103%N) && bool_decide (b = 202%N) &&
                              bool_decide ((3, [1; 3])%N ∈ groups 2 f)
                          | _, _ => false
                          end
                | _ => false
                end
      | _ => false
      end
  | _ => false
  end.

Lemma cross_file : let w := twriter cross [] cross_net in
  w = Ok (tab_maps w) ∧ (λ e : shape, e.1) <$> emap (tab_maps w) = [2000; 2001; 2002; 2003; 2004]%N ∧
  match tfile (tab_maps w) with
  | Ok f => f = [Physical 2 1 [1; 2]; SizeAt 2 [1; 2] false; Physical 2 2 [3; 4]; SizeAt 2 [3; 4] false; Physical 1 1 [1]]%N
  | _ => False
  end.
Proof. vm_compute. split; [done|]. split; done. Qed.
Lemma cross_listed : listed (fst : shape → N) (tab_topo cross) [] cross_net.
Proof.
  intros k Hk. assert (k = 100 ∨ k = 101 ∨ k = 102 ∨ k = 103)%N as Hc.
  { destruct Hk as [v Hk]. apply elem_of_list_to_map_2 in Hk. set_solver. }
  destruct Hc as [->|[->|[-> | ->]]]; [exists (100%N, false), (100%N, false)|exists (101%N, false), (101%N, false)|
    exists (102%N, false), (102%N, false)|exists (103%N, false), (103%N, false)]; (split; [cbn; set_solver|]); (split; [left|done]).
Qed.
Lemma boundary_refuted : ∃ m file, twriter boundary [1%N] boundary_net = Ok m ∧ tfile m = Ok file ∧
  (∃ p e', nth_at (emap m) p = Some e' ∧ e'.1 = 2000%N) ∧ ∀ t l, (t, l) ∉ groups 1 file.
Proof.
  pose proof boundary_file as (H1 & H2 & H3). set (w := twriter boundary [1%N] boundary_net) in *. clearbody w.
  destruct (tfile (tab_maps w)) as [f| | |] eqn:E; [|done..]. exists (tab_maps w), f. split; [done|]. split; [done|]. split.
  - destruct (emap (tab_maps w)) as [|e l]; [done|]. cbn in H3. injection H3 as He _. by exists 1%N, e.
  - intros t l. destruct H2 as [_ ->]. apply not_elem_of_nil.
Qed.
Lemma c30_check_ok o : c30_check o = true → ∃ n m file l p1 p2,
  o = Ok (Some n) ∧ writer (id : N → N) bare id in_tree [1; 2]%N n = Ok m ∧ tfile m = Ok file ∧
  (3%N, l) ∈ groups 2 file ∧ p1 ∈ l ∧ p2 ∈ l ∧ nth_at (fmap_ m) p1 = Some 103%N ∧ nth_at (fmap_ m) p2 = Some 202%N.
Proof.
  unfold c30_check. destruct o as [[n|]| | |]; try done.
  destruct (writer _ _ _ _ _ _) as [m| | |] eqn:Em; try done.
  destruct (tfile m) as [f| | |] eqn:Ef; try done.
  destruct (nth_at (fmap_ m) 1) as [x|] eqn:E1; [|done]. destruct (nth_at (fmap_ m) 3) as [y|] eqn:E2; [|done].
  intros Hc. apply andb_true_iff in Hc as [Hc Hg%bool_decide_eq_true]. apply andb_true_iff in Hc as [->%bool_decide_eq_true ->%bool_decide_eq_true].
  exists n, m, f, [1; 3]%N, 1%N, 3%N. repeat split; try done; set_solver.
Qed.
Lemma c30_compute : c30_check net30 = true.
Proof. vm_compute. reflexivity. Qed.
Lemma c30_witness : ∃ n m file l p1 p2,
  net30 = Ok (Some n) ∧
  writer (id : N → N) bare id in_tree [1; 2]%N n = Ok m ∧ tfile m = Ok file ∧
  (3%N, l) ∈ groups 2 file ∧ p1 ∈ l ∧ p2 ∈ l ∧ nth_at (fmap_ m) p1 = Some 103%N ∧ nth_at (fmap_ m) p2 = Some 202%N.
Proof. exact (c30_check_ok net30 c30_compute). Qed.
Lemma hist25_registers : spec_run (dim_of (toy cf25 fr0)) hist25 =
  mkRd [(1, (1, true)); (2, (2, true))]%N [(1, 101); (1, 102); (1, 103); (2, 201); (2, 202)]%N.
Proof. vm_compute. reflexivity. Qed.
