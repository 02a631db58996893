(** Properties C90-C93 (sub-shapes, common edges, compounds and translations of shapes).  [V] are
    the vectors; [reachable] states are those of Python programs, which are arbitrary sequences of
    the statements of [SubModel.step] and go on after exceptions. *)

From stdpp Require Import prelude gmap list.
From Verif Require Import Base SubModel SubSpec SubProofs SubProofs2 SubExamples.

(** C90: getSolids, ..., getVertices list the sub-shapes of the kind: one entry for every way in
    which they are part of the shape. *)
Theorem c90_lists {V} (st : state V) x o k :
  reachable st → holds st x o → listed k → ¬ less_complex (o_class o) k →
  ∃ l, queries st o k = Ok (map (mkObj (Exactly k)) l) ∧ lists_all (st_heap st) k (o_shape o) l.
Proof. exact (query_ok st x o k). Qed.
Print Assumptions c90_lists.
Example c90_lists_case : reachable box_state ∧ holds box_state 33 (mkObj (Exactly Solid) (plain 34)) ∧
  map (count box_state 33) [Solid; Shell; Face; Wire; Edge; Vertex] =
  [Some (1, 1); Some (1, 1); Some (6, 6); Some (6, 6); Some (24, 12); Some (48, 8)].
Proof. exact (conj box_reachable (conj (proj1 box_holds) box_counts)). Qed.

(** C90: and exactly these are the members of the list. *)
Theorem c90_members {V} (h : heap V) k s l t :
  lists_all h k s l → t ∈ l ↔ of_kind h k t ∧ ∃ p, follow h s p = Some t.
Proof. exact (lists_members h k s l t). Qed.
Print Assumptions c90_members.

(** C90: a listed sub-shape is placed and oriented by all the shapes it is part of. *)
Theorem c90_placed {V} (h : heap V) s p t :
  follow h s p = Some t ↔ ∃ l, passes h (s_node s) p l ∧ placed (s :: l) t.
Proof. exact (follow_passes h s p t). Qed.
Print Assumptions c90_placed.

(** C90: a program gets these lists, and nothing else changes. *)
Theorem c90_program {V} (st : state V) x ox k :
  reachable st → holds st x ox →
  match queries st ox k with
  | Ok l => (step (GetSub k x) st).2 = Ok tt ∧ objs (step (GetSub k x) st).1 = objs st ++ l
  | r => (step (GetSub k x) st).2 = omapo (λ _, tt) r ∧ objs (step (GetSub k x) st).1 = objs st
  end ∧ st_heap (step (GetSub k x) st).1 = st_heap st.
Proof. exact (step_get_sub st x ox k). Qed.
Print Assumptions c90_program.

(** C90: OCCShapeWrapper(x) and getShape(x) give the same shape. *)
Theorem c90_wrapped {V} (st : state V) x ox :
  holds st x ox →
  (step (AsShape x) st).2 = Ok tt ∧ objs (step (AsShape x) st).1 = objs st ++ [mkObj AnyShape (o_shape ox)] ∧
  (step (GetShape x) st).2 = Ok tt ∧ objs (step (GetShape x) st).1 = objs st ++ [ox] ∧
  st_heap (step (AsShape x) st).1 = st_heap st ∧ st_heap (step (GetShape x) st).1 = st_heap st.
Proof. exact (step_wrap_objs st x ox). Qed.
Print Assumptions c90_wrapped.

(** C90: for less complex shapes there is no such function. *)
Theorem c90_classes {V} (st : state V) x o k :
  reachable st → holds st x o → listed k → less_complex (o_class o) k → queries st o k = Throw TypeError.
Proof. exact (query_rejected st x o k). Qed.
Print Assumptions c90_classes.
Example c90_classes_case : less_complex (Exactly Edge) Face ∧
  holds box_state 8 (mkObj (Exactly Edge) (plain 9)) ∧
  queries box_state (mkObj (Exactly Edge) (plain 9)) Face = Throw TypeError.
Proof. exact rejected. Qed.

(** C90: a sub-shape is listed once if no sub-shape is shared.  Missing: shapes with shared
    sub-shapes. *)
Theorem c90_once_partial {V} (st : state V) x o k l :
  reachable st → holds st x o → listed k → no_sharing (st_heap st) (o_shape o) →
  queries st o k = Ok l → NoDup (map (λ y, s_node (o_shape y)) l).
Proof. exact (query_once st x o k l). Qed.
Print Assumptions c90_once_partial.
Example c90_once_case : holds box_state 8 (mkObj (Exactly Edge) (plain 9)) ∧
  no_sharing (st_heap box_state) (plain 9).
Proof. exact edge_no_sharing. Qed.

(** C90, refuted: the edges and vertices of a box are listed twice and six times. *)
Theorem c90_once_refuted : ∃ (st : state Z) x o l es, reachable st ∧ holds st x o ∧ o_class o = Exactly Solid ∧
  queries st o Vertex = Ok l ∧ length l = 48 ∧ ¬ NoDup l ∧
  queries st o Edge = Ok es ∧ length es = 24 ∧ ¬ NoDup es.
Proof. exact box_twice. Qed.
Print Assumptions c90_once_refuted.

(** C90: no statement of a program is undefined or does not end. *)
Theorem c90_safe {V} (st : state V) o : reachable st → (step o st).2 ≠ UB ∧ (step o st).2 ≠ Diverge.
Proof. exact (step_safe st o). Qed.
Print Assumptions c90_safe.

(** C91: getOverlapEdges returns the edges of the first face that are also edges of the second. *)
Theorem c91_edges {V} (st : state V) x y f1 f2 :
  reachable st → holds st x f1 → holds st y f2 →
  ∃ l, overlap_edges (st_heap st) (o_shape f1) (o_shape f2) = Ok l ∧
    ∀ e, e ∈ l ↔ of_kind (st_heap st) Edge e ∧ (∃ p, follow (st_heap st) (o_shape f1) p = Some e) ∧
                 ∃ e2, is_same e2 e = true ∧ ∃ q, follow (st_heap st) (o_shape f2) q = Some e2.
Proof. exact (overlap_ok st x y f1 f2). Qed.
Print Assumptions c91_edges.
Example c91_edges_case : overlap_edges (st_heap box_state) (plain 27) (plain 29) = Ok [plain 9] ∧
  overlap_edges (st_heap box_state) (plain 27) (plain 28) = Ok [].
Proof. exact box_overlap. Qed.

(** C91: the order of the faces does not matter, up to multiplicity and orientation. *)
Theorem c91_symmetric {V} (st : state V) x y f1 f2 l1 l2 e :
  reachable st → holds st x f1 → holds st y f2 →
  overlap_edges (st_heap st) (o_shape f1) (o_shape f2) = Ok l1 →
  overlap_edges (st_heap st) (o_shape f2) (o_shape f1) = Ok l2 →
  e ∈ l1 → ∃ e', e' ∈ l2 ∧ is_same e' e = true.
Proof. exact (overlap_sym_ok st x y f1 f2 l1 l2 e). Qed.
Print Assumptions c91_symmetric.

(** C91: edges are listed once if the edges of the first face are.  Missing: faces with seams. *)
Theorem c91_once_partial {V} (l1 l2 : list (shape V)) : NoDup l1 → NoDup (overlap l1 l2).
Proof. exact (overlap_once l1 l2). Qed.
Print Assumptions c91_once_partial.

(** C91, refuted: the seam of a lateral cylinder surface is listed twice, and once if the faces
    are swapped. *)
Theorem c91_once_refuted : ∃ (st : state Z) x y f1 f2 e, reachable st ∧ holds st x f1 ∧ holds st y f2 ∧
  o_class f1 = Exactly Face ∧ o_class f2 = Exactly Face ∧
  overlap_edges (st_heap st) (o_shape f1) (o_shape f2) = Ok [e; e] ∧
  overlap_edges (st_heap st) (o_shape f2) (o_shape f1) = Ok [e].
Proof. exact seam_twice. Qed.
Print Assumptions c91_once_refuted.

(** C91, refuted: a face that was moved forth and back has no common edges with itself. *)
Theorem c91_coincide_refuted : ∃ (st : state Z) x y f1 f2, reachable st ∧ holds st x f1 ∧ holds st y f2 ∧
  o_class f1 = Exactly Face ∧ o_class f2 = Exactly Face ∧
  aliases f1 f2 ∧ offset (o_shape f1) = offset (o_shape f2) ∧
  (∃ es, queries st f1 Edge = Ok es ∧ length es = 4) ∧
  overlap_edges (st_heap st) (o_shape f1) (o_shape f2) = Ok [].
Proof. exact same_place. Qed.
Print Assumptions c91_coincide_refuted.

(** C92: after c.add(x), c has what it had before and the sub-shapes of x. *)
Theorem c92_add {V} (st : state V) c x st' oc ox k :
  reachable st → holds st c oc → holds st x ox → step (AddTo c x) st = (st', Ok tt) → listed k →
  ∃ lc lx, queries st oc k = Ok (map (mkObj (Exactly k)) lc) ∧ lists_all (st_heap st) k (o_shape ox) lx ∧
    queries st' oc k = Ok (map (mkObj (Exactly k)) (lc ++ lx)).
Proof. exact (add_contents st c x st' oc ox k). Qed.
Print Assumptions c92_add.
Example c92_add_case : reachable small_state ∧ holds small_state 2 the_compound ∧
  holds small_state 1 (mkObj (Exactly Vertex) (plain 2)) ∧
  ¬ aliases (mkObj (Exactly Vertex) (plain 2)) the_compound ∧
  (step (AddTo 2 1) small_state).2 = Ok tt ∧
  queries small_state the_compound Vertex = Ok [mkObj (Exactly Vertex) (plain 1)] ∧
  queries (step (AddTo 2 1) small_state).1 the_compound Vertex
    = Ok [mkObj (Exactly Vertex) (plain 1); mkObj (Exactly Vertex) (plain 2)].
Proof. exact small_add. Qed.

(** C92: a new compound has, whatever a program does, the sub-shapes of the shapes that were put
    into it, in this order. *)
Theorem c92_history {V} (st0 : state V) ops k :
  reachable st0 → listed k →
  let st1 := (step NewCompound st0).1 in
  let oc := mkObj (Exactly Compound) (plain (next_node st0)) in
  let st := run ops st1 in
  ∃ ls, Forall2 (λ s l, lists_all (st_heap st) k s l) (put_in ops st1 oc) ls ∧
        queries st oc k = Ok (map (mkObj (Exactly k)) (concat ls)).
Proof. exact (history st0 ops k). Qed.
Print Assumptions c92_history.
Example c92_history_case :
  put_in [AsShape 2; AddTo 2 0; AddTo 2 1; AddTo 2 2; AddTo 2 0]
    (run [KernelShape Vertex []; KernelShape Vertex []; NewCompound] start) the_compound
  = [plain 1; plain 2; plain 1].
Proof. exact small_history. Qed.

(** C92: objects with another TShape are not changed by c.add(x). *)
Theorem c92_others {V} (st : state V) c x st' oc y oy k :
  reachable st → holds st c oc → holds st y oy → ¬ aliases oy oc →
  step (AddTo c x) st = (st', Ok tt) → queries st' oy k = queries st oy k.
Proof. exact (add_others st c x st' oc y oy k). Qed.
Print Assumptions c92_others.

(** C92: no other statement, and no add() that fails, changes the sub-shapes of any object. *)
Theorem c92_frame {V} (st : state V) o y oy k :
  reachable st → holds st y oy → (∀ c x, o = AddTo c x → (step o st).2 ≠ Ok tt) →
  queries (step o st).1 oy k = queries st oy k.
Proof. exact (frame st o y oy k). Qed.
Print Assumptions c92_frame.

(** C92: a shape that was made part of another one is never changed again. *)
Theorem c92_used {V} (st : state V) o y oy k ops :
  reachable st → holds st y oy → uses o st oy →
  queries (run ops (step o st).1) oy k = queries (step o st).1 oy k.
Proof. exact (used_stays st o y oy k ops). Qed.
Print Assumptions c92_used.

(** C92: c.add(x) succeeds if and only if c was not made part of another shape since its
    construction (and no attempt was made). *)
Theorem c92_accepts {V} (st0 : state V) ops x ox :
  reachable st0 →
  let st1 := (step NewCompound st0).1 in
  let c := length (objs st0) in
  let oc := mkObj (Exactly Compound) (plain (next_node st0)) in
  let st := run ops st1 in
  holds st x ox → o_class ox ≠ Exactly Compound → ¬ aliases ox oc →
  (never_used ops st1 oc → (step (AddTo c x) st).2 = Ok tt) ∧
  (¬ never_used ops st1 oc → (step (AddTo c x) st).2 = Throw RuntimeError).
Proof. exact (add_accepts st0 ops x ox). Qed.
Print Assumptions c92_accepts.
Example c92_accepts_case :
  (step (AddTo 2 1) (run nested start)).2 = Throw RuntimeError ∧
  (step (AddTo 4 1) (run nested start)).2 = Ok tt ∧
  uses (AddTo 4 3) (run (small ++ [NewCompound]) start) the_compound.
Proof. exact nested_full. Qed.

(** C92: a compound cannot be put into itself, and OCCCompoundWrapper objects into no compound. *)
Theorem c92_self {V} (st : state V) c x oc ox :
  reachable st → holds st c oc → holds st x ox → o_class oc = Exactly Compound →
  o_class ox ≠ Exactly Compound → aliases ox oc → (step (AddTo c x) st).2 = Throw RuntimeError.
Proof. exact (add_self st c x oc ox). Qed.
Print Assumptions c92_self.
Theorem c92_class {V} (st : state V) c x oc ox :
  holds st c oc → holds st x ox → o_class oc ≠ Exactly Compound ∨ o_class ox = Exactly Compound →
  step (AddTo c x) st = (st, Throw TypeError).
Proof. exact (add_class st c x oc ox). Qed.
Print Assumptions c92_class.
Example c92_class_case : step (AddTo 2 4) (run nested start) = (run nested start, Throw TypeError).
Proof. exact no_compound. Qed.

(** C92, refuted: OCCShapeWrapper(c) has what is added to c later. *)
Theorem c92_snapshot_refuted : ∃ (st : state Z) c y oc oy l, reachable st ∧ holds st c oc ∧ holds st y oy ∧
  o_class oy = AnyShape ∧ queries st oy Vertex = Ok l ∧
  ∃ x, (step (AddTo c x) st).2 = Ok tt ∧ queries (step (AddTo c x) st).1 oy Vertex ≠ Ok l.
Proof. exact snapshot_changes. Qed.
Print Assumptions c92_snapshot_refuted.

(** C92, refuted: after a failed c.add(OCCShapeWrapper(c)), nothing can be added to c any more. *)
Theorem c92_self_refuted : ∃ (st : state Z) c y x, reachable st ∧
  (step (AddTo c x) st).2 = Ok tt ∧
  (step (AddTo c y) st).2 = Throw RuntimeError ∧
  (step (AddTo c x) (step (AddTo c y) st).1).2 = Throw RuntimeError.
Proof. exact self_freezes. Qed.
Print Assumptions c92_self_refuted.

(** C92, refuted: after a failed c.add(OCCShapeWrapper(d)), nothing can be added to d any more. *)
Theorem c92_failed_refuted : ∃ (st : state Z) c y d x, reachable st ∧
  (step (AddTo d x) st).2 = Ok tt ∧
  (step (AddTo c y) st).2 = Throw RuntimeError ∧
  (step (AddTo d x) (step (AddTo c y) st).1).2 = Throw RuntimeError.
Proof. exact failed_add_freezes. Qed.
Print Assumptions c92_failed_refuted.

(** C93: translate() succeeds for all shapes; the result is the shape with the vector in front of
    its location, the class is the same except for compounds; nothing else changes. *)
Theorem c93_result {V} (st : state V) x ox v :
  reachable st → holds st x ox →
  let d := next_datum st in
  let y := mkObj (translated_class (o_class ox)) (moved d v (o_shape ox)) in
  (step (Translate x v) st).2 = Ok tt ∧
  objs (step (Translate x v) st).1 = objs st ++ [y] ∧
  st_heap (step (Translate x v) st).1 = st_heap st.
Proof. exact (translate_ok st x ox v). Qed.
Print Assumptions c93_result.
Example c93_result_case :
  let st := box_state in let o := mkObj (Exactly Face) (plain 27) in
  holds st 26 o ∧ (step (Translate 26 5%Z) st).2 = Ok tt ∧
  ∃ y, objs (step (Translate 26 5%Z) st).1 !! 34 = Some y ∧ o_class y = Exactly Face ∧
       count (step (Translate 26 5%Z) st).1 34 Vertex = Some (8, 4).
Proof. exact box_moved. Qed.

(** C93: the sub-shapes of the result are the sub-shapes, translated. *)
Theorem c93_sub {V} (st : state V) x ox v k l :
  reachable st → holds st x ox → listed k → ¬ less_complex (o_class ox) k → queries st ox k = Ok l →
  queries st (mkObj (translated_class (o_class ox)) (moved (next_datum st) v (o_shape ox))) k
  = Ok (map (λ y, mkObj (o_class y) (moved (next_datum st) v (o_shape y))) l).
Proof. exact (translate_query st x ox v k l). Qed.
Print Assumptions c93_sub.
Example c93_sub_case : reachable box_state ∧ holds box_state 26 (mkObj (Exactly Face) (plain 27)) ∧ listed Edge ∧ ¬ less_complex (Exactly Face) Edge ∧
  ∃ l, queries box_state (mkObj (Exactly Face) (plain 27)) Edge = Ok l ∧ length l = 4.
Proof. exact (conj box_reachable face_edges). Qed.
Theorem c93_follow {V} (h : heap V) d v s p : follow h (moved d v s) p = moved d v <$> follow h s p.
Proof. exact (moved_follow h d v s p). Qed.
Print Assumptions c93_follow.

(** C93, refuted: the result for a compound is no compound. *)
Theorem c93_class_refuted : ∃ (st : state Z) x ox y, reachable st ∧ holds st x ox ∧ o_class ox = Exactly Compound ∧
  objs (step (Translate x 1%Z) st).1 !! length (objs st) = Some y ∧ o_class y = AnyShape.
Proof. exact moved_compound_class. Qed.
Print Assumptions c93_class_refuted.

(** C93, refuted: what is added to a compound later, the translated compound has too. *)
Theorem c93_independent_refuted : ∃ (st : state Z) c x y oy, reachable st ∧
  objs (step (Translate c 1%Z) st).1 !! y = Some oy ∧ y = length (objs st) ∧
  let st1 := (step (Translate c 1%Z) st).1 in
  (step (AddTo c x) st1).2 = Ok tt ∧
  queries (step (AddTo c x) st1).1 oy Vertex ≠ queries st1 oy Vertex.
Proof. exact moved_compound_changes. Qed.
Print Assumptions c93_independent_refuted.
