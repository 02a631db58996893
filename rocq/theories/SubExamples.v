(** Programs that build and use shapes; vectors are numbers (translations along one axis) *)

From stdpp Require Import prelude gmap list.
From Coq Require Import ZArith.
From Verif Require Import Base SubModel SubSpec SubProofs SubProofs2.

Notation prog := (list (op Z)).

(** A box: objects 0-7 are the vertices, 8-19 the edges, 20-25 the wires, 26-31 the faces, 32 is
    the shell, 33 the solid. *)
Definition box : prog :=
  replicate 8 (KernelShape Vertex []) ++
  map (KernelShape Edge)
    [[0;1];[2;3];[4;5];[6;7];[0;2];[1;3];[4;6];[5;7];[0;4];[1;5];[2;6];[3;7]] ++
  map (KernelShape Wire)
    [[8;9;12;13];[10;11;14;15];[8;10;16;17];[9;11;18;19];[12;14;16;18];[13;15;17;19]] ++
  map (λ w, KernelShape Face [w]) [20;21;22;23;24;25] ++
  [KernelShape Shell [26;27;28;29;30;31]; KernelShape Solid [32]].
Definition box_state : state Z := run box start.
Lemma box_reachable : reachable box_state.
Proof. exact (ex_intro _ box eq_refl). Qed.

Lemma box_holds : holds box_state 33 (mkObj (Exactly Solid) (plain 34)) ∧ length (objs box_state) = 34.
Proof. split; vm_compute; reflexivity. Qed.

(** how many sub-shapes are listed, and how many TShapes there are among them *)
Definition count (st : state Z) (x : nat) (k : tkind) : option (nat * nat) :=
  match objs st !! x with
  | Some o => match queries st o k with
              | Ok l => Some (length l, size (list_to_set (map (λ y, s_node (o_shape y)) l) : gset positive))
              | _ => None
              end
  | None => None
  end.
Example box_counts : map (count box_state 33) [Solid; Shell; Face; Wire; Edge; Vertex] =
  [Some (1, 1); Some (1, 1); Some (6, 6); Some (6, 6); Some (24, 12); Some (48, 8)].
Proof. vm_compute. reflexivity. Qed.

Lemma dup_at {A} (l : list A) (i j : nat) (a : A) : l !! i = Some a → l !! j = Some a → i ≠ j → ¬ NoDup l.
Proof. intros H1 H2 N ND. apply N. by eapply NoDup_lookup. Qed.

Lemma box_twice : ∃ (st : state Z) x o l es, reachable st ∧ holds st x o ∧ o_class o = Exactly Solid ∧
  queries st o Vertex = Ok l ∧ length l = 48 ∧ ¬ NoDup l ∧
  queries st o Edge = Ok es ∧ length es = 24 ∧ ¬ NoDup es.
Proof.
  destruct (queries box_state (mkObj (Exactly Solid) (plain 34)) Vertex) as [l| | |] eqn:E1;
    [|vm_compute in E1; discriminate ..].
  destruct (queries box_state (mkObj (Exactly Solid) (plain 34)) Edge) as [es| | |] eqn:E2;
    [|vm_compute in E2; discriminate ..].
  exists box_state, 33, (mkObj (Exactly Solid) (plain 34)), l, es.
  split; [apply box_reachable|]. split; [vm_compute; reflexivity|]. split; [exact eq_refl|]. split; [exact E1|].
  pose proof E1 as F1. pose proof E2 as F2.
  vm_compute in F1, F2. injection F1 as <-. injection F2 as <-.
  split; [done|]. split; [by eapply (dup_at _ 0 4)|]. split; [exact E2|]. split; [done|]. by eapply (dup_at _ 0 8).
Qed.

(** no sub-shape of an edge with two vertices is shared *)
Example edge_counts : map (count box_state 8) [Edge; Vertex] = [Some (1, 1); Some (2, 2)].
Proof. vm_compute. reflexivity. Qed.
Lemma follow_edge p t : follow (st_heap box_state) (plain 9) p = Some t →
  (p = [] ∧ t = plain 9) ∨ (p = [0] ∧ t = plain 1) ∨ (p = [1] ∧ t = plain 2).
Proof.
  destruct p as [|i p]; cbn [follow].
  - replace (st_heap box_state !! s_node (plain 9)) with (Some (mkNode Edge false [plain 1; plain 2] : node Z))
      by (vm_compute; reflexivity).
    intros [= <-]. by left.
  - replace (st_heap box_state !! s_node (plain 9)) with (Some (mkNode Edge false [plain 1; plain 2] : node Z))
      by (vm_compute; reflexivity).
    cbn [n_kids].
    assert (∀ n q u, n = 1%positive ∨ n = 2%positive →
      follow (st_heap box_state) (mkShape n [] false) q = Some u → q = [] ∧ u = plain n) as V.
    { intros n q u N. destruct q as [|j q]; cbn [follow];
      replace (st_heap box_state !! s_node (mkShape n [] false)) with (Some (mkNode Vertex false [] : node Z))
        by (destruct N as [-> | ->]; vm_compute; reflexivity); [by intros [= <-]|done]. }
    destruct i as [|[|i]]; cbn [lookup list_lookup]; [| |done].
    + intros F. apply (V 1%positive) in F as [-> ->]; [|by left]. right. by left.
    + intros F. apply (V 2%positive) in F as [-> ->]; [|by right]. right. by right.
Qed.
Example edge_no_sharing : holds box_state 8 (mkObj (Exactly Edge) (plain 9)) ∧
  no_sharing (st_heap box_state) (plain 9).
Proof.
  split; [vm_compute; reflexivity|]. intros p q t u H1 H2 E.
  apply follow_edge in H1, H2. destruct H1 as [[-> ->]|[[-> ->]|[-> ->]]], H2 as [[-> ->]|[[-> ->]|[-> ->]]]; done.
Qed.

Example rejected : less_complex (Exactly Edge) Face ∧ holds box_state 8 (mkObj (Exactly Edge) (plain 9)) ∧
  queries box_state (mkObj (Exactly Edge) (plain 9)) Face = Throw TypeError.
Proof. split; [simpl; lia|]. split; vm_compute; reflexivity. Qed.

(** ** overlap edges *)
Example box_overlap : overlap_edges (st_heap box_state) (plain 27) (plain 29) = Ok [plain 9] ∧
  overlap_edges (st_heap box_state) (plain 27) (plain 28) = Ok [] .
Proof. split; vm_compute; reflexivity. Qed.

(** The lateral surface of a cylinder with its seam (object 4), and a rectangle that ends at the
    seam: faces 6 and 13 *)
Definition seam : prog :=
  [KernelShape Vertex []; KernelShape Vertex []; KernelShape Edge [0;0]; KernelShape Edge [1;1];
   KernelShape Edge [0;1]; KernelShape Wire [2;4;3;4]; KernelShape Face [5];
   KernelShape Vertex []; KernelShape Vertex []; KernelShape Edge [0;7]; KernelShape Edge [7;8];
   KernelShape Edge [8;1]; KernelShape Wire [4;9;10;11]; KernelShape Face [12]].
Lemma seam_twice : ∃ (st : state Z) x y f1 f2 e, reachable st ∧ holds st x f1 ∧ holds st y f2 ∧
  o_class f1 = Exactly Face ∧ o_class f2 = Exactly Face ∧
  overlap_edges (st_heap st) (o_shape f1) (o_shape f2) = Ok [e; e] ∧
  overlap_edges (st_heap st) (o_shape f2) (o_shape f1) = Ok [e].
Proof.
  exists (run seam start), 6, 13, (mkObj (Exactly Face) (plain 7)), (mkObj (Exactly Face) (plain 14)), (plain 5).
  split; [exact (ex_intro _ seam eq_refl)|]. repeat match goal with |- _ ∧ _ => split end; vm_compute; reflexivity.
Qed.

(** A face moved forth and back *)
Definition there_and_back : prog := box ++ [Translate 26 5%Z; Translate 34 (-5)%Z].
Definition offset (s : shape Z) : Z := foldr Z.add 0%Z (s_loc s).*2.
Lemma same_place : ∃ (st : state Z) x y f1 f2, reachable st ∧ holds st x f1 ∧ holds st y f2 ∧
  o_class f1 = Exactly Face ∧ o_class f2 = Exactly Face ∧
  aliases f1 f2 ∧ offset (o_shape f1) = offset (o_shape f2) ∧
  (∃ es, queries st f1 Edge = Ok es ∧ length es = 4) ∧
  overlap_edges (st_heap st) (o_shape f1) (o_shape f2) = Ok [].
Proof.
  exists (run there_and_back start), 26, 35, (mkObj (Exactly Face) (plain 27)),
    (mkObj (Exactly Face) (mkShape 27 [(2%positive, (-5)%Z); (1%positive, 5%Z)] false)).
  split; [exact (ex_intro _ there_and_back eq_refl)|].
  repeat match goal with |- _ ∧ _ => split end; try (vm_compute; reflexivity).
  eexists. split; [vm_compute; reflexivity|done].
Qed.

(** ** compounds *)
(** objects 0 and 1: vertices, 2: compound, 3: the compound as a shape *)
Definition small : prog := [KernelShape Vertex []; KernelShape Vertex []; NewCompound; AsShape 2; AddTo 2 0].
Definition small_state : state Z := run small start.
Definition the_compound : pobj Z := mkObj (Exactly Compound) (plain 3).
Example small_add : reachable small_state ∧ holds small_state 2 the_compound ∧
  holds small_state 1 (mkObj (Exactly Vertex) (plain 2)) ∧
  ¬ aliases (mkObj (Exactly Vertex) (plain 2)) the_compound ∧
  (step (AddTo 2 1) small_state).2 = Ok tt ∧
  queries small_state the_compound Vertex = Ok [mkObj (Exactly Vertex) (plain 1)] ∧
  queries (step (AddTo 2 1) small_state).1 the_compound Vertex
    = Ok [mkObj (Exactly Vertex) (plain 1); mkObj (Exactly Vertex) (plain 2)].
Proof.
  split; [exact (ex_intro _ small eq_refl)|]. repeat match goal with |- _ ∧ _ => split end;
    first [vm_compute; reflexivity | intros X; vm_compute in X; discriminate X].
Qed.
Example small_history :
  put_in [AsShape 2; AddTo 2 0; AddTo 2 1; AddTo 2 2; AddTo 2 0]
    (run [KernelShape Vertex []; KernelShape Vertex []; NewCompound] start) the_compound
  = [plain 1; plain 2; plain 1].
Proof. vm_compute. reflexivity. Qed.
(** the compound (2) is put into another one (4) *)
Definition nested : prog := small ++ [NewCompound; AddTo 4 3].
Example nested_full :
  (step (AddTo 2 1) (run nested start)).2 = Throw RuntimeError ∧
  (step (AddTo 4 1) (run nested start)).2 = Ok tt ∧
  uses (AddTo 4 3) (run (small ++ [NewCompound]) start) the_compound.
Proof.
  split; [vm_compute; reflexivity|]. split; [vm_compute; reflexivity|].
  exists (mkObj (Exactly Compound) (plain 4)), (mkObj AnyShape (plain 3)).
  repeat match goal with |- _ ∧ _ => split end; vm_compute; try reflexivity. discriminate.
Qed.

Lemma snapshot_changes : ∃ (st : state Z) c y oc oy l, reachable st ∧ holds st c oc ∧ holds st y oy ∧
  o_class oy = AnyShape ∧
  queries st oy Vertex = Ok l ∧
  ∃ x, (step (AddTo c x) st).2 = Ok tt ∧ queries (step (AddTo c x) st).1 oy Vertex ≠ Ok l.
Proof.
  exists small_state, 2, 3, the_compound, (mkObj AnyShape (plain 3)), [mkObj (Exactly Vertex) (plain 1)].
  split; [exact (ex_intro _ small eq_refl)|]. split; [vm_compute; reflexivity|]. split; [vm_compute; reflexivity|]. split; [done|].
  split; [vm_compute; reflexivity|]. exists 1. split; [vm_compute; reflexivity|].
  intros X. vm_compute in X. discriminate X.
Qed.
(** c.add(OCCShapeWrapper(c)) fails, and then c.add(x) fails for all x *)
Lemma self_freezes : ∃ (st : state Z) c y x, reachable st ∧
  (step (AddTo c x) st).2 = Ok tt ∧
  (step (AddTo c y) st).2 = Throw RuntimeError ∧
  (step (AddTo c x) (step (AddTo c y) st).1).2 = Throw RuntimeError.
Proof.
  exists small_state, 2, 3, 1. split; [exact (ex_intro _ small eq_refl)|]. repeat split; vm_compute; reflexivity.
Qed.
(** a shape that fails to go into a full compound is full as well *)
Definition three : prog :=
  [KernelShape Vertex []; NewCompound; AsShape 1; NewCompound; AddTo 3 2; NewCompound; AsShape 4].
Lemma failed_add_freezes : ∃ (st : state Z) c y d x, reachable st ∧
  (step (AddTo d x) st).2 = Ok tt ∧
  (step (AddTo c y) st).2 = Throw RuntimeError ∧
  (step (AddTo d x) (step (AddTo c y) st).1).2 = Throw RuntimeError.
Proof.
  exists (run three start), 1, 5, 4, 0. split; [exact (ex_intro _ three eq_refl)|]. repeat split; vm_compute; reflexivity.
Qed.
(** a compound cannot be added to a compound *)
Example no_compound : step (AddTo 2 4) (run nested start) = (run nested start, Throw TypeError).
Proof. vm_compute. reflexivity. Qed.

(** ** translation *)
Example box_moved :
  let st := box_state in let o := mkObj (Exactly Face) (plain 27) in
  holds st 26 o ∧ (step (Translate 26 5%Z) st).2 = Ok tt ∧
  ∃ y, objs (step (Translate 26 5%Z) st).1 !! 34 = Some y ∧ o_class y = Exactly Face ∧
       count (step (Translate 26 5%Z) st).1 34 Vertex = Some (8, 4).
Proof.
  split; [vm_compute; reflexivity|]. split; [vm_compute; reflexivity|].
  eexists. split; [vm_compute; reflexivity|]. split; vm_compute; reflexivity.
Qed.
Lemma moved_compound_class : ∃ (st : state Z) x ox y, reachable st ∧ holds st x ox ∧ o_class ox = Exactly Compound ∧
  objs (step (Translate x 1%Z) st).1 !! length (objs st) = Some y ∧ o_class y = AnyShape.
Proof.
  exists small_state, 2, the_compound. eexists. split; [exact (ex_intro _ small eq_refl)|].
  split; [vm_compute; reflexivity|]. split; [done|]. split; [vm_compute; reflexivity|done].
Qed.
(** what is added to the compound later, the translated one has too *)
Lemma moved_compound_changes : ∃ (st : state Z) c x y oy, reachable st ∧
  objs (step (Translate c 1%Z) st).1 !! y = Some oy ∧ y = length (objs st) ∧
  let st1 := (step (Translate c 1%Z) st).1 in
  (step (AddTo c x) st1).2 = Ok tt ∧
  queries (step (AddTo c x) st1).1 oy Vertex ≠ queries st1 oy Vertex.
Proof.
  exists small_state, 2, 1, 4. eexists. split; [exact (ex_intro _ small eq_refl)|].
  split; [vm_compute; reflexivity|]. split; [vm_compute; reflexivity|]. split; [vm_compute; reflexivity|].
  intros X. vm_compute in X. discriminate X.
Qed.

(** the edges of a face of the box *)
Lemma face_edges : holds box_state 26 (mkObj (Exactly Face) (plain 27)) ∧ listed Edge ∧ ¬ less_complex (Exactly Face) Edge ∧
  ∃ l, queries box_state (mkObj (Exactly Face) (plain 27)) Edge = Ok l ∧ length l = 4.
Proof.
  split; [vm_compute; reflexivity|]. split; [split; discriminate|]. split; [cbn; lia|]. eexists. split; vm_compute; reflexivity.
Qed.
