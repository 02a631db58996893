(** Shapes as OpenCascade stores them, the functions of /repo/frackit/occ/breputilities.hh that
    list sub-shapes, compare edges and move shapes, and the classes and functions around them in
    the Python module (/repo/frackit/python/geometry/brepwrapper.hh, brepwrappers.hh,
    /repo/frackit/python/occutilities/breputilities.hh).

    The data structure itself (TopoDS_Shape, TopoDS_Builder, TopoDS_Iterator, TopExp_Explorer,
    BRepBuilderAPI_Transform) belongs to OpenCascade and is modelled from its documented
    behaviour. *)

From stdpp Require Import prelude gmap list.
From Verif Require Import Base.

(** TopAbs_ShapeEnum; later kinds are less complex *)
Inductive tkind := Compound | CompSolid | Solid | Shell | Face | Wire | Edge | Vertex.
Global Instance tkind_eq_dec : EqDecision tkind.
Proof. solve_decision. Defined.
Definition level (k : tkind) : nat :=
  match k with
  | Compound => 0 | CompSolid => 1 | Solid => 2 | Shell => 3
  | Face => 4 | Wire => 5 | Edge => 6 | Vertex => 7
  end.

(** A TopoDS_Shape is a handle of a TShape with a location and an orientation.  Locations are
    lists of elementary data; every datum is a handle of its own (TopLoc_Datum3D), so that two
    translations by the same vector have different data.  [V] are the vectors.  Of the
    orientations only FORWARD and REVERSED occur. *)
Record shape (V : Type) := mkShape { s_node : positive; s_loc : list (positive * V); s_rev : bool }.
Arguments mkShape {V} _ _ _.
Arguments s_node {V} _.
Arguments s_loc {V} _.
Arguments s_rev {V} _.

(** A TShape: its kind, the flag Free and the sub-shapes in the order of their insertion *)
Record node (V : Type) := mkNode { n_kind : tkind; n_free : bool; n_kids : list (shape V) }.
Arguments mkNode {V} _ _ _.
Arguments n_kind {V} _.
Arguments n_free {V} _.
Arguments n_kids {V} _.

Notation heap V := (gmap positive (node V)).

(** python/geometry/brepwrapper.hh:122-135: OCCShapeWrapper holds any shape, the other wrappers a
    shape of their kind (there is none for COMPSOLID) *)
Inductive wclass := AnyShape | Exactly (k : tkind).
Record pobj (V : Type) := mkObj { o_class : wclass; o_shape : shape V }.
Arguments mkObj {V} _ _.
Arguments o_class {V} _.
Arguments o_shape {V} _.

(** The shapes created so far and the objects that a Python program holds.  [next_node] and
    [next_datum] are the next addresses. *)
Record state (V : Type) := mkState
  { st_heap : heap V; next_node : positive; next_datum : positive; objs : list (pobj V) }.
Arguments mkState {V} _ _ _ _.
Arguments st_heap {V} _.
Arguments next_node {V} _.
Arguments next_datum {V} _.
Arguments objs {V} _.

(** What a program does: see [step]. *)
Inductive op (V : Type) :=
| KernelShape (k : tkind) (parts : list nat)
| NewCompound
| AddTo (c x : nat)
| AsShape (x : nat)
| GetShape (x : nat)
| GetSub (k : tkind) (x : nat)
| Translate (x : nat) (v : V).
Arguments KernelShape {V} _ _.
Arguments NewCompound {V}.
Arguments AddTo {V} _ _.
Arguments AsShape {V} _.
Arguments GetShape {V} _.
Arguments GetSub {V} _ _.
Arguments Translate {V} _ _.

Section Sub.
Context {V : Type}.

(** TopoDS_Iterator: locations and orientations accumulate *)
Definition inside (s kid : shape V) : shape V :=
  mkShape (s_node kid) (s_loc s ++ s_loc kid) (xorb (s_rev s) (s_rev kid)).

(** TopoDS_Shape::IsSame: same TShape and same location *)
Definition is_same (s t : shape V) : bool :=
  bool_decide (s_node s = s_node t) && bool_decide ((s_loc s).*1 = (s_loc t).*1).

(** TopExp_Explorer(s, k): s itself if it is of kind k, nothing if it is less complex, and else
    what is found in its sub-shapes.  [Diverge]: the search would run forever. *)
Fixpoint explore (fuel : nat) (h : heap V) (k : tkind) (s : shape V) : outcome (list (shape V)) :=
  match h !! s_node s with
  | None => UB
  | Some nd =>
      if decide (n_kind nd = k) then Ok [s]
      else if decide (level k < level (n_kind nd)) then Ok []
      else match fuel with
           | 0 => Diverge
           | Datatypes.S fuel =>
               fold_right (λ kid acc, obind (explore fuel h k (inside s kid)) (λ l,
                                      obind acc (λ r, Ok (l ++ r))))
                          (Ok []) (n_kids nd)
           end
  end.

(** breputilities.hh:367-441: getVertices, getEdges, getFaces, getWires, getShells, getSolids are
    the same loop for another kind.  A search that visits a TShape within itself does not end; the
    depth is therefore bounded by the number of TShapes. *)
Definition get_sub (h : heap V) (k : tkind) (s : shape V) : outcome (list (shape V)) :=
  explore (size h) h k s.

(** breputilities.hh:577-589: getOverlapEdges of two lists of edges; 598-600: of two faces *)
Definition overlap (edges1 edges2 : list (shape V)) : list (shape V) :=
  List.filter (λ e, existsb (λ e2, is_same e2 e) edges2) edges1.
Definition overlap_edges (h : heap V) (f1 f2 : shape V) : outcome (list (shape V)) :=
  obind (get_sub h Edge f1) (λ l1, obind (get_sub h Edge f2) (λ l2, Ok (overlap l1 l2))).

(** breputilities.hh:462-476: BRepBuilderAPI_Transform without copy changes the location only *)
Definition moved (d : positive) (v : V) (s : shape V) : shape V :=
  mkShape (s_node s) ((d, v) :: s_loc s) (s_rev s).

(** TopoDS_Builder::Add: which kinds a shape may be put into *)
Definition fits (child parent : tkind) : bool :=
  match parent, child with
  | Compound, _ => true
  | CompSolid, Solid => true
  | Solid, (Shell | Edge | Vertex) => true
  | Shell, Face => true
  | Face, (Wire | Vertex) => true
  | Wire, Edge => true
  | Edge, Vertex => true
  | _, _ => false
  end.

(** TopoDS_Builder::Add: the component is frozen first; then a frozen parent
    (TopoDS_FrozenShape) or a component that does not fit (TopoDS_UnCompatibleShapes) is an
    exception.  pybind11 turns exceptions it does not know into a RuntimeError.  The parent has
    no location and is not reversed. *)
Definition freeze (n : positive) (h : heap V) : heap V :=
  match h !! n with
  | Some nd => <[n := mkNode (n_kind nd) false (n_kids nd)]> h
  | None => h
  end.
Definition kind_of (h : heap V) (n : positive) : option tkind := n_kind <$> h !! n.
Definition builder_add (p : positive) (s : shape V) (h : heap V) : heap V * outcome unit :=
  let h := freeze (s_node s) h in
  match h !! p, kind_of h (s_node s) with
  | Some nd, Some k =>
      if negb (n_free nd) then (h, Throw RuntimeError)
      else if negb (fits k (n_kind nd)) then (h, Throw RuntimeError)
      else (<[p := mkNode (n_kind nd) true (n_kids nd ++ [s])]> h, Ok tt)
  | _, _ => (h, UB)
  end.
Fixpoint builder_adds (p : positive) (ss : list (shape V)) (h : heap V) : heap V * outcome unit :=
  match ss with
  | [] => (h, Ok tt)
  | s :: ss => match builder_add p s h with
               | (h, Ok _) => builder_adds p ss h
               | r => r
               end
  end.

(** python/occutilities/breputilities.hh:267-308: the overloads of getVertices, ...: those for
    OCCShapeWrapper and for the wrappers of shapes that are not less complex *)
Definition sub_classes (k : tkind) : list wclass :=
  match k with
  | Vertex => [AnyShape; Exactly Vertex; Exactly Edge; Exactly Wire; Exactly Face; Exactly Shell;
               Exactly Solid; Exactly Compound]
  | Edge => [AnyShape; Exactly Edge; Exactly Wire; Exactly Face; Exactly Shell; Exactly Solid;
             Exactly Compound]
  | Wire => [AnyShape; Exactly Wire; Exactly Face; Exactly Shell; Exactly Solid; Exactly Compound]
  | Face => [AnyShape; Exactly Face; Exactly Shell; Exactly Solid; Exactly Compound]
  | Shell => [AnyShape; Exactly Shell; Exactly Solid; Exactly Compound]
  | Solid => [AnyShape; Exactly Solid; Exactly Compound]
  | CompSolid | Compound => []
  end.
Global Instance wclass_eq_dec : EqDecision wclass.
Proof. solve_decision. Defined.
(** python/occutilities/breputilities.hh:112-188 *)
Definition py_sub (h : heap V) (k : tkind) (x : pobj V) : outcome (list (pobj V)) :=
  if decide (o_class x ∈ sub_classes k)
  then omapo (map (mkObj (Exactly k))) (get_sub h k (o_shape x))
  else Throw TypeError.

(** python/occutilities/breputilities.hh:61-67: getSingleEntity; the first entry of an empty
    vector is undefined *)
Definition single (l : list (shape V)) : outcome (shape V) :=
  match l with
  | [] => UB
  | [s] => Ok s
  | _ => Throw RuntimeError
  end.
(** python/occutilities/breputilities.hh:54-59, 69-93, 194-202, 354-362: translate; the result for a
    compound is an OCCShapeWrapper *)
Definition translated_class (c : wclass) : wclass :=
  match c with Exactly Compound => AnyShape | _ => c end.
Definition parse_shape (h : heap V) (c : wclass) (s : shape V) : outcome (shape V) :=
  match c with
  | AnyShape | Exactly Compound | Exactly CompSolid => Ok s
  | Exactly k => obind (get_sub h k s) single
  end.
Definition py_translate (h : heap V) (d : positive) (v : V) (x : pobj V) : outcome (pobj V) :=
  omapo (mkObj (translated_class (o_class x)))
        (parse_shape h (translated_class (o_class x)) (moved d v (o_shape x))).

(** python/geometry/brepwrappers.hh:58-74: add() of OCCCompoundWrapper has no overload for
    OCCCompoundWrapper.  brepwrapper.hh:109-114. *)
Definition py_add (h : heap V) (c x : pobj V) : heap V * outcome unit :=
  if decide (o_class c = Exactly Compound)
  then if decide (o_class x = Exactly Compound) then (h, Throw TypeError)
       else builder_add (s_node (o_shape c)) (o_shape x) h
  else (h, Throw TypeError).

Definition fresh (k : tkind) (st : state V) : state V :=
  mkState (<[next_node st := mkNode k true []]> (st_heap st)) (Pos.succ (next_node st)) (next_datum st)
          (objs st).
Definition plain (n : positive) : shape V := mkShape n [] false.
Definition hold (xs : list (pobj V)) (st : state V) : state V :=
  mkState (st_heap st) (next_node st) (next_datum st) (objs st ++ xs).
Definition with_heap (h : heap V) (st : state V) : state V :=
  mkState h (next_node st) (next_datum st) (objs st).

(** a name that was not assigned: NameError *)
Definition obj_at (st : state V) (x : nat) (f : pobj V → state V * outcome unit) : state V * outcome unit :=
  match objs st !! x with Some o => f o | None => (st, Throw NameError) end.
Definition class_for (k : tkind) : wclass := match k with CompSolid => AnyShape | _ => Exactly k end.

(** One statement of the program; its results are appended to the objects held.
    [KernelShape k parts]: a function (getShape of a geometry, readShape, a Boolean operation)
    returns a new shape of kind k made of the shapes [parts] (and none that does not fit).
    [NewCompound]: OCCCompoundWrapper().
    [AddTo c x]: c.add(x).  [AsShape x]: OCCShapeWrapper(x).  [GetShape x]: getShape(x).
    [GetSub k x]: getVertices(x), getEdges(x), ....  [Translate x v]: translate(x, v). *)
Definition step (o : op V) (st : state V) : state V * outcome unit :=
  match o with
  | KernelShape k parts =>
      let n := next_node st in
      let ss := omap (λ i, o_shape <$> objs st !! i) parts in
      if forallb (λ s, from_option (λ j, fits j k) false (kind_of (st_heap st) (s_node s))) ss
      then let st := fresh k st in
           match builder_adds n ss (st_heap st) with
           | (h, Ok _) => (hold [mkObj (class_for k) (plain n)] (with_heap h st), Ok tt)
           | (h, r) => (with_heap h st, r)
           end
      else (st, Throw RuntimeError)
  | NewCompound =>
      (hold [mkObj (Exactly Compound) (plain (next_node st))] (fresh Compound st), Ok tt)
  | AddTo c x => obj_at st c (λ oc, obj_at st x (λ ox,
      let '(h, r) := py_add (st_heap st) oc ox in (with_heap h st, r)))
  | AsShape x => obj_at st x (λ ox, (hold [mkObj AnyShape (o_shape ox)] st, Ok tt))
  | GetShape x => obj_at st x (λ ox, (hold [ox] st, Ok tt))
  | GetSub k x => obj_at st x (λ ox,
      match py_sub (st_heap st) k ox with
      | Ok l => (hold l st, Ok tt)
      | Throw e => (st, Throw e) | UB => (st, UB) | Diverge => (st, Diverge)
      end)
  | Translate x v => obj_at st x (λ ox,
      let d := next_datum st in
      let st := mkState (st_heap st) (next_node st) (Pos.succ d) (objs st) in
      match py_translate (st_heap st) d v ox with
      | Ok y => (hold [y] st, Ok tt)
      | Throw e => (st, Throw e) | UB => (st, UB) | Diverge => (st, Diverge)
      end)
  end.

(** A program that goes on after exceptions *)
Definition start : state V := mkState ∅ 1 1 [].
Fixpoint run (ops : list (op V)) (st : state V) : state V :=
  match ops with
  | [] => st
  | o :: ops => run ops (step o st).1
  end.
End Sub.
