(** Model of BRepWriter, /repo/frackit/io/brepwriter.hh, and of the file written by
    GmshWriter, /repo/frackit/io/gmshwriter.hh.

    Shapes are abstract: the record [topo] says which sub-shapes the explorer of
    OpenCascade delivers for a shape.  As in BuilderModel.v, Leibniz equality stands for
    IsEqual (NCollection_List::Contains) and equality of keys for IsSame (maps of
    shapes).  Numbers of sub-shapes stay below 2^31. *)

From stdpp Require Import prelude gmap list.
From Verif Require Import Base BuilderModel.

(** TopExp_Explorer(s, TopAbs_...) and Oriented(TopAbs_FORWARD). *)
Record topo (S : Type) := mkTopo {
  t_solids : S → list S;
  t_shells : S → list S;
  t_faces : S → list S;
  t_wires : S → list S;
  t_edges : S → list S;
  t_vertices : S → list S;
  t_forward : S → S;
}.
Arguments mkTopo {S}.
Arguments t_solids {S}.
Arguments t_shells {S}.
Arguments t_faces {S}.
Arguments t_wires {S}.
Arguments t_edges {S}.
Arguments t_vertices {S}.
Arguments t_forward {S}.

(** The members of the writer, brepwriter.hh:349-362: the indexed maps of shapes (index i
    is position i - 1) and the maps from indices to lists of fragment indices. *)
Record maps (S : Type) := mkMaps {
  vmap : list S; emap : list S; wmap : list S; fmap_ : list S; shmap : list S; somap : list S;
  entityToFragments : gmap N (list N);
  intersectionsToFragments : gmap N (list N);
  domainToFragments : gmap N (list N);
}.
Arguments mkMaps {S}.
Arguments vmap {S}.
Arguments emap {S}.
Arguments wmap {S}.
Arguments fmap_ {S}.
Arguments shmap {S}.
Arguments somap {S}.
Arguments entityToFragments {S}.
Arguments intersectionsToFragments {S}.
Arguments domainToFragments {S}.

(** A statement "Physical X(tag) = {members};" of the .geo file with the dimension of X
    (Volume, Surface, Line, Point), or "Characteristic Length{PointsOf{X{members};}} = size". *)
Inductive geo :=
| Physical (dim : nat) (tag : N) (members : list N)
| SizeAt (dim : nat) (members : list N) (atBoundary : bool).

Section Writer.
Context {S K : Type} `{EqDecision S} `{Countable K} (key : S → K).
Variable T : topo S.
(** The shape that an index map holds for a key: one of the shapes that are IsSame. *)
Variable shape_of : K → S.
(** Iteration of an index map (TopTools_DataMapOfShapeInteger). *)
Variable iter : gmap K N → list (K * N).

Notation maps := (maps S).

(** makeEntityMap_, brepwriter.hh:130-148 (contained networks; [ids] is subDomainIds()) and
    154-162: allEntities_ and allEntitiesIndexMap_.  Bind overwrites. *)
Definition bind_all (offset : N) (index : gmap K N) (acc : list S * gmap K N) : list S * gmap K N :=
  fold_left (λ (acc : list S * gmap K N) (p : K * N),
               (acc.1 ++ [shape_of p.1], <[p.1 := (p.2 + offset)%N]> acc.2))
            (iter index) acc.
Fixpoint bind_sub_domains (ids : list N) (index : gmap N (gmap K N)) (offset : N)
    (acc : list S * gmap K N) : outcome (list S * gmap K N) :=
  match ids with
  | [] => Ok acc
  | id :: ids =>
      match index !! id with
      | None => Throw OutOfRange
      | Some m => bind_sub_domains ids index (offset + N.of_nat (size m))%N (bind_all offset m acc)
      end
  end.
Definition entity_map (ids : list N) (n : network S K) : outcome (list S * gmap K N) :=
  match n with
  | Net _ _ index => Ok (bind_all 0 index ([], ∅))
  | CNet _ _ _ _ index => bind_sub_domains ids index 0 ([], ∅)
  end.

(** getOverlapEdges, /repo/frackit/occ/breputilities.hh:568-589 *)
Definition has_partner (edges2 : list S) (e : S) : bool :=
  existsb (λ e2, bool_decide (key e2 = key e)) edges2.
Definition get_overlap_edges (f1 f2 : S) : list S :=
  List.filter (has_partner (t_edges T f2)) (t_edges T f1).

(** findEntityIntersectionShapes_, brepwriter.hh:167-196: [handled] has an entry eIdx for
    every list that contains edge number eIdx. *)
Definition handled (edges : list S) (inters : list (list S)) : list nat :=
  concat (imap (λ eIdx e, (λ _, eIdx) <$> List.filter (λ isList, bool_decide (e ∈ isList)) inters) edges).
Definition unhandled_edges (edges : list S) (h : list nat) : list S :=
  concat (imap (λ eIdx e, if bool_decide (eIdx ∈ h) then [] else [e]) edges).
Definition inter_step (f1 : S) (inters : list (list S)) (f2 : S) : list (list S) :=
  if bool_decide (key f1 = key f2) then inters
  else
    let edges := get_overlap_edges f1 f2 in
    let h := handled edges inters in
    if bool_decide (length h ≠ length edges) then inters ++ [unhandled_edges edges h] else inters.
Definition find_intersections (ents : list S) : list (list S) :=
  fold_left (λ inters f1, fold_left (inter_step f1) ents inters) ents [].

Section Maps.
Variable idx : gmap K N.            (* allEntitiesIndexMap_ *)
Variable inters : list (list S).    (* entityIntersections_ *)

(** FindIndex(s) >= 1; operator[] and push_back *)
Definition in_map (s : S) (l : list S) : bool := bool_decide (key s ∈ key <$> l).
Definition next_index (l : list S) : N := N.of_nat (length l) + 1.
Definition push (k i : N) (m : gmap N (list N)) : gmap N (list N) :=
  <[k := default [] (m !! k) ++ [i]]> m.

(** addVertices_, brepwriter.hh:338-346 *)
Definition add_vertex (m : maps) (v : S) : maps :=
  if in_map v (vmap m) then m
  else mkMaps (vmap m ++ [v]) (emap m) (wmap m) (fmap_ m) (shmap m) (somap m)
              (entityToFragments m) (intersectionsToFragments m) (domainToFragments m).

(** addEdges_, brepwriter.hh:311-330 *)
Fixpoint push_inters (isIdx : N) (l : list (list S)) (e : S) (i : N) (g : gmap N (list N)) : gmap N (list N) :=
  match l with
  | [] => g
  | isList :: l =>
      push_inters (isIdx + 1) l e i (if bool_decide (e ∈ isList) then push (isIdx + 1) i g else g)
  end.
Definition add_edge (m : maps) (e : S) : maps :=
  if in_map e (emap m) then m
  else fold_left add_vertex (t_vertices T e)
         (mkMaps (vmap m) (emap m ++ [e]) (wmap m) (fmap_ m) (shmap m) (somap m)
                 (entityToFragments m)
                 (push_inters 0 inters e (next_index (emap m)) (intersectionsToFragments m))
                 (domainToFragments m)).

(** addFaces_, brepwriter.hh:276-302 *)
Definition add_wire (m : maps) (w : S) : maps :=
  if in_map w (wmap m) then m
  else fold_left add_edge (t_edges T w)
         (mkMaps (vmap m) (emap m) (wmap m ++ [w]) (fmap_ m) (shmap m) (somap m)
                 (entityToFragments m) (intersectionsToFragments m) (domainToFragments m)).
Definition add_face (m : maps) (f : S) : maps :=
  if in_map f (fmap_ m) then m
  else fold_left add_wire (t_wires T (t_forward T f))
         (mkMaps (vmap m) (emap m) (wmap m) (fmap_ m ++ [f]) (shmap m) (somap m)
                 (match idx !! key f with
                  | Some i => push i (next_index (fmap_ m)) (entityToFragments m)
                  | None => entityToFragments m
                  end) (intersectionsToFragments m) (domainToFragments m)).
Definition add_faces (m : maps) (s : S) : maps := fold_left add_face (t_faces T s) m.

(** addSolids_, brepwriter.hh:246-267 *)
Definition add_shell (m : maps) (s : S) : maps :=
  if in_map s (shmap m) then m
  else add_faces (mkMaps (vmap m) (emap m) (wmap m) (fmap_ m) (shmap m ++ [s]) (somap m)
                         (entityToFragments m) (intersectionsToFragments m) (domainToFragments m)) s.
Definition add_solid (sd : N) (m : maps) (s : S) : maps :=
  if in_map s (somap m) then m
  else fold_left add_shell (t_shells T s)
         (mkMaps (vmap m) (emap m) (wmap m) (fmap_ m) (shmap m) (somap m ++ [s])
                 (entityToFragments m) (intersectionsToFragments m)
                 (push sd (next_index (somap m)) (domainToFragments m))).
Definition add_solids (sd : N) (m : maps) (s : S) : maps := fold_left (add_solid sd) (t_solids T s) m.

(** makeSubShapeMaps_, brepwriter.hh:202-221 *)
Fixpoint all_solids (ids : list N) (sdfrags : gmap N (list S)) (m : maps) : outcome maps :=
  match ids with
  | [] => Ok m
  | id :: ids => obind (at_id sdfrags id) (λ l, all_solids ids sdfrags (fold_left (add_solids id) l m))
  end.
Fixpoint all_faces (ids : list N) (frags : gmap N (list S)) (m : maps) : outcome maps :=
  match ids with
  | [] => Ok m
  | id :: ids => obind (at_id frags id) (λ l, all_faces ids frags (fold_left add_faces l m))
  end.
Definition no_maps : maps := mkMaps [] [] [] [] [] [] ∅ ∅ ∅.
Definition sub_shape_maps (ids : list N) (n : network S K) : outcome maps :=
  match n with
  | Net _ frags _ => Ok (fold_left add_faces frags no_maps)
  | CNet _ _ sdfrags frags _ => obind (all_solids ids sdfrags no_maps) (all_faces ids frags)
  end.
End Maps.

(** The constructors, brepwriter.hh:63-88. *)
Definition dims_ok (n : network S K) : bool :=
  match n with
  | Net ed _ _ => bool_decide (ed = 2%Z)
  | CNet ed dd _ _ _ => bool_decide (ed = 2%Z) && bool_decide (dd = (ed + 1)%Z)
  end.
Definition writer (ids : list N) (n : network S K) : outcome maps :=
  if negb (dims_ok n) then Throw RuntimeError
  else obind (entity_map ids n) (λ '(ents, idx),
         sub_shape_maps idx (find_intersections ents) ids n).

(** makeCompound_, brepwriter.hh:226-239: the shapes of the compound, in order. *)
Definition compound (m : maps) : list S :=
  vmap m ++ emap m ++ wmap m ++ fmap_ m ++ shmap m ++ somap m.

(** GmshWriter::write, gmshwriter.hh:65-152, for the iteration orders [go] of the three
    maps; [it->second[0]] of an empty vector is undefined behaviour. *)
Fixpoint statements (dim : nat) (size : option bool) (l : list (N * list N)) : outcome (list geo) :=
  match l with
  | [] => Ok []
  | (tag, []) :: _ => UB
  | (tag, members) :: l =>
      omapo (λ rest, Physical dim tag members ::
                     match size with Some b => [SizeAt dim members b] | None => [] end ++ rest)
            (statements dim size l)
  end.
Variable go : nat → gmap N (list N) → list (N * list N).
Definition geo_file (m : maps) : outcome (list geo) :=
  obind (statements 3 (Some true) (go 0 (domainToFragments m))) (λ l1,
  obind (statements 2 (Some false) (go 1 (entityToFragments m))) (λ l2,
  omapo (λ l3, l1 ++ l2 ++ l3) (statements 1 None (go 2 (intersectionsToFragments m))))).

Definition write (ids : list N) (n : network S K) : outcome (list S * list geo) :=
  obind (writer ids n) (λ m, omapo (λ l, (compound m, l)) (geo_file m)).
End Writer.
