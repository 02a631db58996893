(** Specification for the writers (properties C28-C30, C67). *)

From stdpp Require Import prelude gmap list.
From Verif Require Import Base BuilderModel WriterModel.

(** Positions, counted from 1, of the elements for which [P] holds. *)
Fixpoint positions_from {A} (i : N) (P : A → bool) (l : list A) : list N :=
  match l with
  | [] => []
  | x :: l => if P x then i :: positions_from (i + 1) P l else positions_from (i + 1) P l
  end.
Definition positions {A} (P : A → bool) (l : list A) : list N := positions_from 1 P l.
(** The element at a position. *)
Definition nth_at {A} (l : list A) (p : N) : option A :=
  match p with N0 => None | _ => l !! N.to_nat (p - 1) end.

Section Spec.
Context {S K : Type} `{EqDecision S} `{Countable K} (key : S → K).
Variable T : topo S.
Variable shape_of : K → S.

(** IsSame shapes have the same sub-shapes (up to IsSame), the orientation of a shape does
    not matter for this, and the edges of a face are those of its wires. *)
Definition same_parts (ex : S → list S) : Prop :=
  ∀ s t x, key s = key t → x ∈ ex s → ∃ y, y ∈ ex t ∧ key y = key x.
Record consistent : Prop := {
  co_solids : same_parts (t_solids T);
  co_shells : same_parts (t_shells T);
  co_faces : same_parts (t_faces T);
  co_wires : same_parts (t_wires T);
  co_edges : same_parts (t_edges T);
  co_vertices : same_parts (t_vertices T);
  co_forward : ∀ s, key (t_forward T s) = key s;
  co_face_edges : ∀ s f e, f ∈ t_faces T s → e ∈ t_edges T f → ∃ w e', w ∈ t_wires T f ∧ e' ∈ t_edges T w ∧ key e' = key e;
  co_shape_of : ∀ k, key (shape_of k) = k;
}.

(** The shapes of a network that are to be written: the fragments of the sub-domains and
    the fragments of the entities, for the sub-domain ids of the network. *)
Definition domain_fragment (ids : list N) (n : network S K) (id : N) (s : S) : Prop :=
  match n with
  | Net _ _ _ => False
  | CNet _ _ sdf _ _ => id ∈ ids ∧ ∃ l, sdf !! id = Some l ∧ s ∈ l
  end.
Definition entity_fragment (ids : list N) (n : network S K) (s : S) : Prop :=
  match n with
  | Net _ frags _ => s ∈ frags
  | CNet _ _ _ frags _ => ∃ id l, id ∈ ids ∧ frags !! id = Some l ∧ s ∈ l
  end.

(** Their sub-shapes. *)
Definition part_solid ids n s := ∃ id x, domain_fragment ids n id x ∧ s ∈ t_solids T x.
Definition part_shell ids n s := ∃ x, part_solid ids n x ∧ s ∈ t_shells T x.
Definition part_face ids n s :=
  ∃ x, (part_shell ids n x ∨ entity_fragment ids n x) ∧ s ∈ t_faces T x.
Definition part_wire ids n s := ∃ x, part_face ids n x ∧ s ∈ t_wires T (t_forward T x).
Definition part_edge ids n s := ∃ x, part_wire ids n x ∧ s ∈ t_edges T x.
Definition part_vertex ids n s := ∃ x, part_edge ids n x ∧ s ∈ t_vertices T x.

(** [l] has exactly one shape for each of the shapes [P]. *)
Definition lists_once (P : S → Prop) (l : list S) : Prop :=
  NoDup (key <$> l) ∧ (∀ s, s ∈ l → P s) ∧ (∀ s, P s → key s ∈ key <$> l).

(** The index of the primary entity of a fragment.  In contained networks the numbers of
    the sub-domains are made different by adding the number of fragments of the preceding
    sub-domains; a fragment that belongs to several sub-domains counts for the last. *)
Definition fragments_in (index : gmap N (gmap K N)) (ids : list N) : N :=
  foldr (λ id a, (N.of_nat (size (default ∅ (index !! id))) + a)%N) 0%N ids.
Definition primary (ids : list N) (n : network S K) (k : K) (tag : N) : Prop :=
  match n with
  | Net _ _ index => index !! k = Some tag
  | CNet _ _ _ _ index =>
      ∃ l1 id l2 m i, ids = l1 ++ id :: l2 ∧ index !! id = Some m ∧ m !! k = Some i ∧
                      tag = (fragments_in index l1 + i)%N ∧
                      ∀ id', id' ∈ l2 → default ∅ (index !! id') !! k = None
  end.

(** Keys of the index maps. *)
Definition indexed (ids : list N) (n : network S K) (k : K) : Prop :=
  match n with
  | Net _ _ index => is_Some (index !! k)
  | CNet _ _ _ _ index => ∃ id m, id ∈ ids ∧ index !! id = Some m ∧ is_Some (m !! k)
  end.

(** An edge that is shared by two different fragments. *)
Definition shared_edge (ids : list N) (n : network S K) (e : S) : Prop :=
  ∃ k1 k2 e2, indexed ids n k1 ∧ indexed ids n k2 ∧ k1 ≠ k2 ∧
              e ∈ t_edges T (shape_of k1) ∧ e2 ∈ t_edges T (shape_of k2) ∧ key e2 = key e.

(** What the builders guarantee: fragments in the index maps are faces that are listed. *)
Definition listed (ids : list N) (n : network S K) : Prop :=
  ∀ k, indexed ids n k → ∃ s f, entity_fragment ids n s ∧ f ∈ t_faces T s ∧ key f = k.

(** The physical groups of dimension [d] in a file: tags occur once, and groups are not
    empty. *)
Definition groups (d : nat) (file : list geo) : list (N * list N) :=
  omap (λ g, match g with Physical d' tag l => if bool_decide (d' = d) then Some (tag, l) else None | _ => None end) file.
Definition proper (d : nat) (file : list geo) : Prop :=
  NoDup (groups d file).*1 ∧ ∀ tag l, (tag, l) ∈ groups d file → l ≠ [] ∧ NoDup l.
End Spec.
