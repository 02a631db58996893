(** Specification of sub-shapes: the sub-shape at the end of a path, the lists of sub-shapes, and
    the programs that use shapes. *)

From stdpp Require Import prelude gmap list.
From Verif Require Import Base SubModel.

Section Sub.
Context {V : Type}.
Implicit Types (h : heap V) (s t : shape V) (st : state V).

(** The first number of a path says which sub-shape to take, the next one which sub-shape of
    that, and so on. *)
Fixpoint follow h s (path : list nat) : option (shape V) :=
  match h !! s_node s, path with
  | None, _ => None
  | Some _, [] => Some s
  | Some nd, i :: path =>
      match n_kids nd !! i with
      | Some kid => follow h (inside s kid) path
      | None => None
      end
  end.

(** The sub-shapes passed on the path from the TShape [n], as they were put in. *)
Inductive passes h : positive → list nat → list (shape V) → Prop :=
| passes_none n nd : h !! n = Some nd → passes h n [] []
| passes_one n nd i kid path l :
    h !! n = Some nd → n_kids nd !! i = Some kid → passes h (s_node kid) path l →
    passes h n (i :: path) (kid :: l).
(** Where a shape is that is part of shapes that are part of shapes ...: [l] are these shapes
    from the outermost to itself. *)
Definition placed (l : list (shape V)) t : Prop :=
  s_node <$> last l = Some (s_node t) ∧ s_loc t = concat (map s_loc l) ∧
  s_rev t = Nat.odd (length (List.filter s_rev l)).

Definition of_kind h (k : tkind) t : Prop := kind_of h (s_node t) = Some k.

(** [l] has one entry for every path from [s] to a shape of kind [k]: that shape. *)
Definition lists_all h (k : tkind) s (l : list (shape V)) : Prop :=
  ∃ paths, NoDup paths ∧
           (∀ p, p ∈ paths ↔ ∃ t, follow h s p = Some t ∧ of_kind h k t) ∧
           Forall2 (λ p t, follow h s p = Some t) paths l.

(** no TShape is reached in two ways *)
Definition no_sharing h s : Prop :=
  ∀ p q t u, follow h s p = Some t → follow h s q = Some u → s_node t = s_node u → p = q.

Definition reachable st : Prop := ∃ ops, run ops start = st.
Definition holds st (x : nat) (o : pobj V) : Prop := objs st !! x = Some o.

(** the kinds for which there is a function: getSolids, getShells, getFaces, getWires, getEdges,
    getVertices *)
Definition listed (k : tkind) : Prop := k ≠ Compound ∧ k ≠ CompSolid.

(** the wrapper is for shapes that are less complex than k *)
Definition less_complex (c : wclass) (k : tkind) : Prop :=
  match c with AnyShape => False | Exactly j => level k < level j end.

(** the same TShape: changing one changes the other *)
Definition aliases (o p : pobj V) : Prop := s_node (o_shape o) = s_node (o_shape p).

(** The statement makes the shape of an object part of another shape, or tries to: x in c.add(x)
    (with classes for which add() exists) or an argument of a function of the kernel. *)
Definition uses (o : op V) st (p : pobj V) : Prop :=
  match o with
  | AddTo c x =>
      ∃ oc ox, holds st c oc ∧ holds st x ox ∧ o_class oc = Exactly Compound ∧
               o_class ox ≠ Exactly Compound ∧ aliases ox p
  | KernelShape _ parts =>
      (step o st).2 = Ok tt ∧ ∃ i o', i ∈ parts ∧ holds st i o' ∧ aliases o' p
  | _ => False
  end.
Fixpoint never_used (ops : list (op V)) st (p : pobj V) : Prop :=
  match ops with
  | [] => True
  | o :: ops => ¬ uses o st p ∧ never_used ops (step o st).1 p
  end.

(** The shapes that a program puts into the compound of [p] by add() *)
Fixpoint put_in (ops : list (op V)) st (p : pobj V) : list (shape V) :=
  match ops with
  | [] => []
  | o :: ops =>
      match o with
      | AddTo c x =>
          match objs st !! c, objs st !! x, (step o st).2 with
          | Some oc, Some ox, Ok _ =>
              if decide (s_node (o_shape oc) = s_node (o_shape p)) then [o_shape ox] else []
          | _, _, _ => []
          end
      | _ => []
      end ++ put_in ops (step o st).1 p
  end.

(** what getSolids, ..., getVertices return for an object *)
Definition queries st (o : pobj V) (k : tkind) : outcome (list (pobj V)) := py_sub (st_heap st) k o.
End Sub.
