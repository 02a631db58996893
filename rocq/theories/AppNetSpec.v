(** Specification for C89: the networks of the examples. *)

From stdpp Require Import prelude gmap list.
From Verif Require Import Base BuilderModel BuilderSpec.

Section Networks.
Context {S K num : Type} (kernel : occ S num).

(** All entities have the same dimension, all domains the same, larger one; there is at least
    one entity. *)
Definition proper (ds es : list S) : Prop :=
  es ≠ [] ∧ (∀ e e', e ∈ es → e' ∈ es → dim_of kernel e = dim_of kernel e') ∧
  (∀ d d', d ∈ ds → d' ∈ ds → dim_of kernel d = dim_of kernel d') ∧
  (∀ e d, e ∈ es → d ∈ ds → (dim_of kernel e < dim_of kernel d)%Z).

(** The network is made of what remains of the entities after the confinement [hc] (none if
    None): these pieces and the domains [ds] are cut by each other ([hf]), and the network has
    the fragments of the pieces. *)
Definition cut (e : num) (hc : option (report S)) (hf : report S) (ds es : list S) : Prop :=
  ∃ args, fragment kernel e args = Some hf ∧
    ∀ g, g ∈ args ↔ (∃ s, s ∈ es ∧ confined hc s g) ∨ g ∈ ds.
Definition made_of (hc : option (report S)) (hf : report S) (es : list S) (frags : list S) : Prop :=
  ∀ f, f ∈ frags ↔ ∃ s, s ∈ es ∧ stems hc hf s f.
End Networks.
