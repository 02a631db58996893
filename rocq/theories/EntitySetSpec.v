(** Specification for C10-C12: an entity set is a finite map from ids to a geometry type
    and a list of entities. *)

From stdpp Require Import prelude gmap list.
From Verif Require Import Base EntitySetModel.

Notation smap E := (gmap N (nat * list E)).

Section Spec.
Context {E : Type}.

(** Adding an entity of type [ty]: only an id that is new or holds this type accepts it. *)
Definition spec_add (ty : nat) (e : E) (id : N) (m : smap E) : option (smap E) :=
  match m !! id with
  | None => Some (<[id := (ty, [e])]> m)
  | Some (ty', es) => if bool_decide (ty' = ty) then Some (<[id := (ty, es ++ [e])]> m) else None
  end.

Definition spec_step (tyname : nat → N) (ntypes : nat) (m : smap E) (o : eop E) : option (smap E) :=
  match o with
  | AddEntity ty e id => spec_add ty e id m
  | AddEntityPtr n e id =>
      match first_type tyname n 0 ntypes with
      | Some ty => spec_add ty e id m
      | None => None
      end
  end.

(** Failing calls leave the map alone. *)
Definition spec_run (tyname : nat → N) (ntypes : nat) (h : list (eop E)) : smap E :=
  fold_left (λ m o, default m (spec_step tyname ntypes m o)) h ∅.

(** Calls naming a geometry type name one of the parameter pack. *)
Definition typed (ntypes : nat) (o : eop E) : Prop :=
  match o with AddEntity ty _ _ => ty < ntypes | AddEntityPtr _ _ _ => True end.

(** The entities of a set, each with the geometry type of the set. *)
Definition tag (p : nat * list E) : list (nat * E) := (λ e, (p.1, e)) <$> p.2.

(** All entities of a map. *)
Definition all_entities (m : smap E) : list (nat * E) :=
  map_to_list m ≫= λ kv, tag kv.2.

(** The entities of the sets with the given ids. *)
Definition entities_of (idl : list N) (m : smap E) : list (nat * E) :=
  all_entities (filter (λ kv, kv.1 ∈ idl) m).

(** The entities handed over by an export, one by one. *)
Definition flatten (l : list (nat * list E)) : list (nat * E) := l ≫= tag.
End Spec.
