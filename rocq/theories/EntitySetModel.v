(** Model of MultiGeometryEntitySet<Geometries...>,
    /repo/frackit/entitynetwork/multigeometryentityset.hh:49-273. *)

From stdpp Require Import prelude gmap list.
From Verif Require Import Base.

Section EntitySet.
(** Entities (values of the geometry types of the parameter pack). *)
Context {E : Type}.
(** geometryName() of the type at a position of the parameter pack
    (/repo/frackit/geometryutilities/name.hh); types may share a name, e.g.
    Disk<float> and Disk<double>. *)
Variable tyname : nat → N.

(** multigeometryentityset.hh:267-272: for each type the vector of pairs
    (entities, id); the map from ids to geometry names. *)
Record eset := mkESet {
  sets : list (list (list E * N));
  names : gmap N N;
}.

Definition es_init (ntypes : nat) : eset := mkESet (replicate ntypes []) ∅.

(** multigeometryentityset.hh:89-91: push to the first pair with this id. *)
Fixpoint push_into (e : E) (id : N) (l : list (list E * N)) : option (list (list E * N)) :=
  match l with
  | [] => None
  | (es, i) :: l => if bool_decide (i = id) then Some ((es ++ [e], i) :: l)
                    else match push_into e id l with
                         | Some l' => Some ((es, i) :: l')
                         | None => None
                         end
  end.

(** multigeometryentityset.hh:68-102; [ty] beyond the pack is a compile error. *)
Definition add_entity (ty : nat) (e : E) (id : N) (s : eset) : outcome unit * eset :=
  match sets s !! ty with
  | None => (UB, s)
  | Some l =>
    match names s !! id with
    | Some n =>
        if bool_decide (n ≠ tyname ty) then (Throw RuntimeError, s)
        else match push_into e id l with
             | Some l' => (Ok tt, mkESet (<[ty := l']> (sets s)) (names s))
             | None => (Throw RuntimeError, s)
             end
    | None => (Ok tt, mkESet (<[ty := l ++ [([e], id)]]> (sets s))
                             (<[id := tyname ty]> (names s)))
    end
  end.

(** multigeometryentityset.hh:109-135: the overload for a pointer to the abstract base;
    [n] is entity->name(), [e] the pointed-to geometry; the first type with that name is
    used. *)
Fixpoint first_type (n : N) (ty : nat) (ntypes : nat) : option nat :=
  match ntypes with
  | 0 => None
  | S k => if bool_decide (tyname ty = n) then Some ty else first_type n (S ty) k
  end.
Definition add_entity_ptr (n : N) (e : E) (id : N) (s : eset) : outcome unit * eset :=
  match first_type n 0 (length (sets s)) with
  | Some ty => add_entity ty e id s
  | None => (Throw RuntimeError, s)
  end.

(** multigeometryentityset.hh:144-168: the vector the function is applied to (with the
    position of its type), or None if it returns false. *)
Fixpoint find_pair (id : N) (l : list (list E * N)) : option (list E) :=
  match l with
  | [] => None
  | (es, i) :: l => if bool_decide (i = id) then Some es else find_pair id l
  end.
Fixpoint find_set (id : N) (ls : list (list (list E * N))) : option (nat * list E) :=
  match ls with
  | [] => None
  | l :: ls => match find_pair id l with
               | Some es => Some (0, es)
               | None => match find_set id ls with
                         | Some (ty, es) => Some (S ty, es)
                         | None => None
                         end
               end
  end.
Definition apply_on_set (id : N) (s : eset) : option (nat * list E) :=
  match names s !! id with
  | None => None
  | Some _ => find_set id (sets s)
  end.

(** multigeometryentityset.hh:174-184 *)
Definition num_entities_id (id : N) (s : eset) : nat :=
  match apply_on_set id s with Some (_, es) => length es | None => 0 end.

(** multigeometryentityset.hh:189-195, for an iteration order of the hash map. *)
Definition num_entities (s : eset) (order : list (N * N)) : nat :=
  fold_left (λ acc kn, acc + num_entities_id kn.1 s) order 0.

(** multigeometryentityset.hh:204-238: the sequence of vectors handed to the builder,
    with the position of their type. *)
Definition export_all (s : eset) : list (nat * list E) :=
  concat (imap (λ ty l, (λ p, (ty, p.1)) <$> l) (sets s)).

(** multigeometryentityset.hh:247-265 *)
Definition export_ids (idl : list N) (s : eset) : list (nat * list E) :=
  concat (imap (λ ty l, (λ p, (ty, p.1)) <$> filter (λ p, p.2 ∈ idl) l) (sets s)).

Inductive eop :=
| AddEntity (ty : nat) (e : E) (id : N)
| AddEntityPtr (n : N) (e : E) (id : N).

Definition estep (s : eset) (o : eop) : outcome unit * eset :=
  match o with
  | AddEntity ty e id => add_entity ty e id s
  | AddEntityPtr n e id => add_entity_ptr n e id s
  end.
Definition erun (ntypes : nat) (h : list eop) : eset :=
  fold_left (λ s o, snd (estep s o)) h (es_init ntypes).
End EntitySet.
Arguments eset E : clear implicits.
Arguments eop E : clear implicits.
