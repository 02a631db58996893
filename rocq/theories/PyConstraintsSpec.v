(** Specification for C20 and C21. *)

From stdpp Require Import prelude list.
From Verif Require Import Base PyConstraintsModel.

(** The geometries of an argument. *)
Definition geos {E} (a : arg E) : list E := match a with AGeo g => [g] | AList l => l end.

(** The pairs named in a call (lists that are not of length two are errors). *)
Definition pairs_of (a : idarg) : list (list N) := match a with OnePair p => [p] | Pairs ps => ps end.

(** The relations a history of calls has registered: (first, second, constraints).  Pairs
    are registered in order, up to the first invalid or known pair of a call. *)
Section Rel.
Context {C : Type}.
Fixpoint py_register (c : C) (ps : list (list N)) (l : list (N * N * C)) : list (N * N * C) :=
  match ps with
  | [] => l
  | [a; b] :: ps =>
      if bool_decide ((a, b) ∈ (fst <$> l : list (N * N))) then l
      else py_register c ps (l ++ [(a, b, c)])
  | _ :: _ => l
  end.
Definition py_relations (h : list (C * idarg)) : list (N * N * C) :=
  fold_left (λ l o, py_register o.1 (pairs_of o.2) l) h [].
End Rel.
