(** Model of the Python classes EntityNetworkConstraints and EntityNetworkConstraintsMatrix,
    /repo/python/frackit/entitynetwork/__init__.py:4-91. *)

From stdpp Require Import prelude list.
From Verif Require Import Base ConstraintsModel.

Section Py.
Context {C E : Type}.
(** c.evaluate(x, y) of the wrapped C++ class for two geometries
    (/repo/frackit/python/entitynetwork/constraints.hh:81-117). *)
Variable ev : C → E → E → outcome bool.

(** Arguments of evaluate: a geometry or a list of geometries. *)
Inductive arg := AGeo (g : E) | AList (l : list E).

(** super().evaluate(item, b): there is no overload for lists. *)
Definition super_evaluate (c : C) (item : E) (b : arg) : outcome bool :=
  match b with
  | AGeo g => ev c item g
  | AList _ => Throw TypeError
  end.

(** __init__.py:18-19: evalList(theList, geo); the second parameter is not used, [b] is
    the argument of the enclosing function. *)
Definition eval_list (c : C) (b : arg) (theList : list E) (geo : arg) : outcome bool :=
  all_of (λ item, super_evaluate c item b) theList.

(** __init__.py:6-29 *)
Definition py_evaluate (c : C) (a b : arg) : outcome bool :=
  match a, b with
  | AList la, AGeo _ => eval_list c b la b
  | AGeo _, AList lb => eval_list c b lb a
  | AList la, AList lb => all_of (λ item, eval_list c b lb (AGeo item)) la
  | AGeo ga, AGeo gb => ev c ga gb
  end.

(** __init__.py:34-35: a dictionary of dictionaries, in insertion order. *)
Definition pydict (V : Type) : Type := list (N * V).
Fixpoint dget {V} (k : N) (d : pydict V) : option V :=
  match d with
  | [] => None
  | (k', v) :: d => if bool_decide (k' = k) then Some v else dget k d
  end.
Fixpoint dset {V} (k : N) (v : V) (d : pydict V) : pydict V :=
  match d with
  | [] => [(k, v)]
  | (k', v') :: d => if bool_decide (k' = k) then (k', v) :: d else (k', v') :: dset k v d
  end.
Definition pymatrix : Type := pydict (pydict C).

(** __init__.py:39-50 *)
Definition add_id_pair (c : C) (pair : list N) (m : pymatrix) : outcome unit * pymatrix :=
  match pair with
  | [id1; id2] =>
      match dget id1 m with
      | None => (Ok tt, dset id1 [(id2, c)] m)
      | Some row => match dget id2 row with
                    | None => (Ok tt, dset id1 (dset id2 c row) m)
                    | Some _ => (Throw RuntimeError, m)
                    end
      end
  | _ => (Throw RuntimeError, m)
  end.

(** __init__.py:52-58.  The two accepted forms of the argument: one pair (a list of ids)
    or a list of pairs; an empty list raises an IndexError. *)
Inductive idarg := OnePair (p : list N) | Pairs (ps : list (list N)).
Fixpoint add_id_pairs (c : C) (ps : list (list N)) (m : pymatrix) : outcome unit * pymatrix :=
  match ps with
  | [] => (Ok tt, m)
  | p :: ps => match add_id_pair c p m with
               | (Ok _, m') => add_id_pairs c ps m'
               | r => r
               end
  end.
Definition py_add_constraints (c : C) (a : idarg) (m : pymatrix) : outcome unit * pymatrix :=
  match a with
  | OnePair [] | Pairs [] => (Throw OutOfRange, m)
  | OnePair p => add_id_pair c p m
  | Pairs ps => add_id_pairs c ps m
  end.

(** __init__.py:60-91; entitySets is a dictionary from ids to lists. *)
Fixpoint py_eval_keys (row : pydict C) (sets : N → option (list E)) (e : E) (keys : list N)
    : outcome bool :=
  match keys with
  | [] => Ok true
  | k :: keys =>
      match sets k with
      | None => py_eval_keys row sets e keys
      | Some es =>
          match dget k row with
          | None => py_eval_keys row sets e keys
          | Some c => obind (py_evaluate c (AList es) (AGeo e)) (λ b,
                        if b then py_eval_keys row sets e keys else Ok false)
          end
      end
  end.
Definition py_matrix_evaluate (m : pymatrix) (sets : N → option (list E)) (e : E) (id : N) : outcome bool :=
  match dget id m with
  | None => Ok true
  | Some row => py_eval_keys row sets e (fst <$> m)
  end.

Definition pyrun (h : list (C * idarg)) : pymatrix :=
  fold_left (λ m o, snd (py_add_constraints o.1 o.2 m)) h [].
End Py.
Arguments arg E : clear implicits.
Arguments pymatrix C : clear implicits.
