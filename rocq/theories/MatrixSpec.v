(** Specification for C16-C19. *)

From stdpp Require Import prelude gmap list.
From Verif Require Import Base StatusModel EntitySetModel MatrixModel.

Section Spec.
Context {C E : Type}.

(** A relation: entities of set [r_first] are checked against those of set [r_second]. *)
Record relation := mkRel { r_first : N; r_second : N; r_con : C }.

(** [registered a b l]: some relation from [a] to [b] is in [l]. *)
Definition registered (a b : N) (l : list relation) : Prop :=
  Exists (λ r, r_first r = a ∧ r_second r = b) l.
Global Instance registered_dec a b l : Decision (registered a b l).
Proof. apply _. Defined.

(** Pairs are registered one after the other, up to the first pair that is known already. *)
Fixpoint register (c : C) (ps : list (N * N)) (l : list relation) : list relation :=
  match ps with
  | [] => l
  | (a, b) :: ps => if bool_decide (registered a b l) then l
                    else register c ps (l ++ [mkRel a b c])
  end.
Fixpoint register_fails (c : C) (ps : list (N * N)) (l : list relation) : bool :=
  match ps with
  | [] => false
  | (a, b) :: ps => if bool_decide (registered a b l) then true
                    else register_fails c ps (l ++ [mkRel a b c])
  end.
Definition relations_of (h : list (mcall C)) : list relation :=
  fold_left (λ l o, register o.1 o.2 l) h [].

(** C18: the entities accepted in the course of a run, first one first. *)
Definition of_id (id : N) (log : list (draw E)) : list E :=
  d_geo <$> filter (λ d, d_id d = id) log.

(** Sets without entities are not visible. *)
Definition opt_list (l : list E) : option (list E) := match l with [] => None | _ => Some l end.

(** Every entity satisfies the relations of its set with respect to the entities accepted
    before it. *)
Definition checked_in_order (ev : C → E → E → outcome bool) (rels : list relation)
    (log : list (draw E)) : Prop :=
  ∀ l1 d l2 d' r,
    log = l1 ++ d :: l2 → d' ∈ l1 → r ∈ rels →
    r_first r = d_id d → r_second r = d_id d' → ev (r_con r) (d_geo d') (d_geo d) = Ok true.

(** Targets given by the user: ids with their numbers. *)
Definition target_calls (ts : list (N * N)) : list op := (λ p, SetTarget p.1 p.2) <$> ts.
End Spec.
Arguments relation C : clear implicits.
