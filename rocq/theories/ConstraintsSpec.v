(** Specification for C13-C15. *)

From stdpp Require Import prelude list.
From Verif Require Import Base ConstraintsModel.

(** The value a user has last set and not neglected since (latest call first). *)
Section Settings.
Context {num : Type}.

Fixpoint active_distance (h : list (cop num)) : option num :=
  match h with
  | [] => None
  | SetMinDistance x :: _ => Some x
  | NeglectMinDistance :: _ => None
  | _ :: r => active_distance r
  end.
Fixpoint active_angle (h : list (cop num)) : option num :=
  match h with
  | [] => None
  | SetMinAngle x :: _ => Some x
  | NeglectMinAngle :: _ => None
  | _ :: r => active_angle r
  end.
Fixpoint active_magnitude (h : list (cop num)) : option num :=
  match h with
  | [] => None
  | SetMinMagnitude x :: _ => Some x
  | NeglectMinMagnitude :: _ => None
  | _ :: r => active_magnitude r
  end.
Fixpoint active_is_distance (h : list (cop num)) : option num :=
  match h with
  | [] => None
  | SetMinIsDistance x :: _ => Some x
  | NeglectMinIsDistance :: _ => None
  | _ :: r => active_is_distance r
  end.
Fixpoint active_eps (h : list (cop num)) : option num :=
  match h with
  | [] => None
  | SetEps x :: _ => Some x
  | SetDefaultEps :: _ => None
  | _ :: r => active_eps r
  end.
Fixpoint equi_dim_allowed (h : list (cop num)) : bool :=
  match h with
  | [] => false
  | AllowEquiDim b :: _ => b
  | _ :: r => equi_dim_allowed r
  end.
Definition no_constraint (h : list (cop num)) : Prop :=
  active_distance h = None ∧ active_angle h = None ∧
  active_magnitude h = None ∧ active_is_distance h = None.
End Settings.

(** What the constraints mean.  The kernel is assumed to answer: [inter], [dist], ... are
    the values it returns. *)
Section Meaning.
Context {num G Pt Arc Ell Edge Face : Type}.
Context (lt : num → num → Prop).
Notation pc := (piece Pt Arc Ell Edge Face G).

Record answers := mkAnswers {
  inter : option num → G → G → list pc;
  dist : G → G → num;
  angle : G → G → list pc → num;
  magnitude : pc → num;
  on_boundary : Pt → G → bool;
  dist_boundary : Pt → G → num;
  ellipse_dist_boundary : Ell → G → num;
  arc_point : Arc → nat → Pt;
  arc_source : Arc → Pt;
  arc_target : Arc → Pt;
  edge_first : Edge → Pt;
  edge_last : Edge → Pt;
  gdim : G → Z;
}.
Variable A : answers.

Definition kernel_of : kernel num G Pt Arc Ell Edge Face :=
  mkKernel (λ e g1 g2, Ok (inter A e g1 g2)) (λ g1 g2, Ok (dist A g1 g2))
    (λ g1 g2 is, Ok (angle A g1 g2 is)) (λ p, Ok (magnitude A p))
    (λ p g, Ok (on_boundary A p g)) (λ p g, Ok (dist_boundary A p g))
    (λ e g, Ok (ellipse_dist_boundary A e g)) (arc_point A) (arc_source A) (arc_target A)
    (edge_first A) (edge_last A) (gdim A).

(** [at_least x t]: not below the threshold. *)
Definition at_least (x t : num) : Prop := ¬ lt x t.

(** A point of an intersection keeps clear of the boundary of [g]: it lies on the boundary
    or is far enough from it. *)
Definition clear (t : num) (g : G) (p : Pt) : Prop :=
  on_boundary A p g = true ∨ at_least (dist_boundary A p g) t.

(** The points of an intersection geometry that are checked.  Arcs: the end points only if
    one of them is on the boundary, otherwise five equidistant points. *)
Definition clear_piece (t : num) (g : G) (p : pc) : Prop :=
  match p with
  | PEmpty => True
  | PPoint p => clear t g p
  | PSegment s e => clear t g s ∧ clear t g e
  | PEdge e => clear t g (edge_first A e) ∧ clear t g (edge_last A e)
  | PEllipse e => at_least (ellipse_dist_boundary A e g) t
  | PArc a =>
      if on_boundary A (arc_source A a) g || on_boundary A (arc_target A a) g
      then clear t g (arc_source A a) ∧ clear t g (arc_target A a)
      else ∀ i, i ≤ 4 → at_least (dist_boundary A (arc_point A a i) g) t
  | PFace _ | PFull _ => False
  end.

Definition dim_of (p : pc) : Z :=
  match p with
  | PEmpty | PPoint _ => 0
  | PSegment _ _ | PArc _ | PEllipse _ | PEdge _ => 1
  | PFace _ => 2
  | PFull g => gdim A g
  end.

(** Two-dimensional (or equal-dimensional) pieces for which no boundary distance exists. *)
Definition has_boundary_distance (p : pc) : Prop :=
  match p with PFace _ | PFull _ => False | _ => True end.

Definition holds_if_set (o : option num) (P : num → Prop) : Prop :=
  match o with Some t => P t | None => True end.

(** The conjunction of the active constraints. *)
Definition admissible (h : list (cop num)) (g1 g2 : G) : Prop :=
  let is := inter A (active_eps h) g1 g2 in
  ((∀ p, p ∈ is → p = PEmpty) →
     holds_if_set (active_distance h) (at_least (dist A g1 g2))) ∧
  ((∃ p, p ∈ is ∧ p ≠ PEmpty) →
     (equi_dim_allowed h = true ∨ ∀ p, p ∈ is → (dim_of p < gdim A g1)%Z) ∧
     holds_if_set (active_magnitude h)
       (λ t, ∀ p, p ∈ is → dim_of p ≠ 0%Z → at_least (magnitude A p) t) ∧
     holds_if_set (active_angle h) (at_least (angle A g1 g2 is)) ∧
     holds_if_set (active_is_distance h)
       (λ t, ∀ p, p ∈ is → clear_piece t g1 p ∧ clear_piece t g2 p)).
End Meaning.
Arguments answers num G Pt Arc Ell Edge Face : clear implicits.
