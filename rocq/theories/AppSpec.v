(** Specification for C86-C89: the example programs. *)

From stdpp Require Import prelude gmap list.
From Verif Require Import Base NumModel VecModel StatusModel ConstraintsModel ConstraintsSpec AppModel.

(** ** C86: alternating between two sets *)
Section Alternating.
Context {C E : Type}.

(** The accepted entities in the order of acceptance; true: set 1, false: set 2. *)
Notation log := (list (bool * E)).
Definition of_set (b : bool) (l : log) : list E := snd <$> filter (λ p : bool * E, p.1 = b) l.

(** Every entity satisfies the constraints with respect to those accepted before it: those of
    its set within the set, the others across the sets. *)
Definition checked (ev : C → E → E → outcome bool) (p : plan C E) (l : log) : Prop :=
  ∀ l1 b e l2 b' e',
    l = l1 ++ (b, e) :: l2 → (b', e') ∈ l1 →
    ev (match b, b' with
        | true, true => p_self1 p
        | false, false => p_self2 p
        | _, _ => p_other p
        end) e' e = Ok true.
(** ... and passes all other tests. *)
Definition tested (p : plan C E) (l : log) : Prop :=
  ∀ b e t, (b, e) ∈ l → t ∈ p_before p ++ p_after p → t e = Ok true.

(** The first entities a sampler delivers. *)
Definition delivers (s : N → outcome E) (ds : list E) : Prop :=
  ∀ i e, ds !! i = Some e → s (N.of_nat i) = Ok e.

(** [x] is the state of the program when the loop has ended, or after the given number of
    passes if it has not. *)
Definition reached (r : alt_result E) (x : alt E) : Prop := r = AltDone x ∨ r = AltRunning x.

(** [o] is a failure of a sampler, of a test or of the evaluation of a constraint. *)
Definition fails {B} (o : outcome unit) (x : outcome B) : Prop :=
  (∀ b, x ≠ Ok b) ∧ omapo (λ _, tt) x = o.
Definition somewhere (ev : C → E → E → outcome bool) (p : plan C E) (s1 s2 : N → outcome E)
    (o : outcome unit) : Prop :=
  (∃ i, fails o (s1 i) ∨ fails o (s2 i)) ∨
  (∃ t e, t ∈ p_before p ++ p_after p ∧ fails o (t e)) ∨
  (∃ c x y, fails o (ev c x y)).

(** The first entities of the samplers are compatible, the earlier one first: as many as are
    wanted, taken in turns from the first and the second sampler. *)
Definition all_compatible (ev : C → E → E → outcome bool) (p : plan C E) (s1 s2 : N → outcome E) : Prop :=
  (∀ i, (i < p_target1 p)%N → ∃ e, s1 i = Ok e ∧ ∀ t, t ∈ p_before p ++ p_after p → t e = Ok true) ∧
  (∀ i, (i < p_target2 p)%N → ∃ e, s2 i = Ok e ∧ ∀ t, t ∈ p_before p ++ p_after p → t e = Ok true) ∧
  (∀ i j x y, (i < j < p_target1 p)%N → s1 i = Ok x → s1 j = Ok y → ev (p_self1 p) x y = Ok true) ∧
  (∀ i j x y, (i < j < p_target2 p)%N → s2 i = Ok x → s2 j = Ok y → ev (p_self2 p) x y = Ok true) ∧
  (∀ i j x y, (i < p_target1 p)%N → (j < p_target2 p)%N → s1 i = Ok x → s2 j = Ok y →
     ((i ≤ j)%N → ev (p_other p) x y = Ok true) ∧ ((j < i)%N → ev (p_other p) y x = Ok true)).
End Alternating.

(** The meaning of four thresholds (all four set, equal dimensions not allowed): entities
    that do not meet keep the distance; the intersection of entities that meet has a lower
    dimension than the first one, its parts are not too small, the angle is large enough, and
    it keeps clear of the boundaries. *)
Definition keeps {num G Pt Arc Ell Edge Face} (lt : num → num → Prop)
    (A : answers num G Pt Arc Ell Edge Face) (d a m b : num) (x y : G) : Prop :=
  let is := inter A None x y in
  ((∀ p, p ∈ is → p = PEmpty) → at_least lt (dist A x y) d) ∧
  ((∃ p, p ∈ is ∧ p ≠ PEmpty) →
     (∀ p, p ∈ is → (dim_of A p < gdim A x)%Z) ∧
     (∀ p, p ∈ is → dim_of A p ≠ 0%Z → at_least lt (magnitude A p) m) ∧
     at_least lt (angle A x y is) a ∧
     (∀ p, p ∈ is → clear_piece lt A b x p ∧ clear_piece lt A b y p)).

(** All pairs of a list, the earlier one first; all pairs of two lists that were filled in
    turns, the first list first. *)
Definition pairwise {B} (R : B → B → Prop) (l : list B) : Prop :=
  ∀ i j x y, i < j → l !! i = Some x → l !! j = Some y → R x y.
Definition crosswise {B} (R : B → B → Prop) (l1 l2 : list B) : Prop :=
  ∀ i j x y, l1 !! i = Some x → l2 !! j = Some y → (i ≤ j → R x y) ∧ (j < i → R y x).

(** ** C87: the network around the tunnel *)
Section Tunnel.
Context {A : Type} `{Num A} `{Trig A} {Pt Arc Ell Edge Face P F V IS : Type}.
Context (K : kernel A F Pt Arc Ell Edge Face) (T : tunnel A P F V IS).
Let eval (c : constraints A) (x y : F) : outcome bool := evaluate nltb (λ a b, nleb b a) K c x y.

(** No vertex is closer than 1 mm to the intersection. *)
Definition vertices_clear (vs : list V) (is : IS) : Prop :=
  ∀ v, v ∈ vs → ∃ d, t_distance T v is = Ok d ∧ nltb d (nlit 1 1000) = false.
(** [f] is the only face of the candidate in the domain and has at least a quarter of its
    area. *)
Definition remains (c : P) (f : F) (a : A) : Prop :=
  t_contained T c = Ok [f] ∧ t_area_f T f = Ok a ∧ nltb a (nmul (nlit 1 4) (t_area_p T c)) = false.
(** [f] stems from a candidate that meets the tunnel, or the entity [e]. *)
Definition at_tunnel (c : P) (f : F) (a : A) : Prop :=
  remains c f a ∧ ∃ is, t_meet_tunnel T c = Ok is ∧ t_empty T is = false ∧
    vertices_clear (t_vertices_p T c) is.
Definition at_entity (e : F) (c : P) (f : F) (a : A) : Prop :=
  remains c f a ∧ ∃ is, t_meet T c e = Ok is ∧ t_empty T is = false ∧
    vertices_clear (t_vertices_p T c) is ∧ vertices_clear (t_vertices_f T e) is.
(** The constraints with respect to the sphere and the tunnel surface. *)
Definition bounded (k : ex4_constraints A) (f : F) : Prop :=
  eval (c4_boundary k) (t_tunnel T) f = Ok true ∧ eval (c4_boundary k) (t_sphere T) f = Ok true.
Definition respects (c : constraints A) (set : list F) (f : F) : Prop :=
  ∀ e, e ∈ set → eval c e f = Ok true.
Definition total (start : A) (l : list A) : A := fold_left nadd l start.

(** Candidates are drawn one after the other, and the contained part of a candidate is taken
    exactly if it is [ok] with the entities taken before: after [n] draws the entities [set]
    with the given areas have been taken, [r] candidates have been left. *)
Inductive draws (s : N → outcome P) (ok : list F → P → F → A → Prop) : N → list F → list A → N → Prop :=
| draws_none : draws s ok 0 [] [] 0
| draws_taken n set areas r c f a :
    draws s ok n set areas r → s n = Ok c → ok set c f a →
    draws s ok (n + 1) (set ++ [f]) (areas ++ [a]) r
| draws_left n set areas r c :
    draws s ok n set areas r → s n = Ok c → (∀ f a, ¬ ok set c f a) →
    draws s ok (n + 1) set areas (r + 1).

(** What a candidate has to satisfy in the three steps; [own]: the entities of the same step. *)
Definition ok1 (k : ex4_constraints A) (own : list F) (c : P) (f : F) (a : A) : Prop :=
  at_tunnel c f a ∧ respects (c4_1 k) own f ∧ bounded k f.
Definition ok2 (k : ex4_constraints A) (set1 : list F) (own : list F) (e : F) (c : P) (f : F) (a : A) : Prop :=
  at_entity e c f a ∧ respects (c4_other k) set1 f ∧ respects (c4_2 k) own f ∧ bounded k f.
Definition ok3 (k : ex4_constraints A) (set1 set2 : list F) (own : list F) (e : F) (c : P) (f : F) (a : A) : Prop :=
  at_entity e c f a ∧ respects (c4_other k) set1 f ∧ respects (c4_other k) set2 f ∧
  respects (c4_3 k) own f ∧ bounded k f.

(** The search for one entity, with at most [m] + 1 candidates: the first one that is [ok] is
    taken. *)
Definition searched (s : N → outcome P) (ok : P → F → A → Prop) (m : N) (r : found)
    (o : option (P * F * A)) : Prop :=
  f_skipped r = bool_decide (m ≤ f_tries r)%N ∧
  match o with
  | Some (c, f, a) =>
      f_accepted r = true ∧ (0 < f_tries r ≤ m + 1)%N ∧ s (f_tries r - 1)%N = Ok c ∧ ok c f a ∧
      ∀ i, (i < f_tries r - 1)%N → ∃ c, s i = Ok c ∧ ∀ f a, ¬ ok c f a
  | None =>
      f_accepted r = false ∧ f_tries r = (m + 1)%N ∧
      ∀ i, (i ≤ m)%N → ∃ c, s i = Ok c ∧ ∀ f a, ¬ ok c f a
  end.
(** The new entities and their areas. *)
Definition faces_of (l : list (option (P * F * A))) : list F :=
  omap (λ o, (λ t : P * F * A, t.1.2) <$> o) l.
Definition areas_of (l : list (option (P * F * A))) : list A :=
  omap (λ o, (λ t : P * F * A, t.2) <$> o) l.
(** The search for all entities [es] in turn. *)
Definition searched_all (s : N → F → outcome (N → outcome P)) (ok : list F → F → P → F → A → Prop)
    (m : N) (es : list F) (fs : list found) (news : list (option (P * F * A))) : Prop :=
  length fs = length es ∧ length news = length es ∧
  ∀ n e r o, es !! n = Some e → fs !! n = Some r → news !! n = Some o →
    ∃ sampler, s (N.of_nat n) e = Ok sampler ∧
      searched sampler (ok (faces_of (take n news)) e) m r o.
(** All operations yield a result. *)
Definition all_answer : Prop :=
  (∀ c, ∃ is, t_meet_tunnel T c = Ok is) ∧ (∀ c e, ∃ is, t_meet T c e = Ok is) ∧
  (∀ v is, ∃ d, t_distance T v is = Ok d) ∧ (∀ c, ∃ fs, t_contained T c = Ok fs) ∧
  (∀ f, ∃ a, t_area_f T f = Ok a) ∧ (∀ c x y, ∃ b, eval c x y = Ok b).
Definition left_over (fs : list found) : N :=
  foldr (λ r n, (if f_accepted r then f_tries r - 1 else f_tries r) + n)%N 0%N fs.
End Tunnel.
