(** Model of the example programs, /repo/appl/example{1,2,4}/example{1,2,4}.{cc,py} and
    /repo/appl/example3/example3.py (the loop of example3.cc is in MatrixModel.v). *)

From stdpp Require Import prelude gmap list.
From Verif Require Import Base NumModel VecModel StatusModel ConstraintsModel BuilderModel.

(** ** The loop that alternates between two sets
    (example1.cc:95-122, example2.cc:80-115, example1.py:78-101, example2.py:86-129,
    example3.py:139-175) *)
Section Alternating.
(** [ev c x e] is c.evaluate(x, e). *)
Context {C E : Type} (ev : C → E → E → outcome bool).
(** The iteration order of the counter map. *)
Context (ord : gmap N N → list (N * N)).

(** What differs between the programs: the constraints, the tests made before and after the
    constraints (an entity passes if they yield true), the ids and targets, and whether the
    set whose target is reached is skipped (example 3 only). *)
Record plan := mkPlan {
  p_self1 : C; p_self2 : C; p_other : C;
  p_before : list (E → outcome bool);
  p_after : list (E → outcome bool);
  p_id1 : N; p_id2 : N;
  p_target1 : N; p_target2 : N;
  p_skip : bool;
}.

(** The variables of the loop, and how many entities have been drawn from each sampler. *)
Record alt := mkAlt {
  a_into1 : bool;                      (* sampleIntoSet1 *)
  a_set1 : list E; a_set2 : list E;
  a_status : status;
  a_drawn1 : N; a_drawn2 : N;
}.

(** example1.cc:78-93: the start *)
Definition alt_init (p : plan) : alt :=
  mkAlt true [] []
    (fst (set_target_count (p_id2 p) (p_target2 p)
            (fst (set_target_count (p_id1 p) (p_target1 p) init)))) 0 0.

Definition alt_drawn (x : alt) : alt :=
  let '(mkAlt t s1 s2 st d1 d2) := x in
  if t then mkAlt t s1 s2 st (d1 + 1) d2 else mkAlt t s1 s2 st d1 (d2 + 1).
Definition alt_reject (x : alt) : alt :=
  let '(mkAlt t s1 s2 st d1 d2) := x in mkAlt t s1 s2 (increase_rejected st) d1 d2.
Definition alt_flip (x : alt) : alt :=
  let '(mkAlt t s1 s2 st d1 d2) := x in mkAlt (negb t) s1 s2 st d1 d2.
Definition alt_accept (id : N) (e : E) (x : alt) : alt :=
  let '(mkAlt t s1 s2 st d1 d2) := x in
  let st := print_state false (fst (increase_counter id st)) in
  if t then mkAlt t (s1 ++ [e]) s2 st d1 d2 else mkAlt t s1 (s2 ++ [e]) st d1 d2.

(** One pass through the loop.  [s1 i], [s2 i]: what the samplers return when they are
    called for the i-th time. *)
Definition alt_body (p : plan) (s1 s2 : N → outcome E) (x : alt) : outcome alt :=
  obind (if a_into1 x then s1 (a_drawn1 x) else s2 (a_drawn2 x)) (λ e,
  let own := if a_into1 x then a_set1 x else a_set2 x in
  let other := if a_into1 x then a_set2 x else a_set1 x in
  let self := if a_into1 x then p_self1 p else p_self2 p in
  let id := if a_into1 x then p_id1 p else p_id2 p in
  let x := alt_drawn x in
  obind (if p_skip p then finished_id id (a_status x) else Ok false) (λ fin,
  if fin then Ok (alt_flip (alt_reject x)) else
  obind (all_of (λ t, t e) (p_before p)) (λ ok,
  if negb ok then Ok (alt_reject x) else
  obind (all_of (λ y, ev self y e) own) (λ ok,
  if negb ok then Ok (alt_reject x) else
  obind (all_of (λ y, ev (p_other p) y e) other) (λ ok,
  if negb ok then Ok (alt_reject x) else
  obind (all_of (λ t, t e) (p_after p)) (λ ok,
  if negb ok then Ok (alt_reject x) else
  Ok (alt_flip (alt_accept id e x)))))))).

Inductive alt_result :=
| AltDone (x : alt)                    (* the loop has ended *)
| AltRunning (x : alt)                 (* it has not ended after the given number of passes *)
| AltFailed (o : outcome unit).        (* an exception or undefined behaviour *)

Fixpoint alt_loop (p : plan) (s1 s2 : N → outcome E) (passes : nat) (x : alt) : alt_result :=
  match finished_all (a_status x) (ord (counts (a_status x))) with
  | Ok true => AltDone x
  | Ok false =>
      match passes with
      | 0 => AltRunning x
      | S passes =>
          match alt_body p s1 s2 x with
          | Ok x' => alt_loop p s1 s2 passes x'
          | Throw e => AltFailed (Throw e)
          | UB => AltFailed UB
          | Diverge => AltFailed Diverge
          end
      end
  | Throw e => AltFailed (Throw e)
  | UB => AltFailed UB
  | Diverge => AltFailed Diverge
  end.
Definition alt_run (p : plan) (s1 s2 : N → outcome E) (passes : nat) : alt_result :=
  alt_loop p s1 s2 passes (alt_init p).
End Alternating.
Arguments plan C E : clear implicits.
Arguments alt E : clear implicits.
Arguments alt_result E : clear implicits.

(** ** The settings of the examples *)
Section Examples.
Context {A : Type} `{Num A} `{Trig A}.
Context {G Pt Arc Ell Edge Face : Type} (K : kernel A G Pt Arc Ell Edge Face).
Let geb (x y : A) : bool := nleb y x.
Let ev (c : constraints A) (x e : G) : outcome bool := evaluate nltb geb K c x e.

(** example1.cc:68-72, example2.cc:56-60, example1.py:46-50, example2.py:44-50 *)
Definition ex1_self : constraints A :=
  crun n0 [SetMinDistance (nlit 1 20); SetMinAngle (to_radians (nlit 30 1));
           SetMinMagnitude (nlit 1 20); SetMinIsDistance (nlit 1 20)].
(** example1.cc:75-76, example2.cc:62-63, example1.py:53-57, example2.py:61-62 *)
Definition ex1_other : constraints A := cstep ex1_self (SetMinAngle (to_radians (nlit 40 1))).

(** example1.cc and example1.py *)
Definition ex1_plan : plan (constraints A) G :=
  mkPlan ex1_self ex1_self ex1_other [] [] 1 2 15 15 false.

(** example2.cc:80-115 (targets 12) and example2.py:86-129 (targets 15): [top], [bottom] and
    [lateral] are the faces of the cylinder, [contained] is computeContainedMagnitude. *)
Definition ex2_plan (top bottom lateral : G) (contained : G → outcome A) (target : N) :
    plan (constraints A) G :=
  mkPlan ex1_self ex1_self ex1_other []
    [ev ex1_self top; ev ex1_self bottom; ev ex1_self lateral;
     λ e, omapo (λ a, negb (nltb a (nlit 1 100))) (contained e)]
    1 2 target target false.

(** example3.py:84-119 *)
Definition ex3_default : constraints A :=
  crun n0 [SetMinDistance (nlit 5 2); SetMinAngle (to_radians (nlit 25 1));
           SetMinMagnitude (nlit 5 1); SetMinIsDistance (nlit 5 2)].
Definition ex3_self2 : constraints A := cstep ex3_default (SetMinDistance (nlit 5 1)).
Definition ex3_other : constraints A :=
  cstep (cstep ex3_default (SetMinDistance (nlit 5 2))) (SetMinAngle (to_radians (nlit 40 1))).
Definition ex3_domain : constraints A := cstep ex3_default (SetMinAngle (to_radians (nlit 15 1))).
(** example3.py:130-175.  The constraints matrix (106-115) evaluates the relation of a set to
    itself first and then the one to the other set. *)
Definition ex3_plan (boundary : list G) (contained : G → outcome A) : plan (constraints A) G :=
  mkPlan ex3_default ex3_self2 ex3_other
    [λ e, omapo (λ a, negb (nltb a (nlit 350 1))) (contained e)]
    [λ e, all_of (λ f, ev ex3_domain f e) boundary]
    1 2 12 16 true.

(** std::uniform_real_distribution(a, b) requires a <= b (C++17 [rand.dist.uni.real]);
    the second sampler of example2.cc:50-54. *)
Definition uniform_distro (a b : A) : outcome (A * A) := if nleb a b then Ok (a, b) else UB.
Definition ex2_strike_length2 : outcome (A * A) := uniform_distro (nlit 1 2) (nlit 1 10).
Definition ex2_dip_length2 : outcome (A * A) := uniform_distro (nlit 2 5) (nlit 3 5).
End Examples.

(** ** Example 4 *)
Section Tunnel.
Context {A : Type} `{Num A} `{Trig A}.
Context {Pt Arc Ell Edge Face : Type}.
(** Polygons, faces, vertices and intersections; the entities of the network are faces. *)
Context {P F V IS : Type} (K : kernel A F Pt Arc Ell Edge Face).
Let geb (x y : A) : bool := nleb y x.

(** The geometric operations, and the surfaces of the tunnel and of the sphere. *)
Record tunnel := mkTunnel {
  t_meet_tunnel : P → outcome IS;     (* intersect(tunnel.lateralFace(), candidate) *)
  t_meet : P → F → outcome IS;        (* intersect(candidate, e) *)
  t_empty : IS → bool;                (* isEmptyIntersection *)
  t_vertices_p : P → list V;          (* getVertices(getShape(candidate)) *)
  t_vertices_f : F → list V;
  t_distance : V → IS → outcome A;    (* computeDistance(v, is) *)
  t_contained : P → outcome (list F); (* getFaces(intersect(getShape(candidate), domain)) *)
  t_area_f : F → outcome A;           (* computeMagnitude(face) *)
  t_area_p : P → A;                   (* candidate.area() *)
  t_tunnel : F;                       (* tunnelSurfaceShape *)
  t_sphere : F;                       (* sphereSurfaceShape *)
}.
Context (T : tunnel).

(** example4.cc:160-182; 173 sets the distance of constraints2 a second time ... *)
Record ex4_constraints := mkEx4 {
  c4_1 : constraints A; c4_2 : constraints A; c4_3 : constraints A;
  c4_other : constraints A; c4_boundary : constraints A }.
Definition ex4_default : constraints A :=
  crun n0 [SetMinDistance n1; SetMinAngle (to_radians (nlit 25 1));
           SetMinMagnitude (nlit 1 10); SetMinIsDistance (nlit 1 10)].
Definition ex4_other : constraints A :=
  cstep (cstep ex4_default (SetMinDistance (nlit 1 4))) (SetMinAngle (to_radians (nlit 30 1))).
Definition ex4_boundary : constraints A := cstep ex4_default (SetMinAngle (to_radians (nlit 10 1))).
Definition ex4_cc : ex4_constraints :=
  let constraints1 := ex4_default in
  let constraints2 := cstep constraints1 (SetMinDistance (nlit 1 2)) in
  let constraints3 := constraints1 in
  let constraints2 := cstep constraints2 (SetMinDistance (nlit 3 20)) in
  mkEx4 constraints1 constraints2 constraints3 ex4_other ex4_boundary.
(** ... example4.py:106-131 that of constraints3. *)
Definition ex4_py : ex4_constraints :=
  mkEx4 ex4_default (cstep ex4_default (SetMinDistance (nlit 1 2)))
    (cstep ex4_default (SetMinDistance (nlit 3 20))) ex4_other ex4_boundary.

(** std::any_of (stops at the first element for which the predicate holds or throws) *)
Fixpoint any_of {B} (f : B → outcome bool) (l : list B) : outcome bool :=
  match l with
  | [] => Ok false
  | x :: l => obind (f x) (λ b, if b then Ok true else any_of f l)
  end.

(** example4.cc:187-195 *)
Definition small_scale (vs : list V) (is : IS) : outcome bool :=
  any_of (λ v, omapo (λ d, nltb d (nlit 1 1000)) (t_distance T v is)) vs.

(** example4.cc:236-248 (and 308-320, 378-390): the part in the domain, if there is one face
    with at least a quarter of the area, together with its area *)
Definition part_of (c : P) : outcome (option (F * A)) :=
  obind (t_contained T c) (λ fs,
  match fs with
  | [f] => obind (t_area_f T f) (λ a,
             if nltb a (nmul (nlit 1 4) (t_area_p T c)) then Ok None else Ok (Some (f, a)))
  | _ => Ok None
  end).

(** Constraints with respect to several sets; a single surface is a set of one element. *)
Definition fits (f : F) (l : list (constraints A * list F)) : outcome bool :=
  all_of (λ p, evaluate_set_entity nltb geb K p.1 p.2 f) l.

(** What becomes of the candidate [c] that has the intersection [is] with the surface or
    entity it was sampled for: rejected (None), or accepted with the contained face and its
    area.  [others]: the vertices of the entity, checked after those of the candidate. *)
Definition judge (c : P) (is : IS) (others : list V) (l : list (constraints A * list F)) :
    outcome (option (F * A)) :=
  if t_empty T is then Ok None else
  obind (small_scale (t_vertices_p T c) is) (λ b, if b then Ok None else
  obind (small_scale others is) (λ b, if b then Ok None else
  obind (part_of c) (λ o,
  match o with
  | None => Ok None
  | Some (f, a) => obind (fits f l) (λ ok, Ok (if ok then Some (f, a) else None))
  end))).

(** Step 1, one candidate: example4.cc:225-257. *)
Definition judge1 (k : ex4_constraints) (set1 : list F) (c : P) : outcome (option (F * A)) :=
  obind (t_meet_tunnel T c) (λ is,
  judge c is [] [(c4_1 k, set1); (c4_boundary k, [t_tunnel T]); (c4_boundary k, [t_sphere T])]).
(** Step 2: 294-332. *)
Definition judge2 (k : ex4_constraints) (set1 set2 : list F) (e : F) (c : P) :
    outcome (option (F * A)) :=
  obind (t_meet T c e) (λ is,
  judge c is (t_vertices_f T e)
    [(c4_other k, set1); (c4_2 k, set2); (c4_boundary k, [t_sphere T]);
     (c4_boundary k, [t_tunnel T])]).
(** Step 3: 364-404. *)
Definition judge3 (k : ex4_constraints) (set1 set2 set3 : list F) (e : F) (c : P) :
    outcome (option (F * A)) :=
  obind (t_meet T c e) (λ is,
  judge c is (t_vertices_f T e)
    [(c4_other k, set1); (c4_other k, set2); (c4_3 k, set3); (c4_boundary k, [t_sphere T]);
     (c4_boundary k, [t_tunnel T])]).

(** The state of a step: the status, the set that is filled and the total area. *)
Record stage := mkStage { g_status : status; g_set : list F; g_area : A }.
Definition stage_reject (x : stage) : stage :=
  mkStage (increase_rejected (g_status x)) (g_set x) (g_area x).
Definition stage_accept (id : N) (fa : F * A) (x : stage) : stage :=
  mkStage (print_state false (fst (increase_counter id (g_status x))))
          (g_set x ++ [fa.1]) (nadd (g_area x) fa.2).
Definition stage_next (id : N) (o : option (F * A)) (x : stage) : stage :=
  match o with Some fa => stage_accept id fa x | None => stage_reject x end.

Inductive stage_result :=
| StageDone (x : stage)
| StageRunning (x : stage)
| StageFailed (o : outcome unit).

(** Step 1, the loop: example4.cc:214-262. *)
Variable ord : gmap N N → list (N * N).
Fixpoint stage1_loop (k : ex4_constraints) (s : N → outcome P) (passes : nat) (i : N) (x : stage) :
    stage_result :=
  match finished_all (g_status x) (ord (counts (g_status x))) with
  | Ok true => StageDone x
  | Ok false =>
      match passes with
      | 0 => StageRunning x
      | S passes =>
          match obind (s i) (judge1 k (g_set x)) with
          | Ok o => stage1_loop k s passes (i + 1) (stage_next 1 o x)
          | Throw e => StageFailed (Throw e)
          | UB => StageFailed UB
          | Diverge => StageFailed Diverge
          end
      end
  | Throw e => StageFailed (Throw e)
  | UB => StageFailed UB
  | Diverge => StageFailed Diverge
  end.
Definition stage1 (k : ex4_constraints) (target : N) (s : N → outcome P) (passes : nat) : stage_result :=
  stage1_loop k s passes 0 (mkStage (fst (set_target_count 1 target init)) [] n0).

(** Steps 2 and 3, the search for one entity: the loops of example4.cc:292-337 and 362-409.
    [i] is tryCount; the result is the state, tryCount and [accepted].  [fuel] bounds the
    recursion (see [c87_search_ends]). *)
Fixpoint search (id m : N) (jdg : list F → P → outcome (option (F * A))) (s : N → outcome P)
    (fuel : nat) (i : N) (x : stage) : outcome (stage * N * bool) :=
  if (i <=? m)%N then
    match fuel with
    | 0 => Diverge
    | S fuel =>
        obind (obind (s i) (jdg (g_set x))) (λ o,
        match o with
        | Some fa => Ok (stage_accept id fa x, i + 1, true)%N
        | None => search id m jdg s fuel (i + 1) (stage_reject x)
        end)
    end
  else Ok (x, i, false).

(** What is known after the search for one entity: the number of tries, whether a new entity
    was found, and whether the message "Skipped search for this entity" was printed
    (example4.cc:339, 411). *)
Record found := mkFound { f_tries : N; f_accepted : bool; f_skipped : bool }.

(** The loops over the entities, example4.cc:278-340 and 348-412: the [n]-th entity gets a
    sampler of its own, [s n e] (bounding box, characteristic length and point sampler may
    throw). *)
Fixpoint stage_loop (id m : N) (jdg : list F → F → P → outcome (option (F * A)))
    (s : N → F → outcome (N → outcome P)) (n : N) (es : list F) (x : stage) :
    outcome (stage * list found) :=
  match es with
  | [] => Ok (x, [])
  | e :: es =>
      obind (s n e) (λ sampler,
      obind (search id m (λ own, jdg own e) sampler (S (N.to_nat m)) 0 x) (λ r,
      let '(x, tries, acc) := r in
      obind (stage_loop id m jdg s (n + 1) es x) (λ r,
      let '(x, l) := r in
      Ok (x, mkFound tries acc (m <=? tries)%N :: l))))
  end.

(** Step 2 and step 3: example4.cc:276-277 and 346-347, the status is reset; the area goes
    on.  [m] is maxTriesForEntity. *)
Definition stage2 (k : ex4_constraints) (m : N) (s : N → F → outcome (N → outcome P))
    (x : stage) : outcome (stage * list found) :=
  let set1 := g_set x in
  stage_loop 2 m (λ own e, judge2 k set1 own e) s 0 set1
    (mkStage (fst (set_target_count 2 (N.of_nat (length set1)) (reset (g_status x)))) [] (g_area x)).
Definition stage3 (k : ex4_constraints) (m : N) (s : N → F → outcome (N → outcome P))
    (set1 : list F) (x : stage) : outcome (stage * list found) :=
  let set2 := g_set x in
  stage_loop 3 m (λ own e, judge3 k set1 set2 own e) s 0 set2
    (mkStage (fst (set_target_count 3 (N.of_nat (length set2)) (reset (g_status x)))) [] (g_area x)).

(** example4.cc:201, 269: the numbers *)
Definition ex4_target : N := 75.
Definition ex4_tries : N := 500.
End Tunnel.
Arguments tunnel A P F V IS : clear implicits.
Arguments stage A F : clear implicits.
Arguments stage_result A F : clear implicits.
Arguments ex4_constraints A : clear implicits.

(** ** Building the networks: the calls the programs make before build() *)
Section Calls.
Context {S num : Type}.
Notation call := (bcall (S := S) (num := num)).

(** example1.cc:127-130: addEntities without id *)
Definition ex1_calls (set1 set2 : list S) : list call := [AddEntities set1 0; AddEntities set2 0].
(** example2.cc:123-129 *)
Definition ex2_calls (domain : S) (set1 set2 : list S) : list call :=
  [AddSubDomain true domain 1; AddEntities set1 1; AddEntities set2 1].
(** example4.cc:432-438 *)
Definition ex4_calls (domain : S) (set1 set2 set3 : list S) : list call :=
  [AddSubDomain true domain 1; AddEntities set1 1; AddEntities set2 1; AddEntities set3 1].
(** example3.py:192-232: three layers, the network is in the second one; contained and
    confined, contained and unconfined, uncontained and confined, uncontained and
    unconfined. *)
Definition ex3_calls1 (l1 l2 l3 : S) (set1 set2 : list S) : list call :=
  [AddSubDomain true l1 1; AddSubDomain true l2 2; AddSubDomain true l3 3;
   AddEntities set1 2; AddEntities set2 2].
Definition ex3_calls2 (l1 l2 l3 : S) (set1 set2 : list S) : list call :=
  ex3_calls1 l1 l2 l3 set1 set2 ++
  [Build; Clear; AddSubDomain false l1 1; AddSubDomain false l2 2; AddSubDomain false l3 3;
   AddEntities set1 2; AddEntities set2 2].
Definition ex3_calls3 (l2 : S) (set1 set2 : list S) : list call :=
  [AddSubDomain true l2 2; AddEntities set1 2; AddEntities set2 2].
Definition ex3_calls4 (l2 : S) (set1 set2 : list S) : list call :=
  ex3_calls3 l2 set1 set2 ++ [Build; Clear; AddEntities set1 2; AddEntities set2 2].
End Calls.
