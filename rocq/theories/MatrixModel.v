(** Model of EntityNetworkConstraintsMatrix,
    /repo/frackit/entitynetwork/constraintsmatrix.hh, and of the network generation loop
    of the example applications, /repo/appl/example3/example3.cc:168-199. *)

From stdpp Require Import prelude gmap list.
From Verif Require Import Base StatusModel EntitySetModel ConstraintsModel.

Section Matrix.
(** Constraints and entities; [ev c x e] is c.evaluate(x, e). *)
Context {C E : Type} (ev : C → E → E → outcome bool).

(** constraintsmatrix.hh:148-154 *)
Record matrix := mkM {
  m_constraints : list C;
  m_index : gmap N (list (N * nat));
  m_relations : gmap N (list N);
}.
Definition m_init : matrix := mkM [] ∅ ∅.

(** constraintsmatrix.hh:124-127 *)
Definition add_constraint (c : C) (m : matrix) : matrix :=
  mkM (m_constraints m ++ [c]) (m_index m) (m_relations m).

(** constraintsmatrix.hh:132-147 *)
Definition update_index_maps (p : N * N) (m : matrix) : outcome unit * matrix :=
  let '(a, b) := p in
  if bool_decide (b ∈ default [] (m_relations m !! a)) then (Throw RuntimeError, m)
  else
    let cIdx := length (m_constraints m) - 1 in
    (Ok tt, mkM (m_constraints m)
              (<[a := default [] (m_index m !! a) ++ [(b, cIdx)]]> (m_index m))
              (<[a := default [] (m_relations m !! a) ++ [b]]> (m_relations m))).

Fixpoint update_all (ps : list (N * N)) (m : matrix) : outcome unit * matrix :=
  match ps with
  | [] => (Ok tt, m)
  | p :: ps => match update_index_maps p m with
               | (Ok _, m') => update_all ps m'
               | r => r
               end
  end.

(** constraintsmatrix.hh:65-69 (one pair) and 76-82 (a list of pairs); the first is the
    second for a list of length one. *)
Definition add_constraints (c : C) (ps : list (N * N)) (m : matrix) : outcome unit * matrix :=
  update_all ps (add_constraint c m).

(** constraintsmatrix.hh:90-118.  [constraints_[i]] beyond the end would be UB. *)
Fixpoint eval_relations (m : matrix) (sets : N → option (list E)) (e : E)
    (l : list (N * nat)) : outcome bool :=
  match l with
  | [] => Ok true
  | (other, i) :: l =>
      match m_constraints m !! i with
      | None => UB
      | Some c =>
          match sets other with
          | None => eval_relations m sets e l
          | Some es => obind (all_of (λ x, ev c x e) es) (λ b,
                         if b then eval_relations m sets e l else Ok false)
          end
      end
  end.
Definition m_evaluate (m : matrix) (sets : N → option (list E)) (e : E) (id : N) : outcome bool :=
  match m_index m !! id with
  | None => Throw RuntimeError
  | Some l => eval_relations m sets e l
  end.

(** A history of addConstraints calls. *)
Definition mcall : Type := C * list (N * N).
Definition mrun (h : list mcall) : matrix :=
  fold_left (λ m o, snd (add_constraints o.1 o.2 m)) h m_init.

(** The sets as seen by the matrix: applyOnSet of MultiGeometryEntitySet. *)
Definition sets_of (s : eset E) : N → option (list E) := λ id, snd <$> apply_on_set id s.

(** The generation loop, example3.cc:168-199.  A draw is what the sampler returns: the id
    of the set, the geometry type and the geometry.  [small] is the test on the contained
    area, [domain] the constraints w.r.t. the domain boundary; [tyname] are the geometry
    names; [ord] is the iteration order of the counter map.  Printing only sets the flag. *)
Record draw := mkDraw { d_id : N; d_ty : nat; d_geo : E }.
Variable tyname : nat → N.
Variable ord : gmap N N → list (N * N).
Variable small : E → outcome bool.
Variable domain : E → outcome bool.

Definition reject (st : status) (s : eset E) : outcome (status * eset E) :=
  Ok (increase_rejected st, s).
Definition loop_body (m : matrix) (d : draw) (st : status) (s : eset E) : outcome (status * eset E) :=
  obind (finished_id (d_id d) st) (λ fin,
  if fin then reject st s else
  obind (small (d_geo d)) (λ sm,
  if sm then reject st s else
  obind (m_evaluate m (sets_of s) (d_geo d) (d_id d)) (λ ok,
  if negb ok then reject st s else
  obind (domain (d_geo d)) (λ okd,
  if negb okd then reject st s else
  match add_entity tyname (d_ty d) (d_geo d) (d_id d) s with
  | (Ok _, s') => Ok (print_state false (fst (increase_counter (d_id d) st)), s')
  | (Throw x, _) => Throw x
  | (UB, _) => UB
  | (Diverge, _) => Diverge
  end)))).

Inductive loop_result :=
| Done (st : status) (s : eset E)       (* the loop has ended *)
| Running (st : status) (s : eset E)    (* all given draws are used up, the loop goes on *)
| Failed (x : outcome unit).            (* an exception or undefined behaviour *)

Fixpoint loop (m : matrix) (draws : list draw) (st : status) (s : eset E) : loop_result :=
  match finished_all st (ord (counts st)) with
  | Ok true => Done st s
  | Ok false =>
      match draws with
      | [] => Running st s
      | d :: draws =>
          match loop_body m d st s with
          | Ok (st', s') => loop m draws st' s'
          | Throw x => Failed (Throw x)
          | UB => Failed UB
          | Diverge => Failed Diverge
          end
      end
  | Throw x => Failed (Throw x)
  | UB => Failed UB
  | Diverge => Failed Diverge
  end.
End Matrix.
Arguments matrix C : clear implicits.
Arguments mcall C : clear implicits.
Arguments draw E : clear implicits.
Arguments loop_result E : clear implicits.
