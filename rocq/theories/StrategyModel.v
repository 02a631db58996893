(** Models of the sampling strategies and of MultiGeometrySampler:
    /repo/frackit/sampling/samplingstrategy.hh,
    /repo/frackit/sampling/sequentialsamplingstrategy.hh,
    /repo/frackit/sampling/multigeometrysampler.hh. *)

From stdpp Require Import prelude list.
From Verif Require Import Base.

(** An object whose class derives from SamplingStrategy (samplingstrategy.hh:43-72):
    the protected id list of the base class and the private state of the derived class.
    Simplification: derived classes do not modify [idList_] in getNextId(). *)
Record strategy (S : Type) := mkStrategy { ids : list N; priv : S }.
Arguments mkStrategy {S} ids priv.
Arguments ids {S} s.
Arguments priv {S} s.

(** samplingstrategy.hh:67-68 *)
Definition has_id {S} (id : N) (s : strategy S) : bool := bool_decide (id ∈ ids s).

(** samplingstrategy.hh:58-62 *)
Definition add_id {S} (id : N) (s : strategy S) : strategy S :=
  if has_id id s then s else mkStrategy (ids s ++ [id]) (priv s).

(** A virtual getNextId(): the id list and the private state determine the outcome
    and the new private state. *)
Definition next_fun (S : Type) : Type := list N → S → outcome N * S.

Definition get_next {S} (nx : next_fun S) (s : strategy S) : outcome N * strategy S :=
  let '(r, p) := nx (ids s) (priv s) in (r, mkStrategy (ids s) p).

(** sequentialsamplingstrategy.hh:48-61; the private state is curIdx_ (line 64).
    Access beyond the end of the vector would be undefined behaviour. *)
Definition seq_next : next_fun nat := λ idl cur,
  if bool_decide (idl = []) then (Throw RuntimeError, cur)
  else match idl !! cur with
       | None => (UB, cur)
       | Some id => (Ok id, if bool_decide (cur = length idl - 1) then 0 else S cur)
       end.

Definition seq_init : strategy nat := mkStrategy [] 0.

(** Calls on a strategy object. *)
Inductive sop := AddId (id : N) | HasId (id : N) | Next.

Definition sstep {S} (nx : next_fun S) (s : strategy S) (o : sop) : strategy S :=
  match o with
  | AddId id => add_id id s
  | HasId _ => s
  | Next => snd (get_next nx s)
  end.

Definition seq_run (h : list sop) : strategy nat := fold_left (sstep seq_next) h seq_init.

(** [k] consecutive calls of getNextId(). *)
Fixpoint draws {S} (nx : next_fun S) (k : nat) (s : strategy S) : list (outcome N) * strategy S :=
  match k with
  | 0 => ([], s)
  | S k => let '(r, s1) := get_next nx s in
           let '(rs, s2) := draws nx k s1 in (r :: rs, s2)
  end.

(** * MultiGeometrySampler

    [Smp] stands for the geometry sampler objects; "sampling" is recorded by returning
    the sampler that is asked for a geometry.  Geometry types are numbered by their
    position in the template parameter pack; [samplers] has one entry per type
    (multigeometrysampler.hh:173-176). *)
Section Multi.
Context {Smp S : Type}.

Record multi := mkMulti {
  samplers : list (list (Smp * N));
  strat : strategy S;
}.

(** multigeometrysampler.hh:70-94: a sampler for [ntypes] geometry types with a copy of
    the given strategy. *)
Definition multi_init (ntypes : nat) (st : strategy S) : multi :=
  mkMulti (replicate ntypes []) st.

(** multigeometrysampler.hh:88-94 *)
Definition set_strategy (st : strategy S) (m : multi) : multi := mkMulti (samplers m) st.

(** multigeometrysampler.hh:101-125.  [ty] beyond the parameter pack is a compile error. *)
Definition add_sampler (ty : nat) (x : Smp) (id : N) (m : multi) : outcome unit * multi :=
  if has_id id (strat m) then (Throw RuntimeError, m)
  else (Ok tt, mkMulti (alter (λ l, l ++ [(x, id)]) ty (samplers m)) (add_id id (strat m))).

(** multigeometrysampler.hh:145-158: the lambda applied to the entries of the tuple in
    order; the first sampler with this id in the first type that has one is used. *)
Fixpoint find_in_type (id : N) (l : list (Smp * N)) : option Smp :=
  match l with
  | [] => None
  | (x, i) :: l => if bool_decide (i = id) then Some x else find_in_type id l
  end.
Fixpoint find_sampler (id : N) (ls : list (list (Smp * N))) : option (nat * Smp) :=
  match ls with
  | [] => None
  | l :: ls => match find_in_type id l with
               | Some x => Some (0, x)
               | None => match find_sampler id ls with
                         | Some (ty, x) => Some (Datatypes.S ty, x)
                         | None => None
                         end
               end
  end.

(** multigeometrysampler.hh:133-170: the id written to the out-parameter, the geometry
    type and the sampler asked. *)
Definition draw (nx : next_fun S) (m : multi) : outcome (N * nat * Smp) * multi :=
  let '(r, st) := get_next nx (strat m) in
  let m' := mkMulti (samplers m) st in
  match r with
  | Ok id => match find_sampler id (samplers m) with
             | Some (ty, x) => (Ok (id, ty, x), m')
             | None => (Throw RuntimeError, m')
             end
  | Throw e => (Throw e, m')
  | UB => (UB, m')
  | Diverge => (Diverge, m')
  end.

Inductive mop :=
| SetStrategy (st : strategy S)
| AddSampler (ty : nat) (x : Smp) (id : N)
| Draw.

Definition mstep (nx : next_fun S) (m : multi) (o : mop) : multi :=
  match o with
  | SetStrategy st => set_strategy st m
  | AddSampler ty x id => snd (add_sampler ty x id m)
  | Draw => snd (draw nx m)
  end.

Definition mrun (nx : next_fun S) (m : multi) (h : list mop) : multi := fold_left (mstep nx) h m.

End Multi.
Arguments multi Smp S : clear implicits.
Arguments mop Smp S : clear implicits.
