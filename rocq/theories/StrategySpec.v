(** Specification for C06-C09: what was registered, read off the calls. *)

From stdpp Require Import prelude list.
From Verif Require Import Base StrategyModel.

(** The ids passed to addId, first occurrences, in order. *)
Definition registered (h : list sop) : list N :=
  fold_left (λ acc o, match o with
                      | AddId id => if bool_decide (id ∈ acc) then acc else acc ++ [id]
                      | _ => acc
                      end) h [].

(** The number of times [id] was returned in a list of results. *)
Fixpoint times (id : N) (rs : list (outcome N)) : nat :=
  match rs with
  | [] => 0
  | Ok i :: rs => (if bool_decide (i = id) then 1 else 0) + times id rs
  | _ :: rs => times id rs
  end.

(** The geometry sampler a user expects behind [id]: the first one registered under it. *)
Fixpoint sampler_of {Smp S} (id : N) (h : list (mop Smp S)) : option (nat * Smp) :=
  match h with
  | [] => None
  | AddSampler ty x i :: r => if bool_decide (i = id) then Some (ty, x) else sampler_of id r
  | _ :: r => sampler_of id r
  end.

(** Histories that do not replace the strategy and use existing geometry types. *)
Definition plain {Smp S} (ntypes : nat) (o : mop Smp S) : Prop :=
  match o with
  | SetStrategy _ => False
  | AddSampler ty _ _ => ty < ntypes
  | Draw => True
  end.
