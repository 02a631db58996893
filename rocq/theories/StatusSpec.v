(** What a user expects of SamplingStatus, in terms of the history of calls only
    (most recent call first). *)

From stdpp Require Import prelude.
From Verif Require Import StatusModel.
Local Open Scope N_scope.

(** Number of successes registered for [id] since its counter was last reset. *)
Fixpoint successes (id : N) (h : list op) : N :=
  match h with
  | [] => 0
  | Increase i :: r => if bool_decide (i = id) then successes id r + 1 else successes id r
  | (Reset | ResetCounters) :: _ => 0
  | ResetCounter i :: r => if bool_decide (i = id) then 0 else successes id r
  | _ :: r => successes id r
  end.

(** Number of rejections registered since the last reset. *)
Fixpoint rejections (h : list op) : N :=
  match h with
  | [] => 0
  | IncreaseRejected :: r => rejections r + 1
  | Reset :: _ => 0
  | _ :: r => rejections r
  end.

(** The same with resetCounters() also clearing the rejections, as C04 states it. *)
Fixpoint rejections_since_counters_reset (h : list op) : N :=
  match h with
  | [] => 0
  | IncreaseRejected :: r => rejections_since_counters_reset r + 1
  | (Reset | ResetCounters) :: _ => 0
  | _ :: r => rejections_since_counters_reset r
  end.

(** The target the user set last for [id] since the last reset(). *)
Fixpoint user_target (id : N) (h : list op) : option N :=
  match h with
  | [] => None
  | SetTarget i t :: r => if bool_decide (i = id) then Some t else user_target id r
  | Reset :: _ => None
  | _ :: r => user_target id r
  end.

(** Histories in which every id is given a target before it is used otherwise. *)
Fixpoint targets_first (h : list op) : Prop :=
  match h with
  | [] => True
  | (Increase i | ResetCounter i | GetCount i) :: r =>
      is_Some (user_target i r) ∧ targets_first r
  | _ :: r => targets_first r
  end.

(** [mentions id o]: the call [o] resets or changes what is known about [id]. *)
Definition mentions (id : N) (o : op) : bool :=
  match o with
  | SetTarget i _ | ResetCounter i | Increase i => bool_decide (i = id)
  | Reset | ResetCounters => true
  | _ => false
  end.

(** Sum of getCount(id) over a list of ids. *)
Definition sum_get_count (ids : list N) (s : status) : N :=
  foldr (λ id acc, snd (get_count id s) + acc) 0 ids.

(** Sum of the values of a list of pairs, without wrap-around. *)
Definition sum_counts (l : list (N * N)) : N := foldr (λ kc acc, kc.2 + acc) 0 l.
