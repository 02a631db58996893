(** Model of class SamplingStatus, /repo/frackit/sampling/status.hh:45-197. *)

From stdpp Require Import prelude gmap.
From Verif Require Import Base.
Local Open Scope N_scope.

(** std::size_t arithmetic on the LP64 platforms frackit is built for. *)
Definition wrap64 (n : N) : N := n mod 2^64.

(** status.hh:192-196, the data members.  The unordered maps are finite maps;
    their iteration order is a parameter of the functions that iterate. *)
Record status := mkStatus {
  header_printed : bool;
  rejected : N;
  counts : gmap N N;
  targets : gmap N N;
}.

Definition init : status := mkStatus false 0 ∅ ∅.

(** operator[] of std::unordered_map<size_t,size_t>: inserts 0 if absent. *)
Definition at_or_insert (k : N) (m : gmap N N) : gmap N N :=
  match m !! k with Some _ => m | None => <[k := 0]> m end.
Definition subscript (k : N) (m : gmap N N) : N :=
  match m !! k with Some v => v | None => 0 end.

(** status.hh:53-62 (the warning on std::cout is the Boolean result). *)
Definition set_target_count (id t : N) (s : status) : status * bool :=
  match counts s !! id with
  | None => (mkStatus (header_printed s) (rejected s)
               (<[id := 0]> (counts s)) (<[id := t]> (targets s)), false)
  | Some c => (mkStatus (header_printed s) (rejected s)
               (counts s) (<[id := t]> (targets s)), bool_decide (t < c))
  end.

(** status.hh:67-73 *)
Definition reset (s : status) : status := mkStatus false 0 ∅ ∅.

(** status.hh:78-81; note: rejectedCount_ is left alone *)
Definition reset_counters (s : status) : status :=
  mkStatus (header_printed s) (rejected s) ((λ _, 0) <$> counts s) (targets s).

(** status.hh:86-89 *)
Definition reset_counter (id : N) (s : status) : status :=
  mkStatus (header_printed s) (rejected s) (<[id := 0]> (counts s)) (targets s).

(** status.hh:95-101, for one iteration order of count_. *)
Fixpoint finished_loop (tgt : gmap N N) (order : list (N * N)) : outcome bool :=
  match order with
  | [] => Ok true
  | (k, c) :: rest =>
      match tgt !! k with
      | None => Throw OutOfRange              (* targetCount_.at *)
      | Some t => if bool_decide (c < t) then Ok false else finished_loop tgt rest
      end
  end.

(** One possible answer of finished(): the loop over count_ in some order. *)
Definition iteration_order (m : gmap N N) (order : list (N * N)) : Prop :=
  order ≡ₚ map_to_list m.
Definition finished_all (s : status) (order : list (N * N)) : outcome bool :=
  finished_loop (targets s) order.

(** status.hh:107-113 *)
Definition finished_id (id : N) (s : status) : outcome bool :=
  match counts s !! id with
  | None => Throw RuntimeError
  | Some c => match targets s !! id with
              | None => Throw OutOfRange
              | Some t => Ok (bool_decide (t ≤ c))
              end
  end.

(** status.hh:118-123 (the Boolean is the "surpassed" warning) *)
Definition increase_counter (id : N) (s : status) : status * bool :=
  let c := wrap64 (subscript id (counts s) + 1) in
  let tgt := at_or_insert id (targets s) in
  (mkStatus (header_printed s) (rejected s) (<[id := c]> (counts s)) tgt,
   bool_decide (subscript id tgt < c)).

(** status.hh:128-131 *)
Definition increase_rejected (s : status) : status :=
  mkStatus (header_printed s) (wrap64 (rejected s + 1)) (counts s) (targets s).

(** status.hh:136-137; operator[] inserts *)
Definition get_count (id : N) (s : status) : status * N :=
  (mkStatus (header_printed s) (rejected s)
     (at_or_insert id (counts s)) (targets s), subscript id (counts s)).

(** status.hh:142-149.  The accumulator of std::accumulate has type int (its
    initial value is the literal 0), each sum is formed in size_t and converted
    back to int; the final int is converted to size_t. *)
Definition int_of_size (n : N) : Z :=
  let m := Z.of_N (n mod 2^32) in if bool_decide (m < 2^31)%Z then m else (m - 2^32)%Z.
Definition size_of_int (z : Z) : N := Z.to_N (z mod 2^64)%Z.
Definition get_count_all (order : list (N * N)) : N :=
  size_of_int (fold_left (λ acc kc, int_of_size (wrap64 (size_of_int acc + kc.2)))
                         order 0%Z).

(** The state part of print, status.hh:154-162 (see StatusPrintModel.v for the
    text that is written). *)
Definition print_state (force : bool) (s : status) : status :=
  mkStatus true (rejected s) (counts s) (targets s).

(** All public member functions as operations. *)
Inductive op :=
| SetTarget (id t : N)
| Reset
| ResetCounters
| ResetCounter (id : N)
| Finished
| FinishedId (id : N)
| Increase (id : N)
| IncreaseRejected
| GetCount (id : N)
| GetCountAll
| Print (force : bool).

Definition step (s : status) (o : op) : status :=
  match o with
  | SetTarget id t => fst (set_target_count id t s)
  | Reset => reset s
  | ResetCounters => reset_counters s
  | ResetCounter id => reset_counter id s
  | Finished | FinishedId _ | GetCountAll => s
  | Increase id => fst (increase_counter id s)
  | IncreaseRejected => increase_rejected s
  | GetCount id => fst (get_count id s)
  | Print f => print_state f s
  end.

Definition run (h : list op) : status := fold_left step h init.
