(** Outcomes of C++ calls, shared by all models.

    [Ok a]      : the call returns [a];
    [Throw e]   : the call leaves with an exception (the state component that
                  accompanies it in the stateful models tells what was changed
                  before the throw);
    [UB]        : the call runs into undefined behaviour of the C++ standard;
    [Diverge]   : the call does not return (only produced by models of loops
                  whose exit condition can no longer change). *)

Inductive exn : Set :=
| RuntimeError      (* std::runtime_error, whatever the message *)
| OutOfRange        (* std::out_of_range, thrown by .at() *)
| LengthError       (* std::length_error, thrown by std::string(n, c) *)
| TypeError         (* Python: no matching overload *)
| NameError         (* Python: a local variable is read before it is assigned *)
| ValueError.       (* Python: list.remove of a value that is not in the list *)

Inductive outcome (A : Type) : Type :=
| Ok (a : A)
| Throw (e : exn)
| UB
| Diverge.

Arguments Ok {A} a.
Arguments Throw {A} e.
Arguments UB {A}.
Arguments Diverge {A}.

Definition obind {A B} (x : outcome A) (f : A -> outcome B) : outcome B :=
  match x with
  | Ok a => f a
  | Throw e => Throw e
  | UB => UB
  | Diverge => Diverge
  end.

Definition omapo {A B} (f : A -> B) (x : outcome A) : outcome B :=
  obind x (fun a => Ok (f a)).
