(** Model for C120: what distributions are made from, and the ranges of lengths of the example applications. *)

From Coq Require Import Bool List.
From Coq Require Import Floats.
From Verif Require Import Base NumModel VecModel LinModel RoundModel PolyModel SampModel.
Import ListNotations.
Local Open Scope float_scope.

(** bits/random.h, uniform_real_distribution<double>::param_type: the constructor demands a <= b (the C++ standard leaves what
    happens otherwise open; libstdc++ ends the program if its assertions are switched on) *)
Definition make_real (a b : float) : outcome (float * float) := if a <=? b then Ok (a, b) else UB.
(** bits/random.h, normal_distribution<double>::param_type: 0 < stddev is demanded *)
Definition make_normal (mean stddev : float) : outcome (float * float) := if 0 <? stddev then Ok (mean, stddev) else UB.

(** appl/example1/example1.cc:50-51, 59-60: the ranges of the lengths in strike and dip direction, first and second sampler: four times (0.4, 0.8) *)
Definition lengths1 : list (float * float) := [(0x1.999999999999ap-2, 0x1.999999999999ap-1); (0x1.999999999999ap-2, 0x1.999999999999ap-1); (0x1.999999999999ap-2, 0x1.999999999999ap-1); (0x1.999999999999ap-2, 0x1.999999999999ap-1)].
(** appl/example2/example2.cc:47-48, 53-54: (0.4, 0.6) but for (0.5, 0.1) *)
Definition lengths2 : list (float * float) := [(0x1.999999999999ap-2, 0x1.3333333333333p-1); (0x1.999999999999ap-2, 0x1.3333333333333p-1); (0.5, 0x1.999999999999ap-4); (0x1.999999999999ap-2, 0x1.3333333333333p-1)].
(** appl/example2/example2.py:32-33, 39-40: four times (0.4, 0.6) *)
Definition py_lengths2 : list (float * float) := [(0x1.999999999999ap-2, 0x1.3333333333333p-1); (0x1.999999999999ap-2, 0x1.3333333333333p-1); (0x1.999999999999ap-2, 0x1.3333333333333p-1); (0x1.999999999999ap-2, 0x1.3333333333333p-1)].
(** appl/example3/example3.cc:93-94 *)
Definition lengths3 : list (float * float) := [(30, 60); (30, 60)].
(** a program makes its distributions before anything else *)
Fixpoint make_all (l : list (float * float)) : outcome (list (float * float)) :=
  match l with
  | [] => Ok []
  | r :: l => obind (make_real (fst r) (snd r)) (fun d => obind (make_all l) (fun ds => Ok (d :: ds)))
  end.
(** makepointsampler.hh:44-53, 64-77, 84-92: the three distributions of a point sampler are made *)
Definition make_ranges (s : psampler float) : outcome (list (float * float)) := let '(r1, r2, r3) := ps_ranges s in make_all [r1; r2; r3].
