(** The random numbers of the samplers.  The C++ standard fixes neither std::default_random_engine nor how uniform numbers
    are made from its values; this is what libstdc++ does: the engine is minstd_rand0, a linear congruential one with the
    multiplier 16807, the modulus 2147483647 and no increment. *)

From Coq Require Import ZArith List Bool.
From Coq Require Import Floats.
From Verif Require Import Base NumModel VecModel LinModel RoundModel PolyModel DistModel IntModel SampModel DomModel.
Import ListNotations.
Local Open Scope Z_scope.

(** bits/random.h: the parameters of minstd_rand0 *)
Definition multiplier : Z := 16807.
Definition modulus : Z := 2147483647.
(** boxpointsampler.hh:70, cylinderpointsampler.hh:76, disksampler.hh:131, quadrilateralsampler.hh:227,
    polygonsampler.hh:140: generator_(std::random_device{}()); bits/random.tcc, linear_congruential_engine::seed: the state
    for a seed, an unsigned number of 32 bits *)
Definition seeded (seed : Z) : Z := let x := seed mod modulus in if x =? 0 then 1 else x.
(** bits/random.h, linear_congruential_engine::operator(): the next state, which is also the value returned *)
Definition next (x : Z) : Z := (multiplier * x) mod modulus.
(** the state after n values *)
Definition state (seed : Z) (n : nat) : Z := Nat.iter n next (seeded seed).

(** bits/random.tcc, generate_canonical<double, 53>: the range of the engine is 2147483646 values from 1 on, the integer part
    of its binary logarithm 30, so that two values are used for the 53 bits; a quotient that is rounded to 1 is replaced by
    the largest double below 1 *)
Definition fraction (x1 x2 : Z) : float :=
  let r := float_of_Z 2147483646 in
  let sum := (0 + float_of_Z (x1 - 1) * 1)%float in
  let tmp := (1 * r)%float in
  let sum := (sum + float_of_Z (x2 - 1) * tmp)%float in
  let tmp := (tmp * r)%float in
  let ret := (sum / tmp)%float in
  if (1 <=? ret)%float then 0x1.fffffffffffffp-1%float else ret.
(** uniformpointsamplertraits.hh: a number from [0, 1) and the state of the engine after it *)
Definition draw (x : Z) : float * Z := let x1 := next x in let x2 := next x1 in (fraction x1 x2, x2).

(** boxpointsampler.hh:79-84: the coordinates are drawn in their order *)
Definition box_point (b : box float) `{Trig float} (x : Z) : V3 float * Z :=
  let '(u1, s1) := draw x in let '(u2, s2) := draw s1 in let '(u3, s3) := draw s2 in
  (sample_point (sampler_box b) u1 u2 u3, s3).
(** cylinderpointsampler.hh:89-115: the angle is drawn first, then the height, then the square of the radius *)
Definition cyl_point (s : psampler float) `{Trig float} (x : Z) : V3 float * Z :=
  let '(u1, s1) := draw x in let '(u2, s2) := draw s1 in let '(u3, s3) := draw s2 in
  (sample_point s u3 u1 u2, s3).
(** the first n points of a sampler with the given seed, and the state after them *)
Fixpoint points (sample : Z -> V3 float * Z) (n : nat) (x : Z) : list (V3 float) * Z :=
  match n with
  | O => ([], x)
  | S n => let '(p, y) := sample x in let '(ps, z) := points sample n y in (p :: ps, z)
  end.
