(** Uniformly distributed numbers in double precision.  The C++ standard fixes neither the random
    numbers nor the formula; this is the one of libstdc++ (uniform_real_distribution::operator() in
    bits/random.h: a random number u from [0, 1) is scaled and shifted). *)

From Verif Require Import Base NumModel VecModel LinModel RoundModel PolyModel DistModel IntModel SampModel.
Local Open Scope num_scope.

Section Dom.
Context {A : Type} `{Num A}.

(** uniformpointsamplertraits.hh:50, 62-63, 75-77: std::uniform_real_distribution(a, b) *)
Definition uniform (r : A * A) (u : A) : A := u * (snd r - fst r) + fst r.

(** cylinderpointsampler.hh:92-95: the radius *)
Definition sample_radius (r : A * A) (u : A) : A := nsqrt (uniform r u).

(** boxpointsampler.hh:79-84, cylinderpointsampler.hh:89-115 with the distributions of
    makepointsampler.hh:44-53, 64-77, 84-92 *)
Definition sample_point `{Trig A} (s : psampler A) (u1 u2 u3 : A) : V3 A :=
  let '(r1, r2, r3) := ps_ranges s in
  ps_point s (uniform r1 u1) (uniform r2 u2) (uniform r3 u3).
End Dom.
