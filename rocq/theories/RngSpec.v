(** Specification for C117: the values of the random number engine, and the fraction that two of them stand for. *)

From Coq Require Import ZArith Reals.
Local Open Scope Z_scope.

Definition engine_value (x : Z) : Prop := 1 <= x <= 2147483646.
(** two values as the digits of a fraction below 1, the second one first *)
Definition digits (x1 x2 : Z) : R := ((IZR (x2 - 1) + IZR (x1 - 1) / 2147483646) / 2147483646)%R.
(** one of 1569 parallel planes through the unit cube passes the point within 1/500000 *)
Definition on_planes (x y z : R) : Prop := exists k, -995 <= k <= 573 /\ (Rabs (-218 * x + 573 * y - 777 * z - IZR k) <= / 500000)%R.
