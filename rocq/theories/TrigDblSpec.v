(** Specification for C107 and C108: accurate trigonometric functions on doubles. *)

From Coq Require Import Reals Floats.
From Verif Require Import NumModel DblSpec.
Local Open Scope R_scope.

(** What is assumed of std::cos, std::sin, std::acos and M_PI: errors of about one unit in the last
    place (the C library documents smaller ones), and NaN for the arccosine outside of [-1, 1]. *)
Definition accurate (T : Trig float) : Prop :=
  (number npi /\ Rabs (val npi - PI) <= powerRZ 2 (-52)) /\
  (forall x, number x -> Rabs (val x) <= powerRZ 2 20 ->
    (number (ncos x) /\ Rabs (val (ncos x) - cos (val x)) <= powerRZ 2 (-53)) /\
    (number (nsin x) /\ Rabs (val (nsin x) - sin (val x)) <= powerRZ 2 (-53))) /\
  (forall x, number x -> Rabs (val x) <= 1 -> number (nacos x) /\ Rabs (val (nacos x) - acos (val x)) <= powerRZ 2 (-51)) /\
  (forall x, number x -> 1 < Rabs (val x) -> nacos x = nan).
