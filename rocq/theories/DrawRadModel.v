(** Model for C120: the normal distributions of the example applications. *)

From Coq Require Import Bool List.
From Coq Require Import Floats.
From Verif Require Import Base NumModel VecModel DrawMakeModel.
Import ListNotations.

(** means and standard deviations of the angles in degrees.  appl/example1/example1.cc:48-49, 57-58; appl/example2/example2.cc:45-46,
    51-52; appl/example3/example3.cc:85-87, 91-92; appl/example4/example4.cc:134-135, 139-140, 144-145 *)
Definition degrees1 : list (float * float) := [(45, 5); (90, 5); (0, 5); (0, 5)]%float.
Definition degrees2 : list (float * float) := [(45, 5); (90, 5); (0, 5); (0, 5)]%float.
Definition degrees3 : list (float * float) := [(0, 7.5); (0, 7.5); (0, 7.5); (45, 5); (90, 5)]%float.
Definition degrees4 : list (float * float) := [(15, 10); (90, 10); (0, 10); (0, 10); (-75, 10); (90, 10)]%float.
(** appl/example3/example3.cc:83-84: the lengths of the axes of the disks *)
Definition axes3 : list (float * float) := [(30, 6.5); (24, 4.5)]%float.
(** NormalDistro(toRadians(m), toRadians(s)) *)
Definition make_angle `{Trig float} (r : float * float) : outcome (float * float) := make_normal (to_radians (fst r)) (to_radians (snd r)).
