(** Specification for C100: points of a line or a plane as points of space. *)

From Coq Require Import ZArith List Bool.
From Verif Require Import Base NumModel VecModel LinModel.
Import ListNotations.

(** one, two or three coordinates *)
Definition low {A} (v : list A) : Prop := length v = 1 \/ length v = 2 \/ length v = 3.
Definition same_space {A} (v w : list A) : Prop := length v = length w.

(** the missing coordinates are zero *)
Definition up {A} `{Num A} (v : list A) : V3 A := mkV3 (nth 0 v n0) (nth 1 v n0) (nth 2 v n0).
Definition up_line {A} `{Num A} (l : list A * list A) : line A := mkLine (up (fst l)) (up (snd l)).
Definition up_seg {A} `{Num A} (s : list A * list A) : segment A := mkSeg (up (fst s)) (up (snd s)).
