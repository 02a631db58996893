(** The numbers that distributions of the standard library make from the values of the random number engine, as implemented in
    libstdc++ 13: the ones that the examples hand to the samplers. *)

From Coq Require Import ZArith List Bool.
From Coq Require Import Floats.
From Verif Require Import Base NumModel VecModel RoundModel PolyModel DistModel IntModel SampModel DomModel RngModel.
Import ListNotations.
Local Open Scope Z_scope.

(** bits/uniform_int_dist.h, uniform_int_distribution<int>::operator(): the engine has the values 1 to 2147483646.  For fewer
    numbers than that a value is scaled down, and values at the end of the range are drawn again; for as many numbers the value
    is used as it is.  Ranges with more numbers, which take several values of the engine, are not modelled (b - a is at most
    2147483645 in what follows).  fuel is the number of values that may be drawn. *)
Fixpoint draw_int (a b : Z) (fuel : nat) (x : Z) : outcome (Z * Z) :=
  match fuel with
  | O => Diverge
  | S fuel =>
      let y := next x in
      let ret := y - 1 in
      let range := b - a in
      if range <? 2147483645 then
        let scaling := 2147483645 / (range + 1) in
        let past := (range + 1) * scaling in
        if past <=? ret then draw_int a b fuel y else Ok (ret / scaling + a, y)
      else Ok (ret + a, y)
  end.
(** n numbers in a row *)
Fixpoint draw_ints (a b : Z) (fuel : nat) (n : nat) (x : Z) : outcome (list Z * Z) :=
  match n with
  | O => Ok ([], x)
  | S n => obind (draw_int a b fuel x) (fun r => obind (draw_ints a b fuel n (snd r)) (fun s => Ok (fst r :: fst s, snd s)))
  end.

(** bits/random.h, uniform_real_distribution<double>::operator() *)
Definition draw_real (a b : float) (x : Z) : float * Z := let '(u, y) := draw x in (uniform (a, b) u, y).

(** bits/random.tcc, normal_distribution<double>::operator(): a point of the unit disk other than its centre is drawn from the
    square around it *)
Definition square_point (x : Z) : float * float * Z :=
  let '(u1, s1) := draw x in let '(u2, s2) := draw s1 in ((2 * u1 - 1)%float, (2 * u2 - 1)%float, s2).
Definition radius2 (p : float * float) : float := (fst p * fst p + snd p * snd p)%float.
Definition refused (r2 : float) : bool := (1 <? r2)%float || (r2 =? 0)%float.
Fixpoint disk_point (fuel : nat) (x : Z) : outcome (float * float * Z) :=
  match fuel with
  | O => Diverge
  | S fuel => let '(px, py, y) := square_point x in if refused (radius2 (px, py)) then disk_point fuel y else Ok (px, py, y)
  end.
(** the same function: one coordinate is used at once, the other one is kept for the next call; log is std::log *)
Definition draw_normal (log : float -> float) (mean stddev : float) (fuel : nat) (st : Z * option float) : outcome (float * (Z * option float)) :=
  match snd st with
  | Some saved => Ok ((saved * stddev + mean)%float, (fst st, None))
  | None => obind (disk_point fuel (fst st)) (fun r =>
      let '(px, py, y) := r in
      let r2 := radius2 (px, py) in
      let mult := PrimFloat.sqrt ((-2) * log r2 / r2)%float in
      Ok ((py * mult * stddev + mean)%float, (y, Some (px * mult)%float)))
  end.
(** n numbers in a row *)
Fixpoint draw_normals (log : float -> float) (mean stddev : float) (fuel : nat) (n : nat) (st : Z * option float) : outcome (list float) :=
  match n with
  | O => Ok []
  | S n => obind (draw_normal log mean stddev fuel st) (fun r => obind (draw_normals log mean stddev fuel n (snd r)) (fun l => Ok (fst r :: l)))
  end.
