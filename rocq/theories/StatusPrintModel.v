(** Model of SamplingStatus::print, /repo/frackit/sampling/status.hh:154-190.

    The numbers written are doubles.  They are modelled as reals together with a
    rounding function [rnd] that is applied after every conversion and operation;
    [ieee_like rnd] collects the facts about IEEE-754 round-to-nearest that are used
    (StatusPrintProofs.v shows that Flocq's binary64 rounding has them). *)

From Coq Require Import Reals ZArith NArith.
From Verif Require Import Base StatusModel.
Import List.
Local Open Scope R_scope.

Definition Nreal (n : N) : R := IZR (Z.of_N n).

Record ieee_like (rnd : R -> R) : Prop := {
  rnd_mono : forall x y, x <= y -> rnd x <= rnd y;
  rnd_int : forall z : Z, (Z.abs z <= 2^53)%Z -> rnd (IZR z) = IZR z;
  rnd_err : forall x, 1/2 <= x -> Rabs (rnd x - x) <= x / 2^52;
}.

(** std::to_string(n).size() *)
Fixpoint ndigits_fuel (fuel : nat) (n : N) : N :=
  match fuel with
  | O => 1%N
  | S f => if (n <? 10)%N then 1%N else (1 + ndigits_fuel f (n / 10))%N
  end.
Definition ndigits (n : N) : N := ndigits_fuel (N.to_nat (N.size n)) n.

(** int(x) for x >= 0 *)
Definition trunc (x : R) : N := Z.to_N (Int_part x).

(** Characters written for x >= 0 by [std::fixed << std::setprecision(2)]: the
    digits of x rounded to hundredths, the point, two decimals.  (Ties play no role
    for the number of characters: d.995 is never a double.) *)
Definition fixed2_chars (x : R) : N :=
  (ndigits (Z.to_N (Int_part (100 * x + 1/2) / 100)) + 3)%N.

(** max(zero, w - n) in std::size_t: wraps around if n > w. *)
Definition padding (w n : N) : N :=
  if (n <=? w)%N then (w - n)%N else (2^64 + w - n)%N.

(** std::string(n, ' ') throws std::length_error beyond max_size() = 2^63-1
    (libstdc++: 2^62-1 or 2^63-1; the paddings of interest exceed both or are tiny). *)
Definition spaces (n : N) : outcome N :=
  if (n <? 2^63)%N then Ok n else Throw LengthError.

(** The widths of the four columns of a row (status.hh:185-188). *)
Record row := mkRow { w_count : N; w_rejected : N; w_ratio : N; w_progress : N }.

(** status.hh:163-188 for the sums cur, tgt and the rejected counter rej, all
    already reduced modulo 2^64.  int(x) is undefined for NaN, infinities and values
    beyond INT_MAX. *)
Definition print_row (rnd : R -> R) (cur rej tgt : N) : outcome row :=
  let all := ((cur + rej) mod 2^64)%N in
  if (all =? 0)%N then UB                           (* ratio: 0/0 or x/0 *)
  else if (tgt =? 0)%N then UB                      (* progress: 0/0 or x/0 *)
  else
    let ratio := rnd (100 * rnd (rnd (Nreal cur) / rnd (Nreal all))) in
    let progress := rnd (rnd (100 * rnd (Nreal cur)) / rnd (Nreal tgt)) in
    if (2^31 <=? trunc ratio)%N then UB
    else if (2^31 <=? trunc progress)%N then UB
    else
      let ratioNumChars := (ndigits (trunc ratio) + 3)%N in
      let progressNumChars := (ndigits (trunc progress) + 3)%N in
      obind (spaces (padding 13 (ndigits cur))) (fun p1 =>
      obind (spaces (padding 13 (ndigits rej))) (fun p2 =>
      obind (spaces (padding 16 ratioNumChars)) (fun p3 =>
      obind (spaces (padding 8 progressNumChars)) (fun p4 =>
        Ok (mkRow (p1 + ndigits cur) (p2 + ndigits rej)
                  (p3 + fixed2_chars ratio) (p4 + fixed2_chars progress)))))).

(** status.hh:164-167: the sums over count_ and targetCount_, in size_t, for given
    iteration orders [oc] and [ot] of the two maps. *)
Definition sum_wrap (order : list (N * N)) : N :=
  fold_left (fun acc kc => wrap64 (acc + snd kc)) order 0%N.

(** status.hh:154-190: the outcome of the call and the row that is written. *)
Definition print (rnd : R -> R) (s : status) (oc ot : list (N * N)) : outcome row :=
  print_row rnd (sum_wrap oc) (rejected s) (sum_wrap ot).
