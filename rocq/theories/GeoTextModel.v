(** Model of the text that GmshWriter::write puts into the .geo file, /repo/frackit/io/gmshwriter.hh:65-164.

    A std::size_t is written in decimal.  A double is written the way std::ostream does by default: with six
    significant digits, the conversion %g of the C standard (N1570 7.21.6.1), correctly rounded as in glibc. *)

From Coq Require Import ZArith NArith List String Ascii DecimalString DecimalN Floats.
From Verif Require Import Base.
Import ListNotations.
Local Open Scope string_scope.

(** operator<< for std::size_t *)
Definition dec (n : N) : string := NilZero.string_of_uint (N.to_uint n).

(** * operator<< for double, with the default precision 6 *)
(** the number m 2^e as a fraction *)
Definition numer (m : positive) (e : Z) : Z := Z.pos m * 2 ^ Z.max e 0.
Definition denom (e : Z) : Z := 2 ^ Z.max (- e) 0.
(** m 2^e < 10^k *)
Definition below_ten (m : positive) (e k : Z) : bool :=
  (numer m e * 10 ^ Z.max (- k) 0 <? denom e * 10 ^ Z.max k 0)%Z.
(** the decimal exponent: 10^X <= m 2^e < 10^(X+1), searched upwards from -b *)
Fixpoint search_exp (fuel : nat) (m : positive) (e X : Z) : Z :=
  match fuel with
  | O => X
  | S fuel => if below_ten m e (X + 1) then X else search_exp fuel m e (X + 1)
  end.
Definition exp_bound (m : positive) (e : Z) : Z := (Z.abs e + Z.log2 (Z.pos m) + 2)%Z.
Definition dec_exp (m : positive) (e : Z) : Z :=
  search_exp (Z.to_nat (2 * exp_bound m e)) m e (- exp_bound m e).
(** n / d, rounded to the nearest integer, ties to even *)
Definition round_div (n d : Z) : Z :=
  let q := (n / d)%Z in
  let r := (n mod d)%Z in
  if (2 * r <? d)%Z then q else if (d <? 2 * r)%Z then (q + 1)%Z else if Z.even q then q else (q + 1)%Z.
(** m 2^e is about d 10^(X-5), with six digits d *)
Definition six_digits (m : positive) (e : Z) : Z * Z :=
  let X := dec_exp m e in
  let k := (5 - X)%Z in
  let d := round_div (numer m e * 10 ^ Z.max k 0) (denom e * 10 ^ Z.max (- k) 0) in
  if (d =? 1000000)%Z then (100000, X + 1)%Z else (d, X).
(** the digits of a number, most significant first *)
Fixpoint digits (n : nat) (d : Z) : list Z :=
  match n with O => [] | S n => digits n (d / 10) ++ [d mod 10]%Z end%list.
Definition digit_char (z : Z) : ascii := ascii_of_N (48 + Z.to_N z).
Fixpoint digits_text (l : list Z) : string :=
  match l with [] => "" | z :: l => String (digit_char z) (digits_text l) end.
(** %g removes the zeros at the end, and the point if nothing follows it *)
Fixpoint strip (l : list Z) : list Z :=
  match l with
  | [] => []
  | z :: l => match strip l with [] => if (z =? 0)%Z then [] else [z] | l' => z :: l' end
  end.
Definition with_point (whole frac : list Z) : string :=
  match strip frac with [] => digits_text whole | f => digits_text whole ++ "." ++ digits_text f end.
(** the exponent has two digits at least *)
Definition exp_text (X : Z) : string :=
  (if (X <? 0)%Z then "e-" else "e+") ++ (if (Z.abs X <? 10)%Z then "0" else "") ++ dec (Z.to_N (Z.abs X)).
Definition magnitude_text (m : positive) (e : Z) : string :=
  let '(d, X) := six_digits m e in
  let ds := digits 6 d in
  if ((X <? -4) || (5 <? X))%Z%bool then with_point (firstn 1 ds) (skipn 1 ds) ++ exp_text X
  else if (X <? 0)%Z then with_point [0%Z] (repeat 0%Z (Z.to_nat (- X - 1)) ++ ds)
  else with_point (firstn (Z.to_nat (X + 1)) ds) (skipn (Z.to_nat (X + 1)) ds).
Definition double_text (x : float) : string :=
  match Prim2SF x with
  | S754_zero s => if s then "-0" else "0"
  | S754_infinity s => if s then "-inf" else "inf"
  | S754_nan => "nan"
  | S754_finite s m e => (if s then "-" else "") ++ magnitude_text m e
  end.

(** * The file *)
Definition newline : string := String "010" "".
Definition quote : string := String """" "".
Fixpoint cat (l : list string) : string := match l with [] => "" | s :: l => s ++ cat l end.

(** gmshwriter.hh:91-93, 99-101, 117-119, 125-127, 144-146: it->second[0] of an empty vector is undefined *)
Definition members_text (l : list N) : outcome string :=
  match l with
  | [] => UB
  | i :: l => Ok (dec i ++ cat (map (fun j => ", " ++ dec j) l))
  end.

(** the kinds of the three sections, for the dimension ed of the entities; nothing is written for others than 2 and 1 *)
Definition kind (ed : Z) (two one open : string) : string :=
  if (ed =? 2)%Z then two ++ open else if (ed =? 1)%Z then one ++ open else "".

(** gmshwriter.hh:85-94, 111-120, 138-147: a physical group *)
Definition group_text (ed : Z) (two one : string) (tag : N) (ms : list N) : outcome string :=
  omapo (fun m => cat ["Physical "; kind ed two one "("; dec tag; ") = {"; m; "};"; newline]) (members_text ms).
(** gmshwriter.hh:97-102, 123-128: the mesh size at the points of a group *)
Definition length_text (ed : Z) (two one size : string) (ms : list N) : outcome string :=
  omapo (fun m => cat ["Characteristic Length{ PointsOf{"; kind ed two one "{"; m; "};} } = "; size; ";"; newline]) (members_text ms).

Fixpoint groups_text (ed : Z) (two one : string) (size : option string) (l : list (N * list N)) : outcome string :=
  match l with
  | [] => Ok ""
  | (tag, ms) :: l =>
      obind (group_text ed two one tag ms) (fun g =>
      obind (match size with Some s => length_text ed two one s ms | None => Ok "" end) (fun c =>
      omapo (fun rest => g ++ c ++ rest) (groups_text ed two one size l)))
  end.
(** gmshwriter.hh:80-82, 107-109, 133-135: the heading is only written for maps that are not empty *)
Definition section_text (heading : string) (l : list (N * list N)) (body : outcome string) : outcome string :=
  match l with [] => Ok "" | _ => omapo (fun b => cat [newline; heading; newline; b]) body end.

(** gmshwriter.hh:65-152: write, for the three maps in the order of iteration *)
Definition geo_text (ed : Z) (file atEntities atBoundary : string) (domains entities inters : list (N * list N)) : outcome string :=
  let header := cat ["Merge "; quote; file ++ ".brep"; quote; ";"; newline; newline;
                     "// mesh size definitions"; newline;
                     "sizeAtEntities = "; atEntities; ";"; newline;
                     "sizeAtBoundary = "; atBoundary; ";"; newline] in
  obind (section_text "// Physical domain definitions" domains (groups_text ed "Volume" "Surface" (Some "sizeAtBoundary") domains)) (fun d =>
  obind (section_text "// Physical entity definitions" entities (groups_text ed "Surface" "Line" (Some "sizeAtEntities") entities)) (fun e =>
  omapo (fun i => cat [header; d; e; i])
        (section_text "// Physical entity intersections definitions" inters (groups_text ed "Line" "Point" None inters)))).
(** the call with two sizes, and gmshwriter.hh:161-163: with one *)
Definition write_geo (ed : Z) (file : string) (atEntities atBoundary : float) (domains entities inters : list (N * list N)) : outcome string :=
  geo_text ed file (double_text atEntities) (double_text atBoundary) domains entities inters.
Definition write_geo_one (ed : Z) (file : string) (size : float) (domains entities inters : list (N * list N)) : outcome string :=
  write_geo ed file size size domains entities inters.
