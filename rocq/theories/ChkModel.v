(** The conditions that debug builds check (the assertions); release builds, which the other files model, do not.
    A failing assertion ends the program.  Conditions on indices and parameters given by the caller are left out. *)

From Coq Require Import ZArith List Bool.
From Verif Require Import Base NumModel VecModel LinModel RoundModel PolyModel IntModel SampModel.
Import ListNotations.
Local Open Scope num_scope.

Section Checks.
Context {A : Type} `{Num A}.

(** math.hh:59-60: the intervals compared by intervalsOverlap *)
Definition interval_check (i1 i2 : A * A) : bool := (fst i1 <=? snd i1) && (fst i2 <=? snd i2).
(** math.hh:114-116: isRightHandSystem *)
Definition right_hand_check (u v w : V3 A) : bool :=
  vlen u * confusion * vlen v * confusion * vlen w * confusion <? nabs (box_product u v w).
(** ellipticalgeometry.hh:96: the axes given to the constructor *)
Definition axes_check (maj mnr : V3 A) : bool := nabs (sprod mnr maj) <? nlit 1 10000000.
(** plane.hh:124-125: the basis given to the constructor *)
Definition plane_check (b1 b2 n : V3 A) : bool :=
  (nabs (sprod b1 b2) <? nlit 1 1000000) && (nabs (sprod b1 n) <? nlit 1 1000000).
(** sphere.hh:63 *)
Definition sphere_check (r : A) : bool := n0 <? r.
(** quadrilateral.hh:101-102 *)
Definition quad_check (p0 p1 p2 p3 : V3 A) : bool :=
  plane_contains (plane_3p p0 p1 p2) p3 (confusion * vlen (vec_to p0 p3)).
(** polygon.hh:121-127; line 120 checks nothing: isDegenerated_ returns false (polygon.hh:218-223) *)
Definition poly_check (pg : poly A) : bool :=
  forallb (fun c => plane_contains (po_plane pg) c (confusion * vlen (vec_to (po_c pg) (at_ (po_cs pg) 0)))) (po_cs pg).
(** ellipsearc.hh:84-86 *)
Definition arc_check (e : ell A) (source target : V3 A) : bool :=
  let eps := e_a e * confusion in ell_contains e source eps true && ell_contains e target eps true.

Context `{Trig A}.
(** intersectionangle.hh:112; intersect.hh: the tolerance for planes is the default one *)
Definition angle_check (K : kernel A) (p1 p2 : plane A) : outcome bool :=
  obind (plane_plane K p1 p2 confusion) (fun r => Ok (match r with IsEmpty => false | _ => true end)).
(** polygonsampler.hh:283-308: the last edge leads back to the first vertex *)
Definition closing_check (es : list (V3 A)) (strike dip : A) : bool :=
  let strike_dir := to_dir (mkV3 (- nsin strike) (ncos strike) n0) in
  let es1 := rotate_all es (to_dir (mkV3 n0 n0 n1)) strike in
  let es2 := rotate_all es1 strike_dir dip in
  let vs := walk (mkV3 n0 n0 n0) es2 in
  pt_eq_default (vadd (last vs origin) (last es2 origin)) (hd origin vs).
(** polygonsampler.hh:162-308 *)
Definition sample_check (esort : list (V3 A) -> list (V3 A)) (d : poly_draws A) : outcome bool :=
  let '(n, count) := retry (fun k => Z.ltb k 3) (d_num d) 0 100 0 0%Z in
  if Nat.eqb count 100 then Throw RuntimeError
  else
    obind (deltas_for (Z.to_nat n) (d_unit d)) (fun ds =>
    let '(slen, count_s) := retry (fun l => l <? n0) (d_slen d) 1 100 0 (d_slen d 0%nat) in
    if Nat.eqb count_s 100 then Throw RuntimeError
    else
      let '(dlen, _) := retry (fun l => l <? n0) (d_dlen d) 1 100 0 (d_dlen d 0%nat) in
      Ok (closing_check (esort (edge_vectors slen dlen ds)) (d_strike d) (d_dip d))).
End Checks.
