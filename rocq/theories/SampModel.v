(** Random sampling of points, disks, polygons and quadrilaterals.  The random numbers are
    arguments: a distribution is the sequence of the values it delivers.  The samplers share one
    generator, but every distribution is only used for its own quantity, so that any sequence of
    values can occur for each of them. *)

From Coq Require Import ZArith List Bool.
From Verif Require Import Base NumModel VecModel LinModel RoundModel PolyModel DistModel IntModel.
Import ListNotations.
Local Open Scope num_scope.

Definition draws (B : Type) : Type := nat -> B.

(** v = draw(); while (!ok(v)) v = draw();  from the i-th value on.  Returns the value and the
    number of the next draw; Diverge if fuel draws were not enough. *)
Fixpoint draw_until {B} (ok : B -> bool) (s : draws B) (i fuel : nat) : outcome (B * nat) :=
  match fuel with
  | O => Diverge
  | S f => if ok (s i) then Ok (s i, S i) else draw_until ok s (S i) f
  end.

(** while (bad(v) && count < limit) { v = draw(); count++; }  with left = limit - count *)
Fixpoint retry {B} (bad : B -> bool) (s : draws B) (i left count : nat) (v : B) : B * nat :=
  match left with
  | O => (v, count)
  | S l => if bad v then retry bad s (S i) l (S count) (s i) else (v, count)
  end.

(** std::min_element / std::max_element followed by erase: the first element that no other one
    is better than, and the remaining ones in their order *)
Fixpoint pop_by {B} (better : B -> B -> bool) (l : list B) : option (B * list B) :=
  match l with
  | [] => None
  | a :: r => match pop_by better r with
              | None => Some (a, [])
              | Some (m, r') => if better m a then Some (m, a :: r') else Some (a, r)
              end
  end.

(** A stable sort (insertion sort): Python's sort; std::sort for values that only differ if
    they are ordered *)
Fixpoint insert_by {B} (lt : B -> B -> bool) (x : B) (l : list B) : list B :=
  match l with
  | [] => [x]
  | y :: r => if lt y x then y :: insert_by lt x r else x :: l
  end.
Definition isort {B} (lt : B -> B -> bool) (l : list B) : list B := fold_right (insert_by lt) [] l.

(** the elements with even and with odd index *)
Fixpoint evens {B} (l : list B) : list B :=
  match l with
  | a :: _ :: r => a :: evens r
  | _ => l
  end.
Definition odds {B} (l : list B) : list B := match l with [] => [] | _ :: r => evens r end.

(** The sampler of points: the ranges of its three distributions.  boxpointsampler.hh:86-90,
    cylinderpointsampler.hh:117-123 *)
Inductive psampler (A : Type) :=
| BoxSampler (rx ry rz : A * A)
| CylSampler (bottom : ell A) (rr rphi rh : A * A).
Arguments BoxSampler {A} _ _ _.
Arguments CylSampler {A} _ _ _ _.
Definition ps_ranges {A} (s : psampler A) : (A * A) * (A * A) * (A * A) :=
  match s with
  | BoxSampler rx ry rz => (rx, ry, rz)
  | CylSampler _ rr rphi rh => (rr, rphi, rh)
  end.

(** The values a polygon sampler draws.  polygonsampler.hh:326-331 *)
Record poly_draws (A : Type) := mkDraws
  { d_num : draws Z; d_unit : draws A; d_slen : draws A; d_dlen : draws A;
    d_strike : A; d_dip : A; d_center : V3 A }.
Arguments mkDraws {A} _ _ _ _ _ _ _.
Arguments d_num {A} _.
Arguments d_unit {A} _.
Arguments d_slen {A} _.
Arguments d_dlen {A} _.
Arguments d_strike {A} _.
Arguments d_dip {A} _.
Arguments d_center {A} _.

Section Samp.
Context {A : Type} `{Num A} `{Trig A}.

(** * Points *)

(** makepointsampler.hh:84-92 *)
Definition sampler_box (b : box A) : psampler A :=
  BoxSampler (vx (b_min b), vx (b_max b)) (vy (b_min b), vy (b_max b)) (vz (b_min b), vz (b_max b)).
(** makepointsampler.hh:44-53 *)
Definition sampler_cyl (c : cyl A) : psampler A :=
  CylSampler (c_bot c) (n0, cyl_radius c * cyl_radius c) (n0, nlit 2 1 * npi) (n0, c_h c).
(** makepointsampler.hh:64-77 *)
Definition sampler_hollow (h : hollow A) : outcome (psampler A) :=
  let r1 := hollow_inner h in
  let r2 := h_outer h in
  obind (hollow_full h) (fun full =>
    Ok (CylSampler (c_bot full) (r1 * r1, r2 * r2) (n0, nlit 2 1 * npi) (n0, c_h full))).

(** python/frackit/sampling/__init__.py:114-119, 121-127, 129-135 *)
Definition py_sampler_box (b : box A) : psampler A := sampler_box b.
Definition py_sampler_cyl (c : cyl A) : psampler A :=
  CylSampler (c_bot c) (n0, cyl_radius c) (n0, nlit 2 1 * npi) (n0, c_h c).
Definition py_sampler_hollow (h : hollow A) : outcome (psampler A) :=
  obind (hollow_full h) (fun full =>
    Ok (CylSampler (c_bot full) (hollow_inner h, h_outer h) (n0, nlit 2 1 * npi) (n0, h_h h))).

(** boxpointsampler.hh:79-84, cylinderpointsampler.hh:89-115; __init__.py:20-26, 50-71 *)
Definition ps_point (s : psampler A) (d1 d2 d3 : A) : V3 A :=
  match s with
  | BoxSampler _ _ _ => mkV3 d1 d2 d3
  | CylSampler bottom _ _ _ =>
      let r := nsqrt d1 in
      let a := vscale (e_maj bottom) (r * ncos d2) in
      let b := vscale (e_min bottom) (r * nsin d2) in
      let n := vscale (e_n bottom) d3 in
      vadd (vadd (vadd (e_c bottom) a) b) n
  end.

(** * Disks *)

(** disksampler.hh:145-173; __init__.py:163-203 *)
Definition sample_disk (maj mnr : draws A) (alpha beta gamma : A) (center : V3 A) (fuel : nat)
  : outcome (ell A) :=
  obind (draw_until (fun a => negb (a <=? n0)) maj 0 fuel) (fun am =>
  obind (draw_until (fun b => negb (b <=? n0)) mnr 0 fuel) (fun bm =>
    let a := fst am in
    let b := if fst bm >? a then a else fst bm in
    let x := mkV3 n1 n0 n0 in
    let y := mkV3 n0 n1 n0 in
    let e1 := to_dir x in
    let e2 := to_dir y in
    let e3 := to_dir (mkV3 n0 n0 n1) in
    let y1 := rotate y e1 alpha in
    let x2 := rotate x e2 beta in
    let y2 := rotate y1 e2 beta in
    let x3 := rotate x2 e3 gamma in
    let y3 := rotate y2 e3 gamma in
    Ok (make_ell center (to_dir x3) (to_dir y3) a b))).

(** * Polygons *)

(** polygonsampler.hh:187-189 *)
Definition exploit_min (m : A) : A := if m >? nlit 1 10 then n0 else m.
Definition exploit_max (m : A) : A := if m <? nlit 9 10 then n1 else m.

(** polygonsampler.hh:207-211, 220-221: adjacent_difference without the first entry;
    __init__.py:260-264 *)
Fixpoint diffs (l : list A) : list A :=
  match l with
  | a :: (b :: _) as r => (b - a) :: diffs r
  | _ => []
  end.

(** polygonsampler.hh:182-221: the deltas for the values drawn for one coordinate.  UB: an
    empty range has no minimum to erase. *)
Definition deltas_of (vals : list A) : outcome (list A) :=
  match pop_by nltb vals with
  | None => UB
  | Some (mn0, r) =>
      match pop_by (fun m a => a <? m) r with
      | None => UB
      | Some (mx0, r') =>
          let mn := exploit_min mn0 in
          let mx := exploit_max mx0 in
          let up := isort nltb (mn :: evens r') ++ [mx] in
          let down := isort nltb (mn :: odds r') ++ [mx] in
          Ok (diffs up ++ map (fun v => v * nlit (-1) 1) (diffs down))
      end
  end.

(** polygonsampler.hh:236-245 *)
Fixpoint pair_up (max2 : A) (dxs dys : list A) : outcome (list (A * A)) :=
  match dxs with
  | [] => Ok []
  | dx :: r =>
      let tmp := max2 - dx * dx in
      let diff dy := nabs (tmp - dy * dy) in
      match pop_by (fun m a => diff m <? diff a) dys with
      | None => UB
      | Some (dy, dys') => obind (pair_up max2 r dys') (fun ps => Ok ((dx, dy) :: ps))
      end
  end.

(** polygonsampler.hh:226-229 *)
Definition max_delta2 (dxs dys : list A) : A :=
  let mx := last dxs n0 in
  let my := match pop_by (fun m a => a <? m) dys with Some (m, _) => m | None => n0 end in
  mx * mx + my * my.

(** polygonsampler.hh:176-245 *)
Definition deltas_for (n : nat) (u : draws A) : outcome (list (A * A)) :=
  obind (deltas_of (map u (seq 0 n))) (fun dx =>
  obind (deltas_of (map u (seq n n))) (fun dy =>
    let sx := isort nltb dx in pair_up (max_delta2 sx dy) sx dy)).

(** polygonsampler.hh:263-266 *)
Definition edge_vectors (slen dlen : A) (ds : list (A * A)) : list (V3 A) :=
  map (fun d => mkV3 (fst d * dlen) (snd d * slen) n0) ds.

(** polygonsampler.hh:268-277 *)
Definition edge_angle (v : V3 A) : A :=
  if nabs (vy v) <? nlit 1 1000000 then if vx v >? n0 then n0 else npi
  else if nabs (vx v) <? nlit 1 1000000
       then if vy v >? n0 then npi / nlit 2 1 else nlit 3 1 * npi / nlit 2 1
  else
    let angle := natan (vy v / vx v) in
    if vx v >? n0 then if angle <? n0 then nlit 2 1 * npi + angle else angle
    else npi + angle.
Definition edge_before (v w : V3 A) : bool := edge_angle v <? edge_angle w.

(** polygonsampler.hh:292-305: the vertices of the chain of edges (without the last one) *)
Fixpoint walk (p : V3 A) (es : list (V3 A)) : list (V3 A) :=
  match es with
  | [] => []
  | e :: r => p :: walk (vadd p e) r
  end.

(** polygonsampler.hh:297-305, 312-314 *)
Definition bbox_mid (vs : list A) : A :=
  let lo := fold_left nmin vs n0 in
  let hi := fold_left nmax vs n0 in
  lo + nlit 1 2 * (hi - lo).

(** polygonsampler.hh:283-319; the edges are in their final order *)
Definition place_polygon (es : list (V3 A)) (strike dip : A) (center : V3 A) : list (V3 A) :=
  let strike_dir := to_dir (mkV3 (- nsin strike) (ncos strike) n0) in
  let es1 := rotate_all es (to_dir (mkV3 n0 n0 n1)) strike in
  let es2 := rotate_all es1 strike_dir dip in
  let vs := walk (mkV3 n0 n0 n0) es2 in
  let mid := mkV3 (bbox_mid (map vx vs)) (bbox_mid (map vy vs)) (bbox_mid (map vz vs)) in
  map (fun v => vadd v (vec_to mid center)) vs.

(** polygonsampler.hh:162-320.  std::sort may order edges of equal angle in any way: the sort is
    an argument. *)
Definition sample_corners (esort : list (V3 A) -> list (V3 A)) (d : poly_draws A)
  : outcome (list (V3 A)) :=
  let '(n, count) := retry (fun k => Z.ltb k 3) (d_num d) 0 100 0 0%Z in
  if Nat.eqb count 100 then Throw RuntimeError
  else
    obind (deltas_for (Z.to_nat n) (d_unit d)) (fun ds =>
    let '(slen, count_s) := retry (fun l => l <? n0) (d_slen d) 1 100 0 (d_slen d 0%nat) in
    if Nat.eqb count_s 100 then Throw RuntimeError
    else
      let '(dlen, _) := retry (fun l => l <? n0) (d_dlen d) 1 100 0 (d_dlen d 0%nat) in
      if Nat.eqb count_s 100 then Throw RuntimeError
      else Ok (place_polygon (esort (edge_vectors slen dlen ds)) (d_strike d) (d_dip d) (d_center d))).

(** polygonsampler.hh:155-156 *)
Definition sample_polygon esort (d : poly_draws A) : outcome (poly A) :=
  obind (sample_corners esort d) make_poly.

(** * Quadrilaterals *)

(** quadrilateralsampler.hh:165-177 (the number of corners is always four); __init__.py:411-416 *)
Definition quad_of_corners (cs : list (V3 A)) : outcome (quad A) :=
  match cs with
  | [c0; c1; c2; c3] => Ok (make_quad c0 c1 c3 c2)
  | _ => Throw RuntimeError
  end.
Definition four (d : poly_draws A) : poly_draws A :=
  mkDraws (fun _ => 4%Z) (d_unit d) (d_slen d) (d_dlen d) (d_strike d) (d_dip d) (d_center d).
Definition sample_quad esort (d : poly_draws A) : outcome (quad A) :=
  obind (sample_corners esort (four d)) quad_of_corners.

(** quadrilateralsampler.hh:240-273, the deprecated sampler: the quadrilateral for the given
    edge lengths; __init__.py:418-458 *)
Definition strike_dip_quad (strike dip : A) (center : V3 A) (dx1 dx2 dy1 dy2 : A) : quad A :=
  let ez := to_dir (mkV3 n0 n0 n1) in
  let x1 := rotate (mkV3 n1 n0 n0) ez strike in
  let y := rotate (mkV3 n0 n1 n0) ez strike in
  let x := rotate x1 (to_dir y) dip in
  let dxv1 := vscale x (dx1 / nlit 2 1) in
  let dxv2 := vscale x (dx2 / nlit 2 1) in
  let dyv1 := vscale y (dy1 / nlit 2 1) in
  let dyv2 := vscale y (dy2 / nlit 2 1) in
  make_quad (vsub (vsub center dxv1) dyv1) (vsub (vadd center dxv2) dyv2)
            (vadd (vsub center dxv1) dyv1) (vadd (vadd center dxv2) dyv2).

(** quadrilateralsampler.hh:255-258: "while (dx1 < minEdgeLength_) p_edge_(generator_);" draws
    but does not assign, so that the loop is never left once it is entered *)
Definition edge_length (min : A) (v : A) : outcome A := if v <? min then Diverge else Ok v.
Definition sample_old_quad (strike dip : A) (center : V3 A) (edge : draws A) (min : A)
  : outcome (quad A) :=
  obind (edge_length min (edge 0%nat)) (fun dx1 =>
  obind (edge_length min (edge 1%nat)) (fun dx2 =>
  obind (edge_length min (edge 2%nat)) (fun dy1 =>
  obind (edge_length min (edge 3%nat)) (fun dy2 =>
    Ok (strike_dip_quad strike dip center dx1 dx2 dy1 dy2))))).

(** __init__.py:433-441: four draws, then each one is repeated until it is admissible *)
Definition py_edge_length (min : A) (edge : draws A) (v : A) (i fuel : nat) : outcome (A * nat) :=
  if v <? min then draw_until (fun l => negb (l <? min)) edge i fuel else Ok (v, i).
Definition py_old_quad (strike dip : A) (center : V3 A) (edge : draws A) (min : A) (fuel : nat)
  : outcome (quad A) :=
  obind (py_edge_length min edge (edge 0%nat) 4 fuel) (fun dx1 =>
  obind (py_edge_length min edge (edge 1%nat) (snd dx1) fuel) (fun dx2 =>
  obind (py_edge_length min edge (edge 2%nat) (snd dx2) fuel) (fun dy1 =>
  obind (py_edge_length min edge (edge 3%nat) (snd dy1) fuel) (fun dy2 =>
    Ok (strike_dip_quad strike dip center (fst dx1) (fst dx2) (fst dy1) (fst dy2)))))).

(** * The polygon sampler of the Python module *)

(** list.remove: the first element that is equal *)
Fixpoint remove_first (v : A) (l : list A) : option (list A) :=
  match l with
  | [] => None
  | a :: r => if a =? v then Some r
              else match remove_first v r with Some r' => Some (a :: r') | None => None end
  end.

(** __init__.py:282-293: the inner loop; best is the value of closestDy *)
Definition py_closest (max2 dx : A) (dys : list A) (best : option A) : option A :=
  let tmp := max2 - dx * dx in
  snd (fold_left (fun st dy =>
         let diff := nabs (tmp - dy * dy) in
         if diff <? fst st then (diff, Some dy) else st) dys (max2 * nlit 100 1, best)).
Fixpoint py_pair_up (max2 : A) (dxs dys : list A) (best : option A) : outcome (list (A * A)) :=
  match dxs with
  | [] => Ok []
  | dx :: r =>
      match py_closest max2 dx dys best with
      | None => Throw NameError
      | Some dy => match remove_first dy dys with
                   | None => Throw ValueError
                   | Some dys' => obind (py_pair_up max2 r dys' (Some dy)) (fun ps => Ok ((dx, dy) :: ps))
                   end
      end
  end.
(** __init__.py:239-296 *)
Definition py_deltas_for (n : nat) (u : draws A) : outcome (list (A * A)) :=
  obind (deltas_of (map u (seq 0 n))) (fun dx =>
  obind (deltas_of (map u (seq n n))) (fun dy =>
    let sx := isort nltb dx in
    obind (py_pair_up (max_delta2 sx dy) sx dy None) (fun ps =>
      if Nat.eqb (length ps) n then Ok ps else Throw RuntimeError))).

(** __init__.py:351-356: the check that the polygon is closed *)
Definition closed_check (es : list (V3 A)) : bool :=
  pt_eq_default (fold_left vadd es (mkV3 n0 n0 n0)) (mkV3 n0 n0 n0).

(** __init__.py:229-366.  Line 233: count is not incremented.  Line 309: the condition of the loop
    for the dip length is the one for the strike length.  The angle of an edge is computed with
    atan2 (lines 320-325), whose value on the remaining range is the one of the C++ code. *)
Definition py_sample_corners (d : poly_draws A) (fuel : nat) : outcome (list (V3 A)) :=
  obind (draw_until (fun k => negb (Z.ltb k 3)) (d_num d) 0 fuel) (fun nm =>
  obind (py_deltas_for (Z.to_nat (fst nm)) (d_unit d)) (fun ds =>
    let '(slen, count_s) := retry (fun l => l <? n0) (d_slen d) 1 100 0 (d_slen d 0%nat) in
    if Nat.eqb count_s 100 then Throw RuntimeError
    else
      let '(dlen, count_d) := retry (fun _ => slen <? n0) (d_dlen d) 1 100 0 (d_dlen d 0%nat) in
      if Nat.eqb count_d 100 then Throw RuntimeError
      else
        let es := isort edge_before (edge_vectors slen dlen ds) in
        if closed_check (rotate_all (rotate_all es (to_dir (mkV3 n0 n0 n1)) (d_strike d))
                                    (to_dir (mkV3 (- nsin (d_strike d)) (ncos (d_strike d)) n0)) (d_dip d))
        then Ok (place_polygon es (d_strike d) (d_dip d) (d_center d))
        else Throw RuntimeError)).

End Samp.
