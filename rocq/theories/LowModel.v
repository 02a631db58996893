(** Points, vectors, directions, lines and segments in spaces of one, two or three dimensions:
    the parts of /repo/frackit/geometry that are templates over the dimension.  Coordinates
    (std::array<ctype, wd>) are lists of length wd; wd is the length of the arguments. *)

From Coq Require Import ZArith List Bool.
From Verif Require Import Base NumModel DistModel.
Import ListNotations.
Local Open Scope num_scope.

Section Low.
Context {A : Type} `{Num A}.

(** vector.hh:106-120: squaredLength, length *)
Definition d_sqlen (v : list A) : A := fold_left (fun s x => s + x * x) v n0.
Definition d_len (v : list A) : A := nsqrt (d_sqlen v).

(** vector.hh:139-146: the scalar product; the number of terms is wd *)
Definition d_sprod (v w : list A) : A := fold_left (fun s xy => s + fst xy * snd xy) (combine v w) n0.

(** vector.hh:150-176, point.hh:92-131: sums and differences, of vectors and of a point and a vector *)
Definition d_add (v w : list A) : list A := map (fun xy => fst xy + snd xy) (combine v w).
Definition d_sub (v w : list A) : list A := map (fun xy => fst xy - snd xy) (combine v w).

(** vector.hh:180-194, point.hh:134-148, direction.hh:87-92, 150-155, 217-222: products and
    quotients with a scalar *)
Definition d_scale (v : list A) (c : A) : list A := map (fun x => x * c) v.
Definition d_div (v : list A) (c : A) : list A := map (fun x => x / c) v.

(** vector.hh:236-239, 285-288, 336-339: Vector(a, b) *)
Definition d_to (a b : list A) : list A := d_sub b a.

(** point.hh:83-88: isEqual *)
Definition d_eq (p q : list A) (eps : A) : bool := d_sqlen (d_to p q) <? eps * eps.

(** direction.hh:72-78, 131-138, 195-202: Direction(v); 95-99, 158-162, 225-229: invert *)
Definition d_dir (v : list A) : list A := d_div v (d_len v).
Definition d_invert (d : list A) : list A := d_scale d (nlit (-1) 1).

(** math.hh:88-91: crossProduct of two vectors in the plane *)
Definition d_cross (v w : list A) : outcome A :=
  match v, w with [x; y], [x'; y'] => Ok (x * y' - y * x') | _, _ => UB end.

(** line.hh:74-78, 87-112: lines (supporting point, direction), projection, contains *)
Definition d_line_proj (l : list A * list A) (p : list A) : list A :=
  d_add (fst l) (d_scale (snd l) (d_sprod (snd l) (d_to (fst l) p))).
Definition d_line_contains (l : list A * list A) (p : list A) (eps : A) : bool :=
  d_sqlen (d_to p (d_line_proj l p)) <? eps * eps.

(** segment.hh:93-100: segments (source, target), direction, length, supporting line *)
Definition d_seg_dir (s : list A * list A) : list A := d_dir (d_to (fst s) (snd s)).
Definition d_seg_len (s : list A * list A) : A := d_len (d_to (fst s) (snd s)).
Definition d_seg_line (s : list A * list A) : list A * list A := (fst s, d_seg_dir s).

(** segment.hh:110-132, 142-143: contains *)
Definition d_seg_contains (s : list A * list A) (p : list A) (eps : A) (check_line : bool) : bool :=
  let line := d_seg_line s in
  if check_line && negb (d_line_contains line p eps) then false
  else
    let d1 := d_to (fst s) p in
    let d2 := d_to (snd s) p in
    let sp1 := d_sprod (snd line) d1 in
    let sp2 := d_sprod (snd line) d2 in
    if xorb (nsign sp1) (nsign sp2) then true
    else
      let eps2 := eps * eps in
      if d_sqlen d1 <? eps2 then true
      else if d_sqlen d2 <? eps2 then true
      else false.
Definition d_seg_contains_default (s : list A * list A) (p : list A) (check_line : bool) : bool :=
  d_seg_contains s p (confusion * d_seg_len s) check_line.

(** segment.hh:90, 148-159: getPoint, center *)
Definition d_seg_point (s : list A * list A) (param : A) : list A :=
  d_add (fst s) (d_scale (d_to (fst s) (snd s)) param).

(** distance.hh:155-213: distances of points, lines and segments *)
Definition d_dist (p q : list A) : A := d_len (d_to p q).
Definition d_dist_line (p : list A) (l : list A * list A) : A := d_len (d_to p (d_line_proj l p)).
Definition d_dist_seg (p : list A) (s : list A * list A) : A :=
  let proj := d_line_proj (d_seg_line s) p in
  if d_seg_contains_default s proj true then d_len (d_to p proj)
  else nmin (d_len (d_to p (fst s))) (d_len (d_to p (snd s))).

(** Construction.  A coordinate that is never written is [None]; to read it is undefined. *)
Definition coords : Type := list (option A).
(** point.hh:64-67, vector.hh:87-90: Point(), Vector() *)
Definition d_default (wd : nat) : coords := repeat (Some n0) wd.
(** direction.hh:66, 125, 188: Direction() leaves the array as it is *)
Definition d_default_dir (wd : nat) : coords := repeat None wd.
(** point.hh:73-77, vector.hh:96-100: construction from an initializer list *)
Definition d_of_list (wd : nat) (l : list A) : coords :=
  map Some (firstn wd l) ++ repeat None (wd - length l).
(** point.hh:152-156, 201, 225-228, 252-258: x(), y(), z() *)
Definition d_coord (c : coords) (i : nat) : outcome A :=
  match nth_error c i with Some (Some x) => Ok x | _ => UB end.

Context `{Trig A}.

(** vector.hh:123-136: isParallel *)
Definition d_parallel (v w : list A) (ang_eps : A) : bool :=
  if Nat.eqb (length v) 1 then true
  else
    let angle := nabs (nacos (d_sprod v w / d_len v / d_len w)) in
    (angle <? ang_eps) || (nabs (ang_eps - npi) <? ang_eps).

End Low.
