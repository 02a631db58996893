(** Specification: pointers to the geometries of the library. *)

From stdpp Require Import prelude list.
From Verif Require Import Base DynModel.

(** the pointer to an object of a class of the library *)
Definition points_to {G} (p : ptr G) (k : gclass) (g : G) : Prop :=
  p = Some (mkObject (class_name k) (Some k) g).
(** an argument that stands for the geometry g of class k: the object itself or a pointer *)
Definition stands_for {G} (a : arg G) (kg : gclass * G) : Prop :=
  a = AObj (snd kg) ∨ ∃ p, a = APtr p ∧ points_to p (fst kg) (snd kg).
Definition disk_or_quad (k : gclass) : Prop := k = KDisk ∨ k = KQuadrilateral.
(** the world dimension is 1, 2 or 3 *)
Definition proper_class (k : gclass) : Prop :=
  match k with
  | KDirection wd | KLine wd | KPoint wd | KSegment wd | KVector wd => 1 ≤ wd ≤ 3
  | _ => True
  end.
