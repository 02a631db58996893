(** Specification for C111: the command that Gmsh should read for a statement of WriterModel.v. *)

From stdpp Require Import prelude gmap list.
From Coq Require Import String.
From Verif Require Import WriterModel GeoTextSpec.
Local Open Scope string_scope.

Definition command_of (g : geo) : command :=
  match g with
  | Physical d tag ms => Group d tag ms
  | SizeAt d ms b => LengthAt d ms (if b then "sizeAtBoundary" else "sizeAtEntities")
  end.
