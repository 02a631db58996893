(** Examples for C116 in double precision: the values drawn in the examples of C115. *)

From Coq Require Import ZArith Reals Lra Lia List.
From Coq Require Import Floats.
From Verif Require Import Base NumModel VecModel SampModel GeoSpec SampSpec DblSpec LinDblSpec PolySpec SdDblSpec SdDblExamples SpDblSpec SpDblExamples ChkSpec.
Local Open Scope R_scope.

Lemma sp_lengths : drawn_lengths 60 (sp_draws sd_maj).
Proof.
  destruct sp_drawn as [D _]. destruct D as [A B C E F G H]. constructor; try assumption.
  intros [|i]; cbn [sp_draws d_num sp_num]; (split; [lia|lra]).
Qed.
