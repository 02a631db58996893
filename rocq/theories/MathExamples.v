(** Witnesses and concrete cases for MathProps.v. *)

From Coq Require Import Reals Lra Psatz Bool List.
From Coq Require PrimFloat Uint63.
From Verif Require Import NumModel VecModel GeoSpec GeoLemmas MathProofs.
Local Open Scope R_scope.

Lemma overlap_asym_witness :
  intervals_overlap (1, 1) (-1, 0) 1 = true /\ intervals_overlap (-1, 0) (1, 1) 1 = false.
Proof. unfold intervals_overlap. rn. split; repeat rcmp; try reflexivity; exfalso; lra. Qed.

Lemma overlap_zero_eps : intervals_overlap (0, 1) (1, 2) 0 = false.
Proof. unfold intervals_overlap. rn. repeat rcmp; try reflexivity; exfalso; lra. Qed.

Lemma overlap_not_symmetric : exists (i1 i2 : R * R) eps,
  0 < eps /\ fst i1 <= snd i1 /\ fst i2 <= snd i2 /\
  intervals_overlap i1 i2 eps = true /\ intervals_overlap i2 i1 eps = false.
Proof.
  exists (1, 1), (-1, 0), 1. cbn.
  split; [lra|]. split; [lra|]. split; [lra|]. exact overlap_asym_witness.
Qed.

Lemma overlap_boundary : exists (i1 i2 : R * R) x,
  in_interval i1 x /\ in_interval i2 x /\ intervals_overlap i1 i2 0 = false.
Proof.
  exists (0, 1), (1, 2), 1. unfold in_interval. cbn.
  split; [lra|]. split; [lra|]. exact overlap_zero_eps.
Qed.

(** ** double *)
Definition v111 : V3 PrimFloat.float := mkV3 PrimFloat.one PrimFloat.one PrimFloat.one.

Lemma arg_above_one :
  PrimFloat.ltb PrimFloat.one (PrimFloat.div (PrimFloat.div (sprod v111 v111) (vlen v111)) (vlen v111)) = true.
Proof. vm_compute. reflexivity. Qed.

Lemma nan_not_below : PrimFloat.ltb (PrimFloat.abs PrimFloat.nan) angular = false.
Proof. vm_compute. reflexivity. Qed.

(** M_PI: 3.14159265358979323846 rounded to double, 7074237752028440 / 2^51 *)
Definition float_pi : PrimFloat.float := nlit 7074237752028440 2251799813685248.

Lemma pi_disjunct : PrimFloat.ltb (PrimFloat.abs (PrimFloat.sub angular float_pi)) angular = false.
Proof. vm_compute. reflexivity. Qed.

Lemma not_parallel_to_itself (T : Trig PrimFloat.float) :
  (forall x, PrimFloat.ltb PrimFloat.one x = true -> nacos x = PrimFloat.nan) -> npi = float_pi ->
  is_parallel_default v111 v111 = false.
Proof.
  intros Ha Hp. unfold is_parallel_default, is_parallel. rewrite Hp.
  cbn [ndiv nabs nltb nsub F_num]. rewrite (Ha _ arg_above_one), nan_not_below, pi_disjunct. reflexivity.
Qed.

(** a small vector whose squared length underflows *)
Definition tiny : PrimFloat.float :=
  PrimFloat.ldshiftexp PrimFloat.one (Uint63.of_Z 1501).  (* 2^-600 *)
Definition v_tiny : V3 PrimFloat.float := mkV3 tiny PrimFloat.zero PrimFloat.zero.
Definition huge : PrimFloat.float := PrimFloat.ldshiftexp PrimFloat.one (Uint63.of_Z 2701).  (* 2^600 *)
Definition v_huge : V3 PrimFloat.float := mkV3 huge PrimFloat.zero PrimFloat.zero.

Lemma dir_tiny : PrimFloat.ltb PrimFloat.zero tiny = true /\ PrimFloat.eqb tiny PrimFloat.infinity = false /\
  vx (to_dir v_tiny) = PrimFloat.infinity.
Proof. vm_compute. repeat split. Qed.
Lemma dir_huge : PrimFloat.ltb huge PrimFloat.infinity = true /\
  to_dir v_huge = mkV3 PrimFloat.zero PrimFloat.zero PrimFloat.zero.
Proof. vm_compute. repeat split. Qed.
Lemma dir_double :
  (exists x, PrimFloat.ltb PrimFloat.zero x = true /\ PrimFloat.eqb x PrimFloat.infinity = false /\
     vx (to_dir (mkV3 x PrimFloat.zero PrimFloat.zero)) = PrimFloat.infinity) /\
  (exists x, PrimFloat.ltb PrimFloat.zero x = true /\ PrimFloat.ltb x PrimFloat.infinity = true /\
     to_dir (mkV3 x PrimFloat.zero PrimFloat.zero) = mkV3 PrimFloat.zero PrimFloat.zero PrimFloat.zero).
Proof.
  split.
  - exists tiny. exact dir_tiny.
  - exists huge. split; [vm_compute; reflexivity|]. exact dir_huge.
Qed.
