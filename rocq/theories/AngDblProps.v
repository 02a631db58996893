(** C107: intersection angles and the minimum angle in double precision. *)

From Coq Require Import ZArith Reals List.
From Coq Require Import Floats.
From Verif Require Import Base ConstraintsModel NumModel VecModel LinModel RoundModel PolyModel DistModel IntModel AngModel CylIntModel EvalModel
  GeoSpec AngSpec DblSpec LinDblSpec LinDblExamples TrigDblSpec TrigDblExamples AngDblSpec AngDblProofs AngDblExamples.
Import ListNotations.
Local Open Scope R_scope.

(** Functions with the assumed accuracy exist: the correctly rounded ones. *)
Theorem c107_rounded : accurate rounded_trig.
Proof. exact rounded_accurate. Qed.
Print Assumptions c107_rounded.

(** The angle of two planes, and of two faces, is the angle of the stored normals up to 2^-22; or it is not a number,
    and the angle is below 2^-22. *)
Theorem c107_planes_partial : forall (T : Trig float) (p1 p2 : plane float) theta, accurate T -> direction (pl_n p1) -> direction (pl_n p2) ->
  angle_between (val3 (pl_n p1)) (val3 (pl_n p2)) theta -> measures (plane_angle p1 p2) theta (powerRZ 2 (-22)).
Proof. exact plane_angle_dbl. Qed.
Print Assumptions c107_planes_partial.
Theorem c107_faces_partial : forall (T : Trig float) top (f1 f2 : face float) i a theta, accurate T -> direction (face_dir f1) -> direction (face_dir f2) ->
  angle_between (val3 (face_dir f1)) (val3 (face_dir f2)) theta -> int_angle top (GFace f1) (GFace f2) i = Ok a -> measures a theta (powerRZ 2 (-22)).
Proof. exact face_angle_dbl. Qed.
Print Assumptions c107_faces_partial.
Example c107_faces_case : direction (face_dir (FDisk flat_disk)) /\ direction (face_dir (FDisk wall_disk)) /\
  angle_between (val3 (face_dir (FDisk flat_disk))) (val3 (face_dir (FDisk wall_disk))) (PI / 2).
Proof. exact (conj (proj1 right_case) (conj (proj1 (proj2 right_case)) (proj1 (proj2 (proj2 right_case))))). Qed.

(** The constraint on the angle: faces that meet in a point or a segment are accepted if their angle exceeds the
    minimum by 2^-22, and rejected if it is below the minimum and not below 2^-22 itself. *)
Theorem c107_constraint_partial : forall (T : Trig float) top O (f1 f2 : face float) e m i theta, accurate T -> direction (face_dir f1) -> direction (face_dir f2) ->
  number m -> angle_between (val3 (face_dir f1)) (val3 (face_dir f2)) theta ->
  ent_intersect_eps O (EFace f1) (EFace f2) e = Ok [i] -> crossing i ->
  exists b, ent_evaluate top O (angle_only e m) (EFace f1) (EFace f2) = Ok b /\
    (val m + powerRZ 2 (-22) <= theta -> b = true) /\
    (powerRZ 2 (-22) < theta -> theta + powerRZ 2 (-22) < val m -> b = false).
Proof. exact c107_constraint_lemma. Qed.
Print Assumptions c107_constraint_partial.
Example c107_constraint_case : forall (T : Trig float) C, accurate T ->
  ent_intersect_eps (diam_ops C) (EFace (FDisk flat_disk)) (EFace (FDisk wall_disk)) 0x1p-10%float = Ok [diam_piece] /\
  number 1%float /\ val 1%float + powerRZ 2 (-22) <= PI / 2 /\
  number 2%float /\ powerRZ 2 (-22) < PI / 2 /\ PI / 2 + powerRZ 2 (-22) < val 2%float.
Proof. exact (fun T C HT => conj (right_inter T HT C) (proj2 (proj2 (proj2 right_case)))). Qed.

(** Two disks with a common diameter whose planes include an angle of more than 10^-8 are accepted, whatever the
    minimum angle is. *)
Theorem c107_small_angle_refuted : exists (d1 d2 : ell float) theta, direction (e_n d1) /\ direction (e_n d2) /\
  angle_between (val3 (e_n d1)) (val3 (e_n d2)) theta /\ / 100000000 < theta /\
  forall (T : Trig float), accurate T -> exists O i e, crossing i /\ ent_intersect_eps O (EFace (FDisk d1)) (EFace (FDisk d2)) e = Ok [i] /\
  forall top m, ent_evaluate top O (angle_only e m) (EFace (FDisk d1)) (EFace (FDisk d2)) = Ok true.
Proof. exact small_angle_lemma. Qed.
Print Assumptions c107_small_angle_refuted.
Example c107_small_angle_case : tilt1 = make_ell (mkV3 0 0 0)%float axis_x (to_dir (mkV3 0 4 7)%float) 1%float 1%float /\
  tilt2 = make_ell (mkV3 0 0 0)%float axis_x (to_dir (mkV3 0 4 0x1.c00001p2)%float) 1%float 1%float.
Proof. exact (conj eq_refl eq_refl). Qed.
