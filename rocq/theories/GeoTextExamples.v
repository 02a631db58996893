(** Concrete files, and names and sizes that are not read back. *)

From Coq Require Import ZArith NArith List String Ascii Bool Reals Floats Lra.
From Flocq Require Import IEEE754.PrimFloat IEEE754.BinarySingleNaN.
From Verif Require Import Base DblSpec DblLemmas GeoTextModel GeoTextSpec GeoTextProofs GeoTextNum.
Import ListNotations.
Local Open Scope string_scope.

(** the sizes 0.5 and 5 of a network with one domain of two solids, two entities and one intersection *)
Example small_file :
  filled [(1%N, [1; 2]%N)] /\ filled [(1%N, [3; 4]%N); (2%N, [5]%N)] /\ filled [(1%N, [7; 8]%N)] /\ has is_quote "network" = false /\
  write_geo 2 "network" 0.5 5 [(1%N, [1; 2]%N)] [(1%N, [3; 4]%N); (2%N, [5]%N)] [(1%N, [7; 8]%N)] =
  Ok ("Merge ""network.brep"";

// mesh size definitions
sizeAtEntities = 0.5;
sizeAtBoundary = 5;

// Physical domain definitions
Physical Volume(1) = {1, 2};
Characteristic Length{ PointsOf{Volume{1, 2};} } = sizeAtBoundary;

// Physical entity definitions
Physical Surface(1) = {3, 4};
Characteristic Length{ PointsOf{Surface{3, 4};} } = sizeAtEntities;
Physical Surface(2) = {5};
Characteristic Length{ PointsOf{Surface{5};} } = sizeAtEntities;

// Physical entity intersections definitions
Physical Line(1) = {7, 8};
").
Proof. repeat split; try (repeat constructor; discriminate); vm_compute; reflexivity. Qed.
Example read_small s : write_geo 2 "network" 0.5 5 [(1%N, [1; 2]%N)] [(1%N, [3; 4]%N); (2%N, [5]%N)] [(1%N, [7; 8]%N)] = Ok s ->
  read_geo s = Some [Merge "network.brep"; Assign "sizeAtEntities" "0.5"; Assign "sizeAtBoundary" "5";
    Group 3 1 [1; 2]%N; LengthAt 3 [1; 2]%N "sizeAtBoundary"; Group 2 1 [3; 4]%N; LengthAt 2 [3; 4]%N "sizeAtEntities";
    Group 2 2 [5]%N; LengthAt 2 [5]%N "sizeAtEntities"; Group 1 1 [7; 8]%N].
Proof. intros H. assert (E : Ok s = Ok s) by reflexivity. rewrite <- H in E at 1. vm_compute in E. injection E as <-. vm_compute. reflexivity. Qed.

(** how sizes are written *)
Example sizes : map double_text [0.5; 5; 0; 0x1.999999999999ap-4; 0x1.5555555555555p-2; 0x1.a36e2eb1c432dp-14; 0x1.4f8b588e368f1p-17; 999999.5; 1234567; -2.5; 1e22]%float
  = ["0.5"; "5"; "0"; "0.1"; "0.333333"; "0.0001"; "1e-05"; "1e+06"; "1.23457e+06"; "-2.5"; "1e+22"].
Proof. vm_compute. reflexivity. Qed.
Example size_ok : number 0x1.5555555555555p-2 /\ read_decimal (double_text 0x1.5555555555555p-2) = Some (333333%Z, (-6)%Z).
Proof. split; vm_compute; reflexivity. Qed.

(** 1000001 and 1000002 are written the same *)
Lemma sizes_differ : val 1000001 <> val 1000002.
Proof. apply Rlt_not_eq, f_ltb; vm_compute; reflexivity. Qed.
Lemma size_refuted : exists a b, number a /\ number b /\ val a <> val b /\
  forall ed file doms ents ints, write_geo_one ed file a doms ents ints = write_geo_one ed file b doms ents ints.
Proof.
  exists 1000001%float, 1000002%float. split; [vm_compute; reflexivity|]. split; [vm_compute; reflexivity|]. split; [exact sizes_differ|].
  intros. unfold write_geo_one, write_geo. replace (double_text 1000001) with "1e+06" by (vm_compute; reflexivity). replace (double_text 1000002) with "1e+06" by (vm_compute; reflexivity). reflexivity.
Qed.

(** * Names of files *)
Lemma directory_plain s : has is_slash s = false -> directory s = "".
Proof. induction s as [|c s IH]; intros H; [reflexivity|]. cbn [has] in H. apply orb_false_elim in H. destruct H as [H1 H2]. cbn [directory]. rewrite IH, H1 by exact H2. reflexivity. Qed.
Lemma merge_lemma file : has is_slash file = false \/ (exists r, file = String "/" r) -> merged_file (file ++ ".geo") (file ++ ".brep") = file ++ ".brep".
Proof.
  intros [H|[r ->]]; [|reflexivity]. unfold merged_file. rewrite directory_plain by (rewrite has_app, H; reflexivity). destruct (file ++ ".brep") as [|c s]; [reflexivity|]. cbn [append]. destruct (is_slash c); reflexivity.
Qed.
Example merge_ok : (has is_slash "network" = false \/ exists r, "network" = String "/" r) /\ (has is_slash "/tmp/network" = false \/ exists r, "/tmp/network" = String "/" r).
Proof. split; [left; reflexivity|right; eexists; reflexivity]. Qed.
Lemma merge_refuted : exists file, has is_quote file = false /\ merged_file (file ++ ".geo") (file ++ ".brep") <> file ++ ".brep" /\
  merged_file (file ++ ".geo") (file ++ ".brep") = "out/out/network.brep".
Proof. exists "out/network". split; [reflexivity|]. split; [discriminate|reflexivity]. Qed.
Lemma quote_refuted : exists file s, write_geo 2 file 0.5 5 [] [] [] = Ok s /\ read_geo s = None.
Proof. exists "a""b". eexists. split; [vm_compute; reflexivity|]. vm_compute. reflexivity. Qed.
