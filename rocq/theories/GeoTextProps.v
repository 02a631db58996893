(** C111: the .geo file that GmshWriter writes.

    [write_geo] (GeoTextModel.v) is the text of the file, [read_geo] (GeoTextSpec.v) reads it as Gmsh does.
    [domains], [entities] and [inters] list the groups with the indices of their members in the order of writing. *)

From stdpp Require Import prelude gmap list.
From Coq Require Import String Ascii Reals Floats.
From Verif Require Import Base DblSpec BuilderModel BuilderExamples WriterModel WriterExamples
  GeoTextModel GeoTextSpec GeoTextMap GeoTextProofs GeoTextNum GeoTextLink GeoTextExamples.
Local Open Scope string_scope.

(** C111: Gmsh reads from the file the .brep file of the same name, the two mesh sizes, and for every group its kind (for
    two-dimensional entities d = 1: volumes, surfaces and lines), tag and members, with the size at the points of the domains
    and of the entities. *)
Theorem c111_file : ∀ (ed : Z) (d : nat) (file : string) (atEntities atBoundary : float) (domains entities inters : list (N * list N)),
  (ed = 2%Z ∧ d = 1%nat) ∨ (ed = 1%Z ∧ d = 0%nat) → has is_quote file = false →
  filled domains → filled entities → filled inters →
  ∃ s, write_geo ed file atEntities atBoundary domains entities inters = Ok s ∧
    read_geo s = Some (Merge (file ++ ".brep") ::
                       Assign "sizeAtEntities" (double_text atEntities) :: Assign "sizeAtBoundary" (double_text atBoundary) ::
                       commands_of (S (S d)) (Some "sizeAtBoundary") domains ++
                       commands_of (S d) (Some "sizeAtEntities") entities ++
                       commands_of d None inters)%list.
Proof. exact file_lemma. Qed.
Print Assumptions c111_file.
Definition c111_file_example := small_file.
Definition c111_file_read_example := read_small.

(** C111: for the maps of a writer these are the statements of the file (C27 to C29). *)
Theorem c111_network : ∀ {S} (go : nat → gmap N (list N) → list (N * list N)) (m : maps S) (l : list geo)
    (file : string) (atEntities atBoundary : float),
  geo_file go m = Ok l → has is_quote file = false →
  ∃ s, write_geo 2 file atEntities atBoundary (go 0%nat (domainToFragments m)) (go 1%nat (entityToFragments m)) (go 2%nat (intersectionsToFragments m)) = Ok s ∧
    read_geo s = Some (Merge (file ++ ".brep") ::
                       Assign "sizeAtEntities" (double_text atEntities) :: Assign "sizeAtBoundary" (double_text atBoundary) ::
                       map command_of l)%list.
Proof. exact @network_lemma. Qed.
Print Assumptions c111_network.
Example c111_network_example : ∃ l, geo_file in_tree_go (tab_maps (writer (fst : shape → N) (tab_topo cross) (λ k, (k, false)) in_tree [] cross_net)) = Ok l ∧ l ≠ [].
Proof. eexists. split; [vm_compute; reflexivity|discriminate]. Qed.

(** C111: the text of a mesh size denotes a number that differs from it by at most 5 in a million. *)
Theorem c111_size : ∀ x : float, DblSpec.number x →
  ∃ y, denotes (double_text x) y ∧ (Rabs (y - val x) <= 5 / 1000000 * Rabs (val x))%R.
Proof. exact double_text_close. Qed.
Print Assumptions c111_size.
Definition c111_size_example := size_ok.
Definition c111_sizes_example := sizes.

(** C111: but different sizes can give the same file. *)
Theorem c111_size_refuted : ∃ a b : float, DblSpec.number a ∧ DblSpec.number b ∧ val a ≠ val b ∧
  ∀ (ed : Z) (file : string) (domains entities inters : list (N * list N)),
    write_geo_one ed file a domains entities inters = write_geo_one ed file b domains entities inters.
Proof. exact size_refuted. Qed.
Print Assumptions c111_size_refuted.

(** C111: a name without directories, or an absolute one, merges the .brep file that was written beside the .geo file. *)
Theorem c111_merge_partial : ∀ file : string, has is_slash file = false ∨ (∃ r, file = String "/"%char r) →
  merged_file (file ++ ".geo") (file ++ ".brep") = file ++ ".brep".
Proof. exact merge_lemma. Qed.
Print Assumptions c111_merge_partial.
Definition c111_merge_example := merge_ok.

(** C111: a relative name with a directory does not: out/network merges out/out/network.brep. *)
Theorem c111_merge_refuted : ∃ file : string, has is_quote file = false ∧
  merged_file (file ++ ".geo") (file ++ ".brep") ≠ file ++ ".brep" ∧
  merged_file (file ++ ".geo") (file ++ ".brep") = "out/out/network.brep".
Proof. exact merge_refuted. Qed.
Print Assumptions c111_merge_refuted.

(** C111: a name with a quotation mark gives a file that cannot be read. *)
Theorem c111_quote_refuted : ∃ (file s : string), write_geo 2 file 0.5 5 [] [] [] = Ok s ∧ read_geo s = None.
Proof. exact quote_refuted. Qed.
Print Assumptions c111_quote_refuted.
