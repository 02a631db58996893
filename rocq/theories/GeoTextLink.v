(** The statements of WriterModel.v and the text of the file. *)

From stdpp Require Import prelude gmap list.
From Coq Require Import String List.
From Verif Require Import Base BuilderModel WriterModel GeoTextModel GeoTextSpec GeoTextMap GeoTextProofs GeoTextNum.
Import ListNotations.
Local Open Scope string_scope.

Definition size_name (b : bool) : string := if b then "sizeAtBoundary" else "sizeAtEntities".
Lemma statements_commands dim size l r : statements dim size l = Ok r ->
  filled l ∧ map command_of r = commands_of dim (option_map size_name size) l.
Proof.
  revert r. induction l as [|[tag ms] l IH]; intros r H; [inversion H; split; [constructor|reflexivity]|].
  cbn [statements] in H. destruct ms as [|i ms]; [discriminate|]. destruct (statements dim size l) as [rest| | |] eqn:E; try discriminate.
  destruct (IH rest eq_refl) as [F M]. unfold omapo in H. cbn [obind] in H. inversion H. split; [constructor; [discriminate|exact F]|].
  unfold commands_of. cbn [flat_map map]. fold (commands_of dim (option_map size_name size) l). rewrite <- M. cbn [command_of].
  destruct size as [b|]; cbn [option_map app map command_of]; reflexivity.
Qed.
Lemma file_lemma ed d file a b doms ents ints : (ed = 2%Z /\ d = 1 \/ ed = 1%Z /\ d = 0) -> has is_quote file = false ->
  filled doms -> filled ents -> filled ints ->
  exists s, write_geo ed file a b doms ents ints = Ok s /\
    read_geo s = Some (Merge (file ++ ".brep") :: Assign "sizeAtEntities" (double_text a) :: Assign "sizeAtBoundary" (double_text b) ::
      commands_of (S (S d)) (Some "sizeAtBoundary") doms ++ commands_of (S d) (Some "sizeAtEntities") ents ++ commands_of d None ints)%list.
Proof. intros. apply geo_reads; auto using double_text_proper. Qed.
Lemma network_lemma {S} (go : nat → gmap N (list N) → list (N * list N)) (m : maps S) l file a b : geo_file go m = Ok l -> has is_quote file = false ->
  exists s, write_geo 2 file a b (go 0 (domainToFragments m)) (go 1 (entityToFragments m)) (go 2 (intersectionsToFragments m)) = Ok s /\
    read_geo s = Some (Merge (file ++ ".brep") :: Assign "sizeAtEntities" (double_text a) :: Assign "sizeAtBoundary" (double_text b) :: map command_of l)%list.
Proof.
  intros H Hq. unfold geo_file in H. destruct (statements 3 _ _) as [l1| | |] eqn:E1; try discriminate. cbn [obind] in H.
  destruct (statements 2 _ _) as [l2| | |] eqn:E2; try discriminate. cbn [obind] in H. destruct (statements 1 _ _) as [l3| | |] eqn:E3; try discriminate.
  unfold omapo in H. cbn [obind] in H. inversion H. apply statements_commands in E1 as [F1 M1], E2 as [F2 M2], E3 as [F3 M3].
  destruct (file_lemma 2 1 file a b _ _ _ (or_introl (conj eq_refl eq_refl)) Hq F1 F2 F3) as (s & Es & R). exists s. split; [exact Es|]. rewrite R, !map_app, M1, M2, M3. reflexivity.
Qed.
