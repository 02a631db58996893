(** The text of the .geo file is read back as the statements it was written for. *)

From Coq Require Import ZArith NArith List String Ascii DecimalString DecimalN DecimalFacts Bool Lia.
From Verif Require Import Base GeoTextModel GeoTextSpec.
Import ListNotations.
Local Open Scope string_scope.

Lemma app_assoc_s (a b c : string) : (a ++ b) ++ c = a ++ b ++ c.
Proof. induction a as [|x a IH]; cbn; [reflexivity|]. now rewrite IH. Qed.
Lemma app_nil_s (a : string) : a ++ "" = a.
Proof. induction a as [|x a IH]; cbn; [reflexivity|]. now rewrite IH. Qed.

(** * Words *)
Fixpoint all_chars (f : ascii -> bool) (s : string) : bool := match s with "" => true | String c s => f c && all_chars f s end.
Lemma all_app f a b : all_chars f (a ++ b) = all_chars f a && all_chars f b.
Proof. induction a as [|x a IH]; cbn; [reflexivity|]. rewrite IH. apply andb_assoc. Qed.
Lemma lex_word w : forall a r, all_chars word_char w = true -> lex (InWord a) (w ++ r) = lex (InWord (a ++ w)) r.
Proof.
  induction w as [|c w IH]; intros a r H; [rewrite app_nil_s; reflexivity|]. cbn in H. apply andb_prop in H. destruct H as [H1 H2].
  cbn [append lex]. rewrite H1, IH by exact H2. now rewrite app_assoc_s.
Qed.
Lemma lex_quoted w : forall a r, has is_quote w = false -> lex (InQuotes a) (w ++ r) = lex (InQuotes (a ++ w)) r.
Proof.
  induction w as [|c w IH]; intros a r H; [rewrite app_nil_s; reflexivity|]. cbn in H. apply orb_false_elim in H. destruct H as [H1 H2].
  cbn [append lex]. rewrite H1, IH by exact H2. now rewrite app_assoc_s.
Qed.
(** a text that starts and ends between tokens *)
Definition lexes (s : string) (ts : list token) : Prop := forall r, lex (InWord "") (s ++ r) = (ts ++ lex (InWord "") r)%list.
Lemma lexes_app s1 t1 s2 t2 : lexes s1 t1 -> lexes s2 t2 -> lexes (s1 ++ s2) (t1 ++ t2)%list.
Proof. intros H1 H2 r. rewrite app_assoc_s, H1, H2. now rewrite <- app_assoc. Qed.
Lemma lexes_nil : lexes "" [].
Proof. intros r. reflexivity. Qed.
(** a word followed by something that is not a part of it *)
Definition proper (w : string) : Prop := all_chars word_char w = true /\ w <> "".
Lemma flush_word w : proper w -> flush w = [Word w].
Proof. intros [_ H]. destruct w; [contradiction|reflexivity]. Qed.
Lemma lex_end w c r : proper w -> word_char c = false -> lex (InWord "") (w ++ String c r) = Word w :: lex (InWord "") (String c r).
Proof.
  intros Hw Hc. rewrite lex_word by apply Hw. cbn [append]. cbn [lex]. rewrite Hc, (flush_word w Hw). reflexivity.
Qed.

(** * Decimal numbers *)
Lemma digit_word_uint d : all_chars word_char (NilEmpty.string_of_uint d) = true.
Proof. induction d; cbn; auto. Qed.
Lemma dec_proper n : proper (dec n).
Proof.
  unfold dec, NilZero.string_of_uint. split.
  - destruct (N.to_uint n); try reflexivity; apply (digit_word_uint _).
  - destruct (N.to_uint n); discriminate.
Qed.
Lemma uint_not_nil n : N.to_uint n <> Decimal.Nil.
Proof. intros H. assert (N.of_uint (N.to_uint n) = n) as E by apply Unsigned.of_to. rewrite H in E. cbn in E. subst n. discriminate. Qed.
Lemma read_dec n : read_N (dec n) = Some n.
Proof. unfold read_N, dec. rewrite NilZero.usu by apply uint_not_nil. cbn [option_map]. now rewrite Unsigned.of_to. Qed.

(** * Members *)
Fixpoint member_tokens (l : list N) : list token :=
  match l with [] => [] | [i] => [Word (dec i)] | i :: l => Word (dec i) :: Punct "," :: member_tokens l end.
Lemma lex_members l : forall i r, (exists c r', r = String c r' /\ word_char c = false) ->
  lex (InWord "") ((dec i ++ cat (map (fun j => ", " ++ dec j) l)) ++ r) = (member_tokens (i :: l) ++ lex (InWord "") r)%list.
Proof.
  induction l as [|j l IH]; intros i r Hr.
  - cbn [map cat]. rewrite app_nil_s. destruct Hr as (c & r' & -> & Hc). rewrite lex_end by (auto using dec_proper). reflexivity.
  - cbn [map cat]. rewrite !app_assoc_s. cbn [append]. rewrite lex_end by (auto using dec_proper; reflexivity).
    cbn [lex]. change (word_char ",") with false. cbn [flush is_space]. change (is_space ",") with false. change (is_quote ",") with false. change (is_slash ",") with false. cbn [andb app].
    change (word_char " ") with false. change (is_space " ") with true. cbn [app].
    rewrite <- app_assoc_s, IH by exact Hr. reflexivity.
Qed.
Lemma read_members_ok l : forall i r, read_members (member_tokens (i :: l) ++ Punct "}" :: r) = Some (i :: l, r).
Proof.
  induction l as [|j l IH]; intros i r.
  - cbn [member_tokens app read_members]. rewrite read_dec. reflexivity.
  - change (member_tokens (i :: j :: l)) with (Word (dec i) :: Punct "," :: member_tokens (j :: l)). cbn [app read_members]. rewrite read_dec. change (Ascii.eqb "," ",") with true. cbn iota. rewrite IH. reflexivity.
Qed.

(** * Lines *)
Definition starts (s : string) : Prop := exists c s', s = String c s' /\ word_char c = false.
Lemma lexes_word k s ts : proper k -> starts s -> lexes s ts -> lexes (k ++ s) (Word k :: ts).
Proof. intros Hk (c & s' & -> & Hc) H r. rewrite app_assoc_s. cbn [append]. rewrite lex_end by assumption. change (String c (s' ++ r)) with (String c s' ++ r). rewrite H. reflexivity. Qed.
Lemma lexes_members i ms s ts : starts s -> lexes s ts -> lexes ((dec i ++ cat (map (fun j => ", " ++ dec j) ms)) ++ s) (member_tokens (i :: ms) ++ ts).
Proof.
  intros (c & s' & -> & Hc) H r. rewrite app_assoc_s. rewrite lex_members by (exists c, (s' ++ r); auto). rewrite H. now rewrite app_assoc.
Qed.
Ltac literal := let r := fresh in intros r; reflexivity.
Ltac start := eexists; eexists; split; [reflexivity|vm_compute; reflexivity].
Definition group_tokens (k : string) (tag : N) (ms : list N) : list token :=
  (Word "Physical" :: Word k :: Punct "(" :: Word (dec tag) :: Punct ")" :: Punct "=" :: Punct "{" :: member_tokens ms ++ [Punct "}"; Punct ";"])%list.
Definition length_tokens (k : string) (ms : list N) (size : string) : list token :=
  (Word "Characteristic" :: Word "Length" :: Punct "{" :: Word "PointsOf" :: Punct "{" :: Word k :: Punct "{" :: member_tokens ms ++
    [Punct "}"; Punct ";"; Punct "}"; Punct "}"; Punct "="; Word size; Punct ";"])%list.
Definition mtext (i : N) (ms : list N) : string := dec i ++ cat (map (fun j => ", " ++ dec j) ms).
Lemma group_lexes k tag i ms : proper k ->
  lexes (cat ["Physical "; k ++ "("; dec tag; ") = {"; mtext i ms; "};"; newline]) (group_tokens k tag (i :: ms)).
Proof.
  intros Hk. cbn [cat]. rewrite app_nil_s, !(app_assoc_s k).
  apply (lexes_app "Physical " [Word "Physical"]); [literal|].
  apply lexes_word; [exact Hk|start|]. apply (lexes_app "(" [Punct "("]); [literal|].
  apply lexes_word; [apply dec_proper|start|]. apply (lexes_app ") = {" [Punct ")"; Punct "="; Punct "{"]); [literal|].
  apply lexes_members; [start|literal].
Qed.
Lemma length_lexes k i ms size : proper k -> proper size ->
  lexes (cat ["Characteristic Length{ PointsOf{"; k ++ "{"; mtext i ms; "};} } = "; size; ";"; newline]) (length_tokens k (i :: ms) size).
Proof.
  intros Hk Hs. cbn [cat]. rewrite app_nil_s, !(app_assoc_s k).
  apply (lexes_app "Characteristic Length{ PointsOf{" [Word "Characteristic"; Word "Length"; Punct "{"; Word "PointsOf"; Punct "{"]); [literal|].
  apply lexes_word; [exact Hk|start|]. apply (lexes_app "{" [Punct "{"]); [literal|].
  apply lexes_members; [start|]. apply (lexes_app "};} } = " [Punct "}"; Punct ";"; Punct "}"; Punct "}"; Punct "="]); [literal|].
  apply lexes_word; [exact Hs|start|literal].
Qed.
Definition assign_tokens (name v : string) : list token := [Word name; Punct "="; Word v; Punct ";"].
Lemma assign_lexes name v : proper name -> proper v -> lexes (name ++ " = " ++ v ++ ";" ++ newline) (assign_tokens name v).
Proof.
  intros Hn Hv. apply lexes_word; [exact Hn|start|]. apply (lexes_app " = " [Punct "="]); [literal|]. apply lexes_word; [exact Hv|start|literal].
Qed.
Lemma merge_lexes f : has is_quote f = false -> lexes ("Merge " ++ quote ++ f ++ quote ++ ";" ++ newline ++ newline) [Word "Merge"; Quoted f; Punct ";"].
Proof.
  intros Hf. apply (lexes_app "Merge " [Word "Merge"]); [literal|]. intros r. rewrite !app_assoc_s.
  assert (E1 : forall x, lex (InWord "") (quote ++ x) = lex (InQuotes "") x) by reflexivity.
  assert (E2 : forall x, lex (InQuotes f) (quote ++ x) = Quoted f :: lex (InWord "") x) by reflexivity.
  assert (E3 : lexes (";" ++ newline ++ newline) [Punct ";"]) by literal.
  rewrite E1, lex_quoted by exact Hf. change ("" ++ f) with f. rewrite E2. specialize (E3 r). rewrite !app_assoc_s in E3. rewrite E3. reflexivity.
Qed.

(** * Commands *)
Lemma read_group_ok k d tag i ms r : kind_dim k = Some d -> read_command (group_tokens k tag (i :: ms) ++ r) = Some (Group d tag (i :: ms), r).
Proof.
  intros Hk. unfold group_tokens. cbn [app]. rewrite <- app_assoc. cbn [app].
  match goal with |- read_command (_ :: ?rest) = _ => change (read_command (Word "Physical" :: rest)) with (read_group rest) end.
  unfold read_group. cbn [word]. unfold bind at 1. rewrite Hk. unfold bind at 1.
  match goal with |- context [expect "(" (Punct "(" :: ?x)] => change (expect "(" (Punct "(" :: x)) with (Some x) end.
  unfold bind at 1. cbn [word]. unfold bind at 1. rewrite read_dec. unfold bind at 1.
  match goal with |- context [expect ")={" (Punct ")" :: Punct "=" :: Punct "{" :: ?x)] => change (expect ")={" (Punct ")" :: Punct "=" :: Punct "{" :: x)) with (Some x) end.
  unfold bind at 1. rewrite read_members_ok. reflexivity.
Qed.
Lemma read_length_ok k d i ms size r : kind_dim k = Some d -> read_command (length_tokens k (i :: ms) size ++ r) = Some (LengthAt d (i :: ms) size, r).
Proof.
  intros Hk. unfold length_tokens. cbn [app]. rewrite <- app_assoc. cbn [app].
  match goal with |- read_command (_ :: _ :: _ :: _ :: _ :: ?rest) = _ =>
    change (read_command (Word "Characteristic" :: Word "Length" :: Punct "{" :: Word "PointsOf" :: Punct "{" :: rest)) with
      (bind (word rest) (fun '(k, r) => bind (kind_dim k) (fun d => bind (expect "{" r) (fun r =>
       bind (read_members r) (fun '(l, r) => bind (expect ";}}=" r) (fun r =>
       bind (word r) (fun '(s, r) => bind (expect ";" r) (fun r => Some (LengthAt d l s, r))))))))) end.
  cbn [word]. unfold bind at 1. rewrite Hk. unfold bind at 1.
  match goal with |- context [expect "{" (Punct "{" :: ?x)] => change (expect "{" (Punct "{" :: x)) with (Some x) end.
  unfold bind at 1. rewrite read_members_ok. reflexivity.
Qed.
Lemma read_assign_ok name v r : (name =? "Merge") = false -> (name =? "Physical") = false -> (name =? "Characteristic") = false ->
  read_command (assign_tokens name v ++ r) = Some (Assign name v, r).
Proof. intros H1 H2 H3. unfold assign_tokens, read_command. cbn [app word bind]. rewrite H1, H2, H3. reflexivity. Qed.

(** the tokens of a command, and how it is read *)
Definition token_read (ts : list token) (c : command) : Prop := ts <> [] /\ forall r, read_command (ts ++ r) = Some (c, r).
Lemma reads_all : forall tss cs, Forall2 token_read tss cs -> forall f, List.length (List.concat tss) <= f -> read_commands f (List.concat tss) = Some cs.
Proof.
  induction 1 as [|ts c tss cs [Hn Hr] H IH]; intros f L; [destruct f; reflexivity|]. cbn [List.concat] in *. rewrite app_length in L.
  destruct ts as [|t ts]; [contradiction|]. cbn [List.length] in L. destruct f as [|f]; [lia|]. cbn [app read_commands]. change (t :: (ts ++ List.concat tss))%list with ((t :: ts) ++ List.concat tss)%list. rewrite Hr. cbn [bind]. rewrite IH by lia. reflexivity.
Qed.

(** * Texts of several commands *)
Definition text_reads (s : string) (cs : list command) : Prop := exists tss, lexes s (List.concat tss) /\ Forall2 token_read tss cs.
Lemma text_reads_nil : text_reads "" [].
Proof. exists []. split; [apply lexes_nil|constructor]. Qed.
Lemma text_reads_app s1 c1 s2 c2 : text_reads s1 c1 -> text_reads s2 c2 -> text_reads (s1 ++ s2) (c1 ++ c2)%list.
Proof. intros (t1 & L1 & R1) (t2 & L2 & R2). exists (t1 ++ t2)%list. split; [rewrite concat_app; now apply lexes_app|now apply Forall2_app]. Qed.
Lemma text_reads_one s ts c : lexes s ts -> token_read ts c -> text_reads s [c].
Proof. intros L R. exists [ts]. split; [cbn [List.concat]; now rewrite List.app_nil_r|constructor; [exact R|constructor]]. Qed.
Lemma text_reads_blank s cs b : lexes b [] -> text_reads s cs -> text_reads (b ++ s) cs.
Proof. intros B (t & L & R). exists t. split; [exact (lexes_app b [] s _ B L)|exact R]. Qed.
Lemma text_reads_file s cs : text_reads s cs -> read_geo s = Some cs.
Proof.
  intros (t & L & R). unfold read_geo. specialize (L ""). rewrite app_nil_s in L. rewrite L. cbn [lex flush]. rewrite List.app_nil_r. apply reads_all; [exact R|lia].
Qed.

(** the dimension of the groups of a kind *)
Definition kinds (ed : Z) (two one : string) (d : nat) : Prop :=
  exists k, kind_dim k = Some d /\ proper k /\ forall o, kind ed two one o = k ++ o.
Lemma kinds_two two one d : kind_dim two = Some d -> proper two -> kinds 2 two one d.
Proof. intros H P. exists two. auto. Qed.
Lemma kinds_one two one d : kind_dim one = Some d -> proper one -> kinds 1 two one d.
Proof. intros H P. exists one. auto. Qed.
Lemma group_reads ed two one d tag ms : kinds ed two one d -> ms <> [] ->
  exists s, group_text ed two one tag ms = Ok s /\ text_reads s [Group d tag ms].
Proof.
  intros (k & Hd & Hp & Hk) Hm. destruct ms as [|i ms]; [contradiction|]. unfold group_text, members_text. cbn [omapo obind]. eexists. split; [reflexivity|].
  rewrite Hk. eapply text_reads_one; [apply (group_lexes k tag i ms Hp)|]. split; [discriminate|]. intros r. now apply read_group_ok.
Qed.
Lemma length_reads ed two one d size ms : kinds ed two one d -> proper size -> ms <> [] ->
  exists s, length_text ed two one size ms = Ok s /\ text_reads s [LengthAt d ms size].
Proof.
  intros (k & Hd & Hp & Hk) Hs Hm. destruct ms as [|i ms]; [contradiction|]. unfold length_text, members_text. cbn [omapo obind]. eexists. split; [reflexivity|].
  rewrite Hk. eapply text_reads_one; [apply (length_lexes k i ms size Hp Hs)|]. split; [discriminate|]. intros r. now apply read_length_ok.
Qed.
Lemma groups_reads ed two one d size l : kinds ed two one d -> (forall s, size = Some s -> proper s) -> filled l ->
  exists s, groups_text ed two one size l = Ok s /\ text_reads s (commands_of d size l).
Proof.
  intros Hk Hs. induction 1 as [|[tag ms] l Hm H IH]; [exists ""; split; [reflexivity|apply text_reads_nil]|]. destruct IH as (s & E & R). cbn [snd] in Hm.
  destruct (group_reads ed two one d tag ms Hk Hm) as (g & Eg & Rg). cbn [groups_text]. rewrite Eg. cbn [obind].
  unfold commands_of. cbn [flat_map]. fold (commands_of d size l). destruct size as [z|].
  - destruct (length_reads ed two one d z ms Hk (Hs z eq_refl) Hm) as (c & Ec & Rc). rewrite Ec. cbn [obind]. rewrite E. unfold omapo. cbn [obind]. eexists. split; [reflexivity|].
    exact (text_reads_app _ _ _ _ Rg (text_reads_app _ _ _ _ Rc R)).
  - cbn [obind]. rewrite E. unfold omapo. cbn [obind]. eexists. split; [reflexivity|]. exact (text_reads_app _ _ _ _ Rg R).
Qed.
Lemma section_reads heading l body cs : lexes (newline ++ heading ++ newline) [] -> (l = [] -> cs = []) ->
  (exists s, body = Ok s /\ text_reads s cs) -> exists s, section_text heading l body = Ok s /\ text_reads s cs.
Proof.
  intros Hh Hl (s & E & R). destruct l as [|p l].
  - rewrite (Hl eq_refl). exists "". split; [reflexivity|apply text_reads_nil].
  - unfold section_text. rewrite E. unfold omapo. cbn [obind]. eexists. split; [reflexivity|]. cbn [cat]. rewrite app_nil_s.
    rewrite <- (app_assoc_s heading), <- (app_assoc_s newline). apply text_reads_blank; [exact Hh|exact R].
Qed.
Lemma has_app f a b : has f (a ++ b) = has f a || has f b.
Proof. induction a as [|x a IH]; cbn; [reflexivity|]. rewrite IH. apply orb_assoc. Qed.
Lemma geo_reads ed d file sE sB doms ents ints : (ed = 2%Z /\ d = 1 \/ ed = 1%Z /\ d = 0) -> has is_quote file = false -> proper sE -> proper sB ->
  filled doms -> filled ents -> filled ints ->
  exists s, geo_text ed file sE sB doms ents ints = Ok s /\
    read_geo s = Some (Merge (file ++ ".brep") :: Assign "sizeAtEntities" sE :: Assign "sizeAtBoundary" sB ::
      commands_of (S (S d)) (Some "sizeAtBoundary") doms ++ commands_of (S d) (Some "sizeAtEntities") ents ++ commands_of d None ints)%list.
Proof.
  intros Hd Hf HE HB F1 F2 F3.
  assert (PN : forall w, all_chars word_char w = true -> (w <> "") -> proper w) by (intros; split; assumption).
  assert (K1 : kinds ed "Volume" "Surface" (S (S d))) by (destruct Hd as [[-> ->]|[-> ->]]; [apply kinds_two|apply kinds_one]; try reflexivity; apply PN; (reflexivity || discriminate)).
  assert (K2 : kinds ed "Surface" "Line" (S d)) by (destruct Hd as [[-> ->]|[-> ->]]; [apply kinds_two|apply kinds_one]; try reflexivity; apply PN; (reflexivity || discriminate)).
  assert (K3 : kinds ed "Line" "Point" d) by (destruct Hd as [[-> ->]|[-> ->]]; [apply kinds_two|apply kinds_one]; try reflexivity; apply PN; (reflexivity || discriminate)).
  unfold geo_text.
  destruct (section_reads "// Physical domain definitions" doms _ (commands_of (S (S d)) (Some "sizeAtBoundary") doms) ltac:(literal) ltac:(intros ->; reflexivity)
              (groups_reads ed "Volume" "Surface" _ (Some "sizeAtBoundary") doms K1 ltac:(intros ? [= <-]; apply PN; [reflexivity|discriminate]) F1)) as (s1 & E1 & R1).
  destruct (section_reads "// Physical entity definitions" ents _ (commands_of (S d) (Some "sizeAtEntities") ents) ltac:(literal) ltac:(intros ->; reflexivity)
              (groups_reads ed "Surface" "Line" _ (Some "sizeAtEntities") ents K2 ltac:(intros ? [= <-]; apply PN; [reflexivity|discriminate]) F2)) as (s2 & E2 & R2).
  destruct (section_reads "// Physical entity intersections definitions" ints _ (commands_of d None ints) ltac:(literal) ltac:(intros ->; reflexivity)
              (groups_reads ed "Line" "Point" _ None ints K3 ltac:(discriminate) F3)) as (s3 & E3 & R3).
  rewrite E1. cbn [obind]. rewrite E2. cbn [obind]. rewrite E3. unfold omapo. cbn [obind]. eexists. split; [reflexivity|]. apply text_reads_file.
  cbn [cat]. rewrite !app_nil_s, !app_assoc_s.
  assert (M : text_reads ("Merge " ++ quote ++ (file ++ ".brep") ++ quote ++ ";" ++ newline ++ newline) [Merge (file ++ ".brep")]).
  { eapply text_reads_one; [apply merge_lexes; rewrite has_app, Hf; reflexivity|]. split; [discriminate|]. intros r. reflexivity. }
  assert (A : forall name v, (name =? "Merge") = false -> (name =? "Physical") = false -> (name =? "Characteristic") = false -> proper name -> proper v ->
            text_reads (name ++ " = " ++ v ++ ";" ++ newline) [Assign name v]).
  { intros name v H1 H2 H3 Hn Hv. eapply text_reads_one; [apply assign_lexes; assumption|]. split; [discriminate|]. intros r. now apply read_assign_ok. }
  pose proof (A "sizeAtEntities" sE eq_refl eq_refl eq_refl ltac:(apply PN; [reflexivity|discriminate]) HE) as AE.
  pose proof (A "sizeAtBoundary" sB eq_refl eq_refl eq_refl ltac:(apply PN; [reflexivity|discriminate]) HB) as AB.
  pose proof (text_reads_app _ _ _ _ M (text_reads_blank _ _ ("// mesh size definitions" ++ newline) ltac:(literal)
              (text_reads_app _ _ _ _ AE (text_reads_app _ _ _ _ AB (text_reads_app _ _ _ _ R1 (text_reads_app _ _ _ _ R2 R3)))))) as ALL.
  cbn [app] in ALL. rewrite !app_assoc_s in ALL. exact ALL.
Qed.
