(** The text of a double denotes a number close to it. *)

From Coq Require Import ZArith NArith List String Ascii DecimalString DecimalN Bool Reals Lra Lia Floats.
From Flocq Require Import Core.Core IEEE754.BinarySingleNaN IEEE754.PrimFloat.
From Verif Require Import Base DblSpec GeoTextModel GeoTextSpec GeoTextProofs.
Import ListNotations.

Local Open Scope R_scope.
Definition ten : radix := Build_radix 10 eq_refl.
Notation p10 := (bpow ten).
Notation p2 := (bpow radix2).

(** * Powers *)
Lemma pow_max (r : radix) k : bpow r k * IZR (radix_val r ^ Z.max (- k) 0) = IZR (radix_val r ^ Z.max k 0).
Proof.
  rewrite !IZR_Zpower by lia. rewrite <- bpow_plus. f_equal. lia.
Qed.
Lemma pow_max_pos (r : radix) k : 0 < IZR (radix_val r ^ Z.max k 0).
Proof. rewrite IZR_Zpower by lia. apply bpow_gt_0. Qed.
Definition value (m : positive) (e : Z) : R := IZR (Z.pos m) * p2 e.
Lemma value_frac m e : value m e * IZR (denom e) = IZR (numer m e).
Proof.
  unfold value, denom, numer. rewrite mult_IZR, Rmult_assoc. f_equal. exact (pow_max radix2 e).
Qed.
Lemma denom_pos e : 0 < IZR (denom e).
Proof. exact (pow_max_pos radix2 (- e)). Qed.
Lemma below_ten_spec m e k : below_ten m e k = true <-> value m e < p10 k.
Proof.
  unfold below_ten. rewrite Z.ltb_lt. split; intros H.
  - apply IZR_lt in H. rewrite !mult_IZR, <- value_frac in H. pose proof (pow_max ten k) as P. cbn [radix_val ten] in P. rewrite <- P in H.
    pose proof (denom_pos e). pose proof (pow_max_pos ten (- k)) as Q. cbn [radix_val ten] in Q.
    apply Rmult_lt_reg_r with (IZR (denom e) * IZR (10 ^ Z.max (- k) 0)); [nra|]. nra.
  - apply lt_IZR. rewrite !mult_IZR, <- value_frac. pose proof (pow_max ten k) as P. cbn [radix_val ten] in P. rewrite <- P.
    pose proof (denom_pos e). pose proof (pow_max_pos ten (- k)) as Q. cbn [radix_val ten] in Q.
    apply Rmult_lt_compat_r with (r := IZR (denom e) * IZR (10 ^ Z.max (- k) 0)) in H; [|nra]. nra.
Qed.

(** * The decimal exponent *)
Lemma search_spec m e : forall fuel X, p10 X <= value m e -> value m e < p10 (X + Z.of_nat fuel) ->
  p10 (search_exp fuel m e X) <= value m e < p10 (search_exp fuel m e X + 1).
Proof.
  induction fuel as [|fuel IH]; intros X L H; [rewrite Z.add_0_r in H; lra|]. cbn [search_exp]. destruct (below_ten m e (X + 1)) eqn:B.
  - apply below_ten_spec in B. split; assumption.
  - apply IH; [|replace (X + 1 + Z.of_nat fuel)%Z with (X + Z.of_nat (S fuel))%Z by lia; exact H].
    apply Rnot_lt_le. intros C. apply below_ten_spec in C. congruence.
Qed.
Lemma two_ten k : (0 <= k)%Z -> p2 k <= p10 k.
Proof.
  intros H. rewrite <- !IZR_Zpower by exact H. apply IZR_le. cbn [radix_val ten radix2]. apply Z.pow_le_mono_l. lia.
Qed.
Lemma dec_exp_spec m e : p10 (dec_exp m e) <= value m e < p10 (dec_exp m e + 1).
Proof.
  unfold dec_exp. assert (Hl : (0 <= Z.log2 (Z.pos m))%Z) by apply Z.log2_nonneg. assert (Hb : (0 <= exp_bound m e)%Z) by (unfold exp_bound; lia).
  apply search_spec.
  - apply Rle_trans with (p2 (- Z.abs e)).
    + rewrite !bpow_opp. unfold exp_bound. apply Rinv_le; [apply bpow_gt_0|]. eapply Rle_trans; [apply two_ten; lia|]. apply bpow_le. lia.
    + unfold value. apply Rle_trans with (1 * p2 e); [rewrite Rmult_1_l; apply bpow_le; lia|]. apply Rmult_le_compat_r; [apply bpow_ge_0|]. apply IZR_le. lia.
  - replace (- exp_bound m e + Z.of_nat (Z.to_nat (2 * exp_bound m e)))%Z with (exp_bound m e) by lia.
    apply Rlt_le_trans with (p2 (Z.log2 (Z.pos m) + 1 + Z.abs e)); [|eapply Rle_trans; [apply two_ten; lia|apply bpow_le; unfold exp_bound; lia]].
    rewrite bpow_plus. unfold value. apply Rlt_le_trans with (p2 (Z.log2 (Z.pos m) + 1) * p2 e).
    + apply Rmult_lt_compat_r; [apply bpow_gt_0|]. rewrite <- IZR_Zpower by lia. apply IZR_lt. cbn [radix_val radix2]. apply Z.log2_spec. lia.
    + apply Rmult_le_compat_l; [apply bpow_ge_0|]. apply bpow_le. lia.
Qed.

(** * Rounding to six digits *)
Lemma round_div_spec n d : (0 < d)%Z -> (Z.abs (2 * (round_div n d * d - n)) <= d)%Z.
Proof.
  intros Hd. unfold round_div. pose proof (Z.div_mod n d ltac:(lia)) as E. pose proof (Z.mod_pos_bound n d Hd) as B. set (q := (n / d)%Z) in *. set (r := (n mod d)%Z) in *.
  destruct (2 * r <? d)%Z eqn:E1; [apply Z.ltb_lt in E1; nia|]. apply Z.ltb_ge in E1.
  destruct (d <? 2 * r)%Z eqn:E2; [apply Z.ltb_lt in E2; nia|]. apply Z.ltb_ge in E2. destruct (Z.even q); nia.
Qed.
Lemma round_div_real n d : (0 < d)%Z -> Rabs (IZR (round_div n d) - IZR n / IZR d) <= / 2.
Proof.
  intros Hd. pose proof (round_div_spec n d Hd) as H. assert (D : 0 < IZR d) by now apply IZR_lt.
  apply IZR_le in H. rewrite abs_IZR, mult_IZR, minus_IZR, mult_IZR in H.
  replace (IZR (round_div n d) - IZR n / IZR d) with (2 * (IZR (round_div n d) * IZR d - IZR n) * / (2 * IZR d)) by (field; lra).
  rewrite Rabs_mult, (Rabs_pos_eq (/ (2 * IZR d))) by (apply Rlt_le, Rinv_0_lt_compat; lra).
  apply Rmult_le_reg_r with (2 * IZR d); [lra|]. rewrite Rmult_assoc, Rinv_l by lra. lra.
Qed.
Lemma p10_5 : p10 5 = 100000.
Proof. rewrite <- IZR_Zpower by lia. reflexivity. Qed.
Lemma p10_6 : p10 6 = 1000000.
Proof. rewrite <- IZR_Zpower by lia. reflexivity. Qed.
Lemma six_digits_spec m e d X : six_digits m e = (d, X) ->
  (100000 <= d < 1000000)%Z /\ Rabs (IZR d * p10 (X - 5) - value m e) <= 5 / 1000000 * value m e.
Proof.
  unfold six_digits. set (Y := dec_exp m e). pose proof (dec_exp_spec m e) as B. fold Y in B.
  set (n := (numer m e * 10 ^ Z.max (5 - Y) 0)%Z). set (dd := (denom e * 10 ^ Z.max (- (5 - Y)) 0)%Z). set (r := round_div n dd).
  assert (D : (0 < dd)%Z). { unfold dd, denom. apply Z.mul_pos_pos; apply Z.pow_pos_nonneg; lia. }
  assert (Q : IZR n / IZR dd = value m e * p10 (5 - Y)).
  { unfold n, dd. rewrite !mult_IZR, <- value_frac. pose proof (pow_max ten (5 - Y)) as P. cbn [radix_val ten] in P. rewrite <- P.
    pose proof (denom_pos e). pose proof (pow_max_pos ten (- (5 - Y))) as Q. cbn [radix_val ten] in Q. field. lra. }
  pose proof (round_div_real n dd D) as R. fold r in R. rewrite Q in R.
  assert (P5 : p10 Y * p10 (5 - Y) = 100000) by (rewrite <- bpow_plus, <- p10_5; f_equal; lia).
  assert (P6 : p10 (Y + 1) * p10 (5 - Y) = 1000000) by (rewrite <- bpow_plus, <- p10_6; f_equal; lia).
  pose proof (bpow_gt_0 ten (5 - Y)) as T. pose proof (bpow_gt_0 ten (Y - 5)) as T'.
  assert (I : p10 (Y - 5) * p10 (5 - Y) = 1) by (rewrite <- bpow_plus; replace (Y - 5 + (5 - Y))%Z with 0%Z by lia; reflexivity).
  assert (L : 100000 <= value m e * p10 (5 - Y) < 1000000) by (rewrite <- P5, <- P6; split; [apply Rmult_le_compat_r; lra|apply Rmult_lt_compat_r; lra]).
  apply Rabs_le_inv in R.
  assert (R1 : (100000 <= r)%Z). { assert (100000 - 1 < r)%Z; [|lia]. apply lt_IZR. rewrite minus_IZR. lra. }
  assert (R2 : (r <= 1000000)%Z). { assert (r < 1000000 + 1)%Z; [|lia]. apply lt_IZR. rewrite plus_IZR. lra. }
  assert (W : Rabs (IZR r * p10 (Y - 5) - value m e) <= 5 / 1000000 * value m e).
  { replace (IZR r * p10 (Y - 5) - value m e) with ((IZR r - value m e * p10 (5 - Y)) * p10 (Y - 5)) by (rewrite Rmult_minus_distr_r, Rmult_assoc, (Rmult_comm (p10 (5 - Y))), I; ring).
    rewrite Rabs_mult, (Rabs_pos_eq (p10 (Y - 5))) by lra. apply Rle_trans with (/ 2 * p10 (Y - 5)); [apply Rmult_le_compat_r; [lra|]; apply Rabs_le; lra|].
    assert (V : p10 (Y - 5) * 100000 <= value m e). { replace (p10 (Y - 5) * 100000) with (p10 Y); [lra|]. rewrite <- p10_5, <- bpow_plus. f_equal. lia. }
    lra. }
  destruct (r =? 1000000)%Z eqn:Er; intros [= <- <-].
  - apply Z.eqb_eq in Er. split; [lia|]. rewrite Er in W. replace (IZR 100000 * p10 (Y + 1 - 5)) with (IZR 1000000 * p10 (Y - 5)); [exact W|].
    replace (Y + 1 - 5)%Z with (1 + (Y - 5))%Z by lia. rewrite bpow_plus. change (p10 1) with 10. ring.
  - apply Z.eqb_neq in Er. split; [lia|exact W].
Qed.

(** * Digits *)
Local Open Scope Z_scope.
Definition is_dig (z : Z) : Prop := 0 <= z < 10.
Definition digit_value (l : list Z) : Z := fold_left (fun a z => 10 * a + z) l 0.
Lemma dval_from l : forall a, fold_left (fun a z => 10 * a + z) l a = a * 10 ^ Z.of_nat (List.length l) + digit_value l.
Proof.
  unfold digit_value. induction l as [|z l IH]; intros a; [cbn; lia|]. cbn [fold_left List.length]. rewrite IH, (IH (10 * 0 + z)). rewrite Nat2Z.inj_succ, Z.pow_succ_r by lia. ring.
Qed.
Lemma dval_app a b : digit_value (a ++ b) = digit_value a * 10 ^ Z.of_nat (List.length b) + digit_value b.
Proof. unfold digit_value at 1. rewrite fold_left_app. apply dval_from. Qed.
Lemma dval_zeros n : digit_value (repeat 0 n) = 0.
Proof. induction n as [|n IH]; [reflexivity|]. cbn [repeat]. change (0 :: repeat 0 n)%list with ([0] ++ repeat 0 n)%list. rewrite dval_app, IH. reflexivity. Qed.
Lemma digits_spec n : forall d, 0 <= d < 10 ^ Z.of_nat n -> Forall is_dig (digits n d) /\ List.length (digits n d) = n /\ digit_value (digits n d) = d.
Proof.
  induction n as [|n IH]; intros d H.
  - cbn in H. repeat split; [constructor|cbn; lia].
  - rewrite Nat2Z.inj_succ, Z.pow_succ_r in H by lia. cbn [digits]. pose proof (Z.div_mod d 10 ltac:(lia)) as E. pose proof (Z.mod_pos_bound d 10 ltac:(lia)) as B.
    destruct (IH (d / 10)) as (A1 & A2 & A3). { split; [apply Z.div_pos; lia|apply Z.div_lt_upper_bound; lia]. }
    split; [apply Forall_app; split; [exact A1|constructor; [exact B|constructor]]|]. split; [rewrite app_length, A2; cbn; lia|].
    rewrite dval_app, A3. cbn. lia.
Qed.
Lemma strip_spec l : exists n, l = (strip l ++ repeat 0 n)%list.
Proof.
  induction l as [|z l [n IH]]; [exists 0%nat; reflexivity|]. cbn [strip]. destruct (strip l) as [|y t].
  - destruct (z =? 0)%Z eqn:E.
    + apply Z.eqb_eq in E. subst z. exists (S n). cbn [app repeat] in *. now rewrite <- IH.
    + exists n. cbn [app] in *. now rewrite <- IH.
  - exists n. cbn [app] in *. now rewrite <- IH.
Qed.
Lemma digit_cases z : is_dig z -> In z [0;1;2;3;4;5;6;7;8;9].
Proof. unfold is_dig. intros H. cbn. lia. Qed.
Ltac each_digit H := apply digit_cases in H; cbn in H; repeat (destruct H as [<- | H]; [try reflexivity|]); [..|contradiction].
Lemma digit_char_spec z : is_dig z -> is_digit (digit_char z) = true /\ Z.of_N (N_of_ascii (digit_char z) - 48) = z.
Proof. intros H. each_digit H; split; reflexivity. Qed.
Lemma read_digits_text l : Forall is_dig l -> forall a, read_digits (digits_text l) a = Some (fold_left (fun a z => 10 * a + z) l a).
Proof.
  induction 1 as [|z l H _ IH]; intros a; [reflexivity|]. cbn [digits_text read_digits fold_left]. destruct (digit_char_spec z H) as [-> ->]. apply IH.
Qed.
Local Open Scope string_scope.
Lemma digits_text_app a b : digits_text (a ++ b) = digits_text a ++ digits_text b.
Proof. induction a as [|z a IH]; cbn [digits_text app append]; [reflexivity|]. now rewrite IH. Qed.
Lemma digits_text_length l : String.length (digits_text l) = List.length l.
Proof. induction l as [|z l IH]; cbn; [reflexivity|]. now rewrite IH. Qed.
Lemma digits_text_has f l : (forall z, is_dig z -> f (digit_char z) = false) -> Forall is_dig l -> has f (digits_text l) = false.
Proof. intros Hf. induction 1 as [|z l H _ IH]; [reflexivity|]. cbn [digits_text has]. now rewrite Hf, IH. Qed.
Lemma split_none c s : has (Ascii.eqb c) s = false -> split_at c s = (s, None).
Proof. induction s as [|d s IH]; intros H; [reflexivity|]. cbn [has] in H. apply orb_false_elim in H. destruct H as [H1 H2]. cbn [split_at]. rewrite H1, IH by exact H2. reflexivity. Qed.
Lemma split_some c s r : has (Ascii.eqb c) s = false -> split_at c (s ++ String c r) = (s, Some r).
Proof.
  induction s as [|d s IH]; intros H; [cbn [append split_at]; now rewrite Ascii.eqb_refl|]. cbn [has] in H. apply orb_false_elim in H. destruct H as [H1 H2]. cbn [append split_at]. rewrite H1, IH by exact H2. reflexivity.
Qed.
Lemma no_e z : is_dig z -> Ascii.eqb "e" (digit_char z) = false.
Proof. intros H. each_digit H. Qed.
Lemma no_point z : is_dig z -> Ascii.eqb "." (digit_char z) = false.
Proof. intros H. each_digit H. Qed.
Lemma no_minus z : is_dig z -> Ascii.eqb (digit_char z) "-" = false.
Proof. intros H. each_digit H. Qed.
Lemma dig_word z : is_dig z -> word_char (digit_char z) = true.
Proof. intros H. each_digit H. Qed.
Lemma digits_word l : Forall is_dig l -> all_chars word_char (digits_text l) = true.
Proof. induction 1 as [|z l H _ IH]; [reflexivity|]. cbn [digits_text all_chars]. now rewrite dig_word, IH. Qed.

(** * The exponent *)
Lemma read_uint_acc u : forall p, read_digits (NilEmpty.string_of_uint u) (Z.pos p) = Some (Z.pos (Pos.of_uint_acc u p)).
Proof.
  induction u; intros p; cbn [NilEmpty.string_of_uint read_digits Pos.of_uint_acc]; [reflexivity|..];
    match goal with |- context [if is_digit ?c then _ else _] => change (is_digit c) with true end; cbn iota; rewrite <- IHu; f_equal; clear;
    match goal with |- context [Z.of_N ?x] => let v := eval vm_compute in (Z.of_N x) in change (Z.of_N x) with v end; lia.
Qed.
Lemma read_uint u : read_digits (NilEmpty.string_of_uint u) 0 = Some (Z.of_N (N.of_uint u)).
Proof.
  unfold N.of_uint. induction u; cbn [NilEmpty.string_of_uint read_digits Pos.of_uint]; [reflexivity|exact IHu|..]; apply read_uint_acc.
Qed.
Lemma read_dec_digits n : read_digits (dec n) 0 = Some (Z.of_N n).
Proof.
  unfold dec, NilZero.string_of_uint. pose proof (read_uint (N.to_uint n)) as H. rewrite Unsigned.of_to in H. destruct (N.to_uint n) eqn:E; [exfalso; exact (uint_not_nil n E)|exact H..].
Qed.
Lemma exp_text_read X : exists s, exp_text X = String "e" s /\ read_exp s = Some X /\ all_chars word_char (exp_text X) = true.
Proof.
  unfold exp_text. set (t := (if (Z.abs X <? 10)%Z then "0" else "") ++ dec (Z.to_N (Z.abs X))).
  assert (T : read_digits t 0 = Some (Z.abs X)). { unfold t. pose proof (read_dec_digits (Z.to_N (Z.abs X))) as H. rewrite Z2N.id in H by lia. destruct (Z.abs X <? 10)%Z; exact H. }
  assert (W : all_chars word_char t = true). { unfold t. rewrite all_app. rewrite (proj1 (dec_proper _)). destruct (Z.abs X <? 10)%Z; reflexivity. }
  destruct (X <? 0)%Z eqn:E.
  - apply Z.ltb_lt in E. exists (String "-" t). split; [reflexivity|]. split; [|rewrite all_app, W; reflexivity]. cbn [read_exp]. change (Ascii.eqb "-" "-") with true. cbn iota. rewrite T. cbn [option_map]. f_equal. lia.
  - apply Z.ltb_ge in E. exists (String "+" t). split; [reflexivity|]. split; [|rewrite all_app, W; reflexivity]. cbn [read_exp]. change (Ascii.eqb "+" "-") with false. change (Ascii.eqb "+" "+") with true. cbn iota. rewrite T. f_equal. lia.
Qed.

(** * Numbers with a point *)
(** the digits and the exponent that are read from a text without exponent *)
Definition plain (s : string) (z k : Z) : Prop :=
  has (Ascii.eqb "e") s = false /\ all_chars word_char s = true /\ (exists c r, s = String c r /\ Ascii.eqb c "-" = false) /\
  (let '(whole, frac) := split_at "." s in
   match frac with None => bind (read_digits whole 0) (fun z => Some (z, 0%Z))
   | Some f => bind (read_digits (whole ++ f) 0) (fun z => Some (z, (- Z.of_nat (String.length f))%Z)) end) = Some (z, k).
Lemma has_app_e f a b : has f (a ++ b) = has f a || has f b.
Proof. apply has_app. Qed.
Lemma with_point_plain whole frac : Forall is_dig whole -> whole <> [] -> Forall is_dig frac ->
  exists z k, plain (with_point whole frac) z k /\ (IZR z * p10 k = IZR (digit_value (whole ++ frac)) * p10 (- Z.of_nat (List.length frac)))%R.
Proof.
  intros Hw Hn Hf. destruct (strip_spec frac) as [n E]. unfold with_point.
  assert (Hs : Forall is_dig (strip frac)) by (rewrite E in Hf; apply Forall_app in Hf; apply Hf).
  assert (V : forall t, strip frac = t -> (IZR (digit_value (whole ++ t)) * p10 (- Z.of_nat (List.length t)) = IZR (digit_value (whole ++ frac)) * p10 (- Z.of_nat (List.length frac)))%R).
  { intros t St. rewrite St in E. subst frac.
    rewrite app_assoc, (dval_app (whole ++ t)), dval_zeros, repeat_length, Z.add_0_r, app_length, repeat_length, mult_IZR.
    change 10%Z with (radix_val ten). rewrite IZR_Zpower by lia. rewrite Rmult_assoc, <- bpow_plus. f_equal. f_equal. lia. }
  assert (F : exists c r, digits_text whole = String c r /\ Ascii.eqb c "-" = false).
  { destruct whole as [|z w]; [contradiction|]. exists (digit_char z), (digits_text w). split; [reflexivity|]. apply no_minus. now inversion Hw. }
  destruct F as (c & r & F & Fc). destruct (strip frac) as [|y t] eqn:S.
  - exists (digit_value whole), 0%Z. split.
    + split; [apply digits_text_has; [apply no_e|exact Hw]|]. split; [now apply digits_word|]. split; [now exists c, r|].
      rewrite split_none by (apply digits_text_has; [apply no_point|exact Hw]). rewrite read_digits_text by exact Hw. reflexivity.
    + rewrite <- (V [] eq_refl). now rewrite List.app_nil_r.
  - exists (digit_value (whole ++ y :: t)), (- Z.of_nat (List.length (y :: t)))%Z. split; [|exact (V _ eq_refl)].
    rewrite <- S in *. clear S V E. set (f := strip frac) in *. clearbody f.
    split; [|split; [|split]].
    + rewrite !has_app. rewrite !digits_text_has; [reflexivity|apply no_e|exact Hs|apply no_e|exact Hw].
    + rewrite !all_app. rewrite !digits_word by assumption. reflexivity.
    + exists c, (r ++ "." ++ digits_text f). split; [rewrite F; reflexivity|exact Fc].
    + change ("." ++ digits_text f) with (String "." (digits_text f)). rewrite split_some by (apply digits_text_has; [apply no_point|exact Hw]).
      rewrite <- digits_text_app, read_digits_text by (apply Forall_app; split; assumption). cbn [bind]. rewrite digits_text_length. reflexivity.
Qed.
Lemma plain_unsigned s z k : plain s z k -> read_unsigned s = Some (z, k).
Proof.
  intros (He & _ & _ & H). unfold read_unsigned. rewrite split_none by exact He. destruct (split_at "." s) as [whole frac]. cbn [bind]. rewrite <- H. destruct frac; reflexivity.
Qed.
Lemma plain_exp s z k X : plain s z k -> read_unsigned (s ++ exp_text X) = Some (z, (k + X)%Z).
Proof.
  intros (He & _ & _ & H). destruct (exp_text_read X) as (t & -> & Ht & _). unfold read_unsigned. rewrite split_some by exact He. destruct (split_at "." s) as [whole frac]. rewrite Ht. cbn [bind].
  destruct frac as [f|].
  - destruct (read_digits (whole ++ f) 0) as [z'|]; [|discriminate]. cbn [bind] in *. inversion H. f_equal. f_equal. lia.
  - destruct (read_digits whole 0) as [z'|]; [|discriminate]. cbn [bind] in *. inversion H. reflexivity.
Qed.

(** * The text *)
Definition good (s : string) (v : R) : Prop :=
  (exists z k, read_unsigned s = Some (z, k) /\ v = (IZR z * p10 k)%R) /\ all_chars word_char s = true /\ exists c r, s = String c r /\ Ascii.eqb c "-" = false.
Lemma magnitude_good m e d X : six_digits m e = (d, X) -> good (magnitude_text m e) (IZR d * p10 (X - 5)).
Proof.
  intros E. pose proof (proj1 (six_digits_spec m e d X E)) as Hd. unfold magnitude_text. rewrite E.
  destruct (digits_spec 6 d) as (D & L & N); [change (10 ^ Z.of_nat 6)%Z with 1000000%Z; lia|]. set (ds := digits 6 d) in *. clearbody ds.
  assert (FS : forall k, Forall is_dig (firstn k ds) /\ Forall is_dig (skipn k ds)). { intros k. rewrite <- (firstn_skipn k ds) in D. now apply Forall_app in D. }
  assert (NE : forall k, (0 < k)%nat -> firstn k ds <> []). { intros k Hk. destruct ds as [|y l]; [discriminate|]. destruct k; [lia|]. discriminate. }
  destruct ((X <? -4) || (5 <? X))%Z%bool eqn:C1.
  - destruct (with_point_plain (firstn 1 ds) (skipn 1 ds) (proj1 (FS 1%nat)) (NE 1%nat ltac:(lia)) (proj2 (FS 1%nat))) as (z & k & P & V).
    split; [|split].
    + exists z, (k + X)%Z. split; [now apply plain_exp|]. rewrite bpow_plus, <- Rmult_assoc, V, firstn_skipn, N, skipn_length, L, Rmult_assoc, <- bpow_plus. f_equal. f_equal. lia.
    + destruct P as (_ & P & _). destruct (exp_text_read X) as (_ & _ & _ & Q). rewrite all_app, P, Q. reflexivity.
    + destruct P as (_ & _ & (c & r & -> & Hc) & _). exists c, (r ++ exp_text X). split; [reflexivity|exact Hc].
  - apply orb_false_elim in C1. destruct C1 as [C1 C2]. apply Z.ltb_ge in C1, C2. destruct (X <? 0)%Z eqn:C3.
    + apply Z.ltb_lt in C3. destruct (with_point_plain [0%Z] (repeat 0%Z (Z.to_nat (- X - 1)) ++ ds)) as (z & k & P & V).
      { constructor; [split; lia|constructor]. } { discriminate. } { apply Forall_app. split; [|exact D]. apply Forall_forall. intros x Hx. apply repeat_spec in Hx. subst. split; lia. }
      split; [|split; [apply P|apply P]]. exists z, k. split; [now apply plain_unsigned|]. rewrite V, app_assoc, dval_app, N.
      change ([0%Z] ++ repeat 0%Z (Z.to_nat (- X - 1)))%list with (repeat 0%Z (S (Z.to_nat (- X - 1)))). rewrite dval_zeros, app_length, repeat_length, L. f_equal. f_equal. lia.
    + apply Z.ltb_ge in C3. set (n := Z.to_nat (X + 1)). destruct (with_point_plain (firstn n ds) (skipn n ds) (proj1 (FS n)) (NE n ltac:(lia)) (proj2 (FS n))) as (z & k & P & V).
      split; [|split; [apply P|apply P]]. exists z, k. split; [now apply plain_unsigned|]. rewrite V, firstn_skipn, N, skipn_length, L. f_equal. f_equal. lia.
Qed.
Lemma val_sf x : val x = SF2R radix2 (Prim2SF x).
Proof. unfold val. rewrite <- B2SF_Prim2B. symmetry. apply SF2R_B2SF. Qed.
Lemma double_text_proper x : proper (double_text x).
Proof.
  unfold double_text. destruct (Prim2SF x) as [s|s| |s m e]; try (destruct s; (split; [reflexivity|discriminate])); [split; [reflexivity|discriminate]|].
  destruct (six_digits m e) as [d X] eqn:E. destruct (magnitude_good m e d X E) as (_ & W & c & r & Hr & _). rewrite Hr in *. destruct s; (split; [exact W|discriminate]).
Qed.
Lemma p10_powerRZ k : p10 k = powerRZ 10 k.
Proof. apply (bpow_powerRZ ten). Qed.
Lemma double_text_close x : number x -> exists y, denotes (double_text x) y /\ (Rabs (y - val x) <= 5 / 1000000 * Rabs (val x))%R.
Proof.
  unfold number. rewrite <- is_finite_SF_B2SF, B2SF_Prim2B. rewrite val_sf. unfold double_text. destruct (Prim2SF x) as [s|s| |s m e]; intros F; try discriminate.
  - exists 0%R. split; [|cbn [SF2R]; rewrite Rminus_0_r, Rabs_R0; lra]. exists 0%Z, 0%Z. split; [destruct s; reflexivity|]. lra.
  - destruct (six_digits m e) as [d X] eqn:E. destruct (six_digits_spec m e d X E) as [Hd Hc]. destruct (magnitude_good m e d X E) as ((z & k & Hr & Hv) & _ & c & r & Hs & Hm).
    assert (P : (0 < value m e)%R). { unfold value. apply Rmult_lt_0_compat; [now apply IZR_lt|apply bpow_gt_0]. }
    unfold SF2R, F2R. cbn [Fnum Fexp]. destruct s; cbn [cond_Zopp].
    + exists (- (IZR d * p10 (X - 5)))%R. split.
      * exists (- z)%Z, k. split; [|rewrite Hv, opp_IZR, p10_powerRZ; ring]. unfold read_decimal. cbn [append]. change (Ascii.eqb "-" "-") with true. cbn iota. rewrite Hr. reflexivity.
      * change (- Z.pos m)%Z with (Z.neg m) in *. replace (IZR (Z.neg m) * p2 e)%R with (- value m e)%R by (unfold value; change (Z.neg m) with (- Z.pos m)%Z; rewrite opp_IZR; ring).
        rewrite Rabs_Ropp, (Rabs_pos_eq (value m e)) by lra. replace (- (IZR d * p10 (X - 5)) - - value m e)%R with (- (IZR d * p10 (X - 5) - value m e))%R by ring. rewrite Rabs_Ropp. exact Hc.
    + exists (IZR d * p10 (X - 5))%R. split.
      * exists z, k. split; [|rewrite Hv, p10_powerRZ; reflexivity]. unfold read_decimal. cbn [append]. rewrite Hs in *. rewrite Hm. exact Hr.
      * change (IZR (Z.pos m) * p2 e)%R with (value m e). rewrite (Rabs_pos_eq (value m e)) by lra. exact Hc.
Qed.
