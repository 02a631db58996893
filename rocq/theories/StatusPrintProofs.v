(** Proofs about SamplingStatus::print. *)

From Coq Require Import Reals ZArith NArith Lia Lra.
From Coq Require Import ZifyN ZifyNat ZifyBool.
From Flocq Require Import Core Relative.
From Verif Require Import Base StatusPrintModel.
Local Open Scope R_scope.

(** Flocq's binary64 rounding meets the requirements. *)
Definition rnd64 : R -> R := round radix2 (FLT_exp (-1074) 53) ZnearestE.

Lemma rnd64_ieee : ieee_like rnd64.
Proof.
  split.
  - intros x y H. apply round_le; [apply FLT_exp_valid; reflexivity | apply valid_rnd_N | exact H].
  - intros z Hz. apply round_generic; [apply valid_rnd_N|].
    destruct (Z.eq_dec (Z.abs z) (2^53)) as [He|Hne].
    + assert (H : z = (2^53)%Z \/ z = (- 2^53)%Z) by lia.
      assert (Hg : generic_format radix2 (FLT_exp (-1074) 53) (IZR (2^53))).
      { change (2^53)%Z with (Zpower radix2 53). rewrite IZR_Zpower by lia.
        apply generic_format_bpow. unfold FLT_exp. lia. }
      destruct H as [-> | ->]; [exact Hg|]. rewrite opp_IZR. now apply generic_format_opp.
    + apply generic_format_FLT. exists (Float radix2 z 0).
      * unfold F2R. simpl. ring.
      * simpl. change (Zpower radix2 53) with (2^53)%Z. lia.
      * simpl. lia.
  - intros x Hx.
    assert (Hb : (bpow radix2 (-1074 + 53 - 1) <= Rabs x)).
    { rewrite Rabs_pos_eq by lra. apply Rle_trans with (bpow radix2 (-1)); [|simpl; lra].
      apply bpow_le. lia. }
    pose proof (relative_error_N_FLT radix2 (-1074) 53 eq_refl (fun n => negb (Z.even n)) x Hb) as H.
    unfold rnd64. eapply Rle_trans; [exact H|].
    rewrite (Rabs_pos_eq x) by lra.
    change (- (53) + 1)%Z with (-52)%Z.
    replace (bpow radix2 (-52)) with (/ 2^52).
    2:{ change (-52)%Z with (- (52))%Z. rewrite bpow_opp. f_equal.
      change (bpow radix2 52) with 4503599627370496. lra. }
    unfold Rdiv. assert (0 < / 2 ^ 52) by (apply Rinv_0_lt_compat, pow_lt; lra).
    set (e := / 2^52) in *. nra.
Qed.

(** Digits. *)
Lemma ndigits_fuel_pos f n : (1 <= ndigits_fuel f n)%N.
Proof.
  destruct f as [|f]; cbn [ndigits_fuel]; [lia|]. destruct (n <? 10)%N; lia.
Qed.

Lemma ndigits_fuel_spec f n k :
  (n < 2 ^ N.of_nat f)%N -> (1 <= k)%N -> (ndigits_fuel f n <= k <-> n < 10 ^ k)%N.
Proof.
  revert n k. induction f as [|f IH]; intros n k Hf Hk; cbn [ndigits_fuel].
  - assert (n = 0)%N by (simpl in Hf; lia). subst. pose proof (N.pow_nonzero 10 k). lia.
  - destruct (N.ltb_spec n 10) as [Hlt|Hge].
    + split; [intros _|lia]. apply N.lt_le_trans with (10^1)%N; [lia|].
      apply N.pow_le_mono_r; lia.
    + destruct (N.eq_dec k 1) as [->|Hk1].
      * split; [|simpl; lia]. intros H.
        assert (1 <= ndigits_fuel f (n/10))%N.
        { apply ndigits_fuel_pos. } lia.
      * assert (Hf' : (n / 10 < 2 ^ N.of_nat f)%N).
        { rewrite Nat2N.inj_succ, N.pow_succ_r in Hf by lia.
          apply N.div_lt_upper_bound; lia. }
        specialize (IH (n/10)%N (k - 1)%N Hf' ltac:(lia)).
        replace k with (N.succ (k-1))%N at 2 by lia. rewrite N.pow_succ_r by lia.
        pose proof (N.div_mod n 10 ltac:(lia)).
        pose proof (N.mod_lt n 10 ltac:(lia)).
        split; intros H1.
        -- assert (n / 10 < 10 ^ (k-1))%N by (apply IH; lia). lia.
        -- assert (n / 10 < 10 ^ (k-1))%N by (apply N.div_lt_upper_bound; lia).
           apply IH in H2. lia.
Qed.

Lemma ndigits_le n k : (1 <= k)%N -> (ndigits n <= k <-> n < 10 ^ k)%N.
Proof.
  intros Hk. unfold ndigits. apply ndigits_fuel_spec; [|exact Hk].
  rewrite N2Nat.id. apply N.size_gt.
Qed.

Lemma ndigits_pos n : (1 <= ndigits n)%N.
Proof.
  apply ndigits_fuel_pos.
Qed.

Lemma ndigits_mono n m : (n <= m)%N -> (ndigits n <= ndigits m)%N.
Proof.
  intros H. apply ndigits_le; [apply ndigits_pos|].
  apply N.le_lt_trans with m; [exact H|]. apply ndigits_le; [apply ndigits_pos|lia].
Qed.

Lemma Int_part_le x z : x < IZR (z + 1) -> (Int_part x <= z)%Z.
Proof.
  intros H. destruct (base_Int_part x) as [H1 _].
  assert (IZR (Int_part x) < IZR (z+1)) by lra. apply lt_IZR in H0. lia.
Qed.
Lemma Int_part_ge x z : IZR z <= x -> (z <= Int_part x)%Z.
Proof.
  intros H. destruct (base_Int_part x) as [_ H1].
  assert (IZR z < IZR (Int_part x + 1)) by (rewrite plus_IZR; lra). apply lt_IZR in H0. lia.
Qed.
Lemma Int_part_IZR z : Int_part (IZR z) = z.
Proof.
  apply Z.le_antisymm; [apply Int_part_le; apply IZR_lt; lia | apply Int_part_ge; lra].
Qed.

Lemma trunc_lt x n : x < Nreal n -> (0 < n)%N -> (trunc x < n)%N.
Proof.
  intros H Hn. unfold trunc. assert (Int_part x <= Z.of_N n - 1)%Z.
  { apply Int_part_le. replace (Z.of_N n - 1 + 1)%Z with (Z.of_N n) by lia. exact H. }
  lia.
Qed.
Lemma trunc_ge x n : Nreal n <= x -> (n <= trunc x)%N.
Proof. intros H. unfold trunc. apply Int_part_ge in H. lia. Qed.
Lemma trunc_le x n : x <= Nreal n -> (trunc x <= n)%N.
Proof.
  intros H. assert (trunc x < n + 1)%N; [|lia]. apply trunc_lt; [|lia].
  unfold Nreal in *. rewrite N2Z.inj_add, plus_IZR. simpl. lra.
Qed.

Lemma Nreal_le n m : (n <= m)%N -> Nreal n <= Nreal m.
Proof. intros H. apply IZR_le. lia. Qed.
Lemma Nreal_pos n : 0 <= Nreal n.
Proof. apply IZR_le. lia. Qed.
Lemma Nreal_lt n m : (n < m)%N -> Nreal n < Nreal m.
Proof. intros H. apply IZR_lt. lia. Qed.
Lemma Nreal_mul n m : Nreal (n * m) = Nreal n * Nreal m.
Proof. unfold Nreal. now rewrite N2Z.inj_mul, mult_IZR. Qed.

Section Print.
Variable rnd : R -> R.
Hypothesis Hr : ieee_like rnd.

Lemma rnd_N n : (n <= 2^53)%N -> rnd (Nreal n) = Nreal n.
Proof. intros H. apply (rnd_int _ Hr). lia. Qed.

Lemma rnd_le_N x n : (n <= 2^53)%N -> x <= Nreal n -> rnd x <= Nreal n.
Proof. intros Hn Hx. rewrite <- (rnd_N n Hn). now apply (rnd_mono _ Hr). Qed.
Lemma rnd_ge_N x n : (n <= 2^53)%N -> Nreal n <= x -> Nreal n <= rnd x.
Proof. intros Hn Hx. rewrite <- (rnd_N n Hn). now apply (rnd_mono _ Hr). Qed.

Lemma div_le a b c : 0 < b -> a <= c * b -> a / b <= c.
Proof. intros Hb H. apply (Rmult_le_reg_r b); [exact Hb|]. unfold Rdiv. rewrite Rmult_assoc, Rinv_l by lra. lra. Qed.
Lemma div_ge a b c : 0 < b -> c * b <= a -> c <= a / b.
Proof. intros Hb H. apply (Rmult_le_reg_r b); [exact Hb|]. unfold Rdiv. rewrite Rmult_assoc, Rinv_l by lra. lra. Qed.

Definition ratio_of cur all := rnd (100 * rnd (rnd (Nreal cur) / rnd (Nreal all))).
Definition progress_of cur tgt := rnd (rnd (100 * rnd (Nreal cur)) / rnd (Nreal tgt)).

Lemma ratio_bounds cur all :
  (0 < all)%N -> (cur <= all)%N -> (all <= 2^53)%N ->
  0 <= ratio_of cur all <= 100.
Proof.
  intros H0 Hc Ha. unfold ratio_of. rewrite !rnd_N by lia.
  assert (Hp : 0 < Nreal all) by (apply (Nreal_lt 0); lia).
  assert (H1 : 0 <= rnd (Nreal cur / Nreal all) <= 1).
  { split.
    - apply (rnd_ge_N _ 0%N); [lia|]. change (Nreal 0) with 0. apply div_ge; [exact Hp|].
      pose proof (Nreal_pos cur). lra.
    - apply (rnd_le_N _ 1%N); [lia|]. change (Nreal 1) with 1. apply div_le; [exact Hp|].
      pose proof (Nreal_le _ _ Hc). lra. }
  split.
  - apply (rnd_ge_N _ 0%N); [lia|]. change (Nreal 0) with 0. lra.
  - apply (rnd_le_N _ 100%N); [lia|]. change (Nreal 100) with 100. lra.
Qed.

Lemma progress_bounds cur tgt k :
  (0 < tgt <= 2^53)%N -> (100 * cur <= k * tgt)%N -> (k * tgt <= 2^53)%N ->
  (k <= 2^53)%N ->
  0 <= progress_of cur tgt <= Nreal k.
Proof.
  intros [H0 Ht] Hc Hb Hk. unfold progress_of.
  rewrite (rnd_N cur), (rnd_N tgt) by lia.
  assert (Hp : 0 < Nreal tgt) by (apply (Nreal_lt 0); lia).
  replace (100 * Nreal cur) with (Nreal (100 * cur)) by (rewrite Nreal_mul; reflexivity).
  rewrite rnd_N by lia.
  split.
  - apply (rnd_ge_N _ 0%N); [lia|]. change (Nreal 0) with 0. apply div_ge; [exact Hp|].
    pose proof (Nreal_pos (100*cur)). lra.
  - apply rnd_le_N; [exact Hk|]. apply div_le; [exact Hp|].
    rewrite <- Nreal_mul. apply Nreal_le. lia.
Qed.

Lemma padding_small w n : (n <= w)%N -> (w < 2^63)%N -> spaces (padding w n) = Ok (w - n)%N.
Proof.
  intros H Hw. unfold padding, spaces. apply N.leb_le in H as H'. rewrite H'.
  destruct (N.ltb_spec (w - n) (2^63)); [reflexivity|lia].
Qed.
Lemma padding_large w n : (w < n)%N -> (n < 2^63)%N -> spaces (padding w n) = Throw LengthError.
Proof.
  intros H Hn. unfold padding, spaces. destruct (N.leb_spec n w); [lia|].
  destruct (N.ltb_spec (2^64 + w - n) (2^63)); [lia|reflexivity].
Qed.

(** Characters actually written exceed the announced number by at most one. *)
Lemma fixed2_ge x : 0 <= x -> (ndigits (trunc x) + 3 <= fixed2_chars x)%N.
Proof.
  intros Hx. unfold fixed2_chars. assert (ndigits (trunc x) <= ndigits (Z.to_N (Int_part (100 * x + 1/2) / 100)))%N; [|lia].
  apply ndigits_mono. unfold trunc.
  assert (Int_part x <= Int_part (100 * x + 1 / 2) / 100)%Z; [|lia].
  apply Z.div_le_lower_bound; [lia|]. apply Int_part_ge. rewrite mult_IZR.
  destruct (base_Int_part x). lra.
Qed.
Lemma fixed2_le x k : 0 <= x <= Nreal k -> (fixed2_chars x <= ndigits k + 3)%N.
Proof.
  intros Hx. unfold fixed2_chars.
  assert (ndigits (Z.to_N (Int_part (100 * x + 1/2) / 100)) <= ndigits k)%N; [|lia].
  apply ndigits_mono.
  assert (Int_part (100 * x + 1 / 2) / 100 <= Z.of_N k)%Z; [|lia].
  assert (Int_part (100 * x + 1 / 2) < 100 * Z.of_N k + 100)%Z.
  { assert (Int_part (100 * x + 1 / 2) <= 100 * Z.of_N k)%Z; [|lia].
    apply Int_part_le. rewrite plus_IZR, mult_IZR. unfold Nreal in Hx. lra. }
  apply Z.lt_succ_r. apply Z.div_lt_upper_bound; lia.
Qed.

Lemma fixed2_le_trunc x : 0 <= x -> (fixed2_chars x <= ndigits (trunc x + 1) + 3)%N.
Proof.
  intros Hx. apply fixed2_le. split; [exact Hx|].
  unfold trunc, Nreal. destruct (base_Int_part x) as [_ H].
  assert (0 <= Int_part x)%Z by (apply (Int_part_ge x 0); lra).
  rewrite N2Z.inj_add, Z2N.id by assumption. rewrite plus_IZR. change (IZR (Z.of_N 1)) with 1. lra.
Qed.

Lemma c05_ok_lemma cur rej tgt :
  (0 < cur + rej)%N -> (0 < tgt)%N ->
  (cur < 10^13)%N -> (rej < 10^13)%N ->
  (cur <= 999 * tgt)%N -> (tgt <= 9 * 10^10)%N ->
  exists r, print_row rnd cur rej tgt = Ok r /\
    w_count r = 13%N /\ w_rejected r = 13%N /\
    (16 <= w_ratio r <= 17)%N /\ (8 <= w_progress r <= 9)%N.
Proof.
  intros Hall Htgt Hcur Hrej Hprog Ht.
  unfold print_row.
  assert (Hmod : ((cur + rej) mod 2^64)%N = (cur + rej)%N).
  { apply N.mod_small. lia. }
  rewrite Hmod.
  destruct (N.eqb_spec (cur + rej) 0); [lia|].
  destruct (N.eqb_spec tgt 0); [lia|].
  fold (ratio_of cur (cur + rej)). fold (progress_of cur tgt).
  destruct (ratio_bounds cur (cur + rej)) as [Hr0 Hr1]; [lia..|].
  destruct (progress_bounds cur tgt 99900) as [Hp0 Hp1]; [lia..|].
  set (ra := ratio_of cur (cur + rej)) in *. set (pr := progress_of cur tgt) in *.
  clearbody ra pr.
  assert (Htr : (trunc ra <= 100)%N) by (apply trunc_le; exact Hr1).
  assert (Htp : (trunc pr <= 99900)%N) by (apply trunc_le; exact Hp1).
  destruct (N.leb_spec (2^31) (trunc ra)); [lia|].
  destruct (N.leb_spec (2^31) (trunc pr)); [lia|].
  assert (Hd1 : (ndigits cur <= 13)%N) by (apply ndigits_le; lia).
  assert (Hd2 : (ndigits rej <= 13)%N) by (apply ndigits_le; lia).
  assert (Hd3 : (ndigits (trunc ra) <= 3)%N) by (apply ndigits_le; [lia|]; change (10^3)%N with 1000%N; lia).
  assert (Hd4 : (ndigits (trunc pr) <= 5)%N) by (apply ndigits_le; [lia|]; change (10^5)%N with 100000%N; lia).
  rewrite !padding_small by lia. cbn [obind].
  eexists. split; [reflexivity|]. cbn [w_count w_rejected w_ratio w_progress].
  pose proof (fixed2_ge ra Hr0). pose proof (fixed2_ge pr Hp0).
  assert (Hsucc : forall n, (ndigits (n + 1) <= ndigits n + 1)%N).
  { intros n'. apply ndigits_le; [lia|]. rewrite (N.add_1_r (ndigits n')), N.pow_succ_r by lia.
    assert (n' < 10 ^ ndigits n')%N by (apply ndigits_le; [apply ndigits_pos|lia]). lia. }
  pose proof (fixed2_le_trunc ra Hr0). pose proof (fixed2_le_trunc pr Hp0).
  pose proof (Hsucc (trunc ra)). pose proof (Hsucc (trunc pr)).
  lia.
Qed.

(** Printing a status with a target but no sample yet. *)
Lemma c05_fresh_lemma tgt : print_row rnd 0 0 tgt = UB.
Proof. reflexivity. Qed.
Lemma c05_no_target_lemma cur rej : print_row rnd cur rej 0 = UB.
Proof. unfold print_row. destruct (_ =? 0)%N; reflexivity. Qed.

(** A counter 1000 times beyond its target. *)
Lemma c05_length_lemma cur rej tgt :
  (0 < tgt)%N -> (1000 * tgt <= cur)%N -> (cur < 10^13)%N -> (rej < 10^13)%N ->
  (cur <= 10^5 * tgt)%N -> (tgt <= 9 * 10^8)%N ->
  print_row rnd cur rej tgt = Throw LengthError.
Proof.
  intros Htgt Hbig Hcur Hrej Hbig2 Ht. unfold print_row.
  assert (Hmod : ((cur + rej) mod 2^64)%N = (cur + rej)%N).
  { apply N.mod_small. lia. }
  rewrite Hmod.
  destruct (N.eqb_spec (cur + rej) 0); [lia|].
  destruct (N.eqb_spec tgt 0); [lia|].
  fold (ratio_of cur (cur + rej)). fold (progress_of cur tgt).
  destruct (ratio_bounds cur (cur + rej)) as [Hr0 Hr1]; [lia..|].
  destruct (progress_bounds cur tgt (10^7)) as [Hp0 Hp1]; [lia..|].
  assert (Hp2 : Nreal 100000 <= progress_of cur tgt).
  { unfold progress_of. rewrite (rnd_N cur), (rnd_N tgt) by lia.
    replace (100 * Nreal cur) with (Nreal (100 * cur)) by (rewrite Nreal_mul; reflexivity).
    rewrite rnd_N by lia. apply rnd_ge_N; [lia|].
    apply div_ge; [apply (Nreal_lt 0); lia|]. rewrite <- Nreal_mul. apply Nreal_le. lia. }
  set (ra := ratio_of cur (cur + rej)) in *. set (pr := progress_of cur tgt) in *.
  clearbody ra pr.
  assert (Htr : (trunc ra <= 100)%N) by (apply trunc_le; exact Hr1).
  assert (Htp : (trunc pr <= 10^7)%N) by (apply trunc_le; exact Hp1).
  assert (Htp2 : (100000 <= trunc pr)%N) by (apply trunc_ge; exact Hp2).
  destruct (N.leb_spec (2^31) (trunc ra)); [lia|].
  destruct (N.leb_spec (2^31) (trunc pr)); [lia|].
  assert (Hd1 : (ndigits cur <= 13)%N) by (apply ndigits_le; lia).
  assert (Hd2 : (ndigits rej <= 13)%N) by (apply ndigits_le; lia).
  assert (Hd3 : (ndigits (trunc ra) <= 3)%N) by (apply ndigits_le; [lia|]; change (10^3)%N with 1000%N; lia).
  assert (Hd4 : (6 <= ndigits (trunc pr))%N).
  { apply N.lt_pred_le. apply N.lt_nge. intros Hc. change (N.pred 6) with 5%N in Hc.
    apply ndigits_le in Hc; lia. }
  assert (Hd5 : (ndigits (trunc pr) <= 8)%N) by (apply ndigits_le; lia).
  rewrite !(padding_small 13), !(padding_small 16) by lia. simpl.
  rewrite padding_large by lia. reflexivity.
Qed.

(** 99999 accepted, 1 rejected: "100.00" is one character wider than announced. *)
Lemma c05_misaligned_lemma :
  exists r, print_row rnd 99999 1 100000 = Ok r /\ w_ratio r = 17%N.
Proof.
  destruct (c05_ok_lemma 99999 1 100000) as (r & Hok & _ & _ & Hra & _); [lia..|].
  exists r. split; [exact Hok|].
  assert (17 <= w_ratio r)%N; [|lia]. clear Hra.
  unfold print_row in Hok. change ((99999 + 1) mod 2^64)%N with 100000%N in Hok.
  change (100000 =? 0)%N with false in Hok. cbv iota zeta in Hok.
  fold (ratio_of 99999 100000) in Hok. fold (progress_of 99999 100000) in Hok.
  assert (Hra : 99.998 <= ratio_of 99999 100000 < 100).
  { unfold ratio_of. rewrite !rnd_N by lia.
    change (Nreal 99999) with 99999. change (Nreal 100000) with 100000.
    set (q := 99999 / 100000).
    assert (Hq : q = 0.99999) by (unfold q; lra).
    pose proof (rnd_err _ Hr q ltac:(lra)) as He. apply Rabs_le_inv in He.
    assert (Hq1 : 0.999985 <= rnd q <= 0.999995) by lra.
    pose proof (rnd_err _ Hr (100 * rnd q) ltac:(lra)) as He2. apply Rabs_le_inv in He2.
    lra. }
  set (ra := ratio_of 99999 100000) in *. clearbody ra.
  assert (Ht : trunc ra = 99%N).
  { unfold trunc. replace (Int_part ra) with 99%Z; [reflexivity|].
    apply Z.le_antisymm; [apply Int_part_ge; lra | apply Int_part_le; rewrite plus_IZR; lra]. }
  assert (Hf : fixed2_chars ra = 6%N).
  { unfold fixed2_chars. replace (Int_part (100 * ra + 1 / 2)) with 10000%Z; [reflexivity|].
    apply Z.le_antisymm; [apply Int_part_ge; lra | apply Int_part_le; rewrite plus_IZR; lra]. }
  rewrite Ht, Hf in Hok. change (ndigits 99) with 2%N in Hok.
  rewrite (padding_small 16 (2+3)) in Hok by lia.
  destruct (progress_bounds 99999 100000 100) as [Hp0 Hp1]; [lia..|].
  set (pr := progress_of 99999 100000) in *. clearbody pr.
  change (2^31 <=? 99)%N with false in Hok. cbv iota in Hok.
  destruct (_ <=? _)%N; [discriminate|].
  destruct (spaces (padding 13 _)) in Hok; simpl in Hok; try discriminate.
  destruct (spaces (padding 8 _)) in Hok; simpl in Hok; try discriminate.
  injection Hok as <-. simpl. lia.
Qed.

End Print.

(** From rows to statuses. *)
From stdpp Require Import prelude gmap.
From Verif Require Import StatusModel StatusSpec StatusProofs.

Lemma sum_wrap_acc l acc :
  fold_left (fun a kc => wrap64 (a + snd kc)) l (wrap64 acc) = wrap64 (acc + sum_counts l)%N.
Proof.
  revert acc. induction l as [|[k c] l IH]; intros acc.
  - simpl. by rewrite N.add_0_r.
  - cbn [fold_left snd]. rewrite wrap64_add, IH. f_equal. unfold sum_counts. simpl. lia.
Qed.
Lemma sum_wrap_sum l : sum_wrap l = wrap64 (sum_counts l).
Proof. exact (sum_wrap_acc l 0). Qed.

Lemma wrap64_small n : (n < 2^64)%N -> wrap64 n = n.
Proof. apply N.mod_small. Qed.

Lemma c05_status_lemma rnd h oc ot :
  ieee_like rnd ->
  iteration_order (counts (run h)) oc -> iteration_order (targets (run h)) ot ->
  let accepted := sum_counts oc in
  let rej := rejections (rev h) in
  let target := sum_counts ot in
  (0 < accepted + rej)%N -> (0 < target)%N ->
  (accepted < 10^13)%N -> (rej < 10^13)%N ->
  (accepted <= 999 * target)%N -> (target <= 9 * 10^10)%N ->
  exists r, print rnd (run h) oc ot = Ok r /\
    w_count r = 13%N /\ w_rejected r = 13%N /\
    (16 <= w_ratio r <= 17)%N /\ (8 <= w_progress r <= 9)%N.
Proof.
  intros Hr _ _ accepted rej target H1 H2 H3 H4 H5 H6. unfold print.
  rewrite c04_rejected_lemma, !sum_wrap_sum.
  fold accepted rej target. rewrite !wrap64_small by lia.
  by apply c05_ok_lemma.
Qed.

(** [setTargetCount(1,1)] followed by n calls of [increaseCounter(1)]. *)
Definition surpassed (n : nat) : list op := SetTarget 1 1 :: replicate n (Increase 1).

Lemma surpassed_state n :
  (N.of_nat n < 2^64)%N ->
  run (surpassed n) = mkStatus false 0 {[ 1%N := N.of_nat n ]} {[ 1%N := 1%N ]}.
Proof.
  induction n as [|n IH]; intros Hn.
  - reflexivity.
  - unfold surpassed in *. rewrite replicate_S_end.
    change (SetTarget 1 1 :: (replicate n (Increase 1) ++ [Increase 1]))
      with ((SetTarget 1 1 :: replicate n (Increase 1)) ++ [Increase 1]).
    rewrite run_snoc, IH by lia. cbn [step]. unfold increase_counter. cbn [fst counts targets header_printed rejected].
    f_equal.
    unfold subscript. rewrite lookup_singleton. rewrite wrap64_small by lia.
    rewrite insert_singleton. f_equal. lia.
Qed.

Lemma c05_length_refuted_lemma rnd :
  ieee_like rnd ->
  exists h, forall oc ot,
    iteration_order (counts (run h)) oc -> iteration_order (targets (run h)) ot ->
    print rnd (run h) oc ot = Throw LengthError.
Proof.
  intros Hr. exists (surpassed 1000). rewrite surpassed_state by lia.
  unfold iteration_order. cbn [counts targets]. rewrite !map_to_list_singleton.
  intros oc ot Hoc Hot. symmetry in Hoc, Hot.
  apply Permutation_singleton_l in Hoc, Hot. subst. unfold print, sum_wrap.
  cbn [fold_left rejected snd].
  change (wrap64 (0 + N.of_nat 1000)) with 1000%N. change (wrap64 (0+1)) with 1%N.
  by apply c05_length_lemma.
Qed.

Lemma c05_ub_refuted_lemma rnd :
  exists h, targets_first (rev h) /\ (exists t, user_target 1 (rev h) = Some t /\ (0 < t)%N) /\
   forall oc ot,
    iteration_order (counts (run h)) oc -> iteration_order (targets (run h)) ot ->
    print rnd (run h) oc ot = UB.
Proof.
  exists [SetTarget 1 5]. split; [done|]. split; [by exists 5%N|].
  intros oc ot Hoc Hot. unfold iteration_order in *.
  change (counts (run [SetTarget 1 5])) with ({[ 1%N := 0%N ]} : gmap N N) in Hoc.
  rewrite map_to_list_singleton in Hoc. symmetry in Hoc.
  apply Permutation_singleton_l in Hoc. subst. unfold print. apply c05_fresh_lemma.
Qed.
