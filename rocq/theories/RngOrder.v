(** The order of a number modulo m, and the cycle of its powers. *)

From Coq Require Import ZArith Znumtheory Zpow_facts List Lia Bool.
Import ListNotations.
Local Open Scope Z_scope.

(** ** small primes *)
Definition small_prime (p : Z) : bool := (1 <? p) && forallb (fun n => negb (p mod n =? 0)) (map Z.of_nat (seq 2 (Z.to_nat p - 2))).
Lemma small_prime_ok p : small_prime p = true -> prime p.
Proof.
  unfold small_prime. intros H. apply andb_prop in H as [H1 H2]. apply Z.ltb_lt in H1. apply prime_alt. split; [exact H1|].
  intros n Hn D. rewrite forallb_forall in H2. specialize (H2 n). assert (negb (p mod n =? 0) = true) as K.
  { apply H2. apply in_map_iff. exists (Z.to_nat n). split; [lia|]. apply in_seq. lia. }
  apply negb_true_iff, Z.eqb_neq in K. apply K. apply Z.mod_divide; [lia|exact D].
Qed.
Lemma factor_in D (ps : list Z) : 1 < D -> Forall prime ps -> (D | fold_right Z.mul 1 ps) -> exists p, In p ps /\ (p | D).
Proof.
  intros HD. induction ps as [|p ps IH]; intros Hp Hd; cbn [fold_right] in Hd.
  - apply Z.divide_1_r_nonneg in Hd; lia.
  - inversion Hp as [|? ? P1 P2]; subst. destruct (Zdivide_dec p D) as [E|E]; [exists p; split; [left; reflexivity|exact E]|].
    destruct IH as (q & Hq & E'); [exact P2| |exists q; split; [right; exact Hq|exact E']].
    apply (Gauss D p); [exact Hd|]. apply rel_prime_sym, prime_rel_prime; assumption.
Qed.

Section Order.
Variables (g m : Z) (ps : list Z).
Hypotheses (Hm : 2 < m) (Hps : Forall prime ps) (Hprod : fold_right Z.mul 1 ps = m - 1).
Hypothesis Hone : g ^ (m - 1) mod m = 1.
Hypothesis Hnot : forall p, In p ps -> g ^ ((m - 1) / p) mod m <> 1.

Lemma pow_mult a b : 0 <= a -> 0 <= b -> g ^ a mod m = 1 -> g ^ (a * b) mod m = 1.
Proof. intros Ha Hb E. rewrite Z.pow_mul_r, Zpower_mod, E, Z.pow_1_l, Z.mod_1_l by lia. reflexivity. Qed.
Lemma pow_plus a b : 0 <= a -> 0 <= b -> g ^ b mod m = 1 -> g ^ (a + b) mod m = g ^ a mod m.
Proof. intros Ha Hb E. rewrite Z.pow_add_r, Z.mul_mod, E, Z.mul_1_r, Z.mod_mod by lia. reflexivity. Qed.

Lemma order n : 0 < n -> g ^ n mod m = 1 -> (m - 1 | n).
Proof.
  intros Hn E. pose proof (Zgcd_is_gcd n (m - 1)) as G. set (d := Z.gcd n (m - 1)) in *. assert (0 <= d) as D0 by apply Z.gcd_nonneg.
  assert (d | n) as Dn by apply G. assert (d | m - 1) as Dm by apply G.
  assert (0 < d) as D1. { destruct (Z.eq_dec d 0) as [Z0|]; [|lia]. rewrite Z0 in Dn. apply Z.divide_0_l in Dn. lia. }
  assert (g ^ d mod m = 1) as Ed.
  { destruct (Zis_gcd_bezout _ _ _ G) as [u v B]. set (t := Z.abs u + Z.abs v).
    assert (Z.abs u <= t /\ Z.abs v <= t /\ 0 <= t) as (T1 & T2 & T0) by (unfold t; lia).
    assert (t * 1 <= t * (m - 1)) by (apply Z.mul_le_mono_nonneg_l; lia). assert (t * 1 <= t * n) by (apply Z.mul_le_mono_nonneg_l; lia).
    assert (0 <= u + t * (m - 1)) as U0 by lia. assert (0 <= t * n - v) as W0 by lia. clearbody t.
    assert ((u + t * (m - 1)) * n = d + (m - 1) * (t * n - v)) as Eq by (rewrite <- B; ring).
    rewrite <- (pow_plus d ((m - 1) * (t * n - v))); [|lia|apply Z.mul_nonneg_nonneg; lia|apply pow_mult; try lia; exact Hone]. rewrite <- Eq, Z.mul_comm. apply pow_mult; try lia; exact E. }
  destruct (Z.eq_dec d (m - 1)) as [Eq|Ne]; [rewrite <- Eq; exact Dn|exfalso].
  destruct Dm as [k Hk]. assert (1 < k) as K1. { assert (k <> 1) by (intros ->; lia). assert (0 < k) by (apply (Z.mul_pos_cancel_r k d); lia). lia. }
  destruct (factor_in k ps K1 Hps) as (p & Hp & Dp). { rewrite Hprod. exists d. rewrite Hk. ring. }
  destruct Dp as [j Hj]. rewrite Forall_forall in Hps. pose proof (prime_ge_2 p (Hps p Hp)) as P2.
  apply (Hnot p Hp). rewrite Hk, Hj. replace (j * p * d) with (d * j * p) by ring. rewrite Z.div_mul by lia. apply pow_mult; [lia| |exact Ed]. assert (0 < j) by (apply (Z.mul_pos_cancel_r j p); lia). lia.
Qed.

Lemma coprime_pow n : 0 <= n -> exists h, (h * g ^ n) mod m = 1.
Proof.
  intros Hn. exists (g ^ (n * (m - 2))). rewrite <- Z.pow_add_r by nia. replace (n * (m - 2) + n) with ((m - 1) * n) by ring. apply pow_mult; try lia; exact Hone.
Qed.
Lemma cancel x y n : 0 <= n -> (x * g ^ n) mod m = (y * g ^ n) mod m -> x mod m = y mod m.
Proof.
  intros Hn E. destruct (coprime_pow n Hn) as [h Hh].
  assert (forall z, (z * g ^ n * h) mod m = z mod m) as K.
  { intros z. replace (z * g ^ n * h) with (z * (h * g ^ n)) by ring. rewrite Z.mul_mod, Hh, Z.mul_1_r, Z.mod_mod by lia. reflexivity. }
  rewrite <- (K x), <- (K y). rewrite (Z.mul_mod (x * _)), (Z.mul_mod (y * _)), E by lia. reflexivity.
Qed.
Lemma pow_inj i j : 0 <= i -> i < j -> j - i < m - 1 -> g ^ i mod m <> g ^ j mod m.
Proof.
  intros Hi Hj Hd E. assert (1 mod m = g ^ (j - i) mod m) as K.
  { apply (cancel 1 (g ^ (j - i)) i Hi). rewrite <- Z.pow_add_r by lia. replace (j - i + i) with j by lia. rewrite Z.mul_1_l. exact E. }
  rewrite Z.mod_1_l in K by lia. symmetry in K. apply order in K; [|lia]. apply Z.divide_pos_le in K; lia.
Qed.
Lemma pow_range n : 0 <= n -> 1 <= g ^ n mod m <= m - 1.
Proof.
  intros Hn. pose proof (Z.mod_pos_bound (g ^ n) m ltac:(lia)) as B. destruct (Z.eq_dec (g ^ n mod m) 0) as [E|E]; [exfalso|lia].
  destruct (coprime_pow n Hn) as [h Hh]. rewrite Z.mul_mod, E, Z.mul_0_r, Z.mod_0_l in Hh by lia. lia.
Qed.
(** every number from 1 to m - 1 is a power *)
Lemma NoDup_map_inj {X} (f : nat -> X) n : (forall i j, (i < j < n)%nat -> f i <> f j) -> NoDup (map f (seq 0 n)).
Proof.
  induction n as [|n IH]; intros H; [constructor|]. rewrite seq_S, map_app. cbn [map app]. rewrite Nat.add_0_l.
  apply (NoDup_Add (a := f n) (l := map f (seq 0 n))); [rewrite <- (app_nil_r (map f (seq 0 n))) at 1; apply Add_app|].
  split; [apply IH; intros; apply H; lia|]. intros Hin. apply in_map_iff in Hin as (i & E & Hi). apply in_seq in Hi. apply (H i n); [lia|exact E].
Qed.
Lemma powers x : 1 <= x <= m - 1 -> exists i, 0 <= i < m - 1 /\ g ^ i mod m = x.
Proof.
  intros Hx. set (K := Z.to_nat (m - 1)). assert (Z.of_nat K = m - 1) as EK by (unfold K; lia). clearbody K.
  set (orb := map (fun i => g ^ Z.of_nat i mod m) (seq 0 K)). set (all := map (fun i => Z.of_nat i + 1) (seq 0 K)).
  assert (incl all orb) as I.
  { apply NoDup_length_incl.
    - apply NoDup_map_inj. intros i j Hij. apply pow_inj; lia.
    - unfold orb, all. rewrite !map_length. lia.
    - intros y Hy. apply in_map_iff in Hy as (i & <- & Hi). pose proof (pow_range (Z.of_nat i) ltac:(lia)). apply in_map_iff. exists (Z.to_nat (g ^ Z.of_nat i mod m - 1)). split; [lia|]. apply in_seq. lia. }
  assert (In x orb) as Hin. { apply I. apply in_map_iff. exists (Z.to_nat (x - 1)). split; [lia|]. apply in_seq. lia. }
  apply in_map_iff in Hin as (i & E & Hi). apply in_seq in Hi. exists (Z.of_nat i). split; [lia|exact E].
Qed.

(** ** the sequence x, g x, g^2 x, ... *)
Definition mul_next (x : Z) : Z := (g * x) mod m.
Lemma iter_pow x n : 0 <= x < m -> Nat.iter n mul_next x = (x * g ^ Z.of_nat n) mod m.
Proof.
  intros Hx. induction n as [|n IH]; [cbn [Nat.iter]; rewrite Z.mul_1_r, Z.mod_small by lia; reflexivity|].
  change (Nat.iter (S n) mul_next x) with (mul_next (Nat.iter n mul_next x)). rewrite IH. unfold mul_next. rewrite Z.mul_mod_idemp_r by lia. f_equal.
  rewrite Nat2Z.inj_succ, Z.pow_succ_r by lia. ring.
Qed.
Lemma iter_range x n : 1 <= x <= m - 1 -> 1 <= Nat.iter n mul_next x <= m - 1.
Proof.
  intros Hx. rewrite iter_pow by lia. destruct (powers x Hx) as (i & Hi & <-). rewrite Z.mul_mod_idemp_l, <- Z.pow_add_r by lia. apply pow_range. lia.
Qed.
Lemma iter_period x n : 1 <= x <= m - 1 -> (Nat.iter n mul_next x = x <-> (m - 1 | Z.of_nat n)).
Proof.
  intros Hx. rewrite iter_pow by lia. destruct (powers x Hx) as (i & Hi & E). split.
  - intros H. destruct (Nat.eq_dec n 0) as [->|Hn]; [apply Z.divide_0_r|]. apply order; [lia|]. rewrite <- E, Z.mul_mod_idemp_l in H by lia.
    assert (g ^ Z.of_nat n mod m = 1 mod m) as K; [|rewrite Z.mod_1_l in K by lia; exact K]. apply (cancel _ 1 i); [lia|]. rewrite Z.mul_1_l, Z.mul_comm. exact H.
  - intros [k Hk]. rewrite Hk, Z.mul_mod, Z.mul_comm with (n := k), pow_mult by (try nia; exact Hone). rewrite Z.mul_1_r, Z.mod_mod, Z.mod_small by lia. reflexivity.
Qed.
Lemma iter_reach x y : 1 <= x <= m - 1 -> 1 <= y <= m - 1 -> exists n, Z.of_nat n < m - 1 /\ Nat.iter n mul_next x = y.
Proof.
  intros Hx Hy. destruct (powers x Hx) as (i & Hi & E). destruct (powers y Hy) as (j & Hj & E'). set (k := if i <=? j then j - i else j + (m - 1) - i).
  assert (0 <= k < m - 1) as Hk by (unfold k; destruct (Z.leb_spec i j); lia).
  exists (Z.to_nat k). split; [lia|]. rewrite iter_pow, Z2Nat.id by lia. rewrite <- E, Z.mul_mod_idemp_l, <- Z.pow_add_r by lia. unfold k. destruct (Z.leb_spec i j).
  - replace (i + (j - i)) with j by lia. exact E'.
  - replace (i + (j + (m - 1) - i)) with (j + (m - 1)) by lia. rewrite pow_plus by (try lia; exact Hone). exact E'.
Qed.
End Order.
