(** Proofs for C117: the random number engine. *)

From Coq Require Import ZArith Znumtheory Zpow_facts List Lia Bool.
From Coq Require Import Floats.
From Verif Require Import Base NumModel VecModel LinModel RoundModel PolyModel DistModel IntModel SampModel DomModel RngModel RngSpec RngOrder.
Import ListNotations.
Local Open Scope Z_scope.

Definition factors : list Z := [2; 3; 3; 7; 11; 31; 151; 331].
Lemma factors_prime : Forall prime factors.
Proof. unfold factors. repeat (apply Forall_cons; [apply small_prime_ok; vm_compute; reflexivity|]). apply Forall_nil. Qed.
Lemma factors_prod : fold_right Z.mul 1 factors = modulus - 1.
Proof. vm_compute. reflexivity. Qed.
Lemma pow_all : multiplier ^ (modulus - 1) mod modulus = 1.
Proof. rewrite <- Zpow_mod_correct by (unfold modulus; lia). vm_compute. reflexivity. Qed.
Lemma pow_parts p : In p factors -> multiplier ^ ((modulus - 1) / p) mod modulus <> 1.
Proof.
  intros Hp. rewrite <- Zpow_mod_correct by (unfold modulus; lia). revert p Hp.
  assert (forallb (fun p => negb (Zpow_mod multiplier ((modulus - 1) / p) modulus =? 1)) factors = true) as H by (vm_compute; reflexivity).
  rewrite forallb_forall in H. intros p Hp. apply Z.eqb_neq, negb_true_iff, (H p Hp).
Qed.
Lemma m2 : 2 < modulus.
Proof. reflexivity. Qed.
Lemma m1 : modulus - 1 = 2147483646.
Proof. reflexivity. Qed.
Lemma next_is x : next x = mul_next multiplier modulus x.
Proof. reflexivity. Qed.

Lemma seeded_value seed : engine_value (seeded seed).
Proof. unfold seeded, engine_value. cbv zeta. pose proof (Z.mod_pos_bound seed modulus ltac:(reflexivity)) as B. rewrite <- m1. destruct (Z.eqb_spec (seed mod modulus) 0); unfold modulus in *; lia. Qed.
Lemma run_value x n : engine_value x -> engine_value (Nat.iter n next x).
Proof. unfold engine_value. rewrite <- m1. exact (iter_range multiplier modulus factors m2 factors_prime factors_prod pow_all pow_parts x n). Qed.
Lemma run_period x n : engine_value x -> (Nat.iter n next x = x <-> (2147483646 | Z.of_nat n)).
Proof. unfold engine_value. rewrite <- m1. exact (iter_period multiplier modulus factors m2 factors_prime factors_prod pow_all pow_parts x n). Qed.
Lemma run_reach x y : engine_value x -> engine_value y -> exists n, Z.of_nat n < 2147483646 /\ Nat.iter n next x = y.
Proof. unfold engine_value. rewrite <- m1. exact (iter_reach multiplier modulus factors m2 factors_prime factors_prod pow_all pow_parts x y). Qed.
Lemma run_add x a b : Nat.iter (a + b) next x = Nat.iter a next (Nat.iter b next x).
Proof. induction a as [|a IH]; [reflexivity|]. cbn [Nat.add Nat.iter nat_rect]. cbn [Nat.iter nat_rect] in IH. unfold Nat.iter in *. cbn. rewrite IH. reflexivity. Qed.

Lemma state_value seed n : engine_value (state seed n).
Proof. apply run_value, seeded_value. Qed.
Lemma state_add seed a b : state seed (a + b) = Nat.iter a next (state seed b).
Proof. apply run_add. Qed.
Lemma state_period seed i j : state seed i = state seed j <-> (2147483646 | Z.of_nat i - Z.of_nat j).
Proof.
  assert (forall i j, (i <= j)%nat -> (state seed i = state seed j <-> (2147483646 | Z.of_nat j - Z.of_nat i))) as K.
  { intros a b H. replace b with (b - a + a)%nat at 1 by lia. rewrite state_add. pose proof (run_period (state seed a) (b - a) (state_value seed a)) as P.
    rewrite Nat2Z.inj_sub in P by exact H. rewrite <- P. split; intros E; symmetry; exact E. }
  destruct (Nat.le_ge_cases i j) as [H|H].
  - rewrite (K i j H). replace (Z.of_nat j - Z.of_nat i) with (- (Z.of_nat i - Z.of_nat j)) by lia. apply Z.divide_opp_r.
  - rewrite <- (K j i H). split; intros E; symmetry; exact E.
Qed.
Lemma one_cycle seed seed' : exists n, Z.of_nat n < 2147483646 /\ forall k, state seed' k = state seed (n + k).
Proof.
  destruct (run_reach _ _ (seeded_value seed) (seeded_value seed')) as (n & Hn & E). exists n. split; [exact Hn|]. intros k. rewrite Nat.add_comm, state_add. unfold state at 1. f_equal. symmetry. exact E.
Qed.
Lemma same_seeds seed k : state (seed + 2147483647) k = state seed k /\ state 0 k = state 1 k.
Proof.
  split; [|reflexivity]. unfold state. f_equal. unfold seeded. change 2147483647 with (1 * modulus). rewrite Z.mod_add by discriminate. reflexivity.
Qed.

(** ** samplers *)
Lemma draw_state x : snd (draw x) = Nat.iter 2 next x.
Proof. reflexivity. Qed.
Section Points.
Context {T : Trig float}.
Variable sample : Z -> V3 float * Z.
Hypothesis Hs : forall x, snd (sample x) = Nat.iter 6 next x.
Lemma points_state n x : snd (points sample n x) = Nat.iter (n * 6) next x.
Proof.
  revert x. induction n as [|n IH]; intros x; [reflexivity|]. cbn [points]. specialize (Hs x). destruct (sample x) as [p y]. cbn [snd] in Hs. specialize (IH y).
  destruct (points sample n y) as [ps z]. cbn [snd] in *. rewrite IH, Hs, <- run_add. f_equal. lia.
Qed.
Lemma points_length n x : length (fst (points sample n x)) = n.
Proof.
  revert x. induction n as [|n IH]; intros x; [reflexivity|]. cbn [points]. destruct (sample x) as [p y]. specialize (IH y). destruct (points sample n y) as [ps z]. cbn [fst length] in *. f_equal. exact IH.
Qed.
Lemma points_repeat n x : engine_value x -> (snd (points sample n x) = x <-> (357913941 | Z.of_nat n)).
Proof.
  intros Hx. rewrite points_state, run_period by exact Hx. rewrite Nat2Z.inj_mul. change 2147483646 with (357913941 * 6). change (Z.of_nat 6) with 6. apply Z.mul_divide_cancel_r. lia.
Qed.
Lemma points_from n x : engine_value x -> forall p, In p (fst (points sample n x)) -> exists y, engine_value y /\ p = fst (sample y).
Proof.
  revert x. induction n as [|n IH]; intros x Hx p; [intros []|]. cbn [points]. pose proof (Hs x) as E. destruct (sample x) as [q y] eqn:S. cbn [snd] in E.
  assert (engine_value y) as Hy by (rewrite E; apply run_value, Hx). specialize (IH y Hy p). destruct (points sample n y) as [ps z]. cbn [fst In] in *. intros [<-|H]; [|exact (IH H)].
  exists x. rewrite S. split; [exact Hx|reflexivity].
Qed.
(** one of 2^31 - 2 points *)
Lemma few_points : exists L, Z.of_nat (length L) = 2147483646 /\ forall seed n p, In p (fst (points sample n (seeded seed))) -> In p L.
Proof.
  set (m := modulus - 1). assert (0 <= m) as M0 by (unfold m, modulus; lia). rewrite <- m1. fold m. unfold engine_value in *.
  exists (map (fun i => fst (sample (Z.of_nat i + 1))) (seq 0 (Z.to_nat m))). split; [rewrite map_length, seq_length; apply Z2Nat.id, M0|].
  intros seed n p Hp. destruct (points_from n _ (seeded_value seed) p Hp) as (y & Hy & ->). unfold engine_value in Hy. rewrite <- m1 in Hy. fold m in Hy. clearbody m.
  apply in_map_iff. exists (Z.to_nat (y - 1)). split; [f_equal; f_equal; lia|]. apply in_seq. lia.
Qed.
End Points.
Lemma box_state `{T : Trig float} b x : snd (box_point b x) = Nat.iter 6 next x.
Proof. reflexivity. Qed.
Lemma cyl_state `{T : Trig float} s x : snd (cyl_point s x) = Nat.iter 6 next x.
Proof. reflexivity. Qed.
