(** Proofs for C119: the numbers drawn from distributions. *)

From Coq Require Import ZArith Reals Lra Lia Bool List.
From Flocq Require Import Core.Core.
From Coq Require Import Floats.
From Verif Require Import Base NumModel VecModel RoundModel PolyModel DistModel IntModel SampModel DomModel RngModel GeoSpec DblSpec DomSpec RngSpec DblLemmas DblProofs DblLen DomProofs RngProofs RngDbl DrawModel.
Import ListNotations.
Local Open Scope Z_scope.

Lemma iter_S_r n x : Nat.iter (S n) next x = Nat.iter n next (next x).
Proof. induction n as [|n IH]; [reflexivity|]. change (next (Nat.iter (S n) next x) = next (Nat.iter n next (next x))). rewrite IH. reflexivity. Qed.
Lemma next_value x : engine_value x -> engine_value (next x).
Proof. exact (run_value x 1). Qed.

(** ** Integers *)
Section Ints.
Variables a b : Z.
Hypothesis Hr : 0 <= b - a <= 2147483645.
(** how many values of the engine give the same number *)
Definition share : Z := if b - a <? 2147483645 then 2147483645 / (b - a + 1) else 1.
Definition taken (y : Z) : Prop := y <= (b - a + 1) * share.
Lemma share_ok : 1 <= share /\ 2147483645 - (b - a + 1) < (b - a + 1) * share <= 2147483646.
Proof.
  unfold share. destruct (b - a <? 2147483645) eqn:E; [|apply Z.ltb_ge in E; lia]. apply Z.ltb_lt in E.
  pose proof (Z.div_mod 2147483645 (b - a + 1) ltac:(lia)) as D. pose proof (Z.mod_pos_bound 2147483645 (b - a + 1) ltac:(lia)) as P.
  set (q := 2147483645 / (b - a + 1)) in *. set (r := 2147483645 mod (b - a + 1)) in *. split; [|lia]. assert (0 < q); [|lia]. apply Z.nle_gt. intros N. assert ((b - a + 1) * q <= 0) by nia. lia.
Qed.
Lemma draw_int_step fuel x : engine_value x -> draw_int a b (S fuel) x = if next x <=? (b - a + 1) * share then Ok ((next x - 1) / share + a, next x) else draw_int a b fuel (next x).
Proof.
  intros H. pose proof (next_value x H) as V. unfold engine_value in V. cbn [draw_int]. unfold share. destruct (b - a <? 2147483645) eqn:E.
  - set (p := (b - a + 1) * _). destruct (p <=? next x - 1) eqn:L; destruct (next x <=? p) eqn:L'; try reflexivity; exfalso; rewrite ?Z.leb_le, ?Z.leb_gt in *; lia.
  - apply Z.ltb_ge in E. assert (b - a = 2147483645) as -> by lia. rewrite Z.div_1_r. destruct (next x <=? (2147483645 + 1) * 1) eqn:L; [reflexivity|]. apply Z.leb_gt in L. lia.
Qed.
Lemma value_range y : engine_value y -> taken y -> a <= (y - 1) / share + a <= b.
Proof.
  unfold engine_value, taken. intros V L. destruct share_ok as [S _]. pose proof (Z.div_pos (y - 1) share ltac:(lia) ltac:(lia)).
  assert ((y - 1) / share < b - a + 1) by (apply Z.div_lt_upper_bound; lia). lia.
Qed.
Lemma value_is y v : engine_value y -> (taken y /\ (y - 1) / share + a = v) <-> (a <= v <= b /\ (v - a) * share < y <= (v - a + 1) * share).
Proof.
  intros V. destruct share_ok as [S _]. split.
  - intros [L <-]. split; [apply value_range; assumption|]. pose proof (Z.div_mod (y - 1) share ltac:(lia)) as D. pose proof (Z.mod_pos_bound (y - 1) share ltac:(lia)) as P.
    set (q := (y - 1) / share) in *. replace (q + a - a) with q by lia. nia.
  - intros (R & L & L'). split.
    + unfold taken. eapply Z.le_trans; [exact L'|]. apply Z.mul_le_mono_nonneg_r; lia.
    + assert ((y - 1) / share = v - a); [|lia]. symmetry. apply (Z.div_unique _ _ _ (y - 1 - share * (v - a))); [left|]; nia.
Qed.
(** the draw takes the first value that is taken *)
Lemma draw_int_at n : forall x fuel, engine_value x -> (n < fuel)%nat -> taken (Nat.iter (S n) next x) ->
  exists j, (j <= n)%nat /\ taken (Nat.iter (S j) next x) /\ draw_int a b fuel x = Ok ((Nat.iter (S j) next x - 1) / share + a, Nat.iter (S j) next x).
Proof.
  induction n as [|n IH]; intros x fuel H L Y; destruct fuel as [|fuel]; try lia; rewrite draw_int_step by exact H.
  - exists 0%nat. change (Nat.iter 1 next x) with (next x) in *. split; [lia|]. split; [exact Y|]. apply Z.leb_le in Y. rewrite Y. reflexivity.
  - destruct (next x <=? (b - a + 1) * share) eqn:E.
    + exists 0%nat. apply Z.leb_le in E. split; [lia|]. split; [exact E|reflexivity].
    + rewrite iter_S_r in Y. destruct (IH (next x) fuel (next_value x H) ltac:(lia) Y) as (j & Lj & Tj & Ej). exists (S j). rewrite (iter_S_r (S j)). split; [lia|]. split; [exact Tj|exact Ej].
Qed.
Lemma one_taken : taken 1.
Proof. unfold taken. destruct share_ok as [S _]. nia. Qed.
Lemma draw_int_ok x fuel : engine_value x -> 2147483646 <= Z.of_nat fuel -> exists j v, (Z.of_nat j < 2147483646) /\ a <= v <= b /\ draw_int a b fuel x = Ok (v, Nat.iter (S j) next x) /\ taken (Nat.iter (S j) next x) /\ (Nat.iter (S j) next x - 1) / share + a = v /\
  forall i, taken (Nat.iter (S i) next x) -> (j <= i)%nat.
Proof.
  intros H F. destruct (run_reach (next x) 1 (next_value x H) ltac:(unfold engine_value; lia)) as (n & Ln & En).
  assert (exists m, (m <= n)%nat /\ taken (Nat.iter (S m) next x) /\ forall i, taken (Nat.iter (S i) next x) -> (m <= i)%nat) as (m & Lm & Tm & Mm).
  { assert (taken (Nat.iter (S n) next x)) as T by (rewrite iter_S_r, En; exact one_taken). clear En Ln. revert T. induction n as [n IH] using lt_wf_ind. intros T.
    destruct (Exists_dec (fun i => taken (Nat.iter (S i) next x)) (seq 0 n)) as [E|E]. { intros i. unfold taken. apply Z_le_dec. }
    - apply Exists_exists in E. destruct E as (i & Hi & Ti). apply in_seq in Hi. destruct (IH i ltac:(lia) Ti) as (k & A & B). exists k. split; [lia|exact B].
    - exists n. split; [lia|]. split; [exact T|]. intros i Ti. apply Nat.nlt_ge. intros L. apply E. apply Exists_exists. exists i. split; [apply in_seq; lia|exact Ti]. }
  destruct (draw_int_at m x fuel H ltac:(lia) Tm) as (j & Lj & Tj & Ej). assert (j = m) as -> by (apply Nat.le_antisymm; [exact Lj|apply Mm, Tj]).
  exists m, ((Nat.iter (S m) next x - 1) / share + a). split; [lia|]. split; [apply value_range; [apply run_value; exact H|exact Tm]|]. split; [exact Ej|]. split; [exact Tm|]. split; [reflexivity|exact Mm].
Qed.
Lemma ints_range fuel n : forall x, engine_value x -> 2147483646 <= Z.of_nat fuel -> exists l y, draw_ints a b fuel n x = Ok (l, y) /\ length l = n /\ Forall (fun v => a <= v <= b) l /\ engine_value y.
Proof.
  induction n as [|n IH]; intros x H F.
  - exists [], x. repeat split; try apply H. constructor.
  - destruct (draw_int_ok x fuel H F) as (j & v & _ & R & E & _). destruct (IH (Nat.iter (S j) next x) (run_value _ _ H) F) as (l & y & E' & L & A & V).
    exists (v :: l), y. cbn [draw_ints]. rewrite E. cbn [obind snd fst]. rewrite E'. cbn [obind snd fst]. split; [reflexivity|]. split; [cbn [length]; lia|]. split; [constructor; assumption|exact V].
Qed.
Lemma draw_from x v fuel : engine_value x -> (0 < fuel)%nat -> draw_int a b fuel x = Ok (v, next x) <-> a <= v <= b /\ (v - a) * share < next x <= (v - a + 1) * share.
Proof.
  intros H L. destruct fuel as [|fuel]; [lia|]. rewrite draw_int_step by exact H. rewrite <- (value_is (next x) v (next_value x H)). unfold taken.
  destruct (next x <=? (b - a + 1) * share) eqn:E.
  - apply Z.leb_le in E. split; [intros [= <-]; auto|intros [_ <-]; reflexivity].
  - apply Z.leb_gt in E. split; [|intros [K _]; lia]. intros K. exfalso.
    assert (forall f z, engine_value z -> (b - a + 1) * share < z -> forall w y, draw_int a b f z = Ok (w, y) -> y <= (b - a + 1) * share) as G.
    { clear - Hr. induction f as [|f IH]; intros z Hz Lz w y; [discriminate|]. rewrite draw_int_step by exact Hz. destruct (next z <=? _) eqn:E; [intros [= _ <-]; apply Z.leb_le, E|]. apply IH; [apply next_value, Hz|apply Z.leb_gt, E]. }
    apply G in K; [lia|apply next_value, H|exact E].
Qed.
(** every number of the range is drawn at some time *)
Lemma ints_all fuel v : 2147483646 <= Z.of_nat fuel -> a <= v <= b -> forall x, engine_value x -> exists n l y, draw_ints a b fuel n x = Ok (l, y) /\ In v l.
Proof.
  intros F R x H. set (t := (v - a) * share + 1). destruct share_ok as [S1 S2].
  assert (engine_value t) as Vt. { unfold engine_value, t. assert ((v - a + 1) * share <= (b - a + 1) * share) by (apply Z.mul_le_mono_nonneg_r; lia). nia. }
  assert (taken t /\ (t - 1) / share + a = v) as [Tt Et]. { apply value_is; [exact Vt|]. split; [exact R|]. unfold t. lia. }
  destruct (run_reach (next x) t (next_value x H) Vt) as (d & _ & Ed). rewrite <- iter_S_r in Ed. clear S1 S2. clearbody t. revert x H Ed. induction d as [d IH] using lt_wf_ind. intros x H Ed.
  destruct (draw_int_ok x fuel H F) as (j & w & _ & _ & E & Tj & Ew & Mj). assert (j <= d)%nat as Lj by (apply Mj; rewrite Ed; exact Tt).
  destruct (Nat.eq_dec j d) as [->|N].
  - exists 1%nat, [w], (Nat.iter (S d) next x). cbn [draw_ints]. rewrite E. cbn [obind fst snd]. split; [reflexivity|]. left. rewrite <- Ew, Ed. exact Et.
  - destruct (IH (d - j - 1)%nat ltac:(lia) (Nat.iter (S j) next x) (run_value _ _ H)) as (n & l & y & En & Il).
    { rewrite <- run_add. replace (S (d - j - 1) + S j)%nat with (S d) by lia. exact Ed. }
    exists (S n), (w :: l), y. cbn [draw_ints]. rewrite E. cbn [obind fst snd]. rewrite En. cbn [obind fst snd]. split; [reflexivity|right; exact Il].
Qed.
End Ints.
