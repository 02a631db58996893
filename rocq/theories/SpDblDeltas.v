(** Proofs for C115: the steps of sampled polygons in double precision. *)

From Coq Require Import Nsatz ZArith Reals Lra Lia Psatz Bool List Permutation.
From Flocq Require Import Core.Core IEEE754.BinarySingleNaN IEEE754.PrimFloat.
From Coq Require Import Floats.
From Verif Require Import Base NumModel VecModel LinModel RoundModel PolyModel DistModel IntModel SampModel GeoSpec LinSpec PolySpec SampSpec DblSpec GeoLemmas
  DblLemmas DblProofs DblLen DblExamples DblEq LinDblSpec LinDblBase LinDblFoot LinDblProofs TrigDblSpec RndDblSpec RndDblProofs PtDblSpec FrDblProofs SdDblSpec SdDblProofs SdDblDisk SdDblFrame SampPoly SpDblSpec SpDblProofs.
Import ListNotations.
Local Open Scope R_scope.
Notation F := PrimFloat.float.

(** ** The order of the numbers is that of their values *)
Lemma pop_map {B C} (f : B -> C) (lt : B -> B -> bool) (lt' : C -> C -> bool) l : (forall a b, In a l -> In b l -> lt' (f a) (f b) = lt a b) ->
  pop_by lt' (map f l) = option_map (fun p => (f (fst p), map f (snd p))) (pop_by lt l).
Proof.
  induction l as [|a r IH]; intros H; cbn [pop_by map]; [reflexivity|].
  rewrite IH by (intros; apply H; right; assumption). destruct (pop_by lt r) as [[m r']|] eqn:E; cbn [option_map fst snd map]; [|reflexivity].
  assert (In m r) as I by (apply (Permutation_in _ (Permutation_sym (pop_perm _ _ _ _ E))); left; reflexivity).
  rewrite H by (try (right; exact I); left; reflexivity). destruct (lt m a); reflexivity.
Qed.
Lemma insert_map {B C} (f : B -> C) (lt : B -> B -> bool) (lt' : C -> C -> bool) x l : (forall b, In b l -> lt' (f b) (f x) = lt b x) ->
  insert_by lt' (f x) (map f l) = map f (insert_by lt x l).
Proof.
  induction l as [|a r IH]; intros H; cbn [insert_by map]; [reflexivity|]. rewrite H by (left; reflexivity). destruct (lt a x); [|reflexivity]. cbn [map]. f_equal. apply IH. intros; apply H; right; assumption.
Qed.
Lemma isort_map {B C} (f : B -> C) (lt : B -> B -> bool) (lt' : C -> C -> bool) l : (forall a b, In a l -> In b l -> lt' (f a) (f b) = lt a b) ->
  isort lt' (map f l) = map f (isort lt l).
Proof.
  unfold isort. induction l as [|a r IH]; intros H; cbn [fold_right map]; [reflexivity|]. rewrite IH by (intros; apply H; right; assumption). apply insert_map.
  intros b Hb. apply H; [right; apply (Permutation_in _ (isort_perm lt r)); exact Hb|left; reflexivity].
Qed.
Lemma lt_same a b : number a -> number b -> Rltb (val a) (val b) = PrimFloat.ltb a b.
Proof.
  intros Na Nb. destruct (PrimFloat.ltb a b) eqn:E.
  - apply f_ltb in E; try assumption. destruct (Rltb_spec (val a) (val b)); [reflexivity|lra].
  - apply f_ltb_false in E; try assumption. destruct (Rltb_spec (val a) (val b)); [lra|reflexivity].
Qed.

(** ** Differences *)
Lemma rnd_1 : rnd 1 = 1.
Proof. destruct one_val as [_ V]. rewrite <- V at 1. rewrite rnd_val. exact V. Qed.
Lemma diff_err (a b : F) : unitary a -> unitary b -> val a <= val b -> unitary (b - a)%float /\ Rabs (val (b - a)%float - (val b - val a)) <= U.
Proof.
  intros [Na Ba] [Nb Bb] L. destruct (f_sub b a Nb Na) as [N V]; [apply small_1023; apply Rabs_le; lra|]. split.
  - split; [exact N|]. rewrite V. split; [rewrite <- rnd_0|rewrite <- rnd_1]; apply rnd_le; lra.
  - destruct (big_bounds 1 ltac:(lra)) as [B0 B1]. destruct (sub_err b a 1 Nb Na B0 B1) as [_ E]; [apply Rabs_le; lra|]. lra.
Qed.
Lemma diffs_dbl (l : list F) : Forall unitary l -> ascending (map val l) -> let d := diffs l in
  Forall unitary d /\ length d = length (diffs (map val l)) /\ Rabs (sum (map val d) - sum (diffs (map val l))) <= INR (length d) * U.
Proof.
  pose proof U_pos as [U0 _]. induction l as [|a r IH]; intros Fu As.
  - split; [constructor|]. split; [reflexivity|]. unfold sum. cbn. rewrite Rminus_0_r, Rabs_R0. lra.
  - destruct r as [|b r].
    + split; [constructor|]. split; [reflexivity|]. unfold sum. cbn. rewrite Rminus_0_r, Rabs_R0. lra.
    + inversion Fu as [|? ? Ha Fr]; subst. inversion Fr as [|? ? Hb _]; subst. change (val a <= val b /\ ascending (map val (b :: r))) in As. destruct As as [Lab As].
      destruct (IH Fr As) as (D1 & D2 & D3). destruct (diff_err a b Ha Hb Lab) as [Ud Ed].
      change (diffs (a :: b :: r)) with ((b - a)%float :: diffs (b :: r)). change (diffs (map val (a :: b :: r))) with ((val b - val a) :: diffs (map val (b :: r))).
      set (d := diffs (b :: r)) in *. set (e := diffs (map val (b :: r))) in *. cbv zeta.
      split; [constructor; [exact Ud|exact D1]|]. split; [cbn [length]; f_equal; exact D2|].
      cbn [length]. rewrite S_INR. change (sum (map val ((b - a)%float :: d))) with (val (b - a)%float + sum (map val d)). change (sum (val b - val a :: e)) with (val b - val a + sum e).
      apply Rabs_def2_le in D3, Ed. apply Rabs_le. lra.
Qed.
Lemma neg_val (x : F) : unitary x -> number (x * nlit (-1) 1)%float /\ val (x * nlit (-1) 1)%float = - val x.
Proof.
  intros [N B]. assert (number (nlit (-1) 1 : F) /\ val (nlit (-1) 1 : F) = -1) as [N1 V1].
  { assert ((nlit (-1) 1 : F) = (PrimFloat.opp 1%float)) as -> by (vm_compute; reflexivity). destruct one_val as [No Vo]. destruct (f_opp _ No) as [A E]. split; [exact A|]. rewrite E, Vo. lra. }
  destruct (f_mul x (nlit (-1) 1) N N1) as [A E]; rewrite V1 in *; [apply small_1023; apply Rabs_le; lra|]. split; [exact A|]. rewrite E. replace (val x * -1) with (- val x) by ring. rewrite rnd_opp, rnd_val. reflexivity.
Qed.
(** one coordinate *)
Definition steps1 (n : nat) (l : list F) : Prop :=
  length l = n /\ Forall (fun x => number x /\ Rabs (val x) <= 1) l /\ Rabs (sum (map val l)) <= INR n * U /\
  798 / 1000 - INR n * U <= ups l <= 1 + INR n * U /\ sum (map (fun x => Rabs (val x)) l) <= 2 + INR n * U.
Lemma tenth_val : (number (nlit 1 10 : F) /\ 0 <= val (nlit 1 10 : F) <= 101 / 1000) /\ (number (nlit 9 10 : F) /\ 899 / 1000 <= val (nlit 9 10 : F) <= 1).
Proof.
  destruct (int_val (@nlit _ F_num 1 10) 7205759403792794 (-56) ltac:(vm_compute; reflexivity)) as [N V]. destruct (int_val (@nlit _ F_num 9 10) 8106479329266893 (-53) ltac:(vm_compute; reflexivity)) as [N' V'].
  rewrite V, V'. change (bpow radix2 (-56)) with (/ 72057594037927936). change (bpow radix2 (-53)) with (/ 9007199254740992). split; (split; [assumption|lra]).
Qed.
Lemma side (mn mx : F) (l : list F) : unitary mn -> unitary mx -> Forall unitary l -> (forall x, In x l -> val mn <= val x <= val mx) -> val mn <= val mx ->
  let d := diffs (isort nltb (mn :: l) ++ [mx]) in
  Forall unitary d /\ length d = S (length l) /\ Rabs (sum (map val d) - (val mx - val mn)) <= INR (length d) * U.
Proof.
  intros Hn Hx Hl B L. cbv zeta. set (s := isort nltb (mn :: l) ++ [mx]).
  assert (forall a b, In a (mn :: l) -> In b (mn :: l) -> Rltb (val a) (val b) = nltb a b) as LS.
  { assert (forall a, In a (mn :: l) -> number a) as NN by (intros a [<- | I]; [exact (proj1 Hn)|rewrite Forall_forall in Hl; exact (proj1 (Hl a I))]). intros a b Ia Ib. apply lt_same; auto. }
  assert (map val s = isort Rltb (val mn :: map val l) ++ [val mx]) as Es.
  { unfold s. rewrite map_app. cbn [map]. f_equal. symmetry. exact (isort_map val nltb Rltb (mn :: l) LS). }
  destruct (one_side (val mn) (val mx) (map val l)) as (P1 & P2 & P3).
  { intros x I. apply in_map_iff in I. destruct I as (y & <- & I). exact (B y I). }
  { exact L. }
  rewrite <- Es in P1, P2, P3.
  assert (ascending (map val s)) as As.
  { rewrite Es. apply ascending_app; [apply isort_ascending|]. intros y Hy. apply (Permutation_in _ (isort_perm Rltb _)) in Hy. destruct Hy as [<- | Hy]; [exact L|]. apply in_map_iff in Hy. destruct Hy as (z & <- & I). exact (proj2 (B z I)). }
  destruct (diffs_dbl s) as (A1 & A2 & A3); [|exact As|].
  { unfold s. apply Forall_app. split; [|constructor; [exact Hx|constructor]]. apply Forall_forall. intros x I. apply (Permutation_in _ (isort_perm nltb _)) in I. destruct I as [<- | I]; [exact Hn|]. rewrite Forall_forall in Hl. exact (Hl x I). }
  split; [exact A1|]. split; [rewrite A2, P3, map_length; reflexivity|]. rewrite P2 in A3. exact A3.
Qed.
Lemma sum_app' l1 l2 : sum (l1 ++ l2) = sum l1 + sum l2.
Proof. apply sum_app. Qed.
Lemma ups_unitary l : Forall unitary l -> ups l = sum (map val l) /\ sum (map (fun x => Rabs (val x)) l) = sum (map val l).
Proof.
  unfold ups, sum. induction 1 as [|x l [_ B] _ [IH1 IH2]]; cbn [map fold_right]; [split; reflexivity|]. rewrite IH1, IH2, Rmax_right, Rabs_pos_eq by lra. split; reflexivity.
Qed.
Lemma neg_all l : Forall unitary l -> let n := map (fun v => nmul v (nlit (-1) 1)) l in
  Forall (fun x => number x /\ Rabs (val x) <= 1) n /\ sum (map val n) = - sum (map val l) /\ ups n = 0 /\ sum (map (fun x => Rabs (val x)) n) = sum (map val l).
Proof.
  unfold ups, sum. cbv zeta. set (g := fun v : F => nmul v (nlit (-1) 1)). assert (forall x, unitary x -> number (g x) /\ val (g x) = - val x) as G by (intros x Hx; exact (neg_val x Hx)). clearbody g.
  induction 1 as [|x l Hx _ (I1 & I2 & I3 & I4)]; cbn [map fold_right]; [split; [constructor|]; split; [ring|split; reflexivity]|].
  destruct (G x Hx) as [N V]. destruct Hx as [_ B]. rewrite I2, I3, I4, V. split; [|split; [ring|split]].
  - constructor; [|exact I1]. split; [exact N|]. rewrite V, Rabs_Ropp, Rabs_pos_eq; lra.
  - rewrite Rmax_left by lra. ring.
  - rewrite Rabs_Ropp, Rabs_pos_eq by lra. reflexivity.
Qed.
Lemma deltas_dbl (vals : list F) l : Forall unitary vals -> deltas_of vals = Ok l -> steps1 (length vals) l.
Proof.
  intros Fv E. unfold deltas_of in E. pose proof U_pos as [U0 _].
  assert (forall a b, In a vals -> In b vals -> Rltb (val a) (val b) = nltb a b) as LS.
  { rewrite Forall_forall in Fv. intros a b Ia Ib. apply lt_same; [exact (proj1 (Fv a Ia))|exact (proj1 (Fv b Ib))]. }
  pose proof (pop_map val nltb Rltb vals LS) as PM. destruct (pop_by nltb vals) as [[mn0 r]|] eqn:E1; [|discriminate]. cbn [option_map fst snd] in PM.
  pose proof (pop_perm _ _ _ _ E1) as P1. pose proof (Permutation_length P1) as L1. cbn [length] in L1.
  assert (forall x, In x r -> In x vals) as A3 by (intros x Hx; apply (Permutation_in _ (Permutation_sym P1)); right; exact Hx).
  pose proof (pop_map val (fun m a => nltb a m) (fun m a => Rltb a m) r (fun a b Ia Ib => LS b a (A3 b Ib) (A3 a Ia))) as PX.
  destruct (pop_by (fun m a => nltb a m) r) as [[mx0 r']|] eqn:E2; [|discriminate]. cbn [option_map fst snd] in PX.
  pose proof (pop_perm _ _ _ _ E2) as P2. pose proof (Permutation_length P2) as L2. cbn [length] in L2.
  assert (In mn0 vals) as I0 by (apply (Permutation_in _ (Permutation_sym P1)); left; reflexivity).
  assert (In mx0 r) as A4 by (apply (Permutation_in _ (Permutation_sym P2)); left; reflexivity).
  assert (forall x, In x r' -> In x r) as A5 by (intros x Hx; apply (Permutation_in _ (Permutation_sym P2)); right; exact Hx).
  assert (forall x, In x vals -> val mn0 <= val x) as A1 by (intros x Hx; apply (pop_min_le _ _ _ PM), in_map, Hx).
  assert (forall x, In x r -> val x <= val mx0) as A2 by (intros x Hx; apply (pop_max_ge _ _ _ PX), in_map, Hx).
  pose proof Fv as Fv'. rewrite Forall_forall in Fv'. pose proof (Fv' mn0 I0) as [Nn Bn]. pose proof (Fv' mx0 (A3 _ A4)) as [Nx Bx].
  destruct tenth_val as [[N1 V1] [N9 V9]]. destruct zero_val as [Z0 Z1]. destruct one_val as [O0 O1].
  set (mn := exploit_min mn0) in *. set (mx := exploit_max mx0) in *.
  assert (unitary mn /\ val mn <= val mn0 /\ val mn <= 101 / 1000) as (Un & Ln & Sn).
  { unfold mn, exploit_min. cbn [nltb F_num]. destruct (PrimFloat.ltb (nlit 1 10) mn0) eqn:C.
    - change (n0 : F) with 0%float. unfold unitary. rewrite Z1. repeat split; try assumption; lra.
    - apply f_ltb_false in C; try assumption. repeat split; try assumption; lra. }
  assert (unitary mx /\ val mx0 <= val mx /\ 899 / 1000 <= val mx) as (Ux & Lx & Sx).
  { unfold mx, exploit_max. cbn [nltb F_num]. destruct (PrimFloat.ltb mx0 (nlit 9 10)) eqn:C.
    - change (n1 : F) with 1%float. unfold unitary. rewrite O1. repeat split; try assumption; lra.
    - apply f_ltb_false in C; try assumption. repeat split; try assumption; lra. }
  assert (val mn <= val mx) as Lm by lra.
  assert (forall x, In x r' -> unitary x /\ val mn <= val x <= val mx) as A6.
  { intros x Hx. split; [apply Fv', A3, A5, Hx|]. pose proof (A1 x (A3 _ (A5 _ Hx))). pose proof (A2 x (A5 _ Hx)). lra. }
  destruct (side mn mx (evens r') Un Ux) as (U1 & U2 & U3); [apply Forall_forall; intros x Hx; apply A6, evens_in, Hx|intros x Hx; apply A6, evens_in, Hx|exact Lm|].
  destruct (side mn mx (odds r') Un Ux) as (D1 & D2 & D3); [apply Forall_forall; intros x Hx; apply A6, odds_in, Hx|intros x Hx; apply A6, odds_in, Hx|exact Lm|].
  set (up := diffs (isort nltb (mn :: evens r') ++ [mx])) in *. set (down := diffs (isort nltb (mn :: odds r') ++ [mx])) in *.
  injection E as <-. destruct (ups_unitary up U1) as [W1 W2]. destruct (neg_all down D1) as (G1 & G2 & G3 & G4). cbv zeta in G1, G2, G3, G4. set (neg := map (fun v => nmul v (nlit (-1) 1)) down) in *.
  assert (length neg = length down) as Ln' by (unfold neg; apply map_length).
  pose proof (evens_odds_length r') as EO. assert (length up + length down = length vals)%nat as LL by lia.
  assert (INR (length vals) = INR (length up) + INR (length down)) as LI by (rewrite <- plus_INR; f_equal; lia). pose proof (pos_INR (length up)) as Pu. pose proof (pos_INR (length down)) as Pd.
  assert (0 <= INR (length up) * U) by (apply Rmult_le_pos; lra). assert (0 <= INR (length down) * U) by (apply Rmult_le_pos; lra).
  destruct Un as [_ Un], Ux as [_ Ux]. apply Rabs_def2_le in U3, D3. change (steps1 (length vals) (up ++ neg)). unfold steps1. rewrite LI, Rmult_plus_distr_r.
  split; [rewrite app_length; lia|]. split; [|split; [|split]].
  - apply Forall_app. split; [|exact G1]. eapply Forall_impl; [|exact U1]. intros x [N B]. split; [exact N|]. rewrite Rabs_pos_eq; lra.
  - rewrite map_app, sum_app', G2. apply Rabs_le. lra.
  - unfold ups. rewrite map_app, sum_app'. fold (ups up). fold (ups neg). rewrite G3, W1. lra.
  - rewrite map_app, sum_app', W2, G4. lra.
Qed.
Lemma deltas_ok (vals : list F) : (2 <= length vals)%nat -> exists l, deltas_of vals = Ok l.
Proof.
  intros Hn. unfold deltas_of. destruct (pop_some nltb vals) as (mn0 & r & E1); [destruct vals; cbn in Hn; [lia|discriminate]|]. rewrite E1.
  pose proof (Permutation_length (pop_perm _ _ _ _ E1)) as L1. cbn [length] in L1. destruct (pop_some (fun m a => nltb a m) r) as (mx0 & r' & E2); [destruct r; cbn in *; [lia|discriminate]|]. rewrite E2.
  eexists. reflexivity.
Qed.
Lemma pairs_dbl (max2 : F) : forall dxs dys, length dxs = length dys ->
  exists ps, pair_up max2 dxs dys = Ok ps /\ map fst ps = dxs /\ Permutation (map snd ps) dys.
Proof.
  induction dxs as [|dx dxs IH]; intros dys Hl; cbn [pair_up].
  - destruct dys; [|discriminate]. exists []. repeat split. constructor.
  - match goal with |- context [pop_by ?f dys] => destruct (pop_some f dys) as (dy & dys' & E);
      [destruct dys; discriminate|] end.
    rewrite E. pose proof (pop_perm _ _ _ _ E) as P. pose proof (Permutation_length P) as L. cbn [length] in L, Hl.
    destruct (IH dys') as (ps & Ep & Ex & Ey); [lia|]. rewrite Ep. cbn [obind].
    exists ((dx, dy) :: ps). split; [reflexivity|]. cbn [map fst snd]. rewrite Ex. split; [reflexivity|].
    rewrite P. apply perm_skip, Ey.
Qed.
Lemma steps1_perm n l l' : Permutation l l' -> steps1 n l -> steps1 n l'.
Proof.
  intros P (A & B & C & D & E). unfold steps1, ups in *. rewrite <- (Permutation_length P), <- !(sum_perm _ _ (Permutation_map _ P)). split; [exact A|]. split; [|auto].
  rewrite Forall_forall in *. intros x I. apply B. apply (Permutation_in _ (Permutation_sym P)), I.
Qed.
Lemma deltas_for_dbl n (u : draws F) : (2 <= n)%nat -> (forall i, unitary (u i)) -> exists ds, deltas_for n u = Ok ds /\ steps1 n (map fst ds) /\ steps1 n (map snd ds).
Proof.
  intros Hn Hu. unfold deltas_for. assert (forall k, Forall unitary (map u (seq k n))) as Fu by (intros k; apply Forall_forall; intros x I; apply in_map_iff in I; destruct I as (i & <- & _); apply Hu).
  destruct (deltas_ok (map u (seq 0 n))) as [dx Ex]; [rewrite map_length, seq_length; exact Hn|]. destruct (deltas_ok (map u (seq n n))) as [dy Ey]; [rewrite map_length, seq_length; exact Hn|].
  rewrite Ex, Ey. cbn [obind]. apply (deltas_dbl _ _ (Fu 0%nat)) in Ex. apply (deltas_dbl _ _ (Fu n)) in Ey. rewrite map_length, seq_length in Ex, Ey.
  pose proof (isort_perm nltb dx) as P. pose proof (Permutation_length P) as L. cbv zeta.
  destruct (pairs_dbl (max_delta2 (isort nltb dx) dy) (isort nltb dx) dy) as (ps & E & E1 & E2); [rewrite L, (proj1 Ex), (proj1 Ey); reflexivity|]. exists ps. split; [exact E|]. rewrite E1. split.
  - exact (steps1_perm n _ _ (Permutation_sym P) Ex).
  - exact (steps1_perm n _ _ (Permutation_sym E2) Ey).
Qed.

(** ** Lengths *)
Lemma len_dbl (s : draws F) : (forall i, number (s i)) -> let '(v, k) := retry (fun l => nltb l n0) s 1 100 0 (s 0%nat) in
  (k = 100%nat <-> forall i, (i < 100)%nat -> val (s i) < 0) /\
  (k <> 100%nat -> exists i, (i < 100)%nat /\ first_at (fun x => 0 <= val x) s i v) /\
  ((exists i, (i < 100)%nat /\ first_at (fun x => 0 <= val x) s i v) \/ ((forall i, (i < 100)%nat -> val (s i) < 0) /\ v = s 100%nat)).
Proof.
  intros Ns. pose proof (retry_spec (fun l => nltb l n0) s 100 1 0 (s 0%nat)) as H. destruct zero_val as [Z0 Z1].
  destruct (retry (fun l => nltb l n0) s 1 100 0 (s 0%nat)) as [v k]. destruct H as (m & Hm & Hk & H0 & HS & Hj & Hl).
  cbn [Nat.add] in *. subst k.
  assert (forall x : F, number x -> (nltb x n0 = true <-> val x < 0) /\ (nltb x n0 = false -> 0 <= val x)) as LT.
  { intros x Nx. change (nltb x n0) with (PrimFloat.ltb x 0%float). rewrite <- Z1. split; [apply f_ltb; assumption|apply f_ltb_false; assumption]. }
  assert (v = s m) as Ev. { destruct m as [|q]; [apply H0; reflexivity|]. apply (HS q eq_refl). }
  assert (forall j, (j < m)%nat -> val (s j) < 0) as Hneg.
  { intros j Hj'. apply (LT _ (Ns j)). destruct j as [|j].
    - destruct m as [|q]; [lia|]. apply (HS q eq_refl).
    - apply Hj. lia. }
  assert ((m < 100)%nat -> 0 <= val v) as Hv. { intros C. apply LT; [rewrite Ev; apply Ns|apply Hl, C]. }
  assert ((m < 100)%nat -> exists i, (i < 100)%nat /\ first_at (fun x => 0 <= val x) s i v) as Hf.
  { intros C. exists m. split; [assumption|]. split; [symmetry; exact Ev|]. split; [apply Hv, C|].
    intros j Hj'. pose proof (Hneg j Hj'). lra. }
  split; [|split].
  - split; [intros ->; exact Hneg|]. intros Hi. destruct (Nat.eq_dec m 100) as [|N]; [assumption|].
    exfalso. pose proof (Hv ltac:(lia)). pose proof (Hi m ltac:(lia)). subst v. lra.
  - intros N. apply Hf. lia.
  - destruct (Nat.eq_dec m 100) as [->|N]; [right|left; apply Hf; lia]. split; [exact Hneg|exact Ev].
Qed.

(** ** Edges *)
Lemma edge_err (M : R) (x l : F) : scale M -> number x -> Rabs (val x) <= 1 -> number l -> Rabs (val l) <= M / 5 ->
  number (x * l)%float /\ Rabs (val (x * l)%float - val x * val l) <= U * M.
Proof.
  intros HM Nx Bx Nl Bl. destruct (scale_sized M HM) as [B0 B1].
  assert (bpow radix2 (-1000) <= M) by (eapply Rle_trans; [|exact B0]; apply bpow_le; lia). assert (M <= bpow radix2 1000) by (eapply Rle_trans; [exact B1|]; apply bpow_le; lia).
  apply mul_err; try assumption. rewrite Rabs_mult. pose proof (Rabs_pos (val x)). pose proof (Rabs_pos (val l)). nra.
Qed.
Lemma sum_err {B} (f g : B -> R) r (l : list B) : (forall x, In x l -> Rabs (f x - g x) <= r) -> Rabs (sum (map f l) - sum (map g l)) <= INR (length l) * r.
Proof.
  induction l as [|a l IH]; intros H.
  - unfold sum. cbn. rewrite Rminus_0_r, Rabs_R0. lra.
  - change (sum (map f (a :: l))) with (f a + sum (map f l)). change (sum (map g (a :: l))) with (g a + sum (map g l)). cbn [length]. rewrite S_INR.
    pose proof (IH (fun x I => H x (or_intror I))) as D. pose proof (H a (or_introl eq_refl)) as E. apply Rabs_def2_le in D, E. apply Rabs_le. lra.
Qed.
Lemma sum_plus {B} (f g : B -> R) (l : list B) : sum (map (fun x => f x + g x) l) = sum (map f l) + sum (map g l).
Proof. induction l as [|a l IH]; [unfold sum; cbn; ring|]. change (f a + g a + sum (map (fun x => f x + g x) l) = f a + sum (map f l) + (g a + sum (map g l))). rewrite IH. ring. Qed.
Lemma edges_dbl (M : R) n slen dlen (ds : list (F * F)) : scale M -> (n <= 1000)%nat -> number slen -> Rabs (val slen) <= M / 5 -> number dlen -> Rabs (val dlen) <= M / 5 ->
  steps1 n (map fst ds) -> steps1 n (map snd ds) -> let es := edge_vectors slen dlen ds in
  edges_upto M es /\ length es = n /\ length ds = n /\ Rabs (sum (map (fun e => val (vx e)) es)) <= INR n * (2 * U * M) /\ Rabs (sum (map (fun e => val (vy e)) es)) <= INR n * (2 * U * M) /\
  (forall i, (i < n)%nat -> let d := nth i ds (0%float, 0%float) in Rabs (val (vx (nth i es origin)) - val (fst d) * val dlen) <= U * M /\ Rabs (val (vy (nth i es origin)) - val (snd d) * val slen) <= U * M) /\
  closed_steps U ds.
Proof.
  intros HM Hn Ns Bs Nd Bd (L1 & F1 & S1 & W1 & A1) (_ & F2 & S2 & W2 & A2). cbv zeta. pose proof U_pos as [U0 _]. assert (U <= / 1000000000000) as U5 by (unfold U; lra).
  assert (0 < M) as M0 by (destruct HM as [h _]; pose proof (powerRZ_lt 2 (-300) ltac:(lra)); lra).
  assert (INR n <= 1000) as Hin by (replace 1000 with (INR 1000) by (rewrite INR_IZR_INZ; reflexivity); apply le_INR; exact Hn). pose proof (pos_INR n) as P0.
  assert (INR n * U <= / 1000000000) as NU by (apply Rle_trans with (1000 * U); [apply Rmult_le_compat_r; lra|lra]). assert (0 <= INR n * U) as NU0 by (apply Rmult_le_pos; lra).
  assert (length ds = n) as Ld by (rewrite <- L1, map_length; reflexivity).
  assert (forall d, In d ds -> number (fst d * dlen)%float /\ Rabs (val (fst d * dlen)%float - val (fst d) * val dlen) <= U * M /\ number (snd d * slen)%float /\ Rabs (val (snd d * slen)%float - val (snd d) * val slen) <= U * M) as ED.
  { rewrite Forall_forall in F1, F2. intros d I. destruct (F1 (fst d) (in_map fst _ _ I)) as [N B]. destruct (F2 (snd d) (in_map snd _ _ I)) as [N' B'].
    destruct (edge_err M (fst d) dlen HM N B Nd Bd). destruct (edge_err M (snd d) slen HM N' B' Ns Bs). auto. }
  assert (sum (map (fun d => val (fst d) * val dlen) ds) = sum (map (fun d => val (fst d)) ds) * val dlen) as X1 by apply (sum_scale (fun d : F * F => val (fst d))).
  assert (sum (map (fun d => val (snd d) * val slen) ds) = sum (map (fun d => val (snd d)) ds) * val slen) as X2 by apply (sum_scale (fun d : F * F => val (snd d))).
  rewrite map_map in S1, S2, A1, A2.
  assert (forall (s l : R), Rabs s <= INR n * U -> Rabs l <= M / 5 -> Rabs (s * l) <= INR n * (U * M)) as SM.
  { intros s l Hs Hl. rewrite Rabs_mult. pose proof (Rabs_pos s). pose proof (Rabs_pos l). rewrite <- Rmult_assoc. apply Rmult_le_compat; lra. }
  split; [|split; [|split; [exact Ld|split; [|split; [|split]]]]].
  - split.
    + unfold edge_vectors. apply Forall_forall. intros e I. apply in_map_iff in I. destruct I as (d & <- & I). destruct (ED d I) as (N1 & _ & N2 & _). destruct zero_val as [Z0 Z1].
      change (number3 (mkV3 (fst d * dlen)%float (snd d * slen)%float 0%float) /\ val 0%float = 0). split; [|exact Z1]. repeat split; assumption.
    + unfold edge_vectors. rewrite map_map. cbn [vx vy]. rewrite sum_plus.
      assert (forall f : F * F -> F, forall l : F, (forall d, In d ds -> Rabs (val (f d * l)%float - val (f d) * val l) <= U * M) -> Rabs (val l) <= M / 5 -> sum (map (fun d => Rabs (val (f d))) ds) <= 2 + INR n * U ->
        sum (map (fun d => Rabs (val (nmul (f d) l))) ds) <= M / 2) as Half.
      { intros f l E Bl A. pose proof (sum_err (fun d => Rabs (val (nmul (f d) l))) (fun d => Rabs (val (f d)) * Rabs (val l)) (U * M) ds) as SE. rewrite (sum_scale (fun d => Rabs (val (f d)))), Ld in SE.
        assert (forall d, In d ds -> Rabs (Rabs (val (nmul (f d) l)) - Rabs (val (f d)) * Rabs (val l)) <= U * M) as H.
        { intros d I. rewrite <- Rabs_mult. eapply Rle_trans; [apply Rabs_triang_inv2|]. exact (E d I). }
        specialize (SE H). apply Rabs_def2_le in SE. assert (sum (map (fun d => Rabs (val (f d))) ds) * Rabs (val l) <= (2 + INR n * U) * (M / 5)) as P.
        { apply Rle_trans with ((2 + INR n * U) * Rabs (val l)); [apply Rmult_le_compat_r; [apply Rabs_pos|exact A]|apply Rmult_le_compat_l; [lra|exact Bl]]. }
        assert (INR n * (U * M) <= / 1000000000 * M) by (rewrite <- Rmult_assoc; apply Rmult_le_compat_r; lra). assert ((INR n * U) * (M / 5) <= / 1000000000 * (M / 5)) by (apply Rmult_le_compat_r; lra). lra. }
      pose proof (Half fst dlen (fun d I => proj1 (proj2 (ED d I))) Bd A1). pose proof (Half snd slen (fun d I => proj2 (proj2 (proj2 (ED d I)))) Bs A2). lra.
  - unfold edge_vectors. rewrite map_length. exact Ld.
  - unfold edge_vectors. rewrite map_map. cbn [vx]. pose proof (sum_err (fun d => val (nmul (fst d) dlen)) (fun d => val (fst d) * val dlen) (U * M) ds (fun d I => proj1 (proj2 (ED d I)))) as SE.
    rewrite X1, Ld in SE. pose proof (SM _ _ S1 Bd) as Q. apply Rabs_def2_le in SE, Q. apply Rabs_le. lra.
  - unfold edge_vectors. rewrite map_map. cbn [vy]. pose proof (sum_err (fun d => val (nmul (snd d) slen)) (fun d => val (snd d) * val slen) (U * M) ds (fun d I => proj2 (proj2 (proj2 (ED d I))))) as SE.
    rewrite X2, Ld in SE. pose proof (SM _ _ S2 Bs) as Q. apply Rabs_def2_le in SE, Q. apply Rabs_le. lra.
  - intros i Hi. unfold edge_vectors. set (g := fun d : F * F => mkV3 (nmul (fst d) dlen) (nmul (snd d) slen) (n0 : F)). rewrite (nth_indep _ origin (g (0%float, 0%float))) by (rewrite map_length; lia). rewrite map_nth.
    assert (i < length ds)%nat as Hi' by lia. destruct (ED (nth i ds (0%float, 0%float)) (nth_In _ _ Hi')) as (_ & Q1 & _ & Q2). split; assumption.
  - unfold closed_steps. rewrite Ld. split; [exact S1|]. split; [exact S2|]. lra.
Qed.

(** ** The sampled corners *)
Section Sampled.
Context {T : Trig PrimFloat.float}.
Variables (esort : list (V3 F) -> list (V3 F)) (d : poly_draws F) (M : R).
Hypotheses (HT : accurate T) (Hs : usual_angle (d_strike d)) (Hd : usual_angle (d_dip d)) (HM : scale M) (Hc : point_upto M (d_center d)).
Hypothesis Hp : forall l, Permutation (esort l) l.
Hypotheses (Hu : forall i, unitary (d_unit d i)) (Hsl : forall i, number (d_slen d i) /\ Rabs (val (d_slen d i)) <= M / 5) (Hdl : forall i, number (d_dlen d i) /\ Rabs (val (d_dlen d i)) <= M / 5).
Hypothesis Hk : forall i, (d_num d i <= 1000)%Z.
Lemma corners_cases :
  ((forall i, (i < 99)%nat -> (d_num d i < 3)%Z) /\ sample_corners esort d = Throw RuntimeError) \/
  ((forall i, (i < 100)%nat -> val (d_slen d i) < 0) /\ sample_corners esort d = Throw RuntimeError) \/
  (exists n i k slen dlen ds, (i < 99)%nat /\ first_at (fun v => (3 <= v)%Z) (d_num d) i n /\ (k < 100)%nat /\ first_at (fun x => 0 <= val x) (d_slen d) k slen /\ length_drawn (d_dlen d) dlen /\
    steps1 (Z.to_nat n) (map fst ds) /\ steps1 (Z.to_nat n) (map snd ds) /\ sample_corners esort d = Ok (place_polygon (esort (edge_vectors slen dlen ds)) (d_strike d) (d_dip d) (d_center d))).
Proof.
  unfold sample_corners. pose proof (num_retry (d_num d)) as Hn. destruct (retry (fun k : Z => (k <? 3)%Z) (d_num d) 0 100 0 0%Z) as [n cnt].
  destruct Hn as [Hn1 Hn2]. destruct (Nat.eqb_spec cnt 100) as [E|E]; [left; split; [apply Hn1, E|reflexivity]|].
  right. destruct (Hn2 E) as (H3 & i & Hi & Hf). destruct (deltas_for_dbl (Z.to_nat n) (d_unit d)) as (ds & Ed & D1 & D2); [lia|exact Hu|]. rewrite Ed. cbn [obind].
  pose proof (len_dbl (d_slen d) (fun i => proj1 (Hsl i))) as Ls. destruct (retry (fun l : F => nltb l n0) (d_slen d) 1 100 0 (d_slen d 0%nat)) as [slen cs].
  destruct Ls as (Hs1 & Hs2 & _). destruct (Nat.eqb_spec cs 100) as [G|G]; [left; split; [apply Hs1, G|reflexivity]|].
  right. destruct (Hs2 G) as (k & Hk' & Hfk). pose proof (len_dbl (d_dlen d) (fun i => proj1 (Hdl i))) as Hl. destruct (retry (fun l : F => nltb l n0) (d_dlen d) 1 100 0 (d_dlen d 0%nat)) as [dlen cd].
  destruct Hl as (_ & _ & Hl). exists n, i, k, slen, dlen, ds. auto 12.
Qed.
Lemma corners_throw : sample_corners esort d = Throw RuntimeError <-> (forall i, (i < 99)%nat -> (d_num d i < 3)%Z) \/ (forall i, (i < 100)%nat -> val (d_slen d i) < 0).
Proof.
  destruct corners_cases as [[H E]|[[H E]|(n & i & k & slen & dlen & ds & Hi & Hf & Hk' & Hfk & _ & _ & _ & E)]]; rewrite E; split; auto; try discriminate.
  intros [H|H]; exfalso.
  - destruct Hf as (F1 & F2 & _). pose proof (H i Hi). lia.
  - destruct Hfk as (F1 & F2 & _). pose proof (H k Hk'). rewrite F1 in *. lra.
Qed.
Lemma corners_return : (exists cs, sample_corners esort d = Ok cs) <-> sample_corners esort d <> Throw RuntimeError.
Proof.
  destruct corners_cases as [[H E]|[[H E]|(n & i & k & slen & dlen & ds & _ & _ & _ & _ & _ & _ & _ & E)]]; rewrite E; (split; [intros (cs & G); discriminate|congruence]) || (split; [discriminate|eauto]).
Qed.
Lemma used_in (s : draws F) v : length_drawn s v -> exists i, v = s i.
Proof. intros [(i & _ & E & _)|[_ E]]; eauto. Qed.
Lemma in_plane_lin s t u v u' v' : norm (psub (SampSpec.in_plane s t u v) (SampSpec.in_plane s t u' v')) <= Rabs (u - u') + Rabs (v - v').
Proof.
  replace (psub (SampSpec.in_plane s t u v) (SampSpec.in_plane s t u' v')) with (SampSpec.in_plane s t (u - u') (v - v')) by (unfold SampSpec.in_plane, padd, psub, pscale; cbn [vx vy vz]; f_equal; ring).
  apply plane_norm.
Qed.
Lemma corners_dbl cs : sample_corners esort d = Ok cs -> exists n i k slen dlen ds,
  (i < 99)%nat /\ first_at (fun v => (3 <= v)%Z) (d_num d) i n /\ (k < 100)%nat /\ first_at (fun x => 0 <= val x) (d_slen d) k slen /\ length_drawn (d_dlen d) dlen /\
  length cs = Z.to_nat n /\ length ds = Z.to_nat n /\ closed_steps U ds /\ Forall (point_upto (4 * M)) cs /\
  (forall i, (i < length cs)%nat -> let s := nth i ds (0%float, 0%float) in
    norm (psub (edge_vec (map val3 cs) i) (SampSpec.in_plane (val (d_strike d)) (val (d_dip d)) (val (fst s) * val dlen) (val (snd s) * val slen))) <= INR (length cs) * (powerRZ 2 (-40) * M)) /\
  (forall i j, (i < length cs)%nat -> (j < length cs)%nat ->
    Rabs (dot (plane_normal (val (d_strike d)) (val (d_dip d))) (psub (val3 (nth j cs origin)) (val3 (nth i cs origin)))) <= INR (length cs) * (powerRZ 2 (-40) * M)) /\
  (exists mx my mz, middle (map (fun c => val (vx c)) cs) mx /\ middle (map (fun c => val (vy c)) cs) my /\ middle (map (fun c => val (vz c)) cs) mz /\
    Rabs (mx - val (vx (d_center d))) <= powerRZ 2 (-49) * M /\ Rabs (my - val (vy (d_center d))) <= powerRZ 2 (-49) * M /\ Rabs (mz - val (vz (d_center d))) <= powerRZ 2 (-49) * M).
Proof.
  intros E. destruct corners_cases as [[_ E']|[[_ E']|(n & i & k & slen & dlen & ds0 & Hi & Hf & Hk' & Hfk & Hdu & D1 & D2 & E')]]; try congruence. rewrite E' in E. injection E as E. clear E'.
  pose proof (Hp (edge_vectors slen dlen ds0)) as P. unfold edge_vectors at 2 in P. apply Permutation_map_inv in P. destruct P as (ds & Ees & P). fold (edge_vectors slen dlen ds) in Ees.
  apply (steps1_perm _ _ _ (Permutation_map fst P)) in D1. apply (steps1_perm _ _ _ (Permutation_map snd P)) in D2.
  destruct (Hsl k) as [Ns Bs]. rewrite (proj1 Hfk) in Ns, Bs. destruct (used_in _ _ Hdu) as [j Ej]. destruct (Hdl j) as [Nd Bd]. rewrite <- Ej in Nd, Bd.
  pose proof (Hk i) as Hki. rewrite (proj1 Hf) in Hki. pose proof (proj1 (proj2 Hf)) as H3. cbn beta in H3.
  destruct (edges_dbl M (Z.to_nat n) slen dlen ds HM ltac:(lia) Ns Bs Nd Bd D1 D2) as (He & Le & Ld & Sx & Sy & Es & Cs). rewrite Ees in E. set (es := edge_vectors slen dlen ds) in *.
  assert (1 <= length es <= 1000)%nat as Hn by lia.
  destruct (place_count T (d_strike d) (d_dip d) M HT Hs Hd HM es (d_center d) He Hn Hc) as [Lc Fc].
  pose proof (place_edges T (d_strike d) (d_dip d) M HT Hs Hd HM es (d_center d) He Hn Hc) as PE. pose proof (place_closed T (d_strike d) (d_dip d) M HT Hs Hd HM es (d_center d) He Hn Hc) as PC. cbv zeta in PC.
  pose proof (place_plane T (d_strike d) (d_dip d) M HT Hs Hd HM es (d_center d) He Hn Hc) as PP. pose proof (place_middle T (d_strike d) (d_dip d) M HT Hs Hd HM es (d_center d) He Hn Hc) as PM. rewrite E in *.
  pose proof U_pos as [U0 _]. assert (0 < M) as M0 by (destruct HM as [h _]; pose proof (powerRZ_lt 2 (-300) ltac:(lra)); lra).
  assert (powerRZ 2 (-41) = 4096 * U /\ powerRZ 2 (-40) = 8192 * U) as [K1 K2] by (rewrite !two_p; unfold U; change (bpow radix2 (-41)) with (/ 2199023255552); change (bpow radix2 (-40)) with (/ 1099511627776); split; lra).
  assert (0 < U * M) as UM by (apply Rmult_lt_0_compat; assumption).
  assert (3 <= INR (length cs)) as I3 by (replace 3 with (INR 3) by (cbn; ring); apply le_INR; lia).
  exists n, i, k, slen, dlen, ds. split; [exact Hi|]. split; [exact Hf|]. split; [exact Hk'|]. split; [exact Hfk|]. split; [exact Hdu|]. split; [lia|]. split; [exact Ld|]. split; [exact Cs|]. split; [exact Fc|].
  split; [|split; [|exact PM]].
  - intros q Hq. cbv zeta. destruct (Es q ltac:(lia)) as [Q1 Q2]. set (x := val (vx (nth q es origin))) in *. set (y := val (vy (nth q es origin))) in *.
    pose proof (in_plane_lin (val (d_strike d)) (val (d_dip d)) x y (val (fst (nth q ds (0%float, 0%float))) * val dlen) (val (snd (nth q ds (0%float, 0%float))) * val slen)) as LN.
    eapply Rle_trans; [apply (psub_tri _ (SampSpec.in_plane (val (d_strike d)) (val (d_dip d)) x y))|].
    assert (norm (psub (edge_vec (map val3 cs) q) (SampSpec.in_plane (val (d_strike d)) (val (d_dip d)) x y)) <= INR (length cs) * (4100 * (U * M))) as A.
    { assert (forall r, (r < length cs)%nat -> nth r (map val3 cs) zero3 = val3 (nth r cs origin)) as NT.
      { intros r Hr. rewrite (nth_indep _ zero3 (val3 origin)) by (rewrite map_length; exact Hr). apply map_nth. }
      unfold edge_vec. rewrite map_length. destruct (Nat.eq_dec (S q) (length cs)) as [Z|Z].
      - rewrite Z, Nat.mod_same, !NT by lia. replace (length es - 1)%nat with q in PC by lia. fold x y in PC. eapply Rle_trans; [exact PC|]. rewrite K1.
        assert (INR q = INR (length cs) - 1) as -> by (rewrite <- Z, S_INR; ring). assert (INR (Z.to_nat n) = INR (length cs)) as In' by (f_equal; lia). rewrite In' in Sx, Sy.
        assert (0 <= (INR (length cs)) * (U * M)) by (apply Rmult_le_pos; lra).
        replace ((INR (length cs) - 1) * (4096 * U * M)) with (4096 * (INR (length cs) * (U * M)) - 4096 * (U * M)) by ring. replace (INR (length cs) * (2 * U * M)) with (2 * (INR (length cs) * (U * M))) in Sx, Sy by ring.
        replace (INR (length cs) * (4100 * (U * M))) with (4100 * (INR (length cs) * (U * M))) by ring. lra.
      - rewrite Nat.mod_small, !NT by lia. eapply Rle_trans; [apply PE; lia|]. rewrite K1. fold x y. replace (4096 * U * M) with (1 * (4096 * (U * M))) by ring. apply Rmult_le_compat; lra. }
    rewrite K2. assert (0 <= (INR (length cs) - 3) * (U * M)) by (apply Rmult_le_pos; lra).
    replace (INR (length cs) * (8192 * U * M)) with (INR (length cs) * (4100 * (U * M)) + 4092 * ((INR (length cs) - 3) * (U * M)) + 12276 * (U * M)) by ring. lra.
  - intros a b Ha Hb. pose proof (PP a ltac:(lia)) as Pa. pose proof (PP b ltac:(lia)) as Pb. rewrite K1 in Pa, Pb. rewrite K2.
    set (c0 := val3 (nth 0 cs origin)) in *. set (ca := val3 (nth a cs origin)) in *. set (cb := val3 (nth b cs origin)) in *. set (nn := plane_normal _ _) in *.
    replace (dot nn (psub cb ca)) with (dot nn (psub cb c0) - dot nn (psub ca c0)) by (unfold dot, psub; cbn [vx vy vz]; ring).
    assert (forall r, (r < length cs)%nat -> INR r * (4096 * U * M) <= INR (length cs) * (4096 * U * M)) as Lr by (intros r Hr; apply Rmult_le_compat_r; [lra|apply le_INR; lia]).
    pose proof (Lr a Ha). pose proof (Lr b Hb). apply Rabs_def2_le in Pa, Pb. apply Rabs_le. lra.
Qed.
End Sampled.

Lemma U_53 : powerRZ 2 (-53) = U.
Proof. rewrite two_p. reflexivity. Qed.
Lemma sampled_corners : forall (T : Trig F), accurate T -> forall esort (d : poly_draws F) M, (forall l, Permutation (esort l) l) -> scale M -> drawn M d -> forall cs, sample_corners esort d = Ok cs ->
  exists n i k slen dlen ds, (i < 99)%nat /\ first_at (fun v => (3 <= v)%Z) (d_num d) i n /\ (k < 100)%nat /\ first_at (fun x => 0 <= val x) (d_slen d) k slen /\ length_drawn (d_dlen d) dlen /\
  length cs = Z.to_nat n /\ closed_steps (powerRZ 2 (-53)) ds /\ Forall (point_upto (4 * M)) cs /\
  made_near (INR (length cs) * (powerRZ 2 (-40) * M)) (val (d_strike d)) (val (d_dip d)) (val dlen) (val slen) ds cs /\
  planar_near (INR (length cs) * (powerRZ 2 (-40) * M)) (plane_normal (val (d_strike d)) (val (d_dip d))) cs /\
  middle_near (powerRZ 2 (-49) * M) cs (d_center d).
Proof.
  intros T HT esort d M Hp HM [H1 H2 H3 H4 H5 H6 H7] cs E.
  destruct (corners_dbl esort d M HT H1 H2 HM H3 Hp H4 H5 H6 H7 cs E) as (n & i & k & slen & dlen & ds & A1 & A2 & A3 & A4 & A5 & A6 & A7 & A8 & A9 & A10 & A11 & A12).
  exists n, i, k, slen, dlen, ds. rewrite U_53. do 8 (split; [assumption|]). split; [|split; [|exact A12]].
  - split; [lia|exact A10].
  - intros a b Ha Hb. destruct (In_nth _ _ origin Ha) as (x & Hx & <-). destruct (In_nth _ _ origin Hb) as (y & Hy & <-). apply A11; assumption.
Qed.
Lemma sampled_throws : forall (T : Trig F) esort (d : poly_draws F) M, drawn M d ->
  (sample_corners esort d = Throw RuntimeError <-> (forall i, (i < 99)%nat -> (d_num d i < 3)%Z) \/ (forall i, (i < 100)%nat -> val (d_slen d i) < 0)) /\
  ((exists cs, sample_corners esort d = Ok cs) <-> sample_corners esort d <> Throw RuntimeError).
Proof. intros T esort d M [H1 H2 H3 H4 H5 H6 H7]. split; [exact (corners_throw esort d M H4 H5 H6)|exact (corners_return esort d M H4 H5 H6)]. Qed.
Lemma four_drawn M d : drawn M d -> drawn M (four d).
Proof. intros [H1 H2 H3 H4 H5 H6 H7]. constructor; try assumption. intros i. cbn. lia. Qed.
Lemma sampled_quad : forall (T : Trig F), accurate T -> forall esort (d : poly_draws F) M, (forall l, Permutation (esort l) l) -> scale M -> drawn M d -> forall q, sample_quad esort d = Ok q ->
  exists k slen dlen ds, (k < 100)%nat /\ first_at (fun x => 0 <= val x) (d_slen d) k slen /\ length_drawn (d_dlen d) dlen /\
  closed_steps (powerRZ 2 (-53)) ds /\
  made_near (powerRZ 2 (-38) * M) (val (d_strike d)) (val (d_dip d)) (val dlen) (val slen) ds [q_0 q; q_1 q; q_3 q; q_2 q] /\
  planar_near (powerRZ 2 (-38) * M) (plane_normal (val (d_strike d)) (val (d_dip d))) [q_0 q; q_1 q; q_3 q; q_2 q] /\
  middle_near (powerRZ 2 (-49) * M) [q_0 q; q_1 q; q_3 q; q_2 q] (d_center d).
Proof.
  intros T HT esort d M Hp HM Hd q E. unfold sample_quad in E. destruct (sample_corners esort (four d)) as [cs| | |] eqn:E1; cbn [obind] in E; try discriminate.
  destruct (sampled_corners T HT esort (four d) M Hp HM (four_drawn M d Hd) cs E1) as (n & i & k & slen & dlen & ds & A1 & A2 & A3 & A4 & A5 & A6 & A7 & A8 & A9 & A10 & A11).
  destruct cs as [|c0 [|c1 [|c2 [|c3 [|]]]]]; try discriminate. injection E as <-. exists k, slen, dlen, ds.
  assert (INR (length [c0; c1; c2; c3]) * (powerRZ 2 (-40) * M) = powerRZ 2 (-38) * M) as K.
  { rewrite !two_p. change (bpow radix2 (-40)) with (/ 1099511627776). change (bpow radix2 (-38)) with (/ 274877906944). cbn [length INR]. lra. }
  rewrite K in A9, A10. do 4 (split; [assumption|]). split; [exact A9|]. split; [exact A10|exact A11].
Qed.
