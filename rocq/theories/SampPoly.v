(** The polygon sampler: proofs. *)

From Coq Require Import ZArith Reals Lra Lia Psatz Nsatz Bool List Permutation.
From Verif Require Import Base NumModel VecModel LinModel RoundModel PolyModel DistModel IntModel SampModel
  GeoSpec LinSpec RoundSpec PolySpec SampSpec GeoLemmas MathProofs LinProofs EllProofs CylProofs SampProofs.
Import ListNotations.
Local Open Scope R_scope.

(** * Lists *)
Lemma pop_perm {B} (better : B -> B -> bool) : forall l m r, pop_by better l = Some (m, r) -> Permutation l (m :: r).
Proof.
  induction l as [|a l IH]; intros m r E; cbn in E; [discriminate|].
  destruct (pop_by better l) as [[m' r']|] eqn:P.
  - destruct (better m' a); injection E as <- <-; [|reflexivity].
    etransitivity; [apply perm_skip, IH; reflexivity|]. apply perm_swap.
  - injection E as <- <-. destruct l as [|b l]; [reflexivity|]. cbn in P.
    destruct (pop_by better l) as [[? ?]|]; [destruct (better _ _)|]; discriminate.
Qed.

Lemma pop_some {B} (better : B -> B -> bool) l : l <> [] -> exists m r, pop_by better l = Some (m, r).
Proof.
  destruct l as [|a l]; [contradiction|]. intros _. cbn. destruct (pop_by better l) as [[m r]|]; [destruct (better m a)|]; eauto.
Qed.

Lemma pop_min_le : forall l m r, pop_by Rltb l = Some (m, r) -> forall x, In x l -> m <= x.
Proof.
  induction l as [|a l IH]; intros m r E x Hx; cbn in E; [discriminate|].
  destruct (pop_by Rltb l) as [[m' r']|] eqn:P.
  - pose proof (IH _ _ eq_refl) as H. destruct (Rltb_spec m' a); injection E as <- <-; destruct Hx as [<-|Hx]; try lra.
    + apply H, Hx.
    + pose proof (H x Hx). lra.
  - injection E as <- <-. destruct Hx as [<-|Hx]; [lra|]. destruct l as [|b l]; [contradiction|]. cbn in P.
    destruct (pop_by Rltb l) as [[? ?]|]; [destruct (Rltb _ _)|]; discriminate.
Qed.

Lemma pop_max_ge : forall l m r, pop_by (fun m a => Rltb a m) l = Some (m, r) -> forall x, In x l -> x <= m.
Proof.
  induction l as [|a l IH]; intros m r E x Hx; cbn in E; [discriminate|].
  destruct (pop_by (fun m a => Rltb a m) l) as [[m' r']|] eqn:P.
  - pose proof (IH _ _ eq_refl) as H. destruct (Rltb_spec a m'); injection E as <- <-; destruct Hx as [<-|Hx]; try lra.
    + apply H, Hx.
    + pose proof (H x Hx). lra.
  - injection E as <- <-. destruct Hx as [<-|Hx]; [lra|]. destruct l as [|b l]; [contradiction|]. cbn in P.
    destruct (pop_by (fun m a => Rltb a m) l) as [[? ?]|]; [destruct (Rltb _ _)|]; discriminate.
Qed.

Lemma insert_perm {B} (lt : B -> B -> bool) x l : Permutation (insert_by lt x l) (x :: l).
Proof.
  induction l as [|y l IH]; cbn; [reflexivity|]. destruct (lt y x); [|reflexivity].
  etransitivity; [apply perm_skip, IH|]. apply perm_swap.
Qed.
Lemma isort_perm {B} (lt : B -> B -> bool) l : Permutation (isort lt l) l.
Proof.
  induction l as [|x l IH]; cbn; [reflexivity|]. etransitivity; [apply insert_perm|]. apply perm_skip, IH.
Qed.

Fixpoint ascending (l : list R) : Prop :=
  match l with a :: ((b :: _) as r) => a <= b /\ ascending r | _ => True end.

Lemma insert_ascending x l : ascending l -> ascending (insert_by Rltb x l).
Proof.
  induction l as [|y l IH]; intros Hs; cbn; [trivial|]. destruct (Rltb_spec y x) as [C|C].
  - assert (ascending l) as Hl by (destruct l; [trivial|apply Hs]). specialize (IH Hl).
    destruct l as [|z l]; cbn in *; [split; [lra|trivial]|]. destruct Hs as [Hyz _].
    destruct (Rltb z x); cbn in *; split; try assumption; lra.
  - split; [lra|assumption].
Qed.
Lemma isort_ascending l : ascending (isort Rltb l).
Proof. induction l as [|x l IH]; [exact I|]. apply (insert_ascending x), IH. Qed.

Lemma insert_head x l : (forall y, In y l -> x <= y) -> insert_by Rltb x l = x :: l.
Proof.
  destruct l as [|y l]; intros Hx; cbn; [reflexivity|]. destruct (Rltb_spec y x) as [C|C]; [|reflexivity].
  pose proof (Hx y (or_introl eq_refl)). lra.
Qed.

Lemma ascending_app l z : ascending l -> (forall y, In y l -> y <= z) -> ascending (l ++ [z]).
Proof.
  induction l as [|a l IH]; intros Hs Hz; cbn; [trivial|].
  destruct l as [|b l]; cbn in *; [split; [apply Hz; left; reflexivity|trivial]|].
  destruct Hs as [Hab Hs]. split; [assumption|]. apply IH; [assumption|]. intros y Hy. apply Hz. right. exact Hy.
Qed.

Lemma sum_app l1 l2 : sum (l1 ++ l2) = sum l1 + sum l2.
Proof. unfold sum. induction l1 as [|a l IH]; cbn; [ring|]. rewrite IH. ring. Qed.
Lemma sum_perm l1 l2 : Permutation l1 l2 -> sum l1 = sum l2.
Proof. unfold sum. induction 1; cbn; try lra; congruence. Qed.

Lemma diffs_sum (l : list R) : forall a z, sum (diffs (a :: l ++ [z])) = z - a.
Proof.
  induction l as [|b l IH]; intros a z; cbn; [unfold sum; cbn; ring|].
  cbn in IH. unfold sum in *. cbn. rewrite IH. rn. ring.
Qed.
Lemma diffs_nonneg (l : list R) : ascending l -> Forall (fun x => 0 <= x) (diffs l).
Proof.
  induction l as [|a l IH]; intros Hs; cbn; [constructor|]. destruct l as [|b l]; [constructor|].
  destruct Hs as [Hab Hs]. constructor; [rn; lra|]. apply IH, Hs.
Qed.
Lemma diffs_length (l : list R) : length (diffs l) = (length l - 1)%nat.
Proof. induction l as [|a l IH]; cbn; [reflexivity|]. destruct l as [|b l]; [reflexivity|]. cbn in *. lia. Qed.

Lemma evens_odds_length {B} : forall l : list B, (length (evens l) + length (odds l) = length l)%nat.
Proof.
  assert (forall k (l : list B), (length l <= k)%nat -> (length (evens l) + length (odds l) = length l)%nat) as H.
  { induction k as [|k IH]; intros l Hl; [destruct l; cbn in *; [reflexivity|lia]|].
    destruct l as [|a [|b l]]; [reflexivity|reflexivity|]. cbn in Hl.
    change (length (evens (a :: b :: l))) with (S (length (evens l))).
    assert (length (odds (a :: b :: l)) = S (length (odds l))) as Eo.
    { cbn. destruct l as [|c l]; reflexivity. }
    rewrite Eo. cbn. rewrite <- (IH l) by lia. lia. }
  intros l. apply (H (length l)). lia.
Qed.
Lemma evens_in {B} : forall (l : list B) x, In x (evens l) -> In x l.
Proof.
  assert (forall k (l : list B), (length l <= k)%nat -> forall x, In x (evens l) -> In x l) as H.
  { induction k as [|k IH]; intros l Hl x Hx; [destruct l; cbn in *; [contradiction|lia]|].
    destruct l as [|a [|b l]]; [contradiction|exact Hx|]. cbn in Hl, Hx. destruct Hx as [<-|Hx]; [left; reflexivity|].
    right. right. apply (IH l); [lia|exact Hx]. }
  intros l. apply (H (length l)). lia.
Qed.
Lemma odds_in {B} (l : list B) x : In x (odds l) -> In x l.
Proof. destruct l as [|a l]; [contradiction|]. intros Hx. right. apply evens_in, Hx. Qed.

(** * The deltas of one coordinate *)
Lemma rises_nonneg l : Forall (fun x => 0 <= x) l -> rises l = sum l.
Proof. unfold rises, sum. induction 1; cbn; [reflexivity|]. rewrite IHForall, Rmax_right by assumption. reflexivity. Qed.
Lemma rises_app l1 l2 : rises (l1 ++ l2) = rises l1 + rises l2.
Proof. unfold rises. rewrite map_app. apply sum_app. Qed.
Lemma rises_neg l : Forall (fun x => 0 <= x) l -> rises (map (fun v => v * -1) l) = 0.
Proof.
  unfold rises, sum. induction 1; cbn; [reflexivity|]. rewrite IHForall, Rmax_left by lra. ring.
Qed.
Lemma sum_neg l : sum (map (fun v => v * -1) l) = - sum l.
Proof. unfold sum. induction l as [|a l IH]; cbn; [ring|]. rewrite IH. ring. Qed.
Lemma rises_perm l1 l2 : Permutation l1 l2 -> rises l1 = rises l2.
Proof. intros P. apply sum_perm, Permutation_map, P. Qed.

Lemma one_side mn mx l : (forall x, In x l -> mn <= x <= mx) -> mn <= mx ->
  let s := isort Rltb (mn :: l) ++ [mx] in
  Forall (fun x => 0 <= x) (diffs s) /\ sum (diffs s) = mx - mn /\ length (diffs s) = S (length l).
Proof.
  intros Hl Hm s.
  assert (isort Rltb (mn :: l) = mn :: isort Rltb l) as Es.
  { change (isort Rltb (mn :: l)) with (insert_by Rltb mn (isort Rltb l)). apply insert_head.
    intros y Hy. apply Hl, (Permutation_in _ (isort_perm Rltb l)), Hy. }
  split; [|split].
  - apply diffs_nonneg, ascending_app; [apply isort_ascending|]. intros y Hy.
    apply (Permutation_in _ (isort_perm Rltb _)) in Hy. destruct Hy as [<-|Hy]; [assumption|]. apply Hl, Hy.
  - unfold s. rewrite Es. apply (diffs_sum (isort Rltb l)).
  - unfold s. transitivity (length (isort Rltb (mn :: l) ++ [mx]) - 1)%nat; [apply diffs_length|].
    rewrite Es, app_length. cbn [length]. rewrite (Permutation_length (isort_perm Rltb l)). lia.
Qed.

Lemma deltas_of_spec (vals : list R) : (2 <= length vals)%nat ->
  exists l w, deltas_of vals = Ok l /\ length l = length vals /\ sum l = 0 /\ rises l = w /\
    ((forall x, In x vals -> 0 <= x <= 1) -> 8 / 10 <= w <= 1).
Proof.
  intros Hn. unfold deltas_of. rn.
  destruct (pop_some Rltb vals) as (mn0 & r & E1); [destruct vals; cbn in Hn; [lia|discriminate]|].
  change (@pop_by R (fun x y => Rltb x y) vals) with (pop_by Rltb vals). rewrite E1.
  pose proof (pop_perm _ _ _ _ E1) as P1. pose proof (Permutation_length P1) as L1. cbn in L1.
  destruct (pop_some (fun m a => Rltb a m) r) as (mx0 & r' & E2); [destruct r; cbn in *; [lia|discriminate]|].
  rewrite E2.
  pose proof (pop_perm _ _ _ _ E2) as P2. pose proof (Permutation_length P2) as L2. cbn in L2.
  set (mn := exploit_min mn0). set (mx := exploit_max mx0).
  assert (mn <= mn0) as Hmn. { unfold mn, exploit_min. rn. rcmp; lra. }
  assert (mx0 <= mx) as Hmx. { unfold mx, exploit_max. rn. rcmp; lra. }
  assert (forall x, In x vals -> mn0 <= x) as A1 by (intros x Hx; apply (pop_min_le _ _ _ E1 x Hx)).
  assert (forall x, In x r -> x <= mx0) as A2 by (intros x Hx; apply (pop_max_ge _ _ _ E2 x Hx)).
  assert (forall x, In x r -> In x vals) as A3.
  { intros x Hx. apply (Permutation_in _ (Permutation_sym P1)). right. exact Hx. }
  assert (In mx0 r) as A4. { apply (Permutation_in _ (Permutation_sym P2)). left. reflexivity. }
  assert (forall x, In x r' -> In x r) as A5.
  { intros x Hx. apply (Permutation_in _ (Permutation_sym P2)). right. exact Hx. }
  assert (mn <= mx) as Hm. { pose proof (A1 mx0 (A3 _ A4)). lra. }
  assert (forall x, In x r' -> mn <= x <= mx) as A6.
  { intros x Hx. pose proof (A1 x (A3 _ (A5 _ Hx))). pose proof (A2 x (A5 _ Hx)). lra. }
  destruct (one_side mn mx (evens r')) as (U1 & U2 & U3); [intros x Hx; apply A6, evens_in, Hx|assumption|].
  destruct (one_side mn mx (odds r')) as (D1 & D2 & D3); [intros x Hx; apply A6, odds_in, Hx|assumption|].
  change (@isort R (fun x y => Rltb x y)) with (isort Rltb).
  set (up := diffs (isort Rltb (mn :: evens r') ++ [mx])) in *.
  set (down := diffs (isort Rltb (mn :: odds r') ++ [mx])) in *.
  exists (up ++ map (fun v => v * -1) down), (mx - mn). split; [reflexivity|]. split.
  { rewrite app_length, map_length, U3, D3. pose proof (evens_odds_length r'). lia. }
  split; [rewrite sum_app, sum_neg, U2, D2; ring|].
  split; [rewrite rises_app, (rises_nonneg _ U1), (rises_neg _ D1), U2; ring|].
  intros Hv. pose proof (Hv mx0 (A3 _ A4)) as Bx.
  assert (In mn0 vals) as Bi by (apply (Permutation_in _ (Permutation_sym P1)); left; reflexivity).
  pose proof (Hv mn0 Bi) as Bn. clear - Bx Bn.
  unfold mn, mx, exploit_min, exploit_max. rn. repeat rcmp; lra.
Qed.

(** * Pairing *)
Lemma pair_up_spec (max2 : R) : forall dxs dys, length dxs = length dys ->
  exists ps, pair_up max2 dxs dys = Ok ps /\ map fst ps = dxs /\ Permutation (map snd ps) dys.
Proof.
  induction dxs as [|dx dxs IH]; intros dys Hl; cbn.
  - destruct dys; [|discriminate]. exists []. repeat split. constructor.
  - match goal with |- context [pop_by ?f dys] => destruct (pop_some f dys) as (dy & dys' & E);
      [destruct dys; discriminate|] end.
    rewrite E. pose proof (pop_perm _ _ _ _ E) as P. pose proof (Permutation_length P) as L. cbn in L, Hl.
    destruct (IH dys') as (ps & Ep & Ex & Ey); [lia|]. rewrite Ep. cbn [obind].
    exists ((dx, dy) :: ps). split; [reflexivity|]. cbn. rewrite Ex. split; [reflexivity|].
    rewrite P. apply perm_skip, Ey.
Qed.

Lemma deltas_for_spec n (u : draws R) : (2 <= n)%nat -> exists ds w h, deltas_for n u = Ok ds /\ length ds = n /\ steps_ok w h ds /\
  ((forall i, 0 <= u i <= 1) -> 8 / 10 <= w <= 1 /\ 8 / 10 <= h <= 1).
Proof.
  intros Hn. unfold deltas_for.
  destruct (deltas_of_spec (map u (seq 0 n))) as (dx & w & Ex & Lx & Sx & Wx & Bx); [rewrite map_length, seq_length; exact Hn|].
  destruct (deltas_of_spec (map u (seq n n))) as (dy & h & Ey & Ly & Sy & Wy & By); [rewrite map_length, seq_length; exact Hn|].
  rewrite map_length, seq_length in Lx, Ly. rewrite Ex, Ey. cbn [obind].
  pose proof (isort_perm (@nltb R _) dx) as P. set (sx := isort nltb dx) in *.
  destruct (pair_up_spec (max_delta2 sx dy) sx dy) as (ps & Ep & Ef & Es); [rewrite (Permutation_length P); lia|].
  exists ps, w, h. split; [exact Ep|]. split; [rewrite <- (map_length fst), Ef, (Permutation_length P); exact Lx|].
  split.
  - unfold steps_ok. rewrite Ef, (sum_perm _ _ P), (sum_perm _ _ Es), (rises_perm _ _ P), (rises_perm _ _ Es). auto.
  - intros Hu. split; [apply Bx|apply By]; intros x Hx; apply in_map_iff in Hx; destruct Hx as (i & <- & _); apply Hu.
Qed.

(** * The retry loops *)
Lemma retry_spec {B} (bad : B -> bool) s : forall left i count v, let '(w, k) := retry bad s i left count v in
  (exists m, (m <= left)%nat /\ k = (count + m)%nat /\
     (m = 0%nat -> w = v) /\ (forall q, m = S q -> w = s (i + q)%nat /\ bad v = true) /\
     (forall j, (S j < m)%nat -> bad (s (i + j)%nat) = true) /\
     ((m < left)%nat -> bad w = false)).
Proof.
  induction left as [|l IH]; intros i count v; cbn.
  - exists 0%nat. repeat split; try lia; try discriminate.
  - destruct (bad v) eqn:Bv.
    + specialize (IH (S i) (S count) (s i)). destruct (retry bad s (S i) l (S count) (s i)) as [w k].
      destruct IH as (m & Hm & Hk & H0 & HS & Hj & Hl). exists (S m). split; [lia|]. split; [lia|].
      split; [discriminate|]. split; [|split].
      * intros q Hq. injection Hq as <-. split; [|reflexivity]. destruct m as [|q].
        -- rewrite H0 by reflexivity. rewrite Nat.add_0_r. reflexivity.
        -- destruct (HS q eq_refl) as [-> _]. f_equal. lia.
      * intros j Hj'. destruct j as [|j].
        -- rewrite Nat.add_0_r. destruct m as [|q]; [lia|]. apply (HS q eq_refl).
        -- replace (i + S j)%nat with (S i + j)%nat by lia. apply Hj. lia.
      * intros Hm'. apply Hl. lia.
    + exists 0%nat. repeat split; try lia; try discriminate; auto.
Qed.

(** numbers of corners: 0 is the initial value *)
Lemma num_retry (s : draws Z) : let '(n, k) := retry (fun v => Z.ltb v 3) s 0 100 0 0%Z in
  (k = 100%nat <-> forall i, (i < 99)%nat -> (s i < 3)%Z) /\
  (k <> 100%nat -> (3 <= n)%Z /\ exists i, (i < 99)%nat /\ first_at (fun v => (3 <= v)%Z) s i n).
Proof.
  pose proof (retry_spec (fun v => Z.ltb v 3) s 100 0 0 0%Z) as H.
  destruct (retry (fun v => Z.ltb v 3) s 0 100 0 0%Z) as [n k]. destruct H as (m & Hm & Hk & H0 & HS & Hj & Hl).
  cbn [Nat.add] in *. subst k. split.
  - split.
    + intros E i Hi. apply Z.ltb_lt, Hj. lia.
    + intros Hi. destruct (Nat.eq_dec m 100) as [|N]; [assumption|]. exfalso.
      assert (Z.ltb n 3 = false) as Hn by (apply Hl; lia). apply Z.ltb_ge in Hn.
      destruct m as [|q]; [rewrite (H0 eq_refl) in Hn; lia|].
      destruct (HS q eq_refl) as [-> _]. pose proof (Hi q). lia.
  - intros N. assert (Z.ltb n 3 = false) as Hn by (apply Hl; lia). apply Z.ltb_ge in Hn. split; [assumption|].
    destruct m as [|q]; [rewrite (H0 eq_refl) in Hn; lia|]. destruct (HS q eq_refl) as [E _].
    exists q. split; [lia|]. split; [symmetry; exact E|]. split; [assumption|].
    intros j Hj'. specialize (Hj j ltac:(lia)). apply Z.ltb_lt in Hj. cbn in Hj. lia.
Qed.

Lemma len_retry (s : draws R) : let '(v, k) := retry (fun l => Rltb l 0) s 1 100 0 (s 0%nat) in
  (k = 100%nat <-> forall i, (i < 100)%nat -> s i < 0) /\
  (k <> 100%nat -> 0 <= v /\ exists i, (i < 100)%nat /\ first_at (fun x => 0 <= x) s i v) /\ length_used s v.
Proof.
  pose proof (retry_spec (fun l => Rltb l 0) s 100 1 0 (s 0%nat)) as H.
  destruct (retry (fun l => Rltb l 0) s 1 100 0 (s 0%nat)) as [v k]. destruct H as (m & Hm & Hk & H0 & HS & Hj & Hl).
  cbn [Nat.add] in *. subst k.
  assert (v = s m) as Ev. { destruct m as [|q]; [apply H0; reflexivity|]. apply (HS q eq_refl). }
  assert (forall j, (j < m)%nat -> s j < 0) as Hneg.
  { intros j Hj'. apply Rltb_true. destruct j as [|j].
    - destruct m as [|q]; [lia|]. apply (HS q eq_refl).
    - apply Hj. lia. }
  assert ((m < 100)%nat -> 0 <= v) as Hv. { intros C. apply Rltb_false, Hl, C. }
  assert ((m < 100)%nat -> exists i, (i < 100)%nat /\ first_at (fun x => 0 <= x) s i v) as Hf.
  { intros C. exists m. split; [assumption|]. split; [symmetry; exact Ev|]. split; [apply Hv, C|].
    intros j Hj'. pose proof (Hneg j Hj'). lra. }
  split; [|split].
  - split; [intros ->; exact Hneg|]. intros Hi. destruct (Nat.eq_dec m 100) as [|N]; [assumption|].
    exfalso. pose proof (Hv ltac:(lia)). pose proof (Hi m ltac:(lia)). subst v. lra.
  - intros N. split; [apply Hv; lia|apply Hf; lia].
  - destruct (Nat.eq_dec m 100) as [->|N]; [right|left; apply Hf; lia]. split; [exact Hneg|exact Ev].
Qed.

(** * Placement *)
Lemma strike_unit s : unit3 (strike_dir s).
Proof. unfold unit3, strike_dir. coords. pose proof (sc1 s). lra. Qed.
Lemma to_dir_strike s : to_dir (mkV3 (- sin s) (cos s) 0) = strike_dir s :> pt.
Proof. exact (to_dir_of_unit _ (strike_unit s)). Qed.
Lemma dip_unit s d : unit3 (dip_dir s d).
Proof.
  unfold unit3, dip_dir. coords. pose proof (sc1 s). pose proof (sc1 d).
  set (a := cos s) in *. set (b := sin s) in *. set (c := cos d) in *. set (e := sin d) in *. clearbody a b c e. nsatz.
Qed.
Lemma dip_strike s d : ortho (dip_dir s d) (strike_dir s).
Proof. unfold ortho, strike_dir, dip_dir. coords. ring. Qed.
Lemma normal_unit s d : unit3 (plane_normal s d).
Proof.
  unfold unit3, plane_normal. coords. pose proof (sc1 s). pose proof (sc1 d).
  set (a := cos s) in *. set (b := sin s) in *. set (c := cos d) in *. set (e := sin d) in *. clearbody a b c e. nsatz.
Qed.
Lemma normal_dip s d : ortho (dip_dir s d) (plane_normal s d).
Proof.
  unfold ortho, plane_normal, dip_dir. coords. pose proof (sc1 s).
  set (a := cos s) in *. set (b := sin s) in *. set (c := cos d) in *. set (e := sin d) in *. clearbody a b c e. nsatz.
Qed.
Lemma normal_strike s d : ortho (strike_dir s) (plane_normal s d).
Proof. unfold ortho, plane_normal, strike_dir. coords. ring. Qed.

Lemma turned s d (e : pt) : vz e = 0 ->
  rotate (rotate e (mkV3 0 0 1) s) (strike_dir s) d = in_plane s d (vx e) (vy e).
Proof.
  intros Hz. rewrite rotate_z, rotate_rodrigues. destruct e as [x y z]. cbn in Hz. subst z.
  unfold turn_z, in_plane, strike_dir, dip_dir. coords. pose proof (sc1 s) as Hs.
  set (a := cos s) in *. set (b := sin s) in *. set (c := cos d) in *. set (f := sin d) in *. clearbody a b c f.
  v3; nsatz.
Qed.

Definition psum (l : list pt) : pt := fold_right padd zero3 l.

Lemma walk_length (es : list pt) : forall p, length (walk p es) = length es.
Proof. induction es as [|e es IH]; intros p; cbn; [reflexivity|]. rewrite IH. reflexivity. Qed.
Lemma walk_nth (es : list pt) : forall p i, (i < length es)%nat -> nth i (walk p es) zero3 = padd p (psum (firstn i es)).
Proof.
  induction es as [|e es IH]; intros p i Hi; cbn in Hi; [lia|]. destruct i as [|i]; cbn.
  - destruct p. unfold zero3. coords. v3; ring.
  - rewrite IH by lia. change (fold_right padd zero3) with psum. destruct (psum (firstn i es)), p, e. coords. v3; ring.
Qed.
Lemma psum_snoc l e : psum (l ++ [e]) = padd (psum l) e.
Proof.
  induction l as [|a l IH]; cbn.
  - destruct e. unfold zero3. coords. v3; ring.
  - change (fold_right padd zero3) with psum. rewrite IH. destruct (psum l), a, e. coords. v3; ring.
Qed.

Lemma firstn_S_nth {B} (l : list B) (d : B) : forall i, (i < length l)%nat -> firstn (S i) l = firstn i l ++ [nth i l d].
Proof.
  induction l as [|a l IH]; intros i Hi; cbn in Hi; [lia|]. destruct i as [|i]; [reflexivity|].
  specialize (IH i ltac:(lia)). change (firstn (S (S i)) (a :: l)) with (a :: firstn (S i) l). rewrite IH. reflexivity.
Qed.

Lemma walk_edge (es : list pt) p i : (i < length es)%nat -> psum es = zero3 ->
  edge_vec (walk p es) i = nth i es zero3.
Proof.
  intros Hi Hs. unfold edge_vec. rewrite walk_length, (walk_nth es p i Hi).
  assert (psum (firstn (S i) es) = padd (psum (firstn i es)) (nth i es zero3)) as E.
  { rewrite (firstn_S_nth es zero3 i Hi). apply psum_snoc. }
  destruct (Nat.eq_dec (S i) (length es)) as [El|Nl].
  - rewrite El, Nat.mod_same by lia. rewrite walk_nth by lia. cbn [firstn].
    rewrite El, firstn_all, Hs in E.
    set (a := psum (firstn i es)) in *. set (b := nth i es zero3) in *. clearbody a b.
    change (psum []) with zero3. clear - E. destruct a, b, p. unfold zero3 in *. coords. injection E as E1 E2 E3. v3; lra.
  - rewrite Nat.mod_small by lia. rewrite walk_nth by lia. rewrite E.
    set (a := psum (firstn i es)) in *. set (b := nth i es zero3) in *. clearbody a b. clear. destruct a, b, p. coords. v3; ring.
Qed.

Lemma edge_vec_move (vs : list pt) t i : (i < length vs)%nat -> edge_vec (map (fun v => padd v t) vs) i = edge_vec vs i.
Proof.
  intros Hi. unfold edge_vec. rewrite map_length.
  assert (forall k, (k < length vs)%nat -> nth k (map (fun v => padd v t) vs) zero3 = padd (nth k vs zero3) t) as E.
  { intros k Hk. rewrite (nth_indep _ zero3 ((fun v => padd v t) zero3)) by (rewrite map_length; exact Hk).
    apply (map_nth (fun v => padd v t)). }
  rewrite !E; [clear; coords; v3; ring|assumption|]. apply Nat.mod_upper_bound. lia.
Qed.

Definition flat (es : list pt) : Prop := forall e, In e es -> vz e = 0.

Lemma place_eq (es : list pt) s d c : flat es -> place_polygon es s d c =
  let vs := walk zero3 (map (fun e => in_plane s d (vx e) (vy e)) es) in
  map (fun v => padd v (psub c (mkV3 (bbox_mid (map vx vs)) (bbox_mid (map vy vs)) (bbox_mid (map vz vs))))) vs.
Proof.
  intros Hf. unfold place_polygon. rn. change (nlit 0 1) with 0. change (nlit 1 1) with 1.
  rewrite to_dir_z, to_dir_strike.
  assert (rotate_all (rotate_all es (mkV3 0 0 1) s) (strike_dir s) d = map (fun e => in_plane s d (vx e) (vy e)) es) as E.
  { unfold rotate_all. rewrite map_map. apply map_ext_in. intros e He. apply (turned s d e), Hf, He. }
  rewrite E. reflexivity.
Qed.

Lemma flat_edges (slen dlen : R) ds : flat (edge_vectors slen dlen ds).
Proof. intros e He. apply in_map_iff in He. destruct He as (x & <- & _). reflexivity. Qed.

(** the bounding box *)
Lemma fold_min_spec (l : list R) : forall a, let m := fold_left nmin l a in (m = a \/ In m l) /\ m <= a /\ forall x, In x l -> m <= x.
Proof.
  induction l as [|b l IH]; intros a; cbn; [split; [left; reflexivity|split; [lra|contradiction]]|].
  destruct (IH (nmin a b)) as (H1 & H2 & H3). set (m := fold_left nmin l (nmin a b)) in *.
  assert (nmin a b <= a /\ nmin a b <= b /\ (nmin a b = a \/ nmin a b = b)) as (K1 & K2 & K3).
  { unfold nmin. rn. rcmp; repeat split; try lra; auto. }
  split; [|split; [lra|]].
  - destruct H1 as [H1|H1]; [|auto]. destruct K3 as [K|K]; rewrite K in H1; auto.
  - intros x [<-|Hx]; [lra|apply H3, Hx].
Qed.
Lemma fold_max_spec (l : list R) : forall a, let m := fold_left nmax l a in (m = a \/ In m l) /\ a <= m /\ forall x, In x l -> x <= m.
Proof.
  induction l as [|b l IH]; intros a; cbn; [split; [left; reflexivity|split; [lra|contradiction]]|].
  destruct (IH (nmax a b)) as (H1 & H2 & H3). set (m := fold_left nmax l (nmax a b)) in *.
  assert (a <= nmax a b /\ b <= nmax a b /\ (nmax a b = a \/ nmax a b = b)) as (K1 & K2 & K3).
  { unfold nmax. rn. rcmp; repeat split; try lra; auto. }
  split; [|split; [lra|]].
  - destruct H1 as [H1|H1]; [|auto]. destruct K3 as [K|K]; rewrite K in H1; auto.
  - intros x [<-|Hx]; [lra|apply H3, Hx].
Qed.

Lemma bbox_middle (l : list R) : In 0 l -> middle l (bbox_mid l).
Proof.
  intros H0. unfold bbox_mid. rn. change (nlit 0 1) with 0.
  destruct (fold_min_spec l 0) as (A1 & A2 & A3). destruct (fold_max_spec l 0) as (B1 & B2 & B3).
  set (lo := fold_left nmin l 0) in *. set (hi := fold_left nmax l 0) in *.
  exists lo, hi. split; [destruct A1 as [->|A1]; assumption|]. split; [destruct B1 as [->|B1]; assumption|].
  split; [intros x Hx; split; [apply A3, Hx|apply B3, Hx]|]. lra.
Qed.

Lemma middle_move l m t : middle l m -> middle (map (fun x => x + t) l) (m + t).
Proof.
  intros (lo & hi & Hlo & Hhi & Hb & ->). exists (lo + t), (hi + t).
  split; [apply in_map_iff; exists lo; auto|]. split; [apply in_map_iff; exists hi; auto|].
  split; [|lra]. intros x Hx. apply in_map_iff in Hx. destruct Hx as (y & <- & Hy). pose proof (Hb y Hy). lra.
Qed.

Lemma place_centre (es : list pt) s d c : flat es -> es <> [] -> let cs := place_polygon es s d c in
  middle (map vx cs) (vx c) /\ middle (map vy cs) (vy c) /\ middle (map vz cs) (vz c).
Proof.
  intros Hf Hne. cbn zeta. rewrite place_eq by assumption. cbn zeta.
  set (vs := walk zero3 _).
  assert (In zero3 vs) as H0 by (unfold vs; destruct es; [contradiction|left; reflexivity]).
  set (mid := mkV3 _ _ _).
  assert (forall f : pt -> R, (forall a b, f (padd a b) = f a + f b) -> (forall a b, f (psub a b) = f a - f b) ->
     f zero3 = 0 -> f mid = bbox_mid (map f vs) -> middle (map f (map (fun v => padd v (psub c mid)) vs)) (f c)) as K.
  { intros f Ha Hs Hz Em. rewrite map_map.
    rewrite (map_ext (fun x => f (padd x (psub c mid))) (fun x => (fun y => y + (f c - f mid)) (f x))) by (intros a; rewrite Ha, Hs; reflexivity).
    rewrite <- (map_map f (fun y => y + (f c - f mid))).
    assert (In 0 (map f vs)) as H0' by (apply in_map_iff; exists zero3; auto).
    pose proof (middle_move _ _ (f c - f mid) (bbox_middle _ H0')) as M. rewrite <- Em in M.
    replace (f mid + (f c - f mid)) with (f c) in M by ring. exact M. }
  split; [|split]; apply K; reflexivity.
Qed.

Lemma psum_in_plane s d (es : list pt) : psum (map (fun e => in_plane s d (vx e) (vy e)) es) =
  in_plane s d (sum (map vx es)) (sum (map vy es)).
Proof.
  induction es as [|e es IH]; cbn; [unfold in_plane, zero3; coords; v3; ring|].
  change (fold_right padd zero3) with psum. rewrite IH. unfold sum. cbn. unfold in_plane. coords. v3; ring.
Qed.

Lemma place_edges (es : list pt) s d c : flat es -> sum (map vx es) = 0 -> sum (map vy es) = 0 ->
  let cs := place_polygon es s d c in length cs = length es /\
  forall i, (i < length es)%nat -> edge_vec cs i = in_plane s d (vx (nth i es zero3)) (vy (nth i es zero3)).
Proof.
  intros Hf Hx Hy cs. unfold cs. rewrite place_eq by assumption. cbn zeta. set (t := psub c _).
  set (sts := map (fun e => in_plane s d (vx e) (vy e)) es).
  assert (length sts = length es) as Ls by apply map_length.
  split; [rewrite map_length, walk_length; exact Ls|]. intros i Hi.
  rewrite edge_vec_move by (rewrite walk_length, Ls; exact Hi).
  rewrite walk_edge; [|rewrite Ls; exact Hi|].
  - unfold sts. rewrite (nth_indep _ zero3 ((fun e => in_plane s d (vx e) (vy e)) zero3)) by (rewrite map_length; exact Hi).
    apply (map_nth (fun e => in_plane s d (vx e) (vy e))).
  - unfold sts. rewrite psum_in_plane, Hx, Hy. unfold in_plane, zero3. coords. v3; ring.
Qed.

(** * The sampler *)
Lemma sample_cases srt d :
  ((forall i, (i < 99)%nat -> (d_num d i < 3)%Z) /\ sample_corners srt d = Throw RuntimeError) \/
  (exists n i, (i < 99)%nat /\ first_at (fun v => (3 <= v)%Z) (d_num d) i n /\ (3 <= n)%Z /\
    exists ds w h, deltas_for (Z.to_nat n) (d_unit d) = Ok ds /\ length ds = Z.to_nat n /\ steps_ok w h ds /\
      (unit_draws d -> 8 / 10 <= w <= 1 /\ 8 / 10 <= h <= 1) /\
      (((forall i, (i < 100)%nat -> d_slen d i < 0) /\ sample_corners srt d = Throw RuntimeError) \/
       (exists slen dlen k, (k < 100)%nat /\ first_at (fun x => 0 <= x) (d_slen d) k slen /\ length_used (d_dlen d) dlen /\
          sample_corners srt d = Ok (place_polygon (srt (edge_vectors slen dlen ds)) (d_strike d) (d_dip d) (d_center d))))).
Proof.
  unfold sample_corners. pose proof (num_retry (d_num d)) as Hn.
  destruct (retry (fun k : Z => (k <? 3)%Z) (d_num d) 0 100 0 0%Z) as [n cnt].
  destruct Hn as [Hn1 Hn2]. destruct (Nat.eqb_spec cnt 100) as [E|E].
  { left. split; [apply Hn1, E|reflexivity]. }
  right. destruct (Hn2 E) as (H3 & i & Hi & Hf). exists n, i. split; [assumption|]. split; [assumption|]. split; [assumption|].
  destruct (deltas_for_spec (Z.to_nat n) (d_unit d)) as (ds & w & h & Ed & Ld & Hd & Hw); [lia|].
  exists ds, w, h. split; [assumption|]. split; [assumption|]. split; [assumption|]. split; [exact Hw|].
  rewrite Ed. cbn [obind]. rn. change (nlit 0 1) with 0.
  pose proof (len_retry (d_slen d)) as Hs. destruct (retry (fun l : R => Rltb l 0) (d_slen d) 1 100 0 (d_slen d 0%nat)) as [slen cs].
  destruct Hs as (Hs1 & Hs2 & _). destruct (Nat.eqb_spec cs 100) as [F|F].
  { left. split; [apply Hs1, F|reflexivity]. }
  right. destruct (Hs2 F) as (_ & k & Hk & Hfk).
  pose proof (len_retry (d_dlen d)) as Hl. destruct (retry (fun l : R => Rltb l 0) (d_dlen d) 1 100 0 (d_dlen d 0%nat)) as [dlen cd].
  destruct Hl as (_ & _ & Hu). exists slen, dlen, k. auto.
Qed.

Lemma sum_scale {B} (f : B -> R) c l : sum (map (fun x => f x * c) l) = sum (map f l) * c.
Proof. unfold sum. induction l as [|a l IH]; cbn; [ring|]. rewrite IH. ring. Qed.

Lemma sorted_edges srt slen dlen ds : sorts srt -> let es := srt (edge_vectors slen dlen ds) in
  flat es /\ length es = length ds /\
  exists ds', Permutation ds' ds /\ es = edge_vectors slen dlen ds'.
Proof.
  intros Hs es. destruct (Hs (edge_vectors slen dlen ds)) as [P _]. fold es in P.
  unfold edge_vectors in P. apply Permutation_map_inv in P. destruct P as (ds' & E & P).
  split; [|split].
  - rewrite E. apply flat_edges.
  - rewrite E, map_length. apply Permutation_length, Permutation_sym, P.
  - exists ds'. split; [apply Permutation_sym, P|exact E].
Qed.

Lemma steps_perm w h ds ds' : Permutation ds' ds -> steps_ok w h ds -> steps_ok w h ds'.
Proof.
  intros P. unfold steps_ok. rewrite (sum_perm _ _ (Permutation_map fst P)), (sum_perm _ _ (Permutation_map snd P)),
    (rises_perm _ _ (Permutation_map fst P)), (rises_perm _ _ (Permutation_map snd P)). auto.
Qed.

Lemma place_made_of (slen : R) dlen ds s d c w h : steps_ok w h ds ->
  made_of s d dlen slen ds (place_polygon (edge_vectors slen dlen ds) s d c).
Proof.
  intros (Sx & Sy & _).
  assert (sum (map vx (edge_vectors slen dlen ds)) = 0) as Ex.
  { unfold edge_vectors. rewrite map_map. cbn [vx]. rn. rewrite (sum_scale fst), Sx. ring. }
  assert (sum (map vy (edge_vectors slen dlen ds)) = 0) as Ey.
  { unfold edge_vectors. rewrite map_map. cbn [vy]. rn. rewrite (sum_scale snd), Sy. ring. }
  destruct (place_edges _ s d c (flat_edges slen dlen ds) Ex Ey) as [L E].
  assert (length (edge_vectors slen dlen ds) = length ds) as Le by apply map_length.
  split; [rewrite L; symmetry; exact Le|]. intros i Hi. rewrite L in Hi. rewrite E by exact Hi.
  assert (nth i (edge_vectors slen dlen ds) zero3 = mkV3 (fst (nth i ds (0, 0)) * dlen) (snd (nth i ds (0, 0)) * slen) 0) as En.
  { unfold edge_vectors. rewrite (nth_indep _ zero3 ((fun d0 => mkV3 (fst d0 * dlen) (snd d0 * slen) 0) (0, 0))) by exact Hi.
    apply (map_nth (fun d0 => mkV3 (fst d0 * dlen) (snd d0 * slen) 0) ds (0, 0)). }
  rewrite En. reflexivity.
Qed.

Lemma sampled_polygon srt d cs : sorts srt -> sample_corners srt d = Ok cs ->
  exists n i slen dlen ds w h k, (i < 99)%nat /\ first_at (fun v => (3 <= v)%Z) (d_num d) i n /\ (3 <= n)%Z /\
    length cs = Z.to_nat n /\ (k < 100)%nat /\ first_at (fun x => 0 <= x) (d_slen d) k slen /\ length_used (d_dlen d) dlen /\
    steps_ok w h ds /\ (unit_draws d -> 8 / 10 <= w <= 1 /\ 8 / 10 <= h <= 1) /\
    made_of (d_strike d) (d_dip d) dlen slen ds cs /\
    cs = place_polygon (edge_vectors slen dlen ds) (d_strike d) (d_dip d) (d_center d) /\
    (forall a b, (a < b < length cs)%nat ->
       edge_angle (nth a (edge_vectors slen dlen ds) zero3) <= edge_angle (nth b (edge_vectors slen dlen ds) zero3)).
Proof.
  intros Hs E. destruct (sample_cases srt d) as [[_ C]|(n & i & Hi & Hf & H3 & ds & w & h & _ & Ld & Hd & Hw & C)]; [congruence|].
  destruct C as [[_ C]|(slen & dlen & k & Hk & Hfk & Hu & C)]; [congruence|].
  rewrite C in E. injection E as <-.
  destruct (sorted_edges srt slen dlen ds Hs) as (_ & Le & ds' & P & Ees).
  destruct (Hs (edge_vectors slen dlen ds)) as [_ Ha].
  pose proof (steps_perm _ _ _ _ P Hd) as Hd'.
  pose proof (place_made_of slen dlen ds' (d_strike d) (d_dip d) (d_center d) w h Hd') as Hm.
  pose proof Hm as [Lm _]. rewrite Ees in Ha |- *.
  exists n, i, slen, dlen, ds', w, h, k. split; [assumption|]. split; [assumption|]. split; [assumption|].
  split; [rewrite <- Lm, (Permutation_length P); exact Ld|]. split; [assumption|]. split; [assumption|]. split; [assumption|].
  split; [assumption|]. split; [assumption|]. split; [assumption|]. split; [reflexivity|].
  intros a b Hab. apply Ha. unfold edge_vectors. rewrite map_length, <- (Permutation_length P), Lm. exact Hab.
Qed.

Lemma corners_centre srt d cs : sorts srt -> sample_corners srt d = Ok cs ->
  middle (map vx cs) (vx (d_center d)) /\ middle (map vy cs) (vy (d_center d)) /\ middle (map vz cs) (vz (d_center d)).
Proof.
  intros Hs E. destruct (sampled_polygon srt d cs Hs E) as (n & i & slen & dlen & ds & w & h & k & _ & _ & H3 & L & _ & _ & _ & _ & _ & [Lm _] & -> & _).
  apply place_centre; [apply flat_edges|]. intros C. apply (f_equal (@length _)) in C. unfold edge_vectors in C.
  rewrite map_length in C. cbn in C. lia.
Qed.

(** consecutive corners differ by directions of the plane *)
Lemma made_of_planar s d dlen slen ds cs : made_of s d dlen slen ds cs -> planar (plane_normal s d) cs.
Proof.
  intros [L E].
  assert (forall i, (i < length cs)%nat -> dot (plane_normal s d) (psub (nth i cs zero3) (nth 0 cs zero3)) = 0) as H.
  { induction i as [|i IH]; intros Hi; [coords; ring|]. specialize (IH ltac:(lia)).
    specialize (E i ltac:(lia)). unfold edge_vec in E. rewrite Nat.mod_small in E by lia.
    set (p0 := nth 0 cs zero3) in *. set (p1 := nth i cs zero3) in *. set (p2 := nth (S i) cs zero3) in *.
    transitivity (dot (plane_normal s d) (psub p2 p1) + dot (plane_normal s d) (psub p1 p0)); [clear; coords; ring|].
    rewrite IH, E. unfold in_plane. set (u := fst _ * _). set (v := snd _ * _).
    transitivity (u * dot (dip_dir s d) (plane_normal s d) + v * dot (strike_dir s) (plane_normal s d)); [clear; coords; ring|].
    rewrite (normal_dip s d), (normal_strike s d). ring. }
  intros a b Ha Hb. destruct (In_nth _ _ zero3 Ha) as (i & Hi & <-). destruct (In_nth _ _ zero3 Hb) as (j & Hj & <-).
  pose proof (H i Hi) as Hi'. pose proof (H j Hj) as Hj'.
  set (p0 := nth 0 cs zero3) in *. set (p1 := nth i cs zero3) in *. set (p2 := nth j cs zero3) in *.
  transitivity (dot (plane_normal s d) (psub p2 p0) - dot (plane_normal s d) (psub p1 p0)); [clear; coords; ring|]. lra.
Qed.

(** exactly when an exception is thrown *)
Lemma throws_iff srt d : sample_corners srt d = Throw RuntimeError <->
  (forall i, (i < 99)%nat -> (d_num d i < 3)%Z) \/ (forall i, (i < 100)%nat -> d_slen d i < 0).
Proof.
  destruct (sample_cases srt d) as [[H E]|(n & i & Hi & Hf & H3 & ds & w & h & _ & _ & _ & _ & C)].
  - rewrite E. split; auto.
  - destruct C as [[H E]|(slen & dlen & k & Hk & Hfk & Hu & E)]; rewrite E; split; auto; try discriminate.
    intros [H|H]; exfalso.
    + destruct Hf as (F1 & F2 & _). pose proof (H i Hi). lia.
    + destruct Hfk as (F1 & F2 & _). pose proof (H k Hk). lra.
Qed.

Lemma returns_iff srt d : (exists cs, sample_corners srt d = Ok cs) <-> sample_corners srt d <> Throw RuntimeError.
Proof.
  destruct (sample_cases srt d) as [[H E]|(n & i & Hi & Hf & H3 & ds & w & h & _ & _ & _ & _ & C)].
  - rewrite E. split; [intros (cs & F); discriminate|congruence].
  - destruct C as [[H E]|(slen & dlen & k & Hk & Hfk & Hu & E)]; rewrite E; (split; [intros (cs & F); discriminate|congruence]) || (split; [discriminate|eauto]).
Qed.
