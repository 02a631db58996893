(** The polygon sampler of the Python module: proofs. *)

From Coq Require Import ZArith Reals Lra Lia Psatz Nsatz Bool List Permutation.
From Verif Require Import Base NumModel VecModel LinModel RoundModel PolyModel DistModel IntModel SampModel
  GeoSpec LinSpec RoundSpec PolySpec SampSpec GeoLemmas MathProofs LinProofs EllProofs CylProofs SampProofs SampPoly SampConvex.
Import ListNotations.
Local Open Scope R_scope.

(** * Pairing *)
Section Pick.
Context (diff : R -> R).
Definition better (m a : R) : bool := Rltb (diff m) (diff a).

Lemma pop_nil l : pop_by better l = None -> l = [].
Proof. destruct l as [|a l]; [reflexivity|]. cbn. destruct (pop_by better l) as [[? ?]|]; [destruct (better _ _)|]; discriminate. Qed.

Lemma fold_pick : forall l v b, fold_left (fun st dy => if Rltb (diff dy) (fst st) then (diff dy, Some dy) else st) l (v, b) =
  match pop_by better l with
  | Some (m, _) => if Rltb (diff m) v then (diff m, Some m) else (v, b)
  | None => (v, b)
  end.
Proof.
  induction l as [|a l IH]; intros v b; [reflexivity|]. cbn [fold_left pop_by fst].
  destruct (Rltb_spec (diff a) v) as [C|C]; rewrite IH; destruct (pop_by better l) as [[m r]|]; unfold better; repeat rcmp; try reflexivity; try lra.
Qed.

Lemma remove_pop : forall l m r, pop_by better l = Some (m, r) -> remove_first m l = Some r.
Proof.
  induction l as [|a l IH]; intros m r E; cbn in E; [discriminate|]. cbn [remove_first]. rn.
  destruct (pop_by better l) as [[m' r']|] eqn:P.
  - destruct (better m' a) eqn:Bm; injection E as <- <-.
    + destruct (Reqb_spec a m') as [->|_].
      { unfold better in Bm. apply Rltb_true in Bm. lra. }
      rewrite (IH _ _ eq_refl). reflexivity.
    + destruct (Reqb_spec a a) as [_|N]; [reflexivity|contradiction].
  - injection E as <- <-. apply pop_nil in P. subst l. destruct (Reqb_spec a a) as [_|N]; [reflexivity|contradiction].
Qed.
End Pick.

Lemma py_pair_up_eq (max2 : R) : forall dxs dys best, length dxs = length dys ->
  (forall dx dy, In dx dxs -> In dy dys -> Rabs (max2 - dx * dx - dy * dy) < max2 * 100) ->
  py_pair_up max2 dxs dys best = pair_up max2 dxs dys.
Proof.
  induction dxs as [|dx dxs IH]; intros dys best Hl Hd; cbn [py_pair_up pair_up]; [reflexivity|].
  unfold py_closest. rn. set (diff := fun dy => Rabs (max2 - dx * dx - dy * dy)).
  change (fun m a : R => Rltb (Rabs (max2 - dx * dx - m * m)) (Rabs (max2 - dx * dx - a * a))) with (better diff).
  change (fun (st : R * option R) dy => if Rltb (Rabs (max2 - dx * dx - dy * dy)) (fst st) then (Rabs (max2 - dx * dx - dy * dy), Some dy) else st)
    with (fun (st : R * option R) dy => if Rltb (diff dy) (fst st) then (diff dy, Some dy) else st).
  change (nlit 100 1) with 100.
  destruct (pop_some (better diff) dys) as (m & r & E); [destruct dys; discriminate|].
  rewrite (fold_pick diff), E. pose proof (pop_perm _ _ _ _ E) as P.
  assert (In m dys) as Hm by (apply (Permutation_in _ (Permutation_sym P)); left; reflexivity).
  assert (Rltb (diff m) (max2 * 100) = true) as Hb. { apply Rltb_true. apply (Hd dx m); [left; reflexivity|assumption]. }
  rewrite Hb. cbn [snd]. rewrite (remove_pop diff _ _ _ E).
  rewrite (IH r (Some m)); [reflexivity| |].
  - pose proof (Permutation_length P) as L. cbn in L, Hl. lia.
  - intros x y Hx Hy. apply Hd; [right; exact Hx|]. apply (Permutation_in _ (Permutation_sym P)). right. exact Hy.
Qed.

(** * The size of the deltas *)
Lemma sum_bound c l : l <> [] -> (forall x, In x l -> x < c) -> sum l < INR (length l) * c.
Proof.
  unfold sum. induction l as [|a l IH]; intros Hn H; [contradiction|]. cbn [fold_right length]. rewrite S_INR.
  pose proof (H a (or_introl eq_refl)). destruct l as [|b l]; [cbn; lra|].
  pose proof (IH ltac:(discriminate) ltac:(intros x Hx; apply H; right; exact Hx)). lra.
Qed.
Lemma member_le_sum l : Forall (fun x => 0 <= x) l -> forall x, In x l -> x <= sum l.
Proof.
  unfold sum. induction 1 as [|a l Ha Hl IH]; intros x Hx; [contradiction|]. cbn [fold_right].
  assert (0 <= fold_right Rplus 0 l) as H0. { clear - Hl. induction Hl; cbn; lra. }
  destruct Hx as [<-|Hx]; [lra|]. pose proof (IH x Hx). lra.
Qed.

Lemma deltas_of_size (vals : list R) l : (2 <= length vals <= 16)%nat -> (forall x, In x vals -> 0 <= x <= 1) -> deltas_of vals = Ok l ->
  (forall x, In x l -> -1 <= x <= 1) /\ exists x, In x l /\ 1 / 10 <= x.
Proof.
  intros Hn Hv. unfold deltas_of. rn.
  destruct (pop_some Rltb vals) as (mn0 & r & E1); [destruct vals; cbn in Hn; [lia|discriminate]|].
  change (@pop_by R (fun x y => Rltb x y) vals) with (pop_by Rltb vals). rewrite E1.
  pose proof (pop_perm _ _ _ _ E1) as P1. pose proof (Permutation_length P1) as L1. cbn in L1.
  destruct (pop_some (fun m a => Rltb a m) r) as (mx0 & r' & E2); [destruct r; cbn in *; [lia|discriminate]|].
  rewrite E2. intros E. injection E as <-.
  pose proof (pop_perm _ _ _ _ E2) as P2. pose proof (Permutation_length P2) as L2. cbn in L2.
  assert (In mn0 vals) as I1 by (apply (Permutation_in _ (Permutation_sym P1)); left; reflexivity).
  assert (In mx0 r) as I2 by (apply (Permutation_in _ (Permutation_sym P2)); left; reflexivity).
  assert (forall x, In x r -> In x vals) as A3.
  { intros x Hx. apply (Permutation_in _ (Permutation_sym P1)). right. exact Hx. }
  assert (forall x, In x r' -> In x r) as A5.
  { intros x Hx. apply (Permutation_in _ (Permutation_sym P2)). right. exact Hx. }
  pose proof (Hv _ I1) as B1. pose proof (Hv _ (A3 _ I2)) as B2.
  pose proof (pop_min_le _ _ _ E1) as M1. pose proof (pop_max_ge _ _ _ E2) as M2.
  set (mn := exploit_min mn0). set (mx := exploit_max mx0).
  assert (0 <= mn <= 1 / 10 /\ mn <= mn0) as Hmn. { unfold mn, exploit_min. rn. rcmp; lra. }
  assert (9 / 10 <= mx <= 1 /\ mx0 <= mx) as Hmx. { unfold mx, exploit_max. rn. rcmp; lra. }
  assert (forall x, In x r' -> mn <= x <= mx) as A6.
  { intros x Hx. pose proof (M1 x (A3 _ (A5 _ Hx))). pose proof (M2 x (A5 _ Hx)). lra. }
  destruct (one_side mn mx (evens r')) as (U1 & U2 & U3); [intros x Hx; apply A6, evens_in, Hx|lra|].
  destruct (one_side mn mx (odds r')) as (D1 & D2 & D3); [intros x Hx; apply A6, odds_in, Hx|lra|].
  change (@isort R (fun x y => Rltb x y)) with (isort Rltb).
  set (up := diffs (isort Rltb (mn :: evens r') ++ [mx])) in *.
  set (down := diffs (isort Rltb (mn :: odds r') ++ [mx])) in *.
  split.
  - intros x Hx. apply in_app_or in Hx. destruct Hx as [Hx|Hx].
    + pose proof (member_le_sum _ U1 x Hx). rewrite Forall_forall in U1. pose proof (U1 x Hx). lra.
    + apply in_map_iff in Hx. destruct Hx as (y & <- & Hy).
      pose proof (member_le_sum _ D1 y Hy). rewrite Forall_forall in D1. pose proof (D1 y Hy). lra.
  - destruct (existsb (fun x => Rleb (1 / 10) x) up) eqn:Ex.
    + apply existsb_exists in Ex. destruct Ex as (x & Hx & Px). apply Rleb_true in Px. exists x. split; [apply in_or_app; left; exact Hx|exact Px].
    + exfalso. assert (forall x, In x up -> x < 1 / 10) as Su.
      { intros x Hx. destruct (Rleb_spec (1 / 10) x) as [C|C]; [|lra].
        rewrite <- Bool.not_true_iff_false in Ex. exfalso. apply Ex. apply existsb_exists. exists x. split; [exact Hx|apply Rleb_true, C]. }
      assert (up <> []) as Hne by (intros C; rewrite C in U3; discriminate).
      pose proof (sum_bound _ _ Hne Su) as Sb. rewrite U2, U3 in Sb.
      assert (length (evens r') <= 7)%nat as Le.
      { assert (forall k (l : list R), (length l <= 2 * k)%nat -> (length (evens l) <= k)%nat) as Hk.
        { induction k as [|k IH]; intros l Hl; [destruct l; cbn in *; lia|]. destruct l as [|a [|b l]]; cbn in *; try lia.
          apply le_n_S, IH. lia. }
        apply Hk. lia. }
      rewrite S_INR in Sb. apply le_INR in Le. cbn in Le. lra.
Qed.

Lemma last_is_max l : ascending l -> forall x, In x l -> x <= last l 0.
Proof.
  induction l as [|a l IH]; intros Hs x Hx; [contradiction|]. destruct l as [|b l]; [destruct Hx as [<-|[]]; cbn; lra|].
  destruct Hs as [Hab Hs]. change (last (a :: b :: l) 0) with (last (b :: l) 0). destruct Hx as [<-|Hx]; [|apply IH; assumption].
  pose proof (IH Hs b (or_introl eq_refl)). lra.
Qed.

Lemma max_delta2_large dx dy : (exists x, In x dx /\ 1 / 10 <= x) -> (exists y, In y dy /\ 1 / 10 <= y) ->
  2 / 100 <= max_delta2 (isort Rltb dx) dy.
Proof.
  intros (x & Hx & Px) (y & Hy & Py). unfold max_delta2. rn. change (nlit 0 1) with 0.
  pose proof (last_is_max _ (isort_ascending dx) x (Permutation_in _ (Permutation_sym (isort_perm Rltb dx)) Hx)) as Mx.
  destruct (pop_some (fun m a => Rltb a m) dy) as (m & r & E); [intros ->; contradiction|]. rewrite E.
  pose proof (pop_max_ge _ _ _ E y Hy) as My. nra.
Qed.

Lemma py_deltas_eq n (u : draws R) : (2 <= n <= 16)%nat -> (forall i, 0 <= u i <= 1) -> py_deltas_for n u = deltas_for n u.
Proof.
  intros Hn Hu. unfold py_deltas_for, deltas_for.
  assert (forall k, (forall x, In x (map u (seq k n)) -> 0 <= x <= 1) /\ (2 <= length (map u (seq k n)) <= 16)%nat) as H.
  { intros k. split; [|rewrite map_length, seq_length; exact Hn]. intros x Hx. apply in_map_iff in Hx. destruct Hx as (i & <- & _). apply Hu. }
  destruct (H 0%nat) as [Hx Lx]. destruct (H n) as [Hy Ly].
  destruct (deltas_of_spec (map u (seq 0 n)) (proj1 Lx)) as (dx & w & Ex & L1 & _).
  destruct (deltas_of_spec (map u (seq n n)) (proj1 Ly)) as (dy & h & Ey & L2 & _).
  rewrite Ex, Ey. cbn [obind]. rewrite map_length, seq_length in L1, L2.
  destruct (deltas_of_size _ _ Lx Hx Ex) as [Bx Mx]. destruct (deltas_of_size _ _ Ly Hy Ey) as [By My].
  change (isort nltb dx) with (isort Rltb dx).
  pose proof (max_delta2_large dx dy Mx My) as M2. pose proof (isort_perm Rltb dx) as P.
  set (sx := isort Rltb dx) in *. set (m2 := max_delta2 sx dy) in *.
  rewrite py_pair_up_eq.
  - destruct (pair_up_spec m2 sx dy) as (ps & Ep & Ef & _); [rewrite (Permutation_length P); lia|].
    rewrite Ep. cbn [obind].
    assert (length ps = n) as Lp. { rewrite <- (map_length fst), Ef, (Permutation_length P). exact L1. }
    rewrite Lp, Nat.eqb_refl. reflexivity.
  - rewrite (Permutation_length P). lia.
  - intros x y Ix Iy. pose proof (Bx x (Permutation_in _ P Ix)). pose proof (By y Iy).
    assert (0 <= x * x <= 1) by nra. assert (0 <= y * y <= 1) by nra.
    apply Rabs_def1; lra.
Qed.

(** the polygon is closed *)
Lemma fold_psum (es : list pt) : forall p, fold_left vadd es p = padd p (psum es).
Proof.
  induction es as [|e es IH]; intros p; cbn [fold_left psum fold_right].
  - destruct p. unfold zero3. coords. v3; ring.
  - rewrite IH. change (fold_right padd zero3 es) with (psum es). destruct p, e, (psum es). unfold vadd. rn. coords. v3; ring.
Qed.

Lemma closed_ok s d (es : list pt) : flat es -> sum (map vx es) = 0 -> sum (map vy es) = 0 ->
  closed_check (rotate_all (rotate_all es (mkV3 0 0 1) s) (strike_dir s) d) = true.
Proof.
  intros Hf Hx Hy.
  assert (rotate_all (rotate_all es (mkV3 0 0 1) s) (strike_dir s) d = map (fun e => in_plane s d (vx e) (vy e)) es) as E.
  { unfold rotate_all. rewrite map_map. apply map_ext_in. intros e He. apply (turned s d e), Hf, He. }
  rewrite E. unfold closed_check. rewrite fold_psum, psum_in_plane, Hx, Hy. rn. change (nlit 0 1) with 0.
  assert (padd (mkV3 0 0 0) (in_plane s d 0 0) = mkV3 0 0 0) as Z by (unfold in_plane; coords; v3; ring).
  rewrite Z. unfold pt_eq_default. apply pt_eq_spec; [unfold confusion; rn; lra|]. unfold dist.
  replace (norm (psub (mkV3 0 0 0) (mkV3 0 0 0))) with 0.
  - unfold confusion. rn. lra.
  - unfold norm. coords. replace ((0 - 0) * (0 - 0) + (0 - 0) * (0 - 0) + (0 - 0) * (0 - 0)) with 0 by ring. rewrite sqrt_0. reflexivity.
Qed.

(** * The sampler *)
(** the number of corners is drawn until it is admissible *)
Lemma py_hangs (d : poly_draws R) fuel : (forall i, (d_num d i < 3)%Z) -> py_sample_corners d fuel = Diverge.
Proof.
  intros H. unfold py_sample_corners. rewrite draw_until_never; [reflexivity|]. intros m. pose proof (H m).
  destruct (Z.ltb_spec (d_num d m) 3); [reflexivity|lia].
Qed.

(** the dip length is the first one drawn *)
Definition first_dip (d : poly_draws R) : poly_draws R :=
  mkDraws (d_num d) (d_unit d) (d_slen d) (fun _ => d_dlen d 0%nat) (d_strike d) (d_dip d) (d_center d).

Lemma retry_false {B} (bad : B -> bool) s i l k v : bad v = false -> retry bad s i l k v = (v, k).
Proof. intros H. destruct l; cbn; [reflexivity|]. rewrite H. reflexivity. Qed.

Lemma retry_const {B} (bad : B -> bool) (v : B) : forall l i k, exists k', retry bad (fun _ => v) i l k v = (v, k').
Proof.
  induction l as [|l IH]; intros i k; cbn; [eauto|]. destruct (bad v); [apply IH|eauto].
Qed.

Lemma py_sample_eq d n i : first_at (fun v => (3 <= v)%Z) (d_num d) i n -> (i < 99)%nat -> (n <= 16)%Z -> unit_draws d ->
  forall fuel, (i < fuel)%nat -> py_sample_corners d fuel = sample_corners (isort edge_before) (first_dip d).
Proof.
  intros (Hi & Hn & Hj) Hi99 Hn16 Hu fuel Hf.
  unfold py_sample_corners.
  rewrite (draw_until_first (fun k : Z => negb (k <? 3)%Z) (d_num d) i 0 fuel Hf).
  2: { cbn [Nat.add]. rewrite Hi. destruct (Z.ltb_spec n 3); [lia|reflexivity]. }
  2: { intros m Hm. pose proof (Hj m ltac:(lia)). destruct (Z.ltb_spec (d_num d m) 3); [reflexivity|lia]. }
  cbn [Nat.add obind fst]. rewrite Hi, py_deltas_eq; [|lia|exact Hu].
  destruct (sample_cases (isort edge_before) (first_dip d)) as [[C _]|(n' & i' & Hi' & (F1 & F2 & F3) & _ & ds & w & h & Ed & Ld & Hst & _ & C)].
  { exfalso. pose proof (C i Hi99) as C'. cbn in C'. lia. }
  cbn [first_dip d_num d_unit d_slen d_dlen d_strike d_dip d_center] in *.
  assert (n' = n) as ->.
  { destruct (Nat.lt_trichotomy i i') as [L|[->|L]].
    - exfalso. apply (F3 i L). lia.
    - congruence.
    - exfalso. apply (Hj i' L). lia. }
  rewrite Ed. cbn [obind]. rn. change (nlit 0 1) with 0. change (nlit 1 1) with 1.
  pose proof (len_retry (d_slen d)) as Hs. destruct (retry (fun l : R => Rltb l 0) (d_slen d) 1 100 0 (d_slen d 0%nat)) as [sl cs].
  destruct Hs as (Hs1 & Hs2 & _). destruct (Nat.eqb_spec cs 100) as [G|G].
  { destruct C as [[_ ->]|(slen & dlen & k & Hk & (F4 & F5 & _) & _)]; [reflexivity|].
    exfalso. pose proof (proj1 Hs1 G k Hk). lra. }
  destruct (Hs2 G) as (P & k & Hk & F4 & F5 & F6).
  rewrite retry_false by (apply Rltb_false; lra). cbn [Nat.eqb].
  destruct C as [[C _]|(slen & dlen & k' & Hk' & (F7 & F8 & F9) & Hu' & Ec)].
  { exfalso. pose proof (C k Hk). lra. }
  assert (slen = sl) as ->.
  { destruct (Nat.lt_trichotomy k k') as [L|[->|L]].
    - exfalso. apply (F9 k L). lra.
    - congruence.
    - exfalso. apply (F6 k' L). lra. }
  assert (dlen = d_dlen d 0%nat) as ->.
  { destruct Hu' as [(j & _ & E & _)|[_ E]]; congruence. }
  rewrite Ec. rewrite to_dir_z, to_dir_strike.
  destruct (sorted_edges (isort edge_before) sl (d_dlen d 0%nat) ds isort_sorts) as (Hfl & _ & ds' & Pm & Ees).
  rewrite closed_ok; [reflexivity|exact Hfl| |].
  - rewrite Ees. unfold edge_vectors. rewrite map_map. cbn [vx]. rn. rewrite (sum_scale fst), (sum_perm _ _ (Permutation_map fst Pm)), (proj1 Hst). ring.
  - rewrite Ees. unfold edge_vectors. rewrite map_map. cbn [vy]. rn. rewrite (sum_scale snd), (sum_perm _ _ (Permutation_map snd Pm)), (proj1 (proj2 Hst)). ring.
Qed.
