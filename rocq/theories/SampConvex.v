(** Edges sorted by their angle make a convex polygon. *)

From Coq Require Import ZArith Reals Lra Lia Psatz Nsatz Bool List Permutation.
From Verif Require Import Base NumModel VecModel LinModel RoundModel PolyModel DistModel IntModel SampModel
  GeoSpec LinSpec RoundSpec PolySpec SampSpec GeoLemmas MathProofs LinProofs EllProofs CylProofs SampProofs SampPoly.
Import ListNotations.
Local Open Scope R_scope.

(** * Sums of vectors given by length and angle *)
Definition X (l : list (R * R)) : R := sum (map (fun p => fst p * cos (snd p)) l).
Definition Y (l : list (R * R)) : R := sum (map (fun p => fst p * sin (snd p)) l).
Definition inside (lo hi : R) (l : list (R * R)) : Prop := forall p, In p l -> 0 <= fst p /\ lo <= snd p <= hi.

Lemma X_cons p l : X (p :: l) = fst p * cos (snd p) + X l.
Proof. reflexivity. Qed.
Lemma Y_cons p l : Y (p :: l) = fst p * sin (snd p) + Y l.
Proof. reflexivity. Qed.
Lemma X_app l1 l2 : X (l1 ++ l2) = X l1 + X l2.
Proof. unfold X. rewrite map_app. apply sum_app. Qed.
Lemma Y_app l1 l2 : Y (l1 ++ l2) = Y l1 + Y l2.
Proof. unfold Y. rewrite map_app. apply sum_app. Qed.

Lemma cross_blocks la lb hb A B : inside la lb A -> inside lb hb B -> hb - la <= PI -> 0 <= X A * Y B - Y A * X B.
Proof.
  intros HA HB Hs. induction A as [|p A IH]; [unfold X at 1, Y at 2, sum; cbn; lra|].
  rewrite X_cons, Y_cons.
  assert (0 <= X A * Y B - Y A * X B) as IH' by (apply IH; intros q Hq; apply HA; right; exact Hq). clear IH.
  destruct (HA p (or_introl eq_refl)) as [Hr Hp]. destruct p as [r t]. cbn [fst snd] in *.
  assert (0 <= cos t * Y B - sin t * X B) as K.
  { clear IH'. induction B as [|q B IH]; [unfold X, Y, sum; cbn; lra|]. rewrite X_cons, Y_cons.
    assert (0 <= cos t * Y B - sin t * X B) as IH' by (apply IH; intros q' Hq; apply HB; right; exact Hq). clear IH.
    destruct (HB q (or_introl eq_refl)) as [Hq1 Hq2]. destruct q as [r' t']. cbn [fst snd] in *.
    assert (0 <= sin (t' - t)) as S by (apply sin_ge_0; lra). rewrite sin_minus in S. nra. }
  nra.
Qed.

Lemma sector_two p f r t : 0 <= p -> 0 <= r -> f <= t -> t - f < PI ->
  exists q g, 0 <= q /\ f <= g <= t /\ p * cos f + r * cos t = q * cos g /\ p * sin f + r * sin t = q * sin g.
Proof.
  intros Hp Hr Hf Ht. set (d := t - f). assert (t = f + d) as Et by (unfold d; ring). assert (0 <= d < PI) as Hd by (unfold d; lra).
  assert (0 <= sin d) as Sd by (apply sin_ge_0; lra).
  set (x := p + r * cos d). set (y := r * sin d).
  assert (0 <= y) as Hy by (unfold y; nra).
  assert (exists q g, 0 <= q /\ 0 <= g <= d /\ x = q * cos g /\ y = q * sin g) as (q & g & Hq & Hg & Ex & Ey).
  { destruct (Req_dec (x * x + y * y) 0) as [Z|NZ].
    { exists 0, 0. assert (x = 0) by nra. assert (y = 0) by nra. repeat split; try lra. }
    assert (0 < x * x + y * y) as Hpos by nra. set (q := sqrt (x * x + y * y)).
    assert (0 < q) as Hq by (apply sqrt_lt_R0; exact Hpos).
    assert (q * q = x * x + y * y) as Hqq by (unfold q; rewrite sqrt_def; lra).
    assert (-1 <= x / q <= 1) as Hx.
    { split; apply Rmult_le_reg_r with q; try assumption; unfold Rdiv; rewrite Rmult_assoc, Rinv_l by lra; nra. }
    assert (x = q * cos (acos (x / q))) as Ex. { rewrite cos_acos by assumption. field. lra. }
    assert (y = q * sin (acos (x / q))) as Ey.
    { rewrite sin_acos by assumption. rewrite <- (sqrt_square q) at 1 by lra. rewrite <- sqrt_mult_alt by nra.
      rewrite <- (sqrt_square y) at 1 by lra. f_equal. unfold Rsqr. field_simplify; [|lra]. nra. }
    exists q, (acos (x / q)). split; [lra|]. pose proof (acos_bound (x / q)) as Hb. set (g := acos (x / q)) in *.
    split; [|split; assumption]. split; [lra|].
    destruct (Rle_or_lt g d) as [|C]; [assumption|]. exfalso.
    assert (x * sin d - y * cos d = p * sin d) as Ecr by (unfold x, y; ring).
    assert (q * sin (d - g) = p * sin d) as Es.
    { rewrite <- Ecr, Ex, Ey, sin_minus. fold g. ring. }
    assert (0 <= sin (g - d) \/ True) as _ by (right; trivial).
    destruct (Rlt_or_le (g - d) PI) as [L|G].
    - assert (0 < sin (g - d)) as P by (apply sin_gt_0; lra).
      replace (d - g) with (- (g - d)) in Es by ring. rewrite sin_neg in Es. nra.
    - assert (d = 0) as D0 by lra. assert (g = PI) as G0 by lra. rewrite G0, cos_PI in Ex.
      unfold x in Ex. rewrite D0, cos_0 in Ex. lra. }
  exists q, (f + g). split; [assumption|]. split; [unfold d in *; lra|].
  rewrite Et, !cos_plus, !sin_plus. unfold x, y in *. split.
  - transitivity (cos f * (p + r * cos d) - sin f * (r * sin d)); [ring|]. rewrite Ex, Ey. ring.
  - transitivity (sin f * (p + r * cos d) + cos f * (r * sin d)); [ring|]. rewrite Ex, Ey. ring.
Qed.

Lemma sector lo hi l : lo <= hi -> hi - lo < PI -> inside lo hi l ->
  exists q g, 0 <= q /\ lo <= g <= hi /\ X l = q * cos g /\ Y l = q * sin g.
Proof.
  intros Hlh Hs. induction l as [|p l IH]; intros Hl.
  - exists 0, lo. unfold X, Y, sum. cbn. repeat split; lra.
  - destruct IH as (q & g & Hq & Hg & Ex & Ey); [intros p' Hp; apply Hl; right; exact Hp|].
    destruct (Hl p (or_introl eq_refl)) as [Hr Hp]. destruct p as [r t]. cbn [fst snd] in *.
    rewrite X_cons, Y_cons, Ex, Ey. cbn [fst snd].
    destruct (Rle_or_lt t g) as [C|C].
    + destruct (sector_two r t q g) as (q' & g' & H1 & H2 & H3 & H4); try lra. exists q', g'. repeat split; lra.
    + destruct (sector_two q g r t) as (q' & g' & H1 & H2 & H3 & H4); try lra. exists q', g'. repeat split; lra.
Qed.

Lemma three_blocks a1 a2 b1 b2 c1 c2 A B C : a1 <= a2 <= b1 -> b1 <= b2 <= c1 -> c1 <= c2 <= a1 + 2 * PI ->
  inside a1 a2 A -> inside b1 b2 B -> inside c1 c2 C -> X A + X B + X C = 0 -> Y A + Y B + Y C = 0 ->
  0 <= X A * Y B - Y A * X B.
Proof.
  intros Ha Hb Hc HA HB HC SX SY.
  assert (X C = - X A - X B) as EX by lra. assert (Y C = - Y A - Y B) as EY by lra.
  destruct (Rle_or_lt (b2 - a1) PI) as [K1|K1].
  { apply (cross_blocks a1 b1 b2); [|assumption|assumption]. intros p Hp. destruct (HA p Hp). split; lra. }
  destruct (Rle_or_lt (c2 - b1) PI) as [K2|K2].
  { assert (0 <= X B * Y C - Y B * X C) as K.
    { apply (cross_blocks b1 c1 c2); [|assumption|assumption]. intros p Hp. destruct (HB p Hp). split; lra. }
    rewrite EX, EY in K. lra. }
  destruct (sector a1 a2 A) as (qa & al & Hqa & Hal & XA & YA); [lra|lra|assumption|].
  destruct (sector c1 c2 C) as (qc & ga & Hqc & Hga & XC & YC); [lra| |assumption|].
  { destruct (Rlt_or_le (c2 - c1) PI) as [|G]; [assumption|]. lra. }
  destruct (Rlt_or_le (b2 - b1) PI) as [L|G].
  - destruct (sector b1 b2 B) as (qb & be & Hqb & Hbe & XB & YB); [lra|assumption|assumption|].
    destruct (Rle_or_lt (be - al) PI) as [M|M].
    { rewrite XA, YA, XB, YB. assert (0 <= sin (be - al)) as S by (apply sin_ge_0; lra). rewrite sin_minus in S. 
      assert (0 <= qa * qb) by nra. nra. }
    assert (ga - be <= PI) as M' by lra.
    assert (0 <= X B * Y C - Y B * X C) as K.
    { rewrite XC, YC, XB, YB. assert (0 <= sin (ga - be)) as S by (apply sin_ge_0; lra). rewrite sin_minus in S.
      assert (0 <= qb * qc) by nra. nra. }
    rewrite EX, EY in K. lra.
  - assert (0 <= X C * Y A - Y C * X A) as K.
    { rewrite XC, YC, XA, YA. assert (0 <= sin (al - (ga - 2 * PI))) as S by (apply sin_ge_0; lra).
      rewrite sin_minus in S. replace (ga - 2 * PI) with (- (2 * PI - ga)) in S by ring.
      rewrite cos_neg, sin_neg, cos_minus, sin_minus, cos_2PI, sin_2PI in S. assert (0 <= qc * qa) by nra. nra. }
    rewrite EX, EY in K. lra.
Qed.

(** * The angle of an edge *)
Definition snapped (x : R) : Prop := x = 0 \/ 1 / 10 ^ 6 <= Rabs x.

Lemma snapped_small x : snapped x -> Rabs x < 1 / 1000000 -> x = 0.
Proof. intros [|G] L; [assumption|]. exfalso. lra. Qed.

Lemma edge_angle_polar x y z : snapped x -> snapped y -> let t := edge_angle (mkV3 x y z) in
  0 <= t < 2 * PI /\ exists r, 0 <= r /\ x = r * cos t /\ y = r * sin t.
Proof.
  intros Sx Sy t. pose proof PI_RGT_0 as Hpi. unfold t, edge_angle. cbn [vx vy]. rn.
  change (nlit 1 1000000) with (1 / 1000000). change (nlit 0 1) with 0. change (nlit 2 1) with 2. change (nlit 3 1) with 3.
  change (@npi R _) with PI. change (@natan R _) with atan.
  destruct (Rltb_spec (Rabs y) (1 / 1000000)) as [Ly|Gy].
  { pose proof (snapped_small y Sy Ly) as ->. rcmp.
    - split; [lra|]. exists x. rewrite cos_0, sin_0. repeat split; lra.
    - split; [lra|]. exists (- x). rewrite cos_PI, sin_PI. repeat split; lra. }
  destruct (Rltb_spec (Rabs x) (1 / 1000000)) as [Lx|Gx].
  { pose proof (snapped_small x Sx Lx) as ->. rcmp.
    - split; [lra|]. exists y. rewrite cos_PI2, sin_PI2. repeat split; lra.
    - split; [lra|]. exists (- y). replace (3 * PI / 2) with (3 * (PI / 2)) by field. rewrite cos_3PI2, sin_3PI2. repeat split; lra. }
  assert (x <> 0) as Nx. { intros ->. rewrite Rabs_R0 in Gx. lra. }
  assert (y <> 0) as Ny. { intros ->. rewrite Rabs_R0 in Gy. lra. }
  pose proof (atan_bound (y / x)) as Hb.
  assert (exists r, x = r * cos (atan (y / x)) /\ y = r * sin (atan (y / x)) /\ 0 < r * x) as (r & Ex & Ey & Hr).
  { set (k := sqrt (1 + (y / x)²)). assert (0 < k) as Hk.
    { apply sqrt_lt_R0. pose proof (Rle_0_sqr (y / x)). lra. }
    exists (x * k). rewrite cos_atan, sin_atan. fold k. split; [field; lra|]. split; [field; lra|]. 
    assert (0 < x * x) by nra. nra. }
  destruct (Rltb_spec 0 x) as [Px|Qx].
  - assert (0 < r) as Pr by nra. destruct (Rltb_spec (atan (y / x)) 0) as [La|Ga].
    + split; [lra|]. exists r. split; [lra|]. rewrite Rplus_comm.
      pose proof (cos_period (atan (y / x)) 1) as E1. pose proof (sin_period (atan (y / x)) 1) as E2. cbn in E1, E2.
      rewrite Rmult_1_r in E1, E2. rewrite E1, E2. split; assumption.
    + split; [lra|]. exists r. split; [lra|]. split; assumption.
  - assert (r < 0) as Pr by nra. split; [lra|]. exists (- r). split; [lra|].
    rewrite Rplus_comm, neg_cos, neg_sin. split; lra.
Qed.

(** * Polygons *)
Definition px s d (cs : list pt) m := dot (edge_vec cs m) (dip_dir s d).
Definition py s (cs : list pt) m := dot (edge_vec cs m) (strike_dir s).
Definition total (f : nat -> R) (i j : nat) : R := sum (map f (seq i (j - i))).

Lemma total_split f i j k : (i <= j <= k)%nat -> total f i k = total f i j + total f j k.
Proof.
  intros H. unfold total. replace (k - i)%nat with ((j - i) + (k - j))%nat by lia.
  rewrite seq_app, map_app, sum_app. replace (i + (j - i))%nat with j by lia. reflexivity.
Qed.
Lemma total_one f i : total f i (S i) = f i.
Proof. unfold total. replace (S i - i)%nat with 1%nat by lia. unfold sum. cbn. ring. Qed.
Lemma total_empty f i : total f i i = 0.
Proof. unfold total. rewrite Nat.sub_diag. reflexivity. Qed.

Lemma corner_diff (cs : list pt) a i j : (i <= j < length cs)%nat ->
  dot (psub (nth j cs zero3) (nth i cs zero3)) a = total (fun m => dot (edge_vec cs m) a) i j.
Proof.
  intros H. replace j with (i + (j - i))%nat in * by lia. set (k := (j - i)%nat) in *. clearbody k. clear j.
  induction k as [|k IH].
  - rewrite Nat.add_0_r, total_empty. coords. ring.
  - rewrite (total_split _ i (i + k) (i + S k)) by lia. rewrite <- IH by lia.
    replace (i + S k)%nat with (S (i + k)) by lia. rewrite total_one. unfold edge_vec. rewrite Nat.mod_small by lia.
    set (p := nth (i + k) cs zero3). set (q := nth i cs zero3). set (r := nth (S (i + k)) cs zero3). clearbody p q r. clear. coords. ring.
Qed.
Lemma corner_total (cs : list pt) a : cs <> [] -> total (fun m => dot (edge_vec cs m) a) 0 (length cs) = 0.
Proof.
  intros Hn. assert (exists n, length cs = S n) as (n & En) by (destruct cs as [|p l]; [contradiction|exists (length l); reflexivity]).
  rewrite En, (total_split _ 0 n (S n)), total_one by lia. rewrite <- corner_diff by lia.
  unfold edge_vec. rewrite En, Nat.mod_same by lia. set (p := nth n cs zero3). set (q := nth 0 cs zero3). clearbody p q. clear. coords. ring.
Qed.

Lemma decompose s d w : dot w (plane_normal s d) = 0 ->
  w = in_plane s d (dot w (dip_dir s d)) (dot w (strike_dir s)).
Proof.
  destruct w as [x y z]. unfold in_plane, plane_normal, dip_dir, strike_dir. coords.
  pose proof (sc1 s). pose proof (sc1 d).
  set (a := cos s) in *. set (b := sin s) in *. set (c := cos d) in *. set (e := sin d) in *. clearbody a b c e. intros Hn. v3; nsatz.
Qed.
Lemma det_in_plane s d u v u' v' : det3 (in_plane s d u v) (in_plane s d u' v') (plane_normal s d) = u * v' - v * u'.
Proof.
  unfold in_plane, plane_normal, dip_dir, strike_dir. coords.
  pose proof (sc1 s). pose proof (sc1 d).
  set (a := cos s) in *. set (b := sin s) in *. set (c := cos d) in *. set (e := sin d) in *. clearbody a b c e. nsatz.
Qed.
Lemma cross_in_plane s d u v u' v' : cross (in_plane s d u v) (in_plane s d u' v') = pscale (u * v' - v * u') (plane_normal s d).
Proof.
  unfold in_plane, plane_normal, dip_dir, strike_dir. coords.
  pose proof (sc1 s). pose proof (sc1 d).
  set (a := cos s) in *. set (b := sin s) in *. set (c := cos d) in *. set (e := sin d) in *. clearbody a b c e. v3; nsatz.
Qed.
Lemma in_plane_dots s d u v : dot (in_plane s d u v) (dip_dir s d) = u /\ dot (in_plane s d u v) (strike_dir s) = v.
Proof.
  unfold in_plane, dip_dir, strike_dir. coords.
  pose proof (sc1 s). pose proof (sc1 d).
  set (a := cos s) in *. set (b := sin s) in *. set (c := cos d) in *. set (e := sin d) in *. clearbody a b c e. split; nsatz.
Qed.

Lemma in_plane_sub s d a b : planar (plane_normal s d) [a; b] ->
  psub b a = in_plane s d (dot (psub b a) (dip_dir s d)) (dot (psub b a) (strike_dir s)).
Proof.
  intros Hp. apply decompose. rewrite <- (Hp a b) by (cbn; tauto). clear. coords. ring.
Qed.

Definition block (r t : nat -> R) i j : list (R * R) := map (fun m => (r m, t m)) (seq i (j - i)).
Lemma X_block r t i j : X (block r t i j) = total (fun m => r m * cos (t m)) i j.
Proof. unfold X, block, total. rewrite map_map. reflexivity. Qed.
Lemma Y_block r t i j : Y (block r t i j) = total (fun m => r m * sin (t m)) i j.
Proof. unfold Y, block, total. rewrite map_map. reflexivity. Qed.
Lemma total_ext f g i j : (forall m, (i <= m < j)%nat -> f m = g m) -> total f i j = total g i j.
Proof. intros H. unfold total. f_equal. apply map_ext_in. intros m Hm. apply in_seq in Hm. apply H. lia. Qed.

Lemma sorted_convex s d (cs : list pt) (r t : nat -> R) : planar (plane_normal s d) cs ->
  (forall m, (m < length cs)%nat -> 0 <= r m /\ px s d cs m = r m * cos (t m) /\ py s cs m = r m * sin (t m) /\ 0 <= t m <= 2 * PI) ->
  (forall a b, (a < b < length cs)%nat -> t a <= t b) ->
  forall i j k, (i < j < k)%nat -> (k < length cs)%nat ->
    0 <= orient (plane_normal s d) (nth i cs zero3) (nth j cs zero3) (nth k cs zero3).
Proof.
  intros Hp Hr Ha i j k Hij Hk. set (n := length cs) in *.
  assert (forall a b, (a <= b < n)%nat -> t a <= t b) as Ha'.
  { intros a b Hab. destruct (Nat.eq_dec a b) as [->|]; [lra|]. apply Ha. lia. }
  set (A := block r t i j). set (B := block r t j k). set (C := block r t k n ++ block r (fun m => t m + 2 * PI) 0 i).
  assert (forall a b, (b <= n)%nat -> X (block r t a b) = total (px s d cs) a b) as BX.
  { intros a b Hb. rewrite X_block. apply total_ext. intros m Hm. symmetry. apply Hr. lia. }
  assert (forall a b, (b <= n)%nat -> Y (block r t a b) = total (py s cs) a b) as BY.
  { intros a b Hb. rewrite Y_block. apply total_ext. intros m Hm. symmetry. apply Hr. lia. }
  assert (X (block r (fun m => t m + 2 * PI) 0 i) = total (px s d cs) 0 i) as BX'.
  { rewrite X_block. apply total_ext. intros m Hm. destruct (Hr m ltac:(lia)) as (_ & -> & _).
    f_equal. pose proof (cos_period (t m) 1) as E. cbn in E. rewrite Rmult_1_r in E. exact E. }
  assert (Y (block r (fun m => t m + 2 * PI) 0 i) = total (py s cs) 0 i) as BY'.
  { rewrite Y_block. apply total_ext. intros m Hm. destruct (Hr m ltac:(lia)) as (_ & _ & -> & _).
    f_equal. pose proof (sin_period (t m) 1) as E. cbn in E. rewrite Rmult_1_r in E. exact E. }
  assert (cs <> []) as Hne by (intros ->; cbn in *; lia).
  pose proof (corner_total cs (dip_dir s d) Hne) as TX. pose proof (corner_total cs (strike_dir s) Hne) as TY.
  change (total (px s d cs) 0 n = 0) in TX. change (total (py s cs) 0 n = 0) in TY.
  rewrite (total_split _ 0 i n), (total_split _ i j n), (total_split _ j k n) in TX by lia.
  rewrite (total_split _ 0 i n), (total_split _ i j n), (total_split _ j k n) in TY by lia.
  assert (0 <= X A * Y B - Y A * X B) as K.
  { set (c2 := match i with O => t (n - 1)%nat | S i' => t i' + 2 * PI end).
    assert (t (n - 1)%nat <= 2 * PI) as Hlast by (apply Hr; lia).
    assert (0 <= t i) as Hi0 by (apply Hr; lia).
    assert (t k <= c2 <= t i + 2 * PI) as Hc2.
    { unfold c2. destruct i as [|i'].
      - split; [apply Ha'; lia|lra].
      - pose proof (Hr i' ltac:(lia)) as (_ & _ & _ & Hi'). pose proof (Hr k ltac:(lia)) as (_ & _ & _ & Hk').
        pose proof (Ha' i' (S i') ltac:(lia)). split; lra. }
    assert (forall a b lo hi, (b <= n)%nat -> (forall m, (a <= m < b)%nat -> lo <= t m <= hi) -> inside lo hi (block r t a b)) as In0.
    { intros a b lo hi Hb Hm p Hp'. unfold block in Hp'. apply in_map_iff in Hp'. destruct Hp' as (m & <- & Hm'). apply in_seq in Hm'.
      cbn [fst snd]. split; [apply Hr; lia|apply Hm; lia]. }
    apply (three_blocks (t i) (t (j - 1)%nat) (t j) (t (k - 1)%nat) (t k) c2 A B C).
    - split; apply Ha'; lia.
    - split; apply Ha'; lia.
    - exact Hc2.
    - apply In0; [lia|]. intros m Hm. split; apply Ha'; lia.
    - apply In0; [lia|]. intros m Hm. split; apply Ha'; lia.
    - intros p Hp'. apply in_app_or in Hp'. destruct Hp' as [Hp'|Hp'].
      + revert p Hp'. apply In0; [lia|]. intros m Hm. split; [apply Ha'; lia|]. unfold c2. destruct i as [|i']; [apply Ha'; lia|].
        pose proof (Hr m ltac:(lia)) as (_ & _ & _ & Hm'). pose proof (Hr i' ltac:(lia)) as (_ & _ & _ & Hi'). lra.
      + unfold block in Hp'. apply in_map_iff in Hp'. destruct Hp' as (m & <- & Hm'). apply in_seq in Hm'. cbn [fst snd].
        split; [apply Hr; lia|]. pose proof (Hr m ltac:(lia)) as (_ & _ & _ & Hm''). pose proof (Hr k ltac:(lia)) as (_ & _ & _ & Hk').
        split; [lra|]. unfold c2. destruct i as [|i']; [lia|]. pose proof (Ha' m i' ltac:(lia)). lra.
    - unfold A, B, C. rewrite X_app, !BX, BX' by lia. lra.
    - unfold A, B, C. rewrite Y_app, !BY, BY' by lia. lra. }
  unfold A, B in K. rewrite !BX, !BY in K by lia.
  assert (forall a b, (a <= b < n)%nat -> psub (nth b cs zero3) (nth a cs zero3) = in_plane s d (total (px s d cs) a b) (total (py s cs) a b)) as D.
  { intros a b Hab. rewrite (in_plane_sub s d).
    - unfold px, py. rewrite !corner_diff by (fold n; lia). reflexivity.
    - intros p q Hp1 Hq1. apply Hp.
      + destruct Hp1 as [<-|[<-|[]]]; apply nth_In; fold n; lia.
      + destruct Hq1 as [<-|[<-|[]]]; apply nth_In; fold n; lia. }
  unfold orient. rewrite (D i j), (D i k) by lia. rewrite det_in_plane.
  rewrite (total_split (px s d cs) i j k), (total_split (py s cs) i j k) by lia. lra.
Qed.

(** * The polygons sampled *)
Lemma made_of_components s d dlen slen ds cs m : made_of s d dlen slen ds cs -> (m < length cs)%nat ->
  px s d cs m = fst (nth m ds (0, 0)) * dlen /\ py s cs m = snd (nth m ds (0, 0)) * slen.
Proof. intros [_ E] Hm. unfold px, py. rewrite (E m Hm). apply in_plane_dots. Qed.

Lemma nth_edges (slen dlen : R) ds m : nth m (edge_vectors slen dlen ds) zero3 = mkV3 (fst (nth m ds (0, 0)) * dlen) (snd (nth m ds (0, 0)) * slen) 0.
Proof.
  unfold edge_vectors. rewrite <- (map_nth (fun d0 => mkV3 (fst d0 * dlen) (snd d0 * slen) 0) ds (0, 0)).
  destruct (Nat.lt_ge_cases m (length ds)) as [L|G].
  - apply nth_indep. rewrite map_length. exact L.
  - rewrite !nth_overflow by (rewrite map_length; exact G). cbn. unfold zero3. v3; ring.
Qed.

Lemma sampled_polar srt d cs : sorts srt -> sample_corners srt d = Ok cs -> clear_edges (d_strike d) (d_dip d) cs ->
  exists r t, (forall m, (m < length cs)%nat -> 0 <= r m /\ px (d_strike d) (d_dip d) cs m = r m * cos (t m) /\
                 py (d_strike d) cs m = r m * sin (t m) /\ 0 <= t m < 2 * PI) /\
    (forall a b, (a < b < length cs)%nat -> t a <= t b).
Proof.
  intros Hs E Hc. destruct (sampled_polygon srt d cs Hs E) as (n & i & slen & dlen & ds & w & h & k & _ & _ & H3 & L & _ & _ & _ & _ & _ & Hm & _ & Ha).
  set (t := fun m => edge_angle (nth m (edge_vectors slen dlen ds) zero3)).
  assert (forall m, exists r, (m < length cs)%nat -> 0 <= r /\ px (d_strike d) (d_dip d) cs m = r * cos (t m) /\
                 py (d_strike d) cs m = r * sin (t m) /\ 0 <= t m < 2 * PI) as H.
  { intros m. destruct (Nat.lt_ge_cases m (length cs)) as [Lm|G]; [|exists 0; intros; lia].
    destruct (made_of_components _ _ _ _ _ _ m Hm Lm) as [Ex Ey].
    pose proof (Hc m Lm) as [Cx Cy]. unfold px in Ex. unfold py in Ey. rewrite Ex in Cx. rewrite Ey in Cy.
    destruct (edge_angle_polar _ _ 0 Cx Cy) as (Ht & r & Hr & E1 & E2).
    exists r. intros _. unfold px, py. rewrite Ex, Ey. unfold t. rewrite nth_edges. auto. }
  assert (exists r, forall m, (m < length cs)%nat -> 0 <= r m /\ px (d_strike d) (d_dip d) cs m = r m * cos (t m) /\
                 py (d_strike d) cs m = r m * sin (t m) /\ 0 <= t m < 2 * PI) as (r & Hr).
  { exists (fun m => sqrt (px (d_strike d) (d_dip d) cs m * px (d_strike d) (d_dip d) cs m + py (d_strike d) cs m * py (d_strike d) cs m)).
    intros m Lm. destruct (H m) as (r & Hr). destruct (Hr Lm) as (R0 & Ex & Ey & Ht).
    assert (px (d_strike d) (d_dip d) cs m * px (d_strike d) (d_dip d) cs m + py (d_strike d) cs m * py (d_strike d) cs m = r * r) as Er.
    { rewrite Ex, Ey. pose proof (sc1 (t m)). set (a := cos (t m)) in *. set (b := sin (t m)) in *. clearbody a b. nsatz. }
    rewrite Er, sqrt_square by assumption. auto. }
  exists r, t. auto.
Qed.

Lemma sampled_convex srt d cs : sorts srt -> sample_corners srt d = Ok cs -> clear_edges (d_strike d) (d_dip d) cs ->
  forall i j k, (i < j < k)%nat -> (k < length cs)%nat ->
    0 <= orient (plane_normal (d_strike d) (d_dip d)) (nth i cs zero3) (nth j cs zero3) (nth k cs zero3).
Proof.
  intros Hs E Hc. destruct (sampled_polar srt d cs Hs E Hc) as (r & t & Hr & Ht).
  apply (sorted_convex _ _ _ r t); [|intros m Hm; destruct (Hr m Hm) as (A1 & A2 & A3 & A4); repeat split; lra|exact Ht].
  destruct (sampled_polygon srt d cs Hs E) as (n & i & slen & dlen & ds & w & h & k & _ & _ & _ & _ & _ & _ & _ & _ & _ & Hm & _).
  apply (made_of_planar _ _ _ _ _ _ Hm).
Qed.

Lemma sampled_convex_ccw srt d cs : sorts srt -> sample_corners srt d = Ok cs -> clear_edges (d_strike d) (d_dip d) cs ->
  noncollinear (nth 0 cs zero3) (nth 1 cs zero3) (nth 2 cs zero3) -> convex_ccw (plane_normal (d_strike d) (d_dip d)) cs.
Proof.
  intros Hs E Hc Hn. pose proof (sampled_convex srt d cs Hs E Hc) as Ht.
  destruct (sampled_polygon srt d cs Hs E) as (n & i & slen & dlen & ds & w & h & k & _ & _ & H3 & L & _ & _ & _ & _ & _ & Hm & _).
  pose proof (made_of_planar _ _ _ _ _ _ Hm) as Hp.
  split; [apply normal_unit|]. split; [exact Hp|]. split; [lia|]. split; [exact Ht|].
  specialize (Ht 0%nat 1%nat 2%nat ltac:(lia) ltac:(lia)). destruct Ht as [Ht|Ht]; [exact Ht|]. exfalso. apply Hn.
  unfold orient in Ht.
  assert (forall m, (m < length cs)%nat -> psub (nth m cs zero3) (nth 0 cs zero3) = in_plane (d_strike d) (d_dip d)
     (dot (psub (nth m cs zero3) (nth 0 cs zero3)) (dip_dir (d_strike d) (d_dip d))) (dot (psub (nth m cs zero3) (nth 0 cs zero3)) (strike_dir (d_strike d)))) as D.
  { intros m Lm. apply in_plane_sub. intros p q Hp1 Hq1. apply Hp.
    - destruct Hp1 as [<-|[<-|[]]]; apply nth_In; lia.
    - destruct Hq1 as [<-|[<-|[]]]; apply nth_In; lia. }
  rewrite (D 1%nat), (D 2%nat) in Ht |- * by lia. rewrite det_in_plane in Ht. rewrite cross_in_plane, <- Ht.
  clear. unfold zero3. coords. v3; ring.
Qed.

(** * The extent of the polygon *)
Lemma sum_le_rises l : sum l <= rises l.
Proof. unfold rises, sum. induction l as [|a l IH]; cbn; [lra|]. pose proof (Rmax_r 0 a). lra. Qed.
Lemma rises_pos l : 0 <= rises l.
Proof. unfold rises, sum. induction l as [|a l IH]; cbn; [lra|]. pose proof (Rmax_l 0 a). lra. Qed.
Lemma sum_zero l : sum l = 0 -> rises (map Ropp l) = rises l.
Proof.
  intros H. assert (rises l - rises (map Ropp l) = sum l) as E; [|lra].
  clear H. unfold rises, sum. induction l as [|a l IH]; cbn; [lra|].
  destruct (Rle_or_lt 0 a); [rewrite (Rmax_right 0 a), (Rmax_left 0 (- a)) by lra|rewrite (Rmax_left 0 a), (Rmax_right 0 (- a)) by lra]; lra.
Qed.
Lemma rises_scale c l : 0 <= c -> rises (map (fun x => x * c) l) = rises l * c.
Proof.
  intros Hc. unfold rises, sum. induction l as [|a l IH]; cbn; [lra|]. rewrite IH.
  destruct (Rle_or_lt 0 a); [rewrite (Rmax_right 0 a), (Rmax_right 0 (a * c)) by nra|rewrite (Rmax_left 0 a), (Rmax_left 0 (a * c)) by nra]; lra.
Qed.
Lemma rises_scale_abs c l : sum l = 0 -> rises (map (fun x => x * c) l) = rises l * Rabs c.
Proof.
  intros Hs. destruct (Rle_or_lt 0 c) as [Hc|Hc].
  - rewrite Rabs_pos_eq by assumption. apply rises_scale, Hc.
  - rewrite Rabs_left by assumption. rewrite <- (sum_zero l Hs), <- rises_scale by lra. f_equal. rewrite map_map.
    apply map_ext. intros x. ring.
Qed.

Definition rise_of (f : nat -> R) i j : R := total (fun m => Rmax 0 (f m)) i j.
Lemma rise_nonneg f i j : 0 <= rise_of f i j.
Proof.
  unfold rise_of, total. pose proof (rises_pos (map f (seq i (j - i)))) as H. unfold rises in H. rewrite map_map in H. exact H.
Qed.
Lemma total_le_rise f i j : total f i j <= rise_of f i j.
Proof.
  unfold rise_of, total. pose proof (sum_le_rises (map f (seq i (j - i)))) as H. unfold rises in H. rewrite map_map in H. exact H.
Qed.
Lemma total_neg f i j : total (fun m => - f m) i j = - total f i j.
Proof.
  unfold total, sum. generalize (seq i (j - i)). induction l as [|a l IH]; cbn; [ring|]. rewrite IH. ring.
Qed.

(** partial sums differ by no more than the sum of all rises *)
Lemma diff_le f n i j : total f 0 n = 0 -> (i <= n)%nat -> (j <= n)%nat ->
  total f 0 i - total f 0 j <= rise_of f 0 n.
Proof.
  intros H0 Hi Hj. unfold rise_of. destruct (Nat.le_ge_cases j i) as [C|C].
  - rewrite (total_split f 0 j i) by lia. rewrite (total_split (fun m => Rmax 0 (f m)) 0 j n), (total_split (fun m => Rmax 0 (f m)) j i n) by lia.
    pose proof (total_le_rise f j i). pose proof (rise_nonneg f 0 j). pose proof (rise_nonneg f i n). unfold rise_of in *. lra.
  - rewrite (total_split f 0 i j) by lia. rewrite (total_split f 0 i n), (total_split f i j n) in H0 by lia.
    rewrite (total_split (fun m => Rmax 0 (f m)) 0 i n), (total_split (fun m => Rmax 0 (f m)) i j n) by lia.
    pose proof (total_le_rise f 0 i). pose proof (total_le_rise f j n). pose proof (rise_nonneg f i j). unfold rise_of in *. lra.
Qed.

Lemma total_rise_all f i j : (forall m, (i <= m < j)%nat -> 0 <= f m) -> rise_of f i j = total f i j.
Proof. intros H. apply total_ext. intros m Hm. apply Rmax_right, H, Hm. Qed.
Lemma total_rise_none f i j : (forall m, (i <= m < j)%nat -> f m <= 0) -> rise_of f i j = 0.
Proof.
  intros H. transitivity (total (fun _ => 0) i j); [apply total_ext; intros m Hm; apply Rmax_left, H, Hm|].
  unfold total, sum. generalize (seq i (j - i)). induction l as [|a l IH]; cbn; [reflexivity|]. rewrite IH. ring.
Qed.

(** the difference is attained if the steps that rise follow each other *)
Lemma diff_attained f n a b : total f 0 n = 0 -> (a <= b <= n)%nat ->
  (forall m, (m < a)%nat -> 0 <= f m) -> (forall m, (a <= m < b)%nat -> f m <= 0) -> (forall m, (b <= m < n)%nat -> 0 <= f m) ->
  total f 0 a - total f 0 b = rise_of f 0 n.
Proof.
  intros H0 Hab H1 H2 H3. unfold rise_of.
  rewrite (total_split (fun m => Rmax 0 (f m)) 0 a n), (total_split (fun m => Rmax 0 (f m)) a b n) by lia.
  pose proof (total_rise_all f 0 a ltac:(intros; apply H1; lia)) as E1. pose proof (total_rise_none f a b H2) as E2.
  pose proof (total_rise_all f b n H3) as E3. unfold rise_of in *. rewrite E1, E2, E3.
  rewrite (total_split f 0 a b) by lia. rewrite (total_split f 0 a n), (total_split f a b n) in H0 by lia. lra.
Qed.

(** the first index from which on the property holds *)
Lemma from_index (P : nat -> bool) n : (forall a b, (a < b < n)%nat -> P a = true -> P b = true) ->
  exists k, (k <= n)%nat /\ (forall m, (m < k)%nat -> P m = false) /\ (forall m, (k <= m < n)%nat -> P m = true).
Proof.
  induction n as [|n IH]; intros H; [exists 0%nat; repeat split; intros; lia|].
  destruct IH as (k & Hk & H1 & H2); [intros a b Hab; apply H; lia|].
  destruct (P n) eqn:Pn.
  - exists k. split; [lia|]. split; [assumption|]. intros m Hm. destruct (Nat.eq_dec m n) as [->|]; [assumption|]. apply H2. lia.
  - exists (S n). split; [lia|]. split; [|intros; lia]. intros m Hm. destruct (P m) eqn:Pm; [|reflexivity].
    destruct (Nat.eq_dec m n) as [->|]; [congruence|]. rewrite (H m n) in Pn by (auto; lia). discriminate.
Qed.

Lemma cut (t : nat -> R) n x : (forall a b, (a < b < n)%nat -> t a <= t b) ->
  exists k, (k <= n)%nat /\ (forall m, (m < k)%nat -> t m < x) /\ (forall m, (k <= m < n)%nat -> x <= t m).
Proof.
  intros H. destruct (from_index (fun m => Rleb x (t m)) n) as (k & Hk & H1 & H2).
  { intros a b Hab Pa. apply Rleb_true in Pa. apply Rleb_true. pose proof (H a b Hab). lra. }
  exists k. split; [assumption|]. split.
  - intros m Hm. specialize (H1 m Hm). revert H1. destruct (Rleb_spec x (t m)); [discriminate|lra].
  - intros m Hm. apply Rleb_true, H2, Hm.
Qed.

(** corners and partial sums, the last one being the first corner *)
Lemma corner_of (cs : list pt) a i : cs <> [] -> (i <= length cs)%nat -> exists k, (k < length cs)%nat /\
  dot (psub (nth k cs zero3) (nth 0 cs zero3)) a = total (fun m => dot (edge_vec cs m) a) 0 i.
Proof.
  intros Hn Hi. assert (0 < length cs)%nat as L by (destruct cs; [contradiction|cbn; lia]).
  destruct (Nat.eq_dec i (length cs)) as [->|].
  - exists 0%nat. split; [assumption|]. rewrite corner_total by assumption. clear. coords. ring.
  - exists i. split; [lia|]. apply corner_diff. lia.
Qed.

Lemma extent_le (cs : list pt) a i j : (i < length cs)%nat -> (j < length cs)%nat ->
  dot (psub (nth i cs zero3) (nth j cs zero3)) a <= rise_of (fun m => dot (edge_vec cs m) a) 0 (length cs).
Proof.
  intros Hi Hj. assert (cs <> []) as Hn by (intros ->; cbn in *; lia).
  pose proof (diff_le _ _ i j (corner_total cs a Hn) ltac:(lia) ltac:(lia)) as H.
  rewrite <- !corner_diff in H by lia.
  replace (dot (psub (nth i cs zero3) (nth j cs zero3)) a) with
    (dot (psub (nth i cs zero3) (nth 0 cs zero3)) a - dot (psub (nth j cs zero3) (nth 0 cs zero3)) a); [exact H|].
  clear. coords. ring.
Qed.

Lemma extent_attained (cs : list pt) a k l : cs <> [] -> (k <= l <= length cs)%nat ->
  (forall m, (m < k)%nat -> 0 <= dot (edge_vec cs m) a) -> (forall m, (k <= m < l)%nat -> dot (edge_vec cs m) a <= 0) ->
  (forall m, (l <= m < length cs)%nat -> 0 <= dot (edge_vec cs m) a) ->
  exists i j, (i < length cs)%nat /\ (j < length cs)%nat /\
    dot (psub (nth i cs zero3) (nth j cs zero3)) a = rise_of (fun m => dot (edge_vec cs m) a) 0 (length cs).
Proof.
  intros Hn Hkl H1 H2 H3. pose proof (diff_attained _ _ k l (corner_total cs a Hn) Hkl H1 H2 H3) as H.
  destruct (corner_of cs a k Hn ltac:(lia)) as (i & Hi & Ei). destruct (corner_of cs a l Hn ltac:(lia)) as (j & Hj & Ej).
  exists i, j. split; [assumption|]. split; [assumption|]. rewrite <- H, <- Ei, <- Ej. clear. coords. ring.
Qed.

Lemma rise_list (ds : list (R * R)) (g : R * R -> R) (f : nat -> R) c : sum (map g ds) = 0 ->
  (forall m, (m < length ds)%nat -> f m = g (nth m ds (0, 0)) * c) -> rise_of f 0 (length ds) = rises (map g ds) * Rabs c.
Proof.
  intros H0 Hf. rewrite <- rises_scale_abs by assumption. unfold rise_of, rises, total. rewrite Nat.sub_0_r. f_equal.
  rewrite !map_map. clear H0. revert f Hf. induction ds as [|x ds IH]; intros f Hf; [reflexivity|]. cbn [length seq map].
  rewrite (Hf 0%nat) by (cbn; lia). cbn [nth]. f_equal. rewrite <- seq_shift, map_map.
  apply (IH (fun m => f (S m))). intros m Hm. apply (Hf (S m)). cbn. lia.
Qed.

Lemma sampled_extent srt d cs : sorts srt -> sample_corners srt d = Ok cs ->
  exists slen dlen w h k, (k < 100)%nat /\ first_at (fun x => 0 <= x) (d_slen d) k slen /\ length_used (d_dlen d) dlen /\
    (unit_draws d -> 8 / 10 <= w <= 1 /\ 8 / 10 <= h <= 1) /\
    (forall p q, In p cs -> In q cs ->
       dot (psub p q) (dip_dir (d_strike d) (d_dip d)) <= w * Rabs dlen /\ dot (psub p q) (strike_dir (d_strike d)) <= h * slen) /\
    (clear_edges (d_strike d) (d_dip d) cs ->
       (exists p q, In p cs /\ In q cs /\ dot (psub p q) (dip_dir (d_strike d) (d_dip d)) = w * Rabs dlen) /\
       (exists p q, In p cs /\ In q cs /\ dot (psub p q) (strike_dir (d_strike d)) = h * slen)).
Proof.
  intros Hs E.
  destruct (sampled_polygon srt d cs Hs E) as (n & i0 & slen & dlen & ds & w & h & k & _ & _ & H3 & L & Hk & Hsl & Hdl & Hst & Hw & Hm & _).
  exists slen, dlen, w, h, k. split; [assumption|]. split; [assumption|]. split; [assumption|]. split; [assumption|].
  assert (0 <= slen) as Hs0 by apply Hsl.
  pose proof Hst as (S1 & S2 & W & Hh). pose proof Hm as [Lm _].
  assert (rise_of (px (d_strike d) (d_dip d) cs) 0 (length cs) = w * Rabs dlen) as Rx.
  { rewrite <- W, <- Lm. apply rise_list; [assumption|]. intros m Hm'. apply (made_of_components _ _ _ _ _ _ m Hm). lia. }
  assert (rise_of (py (d_strike d) cs) 0 (length cs) = h * slen) as Ry.
  { rewrite <- Hh, <- Lm, <- (Rabs_pos_eq slen) by assumption. apply rise_list; [assumption|].
    intros m Hm'. apply (made_of_components _ _ _ _ _ _ m Hm). lia. }
  assert (cs <> []) as Hne by (intros ->; cbn in *; lia).
  split.
  - intros p q Hp Hq. destruct (In_nth _ _ zero3 Hp) as (i & Hi & <-). destruct (In_nth _ _ zero3 Hq) as (j & Hj & <-).
    rewrite <- Rx, <- Ry. split; apply extent_le; assumption.
  - intros Hc. destruct (sampled_polar srt d cs Hs E Hc) as (r & t & Hr & Ht). pose proof PI_RGT_0 as Hpi. split.
    + destruct (cut t (length cs) (PI / 2) Ht) as (a & Ha & A1 & A2). destruct (cut t (length cs) (3 * (PI / 2)) Ht) as (b & Hb & B1 & B2).
      assert (a <= b)%nat as Hab.
      { destruct (Nat.le_gt_cases a b) as [|C]; [assumption|]. pose proof (A1 b ltac:(lia)). pose proof (B2 b ltac:(lia)). lra. }
      destruct (extent_attained cs (dip_dir (d_strike d) (d_dip d)) a b Hne ltac:(lia)) as (i & j & Hi & Hj & Eij).
      * intros m Hm'. destruct (Hr m ltac:(lia)) as (R0 & Ex & _ & T0). unfold px in Ex. rewrite Ex. apply Rmult_le_pos; [assumption|].
        pose proof (A1 m ltac:(lia)). apply cos_ge_0; lra.
      * intros m Hm'. destruct (Hr m ltac:(lia)) as (R0 & Ex & _ & T0). unfold px in Ex. rewrite Ex.
        assert (cos (t m) <= 0) as C0. { pose proof (A2 m ltac:(lia)). pose proof (B1 m ltac:(lia)). apply cos_le_0; lra. } nra.
      * intros m Hm'. destruct (Hr m ltac:(lia)) as (R0 & Ex & _ & T0). unfold px in Ex. rewrite Ex. apply Rmult_le_pos; [assumption|].
        pose proof (B2 m ltac:(lia)). rewrite <- (Ropp_involutive (t m)), cos_neg. replace (cos (- t m)) with (cos (2 * PI - t m)).
        -- apply cos_ge_0; lra.
        -- rewrite cos_minus, cos_2PI, sin_2PI, cos_neg. ring.
      * exists (nth i cs zero3), (nth j cs zero3). split; [apply nth_In, Hi|]. split; [apply nth_In, Hj|]. rewrite Eij. exact Rx.
    + destruct (cut t (length cs) PI Ht) as (a & Ha & A1 & A2).
      destruct (extent_attained cs (strike_dir (d_strike d)) a (length cs) Hne ltac:(lia)) as (i & j & Hi & Hj & Eij).
      * intros m Hm'. destruct (Hr m ltac:(lia)) as (R0 & _ & Ey & T0). unfold py in Ey. rewrite Ey. apply Rmult_le_pos; [assumption|].
        pose proof (A1 m ltac:(lia)). apply sin_ge_0; lra.
      * intros m Hm'. destruct (Hr m ltac:(lia)) as (R0 & _ & Ey & T0). unfold py in Ey. rewrite Ey.
        assert (sin (t m) <= 0) as C0. { pose proof (A2 m ltac:(lia)). apply sin_le_0; lra. } nra.
      * intros m Hm'. lia.
      * exists (nth i cs zero3), (nth j cs zero3). split; [apply nth_In, Hi|]. split; [apply nth_In, Hj|]. rewrite Eij. exact Ry.
Qed.

(** insertion sort is a sort *)
Lemma isort_sorts : sorts (isort edge_before).
Proof.
  assert (forall x (l : list pt), (forall i j, (i < j < length l)%nat -> edge_angle (nth i l zero3) <= edge_angle (nth j l zero3)) ->
    forall i j, (i < j < S (length l))%nat -> edge_angle (nth i (insert_by edge_before x l) zero3) <= edge_angle (nth j (insert_by edge_before x l) zero3)) as Hins.
  { intros x l. induction l as [|y l IH]; intros Hl i j Hij; [cbn in Hij; lia|]. cbn [insert_by].
    assert (forall i j, (i < j < length l)%nat -> edge_angle (nth i l zero3) <= edge_angle (nth j l zero3)) as Hl'.
    { intros a b Hab. apply (Hl (S a) (S b)). cbn. lia. }
    assert (forall z, In z l -> edge_angle y <= edge_angle z) as Hy.
    { intros z Hz. destruct (In_nth _ _ zero3 Hz) as (k & Hk & <-). apply (Hl 0%nat (S k)). cbn. lia. }
    unfold edge_before at 1 3. rn. destruct (Rltb_spec (edge_angle y) (edge_angle x)) as [C|C].
    - destruct i as [|i], j as [|j]; cbn [nth]; try lia.
      + set (z := nth j (insert_by edge_before x l) zero3).
        assert (In z (x :: l)) as Hz.
        { apply (Permutation_in _ (insert_perm edge_before x l)), nth_In. rewrite (Permutation_length (insert_perm edge_before x l)). cbn in *. lia. }
        destruct Hz as [<-|Hz]; [lra|apply Hy, Hz].
      + apply (IH Hl'). cbn in Hij. lia.
    - destruct i as [|i], j as [|j]; cbn [nth]; try lia.
      + destruct j as [|j]; [lra|]. assert (In (nth j l zero3) l) as Hz by (apply nth_In; cbn in Hij; lia).
        pose proof (Hy _ Hz). lra.
      + apply Hl. cbn in *. lia. }
  intros l. split; [apply isort_perm|]. induction l as [|x l IH]; intros i j Hij; [cbn in Hij; lia|].
  cbn [isort fold_right]. change (fold_right (insert_by edge_before) [] l) with (isort edge_before l).
  apply Hins; rewrite (Permutation_length (isort_perm edge_before l)); [exact IH|exact Hij].
Qed.

(** * Quadrilaterals *)
Lemma four_corners srt d cs : sorts srt -> sample_corners srt (four d) = Ok cs -> exists c0 c1 c2 c3, cs = [c0; c1; c2; c3].
Proof.
  intros Hs E. destruct (sampled_polygon srt (four d) cs Hs E) as (n & i & slen & dlen & ds & w & h & k & _ & (F & _ & _) & _ & L & _).
  cbn in F. subst n. change (Z.to_nat 4) with 4%nat in L. destruct cs as [|c0 [|c1 [|c2 [|c3 [|]]]]]; try discriminate. eauto.
Qed.

Lemma sampled_quad srt d q : sorts srt -> sample_quad srt d = Ok q ->
  sample_corners srt (four d) = Ok [q_0 q; q_1 q; q_3 q; q_2 q].
Proof.
  intros Hs E. unfold sample_quad in E. destruct (sample_corners srt (four d)) as [cs| | |] eqn:Ec; cbn [obind] in E; try discriminate.
  destruct (four_corners srt d cs Hs Ec) as (c0 & c1 & c2 & c3 & ->). cbn in E. injection E as <-. reflexivity.
Qed.

Lemma quad_convex srt d q : sorts srt -> sample_quad srt d = Ok q ->
  clear_edges (d_strike d) (d_dip d) [q_0 q; q_1 q; q_3 q; q_2 q] -> noncollinear (q_2 q) (q_0 q) (q_1 q) ->
  convex_ccw (plane_normal (d_strike d) (d_dip d)) (around (q_0 q) (q_1 q) (q_2 q) (q_3 q)).
Proof.
  intros Hs E Hc Hn. pose proof (sampled_quad srt d q Hs E) as Ec.
  pose proof (sampled_convex srt (four d) _ Hs Ec Hc) as Ht. cbn [four d_strike d_dip length] in Ht.
  destruct (sampled_polygon srt (four d) _ Hs Ec) as (n & i & slen & dlen & ds & w & h & k & _ & _ & _ & _ & _ & _ & _ & _ & _ & Hm & _).
  pose proof (made_of_planar _ _ _ _ _ _ Hm) as Hp. cbn [four d_strike d_dip] in Hp.
  pose proof (Ht 0%nat 1%nat 2%nat ltac:(lia) ltac:(lia)) as T1. pose proof (Ht 0%nat 1%nat 3%nat ltac:(lia) ltac:(lia)) as T2.
  pose proof (Ht 0%nat 2%nat 3%nat ltac:(lia) ltac:(lia)) as T3. pose proof (Ht 1%nat 2%nat 3%nat ltac:(lia) ltac:(lia)) as T4.
  cbn [nth] in T1, T2, T3, T4. set (N := plane_normal (d_strike d) (d_dip d)) in *.
  set (p0 := q_0 q) in *. set (p1 := q_1 q) in *. set (p2 := q_2 q) in *. set (p3 := q_3 q) in *.
  assert (forall a b c, orient N a b c = orient N c a b) as Rot by (intros; unfold orient; clear; coords; ring).
  assert (planar N (around p0 p1 p2 p3)) as Hp'.
  { intros a b Ha Hb. apply Hp; cbn in *; tauto. }
  split; [apply normal_unit|]. split; [exact Hp'|]. split; [cbn; lia|]. split.
  - intros a b c Habc Hc'. unfold around in *. cbn [length] in Hc'.
    destruct a as [|[|[|[|a]]]], b as [|[|[|[|b]]]], c as [|[|[|[|c]]]]; try lia; cbn [nth].
    + rewrite <- Rot. exact T2.
    + rewrite <- Rot. exact T3.
    + rewrite <- Rot. exact T4.
    + exact T1.
  - unfold around. cbn [nth]. rewrite <- Rot. destruct T2 as [T2|T2]; [exact T2|]. exfalso. apply Hn.
    rewrite Rot in T2. unfold orient in T2.
    assert (forall x, In x [p0; p1] -> psub x p2 = in_plane (d_strike d) (d_dip d)
      (dot (psub x p2) (dip_dir (d_strike d) (d_dip d))) (dot (psub x p2) (strike_dir (d_strike d)))) as D.
    { intros x Hx. apply in_plane_sub. destruct Hx as [<-|[<-|[]]]; intros a b Ha Hb; apply Hp; cbn in *; tauto. }
    rewrite (D p0), (D p1) in T2 |- * by (cbn; tauto). unfold N in T2. rewrite det_in_plane in T2. rewrite cross_in_plane, <- T2.
    clear. unfold zero3. coords. v3; ring.
Qed.

Lemma quad_outcome srt d : sorts srt ->
  (sample_quad srt d = Throw RuntimeError <-> forall i, (i < 100)%nat -> d_slen d i < 0) /\
  (sample_quad srt d = Throw RuntimeError \/ exists q, sample_quad srt d = Ok q).
Proof.
  intros Hs. pose proof (throws_iff srt (four d)) as Ht. pose proof (returns_iff srt (four d)) as Hr. cbn [four d_num d_slen] in Ht.
  unfold sample_quad. destruct (sample_corners srt (four d)) as [cs|ex| |] eqn:Ec; cbn [obind].
  - destruct (four_corners srt d cs Hs Ec) as (c0 & c1 & c2 & c3 & ->). cbn [quad_of_corners].
    split; [split; [discriminate|]|right; eauto]. intros H. destruct Ht as [_ Ht]. discriminate Ht. right. exact H.
  - destruct ex; try (destruct Hr as [_ Hr]; destruct Hr as (? & ?); discriminate). split; [|left; reflexivity].
    split; [intros _; destruct (proj1 Ht eq_refl) as [C|C]; [pose proof (C 0%nat ltac:(lia)); lia|exact C]|reflexivity].
  - destruct Hr as [_ Hr]. destruct Hr as (? & ?); discriminate.
  - destruct Hr as [_ Hr]. destruct Hr as (? & ?); discriminate.
Qed.
