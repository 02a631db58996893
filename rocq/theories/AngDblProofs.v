(** Intersection angles in double precision. *)

From Coq Require Import ZArith Reals List Lra Lia Psatz Bool.
From Flocq Require Import Core.Core IEEE754.BinarySingleNaN IEEE754.PrimFloat.
From Coq Require Import Floats.
From Verif Require Import Base ConstraintsModel NumModel VecModel LinModel RoundModel PolyModel DistModel IntModel AngModel EvalModel
  GeoSpec AngSpec DblSpec GeoLemmas DblLemmas DblProofs DblLen LinDblSpec LinDblBase LinDblFoot LinDblProofs TrigDblSpec AngDblSpec.
Import ListNotations.
Local Open Scope R_scope.

(** ** The arccosine *)
Lemma sin_above t : 0 <= t <= 1 -> 5 / 6 * t <= sin t.
Proof.
  intros Ht. pose proof PI2_3_2. destruct (pre_sin_bound t 0 ltac:(lra) ltac:(lra)) as [L _].
  unfold sin_approx, sin_term in L. cbn [sum_f_R0 Nat.mul Nat.add pow fact] in L. cbn [INR Nat.mul Nat.add] in L.
  assert (t * t * t <= t) as C. { assert (t * t <= 1) by nra. nra. }
  lra.
Qed.
Lemma one_cos phi : 0 <= phi <= 2 -> 25 / 72 * (phi * phi) <= 1 - cos phi.
Proof.
  intros Hp. pose proof (sin_above (phi / 2) ltac:(lra)) as S. replace phi with (2 * (phi / 2)) at 3 by field. rewrite cos_2a_sin.
  assert (0 <= 5 / 6 * (phi / 2)) by lra. nra.
Qed.
Lemma cos_gap a b : 0 <= b <= a -> a <= PI / 2 -> 1 - cos (a - b) <= cos b - cos a.
Proof.
  intros Hb Ha. pose proof PI_RGT_0. rewrite (form2 b a).
  replace (1 - cos (a - b)) with (2 * (sin ((a - b) / 2) * sin ((a - b) / 2))).
  2:{ replace (a - b) with (2 * ((a - b) / 2)) at 3 by field. rewrite cos_2a_sin. ring. }
  assert (sin ((b - a) / 2) = - sin ((a - b) / 2)) as -> by (rewrite <- sin_neg; f_equal; field).
  assert (0 <= sin ((a - b) / 2)) as S0 by (apply sin_ge_0; lra).
  assert (sin ((a - b) / 2) <= sin ((b + a) / 2)) as S1 by (apply sin_incr_1; lra). nra.
Qed.
Lemma gap_small a b d : 0 <= a <= PI / 2 -> 0 <= b <= PI / 2 -> Rabs (cos a - cos b) <= d -> d <= powerRZ 2 (-48) -> Rabs (a - b) <= powerRZ 2 (-23).
Proof.
  assert (forall a b d, 0 <= b <= a -> a <= PI / 2 -> cos b - cos a <= d -> d <= powerRZ 2 (-48) -> a - b <= powerRZ 2 (-23)) as K.
  { clear. intros a b d Hb Ha Hd Hs. pose proof (cos_gap a b Hb Ha) as G. pose proof PI_4. pose proof (one_cos (a - b) ltac:(lra)) as O.
    rewrite two_p in *. change (bpow radix2 (-48)) with (/ 281474976710656) in Hs. change (bpow radix2 (-23)) with (/ 8388608).
    destruct (Rle_or_lt (a - b) (/ 8388608)) as [L|L]; [exact L|]. exfalso. assert (/ 8388608 * / 8388608 <= (a - b) * (a - b)) by (apply Rmult_le_compat; lra). lra. }
  intros Ha Hb Hd Hs. apply Rabs_def2_le in Hd. destruct (Rle_or_lt b a) as [L|L].
  - rewrite Rabs_pos_eq by lra. apply (K a b d); lra.
  - rewrite Rabs_left1 by lra. replace (- (a - b)) with (b - a) by ring. apply (K b a d); lra.
Qed.
Lemma acos_quarter x : 0 <= x <= 1 -> 0 <= acos x <= PI / 2.
Proof.
  intros Hx. destruct (acos_bound x) as [A B]. split; [exact A|]. destruct (Rle_or_lt (acos x) (PI / 2)) as [L|L]; [exact L|]. exfalso.
  pose proof (cos_acos x ltac:(lra)) as C. pose proof PI_RGT_0. pose proof (cos_lt_0 (acos x) L ltac:(lra)). lra.
Qed.

(** ** The cosine *)
Lemma plane_cos_err (p1 p2 : plane PrimFloat.float) theta : direction (pl_n p1) -> direction (pl_n p2) ->
  angle_between (val3 (pl_n p1)) (val3 (pl_n p2)) theta ->
  number (plane_cos p1 p2) /\ 0 <= val (plane_cos p1 p2) /\ Rabs (val (plane_cos p1 p2) - cos theta) <= powerRZ 2 (-48).
Proof.
  intros D1 D2 [_ Hc]. destruct (dir_norm _ D1) as (P1 & L1 & E1). destruct (dir_norm _ D2) as (P2 & L2 & E2).
  unfold plane_cos. destruct D1 as [N1 _], D2 as [N2 _]. set (u := pl_n p1) in *. set (v := pl_n p2) in *.
  destruct (comp_norm (val3 u)) as (U1 & U2 & U3). destruct (comp_norm (val3 v)) as (V1 & V2 & V3'). cbn [val3 vx vy vz] in U1, U2, U3, V1, V2, V3'.
  destruct (sized_scale (11 / 10) 1 ltac:(lra)) as [Z1 Z2]. { split; [change 1 with (bpow radix2 0)|change 1 with (bpow radix2 0)]; apply bpow_le; lia. }
  rewrite Rmult_1_r in Z1, Z2.
  destruct (sized_scale 5 1 ltac:(lra)) as [_ Z3]. { split; [change 1 with (bpow radix2 0)|change 1 with (bpow radix2 0)]; apply bpow_le; lia. }
  assert (forall x y, Rabs x <= norm (val3 u) -> Rabs y <= norm (val3 v) -> Rabs (x * y) <= 11 / 10) as HB.
  { intros x y Hx Hy. eapply Rle_trans; [apply (prod_le x y (1001 / 1000) (1001 / 1000)); lra|lra]. }
  destruct (sprod_err u v (11 / 10) N1 N2 Z1 ltac:(lra) (HB _ _ U1 V1) (HB _ _ U2 V2) (HB _ _ U3 V3')) as [NS ES].
  destruct (f_abs _ NS) as [NA VA]. cbn [nabs F_num]. split; [exact NA|]. rewrite VA. split; [apply Rabs_pos|].
  assert (cos theta * (norm (val3 u) * norm (val3 v)) <= norm (val3 u) * norm (val3 v)) as CB.
  { pose proof (COS_bound theta). assert (0 < norm (val3 u) * norm (val3 v)) by (apply Rmult_lt_0_compat; assumption). nra. }
  assert (Rabs (Rabs (val (sprod u v)) - Rabs (dot (val3 u) (val3 v))) <= 9 * U * (11 / 10)) as E by (eapply Rle_trans; [apply Rabs_triang_inv2|exact ES]).
  rewrite <- Hc in E. pose proof (COS_bound theta) as CB'.
  assert (Rabs (cos theta * (norm (val3 u) * norm (val3 v)) - cos theta) <= 17 * U) as F.
  { replace (cos theta * (norm (val3 u) * norm (val3 v)) - cos theta) with (cos theta * (norm (val3 u) * norm (val3 v) - 1)) by ring.
    rewrite Rabs_mult. assert (Rabs (cos theta) <= 1) by (apply Rabs_le; lra). assert (Rabs (norm (val3 u) * norm (val3 v) - 1) <= 17 * U) as G.
    { replace (norm (val3 u) * norm (val3 v) - 1) with (norm (val3 u) * (norm (val3 v) - 1) + (norm (val3 u) - 1)) by ring.
      eapply Rle_trans; [apply Rabs_triang|]. rewrite Rabs_mult, (Rabs_pos_eq (norm (val3 u))) by lra.
      assert (norm (val3 u) * Rabs (norm (val3 v) - 1) <= 1001 / 1000 * (8 * U)) by (apply Rmult_le_compat; try lra; apply Rabs_pos). pose proof U_pos. lra. }
    apply Rle_trans with (1 * (17 * U)); [|lra]. apply Rmult_le_compat; try apply Rabs_pos; assumption. }
  rewrite two_p. change (bpow radix2 (-48)) with (/ 281474976710656). unfold U in *.
  apply Rabs_def2_le in E. apply Rabs_def2_le in F. apply Rabs_le. lra.
Qed.

Lemma plane_angle_dbl (T : Trig PrimFloat.float) (p1 p2 : plane PrimFloat.float) theta : accurate T -> direction (pl_n p1) -> direction (pl_n p2) ->
  angle_between (val3 (pl_n p1)) (val3 (pl_n p2)) theta -> measures (plane_angle p1 p2) theta (powerRZ 2 (-22)).
Proof.
  intros (_ & _ & Ac & An) D1 D2 Ha. destruct (plane_cos_err p1 p2 theta D1 D2 Ha) as (N & C0 & E). destruct Ha as [Ht _].
  unfold plane_angle. set (c := plane_cos p1 p2) in *.
  assert (powerRZ 2 (-22) = 2 * powerRZ 2 (-23)) as E22. { rewrite !two_p. change 2 with (bpow radix2 1). rewrite <- bpow_plus. reflexivity. }
  assert (powerRZ 2 (-51) <= powerRZ 2 (-23)) as E51. { rewrite !two_p. apply bpow_le. lia. }
  assert (0 < powerRZ 2 (-23)) as E23 by (rewrite two_p; apply bpow_gt_0).
  destruct (Rle_or_lt (val c) 1) as [L|L].
  - left. destruct (Ac c N) as [NA VA]; [rewrite Rabs_pos_eq; assumption|]. split; [exact NA|].
    pose proof (gap_small (acos (val c)) theta _ (acos_quarter _ (conj C0 L)) Ht ltac:(rewrite cos_acos by lra; exact E) ltac:(lra)) as G.
    apply Rabs_def2_le in VA. apply Rabs_def2_le in G. apply Rabs_le. lra.
  - right. split; [apply (An c N); rewrite Rabs_pos_eq; assumption|].
    pose proof PI_RGT_0. pose proof (COS_bound theta). apply Rabs_def2_le in E.
    pose proof (gap_small theta 0 (powerRZ 2 (-48)) Ht ltac:(lra) ltac:(rewrite cos_0; apply Rabs_le; lra) ltac:(lra)) as G. apply Rabs_def2_le in G. lra.
Qed.

(** ** Faces and the constraint *)
Lemma face_plane_dir (f : face PrimFloat.float) : pl_n (face_plane f) = face_dir f.
Proof. destruct f; reflexivity. Qed.
Lemma face_angle_dbl (T : Trig PrimFloat.float) top (f1 f2 : face PrimFloat.float) i a theta : accurate T -> direction (face_dir f1) -> direction (face_dir f2) ->
  angle_between (val3 (face_dir f1)) (val3 (face_dir f2)) theta -> int_angle top (GFace f1) (GFace f2) i = Ok a -> measures a theta (powerRZ 2 (-22)).
Proof.
  intros HT D1 D2 Ha E. assert (plane_angle (face_plane f1) (face_plane f2) = a) as <-.
  { destruct i; cbn [int_angle] in E; try discriminate; injection E as <-; reflexivity. }
  apply plane_angle_dbl; rewrite ?face_plane_dir; assumption.
Qed.
Lemma nan_ltb (x : PrimFloat.float) : PrimFloat.ltb nan x = false.
Proof. rewrite ltb_spec. cbn. reflexivity. Qed.

Lemma angle_evaluate (T : Trig PrimFloat.float) top O (f1 f2 : face PrimFloat.float) e m i :
  ent_intersect_eps O (EFace f1) (EFace f2) e = Ok [i] -> crossing i ->
  ent_evaluate top O (angle_only e m) (EFace f1) (EFace f2) = Ok (negb (PrimFloat.ltb (plane_angle (face_plane f1) (face_plane f2)) m)).
Proof.
  intros E Hi. unfold ent_evaluate, evaluate, angle_only. cbn [crun fold_left cstep c_init useMinIsMagnitude useMinIsAngle useMinIsDistance useMinDistance
    useIntersectionEps intersectionEps allowEquiDimIS minIsAngle orb negb andb obind].
  unfold ent_kernel. cbn [k_intersect k_angle k_dim ent_intersect]. rewrite E. cbn [obind].
  destruct Hi as [[p ->]|[s [t ->]]].
  - cbn. destruct (PrimFloat.ltb _ m); reflexivity.
  - cbn. destruct (PrimFloat.ltb _ m); reflexivity.
Qed.
Lemma c107_constraint_lemma : forall (T : Trig PrimFloat.float) top O (f1 f2 : face PrimFloat.float) e m i theta, accurate T -> direction (face_dir f1) -> direction (face_dir f2) ->
  number m -> angle_between (val3 (face_dir f1)) (val3 (face_dir f2)) theta ->
  ent_intersect_eps O (EFace f1) (EFace f2) e = Ok [i] -> crossing i ->
  exists b, ent_evaluate top O (angle_only e m) (EFace f1) (EFace f2) = Ok b /\
    (val m + powerRZ 2 (-22) <= theta -> b = true) /\
    (powerRZ 2 (-22) < theta -> theta + powerRZ 2 (-22) < val m -> b = false).
Proof.
  intros T top O f1 f2 e m i theta HT D1 D2 Nm Ha E Hi. rewrite (angle_evaluate T top O f1 f2 e m i E Hi). eexists. split; [reflexivity|].
  rewrite <- face_plane_dir in D1, D2, Ha. rewrite <- face_plane_dir in Ha.
  pose proof (plane_angle_dbl T _ _ theta HT D1 D2 Ha) as M. set (a := plane_angle (face_plane f1) (face_plane f2)) in *.
  destruct M as [[Na Va]|[En L]].
  - apply Rabs_def2_le in Va. split.
    + intros H. rewrite (proj2 (f_ltb_false a m Na Nm)); [reflexivity|lra].
    + intros _ H. rewrite (proj2 (f_ltb a m Na Nm)); [reflexivity|lra].
  - split.
    + intros _. rewrite En, nan_ltb. reflexivity.
    + intros H. lra.
Qed.
