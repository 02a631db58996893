(** Proofs about boxes and the bounding-box check over the reals. *)

From Coq Require Import Reals Lra Psatz Bool List.
From Verif Require Import Base NumModel VecModel LinModel GeoSpec LinSpec GeoLemmas MathProofs.
Local Open Scope R_scope.

Lemma make_box_spec x0 y0 z0 x1 y1 z1 :
  (x0 <= x1 /\ y0 <= y1 /\ z0 <= z1 ->
   make_box x0 y0 z0 x1 y1 z1 = Ok (mkBox (mkV3 x0 y0 z0) (mkV3 x1 y1 z1))) /\
  (x1 < x0 \/ y1 < y0 \/ z1 < z0 -> make_box x0 y0 z0 x1 y1 z1 = Throw RuntimeError).
Proof.
  unfold make_box. rn. split; intros Hb; repeat rcmp; try reflexivity; exfalso; lra.
Qed.

Lemma make_box_ok x0 y0 z0 x1 y1 z1 b : make_box x0 y0 z0 x1 y1 z1 = Ok b -> box_ok b.
Proof.
  unfold make_box, box_ok. rn. repeat rcmp; intros E; try discriminate. injection E as <-. cbn. lra.
Qed.

Lemma box_contains_iff (b : box R) p eps : box_contains b p eps = true <-> in_box_eps b eps p.
Proof.
  unfold box_contains, in_box_eps. rn. rewrite !andb_true_iff, !Rltb_true. tauto.
Qed.

Lemma box_eps_nonneg (b : box R) : 0 <= box_eps b.
Proof.
  unfold box_eps, confusion. rewrite vlen_norm. rn.
  apply Rmult_le_pos; [lra|apply norm_nonneg].
Qed.

Lemma box_eps_zero (b : box R) : box_eps b = 0 -> b_min b = b_max b.
Proof.
  unfold box_eps, confusion. rewrite vlen_norm. rn. intros E.
  apply Rmult_integral in E. destruct E as [E|E]; [lra|]. apply norm_zero in E.
  rewrite vec_to_psub in E. unfold psub, zero3 in E. injection E as e1 e2 e3. apply v3_eq; lra.
Qed.

Lemma box_contains_default_in (b : box R) p : b_min b <> b_max b -> in_box b p ->
  box_contains_default b p = true.
Proof.
  intros Hne Hp. apply box_contains_iff. pose proof (box_eps_nonneg b) as H0.
  assert (0 < box_eps b) as Hpos.
  { destruct (Rle_lt_or_eq_dec _ _ H0) as [?|E]; [assumption|]. exfalso. apply Hne, box_eps_zero. auto. }
  unfold in_box, in_box_eps in *. lra.
Qed.

(** ** corners, edges, faces *)
Lemma box_corner_iff (b : box R) p : is_corner b p <-> exists i, box_corner b i = Ok p.
Proof.
  destruct p as [x y z]. unfold is_corner. cbn [vx vy vz]. split.
  - intros ([->| ->] & [->| ->] & [->| ->]).
    + exists 0%nat; reflexivity.
    + exists 4%nat; reflexivity.
    + exists 2%nat; reflexivity.
    + exists 6%nat; reflexivity.
    + exists 1%nat; reflexivity.
    + exists 5%nat; reflexivity.
    + exists 3%nat; reflexivity.
    + exists 7%nat; reflexivity.
  - intros [i Hi]. do 8 (destruct i as [|i]; [cbn in Hi; injection Hi as <- <- <-; tauto|]). discriminate.
Qed.

Lemma box_corner_total (b : box R) i :
  ((i < 8)%nat -> exists p, box_corner b i = Ok p) /\ ((8 <= i)%nat -> box_corner b i = Throw RuntimeError).
Proof.
  split; intros Hi.
  - do 8 (destruct i as [|i]; [eexists; reflexivity|]). lia.
  - do 8 (destruct i as [|i]; [lia|]). reflexivity.
Qed.

Lemma box_corner_inj (b : box R) i j p :
  vx (b_min b) < vx (b_max b) -> vy (b_min b) < vy (b_max b) -> vz (b_min b) < vz (b_max b) ->
  box_corner b i = Ok p -> box_corner b j = Ok p -> i = j.
Proof.
  intros Hx Hy Hz Hi Hj.
  do 8 (destruct i as [|i]; [
    do 8 (destruct j as [|j]; [
      cbn in Hi, Hj; try reflexivity; exfalso; rewrite <- Hi in Hj; injection Hj; intros; lra|]);
    discriminate|]).
  discriminate.
Qed.

Lemma box_edge_total (b : box R) i :
  ((i < 12)%nat -> exists s, box_edge b i = Ok s) /\ ((12 <= i)%nat -> box_edge b i = Throw RuntimeError).
Proof.
  split; intros Hi.
  - do 12 (destruct i as [|i]; [eexists; reflexivity|]). lia.
  - do 12 (destruct i as [|i]; [lia|]). reflexivity.
Qed.

Lemma box_edge_sound (b : box R) i s : box_edge b i = Ok s ->
  is_corner b (s_src s) /\ is_corner b (s_tgt s) /\ axis_parallel (s_src s) (s_tgt s).
Proof.
  intros E. do 12 (destruct i as [|i]; [cbn in E; injection E as <-; unfold is_corner, axis_parallel; cbn; tauto|]).
  discriminate.
Qed.

(** every pair of distinct corners that differ in one coordinate is joined by an edge *)
Lemma box_edge_complete (b : box R) p q : is_corner b p -> is_corner b q -> axis_parallel p q -> p <> q ->
  exists i s, box_edge b i = Ok s /\ ((s_src s = p /\ s_tgt s = q) \/ (s_src s = q /\ s_tgt s = p)).
Proof.
  destruct b as [[x0 y0 z0] [x1 y1 z1]], p as [px py pz], q as [qx qy qz].
  unfold is_corner, axis_parallel. cbn [vx vy vz b_min b_max].
  intros (Hx & Hy & Hz) (Gx & Gy & Gz) Hax Hne.
  destruct Hax as [[-> ->]|[[-> ->]|[-> ->]]].
  - destruct Hx as [->| ->], Gx as [->| ->]; try (exfalso; apply Hne; reflexivity);
      destruct Hy as [->| ->], Hz as [->| ->];
      first [ exists 0%nat; eexists; split; [reflexivity|cbn; tauto]
            | exists 3%nat; eexists; split; [reflexivity|cbn; tauto]
            | exists 8%nat; eexists; split; [reflexivity|cbn; tauto]
            | exists 11%nat; eexists; split; [reflexivity|cbn; tauto] ].
  - destruct Hy as [->| ->], Gy as [->| ->]; try (exfalso; apply Hne; reflexivity);
      destruct Hx as [->| ->], Hz as [->| ->];
      first [ exists 1%nat; eexists; split; [reflexivity|cbn; tauto]
            | exists 2%nat; eexists; split; [reflexivity|cbn; tauto]
            | exists 9%nat; eexists; split; [reflexivity|cbn; tauto]
            | exists 10%nat; eexists; split; [reflexivity|cbn; tauto] ].
  - destruct Hz as [->| ->], Gz as [->| ->]; try (exfalso; apply Hne; reflexivity);
      destruct Hx as [->| ->], Hy as [->| ->];
      first [ exists 4%nat; eexists; split; [reflexivity|cbn; tauto]
            | exists 5%nat; eexists; split; [reflexivity|cbn; tauto]
            | exists 6%nat; eexists; split; [reflexivity|cbn; tauto]
            | exists 7%nat; eexists; split; [reflexivity|cbn; tauto] ].
Qed.

Lemma box_face_total (b : box R) i :
  ((i < 6)%nat -> exists f, box_face b i = Ok f) /\ ((6 <= i)%nat -> box_face b i = Throw RuntimeError).
Proof.
  split; intros Hi.
  - do 6 (destruct i as [|i]; [eexists; reflexivity|]). lia.
  - do 6 (destruct i as [|i]; [lia|]). reflexivity.
Qed.

Lemma frac_exists a b x : a <= b -> a <= x <= b -> exists s, 0 <= s <= 1 /\ x = a + s * (b - a).
Proof.
  intros Hab Hx. destruct (Req_EM_T a b) as [->|Hne].
  - exists 0. split; [lra|]. lra.
  - exists ((x - a) / (b - a)). split; [|field; lra].
    split; [apply Rmult_le_pos; [lra|]; left; apply Rinv_0_lt_compat; lra|].
    apply (Rmult_le_reg_r (b - a)); [lra|]. unfold Rdiv. rewrite Rmult_assoc, Rinv_l by lra. lra.
Qed.

Lemma box_face_sound (b : box R) i p0 p1 p2 p3 p : box_ok b -> box_face b i = Ok (p0, p1, p2, p3) ->
  p3 = padd p0 (padd (psub p1 p0) (psub p2 p0)) /\
  (on_parallelogram p0 p1 p2 p -> on_bounding_face b p).
Proof.
  intros Hok E.
  do 6 (destruct i as [|i]; [cbn in E; injection E as <- <- <- <-; split;
    [apply v3_eq; unfold padd, psub; cbn [vx vy vz]; ring|];
    intros (s & t & Hs & Ht & ->); unfold on_bounding_face, in_box, box_ok in *;
    destruct b as [[x0 y0 z0] [x1 y1 z1]]; unfold padd, pscale, psub; cbn [vx vy vz b_min b_max] in *;
    split; [repeat split; nra|];
    first [ left; nra | right; left; nra | right; right; left; nra | right; right; right; left; nra
          | right; right; right; right; left; nra | right; right; right; right; right; nra ]|]).
  discriminate.
Qed.

Lemma box_face_complete (b : box R) p : box_ok b -> on_bounding_face b p ->
  exists i p0 p1 p2 p3, box_face b i = Ok (p0, p1, p2, p3) /\ on_parallelogram p0 p1 p2 p.
Proof.
  intros Hok [Hin Hf]. unfold in_box, box_ok in *.
  destruct b as [[x0 y0 z0] [x1 y1 z1]], p as [x y z]. cbn [vx vy vz b_min b_max] in *.
  destruct Hok as (Ox & Oy & Oz), Hin as (Ix & Iy & Iz).
  destruct (frac_exists _ _ _ Ox Ix) as (sx & Rx & Ex).
  destruct (frac_exists _ _ _ Oy Iy) as (sy & Ry & Ey).
  destruct (frac_exists _ _ _ Oz Iz) as (sz & Rz & Ez).
  destruct Hf as [F|[F|[F|[F|[F|F]]]]].
  - exists 2%nat. do 4 eexists. split; [reflexivity|]. exists sy, sz. split; [assumption|]. split; [assumption|].
    apply v3_eq; unfold padd, pscale, psub; cbn [vx vy vz b_min b_max];
      first [rewrite F at 1; ring | rewrite Ex at 1; ring | rewrite Ey at 1; ring | rewrite Ez at 1; ring].
  - exists 3%nat. do 4 eexists. split; [reflexivity|]. exists sy, sz. split; [assumption|]. split; [assumption|].
    apply v3_eq; unfold padd, pscale, psub; cbn [vx vy vz b_min b_max];
      first [rewrite F at 1; ring | rewrite Ex at 1; ring | rewrite Ey at 1; ring | rewrite Ez at 1; ring].
  - exists 1%nat. do 4 eexists. split; [reflexivity|]. exists sx, sz. split; [assumption|]. split; [assumption|].
    apply v3_eq; unfold padd, pscale, psub; cbn [vx vy vz b_min b_max];
      first [rewrite F at 1; ring | rewrite Ex at 1; ring | rewrite Ey at 1; ring | rewrite Ez at 1; ring].
  - exists 4%nat. do 4 eexists. split; [reflexivity|]. exists sx, sz. split; [assumption|]. split; [assumption|].
    apply v3_eq; unfold padd, pscale, psub; cbn [vx vy vz b_min b_max];
      first [rewrite F at 1; ring | rewrite Ex at 1; ring | rewrite Ey at 1; ring | rewrite Ez at 1; ring].
  - exists 0%nat. do 4 eexists. split; [reflexivity|]. exists sx, sy. split; [assumption|]. split; [assumption|].
    apply v3_eq; unfold padd, pscale, psub; cbn [vx vy vz b_min b_max];
      first [rewrite F at 1; ring | rewrite Ex at 1; ring | rewrite Ey at 1; ring | rewrite Ez at 1; ring].
  - exists 5%nat. do 4 eexists. split; [reflexivity|]. exists sx, sy. split; [assumption|]. split; [assumption|].
    apply v3_eq; unfold padd, pscale, psub; cbn [vx vy vz b_min b_max];
      first [rewrite F at 1; ring | rewrite Ex at 1; ring | rewrite Ey at 1; ring | rewrite Ez at 1; ring].
Qed.

Lemma box_center_in (b : box R) : box_ok b -> in_box b (box_center b).
Proof. unfold box_ok, in_box, box_center. rn. cbn. lra. Qed.
Lemma box_center_mid (b : box R) : box_center b = pscale (1 / 2) (padd (b_min b) (b_max b)).
Proof. unfold box_center, pscale, padd. rn. apply v3_eq; cbn [vx vy vz]; lra. Qed.

(** ** the bounding-box check *)
Lemma do_intersect_conj (b1 b2 : box R) eps :
  do_intersect b1 b2 eps = true <->
  intervals_overlap (vx (b_min b1), vx (b_max b1)) (vx (b_min b2), vx (b_max b2)) eps = true /\
  intervals_overlap (vy (b_min b1), vy (b_max b1)) (vy (b_min b2), vy (b_max b2)) eps = true /\
  intervals_overlap (vz (b_min b1), vz (b_max b1)) (vz (b_min b2), vz (b_max b2)) eps = true.
Proof.
  unfold do_intersect.
  destruct (intervals_overlap (vx _, _) _ _), (intervals_overlap (vy _, _) _ _),
    (intervals_overlap (vz _, _) _ _); cbn; intuition congruence.
Qed.

Lemma do_intersect_shared (b1 b2 : box R) eps p : 0 < eps -> in_box b1 p -> in_box b2 p ->
  do_intersect b1 b2 eps = true.
Proof.
  intros He (X1 & Y1 & Z1) (X2 & Y2 & Z2). apply do_intersect_conj.
  repeat split; eapply overlap_near; try eassumption; unfold in_interval; cbn; try eassumption;
    unfold Rminus; rewrite Rplus_opp_r, Rabs_R0; assumption.
Qed.

Lemma do_intersect_far (b1 b2 : box R) eps : box_ok b1 -> box_ok b2 -> 0 <= eps ->
  do_intersect b1 b2 eps = true ->
  exists p q, in_box b1 p /\ in_box b2 q /\
    Rabs (vx p - vx q) <= eps /\ Rabs (vy p - vy q) <= eps /\ Rabs (vz p - vz q) <= eps.
Proof.
  intros (O1 & O2 & O3) (P1 & P2 & P3) He H. apply do_intersect_conj in H.
  assert (forall i1 i2 : R * R, fst i1 <= snd i1 -> fst i2 <= snd i2 -> intervals_overlap i1 i2 eps = true ->
    exists x y, in_interval i1 x /\ in_interval i2 y /\ Rabs (x - y) <= eps) as K.
  { clear - He. intros [a b] [c d]. unfold in_interval, intervals_overlap. rn. intros H1 H2 H.
    assert (a <= d + eps /\ c <= b + eps) as [Ka Kc] by (repeat rcmp_in H; try discriminate; lra).
    destruct (Rle_lt_dec a d) as [?|?].
    - destruct (Rle_lt_dec c b) as [?|?].
      + exists (Rmax a c), (Rmax a c). split; [split; [apply Rmax_l|apply Rmax_lub; lra]|].
        split; [split; [apply Rmax_r|apply Rmax_lub; lra]|].
        unfold Rminus. rewrite Rplus_opp_r, Rabs_R0. assumption.
      + exists b, c. split; [lra|]. split; [lra|]. rewrite Rabs_left by lra. lra.
    - exists a, d. split; [lra|]. split; [lra|]. rewrite Rabs_right by lra. lra. }
  destruct H as (Hx & Hy & Hz).
  destruct (K (vx (b_min b1), vx (b_max b1)) (vx (b_min b2), vx (b_max b2)) O1 P1 Hx) as (x & x' & ? & ? & ?).
  destruct (K (vy (b_min b1), vy (b_max b1)) (vy (b_min b2), vy (b_max b2)) O2 P2 Hy) as (y & y' & ? & ? & ?).
  destruct (K (vz (b_min b1), vz (b_max b1)) (vz (b_min b2), vz (b_max b2)) O3 P3 Hz) as (z & z' & ? & ? & ?).
  exists (mkV3 x y z), (mkV3 x' y' z'). unfold in_box, in_interval in *. cbn in *. tauto.
Qed.

Lemma do_intersect_default_shared (b1 b2 : box R) p : in_box b1 p -> in_box b2 p ->
  do_intersect_default b1 b2 = true.
Proof.
  intros H1 H2. unfold do_intersect_default. rn.
  pose proof (box_eps_nonneg b1) as E1. pose proof (box_eps_nonneg b2) as E2.
  destruct (Rlt_le_dec 0 (box_eps b1 + box_eps b2)) as [Hp|Hz].
  - apply do_intersect_shared with p; auto. lra.
  - assert (box_eps b1 = 0) as Z1 by lra. assert (box_eps b2 = 0) as Z2 by lra.
    rewrite Z1, Z2. apply box_eps_zero in Z1. apply box_eps_zero in Z2.
    unfold in_box in *. rewrite Z1 in *. rewrite Z2 in *.
    unfold do_intersect, intervals_overlap. rn. rewrite Z1, Z2.
    repeat rcmp; cbn [negb]; try reflexivity; exfalso; lra.
Qed.

Lemma box_center_spec (b : box R) :
  box_center b = pscale (1 / 2) (padd (b_min b) (b_max b)) /\ (box_ok b -> in_box b (box_center b)).
Proof. split; [apply box_center_mid|apply box_center_in]. Qed.

Lemma box_volume_edges (b : box R) : box_ok b -> forall ex ey ez : segment R,
  box_edge b 0 = Ok ex -> box_edge b 1 = Ok ey -> box_edge b 4 = Ok ez ->
  box_volume b = dist (s_src ex) (s_tgt ex) * dist (s_src ey) (s_tgt ey) * dist (s_src ez) (s_tgt ez).
Proof.
  intros (Hx & Hy & Hz) ex ey ez Ex Ey Ez. cbn in Ex, Ey, Ez.
  injection Ex as <-. injection Ey as <-. injection Ez as <-. cbn [s_src s_tgt].
  assert (forall a c e x : R, sqrt ((x - x) * (x - x) + (c - c) * (c - c) + (a - e) * (a - e)) = Rabs (a - e)) as K1.
  { intros. replace (_ + _ + _) with ((a - e) * (a - e)) by ring. apply sqrt_Rsqr_abs. }
  unfold dist, norm, dot, psub, box_volume. rn.
  replace ((vx (b_min b) - vx (b_max b)) * (vx (b_min b) - vx (b_max b)) +
    (vy (b_min b) - vy (b_min b)) * (vy (b_min b) - vy (b_min b)) +
    (vz (b_min b) - vz (b_min b)) * (vz (b_min b) - vz (b_min b)))
    with ((vx (b_max b) - vx (b_min b)) * (vx (b_max b) - vx (b_min b))) by ring.
  replace ((vx (b_min b) - vx (b_min b)) * (vx (b_min b) - vx (b_min b)) +
    (vy (b_min b) - vy (b_max b)) * (vy (b_min b) - vy (b_max b)) +
    (vz (b_min b) - vz (b_min b)) * (vz (b_min b) - vz (b_min b)))
    with ((vy (b_max b) - vy (b_min b)) * (vy (b_max b) - vy (b_min b))) by ring.
  replace ((vx (b_min b) - vx (b_min b)) * (vx (b_min b) - vx (b_min b)) +
    (vy (b_min b) - vy (b_min b)) * (vy (b_min b) - vy (b_min b)) +
    (vz (b_min b) - vz (b_max b)) * (vz (b_min b) - vz (b_max b)))
    with ((vz (b_max b) - vz (b_min b)) * (vz (b_max b) - vz (b_min b))) by ring.
  rewrite !sqrt_square by lra. ring.
Qed.

Lemma box_case : exists b, make_box 0 0 0 1 2 3 = Ok b /\ box_ok b /\ box_volume b = 6 /\
  box_contains b (mkV3 1 2 3) (1 / 10) = true /\ box_contains b (mkV3 1 2 4) (1 / 10) = false.
Proof.
  eexists. split; [apply make_box_spec; lra|]. split; [unfold box_ok; cbn; lra|].
  split; [unfold box_volume; rn; cbn; lra|]. split.
  - apply box_contains_iff. unfold in_box_eps. cbn. lra.
  - apply Bool.not_true_iff_false. rewrite box_contains_iff. unfold in_box_eps. cbn. lra.
Qed.
