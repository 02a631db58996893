(** Samplers of points, disks and deprecated quadrilaterals: proofs. *)

From Coq Require Import ZArith Reals Lra Lia Psatz Nsatz Bool List.
From Verif Require Import Base NumModel VecModel LinModel RoundModel PolyModel SampModel
  GeoSpec LinSpec RoundSpec PolySpec SampSpec GeoLemmas MathProofs LinProofs BoxProofs EllProofs ArcProofs CylProofs.
Import ListNotations.
Local Open Scope R_scope.

(** * Points *)
Lemma box_sampler b p : can_sample (sampler_box b) p <-> in_box b p.
Proof.
  unfold can_sample, sampler_box, ps_ranges, ps_point, in_box, in_interval. cbn [fst snd]. split.
  - intros (d1 & d2 & d3 & H1 & H2 & H3 & ->). cbn [vx vy vz]. tauto.
  - intros (H1 & H2 & H3). exists (vx p), (vy p), (vz p). destruct p. cbn in *. repeat split; lra.
Qed.

Lemma polar_of x y : exists t, 0 <= t <= 2 * PI /\ x = sqrt (x * x + y * y) * cos t /\ y = sqrt (x * x + y * y) * sin t.
Proof.
  pose proof PI_RGT_0 as Hpi.
  destruct (Req_dec (x * x + y * y) 0) as [Z|NZ].
  { assert (x = 0) by nra. assert (y = 0) by nra. subst. exists 0. rewrite Z, sqrt_0. split; [lra|]. split; ring. }
  assert (0 < x * x + y * y) as Hp by nra. pose proof (sqrt_lt_R0 _ Hp) as Hs.
  set (r := sqrt (x * x + y * y)) in *.
  assert (r * r = x * x + y * y) as Hr by (unfold r; rewrite sqrt_def; lra).
  assert (-1 <= x / r <= 1) as Hc.
  { assert (- r <= x <= r) by nra. split; [apply Rmult_le_reg_r with r|apply Rmult_le_reg_r with r]; try assumption; field_simplify; lra. }
  assert (sqrt (1 - Rsqr (x / r)) = Rabs y / r) as Es.
  { replace (1 - Rsqr (x / r)) with (Rsqr (Rabs y / r)).
    - apply sqrt_Rsqr. pose proof (Rabs_pos y). apply Rmult_le_pos; [assumption|apply Rlt_le, Rinv_0_lt_compat, Hs].
    - unfold Rsqr. replace (Rabs y / r * (Rabs y / r)) with ((Rabs y * Rabs y) / (r * r)) by (field; lra).
      replace (x / r * (x / r)) with ((x * x) / (r * r)) by (field; lra).
      replace (Rabs y * Rabs y) with (y * y) by (rewrite <- Rabs_mult, Rabs_pos_eq; nra).
      rewrite Hr. field. lra. }
  pose proof (acos_bound (x / r)) as Hb.
  destruct (Rle_lt_dec 0 y) as [Hy|Hy].
  - exists (acos (x / r)). split; [lra|]. rewrite cos_acos by assumption. rewrite sin_acos by assumption.
    rewrite Es, Rabs_pos_eq by assumption. split; field; lra.
  - exists (2 * PI - acos (x / r)). split; [lra|].
    replace (cos (2 * PI - acos (x / r))) with (cos (acos (x / r))).
    2:{ rewrite cos_minus, cos_2PI, sin_2PI. ring. }
    replace (sin (2 * PI - acos (x / r))) with (- sin (acos (x / r))).
    2:{ rewrite sin_minus, cos_2PI, sin_2PI. ring. }
    rewrite cos_acos, sin_acos by assumption. rewrite Es, Rabs_left by assumption. split; field; lra.
Qed.

(** the points of a sampler with the given range of the squared radius *)
Lemma cyl_sampler_points (e : ell R) lo hi h p : ell_ok e -> 0 <= lo -> lo <= hi ->
  can_sample (CylSampler e (lo, hi) (0, 2 * PI) (0, h)) p <->
  hollow_cyl (e_c e) (e_n e) (sqrt lo) (sqrt hi) h p.
Proof.
  intros (Hb & _ & _) Hlo Hhi. pose proof Hb as (Hu & Hv & Hn & Huv & Hun & Hvn & _).
  assert (forall x y, norm (padd (pscale x (e_maj e)) (pscale y (e_min e))) = sqrt (x * x + y * y)) as Hnorm.
  { intros x y. unfold norm. f_equal. unfold unit3, ortho in *.
    destruct (e_maj e) as [u1 u2 u3], (e_min e) as [v1 v2 v3]. coords. nsatz. }
  unfold can_sample, ps_ranges, ps_point, in_interval. cbn [fst snd]. split.
  - intros (d1 & d2 & d3 & H1 & H2 & H3 & ->). rewrite !vadd_padd, !vscale_pscale. rn.
    exists d3, (padd (pscale (sqrt d1 * cos d2) (e_maj e)) (pscale (sqrt d1 * sin d2) (e_min e))).
    split; [assumption|]. split.
    { unfold ortho in *.
      transitivity (sqrt d1 * cos d2 * dot (e_maj e) (e_n e) + sqrt d1 * sin d2 * dot (e_min e) (e_n e));
        [clear; coords; ring|]. rewrite Hun, Hvn. ring. }
    split.
    { rewrite Hnorm.
      replace (sqrt d1 * cos d2 * (sqrt d1 * cos d2) + sqrt d1 * sin d2 * (sqrt d1 * sin d2))
        with (sqrt d1 * sqrt d1 * (Rsqr (sin d2) + Rsqr (cos d2))) by (unfold Rsqr; ring).
      rewrite sin2_cos2, Rmult_1_r, sqrt_def by lra. split; apply sqrt_le_1; lra. }
    destruct (e_c e), (e_maj e), (e_min e), (e_n e). coords. v3; ring.
  - intros (z & w & Hz & Hw & Hr & ->).
    destruct (polar_of (dot w (e_maj e)) (dot w (e_min e))) as (t & Ht & Ex & Ey).
    set (x := dot w (e_maj e)) in *. set (y := dot w (e_min e)) in *.
    assert (w = padd (pscale x (e_maj e)) (pscale y (e_min e))) as Ew.
    { transitivity (padd (padd (pscale (dot w (e_maj e)) (e_maj e)) (pscale (dot w (e_min e)) (e_min e)))
                         (pscale (dot w (e_n e)) (e_n e))); [apply basis_coords; assumption|].
      fold x y. unfold ortho in Hw. rewrite Hw. destruct (e_maj e), (e_min e), (e_n e). coords. v3; ring. }
    assert (norm w = sqrt (x * x + y * y)) as En by (rewrite Ew; apply Hnorm).
    exists (x * x + y * y), t, z. split.
    { rewrite En in Hr. split; apply sqrt_le_0; try lra; nra. }
    split; [assumption|]. split; [assumption|].
    rn. rewrite <- Ex, <- Ey, Ew. clearbody x y. clear. coords. v3; ring.
Qed.

Lemma solid_hollow c n r h p : 0 <= r -> hollow_cyl c n 0 r h p <-> solid_cyl c n r h p.
Proof.
  intros Hr. split; intros (z & w & Hz & Hw & Hd & E); exists z, w; repeat split; try tauto; try lra.
  apply sqrt_pos.
Qed.

Lemma cyl_sampler cy p : ell_ok (c_bot cy) -> can_sample (sampler_cyl cy) p <-> cyl_solid cy p.
Proof.
  intros He. unfold sampler_cyl, cyl_radius. rn. destruct He as (Hb & Ha & Hc).
  rewrite cyl_sampler_points by (try (split; [assumption|split]; assumption); nra).
  rewrite sqrt_0, sqrt_square by lra. apply solid_hollow. lra.
Qed.

Lemma hollow_sampler_full c n ri ro h hc : unit3 n -> 0 < ri -> 0 < h -> make_hollow c n ri ro h = Ok hc ->
  ri <= ro /\ e_a (h_bot hc) = ri /\ h_outer hc = ro /\ h_h hc = h /\
  exists full, hollow_full hc = Ok full /\ ell_ok (c_bot full) /\ e_c (c_bot full) = c /\ e_n (c_bot full) = n /\
    c_h full = h.
Proof.
  intros Hn Hri Hh E. destruct (make_hollow_circles c n ri ro h hc Hn Hri E) as ((C0 & C1 & C2 & C3 & _) & _ & C4 & _).
  assert (ri <= ro /\ h_outer hc = ro /\ h_h hc = h) as (Hro & Eo & Eh).
  { revert E. unfold make_hollow. rn. rcmp; intros E; [discriminate|]. injection E as <-. cbn. repeat split; lra. }
  split; [assumption|]. split; [assumption|]. split; [assumption|]. split; [assumption|].
  unfold hollow_full. rewrite C1, C2, Eo, Eh.
  assert (0 < ro) as Hro' by lra.
  unfold make_cyl_circle. destruct (make_circle_ok c n ro Hn Hro') as (K0 & K1 & K2 & K3 & K4).
  rewrite (make_ell_circle c n ro Hn Hro'). unfold make_cyl_disk.
  rn. rewrite K3, K4, Rminus_diag_eq by reflexivity. rewrite Rabs_R0. rcmp.
  { exfalso. unfold confusion in *. rn. nra. }
  eexists. split; [reflexivity|]. cbn [c_bot c_h]. auto.
Qed.

Lemma hollow_sampler c n ri ro h hc : unit3 n -> 0 < ri -> 0 < h -> make_hollow c n ri ro h = Ok hc ->
  exists s, sampler_hollow hc = Ok s /\ forall p, can_sample s p <-> hollow_cyl c n ri ro h p.
Proof.
  intros Hn Hri Hh E. destruct (hollow_sampler_full c n ri ro h hc Hn Hri Hh E) as (Hro & Ea & Eo & Eh & full & Ef & Hok & Ec & En & Eh').
  unfold sampler_hollow, hollow_inner. rewrite Ef, Ea, Eo. cbn [obind]. eexists. split; [reflexivity|].
  intros p. rewrite Eh'. rn. rewrite cyl_sampler_points by (try assumption; nra).
  rewrite !sqrt_square, Ec, En by lra. reflexivity.
Qed.

Lemma py_cyl_sampler cy p : ell_ok (c_bot cy) ->
  can_sample (py_sampler_cyl cy) p <-> solid_cyl (e_c (c_bot cy)) (e_n (c_bot cy)) (sqrt (cyl_radius cy)) (c_h cy) p.
Proof.
  intros He. unfold py_sampler_cyl, cyl_radius. rn. destruct He as (Hb & Ha & Hc).
  rewrite cyl_sampler_points by (try (split; [assumption|split]; assumption); nra).
  rewrite sqrt_0. apply solid_hollow. apply sqrt_pos.
Qed.

Lemma py_hollow_sampler c n ri ro h hc : unit3 n -> 0 < ri -> 0 < h -> make_hollow c n ri ro h = Ok hc ->
  exists s, py_sampler_hollow hc = Ok s /\ forall p, can_sample s p <-> hollow_cyl c n (sqrt ri) (sqrt ro) h p.
Proof.
  intros Hn Hri Hh E. destruct (hollow_sampler_full c n ri ro h hc Hn Hri Hh E) as (Hro & Ea & Eo & Eh & full & Ef & Hok & Ec & En & Eh').
  unfold py_sampler_hollow, hollow_inner. rewrite Ef, Ea, Eo, Eh. cbn [obind]. eexists. split; [reflexivity|].
  intros p. rn. rewrite cyl_sampler_points by (try assumption; nra). rewrite Ec, En. reflexivity.
Qed.

(** a point of the cylinder at a given distance from the axis *)
Lemma at_radius (e : ell R) h r : ell_ok e -> 0 < h -> 0 <= r ->
  exists p, forall P, cyl_set (e_c e) (e_n e) h P p <-> P r.
Proof.
  intros (Hb & _ & _) Hh Hr. pose proof Hb as (Hu & _ & Hn & _ & Hun & _).
  exists (padd (e_c e) (pscale r (e_maj e))). intros P.
  assert (ortho (pscale r (e_maj e)) (e_n e)) as Ho.
  { unfold ortho in *. transitivity (r * dot (e_maj e) (e_n e)); [clear; coords; ring|]. rewrite Hun. ring. }
  assert (norm (pscale r (e_maj e)) = r) as Enr.
  { rewrite scale_norm by assumption. rewrite (norm_unit (e_maj e)) by assumption. ring. }
  split.
  - intros (z & w & Hz & Hw & HP & E).
    assert (w = pscale r (e_maj e)) as ->; [|rewrite Enr in HP; exact HP].
    assert (psub (pscale r (e_maj e)) w = pscale z (e_n e)) as E2.
    { assert (psub (padd (e_c e) (pscale r (e_maj e))) (e_c e) = psub (padd (e_c e) (padd (pscale z (e_n e)) w)) (e_c e)) as E3
        by (rewrite E; reflexivity). clear - E3. destruct (e_c e), (e_maj e), (e_n e), w. coords.
      injection E3 as E4 E5 E6. v3; lra. }
    assert (z = 0) as ->.
    { assert (dot (pscale z (e_n e)) (e_n e) = 0) as D.
      { rewrite <- E2. unfold ortho in *.
        transitivity (dot (pscale r (e_maj e)) (e_n e) - dot w (e_n e)); [clear; coords; ring|]. rewrite Ho, Hw. ring. }
      unfold unit3 in Hn. transitivity (z * dot (e_n e) (e_n e)); [rewrite Hn; ring|]. rewrite <- D. clear. coords. ring. }
    clear - E2. destruct (e_maj e), (e_n e), w. coords. injection E2 as E4 E5 E6. v3; lra.
  - intros HP. exists 0, (pscale r (e_maj e)). split; [lra|]. split; [assumption|]. split; [rewrite Enr; assumption|].
    clear. coords. v3; ring.
Qed.

Lemma sqrt_small r : 0 < r < 1 -> r < sqrt r.
Proof.
  intros H. rewrite <- (sqrt_square r) at 1 by lra. apply sqrt_lt_1; nra.
Qed.
Lemma sqrt_large r : 1 < r -> sqrt r < r.
Proof.
  intros H. rewrite <- (sqrt_square r) at 2 by lra. apply sqrt_lt_1; nra.
Qed.

Lemma py_cyl_wrong cy : ell_ok (c_bot cy) -> 0 < c_h cy ->
  (cyl_radius cy < 1 -> exists p, can_sample (py_sampler_cyl cy) p /\ ~ cyl_solid cy p) /\
  (1 < cyl_radius cy -> exists p, cyl_solid cy p /\ ~ can_sample (py_sampler_cyl cy) p).
Proof.
  intros He Hh. pose proof He as (_ & Ha & _). unfold cyl_solid, cyl_radius. split; intros Hr.
  - destruct (at_radius (c_bot cy) (c_h cy) (sqrt (e_a (c_bot cy))) He Hh (sqrt_pos _)) as (p & Hp).
    exists p. rewrite py_cyl_sampler by assumption. unfold solid_cyl, cyl_radius. rewrite !Hp.
    pose proof (sqrt_small (e_a (c_bot cy))). lra.
  - destruct (at_radius (c_bot cy) (c_h cy) (e_a (c_bot cy)) He Hh ltac:(lra)) as (p & Hp).
    exists p. rewrite py_cyl_sampler by assumption. unfold solid_cyl, cyl_radius. rewrite !Hp.
    pose proof (sqrt_large (e_a (c_bot cy))). lra.
Qed.

Lemma cyl_set_disjoint (c n : pt) h P Q p : unit3 n -> cyl_set c n h P p -> cyl_set c n h Q p ->
  exists d, P d /\ Q d.
Proof.
  intros Hn (z & w & Hz & Hw & HP & E) (z' & w' & Hz' & Hw' & HQ & E'). rewrite E in E'.
  assert (pscale (z - z') n = psub w' w) as D.
  { clear - E'. destruct c, n, w, w'. coords. injection E' as A1 A2 A3. v3; lra. }
  assert (z - z' = 0) as Z.
  { unfold unit3, ortho in *. transitivity (dot (pscale (z - z') n) n); [transitivity ((z - z') * dot n n); [rewrite Hn; ring|clear; coords; ring]|].
    rewrite D. transitivity (dot w' n - dot w n); [clear; coords; ring|]. rewrite Hw, Hw'. ring. }
  rewrite Z in D. assert (w' = w) as ->. { clear - D. destruct n, w, w'. coords. injection D as A1 A2 A3. v3; lra. }
  exists (norm w). split; assumption.
Qed.

(** if the square root of the outer radius is below the inner radius, no point is inside *)
Lemma py_hollow_wrong c n ri ro h hc : unit3 n -> 0 < ri -> 0 < h -> make_hollow c n ri ro h = Ok hc ->
  sqrt ro < ri -> exists s, py_sampler_hollow hc = Ok s /\ forall p, can_sample s p -> ~ hollow_cyl c n ri ro h p.
Proof.
  intros Hn Hri Hh E Hs. destruct (py_hollow_sampler c n ri ro h hc Hn Hri Hh E) as (s & Es & Hc).
  exists s. split; [assumption|]. intros p H1 H2. apply Hc in H1.
  destruct (cyl_set_disjoint _ _ _ _ _ _ Hn H1 H2) as (d & D1 & D2). lra.
Qed.

(** * Repeated draws *)
Lemma draw_until_ok {B} (ok : B -> bool) s fuel : forall i v k, draw_until ok s i fuel = Ok (v, k) ->
  exists j, (i <= j < i + fuel)%nat /\ k = S j /\ s j = v /\ ok v = true /\ forall m, (i <= m < j)%nat -> ok (s m) = false.
Proof.
  induction fuel as [|f IH]; intros i v k E; cbn in E; [discriminate|].
  destruct (ok (s i)) eqn:O.
  - injection E as <- <-. exists i. repeat split; auto; lia.
  - destruct (IH _ _ _ E) as (j & Hj & Hk & Hv & Ho & Hm). exists j. repeat split; auto; try lia.
    intros m Hm'. destruct (Nat.eq_dec m i) as [->|]; [assumption|]. apply Hm. lia.
Qed.

Lemma draw_until_first {B} (ok : B -> bool) s : forall d i fuel, (d < fuel)%nat -> ok (s (i + d)%nat) = true ->
  (forall m, (i <= m < i + d)%nat -> ok (s m) = false) -> draw_until ok s i fuel = Ok (s (i + d)%nat, S (i + d)).
Proof.
  induction d as [|d IH]; intros i fuel Hf Ho Hm; (destruct fuel as [|f]; [lia|]); cbn.
  - rewrite Nat.add_0_r in *. rewrite Ho. reflexivity.
  - rewrite Hm by lia. rewrite IH.
    + replace (S i + d)%nat with (i + S d)%nat by lia. reflexivity.
    + lia.
    + replace (S i + d)%nat with (i + S d)%nat by lia. assumption.
    + intros m Hm'. apply Hm. lia.
Qed.

Lemma draw_until_never {B} (ok : B -> bool) s fuel : forall i, (forall m, ok (s m) = false) -> draw_until ok s i fuel = Diverge.
Proof. induction fuel as [|f IH]; intros i Hm; cbn; [reflexivity|]. rewrite Hm. apply IH, Hm. Qed.

Lemma draw_until_cases {B} (ok : B -> bool) s fuel : forall i,
  (exists v k, draw_until ok s i fuel = Ok (v, k)) \/ draw_until ok s i fuel = Diverge.
Proof.
  induction fuel as [|f IH]; intros i; cbn; [right; reflexivity|].
  destruct (ok (s i)); [left; eauto|apply IH].
Qed.

Lemma first_exists (P : nat -> bool) n : P n = true -> exists i, (i <= n)%nat /\ P i = true /\ forall j, (j < i)%nat -> P j = false.
Proof.
  induction n as [n IH] using lt_wf_ind. intros Hn.
  destruct (existsb P (seq 0 n)) eqn:E.
  - apply existsb_exists in E. destruct E as (m & Hm & Pm). apply in_seq in Hm.
    destruct (IH m ltac:(lia) Pm) as (i & Hi & Pi & Hj). exists i. split; [lia|]. auto.
  - exists n. split; [lia|]. split; [assumption|]. intros j Hj. destruct (P j) eqn:Pj; [|reflexivity].
    rewrite <- E. symmetry. apply existsb_exists. exists j. split; [apply in_seq; lia|assumption].
Qed.

(** * Disks *)
Definition posb (a : R) : bool := negb (Rleb a 0).
Lemma posb_spec a : posb a = true <-> 0 < a.
Proof. unfold posb. destruct (Rleb_spec a 0); cbn; split; intros; try discriminate; try lra; reflexivity. Qed.
Lemma posb_false a : posb a = false <-> ~ 0 < a.
Proof. rewrite <- posb_spec. destruct (posb a); split; intros; try discriminate; auto. contradict H. reflexivity. Qed.

(** the axes after the rotations *)
Definition disk_x (beta gamma : R) : pt := turn_z gamma (turn_y beta (mkV3 1 0 0)).
Definition disk_y (alpha beta gamma : R) : pt := turn_z gamma (turn_y beta (turn_x alpha (mkV3 0 1 0))).

Lemma rotate_x (v : pt) t : rotate v (mkV3 1 0 0) t = turn_x t v.
Proof. rewrite rotate_rodrigues. unfold turn_x. coords. v3; ring. Qed.
Lemma rotate_y (v : pt) t : rotate v (mkV3 0 1 0) t = turn_y t v.
Proof. rewrite rotate_rodrigues. unfold turn_y. coords. v3; ring. Qed.
Lemma rotate_z (v : pt) t : rotate v (mkV3 0 0 1) t = turn_z t v.
Proof. rewrite rotate_rodrigues. unfold turn_z. coords. v3; ring. Qed.

Lemma turn_dots a b g : unit3 (disk_x b g) /\ unit3 (disk_y a b g) /\ ortho (disk_x b g) (disk_y a b g).
Proof.
  unfold unit3, ortho, disk_x, disk_y, turn_x, turn_y, turn_z. coords.
  pose proof (sc1 a) as Ha. pose proof (sc1 b) as Hb. pose proof (sc1 g) as Hg.
  set (ca := cos a) in *. set (sa := sin a) in *. set (cb := cos b) in *. set (sb := sin b) in *.
  set (cg := cos g) in *. set (sg := sin g) in *. clearbody ca sa cb sb cg sg.
  repeat split; nsatz.
Qed.

Lemma sample_disk_eq maj mnr alpha beta gamma c fuel :
  sample_disk maj mnr alpha beta gamma c fuel =
  obind (draw_until posb maj 0 fuel) (fun am => obind (draw_until posb mnr 0 fuel) (fun bm =>
    Ok (make_ell c (disk_x beta gamma) (disk_y alpha beta gamma) (fst am) (Rmin (fst am) (fst bm))))).
Proof.
  unfold sample_disk. rn. fold posb. change (fun a : R => negb (Rleb a 0)) with posb.
  destruct (draw_until posb maj 0 fuel) as [[a k]| | |]; cbn [obind]; try reflexivity.
  destruct (draw_until posb mnr 0 fuel) as [[b l]| | |]; cbn [obind fst]; try reflexivity.
  rewrite (to_dir_x : to_dir (mkV3 1 0 0) = _), (to_dir_y : to_dir (mkV3 0 1 0) = _), (to_dir_z : to_dir (mkV3 0 0 1) = _).
  rewrite !rotate_x, !rotate_y, !rotate_z. fold (disk_x beta gamma). fold (disk_y alpha beta gamma).
  destruct (turn_dots alpha beta gamma) as (Hx & Hy & _).
  rewrite (to_dir_of_unit _ Hx), (to_dir_of_unit _ Hy). do 2 f_equal.
  unfold Rmin. rcmp; destruct (Rle_dec a b); try reflexivity; lra.
Qed.

Lemma disk_valid maj mnr alpha beta gamma c fuel e : sample_disk maj mnr alpha beta gamma c fuel = Ok e ->
  ell_ok e /\ e_b e <= e_a e /\ e_c e = c /\
  first_draw (fun a => 0 < a) maj (e_a e) /\
  (exists b, first_draw (fun b => 0 < b) mnr b /\ e_b e = Rmin (e_a e) b) /\
  e_maj e = turn_z gamma (turn_y beta (mkV3 1 0 0)) /\
  e_min e = turn_z gamma (turn_y beta (turn_x alpha (mkV3 0 1 0))).
Proof.
  rewrite sample_disk_eq. destruct (draw_until posb maj 0 fuel) as [[a k]| | |] eqn:Ea; cbn [obind]; try discriminate.
  destruct (draw_until posb mnr 0 fuel) as [[b l]| | |] eqn:Eb; cbn [obind fst]; try discriminate.
  intros E. injection E as <-.
  apply draw_until_ok in Ea. destruct Ea as (i & _ & _ & Ai & Ap & Am).
  apply draw_until_ok in Eb. destruct Eb as (j & _ & _ & Bj & Bp & Bm).
  apply posb_spec in Ap. apply posb_spec in Bp.
  destruct (turn_dots alpha beta gamma) as (Hx & Hy & Ho).
  split; [apply make_ell_ok; try assumption; apply Rmin_glb_lt; assumption|].
  cbn [make_ell e_a e_b e_c e_maj e_min].
  split; [apply Rmin_l|]. split; [reflexivity|]. split.
  { exists i. split; [assumption|]. split; [assumption|]. intros m Hm. apply posb_false, Am. lia. }
  split; [|split; reflexivity]. exists b. split; [|reflexivity].
  exists j. split; [assumption|]. split; [assumption|]. intros m Hm. apply posb_false, Bm. lia.
Qed.

Lemma disk_returns maj mnr alpha beta gamma c : (exists i, 0 < maj i) -> (exists j, 0 < mnr j) ->
  exists fuel0 e, forall fuel, (fuel0 <= fuel)%nat -> sample_disk maj mnr alpha beta gamma c fuel = Ok e.
Proof.
  intros (i & Hi) (j & Hj).
  destruct (first_exists (fun k => posb (maj k)) i) as (i0 & _ & Pi & Mi); [apply posb_spec, Hi|].
  destruct (first_exists (fun k => posb (mnr k)) j) as (j0 & _ & Pj & Mj); [apply posb_spec, Hj|].
  exists (S (i0 + j0)). eexists. intros fuel Hf. rewrite sample_disk_eq.
  rewrite (draw_until_first posb maj i0) by (cbn; try assumption; try lia; intros m Hm; apply Mi; lia). cbn [obind fst].
  rewrite (draw_until_first posb mnr j0) by (cbn; try assumption; try lia; intros m Hm; apply Mj; lia). cbn [obind fst].
  reflexivity.
Qed.

Lemma disk_hangs maj mnr alpha beta gamma c fuel : (forall i, maj i <= 0) \/ (forall i, mnr i <= 0) ->
  sample_disk maj mnr alpha beta gamma c fuel = Diverge.
Proof.
  intros H. rewrite sample_disk_eq.
  assert (forall s : draws R, (forall i, s i <= 0) -> draw_until posb s 0 fuel = Diverge) as D.
  { intros s Hs. apply draw_until_never. intros m. apply posb_false. pose proof (Hs m). lra. }
  destruct H as [H|H]; [rewrite (D _ H); reflexivity|].
  destruct (draw_until_cases posb maj fuel 0) as [(v & k & E)|E]; rewrite E; cbn [obind]; [|reflexivity].
  rewrite (D _ H). reflexivity.
Qed.

(** * The deprecated quadrilateral sampler *)
Lemma old_quad_iff strike dip c edge min :
  (exists q, sample_old_quad strike dip c edge min = Ok q) <-> forall i, (i < 4)%nat -> min <= edge i.
Proof.
  unfold sample_old_quad, edge_length. rn. split.
  - intros (q & E) i Hi.
    destruct (Rltb_spec (edge 0%nat) min); cbn [obind] in E; [discriminate|].
    destruct (Rltb_spec (edge 1%nat) min); cbn [obind] in E; [discriminate|].
    destruct (Rltb_spec (edge 2%nat) min); cbn [obind] in E; [discriminate|].
    destruct (Rltb_spec (edge 3%nat) min); cbn [obind] in E; [discriminate|].
    destruct i as [|[|[|[|i]]]]; lra || lia.
  - intros Hm. pose proof (Hm 0%nat ltac:(lia)). pose proof (Hm 1%nat ltac:(lia)). pose proof (Hm 2%nat ltac:(lia)).
    pose proof (Hm 3%nat ltac:(lia)).
    repeat (rcmp; [lra|]; cbn [obind]). eexists. reflexivity.
Qed.

Lemma old_quad_hangs strike dip c edge min i : (i < 4)%nat -> edge i < min ->
  sample_old_quad strike dip c edge min = Diverge.
Proof.
  intros Hi Hm. unfold sample_old_quad, edge_length. rn.
  repeat (rcmp; cbn [obind]; [reflexivity|]). destruct i as [|[|[|[|i]]]]; lra || lia.
Qed.

Lemma axes_strike_dip s d :
  let y := rotate (mkV3 0 1 0) (mkV3 0 0 1) s : pt in
  y = strike_dir s /\ rotate (rotate (mkV3 1 0 0) (mkV3 0 0 1) s) (to_dir y) d = dip_dir s d.
Proof.
  cbn zeta. assert (rotate (mkV3 0 1 0) (mkV3 0 0 1) s = strike_dir s :> pt) as E.
  { rewrite rotate_z. unfold turn_z, strike_dir. v3; ring. }
  split; [assumption|]. rewrite E.
  assert (unit3 (strike_dir s)) as Hu. { unfold unit3, strike_dir. coords. pose proof (sc1 s). lra. }
  rewrite (to_dir_of_unit _ Hu), rotate_z, rotate_rodrigues. unfold turn_z, strike_dir, dip_dir. coords.
  pose proof (sc1 s) as Hs. v3; try ring.
  set (cs := cos s) in *. set (ss := sin s) in *. set (cd := cos d) in *. set (sd := sin d) in *. clearbody cs ss cd sd. nsatz.
Qed.

(** the corners of the quadrilateral *)
Lemma strike_dip_corners s d c dx1 dx2 dy1 dy2 : let q := strike_dip_quad s d c dx1 dx2 dy1 dy2 in
  q_0 q = padd c (in_plane s d (- dx1 / 2) (- dy1 / 2)) /\ q_1 q = padd c (in_plane s d (dx2 / 2) (- dy2 / 2)) /\
  q_2 q = padd c (in_plane s d (- dx1 / 2) (dy1 / 2)) /\ q_3 q = padd c (in_plane s d (dx2 / 2) (dy2 / 2)).
Proof.
  cbn zeta. destruct (axes_strike_dip s d) as [Ey Ex]. unfold strike_dip_quad. rn.
  change (nlit 0 1) with 0. change (nlit 1 1) with 1.
  rewrite (to_dir_z : to_dir (mkV3 0 0 1) = _). rewrite Ex, Ey.
  unfold make_quad. cbn [q_0 q_1 q_2 q_3]. unfold in_plane.
  generalize (dip_dir s d) (strike_dir s). intros x y. clear.
  coords. repeat split; v3; field.
Qed.

Lemma old_quad_corners s d c edge min q : sample_old_quad s d c edge min = Ok q ->
  q = strike_dip_quad s d c (edge 0%nat) (edge 1%nat) (edge 2%nat) (edge 3%nat).
Proof.
  unfold sample_old_quad, edge_length. rn.
  repeat (rcmp; cbn [obind]; [discriminate|]). intros E. injection E as <-. reflexivity.
Qed.

Lemma py_edge_ok min edge v i fuel l k : py_edge_length min edge v i fuel = Ok (l, k) -> min <= l.
Proof.
  unfold py_edge_length. rn. rcmp.
  - intros E. apply draw_until_ok in E. destruct E as (j & _ & _ & _ & E & _). revert E. rcmp; cbn; [discriminate|]. lra.
  - intros E. injection E as <- <-. lra.
Qed.

Lemma py_old_quad_valid s d c edge min fuel q : py_old_quad s d c edge min fuel = Ok q ->
  exists dx1 dx2 dy1 dy2, min <= dx1 /\ min <= dx2 /\ min <= dy1 /\ min <= dy2 /\
    q = strike_dip_quad s d c dx1 dx2 dy1 dy2.
Proof.
  unfold py_old_quad.
  destruct (py_edge_length min edge (edge 0%nat) 4 fuel) as [[x1 k1]| | |] eqn:E1; cbn [obind snd fst]; try discriminate.
  destruct (py_edge_length min edge (edge 1%nat) k1 fuel) as [[x2 k2]| | |] eqn:E2; cbn [obind snd fst]; try discriminate.
  destruct (py_edge_length min edge (edge 2%nat) k2 fuel) as [[x3 k3]| | |] eqn:E3; cbn [obind snd fst]; try discriminate.
  destruct (py_edge_length min edge (edge 3%nat) k3 fuel) as [[x4 k4]| | |] eqn:E4; cbn [obind snd fst]; try discriminate.
  intros E. injection E as <-. exists x1, x2, x3, x4.
  apply py_edge_ok in E1, E2, E3, E4. auto.
Qed.

(** enough admissible lengths among the draws *)
Lemma py_edge_returns min edge v i : (exists j, (i <= j)%nat /\ min <= edge j) ->
  exists fuel0 l k, forall fuel, (fuel0 <= fuel)%nat -> py_edge_length min edge v i fuel = Ok (l, k).
Proof.
  intros (j & Hj & Hm). unfold py_edge_length. rn. destruct (Rltb_spec v min) as [C|C].
  2:{ exists 0%nat, v, i. reflexivity. }
  destruct (first_exists (fun k => negb (Rltb (edge (i + k)%nat) min)) (j - i)) as (k & _ & Pk & Mk).
  { replace (i + (j - i))%nat with j by lia. rcmp; cbn; [lra|reflexivity]. }
  exists (S k). do 2 eexists. intros fuel Hf.
  rewrite (draw_until_first _ edge k); [reflexivity|lia|assumption|].
  intros m Hm'. replace m with (i + (m - i))%nat by lia. apply Mk. lia.
Qed.

Lemma py_old_quad_returns s d c edge min : (forall n, exists j, (n <= j)%nat /\ min <= edge j) ->
  exists fuel0 q, forall fuel, (fuel0 <= fuel)%nat -> py_old_quad s d c edge min fuel = Ok q.
Proof.
  intros Hinf.
  destruct (py_edge_returns min edge (edge 0%nat) 4 (Hinf 4%nat)) as (f1 & x1 & k1 & H1).
  destruct (py_edge_returns min edge (edge 1%nat) k1 (Hinf k1)) as (f2 & x2 & k2 & H2).
  destruct (py_edge_returns min edge (edge 2%nat) k2 (Hinf k2)) as (f3 & x3 & k3 & H3).
  destruct (py_edge_returns min edge (edge 3%nat) k3 (Hinf k3)) as (f4 & x4 & k4 & H4).
  exists (f1 + f2 + f3 + f4)%nat. eexists. intros fuel Hf. unfold py_old_quad.
  rewrite H1 by lia. cbn [obind fst snd]. rewrite H2 by lia. cbn [obind fst snd]. rewrite H3 by lia. cbn [obind fst snd].
  rewrite H4 by lia. cbn [obind fst snd]. reflexivity.
Qed.
