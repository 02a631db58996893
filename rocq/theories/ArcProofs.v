(** Circles and ellipse arcs: proofs. *)

From Coq Require Import Reals Lra Psatz Nsatz Bool List.
From Verif Require Import Base NumModel VecModel LinModel RoundModel GeoSpec LinSpec RoundSpec
  GeoLemmas MathProofs LinProofs EllProofs.
Local Open Scope R_scope.

(** * Circles *)
Lemma norm_opp (u : pt) : norm (pscale (-1) u) = norm u.
Proof. unfold norm. f_equal. coords. ring. Qed.

Lemma circle_contains_char (c n : pt) r p eps : unit3 n -> 
  (circle_contains (make_circle c n r) p eps = true <->
   Rabs (dot (psub p c) n) < eps /\ Rabs (dist p c - r) < eps).
Proof.
  intros Hn. unfold circle_contains.
  pose proof (ell_plane_contains (make_circle c n r) p eps) as Hp.
  destruct (make_circle_basis c n r Hn) as [_ En]. rewrite En in Hp.
  change (e_c (make_circle c n r)) with c in *. change (e_a (make_circle c n r)) with r.
  rewrite vlen_norm, vec_to_psub. change (norm (psub c p)) with (dist c p). rewrite dist_sym.
  destruct (plane_contains _ p eps); cbn [negb]; rn.
  - rewrite Rltb_true. intuition.
  - split; [discriminate|]. intros [C _]. apply Hp in C. discriminate.
Qed.

Lemma circle_contains_all (c n : pt) r p : unit3 n ->
  (forall eps, 0 < eps -> circle_contains (make_circle c n r) p eps = true) <-> on_circle c n r p.
Proof.
  intros Hn. unfold on_circle, ortho. split.
  - intros H. split; [apply Rminus_diag_uniq|]; apply small_abs_zero; intros eps He;
      apply (circle_contains_char c n r p eps Hn), H, He.
  - intros [H1 H2] eps He. apply circle_contains_char; [exact Hn|]. rewrite H1, H2.
    replace (r - r) with 0 by ring. rewrite Rabs_R0. auto.
Qed.

Lemma circle_ellipse (c n : pt) r p : unit3 n -> 0 < r ->
  (on_ellipse (make_circle c n r) p <-> on_circle c n r p).
Proof.
  intros Hn Hr. destruct (make_circle_ok c n r Hn Hr) as (Hok & Ec & En & Ea & Eb).
  rewrite (on_ellipse_char _ Hok). unfold quad_form. rewrite Ec, En, Ea, Eb.
  pose proof (basis_coords _ _ _ (psub p c) (proj1 Hok)) as E. rewrite En in E.
  destruct Hok as [(Hu & Hv & Hn' & Huv & Hun & Hvn & Hd) _]. rewrite En in *.
  set (u := e_maj _) in *. set (v := e_min _) in *.
  set (x := dot (psub p c) u) in *. set (y := dot (psub p c) v) in *. set (z := dot (psub p c) n) in *.
  assert (dist p c * dist p c = x * x + y * y + z * z) as ED.
  { unfold dist. rewrite norm_sq. rewrite E at 1 2. 
    transitivity (x * x * dot u u + y * y * dot v v + z * z * dot n n + 2 * x * y * dot u v + 2 * x * z * dot u n + 2 * y * z * dot v n).
    - clearbody x y z u v. coords. ring.
    - unfold unit3, ortho in *. rewrite Hu, Hv, Hn, Huv, Hun, Hvn. ring. }
  unfold on_circle, ortho. fold z. pose proof (dist_nonneg p c).
  split.
  - intros [Hz Hq]. split; [|exact Hz].
    assert (x * x + y * y = r * r) as Hxy.
    { replace (x * x + y * y) with (r * r * ((x / r) ^ 2 + (y / r) ^ 2)) by (field; lra). rewrite Hq. ring. }
    rewrite Hz in ED. nra.
  - intros [Hd' Hz]. split; [exact Hz|]. rewrite Hd', Hz in ED.
    replace ((x / r) ^ 2 + (y / r) ^ 2) with ((x * x + y * y) / (r * r)) by (field; lra).
    replace (x * x + y * y) with (r * r) by lra. field. lra.
Qed.

Lemma circle_points (c n : pt) r : unit3 n -> 0 < r ->
  forall t eps, 0 < eps ->
  on_circle c n r (ell_point (make_circle c n r) t) /\ on_circle c n r (ell_angle_point (make_circle c n r) t) /\
  circle_contains (make_circle c n r) (ell_point (make_circle c n r) t) eps = true /\
  circle_contains (make_circle c n r) (ell_angle_point (make_circle c n r) t) eps = true.
Proof.
  intros Hn Hr t eps He.
  assert (forall phi, on_circle c n r (ell_angle_point (make_circle c n r) phi)) as H.
  { intros phi. apply circle_ellipse; auto. exists phi. apply ell_angle_point_eq. }
  assert (forall phi, circle_contains (make_circle c n r) (ell_angle_point (make_circle c n r) phi) eps = true) as H2.
  { intros phi. apply (circle_contains_all c n r _ Hn); auto. }
  unfold ell_point. auto.
Qed.

(** * Arcs *)
Section Arc.
Variable e : ell R.
Hypothesis Hok : ell_ok e.

Lemma twopi_lit : (nlit 2 1 * npi)%num = 2 * PI.
Proof. reflexivity. Qed.

Lemma angular_eq : @angular R _ = 1 / 10 ^ 10.
Proof. unfold angular. rn. field. Qed.

Lemma make_arc_inv src tgt c : make_arc e src tgt = Ok c ->
  a_ell c = e /\ a_src c = src /\ a_tgt c = tgt /\
  (a_full c = true <-> dist src tgt < e_a e * (1 / 10 ^ 7)) /\
  ell_get_angle e src true = Ok (a_s c) /\
  (a_full c = false -> ell_get_angle e tgt true = Ok (a_t c)) /\
  (a_full c = true -> a_t c = (if Rlt_dec (a_s c) (1 / 10 ^ 10) then 2 * PI else a_s c)).
Proof.
  intros H. unfold make_arc in H. rewrite kk_eq in H.
  pose proof (ea e Hok) as Ha. pose proof kk_pos as Hk.
  assert (0 <= e_a e * kk) as H0 by nra. pose proof (pt_eq_spec src tgt _ H0) as Hp. rn. fold kk.
  destruct (pt_eq src tgt (e_a e * kk)).
  - destruct (ell_get_angle e src true) as [s| | |] eqn:Es; try discriminate. cbn [obind] in H. injection H as <-.
    cbn [a_ell a_src a_tgt a_full a_s a_t]. repeat split; auto; try discriminate.
    + intros _. apply Hp. reflexivity.
    + intros _. pose proof angular_eq as AE. rn.
      replace (1 / 1000000000000 * 100) with (1 / 10 ^ 10) by field. unfold Rltb. destruct (Rlt_dec s (1 / 10 ^ 10)); reflexivity.
  - destruct (ell_get_angle e src true) as [s| | |] eqn:Es; try discriminate. cbn [obind] in H.
    destruct (ell_get_angle e tgt true) as [t| | |] eqn:Et; try discriminate. cbn [obind] in H. injection H as <-.
    cbn [a_ell a_src a_tgt a_full a_s a_t]. repeat split; auto; try discriminate. intros C. apply Hp in C. discriminate.
Qed.

Lemma get_angle_on p phi : on_ellipse e p -> ell_get_angle e p true = Ok phi ->
  0 <= phi < 2 * PI /\ snap phi = phi /\ exists psi, 0 <= psi < 2 * PI /\ p = ell_at e psi /\ phi = snap psi.
Proof.
  intros Hp E. split; [eapply get_angle_range; eauto|].
  destruct (on_ellipse_range e Hok p Hp) as (psi & Hr & ->). rewrite (get_angle_at e Hok) in E by exact Hr.
  injection E as <-. split; [apply snap_unsnapped; exact Hr|]. exists psi. auto.
Qed.

Lemma get_angle_ok p : on_ellipse e p -> exists phi, ell_get_angle e p true = Ok phi.
Proof.
  intros Hp. destruct (on_ellipse_range e Hok p Hp) as (psi & Hr & ->). rewrite (get_angle_at e Hok) by exact Hr. eauto.
Qed.

Lemma make_arc_ok src tgt : on_ellipse e src -> on_ellipse e tgt -> exists c, make_arc e src tgt = Ok c.
Proof.
  intros Hs Ht. destruct (get_angle_ok _ Hs) as [s Es]. destruct (get_angle_ok _ Ht) as [t Et].
  unfold make_arc. rewrite Es, Et. destruct (pt_eq _ _ _); cbn; eauto.
Qed.

Lemma arc_contains_at c phi eps chk : a_ell c = e -> 0 < eps -> 0 <= phi < 2 * PI ->
  arc_contains c (ell_at e phi) eps chk =
  Ok (if Rltb (a_t c) (a_s c) then Rleb (a_s c - eps) (snap phi) || Rleb (snap phi) (a_t c + eps)
      else Rleb (a_s c - eps) (snap phi) && Rleb (snap phi) (a_t c + eps)).
Proof.
  intros Ec He Hr. unfold arc_contains. rewrite Ec.
  rewrite (on_ellipse_contains e Hok) by (auto; exists phi; reflexivity).
  rewrite andb_false_r. rewrite (get_angle_at e Hok) by exact Hr. reflexivity.
Qed.

Lemma arc_points src tgt c tau eps chk :
  on_ellipse e src -> on_ellipse e tgt -> make_arc e src tgt = Ok c ->
  a_full c = false -> a_s c <> a_t c -> 0 <= tau <= 1 -> 0 < eps ->
  arc_contains c (arc_point c tau) eps chk = Ok true.
Proof.
  intros Hs Ht Hm Hf Hne Htau He.
  destruct (make_arc_inv _ _ _ Hm) as (Ee & _ & _ & _ & As & At & _). specialize (At Hf).
  destruct (get_angle_on _ _ Hs As) as (Rs & Ss & _). destruct (get_angle_on _ _ Ht At) as (Rt & St & _).
  unfold arc_point, arc_delta. rewrite Ee, ell_angle_point_eq. rn.
  set (s := a_s c) in *. set (t := a_t c) in *.
  destruct (Rltb_spec s t) as [L|L].
  - set (phi := s + (t - s) * tau). assert (s <= phi <= t) as Hphi by (unfold phi; nra).
    rewrite (arc_contains_at c phi eps chk Ee He) by lra. fold s t.
    destruct (Rltb_spec t s); [lra|].
    pose proof (snap_le t phi ltac:(lra) Rt St ltac:(lra)) as U.
    pose proof (snap_ge s phi ltac:(lra) Rs Ss ltac:(lra)) as V.
    assert (s <= snap phi) as V'.
    { destruct V as [V|V]; [exact V|]. 
      (* the value 0 for an angle phi close to 2 pi *)
      rewrite V. unfold snap in V. pose proof PI_RGT_0. pose proof kk_pos.
      destruct (Rlt_dec (Rabs (cos phi)) kk) as [C|C]; [destruct (Rlt_dec (sin phi) 0); lra|].
      destruct (Rlt_dec (Rabs (sin phi)) kk) as [D|D]; [|lra].
      destruct (Rlt_dec (cos phi) 0) as [S|S]; [lra|].
      assert (cos phi <> 0) as Hc by (intros Z0; rewrite Z0, Rabs_R0 in C; lra).
      destruct (quadrant phi ltac:(lra) Hc) as [[Q Qc]|[[Q Qc]|[Q Qc]]]; [|lra|].
      - (* first quadrant: s itself is snapped to 0 *)
        assert (0 <= sin s) by (apply sin_ge_0; lra).
        assert (sin s <= sin phi) by (apply sin_incr_1; lra).
        assert (cos phi <= cos s) by (apply cos_decr_1; lra).
        assert (Rabs (sin s) < kk) by (destruct (Rabs_def2 _ _ D); apply Rabs_def1; lra).
        assert (s = 0); [|lra].
        rewrite <- Ss. unfold snap. destruct (Rlt_dec (Rabs (cos s)) kk) as [B|B].
        + exfalso. apply C. destruct (Rabs_def2 _ _ B). apply Rabs_def1; lra.
        + destruct (Rlt_dec (Rabs (sin s)) kk); [|lra]. destruct (Rlt_dec (cos s) 0); lra.
      - (* fourth quadrant: t is snapped to 0 *)
        exfalso.
        assert (forall a, cos a = cos (a - 2 * PI)) as Pc.
        { intros a. replace a with ((a - 2 * PI) + 2 * INR 1 * PI) at 1 by (cbn; ring). apply cos_period. }
        assert (forall a, sin a = sin (a - 2 * PI)) as Ps.
        { intros a. replace a with ((a - 2 * PI) + 2 * INR 1 * PI) at 1 by (cbn; ring). apply sin_period. }
        assert (sin phi <= sin t) by (rewrite (Ps phi), (Ps t); apply sin_incr_1; lra).
        assert (sin t <= 0) by (apply sin_le_0; lra).
        assert (cos phi <= cos t).
        { apply cos_incr_1; lra. }
        assert (Rabs (sin t) < kk) by (destruct (Rabs_def2 _ _ D); apply Rabs_def1; lra).
        assert (t = 0); [|lra]. rewrite <- St. unfold snap.
        destruct (Rlt_dec (Rabs (cos t)) kk) as [B|B].
        + exfalso. apply C. destruct (Rabs_def2 _ _ B). apply Rabs_def1; lra.
        + destruct (Rlt_dec (Rabs (sin t)) kk); [|lra]. destruct (Rlt_dec (cos t) 0); lra. }
    f_equal. apply andb_true_intro. split; apply Rleb_true; lra.
  - set (phi := s + (2 * PI - s + t) * tau).
    assert (t < s) as L' by lra.
    assert (s <= phi <= 2 * PI + t) as Hphi by (unfold phi; nra).
    destruct (Rlt_dec phi (2 * PI)) as [B|B].
    + rewrite (arc_contains_at c phi eps chk Ee He) by lra. fold s t.
      destruct (Rltb_spec t s); [|lra].
      pose proof (snap_ge s phi ltac:(lra) Rs Ss ltac:(lra)) as V. f_equal. apply orb_true_intro.
      destruct V as [V|V]; [left|right]; apply Rleb_true; lra.
    + replace phi with ((phi - 2 * PI) + 2 * PI) by ring. rewrite ell_at_period.
      rewrite (arc_contains_at c (phi - 2 * PI) eps chk Ee He) by lra. fold s t.
      destruct (Rltb_spec t s); [|lra].
      pose proof (snap_le t (phi - 2 * PI) ltac:(lra) Rt St ltac:(lra)) as U. f_equal. apply orb_true_intro.
      right. apply Rleb_true; lra.
Qed.

Lemma unsnapped_snap phi : 0 <= phi < 2 * PI -> unsnapped phi -> snap phi = phi.
Proof.
  intros H [H1 H2]. fold kk in H1, H2. pose proof PI_RGT_0. pose proof kk_pos. pose proof (sin_sign phi H) as Hs.
  unfold snap.
  destruct (Rlt_dec (Rabs (cos phi)) kk) as [C|C].
  - destruct H1 as [H1|H1]; [|lra].
    assert (phi = PI / 2 \/ phi = 3 * PI / 2) as Hphi.
    { destruct (Rtotal_order phi (PI / 2)) as [A|[A|A]]; auto.
      - pose proof (cos_gt_0 phi). lra.
      - destruct (Rtotal_order phi (3 * PI / 2)) as [B|[B|B]]; auto.
        + pose proof (cos_lt_0 phi). lra.
        + exfalso. assert (0 < cos phi); [|lra].
          replace phi with ((phi - 2 * PI) + 2 * INR 1 * PI) by (cbn; ring). rewrite cos_period. apply cos_gt_0; lra. }
    destruct (Rlt_dec (sin phi) 0) as [S|S]; rewrite Hs in S; lra.
  - destruct (Rlt_dec (Rabs (sin phi)) kk) as [D|D]; [|reflexivity].
    destruct H2 as [H2|H2]; [|lra].
    assert (phi = 0 \/ phi = PI) as Hphi.
    { destruct (Rtotal_order phi PI) as [A|[A|A]]; auto.
      - destruct H as [[H|H] _]; [|auto]. pose proof (sin_gt_0 phi). lra.
      - apply Hs in A. lra. }
    destruct Hphi as [->| ->].
    + rewrite cos_0. destruct (Rlt_dec 1 0); lra.
    + rewrite cos_PI. destruct (Rlt_dec (-1) 0); lra.
Qed.

Lemma arc_contains_between src tgt c phi :
  on_ellipse e src -> on_ellipse e tgt -> make_arc e src tgt = Ok c ->
  a_full c = false -> a_s c <> a_t c -> 0 <= phi < 2 * PI -> unsnapped phi ->
  ((forall eps, 0 < eps -> arc_contains c (ell_at e phi) eps true = Ok true) <-> between (a_s c) (a_t c) phi).
Proof.
  intros Hs Ht Hm Hf Hne Hr Hu.
  destruct (make_arc_inv _ _ _ Hm) as (Ee & _). pose proof (unsnapped_snap phi Hr Hu) as Es.
  unfold between. set (s := a_s c) in *. set (t := a_t c) in *. split.
  - intros H.
    assert (forall eps, 0 < eps -> (if Rltb t s then Rleb (s - eps) phi || Rleb phi (t + eps)
              else Rleb (s - eps) phi && Rleb phi (t + eps)) = true) as K.
    { intros eps He. specialize (H eps He). rewrite (arc_contains_at c phi eps true Ee He Hr) in H. fold s t in H.
      rewrite Es in H. injection H as H. exact H. }
    clear H. destruct (Rltb_spec t s) as [L|L].
    + right. split; [exact L|].
      destruct (Rle_dec s phi) as [A|A]; [auto|]. destruct (Rle_dec phi t) as [B|B]; [auto|]. exfalso.
      set (d := Rmin (s - phi) (phi - t)). assert (0 < d) as Hd by (apply Rmin_glb_lt; lra).
      specialize (K (d / 2) ltac:(lra)). apply orb_true_iff in K. rewrite !Rleb_true in K.
      pose proof (Rmin_l (s - phi) (phi - t)). pose proof (Rmin_r (s - phi) (phi - t)). fold d in H, H0. lra.
    + left. split; [lra|]. split; apply Rnot_lt_le; intros B.
      * specialize (K ((s - phi) / 2) ltac:(lra)). apply andb_prop in K. rewrite !Rleb_true in K. lra.
      * specialize (K ((phi - t) / 2) ltac:(lra)). apply andb_prop in K. rewrite !Rleb_true in K. lra.
  - intros H eps He. rewrite (arc_contains_at c phi eps true Ee He Hr). fold s t. rewrite Es. f_equal.
    destruct (Rltb_spec t s); destruct H as [[H1 H2]|[H1 H2]]; try lra.
    + apply orb_true_iff. rewrite !Rleb_true. lra.
    + apply andb_true_iff. rewrite !Rleb_true. lra.
Qed.

Lemma between_param c phi : a_ell c = e -> 0 <= a_s c < 2 * PI -> 0 <= a_t c < 2 * PI -> 0 <= phi < 2 * PI ->
  between (a_s c) (a_t c) phi -> exists tau, 0 <= tau <= 1 /\ ell_at e phi = arc_point c tau.
Proof.
  intros Ee Rs Rt Hr H. unfold arc_point, arc_delta. setoid_rewrite Ee. setoid_rewrite (ell_angle_point_eq e). rn.
  set (s := a_s c) in *. set (t := a_t c) in *. unfold between in H.
  assert (forall d x, 0 < d -> 0 <= x <= d -> 0 <= x / d <= 1) as Q.
  { intros d x Hd Hx. split; [apply Rmult_le_pos; [lra|left; apply Rinv_0_lt_compat; lra]|].
    apply (Rmult_le_reg_r d); [lra|]. unfold Rdiv. rewrite Rmult_assoc, Rinv_l by lra. lra. }
  destruct (Rltb_spec s t); destruct H as [[H1 H2]|[H1 H2]]; try lra.
  - exists ((phi - s) / (t - s)). split; [apply Q; lra|]. f_equal. field. lra.
  - destruct H2 as [H2|H2].
    + exists ((phi - s) / (2 * PI - s + t)). split; [apply Q; lra|]. f_equal. field. lra.
    + exists ((phi + 2 * PI - s) / (2 * PI - s + t)). split; [apply Q; lra|].
      rewrite <- (ell_at_period e phi). f_equal. field. lra.
Qed.

Lemma arc_exact src tgt c phi :
  on_ellipse e src -> on_ellipse e tgt -> make_arc e src tgt = Ok c ->
  a_full c = false -> a_s c <> a_t c -> 0 <= phi < 2 * PI -> unsnapped phi ->
  ((forall eps, 0 < eps -> arc_contains c (ell_at e phi) eps true = Ok true) <->
   exists tau, 0 <= tau <= 1 /\ ell_at e phi = arc_point c tau).
Proof.
  intros Hs Ht Hm Hf Hne Hr Hu. split.
  - intros H. apply (arc_contains_between _ _ _ _ Hs Ht Hm Hf Hne Hr Hu) in H.
    destruct (make_arc_inv _ _ _ Hm) as (Ee & _ & _ & _ & As & At & _). specialize (At Hf).
    destruct (get_angle_on _ _ Hs As) as (Rs & _). destruct (get_angle_on _ _ Ht At) as (Rt & _).
    apply between_param; assumption.
  - intros (tau & Htau & ->) eps He. exact (arc_points _ _ _ tau eps true Hs Ht Hm Hf Hne Htau He).
Qed.

Lemma arc_ends phi1 phi2 c : 0 <= phi1 < 2 * PI -> 0 <= phi2 < 2 * PI -> unsnapped phi1 -> unsnapped phi2 ->
  make_arc e (ell_at e phi1) (ell_at e phi2) = Ok c -> a_full c = false ->
  a_s c = phi1 /\ a_t c = phi2 /\ arc_point c 0 = ell_at e phi1 /\ arc_point c 1 = ell_at e phi2.
Proof.
  intros H1 H2 U1 U2 Hm Hf.
  destruct (make_arc_inv _ _ _ Hm) as (Ee & _ & _ & _ & As & At & _). specialize (At Hf).
  rewrite (get_angle_at e Hok) in As, At by assumption. rewrite unsnapped_snap in As, At by assumption.
  injection As as As. injection At as At. split; [auto|]. split; [auto|].
  unfold arc_point, arc_delta. rewrite Ee, !(ell_angle_point_eq e), <- As, <- At. rn. split.
  - f_equal. ring.
  - destruct (Rltb_spec phi1 phi2).
    + f_equal. ring.
    + rewrite <- (ell_at_period e phi2). f_equal. ring.
Qed.

(** full ellipses *)
Lemma full_zero src c p eps chk : on_ellipse e src -> make_arc e src src = Ok c -> a_s c < 1 / 10 ^ 10 ->
  on_ellipse e p -> 0 < eps -> a_full c = true /\ arc_contains c p eps chk = Ok true.
Proof.
  intros Hs Hm Hz Hp He.
  destruct (make_arc_inv _ _ _ Hm) as (Ee & _ & _ & Hf & As & _ & Hfull).
  assert (a_full c = true) as F.
  { apply Hf. rewrite dist_self. pose proof (ea e Hok). pose proof kk_pos. unfold kk in *. nra. }
  split; [exact F|]. specialize (Hfull F). destruct (Rlt_dec (a_s c) (1 / 10 ^ 10)); [|lra].
  destruct (get_angle_on _ _ Hs As) as (Rs & _).
  destruct (on_ellipse_range e Hok p Hp) as (phi & Hr & ->).
  rewrite (arc_contains_at c phi eps chk Ee He Hr). rewrite Hfull.
  destruct (Rltb_spec (2 * PI) (a_s c)); [lra|].
  assert (0 <= snap phi < 2 * PI) as Hsn.
  { pose proof (get_angle_at e Hok phi true Hr) as G. eapply get_angle_range; eauto. }
  f_equal. apply andb_true_iff. rewrite !Rleb_true. 
  assert (a_s c = 0) as ->; [|lra].
  destruct (get_angle_on _ _ Hs As) as (_ & Ss & _). rewrite <- Ss. unfold snap.
  destruct (Req_dec (a_s c) 0) as [Z|Z].
  { rewrite Z, cos_0, sin_0, Rabs_R1, Rabs_R0. pose proof kk_pos. destruct (Rlt_dec 1 kk); [lra|].
    destruct (Rlt_dec 0 kk); [|lra]. destruct (Rlt_dec 1 0); lra. }
  assert (0 < a_s c) as Hp0 by lra. pose proof PI_RGT_0. pose proof PI2_3_2. pose proof kk_pos.
  assert (1 / 10 ^ 10 < kk) as Hk2 by (unfold kk; lra).
  assert (sin (a_s c) < a_s c) by (apply sin_lt_x; exact Hp0).
  assert (0 < sin (a_s c)) by (apply sin_gt_0; lra).
  pose proof (sc1 (a_s c)) as SC.
  assert (0 < cos (a_s c)) by (apply cos_gt_0; lra).
  assert (1 / 2 < cos (a_s c)) by nra.
  destruct (Rlt_dec (Rabs (cos (a_s c))) kk) as [C|C]; [destruct (Rabs_def2 _ _ C); lra|].
  destruct (Rlt_dec (Rabs (sin (a_s c))) kk) as [C'|C'].
  - destruct (Rlt_dec (cos (a_s c)) 0); lra.
  - exfalso. apply C'. apply Rabs_def1; lra.
Qed.

Lemma full_other src c phi eps : on_ellipse e src -> make_arc e src src = Ok c -> 1 / 10 ^ 10 <= a_s c ->
  0 <= phi < 2 * PI -> 0 < eps ->
  a_full c = true /\
  arc_contains c (ell_at e phi) eps true = Ok (Rleb (a_s c - eps) (snap phi) && Rleb (snap phi) (a_s c + eps)).
Proof.
  intros Hs Hm Hz Hr He.
  destruct (make_arc_inv _ _ _ Hm) as (Ee & _ & _ & Hf & As & _ & Hfull).
  assert (a_full c = true) as F.
  { apply Hf. rewrite dist_self. pose proof (ea e Hok). pose proof kk_pos. unfold kk in *. nra. }
  split; [exact F|]. specialize (Hfull F). destruct (Rlt_dec (a_s c) (1 / 10 ^ 10)); [lra|].
  rewrite (arc_contains_at c phi eps true Ee He Hr). rewrite Hfull.
  destruct (Rltb_spec (a_s c) (a_s c)); [lra|]. reflexivity.
Qed.

Lemma snap_quarter : snap (PI / 2) = PI / 2.
Proof.
  unfold snap. rewrite cos_PI2, sin_PI2, Rabs_R0. pose proof kk_pos.
  destruct (Rlt_dec 0 kk); [|lra]. destruct (Rlt_dec 1 0); [lra|reflexivity].
Qed.
Lemma snap_3quarter : snap (3 * PI / 2) = 3 * PI / 2.
Proof.
  unfold snap. replace (3 * PI / 2) with (3 * (PI / 2)) by field.
  rewrite cos_3PI2, sin_3PI2, Rabs_R0. pose proof kk_pos.
  destruct (Rlt_dec 0 kk); [|lra]. destruct (Rlt_dec (-1) 0); [reflexivity|lra].
Qed.
Lemma snap_0 : snap 0 = 0.
Proof.
  unfold snap. rewrite cos_0, sin_0, Rabs_R0, Rabs_R1. pose proof kk_pos.
  destruct (Rlt_dec 1 kk); [lra|]. destruct (Rlt_dec 0 kk); [|lra]. destruct (Rlt_dec 1 0); [lra|reflexivity].
Qed.

Lemma full_arc_refuted : exists c,
  make_arc e (ell_at e (PI / 2)) (ell_at e (PI / 2)) = Ok c /\ a_full c = true /\
  arc_contains_default c (ell_at e 0) true = Ok false /\
  arc_contains c (ell_at e 0) 1 true = Ok false /\
  arc_point c (3 / 4) = ell_at e 0.
Proof.
  pose proof PI_RGT_0. pose proof PI2_3_2.
  assert (on_ellipse e (ell_at e (PI / 2))) as Hs by (eexists; reflexivity).
  destruct (make_arc_ok _ _ Hs Hs) as [c Hm]. exists c. split; [exact Hm|].
  destruct (make_arc_inv _ _ _ Hm) as (Ee & _ & _ & _ & As & _ & Hfull).
  rewrite (get_angle_at e Hok), snap_quarter in As by lra. injection As as As.
  assert (1 / 10 ^ 10 <= a_s c) as Hge by (rewrite <- As; lra).
  destruct (full_other _ c 0 (1 / 10 ^ 10) Hs Hm Hge ltac:(lra) ltac:(lra)) as [F E1].
  destruct (full_other _ c 0 1 Hs Hm Hge ltac:(lra) ltac:(lra)) as [_ E2].
  rewrite snap_0, <- As in E1, E2.
  split; [exact F|]. split; [|split].
  - unfold arc_contains_default. rewrite angular_eq, E1. f_equal. apply andb_false_iff. left. apply Rleb_false. lra.
  - rewrite E2. f_equal. apply andb_false_iff. left. apply Rleb_false. lra.
  - specialize (Hfull F). destruct (Rlt_dec (a_s c) (1 / 10 ^ 10)); [lra|].
    unfold arc_point, arc_delta. rewrite Ee, (ell_angle_point_eq e), Hfull, <- As. rn.
    destruct (Rltb_spec (PI / 2) (PI / 2)); [lra|].
    rewrite <- (ell_at_period e 0). f_equal. field.
Qed.

(** a larger tolerance makes contains throw *)
Lemma arc_throw_refuted c : a_ell c = e ->
  let p := at_coords (e_c e) (e_maj e) (e_min e) (11 / 10 * e_a e) 0 in
  ell_contains e p (1 / 2) true = true /\ arc_contains c p (1 / 2) true = Throw RuntimeError.
Proof.
  intros Ee p. pose proof (ea e Hok) as Ha. pose proof (ebb e Hok) as Hb.
  destruct (local_coords _ _ _ (e_c e) (11 / 10 * e_a e) 0 (eb e Hok)) as (E1 & E2 & E3). fold p in E1, E2, E3.
  assert (quad_form e (11 / 10 * e_a e) 0 = 121 / 100) as Q by (unfold quad_form; field; lra).
  assert (Rabs (121 / 100 - 1) = 21 / 100) as AQ by (rewrite Rabs_right; lra).
  assert (ell_contains e p (1 / 2) true = true) as C.
  { apply (ell_contains_char e Hok). rewrite E1, E2, E3, Q, Rabs_R0, AQ. split; intros; lra. }
  split; [exact C|]. unfold arc_contains. rewrite Ee, C. cbn [andb negb].
  assert (ell_get_angle e p true = Throw RuntimeError) as ->; [|reflexivity].
  apply (get_angle_throw e Hok). rewrite E1, E2, E3, Q, AQ. intros [_ B]. lra.
Qed.

(** a short arc across an axis *)
Lemma short_arc_refuted : let x := 9 / 10 ^ 8 in exists c,
  make_arc e (ell_at e (acos x)) (ell_at e (acos (- x))) = Ok c /\ a_full c = false /\
  arc_point c (1 / 2) = ell_at e (3 * PI / 2) /\
  arc_contains_default c (arc_point c (1 / 2)) true = Ok false.
Proof.
  intros x. pose proof PI_RGT_0. pose proof PI2_3_2. pose proof (ea e Hok) as Ha.
  assert (0 < x < 1) as Hx by (unfold x; lra).
  assert (x < kk) as Hxk by (unfold x, kk; lra).
  assert (on_ellipse e (ell_at e (acos x))) as Hs by (eexists; reflexivity).
  assert (on_ellipse e (ell_at e (acos (- x)))) as Ht by (eexists; reflexivity).
  destruct (make_arc_ok _ _ Hs Ht) as [c Hm]. exists c. split; [exact Hm|].
  assert (cos (acos x) = x) as C1 by (apply cos_acos; lra).
  assert (cos (acos (- x)) = - x) as C2 by (apply cos_acos; lra).
  assert (sin (acos (- x)) = sin (acos x)) as S12.
  { rewrite !sin_acos by lra. f_equal. unfold Rsqr. ring. }
  assert (0 <= acos x < 2 * PI) as B1 by (pose proof (acos_bound x); lra).
  assert (0 <= acos (- x) < 2 * PI) as B2 by (pose proof (acos_bound (- x)); lra).
  assert (forall a, 0 <= a <= PI -> Rabs (cos a) < kk -> snap a = PI / 2) as Sn.
  { intros a Hb Hc. unfold snap. destruct (Rlt_dec (Rabs (cos a)) kk); [|lra].
    pose proof (sin_ge_0 a). destruct (Rlt_dec (sin a) 0); [lra|reflexivity]. }
  assert (snap (acos x) = PI / 2) as N1.
  { apply Sn; [apply acos_bound|]. rewrite C1. apply Rabs_def1; lra. }
  assert (snap (acos (- x)) = PI / 2) as N2.
  { apply Sn; [apply acos_bound|]. rewrite C2. apply Rabs_def1; lra. }
  destruct (make_arc_inv _ _ _ Hm) as (Ee & _ & _ & Hf & As & At & _).
  assert (a_full c = false) as F.
  { destruct (a_full c); [|reflexivity]. exfalso. destruct Hf as [Hf _]. specialize (Hf eq_refl).
    revert Hf. apply Rle_not_lt. unfold ell_at. rewrite C1, C2, S12. unfold dist.
    replace (psub _ _) with (pscale (2 * x * e_a e) (e_maj e)) by (apply v3_eq; unfold at_coords; coords; ring).
    unfold norm. replace (dot _ _) with (Rsqr (2 * x * e_a e)).
    - rewrite sqrt_Rsqr by nra. unfold x. nra.
    - destruct (eb e Hok) as (Hu & _). unfold Rsqr. transitivity (2 * x * e_a e * (2 * x * e_a e) * dot (e_maj e) (e_maj e)).
      + unfold unit3 in Hu. rewrite Hu. ring.
      + coords. ring. }
  split; [exact F|]. specialize (At F). rewrite (get_angle_at e Hok), N1 in As by assumption.
  rewrite (get_angle_at e Hok), N2 in At by assumption. injection As as As. injection At as At.
  assert (arc_point c (1 / 2) = ell_at e (3 * PI / 2)) as EP.
  { unfold arc_point, arc_delta. rewrite Ee, (ell_angle_point_eq e), <- As, <- At. rn.
    destruct (Rltb_spec (PI / 2) (PI / 2)); [lra|]. f_equal. field. }
  split; [exact EP|]. rewrite EP. unfold arc_contains_default. rewrite angular_eq.
  rewrite (arc_contains_at c (3 * PI / 2) _ true Ee) by lra. rewrite <- As, <- At, snap_3quarter.
  destruct (Rltb_spec (PI / 2) (PI / 2)); [lra|]. f_equal. apply andb_false_iff. right. apply Rleb_false. lra.
Qed.
End Arc.
