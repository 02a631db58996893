(** Further proofs about the intersection of planes, lines and segments: touching segments,
    soundness for arbitrary segments, planes and lines. *)

From Coq Require Import Reals Lra Lia Psatz Nsatz List Bool ZArith.
From Verif Require Import Base NumModel VecModel LinModel RoundModel PolyModel IntModel
  GeoSpec LinSpec RoundSpec PolySpec IntSpec GeoLemmas LinProofs SegIntProofs.
Import ListNotations.
Local Open Scope R_scope.

(** ** segments that touch *)
Lemma seg_seg_touch K (sg1 sg2 : segment R) eps p : nondeg sg1 -> nondeg sg2 -> 0 < eps ->
  clear sg1 sg2 eps -> touch_at sg1 sg2 p -> seg_seg K sg1 sg2 eps = Ok (IsSeg (mkSeg p p)).
Proof.
  intros N1 N2 He HC [HP Hp]. rewrite (seg_seg_parallel K sg1 sg2 eps N1 N2 HP). unfold overlap_case.
  destruct (line_contains (seg_line sg1) (s_src sg2) eps) eqn:HL; cbn [negb].
  2: { exfalso. apply (off_line sg1 sg2 eps N1 He HP HL p). apply Hp. reflexivity. }
  destruct (memberships sg1 sg2 eps N1 N2 He HC HP HL) as (M1 & M2 & M3 & M4).
  assert (Hc : both (seg_pts sg1) (seg_pts sg2) p) by (apply Hp; reflexivity). destruct Hc as [X1 X2].
  destruct (same_line sg1 sg2 p N1 HP X1 X2) as (P & u & a & b & c & d & Hu & E1 & E2 & E3 & E4).
  unfold both, seg_pts in *.
  destruct sg1 as [p1 q1], sg2 as [p2 q2]. unfold nondeg in N1, N2. cbn [s_src s_tgt] in *. subst p1 q1 p2 q2.
  rewrite on_seg_1d_at in M1, M2, M3, M4 by exact Hu.
  assert (Hab : a <> b) by (intros ->; apply N1; reflexivity).
  assert (Hcd : c <> d) by (intros ->; apply N2; reflexivity).
  apply on_seg_1d in X1. destruct X1 as (t & Ht & ->). apply on_seg_1d_at in X2; [|exact Hu].
  assert (U : forall z, (a <= z <= b \/ b <= z <= a) -> (c <= z <= d \/ d <= z <= c) -> z = t).
  { intros z Z1 Z2. apply (line_coord P u); [exact Hu|]. apply Hp. rewrite !on_seg_1d_at by exact Hu. auto. }
  pose proof (U a) as Ua. pose proof (U b) as Ub. pose proof (U c) as Uc. pose proof (U d) as Ud.
  (* the interior of the overlap is empty *)
  pose proof (U ((t + a) / 2)) as Va. pose proof (U ((t + b) / 2)) as Vb.
  destruct (seg_contains _ _ eps false) eqn:B1 in |- *;
    [assert (Q1 : a <= c <= b \/ b <= c <= a) by (apply M1, B1)
    |assert (Q1 : ~ (a <= c <= b \/ b <= c <= a)) by (intros Q; apply M1 in Q; congruence)]; clear M1 B1;
  (destruct (seg_contains _ _ eps false) eqn:B1 in |- *;
    [assert (Q2 : a <= d <= b \/ b <= d <= a) by (apply M2, B1)
    |assert (Q2 : ~ (a <= d <= b \/ b <= d <= a)) by (intros Q; apply M2 in Q; congruence)]); clear M2 B1;
  (destruct (seg_contains _ _ eps false) eqn:B1 in |- *;
    [assert (Q3 : c <= a <= d \/ d <= a <= c) by (apply M3, B1)
    |assert (Q3 : ~ (c <= a <= d \/ d <= a <= c)) by (intros Q; apply M3 in Q; congruence)]); clear M3 B1;
  (destruct (seg_contains _ _ eps false) eqn:B1 in |- *;
    [assert (Q4 : c <= b <= d \/ d <= b <= c) by (apply M4, B1)
    |assert (Q4 : ~ (c <= b <= d \/ d <= b <= c)) by (intros Q; apply M4 in Q; congruence)]); clear M4 B1;
  cbn [andb]; try (exfalso; lra).
  all: match goal with |- Ok (IsSeg (mkSeg (padd _ (pscale ?x _)) (padd _ (pscale ?y _)))) = _ =>
         assert (x = t) as -> by lra; assert (y = t) as -> by lra; reflexivity end.
Qed.

(** ** soundness without further assumptions *)
Lemma norm_triangle (u v : pt) : norm (padd u v) <= norm u + norm v.
Proof.
  pose proof (norm_nonneg u). pose proof (norm_nonneg v). pose proof (norm_nonneg (padd u v)).
  apply sq_le_iff; [assumption|lra|]. rewrite norm_sq.
  replace (dot (padd u v) (padd u v)) with (dot u u + 2 * dot u v + dot v v) by (clear; coords; ring).
  pose proof (cauchy_norm u v) as Hc. pose proof (Rle_abs (dot u v)). rewrite <- !norm_sq. nra.
Qed.
Lemma near_convex (s : segment R) eps a b x : near (seg_pts s) eps a -> near (seg_pts s) eps b ->
  on_segment a b x -> near (seg_pts s) eps x.
Proof.
  intros (q & (tq & Tq & ->) & Hq) (r & (tr & Tr & ->) & Hr) (t & Ht & ->).
  eexists. split.
  - exists ((1 - t) * tq + t * tr). split; [nra|reflexivity].
  - set (q := padd (pscale (1 - tq) (s_src s)) (pscale tq (s_tgt s))) in *.
    set (r := padd (pscale (1 - tr) (s_src s)) (pscale tr (s_tgt s))) in *.
    assert (E : psub (padd (pscale (1 - t) a) (pscale t b))
                 (padd (pscale (1 - ((1 - t) * tq + t * tr)) (s_src s)) (pscale ((1 - t) * tq + t * tr) (s_tgt s)))
            = padd (pscale (1 - t) (psub a q)) (pscale t (psub b r))).
    { unfold q, r. pq; ring. }
    unfold dist in *. rewrite E. eapply Rle_lt_trans; [apply norm_triangle|].
    rewrite !norm_scale', !Rabs_right by lra.
    destruct (Rlt_le_dec t 1); [|assert (t = 1) as -> by lra]; nra.
Qed.
Lemma near_self (s : segment R) eps p : 0 < eps -> seg_pts s p -> near (seg_pts s) eps p.
Proof. intros He H. exists p. rewrite dist_self. auto. Qed.

Lemma first_on_both_near sg1 sg2 eps es p : nondeg sg1 -> nondeg sg2 -> 0 < eps ->
  first_on_both sg1 sg2 eps es = Some p -> near (seg_pts sg1) eps p /\ near (seg_pts sg2) eps p.
Proof.
  intros N1 N2 He. induction es as [|[a b] es IH]; cbn [first_on_both]; [discriminate|].
  assert (Q : forall v, seg_contains sg1 v eps true && seg_contains sg2 v eps true = true ->
     near (seg_pts sg1) eps v /\ near (seg_pts sg2) eps v).
  { intros v Hv. apply andb_true_iff in Hv. rewrite !contains_near in Hv by assumption. exact Hv. }
  destruct (seg_contains sg1 a eps true && seg_contains sg2 a eps true) eqn:Ea.
  { intros E. injection E as <-. auto. }
  destruct (seg_contains sg1 b eps true && seg_contains sg2 b eps true) eqn:Eb.
  { intros E. injection E as <-. auto. }
  exact IH.
Qed.

Lemma seg_seg_sound K (sg1 sg2 : segment R) eps : nondeg sg1 -> nondeg sg2 -> 0 < eps ->
  parallel (seg_vec sg1) (seg_vec sg2) \/ oblique ang_tol (seg_vec sg1) (seg_vec sg2) ->
  (forall p, seg_seg K sg1 sg2 eps = Ok (IsPoint p) -> near (seg_pts sg1) eps p /\ near (seg_pts sg2) eps p) /\
  (forall s, seg_seg K sg1 sg2 eps = Ok (IsSeg s) ->
     forall x, seg_pts s x -> near (seg_pts sg1) eps x /\ near (seg_pts sg2) eps x) /\
  (forall l, seg_seg K sg1 sg2 eps <> Ok (IsLine l)) /\ (forall l, seg_seg K sg1 sg2 eps <> Ok (IsPlane l)).
Proof.
  intros N1 N2 He HO.
  assert (S1 : forall e, is_end sg1 e -> near (seg_pts sg1) eps e) by (intros; apply near_self, seg_end_on; assumption).
  assert (S2 : forall e, is_end sg2 e -> near (seg_pts sg2) eps e) by (intros; apply near_self, seg_end_on; assumption).
  assert (EQ : forall e f, is_end sg1 e -> is_end sg2 f -> pt_eq e f eps = true ->
    near (seg_pts sg1) eps e /\ near (seg_pts sg2) eps e).
  { intros e f H1 H2 H. apply pt_eq_dist in H; [|exact He]. split; [auto|]. exists f. split; [apply seg_end_on, H2|exact H]. }
  (* the branch after the overlap check *)
  match goal with |- context [seg_seg K sg1 sg2 eps] => pose (R0 := seg_seg K sg1 sg2 eps) end.
  assert (REST : forall r,
    (let es := k_fragment K sg1 sg2 (nlit 1 10 * eps)%num in
    if Nat.eqb (length es) 3 || Nat.eqb (length es) 4 then
      match first_on_both sg1 sg2 eps es with
      | Some p => Ok (IsPoint p)
      | None => Throw RuntimeError
      end
    else if pt_eq (s_src sg1) (s_src sg2) eps then Ok (IsPoint (s_src sg1))
    else if pt_eq (s_src sg1) (s_tgt sg2) eps then Ok (IsPoint (s_src sg1))
    else if pt_eq (s_tgt sg1) (s_src sg2) eps then Ok (IsPoint (s_tgt sg1))
    else if pt_eq (s_tgt sg1) (s_tgt sg2) eps then Ok (IsPoint (s_tgt sg1))
    else Ok IsEmpty) = Ok r -> r = IsEmpty \/ exists p, r = IsPoint p /\ near (seg_pts sg1) eps p /\ near (seg_pts sg2) eps p).
  { cbv zeta. intros r. destruct (_ || _).
    - destruct (first_on_both _ _ _ _) eqn:F; [|discriminate]. intros E. injection E as <-. right.
      eexists. split; [reflexivity|]. eapply first_on_both_near; eassumption.
    - repeat match goal with |- context [pt_eq ?a ?b eps] => let E := fresh "E" in destruct (pt_eq a b eps) eqn:E end;
        intros X; injection X as <-; [right..|left; reflexivity]; eexists; (split; [reflexivity|]).
      all: eapply EQ; [| |eassumption]; auto using is_src, is_tgt. }
  assert (MAIN : forall r, seg_seg K sg1 sg2 eps = Ok r ->
     r = IsEmpty \/ (exists p, r = IsPoint p /\ near (seg_pts sg1) eps p /\ near (seg_pts sg2) eps p) \/
     (exists s, r = IsSeg s /\ forall x, seg_pts s x -> near (seg_pts sg1) eps x /\ near (seg_pts sg2) eps x)).
  { intros r. destruct HO as [HP|HO].
    2: { rewrite (seg_seg_unparallel K sg1 sg2 eps N1 N2 HO). intros E. apply REST in E. tauto. }
    rewrite (seg_seg_parallel K sg1 sg2 eps N1 N2 HP). unfold overlap_case.
    destruct (line_contains (seg_line sg1) (s_src sg2) eps) eqn:HL; cbn [negb].
    2: { intros E. injection E as <-. auto. }
    destruct (parallel_offset sg1 sg2 N1 N2 HP eps He) as (O1 & O2 & O3). rewrite HL in O1, O2, O3.
    rewrite !contains_skip by assumption.
    assert (G : forall e f, is_end sg1 e \/ is_end sg2 e -> is_end sg1 f \/ is_end sg2 f ->
      near (seg_pts sg1) eps e -> near (seg_pts sg2) eps e -> near (seg_pts sg1) eps f -> near (seg_pts sg2) eps f ->
      exists s, IsSeg (mkSeg e f) = IsSeg s /\ forall x, seg_pts s x -> near (seg_pts sg1) eps x /\ near (seg_pts sg2) eps x).
    { intros e f _ _ A B C D. eexists. split; [reflexivity|]. intros x Hx. unfold seg_pts in Hx. cbn in Hx.
      split; [exact (near_convex sg1 eps e f x A C Hx)|exact (near_convex sg2 eps e f x B D Hx)]. }
    assert (C1 : forall v, seg_contains sg1 v eps true = true -> near (seg_pts sg1) eps v)
      by (intros v Hv; apply contains_near in Hv; assumption).
    assert (C2 : forall v, seg_contains sg2 v eps true = true -> near (seg_pts sg2) eps v)
      by (intros v Hv; apply contains_near in Hv; assumption).
    destruct sg1 as [p1 q1], sg2 as [p2 q2]. cbn [s_src s_tgt] in *.
    destruct (seg_contains (mkSeg p1 q1) p2 eps true) eqn:B1; destruct (seg_contains (mkSeg p1 q1) q2 eps true) eqn:B2;
    destruct (seg_contains (mkSeg p2 q2) p1 eps true) eqn:B3; destruct (seg_contains (mkSeg p2 q2) q1 eps true) eqn:B4;
    cbn [andb]; try (intros E; injection E as <-; right; right; apply G; unfold is_end; cbn [s_src s_tgt]; auto;
      try (apply S1; unfold is_end; cbn; tauto); try (apply S2; unfold is_end; cbn; tauto)).
    all: intros E; apply REST in E; tauto. }
  clear R0. split; [|split; [|split]]; intros y E; apply MAIN in E;
    destruct E as [E|[(p' & E & A & B)|(s' & E & A)]]; try discriminate; injection E as ->; auto.
Qed.

(** ** planes *)
Lemma plane_plane_exact K (p1 p2 : plane R) eps : unit3 (pl_n p1) -> unit3 (pl_n p2) -> 0 < eps ->
  (parallel (pl_n p1) (pl_n p2) /\ (plane_pts p1 (pl_sup p2) \/ far_from (plane_pts p1) eps (pl_sup p2)))
  \/ (oblique ang_tol (pl_n p1) (pl_n p2) /\ line_ok p1 p2 (k_plane_plane K p1 p2 eps)) ->
  exists r, plane_plane K p1 p2 eps = Ok r /\ describes r (both (plane_pts p1) (plane_pts p2)).
Proof.
  intros U1 U2 He [[HP Hs]|[HO (l & El & Hl & Hb)]]; unfold plane_plane.
  - rewrite gp_parallel_true by (auto using unit3_nonzero).
    destruct HP as (c & Hc & Ec).
    assert (Hc2 : c * c = 1).
    { unfold unit3 in *. rewrite Ec in U2. replace (dot (pscale c (pl_n p1)) (pscale c (pl_n p1)))
        with (c * c * dot (pl_n p1) (pl_n p1)) in U2 by (clear; coords; ring). rewrite U1 in U2. lra. }
    assert (E2 : forall x, plane_pts p2 x <-> dot (pl_n p1) (psub x (pl_sup p2)) = 0).
    { intros x. unfold plane_pts, on_plane. rewrite Ec.
      replace (dot (pscale c (pl_n p1)) (psub x (pl_sup p2))) with (c * dot (pl_n p1) (psub x (pl_sup p2)))
        by (clear; coords; ring). split; intros H; [|rewrite H; ring].
      apply Rmult_integral in H. destruct H; [contradiction|assumption]. }
    assert (D : dist_to (plane_pts p1) (pl_sup p2) (dist (pl_sup p2) (plane_proj p1 (pl_sup p2)))).
    { destruct (plane_proj_closest p1 (pl_sup p2) U1) as [H1 H2]. split; [eauto|exact H2]. }
    pose proof (plane_contains_dist p1 (pl_sup p2) eps _ U1 D) as PC. destruct D as [(y & Hy & Ey) Dm].
    destruct (plane_contains p1 (pl_sup p2) eps) eqn:C.
    + eexists. split; [reflexivity|]. cbn. split; [exact U1|]. intros x. fold (plane_pts p1 x).
      assert (Hon : plane_pts p1 (pl_sup p2)).
      { destruct Hs as [|Hf]; [assumption|]. specialize (Hf y Hy). rewrite Ey in Hf.
        assert (dist (pl_sup p2) (plane_proj p1 (pl_sup p2)) < eps) by (apply PC; reflexivity). lra. }
      split; [intros [? _]; assumption|]. intros Hx. split; [exact Hx|]. apply E2.
      unfold plane_pts, on_plane in *. clear - Hx Hon. coords. lra.
    + eexists. split; [reflexivity|]. cbn. intros x [X1 X2]. apply E2 in X2.
      assert (Hon : plane_pts p1 (pl_sup p2)).
      { unfold plane_pts, on_plane in *. clear - X1 X2. coords. lra. }
      assert (dist (pl_sup p2) (plane_proj p1 (pl_sup p2)) < eps).
      { specialize (Dm _ Hon). rewrite dist_self in Dm. pose proof (dist_nonneg (pl_sup p2) (plane_proj p1 (pl_sup p2))). lra. }
      apply PC in H. congruence.
  - rewrite gp_parallel_false by assumption. rewrite El. eexists. split; [reflexivity|]. cbn.
    split; [apply to_dir_unit, Hl|]. intros x. rewrite Hb. unfold line_pts. rewrite to_dir_scale by exact Hl.
    pose proof (norm_pos _ Hl). split; intros [t ->].
    + exists (t * norm (l_dir l)). pq; field; lra.
    + exists (t * / norm (l_dir l)). pq; field; lra.
Qed.
Lemma plane_plane_kinds K (p1 p2 : plane R) eps r : plane_plane K p1 p2 eps = Ok r ->
  r = IsEmpty \/ r = IsPlane p1 \/ exists l, r = IsLine l.
Proof.
  unfold plane_plane. destruct gp_parallel; [destruct plane_contains|destruct k_plane_plane]; intros E; try discriminate;
    injection E as <-; eauto.
Qed.

(** the classification of (nearly) parallel planes *)
Lemma plane_plane_parallel K (p1 p2 : plane R) eps d : unit3 (pl_n p1) ->
  ~ oblique ang_tol (pl_n p1) (pl_n p2) -> dist_to (plane_pts p1) (pl_sup p2) d ->
  plane_plane K p1 p2 eps = Ok (if Rlt_dec d eps then IsPlane p1 else IsEmpty).
Proof.
  intros U1 HO Hd. unfold plane_plane.
  assert (gp_parallel (pl_n p1) (pl_n p2) angular = true) as ->.
  { unfold gp_parallel. rewrite gp_angle_eq, ang_tol_eq. cbn [nleb nsub R_num npi R_trig].
    unfold oblique in HO. unfold Rleb. destruct Rle_dec; [reflexivity|]. destruct Rle_dec; [reflexivity|]. exfalso. apply HO. lra. }
  pose proof (plane_contains_dist p1 (pl_sup p2) eps d U1 Hd) as PC.
  destruct (plane_contains p1 (pl_sup p2) eps); destruct Rlt_dec; try reflexivity; exfalso.
  - apply n, PC. reflexivity.
  - apply PC in r. discriminate.
Qed.

(** ** a plane and a line *)
Lemma proj_dist (pl : plane R) p : unit3 (pl_n pl) -> vlen (vec_to p (plane_proj pl p)) = Rabs (dot (pl_n pl) (psub p (pl_sup pl))).
Proof.
  intros Hn. rewrite vlen_norm, vec_to_psub. change (norm (psub (plane_proj pl p) p)) with (dist (plane_proj pl p) p).
  rewrite dist_sym. apply plane_dist, Hn.
Qed.

Lemma plane_line_exact K (pl : plane R) (l : line R) eps : unit3 (pl_n pl) -> unit3 (l_dir l) -> 0 < eps ->
  (ortho (l_dir l) (pl_n pl) /\ (plane_pts pl (l_sup l) \/ forall q, plane_pts pl q -> eps < dist (l_sup l) q))
  \/ (~ level ang_tol l pl /\ point_ok pl l (k_plane_line K pl l)) ->
  exists r, plane_line K pl l eps = Ok r /\ describes r (both (plane_pts pl) (line_pts l)).
Proof.
  intros Un Ud He [[Ho Hs]|[Hl (p & Ep & Hp1 & Hp2)]]; unfold plane_line.
  - rewrite gp_normal_ortho by exact Ho. cbn [negb]. rewrite proj_dist by exact Un. cbn [nltb R_num].
    set (h := dot (pl_n pl) (psub (l_sup l) (pl_sup pl))).
    assert (L : forall t, dot (pl_n pl) (psub (padd (l_sup l) (pscale t (l_dir l))) (pl_sup pl)) = h).
    { intros t. unfold h. unfold ortho in Ho. clear - Ho. coords. nsatz. }
    destruct (Rltb eps (Rabs h)) eqn:C.
    + apply Rltb_true in C. eexists. split; [reflexivity|]. cbn. intros x [X1 [t ->]].
      unfold plane_pts, on_plane in X1. rewrite L in X1. rewrite X1, Rabs_R0 in C. lra.
    + apply Rltb_false in C. eexists. split; [reflexivity|]. cbn. split; [exact Ud|]. intros x. split; [intros [_ H]; exact H|].
      intros Hx. split; [|exact Hx]. destruct Hx as [t ->]. unfold plane_pts, on_plane. rewrite L.
      destruct Hs as [Hs|Hs]; [exact Hs|]. exfalso.
      specialize (Hs (plane_proj pl (l_sup l)) (plane_proj_on pl (l_sup l) Un)).
      rewrite plane_dist in Hs by exact Un. fold h in Hs. lra.
  - assert (gp_normal (l_dir l) (pl_n pl) angular = false) as ->.
    { apply not_true_iff_false. rewrite gp_normal_iff. exact Hl. }
    cbn [negb]. rewrite Ep.
    assert (plane_contains pl p eps = true) as ->.
    { apply (plane_contains_dist pl p eps 0 Un); [|exact He]. split; [exists p; split; [exact Hp1|apply dist_self]|].
      intros. apply dist_nonneg. }
    eexists. split; [reflexivity|]. cbn. intros x. split; [|intros ->; split; assumption].
    intros [X1 [t ->]]. destruct Hp2 as [s ->].
    assert (Hd : dot (l_dir l) (pl_n pl) <> 0).
    { intros Z. apply Hl. apply gp_normal_iff, gp_normal_ortho, Z. }
    assert (t = s) as ->; [|reflexivity]. unfold plane_pts, on_plane in *.
    assert (E : (t - s) * dot (l_dir l) (pl_n pl) = 0) by (clear - X1 Hp1; coords; lra).
    apply Rmult_integral in E. destruct E; [lra|contradiction].
Qed.
Lemma plane_line_kinds K (pl : plane R) (l : line R) eps r : plane_line K pl l eps = Ok r ->
  r = IsEmpty \/ r = IsLine l \/ exists p, r = IsPoint p.
Proof.
  unfold plane_line. destruct (negb _); [destruct k_plane_line; [destruct plane_contains|]|destruct (nltb _ _)];
    intros E; try discriminate; injection E as <-; eauto.
Qed.

(** the classification of (nearly) parallel lines *)
Lemma plane_line_level K (pl : plane R) (l : line R) eps d : unit3 (pl_n pl) ->
  level ang_tol l pl -> dist_to (plane_pts pl) (l_sup l) d ->
  plane_line K pl l eps = Ok (if Rle_dec d eps then IsLine l else IsEmpty).
Proof.
  intros Un HL [(y & Hy & Ey) Hm]. unfold plane_line.
  assert (gp_normal (l_dir l) (pl_n pl) angular = true) as -> by (apply gp_normal_iff; exact HL). cbn [negb].
  rewrite proj_dist, <- plane_dist by exact Un. cbn [nltb R_num].
  destruct (plane_proj_closest pl (l_sup l) Un) as [H1 H2]. pose proof (Hm _ H1). pose proof (H2 _ Hy).
  destruct (Rltb eps (dist (l_sup l) (plane_proj pl (l_sup l)))) eqn:C.
  - apply Rltb_true in C. destruct Rle_dec; [lra|reflexivity].
  - apply Rltb_false in C. destruct Rle_dec; [reflexivity|lra].
Qed.

(** two ways to write the same line, one of them found to lie in the plane *)
Definition th : R := ang_tol / 2.
Definition tilt (z : R) : line R := mkLine (mkV3 (z * cos th / sin th) 0 z) (mkV3 (cos th) 0 (sin th)).
Definition ground : plane R := mkPlane (mkV3 0 0 0) (mkV3 1 0 0) (mkV3 0 1 0) (mkV3 0 0 1).
Lemma th_pos : 0 < th < 1.
Proof. unfold th. pose proof ang_tol_pos. pose proof ang_tol_small. lra. Qed.
Lemma sin_th : 0 < sin th.
Proof. pose proof th_pos. apply sin_gt_0; [lra|]. pose proof PI2_1. lra. Qed.
Lemma tilt_unit z : unit3 (l_dir (tilt z)).
Proof. unfold unit3, dot. cbn. pose proof (sin2_cos2 th) as H. unfold Rsqr in H. nra. Qed.
Lemma tilt_level z : level ang_tol (tilt z) ground.
Proof.
  unfold level, angle. rewrite (norm_unit _ (tilt_unit z)), norm_unit by (unfold unit3, dot; cbn; ring).
  replace (dot (l_dir (tilt z)) (pl_n ground) / (1 * 1)) with (cos (PI / 2 - th)).
  - pose proof th_pos. pose proof PI2_1. rewrite acos_cos by lra.
    replace (PI / 2 - (PI / 2 - th)) with th by ring. rewrite Rabs_right by lra. unfold th. pose proof ang_tol_pos. lra.
  - rewrite cos_shift. unfold dot. cbn. field.
Qed.
Lemma tilt_support K eps : 0 < eps < 1 ->
  (forall x, line_pts (tilt 0) x <-> line_pts (tilt 1) x) /\
  (forall x, both (plane_pts ground) (line_pts (tilt 0)) x <-> x = mkV3 0 0 0) /\
  plane_line K ground (tilt 0) eps = Ok (IsLine (tilt 0)) /\
  plane_line K ground (tilt 1) eps = Ok IsEmpty.
Proof.
  intros He. pose proof sin_th as Hs.
  assert (Ug : unit3 (pl_n ground)) by (unfold unit3, dot; cbn; ring).
  assert (E : forall x, line_pts (tilt 0) x <-> line_pts (tilt 1) x).
  { intros x. unfold line_pts, on_line. cbn [tilt l_sup l_dir]. split; intros [t ->].
    - exists (t - 1 / sin th). unfold padd, pscale. cbn [vx vy vz]. f_equal; field; lra.
    - exists (t + 1 / sin th). unfold padd, pscale. cbn [vx vy vz]. f_equal; field; lra. }
  split; [exact E|]. split; [|split].
  - intros x. unfold both, plane_pts, line_pts, on_plane, on_line. cbn [ground tilt l_sup l_dir pl_sup pl_n]. split.
    + intros [H [t ->]]. unfold dot, psub, padd, pscale in H. cbn [vx vy vz] in H.
      assert (t * sin th = 0) as Ht by lra. apply Rmult_integral in Ht. destruct Ht as [->|Ht]; [|lra].
      unfold padd, pscale. cbn [vx vy vz]. f_equal; field; lra.
    + intros ->. split; [coords; ring|]. exists 0. unfold padd, pscale. cbn [vx vy vz]. f_equal; field; lra.
  - rewrite (plane_line_level K ground (tilt 0) eps 0 Ug (tilt_level 0)).
    + destruct Rle_dec; [reflexivity|lra].
    + split; [|intros; apply dist_nonneg]. exists (l_sup (tilt 0)). split; [|apply dist_self].
      unfold plane_pts, on_plane, dot, psub. cbn. ring.
  - rewrite (plane_line_level K ground (tilt 1) eps 1 Ug (tilt_level 1)).
    + destruct Rle_dec; [lra|reflexivity].
    + assert (Hd : dist (l_sup (tilt 1)) (plane_proj ground (l_sup (tilt 1))) = 1).
      { rewrite plane_dist by exact Ug. unfold dot, psub. cbn. rewrite Rabs_right; lra. }
      destruct (plane_proj_closest ground (l_sup (tilt 1)) Ug) as [H1 H2]. rewrite Hd in H2.
      split; [exists (plane_proj ground (l_sup (tilt 1))); split; [exact H1|exact Hd]|exact H2].
Qed.
