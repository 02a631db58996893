(** Proofs about the intersection of planar faces. *)

From Coq Require Import Reals Lra Lia Psatz Nsatz List Bool ZArith.
From Verif Require Import Base NumModel VecModel LinModel RoundModel PolyModel IntModel
  GeoSpec LinSpec RoundSpec PolySpec IntSpec GeoLemmas LinProofs BoxProofs EllProofs PolyProofs PolyBridge QuadProofs
  SegIntProofs SegIntProofs2.
Import ListNotations.
Local Open Scope R_scope.

(** ** the search segment *)
Section Search.
Variables (f : face R) (l : line R) (L : R).
Hypothesis Ud : unit3 (l_dir l).
Let m := line_proj l (face_center f).
Let s := search_segment f l L.

Lemma search_ends : s_src s = padd m (pscale (20 * L) (l_dir l)) /\ s_tgt s = padd m (pscale (- (20 * L)) (l_dir l)).
Proof.
  unfold s, search_segment. fold m. cbn [s_src s_tgt]. split; rewrite vscale_pscale; rn.
  - rewrite vadd_padd. f_equal. f_equal. ring.
  - rewrite vsub_psub. pq; ring.
Qed.
Lemma search_nondeg : 0 < L -> nondeg s.
Proof.
  intros HL. unfold nondeg. destruct search_ends as [-> ->]. intros E.
  apply line_coord in E; [lra|apply unit3_nonzero, Ud].
Qed.
Lemma m_on : exists t, m = padd (l_sup l) (pscale t (l_dir l)).
Proof. unfold m. rewrite line_proj_eq. eexists. reflexivity. Qed.
Lemma search_on_line x : seg_pts s x -> line_pts l x.
Proof.
  unfold seg_pts. destruct search_ends as [-> ->]. rewrite on_seg_1d. intros (t & _ & ->).
  destruct m_on as [t0 ->]. exists (t0 + t). pq; ring.
Qed.
Lemma line_coord_m x : line_pts l x -> exists t, x = padd m (pscale t (l_dir l)) /\
  dist (face_center f) x * dist (face_center f) x =
  dist (face_center f) m * dist (face_center f) m + t * t.
Proof.
  intros [t ->]. destruct m_on as [t0 E0]. exists (t - t0). split; [rewrite E0; pq; ring|].
  unfold dist. rewrite !norm_sq. rewrite <- (Rplus_0_r (dot (psub (face_center f) m) (psub (face_center f) m))).
  unfold m. rewrite line_proj_eq in *. pose proof Ud as U. unfold unit3 in U.
  assert (t0 = dot (l_dir l) (psub (face_center f) (l_sup l))) as ->.
  { unfold m in E0. rewrite line_proj_eq in E0. apply line_coord in E0; [congruence|apply unit3_nonzero, Ud]. }
  revert U. generalize (l_dir l) (face_center f) (l_sup l). clear. intros d c p U. coords. nsatz.
Qed.
Lemma covered eps x : 0 < eps -> line_pts l x -> dist (face_center f) x + eps <= 20 * L ->
  seg_pts s x /\ eps <= dist x (s_src s) /\ eps <= dist x (s_tgt s).
Proof.
  intros He Hx Hd. destruct (line_coord_m x Hx) as (t & -> & E).
  pose proof (dist_nonneg (face_center f) m) as H0.
  pose proof (dist_nonneg (face_center f) (padd m (pscale t (l_dir l)))) as H1.
  assert (Ht : Rabs t <= dist (face_center f) (padd m (pscale t (l_dir l)))).
  { apply sq_le_iff; [apply Rabs_pos|assumption|]. rewrite <- Rabs_mult, (Rabs_right (t * t)) by nra. nra. }
  assert (Hr : - (20 * L - eps) <= t <= 20 * L - eps).
  { unfold Rabs in Ht. destruct Rcase_abs in Ht; lra. }
  assert (Dm : forall a b, dist (padd m (pscale a (l_dir l))) (padd m (pscale b (l_dir l))) = Rabs (a - b)).
  { intros a b. unfold dist. replace (psub _ _) with (pscale (a - b) (l_dir l)) by (pq; ring).
    rewrite norm_scale', (norm_unit _ Ud). ring. }
  unfold seg_pts. destruct search_ends as [-> ->]. rewrite !Dm. split; [|split].
  - apply on_seg_1d. exists t. split; [lra|reflexivity].
  - rewrite Rabs_left1; lra.
  - rewrite Rabs_right; lra.
Qed.
End Search.

(** ** a face and a line of its plane *)
Lemma in_plane_line K (pl : plane R) (l : line R) eps : unit3 (pl_n pl) -> 0 < eps ->
  (forall x, line_pts l x -> plane_pts pl x) -> plane_line K pl l eps = Ok (IsLine l).
Proof.
  intros Un He Hin. unfold plane_line.
  assert (H0 : plane_pts pl (l_sup l)) by (apply Hin; exists 0; pq; ring).
  assert (H1 : plane_pts pl (padd (l_sup l) (l_dir l))) by (apply Hin; exists 1; pq; ring).
  unfold plane_pts, on_plane in *.
  rewrite gp_normal_ortho by (clear - H0 H1; coords; lra). cbn [negb].
  rewrite proj_dist, H0, Rabs_R0 by exact Un. cbn [nltb R_num].
  assert (Rltb eps 0 = false) as -> by (apply Rltb_false; lra). reflexivity.
Qed.

Lemma planar_line_exact K (f : face R) (l : line R) L ceps eps :
  unit3 (pl_n (face_plane f)) -> unit3 (l_dir l) -> 0 < eps ->
  (forall x, line_pts l x -> plane_pts (face_plane f) x) ->
  0 < L -> (forall x, face_set f x -> line_pts l x -> dist (face_center f) x + eps <= 20 * L) ->
  exact_on K f l (1 / 10 * eps) ->
  exists r, planar_line K f l L ceps eps = Ok r /\ describes r (both (face_set f) (line_pts l)) /\
    (r = IsEmpty \/ (exists p, r = IsPoint p) \/ (exists s, r = IsSeg s)).
Proof.
  intros Un Ud He Hin HL Hcov HK. unfold planar_line. rewrite (in_plane_line K _ _ _ Un He Hin). cbn [obind].
  destruct (HK (search_segment f l L) (search_nondeg f l L Ud HL) (search_on_line f l L)) as [HC HU].
  change ((nlit 1 10 * eps)%num : R) with (1 / 10 * eps).
  set (s := search_segment f l L) in *.
  assert (EQ : forall x, both (face_set f) (line_pts l) x <-> both (seg_pts s) (face_set f) x).
  { intros x. split; intros [A B].
    - split; [|exact A]. apply (covered f l L Ud eps x He B), Hcov; assumption.
    - split; [exact B|]. apply (search_on_line f l L), A. }
  destruct HC as [(a & b & Hab & -> & Hx)|[-> Huniq]].
  { eexists. split; [reflexivity|]. split; [|eauto]. cbn. split; [exact Hab|]. intros x. rewrite EQ. apply Hx. }
  destruct HU as [HU0 HU1].
  destruct (Classical_Prop.classic (exists p, both (seg_pts s) (face_set f) p)) as [[p Hp]|Hn].
  - assert (U : forall x, both (seg_pts s) (face_set f) x <-> x = p).
    { intros x. split; [intros; apply Huniq; assumption|intros ->; exact Hp]. }
    destruct (HU1 p U) as (V1 & V2 & V3'). destruct (Nat.eqb_spec (length (k_cut K s f (1 / 10 * eps))) 2); [contradiction|].
    assert (Hpl : both (face_set f) (line_pts l) p) by (apply EQ, Hp). destruct Hpl as [P1 P2].
    destruct (covered f l L Ud eps p He P2 (Hcov p P1 P2)) as (_ & D1 & D2). fold s in D1, D2.
    assert (PF : forall q, eps <= dist p q -> pt_eq p q eps = false).
    { intros q Hq. apply not_true_iff_false. rewrite pt_eq_dist by exact He. lra. }
    assert (PT : forall q, pt_eq q q eps = true) by (intros; apply pt_eq_dist; [exact He|rewrite dist_self; exact He]).
    assert (FS : find (fun p0 => negb (pt_eq p0 (s_src s) eps) && negb (pt_eq p0 (s_tgt s) eps))
                   (k_cut K s f (1 / 10 * eps)) = Some p).
    { revert V2 V3'. generalize (k_cut K s f (1 / 10 * eps)). intros vs. induction vs as [|v vs IH]; intros V2 V3'; [destruct V2|].
      cbn [find]. destruct (V3' v (or_introl eq_refl)) as [[->| ->]| ->].
      - rewrite PT. cbn [negb andb]. apply IH; [|intros; apply V3'; right; assumption].
        destruct V2 as [E|]; [|assumption]. rewrite E, dist_self in D1. lra.
      - rewrite PT. cbn [negb]. rewrite andb_false_r. apply IH; [|intros; apply V3'; right; assumption].
        destruct V2 as [E|]; [|assumption]. rewrite E, dist_self in D2. lra.
      - rewrite !PF by assumption. reflexivity. }
    rewrite FS. eexists. split; [reflexivity|]. split; [|eauto]. cbn. intros x. rewrite EQ. apply U.
  - rewrite HU0 by (intros x Hx; apply Hn; eauto). cbn [Nat.eqb]. eexists. split; [reflexivity|]. split; [|auto].
    cbn. intros x Hx. apply Hn. exists x. apply EQ, Hx.
Qed.

(** ** two faces *)
Lemma both_iff (S T S' T' : pt -> Prop) x : (S x <-> S' x) -> (T x <-> T' x) -> both S T x <-> both S' T' x.
Proof. unfold both. tauto. Qed.
Lemma describes_ext r (S T : pt -> Prop) : (forall x, S x <-> T x) -> describes r S -> describes r T.
Proof.
  intros E. destruct r; cbn; intros H.
  - intros x. rewrite <- E. apply H.
  - intros x. rewrite <- E. apply H.
  - split; [apply H|]. intros x. rewrite <- E. apply H.
  - split; [apply H|]. intros x. rewrite <- E. apply H.
  - split; [apply H|]. intros x. rewrite <- E. apply H.
Qed.

Lemma seg_vecs_parallel (s1 s2 : segment R) (l : line R) : nondeg s1 -> nondeg s2 ->
  (forall x, seg_pts s1 x -> line_pts l x) -> (forall x, seg_pts s2 x -> line_pts l x) ->
  parallel (seg_vec s1) (seg_vec s2).
Proof.
  intros N1 N2 H1 H2.
  destruct (H1 _ (seg_end_on _ _ (is_src s1))) as [a A]. destruct (H1 _ (seg_end_on _ _ (is_tgt s1))) as [b B].
  destruct (H2 _ (seg_end_on _ _ (is_src s2))) as [c C]. destruct (H2 _ (seg_end_on _ _ (is_tgt s2))) as [d D].
  unfold parallel, seg_vec. rewrite A, B, C, D.
  assert (b - a <> 0). { intros Z. apply N1. rewrite A, B. replace b with a by lra. reflexivity. }
  assert (d - c <> 0). { intros Z. apply N2. rewrite C, D. replace d with c by lra. reflexivity. }
  exists ((d - c) / (b - a)). split.
  - unfold Rdiv. apply Rmult_integral_contrapositive_currified; [assumption|apply Rinv_neq_0_compat; assumption].
  - pq; field; assumption.
Qed.

(** the end points of equal segments are equal *)
Lemma seg_ends_unique : forall s s', nondeg s -> nondeg s' -> (forall x, seg_pts s x <-> seg_pts s' x) ->
  forall e, is_end s' e -> is_end s e.
Proof.
  intros s s' N N' Q e Hee. pose proof (seg_end_on _ _ Hee) as H0. apply Q in H0.
    unfold seg_pts in *. destruct s as [a b], s' as [c d]. cbn in *.
    assert (Hu : psub b a <> zero3) by (apply (seg_nondeg (mkSeg a b)), N).
    assert (Ea : a = padd a (pscale 0 (psub b a))) by (pq; ring).
    assert (Eb : b = padd a (pscale 1 (psub b a))) by (pq; ring).
    set (u := psub b a) in *. clearbody u.
    assert (HQ : forall x, on_segment c d x <-> exists t, 0 <= t <= 1 /\ x = padd a (pscale t u)).
    { intros x. rewrite <- Q. rewrite Eb. rewrite Ea at 1. rewrite on_seg_1d. split; intros (t & Ht & E); exists t; split; auto; lra. }
    destruct (proj1 (HQ c)) as (tc & Tc & Ec); [exists 0; split; [lra|pq; ring]|].
    destruct (proj1 (HQ d)) as (td & Td & Ed); [exists 1; split; [lra|pq; ring]|].
    assert (Ha : on_segment c d a) by (apply HQ; exists 0; split; [lra|exact Ea]).
    assert (Hb : on_segment c d b) by (apply HQ; exists 1; split; [lra|exact Eb]).
    assert (Ha' : on_segment (padd a (pscale tc u)) (padd a (pscale td u)) (padd a (pscale 0 u))).
    { rewrite <- Ec, <- Ed, <- Ea. exact Ha. }
    assert (Hb' : on_segment (padd a (pscale tc u)) (padd a (pscale td u)) (padd a (pscale 1 u))).
    { rewrite <- Ec, <- Ed, <- Eb. exact Hb. }
    apply on_seg_1d_at in Ha', Hb'; try exact Hu.
    unfold is_end in *. cbn in *. rewrite Ea, Eb.
    assert ((tc = 0 /\ td = 1) \/ (tc = 1 /\ td = 0)) as [[-> ->]|[-> ->]] by lra.
    - destruct Hee as [->| ->]; [left; exact Ec|right; exact Ed].
    - destruct Hee as [->| ->]; [right; exact Ec|left; exact Ed].
Qed.

Section Faces.
Variables (K : kernel R) (f1 f2 : face R) (L ceps1 ceps2 eps : R).
Hypothesis He : 0 < eps.
Hypothesis Un1 : unit3 (pl_n (face_plane f1)).
Hypothesis Un2 : unit3 (pl_n (face_plane f2)).
Hypothesis In1 : forall x, face_set f1 x -> plane_pts (face_plane f1) x.
Hypothesis In2 : forall x, face_set f2 x -> plane_pts (face_plane f2) x.

Lemma planar_planar_apart : apart_planes (face_plane f1) (face_plane f2) eps ->
  planar_planar K f1 f2 L ceps1 ceps2 eps = Ok IsEmpty /\ describes IsEmpty (both (face_set f1) (face_set f2)).
Proof.
  intros [HP HF]. unfold planar_planar.
  destruct (plane_plane_exact K (face_plane f1) (face_plane f2) eps Un1 Un2 He) as (r & E & D).
  { left. auto. }
  assert (r = IsEmpty) as ->.
  { assert (HP2 := HP). destruct (plane_plane_kinds _ _ _ _ _ E) as [->|[->|[l ->]]]; [reflexivity| |].
    - exfalso. unfold plane_plane in E. rewrite gp_parallel_true in E by (auto using unit3_nonzero).
      destruct (plane_contains (face_plane f1) (pl_sup (face_plane f2)) eps) eqn:C; [|discriminate].
      rewrite plane_contains_eq in C by exact Un1.
      specialize (HF _ (plane_proj_on (face_plane f1) (pl_sup (face_plane f2)) Un1)). lra.
    - exfalso. unfold plane_plane in E. rewrite gp_parallel_true in E by (auto using unit3_nonzero).
      destruct plane_contains; discriminate. }
  rewrite E. cbn [obind]. split; [reflexivity|]. cbn. intros x [A B]. apply (D x). split; auto.
Qed.

Lemma planar_planar_same : parallel (pl_n (face_plane f1)) (pl_n (face_plane f2)) ->
  plane_pts (face_plane f1) (pl_sup (face_plane f2)) ->
  planar_planar K f1 f2 L ceps1 ceps2 eps = Throw RuntimeError.
Proof.
  intros HP HS. unfold planar_planar, plane_plane. rewrite gp_parallel_true by (auto using unit3_nonzero).
  assert (plane_contains (face_plane f1) (pl_sup (face_plane f2)) eps = true) as ->.
  { apply (plane_contains_dist (face_plane f1) _ eps 0 Un1); [|exact He].
    split; [exists (pl_sup (face_plane f2)); split; [exact HS|apply dist_self]|]. intros. apply dist_nonneg. }
  reflexivity.
Qed.

Hypothesis HO : oblique ang_tol (pl_n (face_plane f1)) (pl_n (face_plane f2)).
Hypothesis HK : kernel_ok K f1 f2 eps.
Hypothesis HL : 0 < L.
Hypothesis Cov1 : forall x, face_set f1 x -> dist (face_center f1) x + eps <= 20 * L.
Hypothesis Cov2 : forall x, face_set f2 x -> dist (face_center f2) x + eps <= 20 * L.

Lemma plane_line_found : exists l, plane_plane K (face_plane f1) (face_plane f2) eps = Ok (IsLine l) /\
  meet_in (face_plane f1) (face_plane f2) l.
Proof.
  destruct HK as [HK1 _].
  destruct (plane_plane_exact K (face_plane f1) (face_plane f2) eps Un1 Un2 He) as (r & E & D); [right; auto|].
  unfold plane_plane in E |- *. rewrite gp_parallel_false in E |- * by exact HO.
  destruct HK1 as (l & El & Hl & _). rewrite El in *. injection E as <-. eexists. split; [reflexivity|]. exact D.
Qed.

(** the parts on the line *)
Lemma parts (l : line R) : meet_in (face_plane f1) (face_plane f2) l ->
  exists r1 r2, planar_line K f1 l L ceps1 eps = Ok r1 /\ planar_line K f2 l L ceps2 eps = Ok r2 /\
    describes r1 (both (face_set f1) (plane_pts (face_plane f2))) /\
    describes r2 (both (face_set f2) (plane_pts (face_plane f1))) /\
    (r1 = IsEmpty \/ (exists p, r1 = IsPoint p) \/ (exists s, r1 = IsSeg s)) /\
    (r2 = IsEmpty \/ (exists p, r2 = IsPoint p) \/ (exists s, r2 = IsSeg s)).
Proof.
  intros Hl. pose proof Hl as [Ud Hx]. destruct HK as [_ HK2]. destruct (HK2 l Hl) as (X1 & X2 & _).
  destruct (planar_line_exact K f1 l L ceps1 eps Un1 Ud He) as (r1 & E1 & D1 & k1); auto.
  { intros x H. apply Hx in H. apply H. }
  destruct (planar_line_exact K f2 l L ceps2 eps Un2 Ud He) as (r2 & E2 & D2 & k2); auto.
  { intros x H. apply Hx in H. apply H. }
  exists r1, r2. split; [exact E1|]. split; [exact E2|]. split; [|split; [|split; [exact k1|exact k2]]].
  - apply (describes_ext r1 (both (face_set f1) (line_pts l))); [|exact D1]. intros x. split; intros [A B]; (split; [exact A|]).
    + apply Hx in B. apply B.
    + apply Hx. split; auto.
  - apply (describes_ext r2 (both (face_set f2) (line_pts l))); [|exact D2]. intros x. split; intros [A B]; (split; [exact A|]).
    + apply Hx in B. apply B.
    + apply Hx. split; auto.
Qed.

Lemma common_parts x : both (face_set f1) (face_set f2) x <->
  both (both (face_set f1) (plane_pts (face_plane f2))) (both (face_set f2) (plane_pts (face_plane f1))) x.
Proof. split; [intros [A B]; repeat split; auto|intros [[A _] [B _]]; split; assumption]. Qed.

Let I1 := both (face_set f1) (plane_pts (face_plane f2)).
Let I2 := both (face_set f2) (plane_pts (face_plane f1)).

Lemma planar_planar_exact : clean_faces f1 f2 eps ->
  exists r, planar_planar K f1 f2 L ceps1 ceps2 eps = Ok r /\ describes r (both (face_set f1) (face_set f2)) /\
    (r = IsEmpty \/ (exists p, r = IsPoint p) \/ (exists s, r = IsSeg s)).
Proof.
  intros (C1 & C2 & C3). fold I1 I2 in C1, C2, C3. unfold planar_planar.
  destruct plane_line_found as (l & -> & Hl). cbn [obind].
  destruct (parts l Hl) as (r1 & r2 & -> & -> & D1 & D2 & k1 & k2). cbn [obind]. fold I1 in D1. fold I2 in D2.
  assert (EX : forall r, describes r (both I1 I2) -> describes r (both (face_set f1) (face_set f2))).
  { intros r Hr. apply (describes_ext r (both I1 I2)); [|exact Hr]. intros x. symmetry. apply common_parts. }
  pose proof Hl as [Ud Hx].
  assert (OL1 : forall s, is_seg s I1 -> forall x, seg_pts s x -> line_pts l x).
  { intros s [_ Hs] x H. apply Hs in H. destruct H as [A B]. apply Hx. split; auto. }
  assert (OL2 : forall s, is_seg s I2 -> forall x, seg_pts s x -> line_pts l x).
  { intros s [_ Hs] x H. apply Hs in H. destruct H as [A B]. apply Hx. split; auto. }
  destruct k1 as [->|[[p1 ->]|[s1 ->]]]; destruct k2 as [->|[[p2 ->]|[s2 ->]]]; cbn [obind].
  - exists IsEmpty. split; [reflexivity|]. split; [|auto]. apply EX. cbn in D1 |- *. intros x [A B]. exact (D1 x A).
  - exists IsEmpty. split; [reflexivity|]. split; [|auto]. apply EX. cbn in D1 |- *. intros x [A B]. exact (D1 x A).
  - exists IsEmpty. split; [reflexivity|]. split; [|auto]. apply EX. cbn in D1 |- *. intros x [A B]. exact (D1 x A).
  - exists IsEmpty. split; [reflexivity|]. split; [|auto]. apply EX. cbn in D2 |- *. intros x [A B]. exact (D2 x B).
  - exists IsEmpty. split; [reflexivity|]. split; [|auto]. apply EX. cbn. intros x [A B].
    cbn in D1, D2. apply D1 in A. apply D2 in B. apply (C3 p1 p2); [exact D1|exact D2|congruence].
  - (* a point and a segment *)
    assert (Hc := C2 p1 s2 (or_introl (conj D1 D2))). destruct D2 as [N2 D2]. cbn in D1.
    destruct (seg_contains s2 p1 eps true) eqn:B.
    + apply (contains_clear s2 p1 eps N2 He Hc) in B. exists (IsPoint p1). split; [reflexivity|]. split; [|eauto].
      apply EX. cbn. intros x. split; [intros [A _]; apply D1, A|]. intros ->. split; [apply D1; reflexivity|apply D2, B].
    + exists IsEmpty. split; [reflexivity|]. split; [|auto]. apply EX. cbn. intros x [A A2]. apply D1 in A. subst x.
      apply D2 in A2. apply (contains_clear s2 p1 eps N2 He Hc) in A2. congruence.
  - exists IsEmpty. split; [reflexivity|]. split; [|auto]. apply EX. cbn in D2 |- *. intros x [A B]. exact (D2 x B).
  - assert (Hc := C2 p2 s1 (or_intror (conj D1 D2))). destruct D1 as [N1 D1]. cbn in D2.
    destruct (seg_contains s1 p2 eps true) eqn:B.
    + apply (contains_clear s1 p2 eps N1 He Hc) in B. exists (IsPoint p2). split; [reflexivity|]. split; [|eauto].
      apply EX. cbn. intros x. split; [intros [_ A]; apply D2, A|]. intros ->. split; [apply D1, B|apply D2; reflexivity].
    + exists IsEmpty. split; [reflexivity|]. split; [|auto]. apply EX. cbn. intros x [A2 A]. apply D2 in A. subst x.
      apply D1 in A2. apply (contains_clear s1 p2 eps N1 He Hc) in A2. congruence.
  - destruct (C1 s1 s2 D1 D2) as [CL NT]. pose proof D1 as [N1 D1']. pose proof D2 as [N2 D2'].
    pose proof (seg_vecs_parallel s1 s2 l N1 N2 (OL1 s1 D1) (OL2 s2 D2)) as HP.
    destruct HK as [_ HK2]. destruct (HK2 l Hl) as (_ & _ & HF).
    specialize (HF s1 s2 N1 N2 (OL1 s1 D1) (OL2 s2 D2)).
    destruct (parallel_result K s1 s2 eps N1 N2 He CL HF HP NT) as (r & E & D & kind). rewrite E. cbn [obind].
    exists r. split; [destruct kind as [->|[s ->]]; reflexivity|]. split.
    + apply EX. apply (describes_ext r (both (seg_pts s1) (seg_pts s2))); [|exact D].
      intros x. unfold both, seg_pts. rewrite D1', D2'. reflexivity.
    + destruct kind as [->|[s ->]]; eauto.
Qed.

(** what goes wrong: both faces touch the line in the same point; both parts are segments and
    touch each other *)
Lemma planar_points p : is_point p I1 -> is_point p I2 ->
  planar_planar K f1 f2 L ceps1 ceps2 eps = Ok IsEmpty /\ face_set f1 p /\ face_set f2 p.
Proof.
  intros P1 P2. unfold planar_planar. destruct plane_line_found as (l & -> & Hl). cbn [obind].
  destruct (parts l Hl) as (r1 & r2 & -> & -> & D1 & D2 & k1 & k2). cbn [obind]. fold I1 in D1. fold I2 in D2.
  cbn in P1, P2. assert (A1 : I1 p) by (apply P1; reflexivity). assert (A2 : I2 p) by (apply P2; reflexivity).
  split; [|split; [apply A1|apply A2]].
  assert (Hns : forall s (I : pt -> Prop), is_seg s I -> (forall x, I x <-> x = p) -> False).
  { intros s I [Hn Hs] Hp. apply Hn. transitivity p.
    - apply Hp, Hs, seg_end_on, is_src.
    - symmetry. apply Hp, Hs, seg_end_on, is_tgt. }
  destruct k1 as [->|[[p1 ->]|[s1 ->]]].
  - exfalso. exact (D1 p A1).
  - destruct k2 as [->|[[p2 ->]|[s2 ->]]]; [exfalso; exact (D2 p A2)|reflexivity|].
    exfalso. exact (Hns s2 I2 D2 P2).
  - exfalso. exact (Hns s1 I1 D1 P1).
Qed.
Lemma planar_touch s1 s2 p : is_seg s1 I1 -> is_seg s2 I2 -> clear s1 s2 eps -> touch_at s1 s2 p ->
  exists s, planar_planar K f1 f2 L ceps1 ceps2 eps = Ok (IsSeg s) /\ s_src s = s_tgt s.
Proof.
  intros S1 S2 HCl HT. unfold planar_planar. destruct plane_line_found as (l & -> & Hl). cbn [obind].
  destruct (parts l Hl) as (r1 & r2 & -> & -> & D1 & D2 & k1 & k2). cbn [obind]. fold I1 in D1. fold I2 in D2.
  assert (Hse : forall s s' (I : pt -> Prop), is_seg s I -> is_seg s' I ->
     (forall x, seg_pts s x <-> seg_pts s' x)).
  { intros s s' I [_ A] [_ B] x. unfold seg_pts. rewrite <- A, <- B. reflexivity. }
  assert (Hne : forall r s (I : pt -> Prop), is_seg s I -> describes r I ->
     (r = IsEmpty \/ (exists p, r = IsPoint p) \/ (exists s, r = IsSeg s)) -> exists s', r = IsSeg s').
  { intros r s I [Hn Hs] Hr [->|[[q ->]|H]]; [| |exact H]; exfalso; cbn in Hr.
    - apply (Hr (s_src s)). apply Hs, seg_end_on, is_src.
    - apply Hn. transitivity q; [|symmetry]; apply Hr, Hs, seg_end_on; auto using is_src, is_tgt. }
  destruct (Hne r1 s1 I1 S1 D1 k1) as [s1' ->]. destruct (Hne r2 s2 I2 S2 D2 k2) as [s2' ->].
  pose proof (Hse s1 s1' I1 S1 D1) as Q1. pose proof (Hse s2 s2' I2 S2 D2) as Q2.
  pose proof Hl as [Ud Hx].
  assert (OL1 : forall x, seg_pts s1' x -> line_pts l x).
  { intros x H. apply (proj2 D1) in H. destruct H as [A B]. apply Hx. split; auto. }
  assert (OL2 : forall x, seg_pts s2' x -> line_pts l x).
  { intros x H. apply (proj2 D2) in H. destruct H as [A B]. apply Hx. split; auto. }
  destruct S1 as [N1 S1]. destruct S2 as [N2 S2]. pose proof (proj1 D1) as N1'. pose proof (proj1 D2) as N2'.
  pose proof seg_ends_unique as Ends.
  assert (CL' : clear s1' s2' eps).
  { destruct HCl as [A B]. split; intros e He'.
    - destruct (A e (Ends s1 s1' N1 N1' Q1 e He')) as [X|X]; [left; apply Q2, X|right; intros q Hq; apply X, Q2, Hq].
    - destruct (B e (Ends s2 s2' N2 N2' Q2 e He')) as [X|X]; [left; apply Q1, X|right; intros q Hq; apply X, Q1, Hq]. }
  assert (HT' : touch_at s1' s2' p).
  { split; [exact (seg_vecs_parallel s1' s2' l N1' N2' OL1 OL2)|]. intros x. destruct HT as [_ HT].
    rewrite <- HT. unfold both. rewrite Q1, Q2. reflexivity. }
  rewrite (seg_seg_touch K s1' s2' eps p N1' N2' He CL' HT'). cbn [obind]. eexists. split; [reflexivity|]. reflexivity.
Qed.
End Faces.
