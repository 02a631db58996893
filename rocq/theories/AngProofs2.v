(** Intersection angles: the remaining combinations, minima over pieces, and counterexamples. *)

From Coq Require Import Reals Lra Psatz Bool List.
From Verif Require Import Base NumModel VecModel LinModel RoundModel PolyModel DistModel IntModel AngModel
  GeoSpec LinSpec RoundSpec AngSpec GeoLemmas MathProofs LinProofs EllProofs ArcProofs CylProofs SegIntProofs AngProofs.
Import ListNotations.
Local Open Scope R_scope.

(** * Planar geometries *)
Lemma face_plane_normal (f : face R) : pl_n (face_plane f) = face_normal f.
Proof. destruct f; reflexivity. Qed.
Lemma faces_angle top (f1 f2 : face R) i : face_dir_ok f1 -> face_dir_ok f2 ->
  (exists p, i = PcPoint p) \/ (exists s, i = PcSeg s) ->
  exists theta, int_angle top (GFace f1) (GFace f2) i = Ok theta /\
    angle_between (face_normal f1) (face_normal f2) theta /\
    dihedral (face_normal f1) (face_normal f2) theta.
Proof.
  unfold face_dir_ok. rewrite <- !face_plane_normal. intros H1 H2 Hi.
  exists (plane_angle (face_plane f1) (face_plane f2)).
  pose proof (plane_angle_spec _ _ H1 H2) as S.
  split; [destruct Hi as [[p ->]|[s ->]]; reflexivity|]. split; [exact S|]. apply dihedral_angle; assumption.
Qed.

(** * Planar geometries and cylinder surfaces *)
Lemma surf_point_angle top (f : face R) c p : face_dir_ok f -> surf_ok c -> cyl_lateral_set c p ->
  exists theta, int_angle top (GFace f) (GSurf c) (PcPoint p) = Ok theta /\ angle_at (face_normal f) c p theta.
Proof.
  unfold face_dir_ok. rewrite <- face_plane_normal. intros H1 H2 Hp. eexists. split; [reflexivity|].
  apply point_angle; assumption.
Qed.
Lemma surf_segment_angle top (f : face R) c s : face_dir_ok f -> surf_ok c ->
  cyl_lateral_set c (s_src s) -> on_line (s_src s) (e_n (c_bot c)) (s_tgt s) ->
  exists theta, int_angle top (GFace f) (GSurf c) (PcSeg s) = Ok theta /\
    forall p, on_segment (s_src s) (s_tgt s) p -> angle_at (face_normal f) c p theta.
Proof.
  unfold face_dir_ok. rewrite <- face_plane_normal. intros H1 H2 Hp [k Hk]. eexists. split; [reflexivity|].
  intros p [t [_ ->]]. rewrite Hk. apply angle_generator with (s_src s).
  - exists (t * k). apply v3_eq; coords; ring.
  - apply point_angle; assumption.
Qed.
Lemma surf_ellipse_angle top (f : face R) c e : PI / 2 <= top -> face_dir_ok f -> surf_ok c -> ell_ok e ->
  face_normal f = e_n e \/ face_normal f = pscale (-1) (e_n e) ->
  (forall p, on_ellipse e p -> cyl_lateral_set c p) ->
  exists theta, int_angle top (GFace f) (GSurf c) (PcEll e) = Ok theta /\
    smallest_angle (face_normal f) c (on_ellipse e) theta.
Proof.
  unfold face_dir_ok. rewrite <- face_plane_normal. intros Ht H1 H2 He Hn Hon.
  apply (ellipse_angle (face_plane f) c e H2 He H1 Hn Hon top Ht).
Qed.

Lemma arc_point_at (a : arc R) t : ell_ok (a_ell a) -> arc_point a t = arc_at (a_ell a) (a_s a) (a_t a) t.
Proof.
  intros He.
  assert (arc_delta a = (if Rlt_dec (a_s a) (a_t a) then a_t a - a_s a else 2 * PI - a_s a + a_t a)) as E.
  { unfold arc_delta. rewrite twopi_lit. rn. rcmp; destruct (Rlt_dec (a_s a) (a_t a)); try lra; reflexivity. }
  unfold arc_point, arc_at. rewrite ell_angle_point_eq by exact He. rewrite E. reflexivity.
Qed.
Lemma surf_arc_angle top (f : face R) c (a : arc R) : PI / 2 <= top -> face_dir_ok f -> surf_ok c -> ell_ok (a_ell a) ->
  (forall tau, 0 <= tau <= 1 -> cyl_lateral_set c (arc_at (a_ell a) (a_s a) (a_t a) tau)) ->
  exists theta, int_angle top (GFace f) (GSurf c) (PcArc a) = Ok theta /\
    smallest_angle (face_normal f) c
      (fun p => exists tau, In tau [0; 1 / 4; 1 / 2; 3 / 4; 1] /\ p = arc_at (a_ell a) (a_s a) (a_t a) tau) theta.
Proof.
  unfold face_dir_ok. rewrite <- face_plane_normal. intros Ht H1 H2 He Hon.
  set (g := fun t => plane_angle (face_plane f) (surf_tangent c (arc_point a t))).
  exists (min_over top g params5). split; [reflexivity|].
  assert (forall t, In t [0; 1 / 4; 1 / 2; 3 / 4; 1] -> cyl_lateral_set c (arc_point a t)) as Hpt.
  { intros t Hin. rewrite arc_point_at by exact He. apply Hon. cbn in Hin. lra. }
  destruct (min_over_attained top g params5) as [Hle [t [Hin Hm]]].
  - rewrite params5_eq. discriminate.
  - rewrite params5_eq. intros t Hin. apply Rle_trans with (PI / 2); [|exact Ht].
    apply plane_angle_range; [exact H1|]. apply tangent_unit; [exact H2|]. apply Hpt, Hin.
  - set (m := min_over top g params5) in *. rewrite params5_eq in *. split.
    + exists (arc_point a t). split; [exists t; split; [exact Hin|apply arc_point_at, He]|]. rewrite Hm.
      apply point_angle; [exact H2|exact H1|apply Hpt, Hin].
    + intros p th [tau [Htau ->]] Hth. rewrite <- arc_point_at in Hth by exact He.
      replace th with (g tau); [apply Hle, Htau|].
      apply (angle_at_unique (pl_n (face_plane f)) c (arc_point a tau)).
      * apply unit3_nonzero, H1.
      * apply H2.
      * apply (lateral_offset _ _ H2). apply Hpt, Htau.
      * apply point_angle; [exact H2|exact H1|apply Hpt, Htau].
      * exact Hth.
Qed.

(** * Shapes *)
Lemma cross_parallel (b1 b2 N : pt) : ortho b1 N -> ortho b2 N -> det3 b1 b2 N <> 0 ->
  N <> zero3 /\ exists k, k <> 0 /\ to_dir (cross b1 b2) = pscale k N /\ unit3 (to_dir (cross b1 b2)).
Proof.
  intros O1 O2 D. assert (N <> zero3) as HN by (intros E; apply D; rewrite E; coords; ring).
  split; [exact HN|]. pose proof (dot_pos _ HN) as P.
  assert (pscale (dot N N) (cross b1 b2) = pscale (det3 b1 b2 N) N) as E.
  { apply psub_zero. transitivity (cross N (psub (pscale (dot b1 N) b2) (pscale (dot b2 N) b1))).
    - apply v3_eq; coords; ring.
    - unfold ortho in *. rewrite O1, O2. apply v3_eq; coords; ring. }
  set (q := det3 b1 b2 N / dot N N).
  assert (q <> 0) as Q.
  { unfold q, Rdiv. apply Rmult_integral_contrapositive_currified; [exact D|]. apply Rinv_neq_0_compat. lra. }
  assert (cross b1 b2 = pscale q N) as E2.
  { transitivity (pscale (/ dot N N) (pscale (dot N N) (cross b1 b2))).
    - set (k := dot N N) in *. apply v3_eq; unfold pscale; cbn [vx vy vz]; field; lra.
    - rewrite E. unfold q. set (k := dot N N) in *. apply v3_eq; unfold pscale; cbn [vx vy vz]; field; lra. }
  assert (cross b1 b2 <> zero3) as Cz.
  { intros Z. rewrite Z in E2. apply HN. assert (pscale (/ q) (pscale q N) = N) as E3 by (apply v3_eq; unfold pscale; cbn [vx vy vz]; field; exact Q).
    rewrite <- E3, <- E2. apply v3_eq; unfold pscale, zero3; cbn [vx vy vz]; ring. }
  pose proof (norm_pos _ Cz) as NP.
  exists (/ norm (cross b1 b2) * q). split; [|split; [|apply to_dir_unit, Cz]].
  - apply Rmult_integral_contrapositive_currified; [apply Rinv_neq_0_compat; lra|exact Q].
  - rewrite to_dir_scale by exact Cz. generalize (/ norm (cross b1 b2)). intros k. rewrite E2.
    apply v3_eq; unfold pscale; cbn [vx vy vz]; ring.
Qed.

Lemma angle_parallel n1 n2 m1 m2 k1 k2 t : k1 <> 0 -> k2 <> 0 -> m1 = pscale k1 n1 -> m2 = pscale k2 n2 ->
  angle_between m1 m2 t -> angle_between n1 n2 t.
Proof.
  intros K1 K2 E1 E2 Ha.
  assert (n1 = pscale (/ k1) m1) as F1 by (rewrite E1; apply v3_eq; unfold pscale; cbn [vx vy vz]; field; exact K1).
  assert (n2 = pscale (/ k2) m2) as F2 by (rewrite E2; apply v3_eq; unfold pscale; cbn [vx vy vz]; field; exact K2).
  rewrite F2. apply angle_scale; [apply Rinv_neq_0_compat, K2|]. apply angle_sym. rewrite F1.
  apply angle_scale; [apply Rinv_neq_0_compat, K1|]. apply angle_sym, Ha.
Qed.

Lemma shape_tangent_spec s S N p : shape_ok s S N -> S p ->
  N p <> zero3 /\ unit3 (pl_n (shape_tangent s p)) /\ exists k, k <> 0 /\ pl_n (shape_tangent s p) = pscale k (N p).
Proof.
  intros Hs Hp. destruct (Hs p Hp) as (u & v & E & H). unfold shape_tangent. rewrite E.
  destruct (sf_d1 s u v) as [b1 b2]. destruct H as (D & O1 & O2).
  destruct (cross_parallel b1 b2 (N p) O1 O2 D) as (HN & k & K & Ek & U).
  split; [exact HN|]. split; [exact U|]. exists k. split; [exact K|exact Ek].
Qed.

Lemma shapes_point_angle top s1 s2 S1 S2 N1 N2 p : shape_ok s1 S1 N1 -> shape_ok s2 S2 N2 -> S1 p -> S2 p ->
  exists theta, int_angle top (GShape s1) (GShape s2) (PcPoint p) = Ok theta /\ angle_between (N1 p) (N2 p) theta.
Proof.
  intros H1 H2 P1 P2. destruct (shape_tangent_spec _ _ _ _ H1 P1) as (_ & U1 & k1 & K1 & E1).
  destruct (shape_tangent_spec _ _ _ _ H2 P2) as (_ & U2 & k2 & K2 & E2).
  eexists. split; [reflexivity|]. unfold shape_point_angle.
  eapply angle_parallel; [exact K1|exact K2|exact E1|exact E2|]. apply plane_angle_spec; assumption.
Qed.

Lemma face_shape_flat top (f : face R) s S N p : face_dir_ok f -> shape_ok s S N -> flat s -> S p ->
  exists theta, int_angle top (GFace f) (GShape s) (PcPoint p) = Ok theta /\ angle_between (face_normal f) (N p) theta.
Proof.
  unfold face_dir_ok. rewrite <- face_plane_normal. intros Hf Hs Hfl Hp.
  eexists. split; [reflexivity|]. destruct (Hs p Hp) as (u & v & E & H).
  unfold face_shape_point_angle. rewrite E. rewrite (Hfl 0 v u v). destruct (sf_d1 s u v) as [b1 b2]. destruct H as (D & O1 & O2).
  destruct (cross_parallel b1 b2 (N p) O1 O2 D) as (HN & k & K & Ek & U).
  apply (angle_parallel _ _ (pl_n (face_plane f)) (to_dir (cross b1 b2)) 1 k).
  - lra.
  - exact K.
  - apply v3_eq; unfold pscale; cbn [vx vy vz]; ring.
  - exact Ek.
  - apply (plane_angle_spec (face_plane f) (plane_pn p (to_dir (cross b1 b2)))); [exact Hf|exact U].
Qed.

(** an edge: the smallest of the angles at five points *)
Lemma edge_angle_spec top (g : pt -> R) (c : curve R) :
  (forall p, g p <= top) ->
  let at_ tau := cv_value c (cv_first c + tau * (cv_last c - cv_first c)) in
  (exists tau, In tau [0; 1 / 4; 1 / 2; 3 / 4; 1] /\ edge_angle top g c = g (at_ tau)) /\
  (forall tau, In tau [0; 1 / 4; 1 / 2; 3 / 4; 1] -> edge_angle top g c <= g (at_ tau)).
Proof.
  intros Ht at_. unfold edge_angle.
  destruct (min_over_attained top (fun t => g (at_ t)) params5) as [Hle Hex].
  - rewrite params5_eq. discriminate.
  - intros t _. apply Ht.
  - rewrite params5_eq in *. split; [exact Hex|exact Hle].
Qed.
Lemma plane_angle_le (p1 p2 : plane R) : plane_angle p1 p2 <= PI.
Proof. rewrite plane_angle_eq. apply acos_bound. Qed.
Lemma shapes_edge_angle top s1 s2 (c : curve R) : PI <= top ->
  exists theta, int_angle top (GShape s1) (GShape s2) (PcEdge c) = Ok theta /\
  let point tau := PcPoint (cv_value c (cv_first c + tau * (cv_last c - cv_first c))) in
  (exists tau, In tau [0; 1 / 4; 1 / 2; 3 / 4; 1] /\ int_angle top (GShape s1) (GShape s2) (point tau) = Ok theta) /\
  (forall tau x, In tau [0; 1 / 4; 1 / 2; 3 / 4; 1] -> int_angle top (GShape s1) (GShape s2) (point tau) = Ok x -> theta <= x).
Proof.
  intros Ht. eexists. split; [reflexivity|]. cbn zeta.
  destruct (edge_angle_spec top (shape_point_angle s1 s2) c) as [[tau [Hin E]] Hle].
  - intros p. eapply Rle_trans; [apply plane_angle_le|exact Ht].
  - split.
    + exists tau. split; [exact Hin|]. rewrite E. reflexivity.
    + intros t x Hin' [= <-]. apply Hle, Hin'.
Qed.
Lemma face_shape_edge_angle top f s (c : curve R) : PI <= top ->
  exists theta, int_angle top (GFace f) (GShape s) (PcEdge c) = Ok theta /\
  let point tau := PcPoint (cv_value c (cv_first c + tau * (cv_last c - cv_first c))) in
  (exists tau, In tau [0; 1 / 4; 1 / 2; 3 / 4; 1] /\ int_angle top (GFace f) (GShape s) (point tau) = Ok theta) /\
  (forall tau x, In tau [0; 1 / 4; 1 / 2; 3 / 4; 1] -> int_angle top (GFace f) (GShape s) (point tau) = Ok x -> theta <= x).
Proof.
  intros Ht. eexists. split; [reflexivity|]. cbn zeta.
  destruct (edge_angle_spec top (face_shape_point_angle (face_plane f) s) c) as [[tau [Hin E]] Hle].
  - intros p. unfold face_shape_point_angle. destruct (sf_proj s p) as [d [u v]]. destruct (sf_d1 s d v) as [b1 b2].
    eapply Rle_trans; [apply plane_angle_le|exact Ht].
  - split.
    + exists tau. split; [exact Hin|]. rewrite E. reflexivity.
    + intros t x Hin' [= <-]. apply Hle, Hin'.
Qed.

(** * All combinations *)
Lemma min_over_ext top (f g : R -> R) l : (forall t, f t = g t) -> min_over top f l = min_over top g l.
Proof.
  intros E. unfold min_over. revert top. induction l as [|x l IH]; intros top; cbn [fold_left]; [reflexivity|]. rewrite E. apply IH.
Qed.
Lemma int_angle_sym top (g1 g2 : ageo R) i : int_angle top g1 g2 i = int_angle top g2 g1 i.
Proof.
  destruct g1 as [p1|f1|c1|s1], g2 as [p2|f2|c2|s2], i; cbn [int_angle]; try reflexivity; f_equal;
    try apply plane_angle_sym.
  unfold edge_angle. apply min_over_ext. intros t. apply plane_angle_sym.
Qed.
Lemma int_angles_sym top (g1 g2 : ageo R) is : int_angles top g1 g2 is = int_angles top g2 g1 is.
Proof.
  unfold int_angles. generalize (@Ok R top). induction is as [|i is IH]; intros r; cbn [fold_left]; [reflexivity|].
  rewrite (int_angle_sym top g1 g2 i). apply IH.
Qed.
Lemma int_angle_total top (g1 g2 : ageo R) i :
  (has_angle g1 g2 i -> exists theta, int_angle top g1 g2 i = Ok theta) /\
  (~ has_angle g1 g2 i -> int_angle top g1 g2 i = Throw RuntimeError).
Proof.
  destruct g1, g2, i; cbn [int_angle face_surf_angle has_angle]; (split; [intros Hh; try (eexists; reflexivity); exfalso|intros Hh; try reflexivity; exfalso; apply Hh; eauto 10]);
    repeat match goal with H : _ \/ _ |- _ => destruct H | H : exists _, _ |- _ => destruct H end; try discriminate; try contradiction.
Qed.

Lemma classic_dec_ok (g1 g2 : ageo R) i : has_angle g1 g2 i \/ ~ has_angle g1 g2 i.
Proof.
  destruct g1, g2, i; cbn [has_angle]; try (left; eauto 10; fail);
    right; intros Hh; repeat match goal with H : _ \/ _ |- _ => destruct H | H : exists _, _ |- _ => destruct H end; try discriminate; try contradiction.
Qed.

(** * Several pieces *)
Lemma int_angles_spec top (g1 g2 : ageo R) is xs : is <> [] ->
  Forall2 (fun i x => int_angle top g1 g2 i = Ok x) is xs -> (forall x, In x xs -> x <= top) ->
  exists m, int_angles top g1 g2 is = Ok m /\ In m xs /\ forall x, In x xs -> m <= x.
Proof.
  intros Hne HF Ht.
  assert (forall t0, exists m, fold_left (fun r i => obind r (fun m => obind (int_angle top g1 g2 i) (fun x => Ok (nmin m x)))) is (Ok t0) = Ok m /\
    m <= t0 /\ (forall x, In x xs -> m <= x) /\ (m = t0 \/ In m xs)) as G.
  { clear Ht Hne. induction HF as [|i x is xs Hi HF IH]; intros t0.
    - exists t0. split; [reflexivity|]. split; [lra|]. split; [contradiction|]. left. reflexivity.
    - cbn [fold_left obind]. rewrite Hi. cbn [obind]. destruct (IH (nmin t0 x)) as (m & E & H1 & H2 & H3). exists m. split; [exact E|].
      rewrite nmin_min in *. pose proof (Rmin_l t0 x). pose proof (Rmin_r t0 x). split; [lra|]. split.
      + intros y [->|Hy]; [lra|apply H2, Hy].
      + destruct H3 as [E2|Hin]; [|right; right; exact Hin].
        unfold Rmin in E2. destruct (Rle_dec t0 x); [left; exact E2|right; left; symmetry; exact E2]. }
  destruct (G top) as (m & E & H1 & H2 & H3). exists m. split; [exact E|]. split; [|exact H2].
  destruct H3 as [-> |]; [|assumption].
  destruct HF as [|i x is' xs' Hi HF]; [congruence|]. 
  pose proof (Ht x (or_introl eq_refl)). pose proof (H2 x (or_introl eq_refl)). left. lra.
Qed.
Lemma int_angles_nil top (g1 g2 : ageo R) : int_angles top g1 g2 [] = Ok top.
Proof. reflexivity. Qed.
Lemma fold_throw top (g1 g2 : ageo R) is e :
  fold_left (fun r i => obind r (fun m => obind (int_angle top g1 g2 i) (fun x => Ok (nmin m x)))) is (Throw e) = Throw e.
Proof. induction is as [|i is IH]; cbn [fold_left obind]; [reflexivity|exact IH]. Qed.
Lemma int_angles_throw top (g1 g2 : ageo R) is i : In i is -> ~ has_angle g1 g2 i ->
  int_angles top g1 g2 is = Throw RuntimeError.
Proof.
  intros Hin Hh. unfold int_angles. generalize top at 2. induction is as [|j is IH]; intros t0; [contradiction|].
  cbn [fold_left obind]. destruct Hin as [->|Hin].
  - destruct (int_angle_total top g1 g2 i) as [_ E]. rewrite (E Hh). cbn [obind]. apply fold_throw.
  - destruct (int_angle_total top g1 g2 j) as [H1 H2].
    destruct (int_angle top g1 g2 j) as [x|e| |] eqn:E; cbn [obind].
    + apply IH, Hin.
    + rewrite fold_throw. destruct (classic_dec_ok g1 g2 j) as [Y|Y].
      * destruct (H1 Y) as [? ?]. discriminate.
      * specialize (H2 Y). exact H2.
    + exfalso. destruct (classic_dec_ok g1 g2 j) as [Y|Y]; [destruct (H1 Y); discriminate|specialize (H2 Y); discriminate].
    + exfalso. destruct (classic_dec_ok g1 g2 j) as [Y|Y]; [destruct (H1 Y); discriminate|specialize (H2 Y); discriminate].
Qed.

Lemma planes_angle (p1 p2 : plane R) : unit3 (pl_n p1) -> unit3 (pl_n p2) ->
  forall top l, exists theta, int_angle top (GPlane p1) (GPlane p2) (PcLine l) = Ok theta /\
    0 <= theta <= PI / 2 /\
    angle_between (pl_n p1) (pl_n p2) theta /\ dihedral (pl_n p1) (pl_n p2) theta /\
    (theta = 0 <-> pl_n p1 = pl_n p2 \/ pl_n p1 = pscale (-1) (pl_n p2)) /\
    (theta = PI / 2 <-> ortho (pl_n p1) (pl_n p2)).
Proof.
  intros H1 H2 top l. exists (plane_angle p1 p2). pose proof (plane_angle_spec _ _ H1 H2) as S.
  split; [reflexivity|]. split; [apply S|]. split; [exact S|]. split; [apply dihedral_angle; assumption|].
  split; [apply plane_angle_zero|apply plane_angle_right]; assumption.
Qed.
Lemma overlap_angle top (g : ageo R) s : int_angle top g (GShape s) PcFace = Ok 0.
Proof. assert ((nlit 0 1 : R) = 0) as Z by (cbn; unfold Rlit; lra). destruct g; cbn [int_angle]; rewrite Z; reflexivity. Qed.
