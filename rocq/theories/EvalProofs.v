(** Proofs about the constraints on planar faces. *)

From Coq Require Import Reals List Lra Psatz Bool ZArith.
From stdpp Require base list.
From Verif Require Import Base ConstraintsModel ConstraintsSpec ConstraintsProofs.
From Verif Require Import NumModel VecModel LinModel RoundModel PolyModel DistModel IntModel AngModel CylIntModel EvalModel
  GeoSpec LinSpec RoundSpec PolySpec DistSpec IntSpec AngSpec EvalSpec GeoLemmas LinProofs DistProofs LenProofs IntProofs FaceIntProofs AngProofs AngProofs2 BoxProofs CylIntSpec CylIntProofs.
Import ListNotations.
Local Open Scope R_scope.

(** *** The distance of a point from an ellipse exists *)
Lemma ell_at_cont (e : ell R) p : continuity (fun t => dist p (ell_at e t)).
Proof.
  intros t. unfold dist, norm. apply (continuity_pt_comp _ sqrt).
  - unfold dot, psub, ell_at, at_coords, padd, pscale. cbn. unfold Rsqr. reg.
  - apply continuity_pt_sqrt. unfold dot. nra.
Qed.

Lemma ell_at_period (e : ell R) phi : exists t, 0 <= t <= 2 * PI /\ ell_at e t = ell_at e phi.
Proof.
  pose proof PI_RGT_0 as HP.
  destruct (archimed (phi / (2 * PI))) as [A B]. set (k := up (phi / (2 * PI))) in *.
  exists (phi - 2 * IZR (k - 1) * PI).
  assert (E1 : IZR k * (2 * PI) > phi) by (apply (Rmult_gt_compat_r (2 * PI)) in A; [|lra]; unfold Rdiv in A; rewrite Rmult_assoc, Rinv_l in A; lra).
  assert (E2 : (IZR k - 1) * (2 * PI) <= phi).
  { assert (C : IZR k - 1 <= phi / (2 * PI)) by lra. apply (Rmult_le_compat_r (2 * PI)) in C; [|lra].
    unfold Rdiv in C. rewrite Rmult_assoc, Rinv_l in C; lra. }
  rewrite minus_IZR. split; [split; nra|].
  assert (T : forall z : Z, cos (phi - 2 * IZR z * PI) = cos phi /\ sin (phi - 2 * IZR z * PI) = sin phi).
  { intros z. destruct (Z_le_gt_dec 0 z) as [Hz|Hz].
    - rewrite <- (cos_period (phi - 2 * IZR z * PI) (Z.to_nat z)), <- (sin_period (phi - 2 * IZR z * PI) (Z.to_nat z)).
      rewrite INR_IZR_INZ, Z2Nat.id by exact Hz. split; f_equal; lra.
    - rewrite <- (cos_period phi (Z.to_nat (- z))), <- (sin_period phi (Z.to_nat (- z))).
      rewrite INR_IZR_INZ, Z2Nat.id, opp_IZR by lia. split; f_equal; lra. }
  destruct (T (k - 1)%Z) as [T1 T2]. rewrite minus_IZR in T1, T2. unfold ell_at. rewrite T1, T2. reflexivity.
Qed.

Lemma ell_dist_exists (e : ell R) p : exists d, dist_to (on_ellipse e) p d.
Proof.
  pose proof PI_RGT_0 as HP.
  destruct (continuity_ab_min (fun t => dist p (ell_at e t)) 0 (2 * PI)) as (m & Hm & _); [lra|intros t _; apply ell_at_cont|].
  exists (dist p (ell_at e m)). split; [exists (ell_at e m); split; [exists m; reflexivity|reflexivity]|].
  intros y [phi ->]. destruct (ell_at_period e phi) as (t & Ht & <-). apply Hm, Ht.
Qed.

(** *** The settings *)
Lemma settings_rev {num} (zero : num) h :
  abs_of (crun zero (rev h)) =
  (active_distance h, active_angle h, active_magnitude h, active_is_distance h, active_eps h, equi_dim_allowed h).
Proof.
  pose proof (settings zero (rev h)) as E. unfold list.reverse in E. rewrite <- rev_alt, rev_involutive in E. exact E.
Qed.

Lemma set_dist_unique S T d d' : set_dist S T d -> set_dist S T d' -> d = d'.
Proof. intros [(x & y & X1 & X2 & ->) X3] [(u & v & Y1 & Y2 & ->) Y3]. apply Rle_antisym; [apply X3|apply Y3]; assumption. Qed.
Lemma supported_dec (f1 f2 : face R) : supported f1 f2 \/ ~ supported f1 f2.
Proof. destruct f1, f2; cbn; tauto. Qed.

Section Faces.
Variables (top : R) (O : ent_ops R).

(** *** Boundaries *)
Lemma disk_set (d : ell R) x : on_ellipse (disk_ellipse d) x <-> on_ellipse d x.
Proof. split; intros [phi ->]; exists phi; reflexivity. Qed.

Lemma near_boundary f M p t : face_ok f -> edges_fit M f -> curve_ok O f -> within top f -> face_set f p ->
  ent_eps (EFace f) = Ok t ->
  exists d r m, dist_to (edge_set f) p d /\ ent_on_boundary O p (EFace f) = Ok r /\
    ent_dist_boundary top O p (EFace f) = Ok m /\
    (d < t -> r = true) /\ (r = true -> d < t + M / 10000000) /\ m <= d <= m + M / 10000000.
Proof.
  intros Hok (HM & Hp & Hb) Hc Hw Hin Ht.
  assert (Htop : forall d, dist_to (edge_set f) p d -> d <= top).
  { intros d [(y & Hy & <-) _]. apply Hw; assumption. }
  destruct f as [d|q|pg]; cbn [edge_set corners face_ok curve_ok ent_eps ent_on_boundary ent_dist_boundary] in *.
  - destruct (ell_dist_exists d p) as [x Hx]. exists x, (nltb x (eps_disk d)), x.
    unfold on_curve. rewrite (Hc p x Hx). cbn [obind]. assert (Et : t = eps_disk d) by congruence. rewrite Et.
    split; [exact Hx|]. split; [reflexivity|]. split; [reflexivity|]. rn. rcmp.
    + split; [reflexivity|]. split; [intros _; lra|lra].
    + split; [intros K; lra|]. split; [discriminate|lra].
  - destruct Hok as (N & p0 & p1 & p2 & p3 & HC & ->). cbn [make_quad q_0 q_1 q_2 q_3] in Hp, Hb, Htop |- *.
    destruct (boundary_dist_exists (around p0 p1 p2 p3) p) as [d Hd]; [cbn; lia|exact Hp|].
    destruct (quad_on_boundary p0 p1 p2 p3 p (eps_quad (make_quad p0 p1 p2 p3)) M d Hp Hb Hd) as (r & E1 & E2 & E3).
    destruct (quad_boundary_dist p0 p1 p2 p3 p top M d Hp Hb Hd (Htop d Hd)) as (m & F1 & F2).
    exists d, r, m. assert (Et : t = eps_quad (make_quad p0 p1 p2 p3)) by congruence. rewrite Et. exact (conj Hd (conj E1 (conj F1 (conj E2 (conj E3 F2))))).
  - destruct Hok as (N & cs & HC & E & _).
    assert (Ecs : po_cs pg = cs) by (unfold make_poly in E; destruct (Nat.ltb (length cs) 3); [discriminate|]; injection E as <-; reflexivity).
    rewrite Ecs in Hp, Hb, Htop. rewrite Ecs.
    destruct (boundary_dist_exists cs p) as [d Hd]; [apply HC|exact Hp|].
    destruct (poly_on_boundary cs pg p t M d E Hp Hb Hd) as (r & E1 & E2 & E3).
    destruct (poly_boundary_dist cs pg p top M d E Hp Hb Hd (Htop d Hd)) as (m & F1 & F2).
    exists d, r, m. unfold on_poly_boundary_default. rewrite Ht. cbn [obind].
    exact (conj Hd (conj E1 (conj F1 (conj E2 (conj E3 F2))))).
Qed.

Notation lt_ := (fun x y : R => nltb x y).
Notation ge_ := (fun x y : R => nleb y x).
Notation K := (ent_kernel top O).

Lemma point_off f M p t thr : face_ok f -> edges_fit M f -> curve_ok O f -> within top f -> face_set f p ->
  ent_eps (EFace f) = Ok t ->
  exists r, adm_db_point ge_ K thr p (EFace f) = Ok r /\
    (keeps_off t thr 0 (M / 10000000) (edge_set f) p -> r = true) /\
    (r = true -> keeps_off t thr (M / 10000000) 0 (edge_set f) p).
Proof.
  intros H1 H2 H3 H4 H5 H6. destruct (near_boundary f M p t H1 H2 H3 H4 H5 H6) as (d & r & m & Hd & E1 & E2 & A1 & A2 & A3).
  unfold adm_db_point. cbn [k_on_boundary k_dist_boundary ent_kernel]. rewrite E1. cbn [obind].
  assert (HM : 0 <= M / 10000000) by (destruct H2 as [H2 _]; lra).
  destruct r.
  - exists true. split; [reflexivity|]. split; [reflexivity|]. intros _ d' Hd'.
    rewrite (dist_to_unique _ _ _ _ Hd' Hd). left. apply A2. reflexivity.
  - rewrite E2. cbn [obind]. exists (nleb thr m). split; [reflexivity|]. split.
    + intros Hk. destruct (Hk d Hd) as [C|C]; [specialize (A1 ltac:(lra)); discriminate A1|]. rn. rcmp; [reflexivity|lra].
    + intros C d' Hd'. rewrite (dist_to_unique _ _ _ _ Hd' Hd). right. revert C. rn. rcmp; [|discriminate]. lra.
Qed.
Lemma points_off h f1 f2 t1 t2 M p thr : pair_ok top O h f1 f2 t1 t2 M -> both (face_set f1) (face_set f2) p ->
  exists r1 r2, adm_db_point ge_ K thr p (EFace f1) = Ok r1 /\ adm_db_point ge_ K thr p (EFace f2) = Ok r2 /\
    (keeps_off t1 thr 0 (M / 10000000) (edge_set f1) p -> r1 = true) /\
    (keeps_off t2 thr 0 (M / 10000000) (edge_set f2) p -> r2 = true) /\
    (r1 = true -> keeps_off t1 thr (M / 10000000) 0 (edge_set f1) p) /\
    (r2 = true -> keeps_off t2 thr (M / 10000000) 0 (edge_set f2) p).
Proof.
  intros [[HF _] _ _ _ T1 T2 E1 E2 C1 C2 W1 W2 _] [P1 P2]. destruct HF as (F1 & F2 & _).
  destruct (point_off f1 M p t1 thr F1 E1 C1 W1 P1 T1) as (r1 & A1 & A2 & A3).
  destruct (point_off f2 M p t2 thr F2 E2 C2 W2 P2 T2) as (r2 & B1 & B2 & B3).
  exists r1, r2. auto 10.
Qed.

Lemma eval_faces h f1 f2 t1 t2 M : ~ no_constraint h -> pair_ok top O h f1 f2 t1 t2 M ->
  exists b, ent_evaluate top O (crun 0 (rev h)) (EFace f1) (EFace f2) = Ok b /\
    (kept h t1 t2 0 (M / 10000000) f1 f2 -> b = true) /\
    (b = true -> kept h t1 t2 (M / 10000000) 0 f1 f2).
Proof.
  intros Hn HP.
  destruct (int_faces_exact _ _ _ _ (po_pos _ _ _ _ _ _ _ _ HP) (po_box1 _ _ _ _ _ _ _ _ HP) (po_box2 _ _ _ _ _ _ _ _ HP) (po_cross _ _ _ _ _ _ _ _ HP))
    as (i & Ei & D & Hi).
  set (S := both (face_set f1) (face_set f2)) in *.
  pose proof (settings_rev 0 h) as ES. unfold ent_evaluate, evaluate. set (c := crun 0 (rev h)) in *.
  unfold abs_of in ES. injection ES as S1 S2 S3 S4 S5 S6.
  assert (Hint : ent_intersect O (if useIntersectionEps c then Some (intersectionEps c) else None) (EFace f1) (EFace f2) = Ok [of_isect (EFace f1) i]).
  { rewrite S5. unfold ent_intersect. revert Ei. unfold is_eps. destruct (active_eps h) as [e|].
    - intros Ei. cbn [ent_intersect_eps]. rewrite Ei. reflexivity.
    - rewrite (po_t1 _ _ _ _ _ _ _ _ HP), (po_t2 _ _ _ _ _ _ _ _ HP). cbn [obind ent_intersect_eps].
      replace (nmin t1 t2) with (Rmin t1 t2); [intros ->; reflexivity|].
      unfold nmin, Rmin. rn. rcmp; destruct (Rle_dec t1 t2); lra. }
  cbn [k_intersect ent_kernel k_angle k_distance k_dim]. rewrite Hint. cbn [obind].
  assert (HA : forall x y : R, (exists j, y = j) -> True) by auto. clear HA.
  assert (Hang : i <> IsEmpty -> (exists p, i = IsPoint p) \/ (exists s, i = IsSeg s) ->
    exists th, ent_angle top (EFace f1) (EFace f2) [of_isect (EFace f1) i] = Ok th /\ angle_between (face_normal f1) (face_normal f2) th).
  { intros _ Hj. destruct HP as [[HF _]]. destruct HF as (F1 & F2 & _).
    assert (N1 : face_dir_ok f1) by (unfold face_dir_ok; rewrite <- face_plane_normal; apply face_unit, F1).
    assert (N2 : face_dir_ok f2) by (unfold face_dir_ok; rewrite <- face_plane_normal; apply face_unit, F2).
    destruct Hj as [[p ->]|[s ->]]; cbn [of_isect ent_angle to_apiece].
    - destruct (faces_angle top f1 f2 (PcPoint p) N1 N2) as (th & E & A & _); [left; eauto|]. eauto.
    - destruct (faces_angle top f1 f2 (PcSeg (mkSeg (s_src s) (s_tgt s))) N1 N2) as (th & E & A & _); [right; eauto|]. eauto. }
  (* not all constraints are inactive *)
  assert (Hsome : negb (useMinIsMagnitude c || useMinIsAngle c || useMinIsDistance c) && negb (useMinDistance c) = false).
  { unfold no_constraint in Hn. rewrite <- S1, <- S2, <- S3, <- S4 in Hn.
    destruct (useMinIsMagnitude c), (useMinIsAngle c), (useMinIsDistance c), (useMinDistance c); try reflexivity. exfalso. apply Hn. auto. }
  rewrite Hsome. clear Hsome. unfold kept, angle_kept, end_kept. fold S. rewrite <- S1, <- S2, <- S3, <- S4.
  destruct Hi as [->|Hi].
  - (* empty *)
    cbn [of_isect is_empty forallb is_empty_piece negb andb]. cbn [describes] in D.
    assert (V1 : forall p, is_point p S -> False) by (intros p Hp; apply (D p), Hp; reflexivity).
    assert (V2 : forall s, is_seg s S -> False).
    { intros s [_ Hs]. apply (D (s_src s)), Hs. exists 0. split; [lra|]. apply v3_eq; cbn; ring. }
    destruct (useMinDistance c).
    + pose proof (po_d _ _ _ _ _ _ _ _ HP) as Hdist. unfold EvalSpec.dist_ok in Hdist. destruct Hdist as (d & Hd & Ed). rewrite Ed. cbn [obind holds_if_set]. exists (nleb (minDistance c) d). split; [reflexivity|]. split.
      * intros (K1 & _). specialize (K1 D). cbn [holds_if_set] in K1. specialize (K1 d Hd). rn. rcmp; [reflexivity|lra].
      * intros C. split; [|split; [intros p Hp; destruct (V1 p Hp)|intros s Hs; destruct (V2 s Hs)]].
        intros _ d' Hd'. assert (d' = d) as ->.
        { destruct Hd as [(x & y & X1 & X2 & ->) X3], Hd' as [(u & v & Y1 & Y2 & ->) Y3]. apply Rle_antisym; [apply Y3|apply X3]; assumption. }
        revert C. rn. rcmp; [auto|discriminate].
    + exists true. split; [reflexivity|]. split; [reflexivity|]. intros _.
      split; [intros _; exact I|split; [intros p Hp; destruct (V1 p Hp)|intros s Hs; destruct (V2 s Hs)]].
  - destruct (Hang ltac:(destruct Hi as [[p ->]|[s ->]]; discriminate) Hi) as (th & Eth & Ath). rewrite Eth. clear Hang.
    assert (Uth : forall x, angle_between (face_normal f1) (face_normal f2) x -> x = th).
    { intros x Hx. destruct Hx as [X1 X2], Ath as [Y1 Y2]. pose proof PI_RGT_0.
      destruct HP as [[HF _]]. destruct HF as (F1 & F2 & _).
      assert (N1 : norm (face_normal f1) = 1) by (rewrite <- face_plane_normal; apply norm_unit, face_unit, F1).
      assert (N2 : norm (face_normal f2) = 1) by (rewrite <- face_plane_normal; apply norm_unit, face_unit, F2).
      rewrite N1, N2 in X2, Y2. apply cos_inj; lra. }
    assert (Cang : forall (K0 : bool), (if useMinIsAngle c then Ok (negb (nltb th (minIsAngle c))) else Ok true) = Ok K0 ->
       (K0 = true <-> holds_if_set (if useMinIsAngle c then Some (minIsAngle c) else None) (fun thr => forall theta, angle_between (face_normal f1) (face_normal f2) theta -> thr <= theta))).
    { intros K0. destruct (useMinIsAngle c); cbn [holds_if_set].
      - intros E. injection E as <-. rn. rcmp; cbn [negb].
        + split; [discriminate|]. intros X. specialize (X th Ath). lra.
        + split; [|reflexivity]. intros _ x Hx. rewrite (Uth x Hx). lra.
      - intros E. injection E as <-. tauto. }
    cbn [obind].
    set (oka := if useMinIsAngle c then Ok (negb (nltb th (minIsAngle c))) else Ok true) in *.
    assert (Eoka : exists ka, oka = Ok ka) by (unfold oka; destruct (useMinIsAngle c); eauto).
    destruct Eoka as [ka Eka]. specialize (Cang ka Eka). rewrite Eka. cbn [obind]. clear oka Eka Eth.
    destruct Hi as [[p ->]|[s ->]]; cbn [describes] in D; cbn [of_isect].
    + (* a point *)
      cbn [is_empty forallb is_empty_piece negb andb adm_dim piece_dim]. rewrite andb_false_r.
      assert (V0 : ~ forall x, ~ S x) by (intros X; apply (X p), D; reflexivity).
      assert (V2 : forall s, is_seg s S -> False).
      { intros s [Hne Hs]. apply Hne. transitivity p; [|symmetry]; apply D, Hs; [exists 0|exists 1]; (split; [lra|]); apply v3_eq; cbn; ring. }
      assert (U : forall q, is_point q S -> q = p) by (intros q Hq; apply D, Hq; reflexivity).
      replace (if useMinIsMagnitude c then adm_mag ge_ K (minIsMagnitude c) [PPoint p] else Ok true) with (@Ok bool true)
        by (destruct (useMinIsMagnitude c); reflexivity).
      cbn [obind negb]. destruct ka; cbn [negb].
      * assert (CA := proj1 Cang eq_refl). destruct (useMinIsDistance c); cbn [negb holds_if_set].
        -- unfold adm_db. cbn [all_of adm_db_piece].
           destruct (points_off h f1 f2 t1 t2 M p (minIsDistance c) HP) as (r1 & r2 & -> & -> & A1 & A2 & A3 & A4); [apply D; reflexivity|].
           cbn [obind]. exists (r1 && r2). destruct r1; cbn [obind negb andb]; [destruct r2; cbn [obind]|]; (split; [reflexivity|]).
           ++ split; [reflexivity|]. intros _. split; [tauto|]. split; [|intros s Hs; destruct (V2 s Hs)].
              intros q Hq. rewrite (U q Hq). auto.
           ++ split; [|discriminate]. intros (_ & X & _). destruct (X p D) as [_ [_ X2]]. auto.
           ++ split; [|discriminate]. intros (_ & X & _). destruct (X p D) as [_ [X1 _]]. auto.
        -- exists true. split; [reflexivity|]. split; [reflexivity|]. intros _. split; [tauto|]. split; [|intros s Hs; destruct (V2 s Hs)]. auto.
      * exists false. split; [reflexivity|]. split; [|discriminate]. intros (_ & X & _). apply Cang. apply (X p D).
    + (* a segment *)
      cbn [is_empty forallb is_empty_piece negb andb adm_dim piece_dim]. rewrite andb_false_r.
      pose proof D as [Dne Ds].
      assert (Ps : S (s_src s)) by (apply Ds; exists 0; split; [lra|]; apply v3_eq; cbn; ring).
      assert (Pt : S (s_tgt s)) by (apply Ds; exists 1; split; [lra|]; apply v3_eq; cbn; ring).
      assert (V0 : ~ forall x, ~ S x) by (intros X; apply (X _ Ps)).
      assert (V1 : forall p, is_point p S -> False).
      { intros p Hp. apply Dne. transitivity p; [|symmetry]; apply Hp; assumption. }
      assert (U : forall s', is_seg s' S -> (s_src s' = s_src s /\ s_tgt s' = s_tgt s) \/ (s_src s' = s_tgt s /\ s_tgt s' = s_src s)).
      { intros s' [N' H']. 
        assert (Q : forall x, seg_pts s x <-> seg_pts s' x) by (intros x; unfold seg_pts; rewrite <- H', <- Ds; tauto).
        destruct (seg_ends_unique s s' Dne N' Q (s_src s') (or_introl eq_refl)) as [E1|E1], (seg_ends_unique s s' Dne N' Q (s_tgt s') (or_intror eq_refl)) as [E2|E2]; auto; destruct N'; congruence. }
      replace (if useMinIsMagnitude c then adm_mag ge_ K (minIsMagnitude c) [PSegment (s_src s) (s_tgt s)] else Ok true)
        with (Ok (if useMinIsMagnitude c then nleb (minIsMagnitude c) (dist (s_src s) (s_tgt s)) else true)).
      2:{ destruct (useMinIsMagnitude c); [|reflexivity]. unfold adm_mag. cbn [all_of]. unfold adm_mag_piece. cbn [piece_dim is_empty_piece k_magnitude ent_kernel ent_magnitude].
          unfold length_segment. rewrite seg_len_eq. cbn [s_src s_tgt obind]. destruct (nleb _ _); reflexivity. }
      set (km := if useMinIsMagnitude c then nleb (minIsMagnitude c) (dist (s_src s) (s_tgt s)) else true).
      assert (Cm : km = true <-> holds_if_set (if useMinIsMagnitude c then Some (minIsMagnitude c) else None) (fun thr => thr <= dist (s_src s) (s_tgt s))).
      { unfold km. destruct (useMinIsMagnitude c); cbn [holds_if_set]; [|tauto]. rn. rcmp; [tauto|]. split; [discriminate|lra]. }
      cbn [obind]. destruct km; cbn [negb].
      2:{ exists false. split; [reflexivity|]. split; [|discriminate]. intros (_ & _ & X). apply Cm, (X s D). }
      destruct ka; cbn [negb].
      2:{ exists false. split; [reflexivity|]. split; [|discriminate]. intros (_ & _ & X). apply Cang, (X s D). }
      assert (CA := proj1 Cang eq_refl). assert (CM := proj1 Cm eq_refl).
      assert (CM' : forall s', is_seg s' S -> holds_if_set (if useMinIsMagnitude c then Some (minIsMagnitude c) else None) (fun thr => thr <= dist (s_src s') (s_tgt s'))).
      { intros s' Hs'. destruct (U s' Hs') as [[-> ->]|[-> ->]]; [exact CM|]. rewrite dist_sym. exact CM. }
      destruct (useMinIsDistance c); cbn [negb holds_if_set].
      * unfold adm_db. cbn [all_of adm_db_piece]. unfold adm_db_ends.
        destruct (points_off h f1 f2 t1 t2 M (s_src s) (minIsDistance c) HP Ps) as (r1 & r2 & -> & -> & A1 & A2 & A3 & A4).
        destruct (points_off h f1 f2 t1 t2 M (s_tgt s) (minIsDistance c) HP Pt) as (r3 & r4 & -> & -> & A5 & A6 & A7 & A8).
        cbn [obind]. exists (r1 && r3 && (r2 && r4)).
        destruct r1; cbn [obind negb andb]; [destruct r3; cbn [obind negb andb]; [destruct r2; cbn [obind negb andb]; [destruct r4; cbn [obind negb andb]|]|]|]; (split; [reflexivity|]).
        -- split; [reflexivity|]. intros _. split; [tauto|]. split; [intros p Hp; destruct (V1 p Hp)|].
           intros s' Hs'. split; [apply CM', Hs'|]. split; [exact CA|]. destruct (U s' Hs') as [[-> ->]|[-> ->]]; auto 10.
        -- split; [|discriminate]. intros (_ & _ & X). destruct (X s D) as (_ & _ & [X1 X2] & [X3 X4]). auto.
        -- split; [|discriminate]. intros (_ & _ & X). destruct (X s D) as (_ & _ & [X1 X2] & [X3 X4]). auto.
        -- split; [|discriminate]. intros (_ & _ & X). destruct (X s D) as (_ & _ & [X1 X2] & [X3 X4]). auto.
        -- split; [|discriminate]. intros (_ & _ & X). destruct (X s D) as (_ & _ & [X1 X2] & [X3 X4]). auto.
      * exists true. split; [reflexivity|]. split; [reflexivity|]. intros _. split; [tauto|]. split; [intros p Hp; destruct (V1 p Hp)|].
        intros s' Hs'. split; [apply CM', Hs'|]. auto.
Qed.
(** a face and a list of faces *)
Lemma eval_all_faces h fs f t M : ~ no_constraint h ->
  (forall g, In g fs -> exists t1, ent_eps (EFace g) = Ok t1 /\ pair_ok top O h g f t1 t M) ->
  exists b, evaluate_set_entity lt_ ge_ K (crun 0 (rev h)) (map EFace fs) (EFace f) = Ok b /\
    ((forall g t1, In g fs -> ent_eps (EFace g) = Ok t1 -> kept h t1 t 0 (M / 10000000) g f) -> b = true) /\
    (b = true -> forall g t1, In g fs -> ent_eps (EFace g) = Ok t1 -> kept h t1 t (M / 10000000) 0 g f).
Proof.
  intros Hn. unfold evaluate_set_entity. induction fs as [|g fs IH]; intros HP; cbn [map all_of].
  - exists true. split; [reflexivity|]. split; [reflexivity|]. intros _ g t1 [].
  - destruct (HP g (or_introl eq_refl)) as (t1 & E1 & P1).
    destruct (eval_faces h g f t1 t M Hn P1) as (b1 & Eb & A1 & A2). unfold ent_evaluate in Eb. rewrite Eb. cbn [obind].
    destruct IH as (b2 & Eb2 & B1 & B2); [intros g' Hg'; apply HP; right; exact Hg'|].
    exists (b1 && b2). split; [destruct b1; [exact Eb2|reflexivity]|]. split.
    + intros X. apply andb_true_intro. split; [apply A1, (X g t1 (or_introl eq_refl) E1)|apply B1; intros g' t' Hg'; apply X; right; exact Hg'].
    + intros E g' t' [<-|Hg'] Et; apply andb_prop in E as [-> ->]; [|apply B2; auto].
      assert (t' = t1) as -> by congruence. apply A2. reflexivity.
Qed.

(** *** Pairs of faces that are not decided by these constraints *)
Lemma active_test h : ~ no_constraint h ->
  negb (useMinIsMagnitude (crun 0 (rev h)) || useMinIsAngle (crun 0 (rev h)) || useMinIsDistance (crun 0 (rev h))) &&
  negb (useMinDistance (crun 0 (rev h))) = false.
Proof.
  intros Hn. pose proof (settings_rev 0 h) as ES. set (c := crun 0 (rev h)) in *. unfold abs_of in ES. injection ES as S1 S2 S3 S4 S5 S6.
  unfold no_constraint in Hn. rewrite <- S1, <- S2, <- S3, <- S4 in Hn.
  destruct (useMinIsMagnitude c), (useMinIsAngle c), (useMinIsDistance c), (useMinDistance c); try reflexivity. exfalso. apply Hn. auto.
Qed.
Lemma eval_intersect h g1 g2 t1 t2 : ent_eps g1 = Ok t1 -> ent_eps g2 = Ok t2 ->
  ent_intersect O (if useIntersectionEps (crun 0 (rev h)) then Some (intersectionEps (crun 0 (rev h))) else None) g1 g2 =
  ent_intersect_eps O g1 g2 (is_eps h t1 t2).
Proof.
  intros E1 E2. pose proof (settings_rev 0 h) as ES. set (c := crun 0 (rev h)) in *. unfold abs_of in ES. injection ES as S1 S2 S3 S4 S5 S6.
  rewrite S5. unfold ent_intersect, is_eps. destruct (active_eps h) as [e|]; [reflexivity|].
  rewrite E1, E2. cbn [obind]. replace (nmin t1 t2) with (Rmin t1 t2); [reflexivity|].
  unfold nmin, Rmin. rn. rcmp; destruct (Rle_dec t1 t2); lra.
Qed.

Lemma eval_throws h g1 g2 t1 t2 : ~ no_constraint h -> ent_eps g1 = Ok t1 -> ent_eps g2 = Ok t2 ->
  ent_intersect_eps O g1 g2 (is_eps h t1 t2) = Throw RuntimeError -> ent_evaluate top O (crun 0 (rev h)) g1 g2 = Throw RuntimeError.
Proof.
  intros Hn E1 E2 Et. unfold ent_evaluate, evaluate. rewrite (active_test h Hn). cbn [k_intersect ent_kernel].
  rewrite (eval_intersect h g1 g2 t1 t2 E1 E2), Et. reflexivity.
Qed.
Lemma eval_coplanar h f1 f2 t1 t2 x : ~ no_constraint h -> ent_eps (EFace f1) = Ok t1 -> ent_eps (EFace f2) = Ok t2 ->
  0 < is_eps h t1 t2 -> face_ok f1 -> face_ok f2 -> boxed (eo_int O) f1 -> boxed (eo_int O) f2 ->
  same_plane (face_plane f1) (face_plane f2) -> both (face_set f1) (face_set f2) x ->
  ent_evaluate top O (crun 0 (rev h)) (EFace f1) (EFace f2) = Throw RuntimeError.
Proof.
  intros Hn E1 E2 He F1 F2 B1 B2 HS [X1 X2]. apply (eval_throws h _ _ t1 t2 Hn E1 E2). cbn [ent_intersect_eps].
  destruct (supported_dec f1 f2) as [Hs|Hs].
  - rewrite (int_faces_same_common _ f1 f2 _ x); auto.
  - rewrite int_faces_unsupported; auto.
Qed.
Lemma eval_unsupported h f1 f2 t1 t2 : ~ no_constraint h -> ent_eps (EFace f1) = Ok t1 -> ent_eps (EFace f2) = Ok t2 ->
  ~ supported f1 f2 -> ent_evaluate top O (crun 0 (rev h)) (EFace f1) (EFace f2) = Throw RuntimeError.
Proof.
  intros Hn E1 E2 Hs. apply (eval_throws h _ _ t1 t2 Hn E1 E2). cbn [ent_intersect_eps]. rewrite int_faces_unsupported; auto.
Qed.
Lemma eval_surfaces h c1 c2 : ~ no_constraint h ->
  ent_evaluate top O (crun 0 (rev h)) (ESurf c1) (ESurf c2) = Throw RuntimeError.
Proof. intros Hn. apply (eval_throws h _ _ (eps_surf c1) (eps_surf c2) Hn); reflexivity. Qed.

(** the intersection is empty *)
Lemma eval_empty h g1 g2 t1 t2 i : ~ no_constraint h -> ent_eps g1 = Ok t1 -> ent_eps g2 = Ok t2 ->
  ent_intersect_eps O g1 g2 (is_eps h t1 t2) = Ok [i] -> i = PEmpty ->
  ent_evaluate top O (crun 0 (rev h)) g1 g2 =
  match active_distance h with Some thr => obind (eo_dist O g1 g2) (fun d => Ok (nleb thr d)) | None => Ok true end.
Proof.
  intros Hn E1 E2 Et ->. unfold ent_evaluate, evaluate. rewrite (active_test h Hn). cbn [k_intersect ent_kernel].
  rewrite (eval_intersect h g1 g2 t1 t2 E1 E2), Et. cbn [obind is_empty forallb is_empty_piece negb andb k_distance].
  pose proof (settings_rev 0 h) as ES. set (c := crun 0 (rev h)) in *. unfold abs_of in ES. injection ES as S1 S2 S3 S4 S5 S6.
  rewrite <- S1. destruct (useMinDistance c); reflexivity.
Qed.
Lemma eval_apart h f1 f2 t1 t2 : ~ no_constraint h -> ent_eps (EFace f1) = Ok t1 -> ent_eps (EFace f2) = Ok t2 ->
  0 < is_eps h t1 t2 -> face_ok f1 -> face_ok f2 -> supported f1 f2 ->
  apart_planes (face_plane f1) (face_plane f2) (is_eps h t1 t2) -> dist_ok O f1 f2 ->
  exists b, ent_evaluate top O (crun 0 (rev h)) (EFace f1) (EFace f2) = Ok b /\
    (b = true <-> holds_if_set (active_distance h) (fun thr => forall d, set_dist (face_set f1) (face_set f2) d -> thr <= d)).
Proof.
  intros Hn E1 E2 He F1 F2 HS HA (d & Hd & Ed). rewrite (eval_empty h _ _ t1 t2 PEmpty Hn E1 E2);
    [|cbn [ent_intersect_eps]; rewrite (proj1 (int_faces_apart _ _ _ _ He F1 F2 HS HA)); reflexivity|reflexivity].
  rewrite Ed. cbn [obind]. destruct (active_distance h) as [thr|]; cbn [holds_if_set]; [|exists true; tauto].
  exists (nleb thr d). split; [reflexivity|]. rn. rcmp.
  - split; [|reflexivity]. intros _ d' Hd'. rewrite (set_dist_unique _ _ _ _ Hd' Hd). assumption.
  - split; [discriminate|]. intros X. specialize (X d Hd). lra.
Qed.
Lemma eval_points h f1 f2 t1 t2 p : ~ no_constraint h -> ent_eps (EFace f1) = Ok t1 -> ent_eps (EFace f2) = Ok t2 ->
  0 < is_eps h t1 t2 -> facing (eo_int O) f1 f2 (is_eps h t1 t2) ->
  is_point p (both (face_set f1) (plane_pts (face_plane f2))) ->
  is_point p (both (face_set f2) (plane_pts (face_plane f1))) -> active_distance h = None ->
  both (face_set f1) (face_set f2) p /\ ent_evaluate top O (crun 0 (rev h)) (EFace f1) (EFace f2) = Ok true.
Proof.
  intros Hn E1 E2 He HF P1 P2 Hd. destruct (int_faces_points _ _ _ _ _ He HF P1 P2) as (Ei & X1 & X2). split; [split; assumption|].
  rewrite (eval_empty h _ _ t1 t2 PEmpty Hn E1 E2); [rewrite Hd; reflexivity| |reflexivity].
  cbn [ent_intersect_eps]. rewrite Ei. reflexivity.
Qed.

(** a cylinder surface and a face that contains a whole section of it *)
Lemma full_section c f eps e x : 0 < eps -> tube_ok c -> face_ok f -> larger f eps ->
  boxed (eo_int O) f -> tube_boxed (eo_cyl O) c -> (slanted c f -> axis_met (eo_int O) c f) -> canonical c f (Some e) ->
  common_set c f x -> ck_faces (eo_cyl O) c f (1 / 10 * eps) <> 0%nat ->
  (exists w, ck_inner (eo_cyl O) c f (1 / 10 * eps) = [w] /\ w_closed w = true) ->
  int_cyl_face (eo_int O) (eo_cyl O) c f eps = Ok [PcEll e].
Proof.
  intros He Hc Hf HL HB HT Hm Hcan [X1 X2] Hn (w & Ew & Hw). unfold int_cyl_face.
  rewrite (do_intersect_shared _ _ eps x) by auto. cbn [negb].
  destruct (cyl_face_planar (eo_int O) (eo_cyl O) c f eps He Hf HL) as (L & HL' & ->).
  destruct (inf_canonical _ c f L eps _ Hc Hf Hm HL' He Hcan) as [E _]. unfold cyl_planar. rewrite E. cbn [obind].
  rewrite tenth_lit, Ew. destruct (ck_faces (eo_cyl O) c f (1 / 10 * eps)); [destruct Hn; reflexivity|]. cbn [Nat.eqb parse_wires].
  rewrite Hw. reflexivity.
Qed.
Lemma eval_ellipse h c f t1 t2 eps e x thr : ent_eps (EFace f) = Ok t1 -> ent_eps (ESurf c) = Ok t2 ->
  is_eps h t1 t2 = eps -> 0 < eps -> tube_ok c -> face_ok f -> larger f eps ->
  boxed (eo_int O) f -> tube_boxed (eo_cyl O) c -> (slanted c f -> axis_met (eo_int O) c f) -> canonical c f (Some e) ->
  common_set c f x -> ck_faces (eo_cyl O) c f (1 / 10 * eps) <> 0%nat ->
  (exists w, ck_inner (eo_cyl O) c f (1 / 10 * eps) = [w] /\ w_closed w = true) ->
  active_is_distance h = Some thr -> active_magnitude h = None -> active_angle h = None -> cornered f ->
  ent_evaluate top O (crun 0 (rev h)) (EFace f) (ESurf c) = Throw RuntimeError.
Proof.
  intros E1 E2 He0 He Hc Hf HL HB HT Hm Hcan HX Hn Hw Hd Hmag Hang Hcor.
  pose proof (full_section c f eps e x He Hc Hf HL HB HT Hm Hcan HX Hn Hw) as Ei.
  assert (Hno : ~ no_constraint h) by (intros (_ & _ & _ & K4); congruence).
  unfold ent_evaluate, evaluate. rewrite (active_test h Hno). cbn [k_intersect ent_kernel].
  rewrite (eval_intersect h _ _ t1 t2 E1 E2), He0. cbn [ent_intersect_eps]. rewrite Ei. cbn [obind map of_apiece].
  pose proof (settings_rev 0 h) as ES. set (cc := crun 0 (rev h)) in *. unfold abs_of in ES. injection ES as S1 S2 S3 S4 S5 S6.
  assert (useMinIsMagnitude cc = false) as -> by (rewrite Hmag in S3; destruct (useMinIsMagnitude cc); [discriminate|reflexivity]).
  assert (useMinIsAngle cc = false) as -> by (rewrite Hang in S2; destruct (useMinIsAngle cc); [discriminate|reflexivity]).
  assert (useMinIsDistance cc = true) as -> by (rewrite Hd in S4; destruct (useMinIsDistance cc); [reflexivity|discriminate]).
  cbn [is_empty forallb is_empty_piece negb andb adm_dim piece_dim k_dim ent_kernel obind]. rewrite andb_false_r.
  unfold adm_db. cbn [all_of adm_db_piece k_ellipse_dist_boundary ent_kernel].
  destruct f; [destruct Hcor| |]; reflexivity.
Qed.
Lemma eval_ellipse_disk h c dk t1 t2 eps e x thr : ent_eps (EFace (FDisk dk)) = Ok t1 -> ent_eps (ESurf c) = Ok t2 ->
  is_eps h t1 t2 = eps -> 0 < eps -> tube_ok c -> face_ok (FDisk dk) -> larger (FDisk dk) eps ->
  boxed (eo_int O) (FDisk dk) -> tube_boxed (eo_cyl O) c -> (slanted c (FDisk dk) -> axis_met (eo_int O) c (FDisk dk)) -> canonical c (FDisk dk) (Some e) ->
  common_set c (FDisk dk) x -> ck_faces (eo_cyl O) c (FDisk dk) (1 / 10 * eps) <> 0%nat ->
  (exists w, ck_inner (eo_cyl O) c (FDisk dk) (1 / 10 * eps) = [w] /\ w_closed w = true) ->
  active_is_distance h = Some thr -> active_magnitude h = None -> active_angle h = None ->
  (forall r, In r [disk_ellipse dk; c_bot c; c_top c] -> curves_ok O e r) ->
  exists b, ent_evaluate top O (crun 0 (rev h)) (EFace (FDisk dk)) (ESurf c) = Ok b /\
    (b = true <-> forall r y z, In r [dk; c_bot c; c_top c] -> on_ellipse e y -> on_ellipse r z -> thr <= dist y z).
Proof.
  intros E1 E2 He0 He Hc Hf HL HB HT Hm Hcan HX Hn Hw Hd Hmag Hang HC.
  pose proof (full_section c (FDisk dk) eps e x He Hc Hf HL HB HT Hm Hcan HX Hn Hw) as Ei.
  assert (Hno : ~ no_constraint h) by (intros (_ & _ & _ & K4); congruence).
  unfold ent_evaluate, evaluate. rewrite (active_test h Hno). cbn [k_intersect ent_kernel].
  rewrite (eval_intersect h _ _ t1 t2 E1 E2), He0. cbn [ent_intersect_eps]. rewrite Ei. cbn [obind map of_apiece].
  pose proof (settings_rev 0 h) as ES. set (cc := crun 0 (rev h)) in *. unfold abs_of in ES. injection ES as S1 S2 S3 S4 S5 S6.
  assert (useMinIsMagnitude cc = false) as -> by (rewrite Hmag in S3; destruct (useMinIsMagnitude cc); [discriminate|reflexivity]).
  assert (useMinIsAngle cc = false) as -> by (rewrite Hang in S2; destruct (useMinIsAngle cc); [discriminate|reflexivity]).
  assert (useMinIsDistance cc = true /\ minIsDistance cc = thr) as [-> ->].
  { rewrite Hd in S4. destruct (useMinIsDistance cc); [split; [reflexivity|congruence]|discriminate]. }
  cbn [is_empty forallb is_empty_piece negb andb adm_dim piece_dim k_dim ent_kernel obind]. rewrite andb_false_r.
  unfold adm_db. cbn [all_of adm_db_piece k_ellipse_dist_boundary ent_kernel ent_ellipse_boundary].
  destruct (HC (disk_ellipse dk)) as (d1 & D1 & F1); [cbn; auto|]. destruct (HC (c_bot c)) as (d2 & D2 & F2); [cbn; auto|]. destruct (HC (c_top c)) as (d3 & D3 & F3); [cbn; auto|].
  rewrite F1, F2, F3. cbn [obind].
  assert (G : forall r d, set_dist (on_ellipse e) (on_ellipse r) d -> (thr <= d <-> forall y z, on_ellipse e y -> on_ellipse r z -> thr <= dist y z)).
  { intros r d [(y & z & Y & Z & ->) Hm']. split; [intros H y' z' Y' Z'; specialize (Hm' y' z' Y' Z'); lra|intros H; apply H; assumption]. }
  assert (T : (forall r y z, In r [dk; c_bot c; c_top c] -> on_ellipse e y -> on_ellipse r z -> thr <= dist y z) <-> thr <= d1 /\ thr <= d2 /\ thr <= d3).
  { rewrite (G _ _ D1), (G _ _ D2), (G _ _ D3). setoid_rewrite (disk_set dk). split.
    - intros H. split; [|split]; intros y z; apply H; cbn; auto.
    - intros (H1 & H2 & H3) r y z [<-|[<-|[<-|[]]]]; auto. }
  setoid_rewrite T. clear T G. rn. rcmp; cbn [obind negb].
  - assert (M2 : thr <= nmin d2 d3 <-> thr <= d2 /\ thr <= d3).
    { unfold nmin. rn. rcmp; lra. }
    exists (nleb thr (nmin d2 d3)). split; [rn; rcmp; reflexivity|]. rn. rcmp; [|split; [discriminate|]]; tauto.
  - exists false. split; [reflexivity|]. split; [discriminate|]. lra.
Qed.
End Faces.
