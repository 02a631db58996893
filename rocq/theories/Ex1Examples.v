(** The network of example 1: a run with horizontal quadrilaterals. *)

From Coq Require Import ZArith Reals List Lra Lia Psatz Bool.
From Coquelicot Require Import Coquelicot.
From stdpp Require base list gmap.
From Verif Require Import Base StatusModel ConstraintsModel ConstraintsSpec AppModel AppSpec AppProofs.
From Verif Require Import NumModel VecModel LinModel RoundModel PolyModel DistModel IntModel AngModel CylIntModel EvalModel SampModel Ex1Model
  GeoSpec LinSpec RoundSpec PolySpec DistSpec IntSpec AngSpec CylIntSpec EvalSpec SampSpec Ex1Spec
  GeoLemmas LinProofs EllProofs PolyProofs PolyBridge QuadProofs DistProofs LenProofs FaceIntProofs IntExamples CylProofs CylIntProofs CylIntExamples EvalProofs EvalExamples
  SampProofs SampPoly SampConvex SampPy SampExamples SampMore Ex1Quad Ex1Proofs.
Import ListNotations.
Local Open Scope R_scope.

(** four corners, at the given center *)
Definition level_draw (c : pt) : poly_draws R :=
  mkDraws (fun _ => 4%Z) (unit4 (1 / 4) (1 / 2) (1 / 4) (1 / 2)) (fun _ => 4 / 10) (fun _ => 8 / 10) 0 0 c.
Definition level (x y z : R) : quad R :=
  make_quad (mkV3 (x - 1 / 5) (y - 1 / 5) z) (mkV3 (x + 2 / 5) (y - 1 / 10) z) (mkV3 (x - 2 / 5) y z) (mkV3 x (y + 1 / 5) z).

Lemma level_values c : ex1_values (level_draw c).
Proof.
  split; [|intros i; cbn; lra]. intros i. cbn. do 9 (destruct i as [|i]; cbn; [lra|]). lra.
Qed.

Lemma quarter1 x y : 1 / 100 <= x -> 1 / 100 <= y -> 0 <= edge_angle (mkV3 x y 0) <= PI / 2.
Proof.
  quadrant. assert (0 < y / x) as Hq by (apply Rdiv_lt_0_compat; lra).
  pose proof (atan_bound (y / x)). pose proof (atan_pos _ Hq). rtest. lra.
Qed.
Lemma quarter2 x y : x <= - 1 / 100 -> 1 / 100 <= y -> PI / 2 < edge_angle (mkV3 x y 0) < PI.
Proof.
  quadrant. assert (0 < y / - x) as Hq by (apply Rdiv_lt_0_compat; lra).
  replace (y / - x) with (- (y / x)) in Hq by (field; lra).
  pose proof (atan_bound (y / x)). pose proof (atan_neg (y / x) ltac:(lra)). lra.
Qed.
Lemma quarter3 x y : x <= - 1 / 100 -> y <= - 1 / 100 -> PI < edge_angle (mkV3 x y 0) < 3 * PI / 2.
Proof.
  quadrant. assert (0 < - y / - x) as Hq by (apply Rdiv_lt_0_compat; lra).
  replace (- y / - x) with (y / x) in Hq by (field; lra).
  pose proof (atan_bound (y / x)). pose proof (atan_pos _ Hq). lra.
Qed.
Lemma quarter4 x y : 1 / 100 <= x -> y <= - 1 / 100 -> 3 * PI / 2 < edge_angle (mkV3 x y 0) < 2 * PI.
Proof.
  quadrant. assert (0 < - y / x) as Hq by (apply Rdiv_lt_0_compat; lra).
  replace (- y / x) with (- (y / x)) in Hq by (field; lra).
  pose proof (atan_bound (y / x)). pose proof (atan_neg (y / x) ltac:(lra)). rtest. lra.
Qed.

Lemma level_sample x y z : sample_quad (isort edge_before) (level_draw (mkV3 x y z)) = Ok (level x y z).
Proof.
  unfold sample_quad. unfold sample_corners, four, level_draw. cbn [d_num d_unit d_slen d_dlen d_strike d_dip d_center].
  rewrite retry_first by reflexivity. cbn [Nat.eqb]. change (Z.to_nat 4) with 4%nat. rewrite deltas_good. cbn [obind]. rn. change (nlit 0 1) with 0.
  rewrite !retry_false by (apply Rltb_false; lra). cbn [Nat.eqb].
  assert (isort edge_before (edge_vectors (4 / 10) (8 / 10) [(-1 / 2, 3 / 4); (-1 / 2, -1 / 2); (1 / 4, -1 / 2); (3 / 4, 1 / 4)]) =
          [mkV3 (6 / 10) (1 / 10) 0; mkV3 (-4 / 10) (3 / 10) 0; mkV3 (-4 / 10) (-2 / 10) 0; mkV3 (2 / 10) (-2 / 10) 0]) as E.
  { assert (edge_vectors (4 / 10) (8 / 10) [(-1 / 2, 3 / 4); (-1 / 2, -1 / 2); (1 / 4, -1 / 2); (3 / 4, 1 / 4)] =
      [mkV3 (-4 / 10) (3 / 10) 0; mkV3 (-4 / 10) (-2 / 10) 0; mkV3 (2 / 10) (-2 / 10) 0; mkV3 (6 / 10) (1 / 10) 0]) as Ev.
    { unfold edge_vectors. cbn [map fst snd]. rn. listeq ltac:(v3; lra). }
    rewrite Ev. pose proof (quarter1 (6 / 10) (1 / 10)). pose proof (quarter2 (-4 / 10) (3 / 10)).
    pose proof (quarter3 (-4 / 10) (-2 / 10)). pose proof (quarter4 (2 / 10) (-2 / 10)).
    cbn [isort fold_right insert_by]. unfold edge_before. rn. repeat (rtest; cbn [insert_by]; unfold edge_before; rn). reflexivity. }
  rewrite E, place_eq by (intros v [<-|[<-|[<-|[<-|[]]]]]; reflexivity). cbn zeta.
  cbn [map vx vy]. rewrite !in_plane_0.
  assert (walk zero3 [mkV3 (6 / 10) (1 / 10) 0; mkV3 (-4 / 10) (3 / 10) 0; mkV3 (-4 / 10) (-2 / 10) 0; mkV3 (2 / 10) (-2 / 10) 0] =
    [mkV3 0 0 0; mkV3 (6 / 10) (1 / 10) 0; mkV3 (2 / 10) (4 / 10) 0; mkV3 (-2 / 10) (2 / 10) 0]) as Ew.
  { cbn [walk]. unfold zero3, vadd. rn. cbn [vx vy vz]. listeq ltac:(v3; lra). }
  rewrite Ew. cbn [map vx vy vz]. rminmax. unfold zero3. coords. cbn [obind quad_of_corners]. apply f_equal. unfold level.
  f_equal; v3; lra.
Qed.

(** the quadrilaterals as faces *)
Lemma level_convex x y z : convex_ccw (mkV3 0 0 1)
  (around (mkV3 (x - 1 / 5) (y - 1 / 5) z) (mkV3 (x + 2 / 5) (y - 1 / 10) z) (mkV3 (x - 2 / 5) y z) (mkV3 x (y + 1 / 5) z)).
Proof.
  apply quad_convex_ccw. split; [unfold unit3; coords; lra|]. split.
  { intros a b Ha Hb. unfold around in *. cbn [In] in *.
    repeat (destruct Ha as [<-|Ha]; [|]); try destruct Ha; repeat (destruct Hb as [<-|Hb]; [|]); try destruct Hb; coords; lra. }
  unfold orient. coords. repeat split; nra.
Qed.
Lemma level_ok x y z : face_ok (FQuad (level x y z)).
Proof. exists (mkV3 0 0 1). eexists _, _, _, _. split; [apply level_convex|reflexivity]. Qed.
Lemma level_plane x y z : pl_n (q_plane (level x y z)) = mkV3 0 0 1 /\ plane_pts (q_plane (level x y z)) = on_plane (mkV3 (x - 1 / 5) (y - 1 / 5) z) (mkV3 0 0 1).
Proof.
  pose proof (proj1 (quad_convex_ccw _ _ _ _ _) (level_convex x y z)) as (HU & HP & HF & _).
  destruct (planar_quad _ _ _ _ _ HP) as (H1 & H2 & _). unfold plane_pts, level, make_quad. cbn [q_plane].
  rewrite (plane_3p_normal _ _ _ _ HU H1 H2 HF). split; reflexivity.
Qed.
Lemma level_z x y z p : face_set (FQuad (level x y z)) p -> vz p = z.
Proof.
  cbn [face_set]. intros H. assert (B : in_box (mkBox (mkV3 (x - 2 / 5) (y - 1 / 5) z) (mkV3 (x + 2 / 5) (y + 1 / 5) z)) p).
  { eapply hull_box; [|exact H]. intros c Hc. cbn in Hc. repeat (destruct Hc as [<-|Hc]; [unfold in_box; cbn; lra|]). destruct Hc. }
  unfold in_box in B. cbn in B. lra.
Qed.
Lemma level_x x y z p : face_set (FQuad (level x y z)) p -> x - 2 / 5 <= vx p <= x + 2 / 5.
Proof.
  cbn [face_set]. intros H. assert (B : in_box (mkBox (mkV3 (x - 2 / 5) (y - 1 / 5) z) (mkV3 (x + 2 / 5) (y + 1 / 5) z)) p).
  { eapply hull_box; [|exact H]. intros c Hc. cbn in Hc. repeat (destruct Hc as [<-|Hc]; [unfold in_box; cbn; lra|]). destruct Hc. }
  unfold in_box in B. cbn in B. lra.
Qed.

(** the exact distance of two faces *)
Definition real_dist (S T : pt -> Prop) : R := real (Glb_Rbar (fun d => exists x y, S x /\ T y /\ d = dist x y)).
Lemma real_dist_eq S T d : set_dist S T d -> real_dist S T = d.
Proof.
  intros [(x & y & Hx & Hy & E) Hm]. unfold real_dist. rewrite (is_glb_Rbar_unique _ (Finite d)); [reflexivity|]. split.
  - intros z (a & b & Ha & Hb & ->). cbn. apply Hm; assumption.
  - intros b Hb. specialize (Hb d). apply Hb. exists x, y. auto.
Qed.
Definition exact_ops : ent_ops R := mkEntOps R xk (ops 0 [] [] [])
  (fun e1 e2 => match e1, e2 with EFace f1, EFace f2 => Ok (real_dist (face_set f1) (face_set f2)) | _, _ => Ok 0 end)
  (fun p e => Ok (ell_dist p e)) (fun _ _ => Ok 0) (fun _ => Ok 0).
Lemma exact_dist f1 f2 d : set_dist (face_set f1) (face_set f2) d -> dist_ok exact_ops f1 f2.
Proof. intros H. exists d. split; [exact H|]. cbn [eo_dist exact_ops]. f_equal. apply real_dist_eq, H. Qed.

Lemma abs_sq x : Rabs x * Rabs x = x * x.
Proof. unfold Rabs. destruct Rcase_abs; ring. Qed.
Lemma above_each x y z z' : set_dist (face_set (FQuad (level x y z))) (face_set (FQuad (level x y z'))) (Rabs (z - z')).
Proof.
  split.
  - exists (mkV3 (x - 1 / 5) (y - 1 / 5) z), (mkV3 (x - 1 / 5) (y - 1 / 5) z'). split; [apply hull_corner; cbn; auto|]. split; [apply hull_corner; cbn; auto|].
    apply root_is; [apply Rabs_pos|]. rewrite abs_sq. coords. ring.
  - intros p q Hp Hq. apply level_z in Hp. apply level_z in Hq. apply root_above; [apply Rabs_pos|].
    rewrite abs_sq. destruct p as [a b c], q as [a' b' c']. cbn in *. subst. coords.
    pose proof (Rle_0_sqr (a - a')). pose proof (Rle_0_sqr (b - b')). unfold Rsqr in *. lra.
Qed.
Lemma beside_each z z' : set_dist (face_set (FQuad (level 0 (1 / 10) z))) (face_set (FQuad (level 1 0 z'))) (sqrt (1 / 25 + (z - z') * (z - z'))).
Proof.
  assert (0 <= 1 / 25 + (z - z') * (z - z')) as Hn by (pose proof (Rle_0_sqr (z - z')) as S; unfold Rsqr in S; lra). split.
  - exists (mkV3 (0 + 2 / 5) (1 / 10 - 1 / 10) z), (mkV3 (1 - 2 / 5) 0 z'). split; [apply hull_corner; cbn; auto|]. split; [apply hull_corner; cbn; auto|].
    apply root_is; [apply sqrt_pos|]. rewrite sqrt_def by exact Hn. coords. field.
  - intros p q Hp Hq. pose proof (level_x _ _ _ _ Hp). pose proof (level_x _ _ _ _ Hq). apply level_z in Hp. apply level_z in Hq.
    apply root_above; [apply sqrt_pos|]. rewrite sqrt_def by exact Hn. destruct p as [a b c], q as [a' b' c']. cbn in *. subst. coords.
    pose proof (Rle_0_sqr (b - b')) as S. unfold Rsqr in S. assert (1 / 25 <= (a - a') * (a - a')) by nra. lra.
Qed.
Lemma set_dist_sym (S T : pt -> Prop) d : set_dist S T d -> set_dist T S d.
Proof.
  intros [(x & y & Hx & Hy & E) Hm]. split; [exists y, x; rewrite dist_sym; auto|]. intros a b Ha Hb. rewrite dist_sym. apply Hm; assumption.
Qed.

Lemma eps_level x y z x' y' z' : 0 < tol_of (level x y z) (level x' y' z') < 1 / 10 ^ 7.
Proof.
  unfold tol_of. split; [apply Rmin_glb_lt; apply eps_positive, level_ok|].
  eapply Rle_lt_trans; [apply Rmin_l|]. apply (eps_small (isort edge_before) (level_draw (mkV3 x y z))); [apply isort_sorts|apply level_values|apply level_sample].
Qed.
Lemma layers x y z x' y' z' d : 1 / 40 <= Rabs (z - z') ->
  set_dist (face_set (FQuad (level x y z))) (face_set (FQuad (level x' y' z'))) d -> layered exact_ops (level x y z) (level x' y' z').
Proof.
  intros Hz Hd. split; [apply level_ok|]. split; [apply level_ok|]. split; [|apply (exact_dist _ _ d), Hd].
  destruct (level_plane x y z) as [N1 P1]. destruct (level_plane x' y' z') as [N2 P2]. split.
  - rewrite N1, N2. exists 1. split; [lra|]. coords. v3; ring.
  - rewrite P1. intros p Hp. unfold on_plane in Hp. pose proof (eps_level x y z x' y' z').
    apply Rle_trans with (1 / 40); [lra|]. apply root_above; [lra|].
    assert (E : pl_sup (q_plane (level x' y' z')) = mkV3 (x' - 1 / 5) (y' - 1 / 5) z') by reflexivity. rewrite E.
    destruct p as [a b c]. unfold dot, psub in *. cbn in *. assert (c = z) as -> by lra.
    assert (1 / 40 * (1 / 40) <= (z' - z) * (z' - z)).
    { replace ((z' - z) * (z' - z)) with (Rabs (z - z') * Rabs (z - z')); [apply Rmult_le_compat; lra|].
      rewrite abs_sq. ring. }
    pose proof (Rle_0_sqr (x' - 1 / 5 - a)). pose proof (Rle_0_sqr (y' - 1 / 5 - b)). unfold Rsqr in *. rn. lra.
Qed.
Lemma layers_accepted x y z x' y' z' d thr h : calls_of thr h -> 1 / 40 <= Rabs (z - z') -> 1 / 20 <= d ->
  set_dist (face_set (FQuad (level x y z))) (face_set (FQuad (level x' y' z'))) d ->
  ent_evaluate 1000 exact_ops (crun 0 (rev h)) (EFace (FQuad (level x y z))) (EFace (FQuad (level x' y' z'))) = Ok true.
Proof.
  intros Hc Hz Hd HD. pose proof (layers _ _ _ _ _ _ _ Hz HD) as (F1 & F2 & HA & HO). pose proof (eps_level x y z x' y' z').
  pose proof (calls_eps thr h Hc (level x y z) (level x' y' z')) as Et.
  destruct (eval_apart 1000 exact_ops h (FQuad (level x y z)) (FQuad (level x' y' z')) (eps_quad (level x y z)) (eps_quad (level x' y' z')) (calls_active thr h Hc) eq_refl eq_refl ltac:(rewrite Et; lra) F1 F2 I ltac:(rewrite Et; exact HA) HO) as (b & Hb & Hk).
  rewrite Hb. f_equal. apply Hk. destruct Hc as (-> & _). cbn. intros d' Hd'. rewrite (set_dist_unique _ _ _ _ Hd' HD). exact Hd.
Qed.

(** the two samplers: 15 layers each, one below the corner (0, 1/10), one below (1, 0) *)
Definition nr (i : N) : R := INR (N.to_nat i).
Definition layer1 (i : N) : quad R := level 0 (1 / 10) (nr i / 20).
Definition layer2 (i : N) : quad R := level 1 0 (nr i / 20 + 1 / 40).
Definition layer_draws1 (i : N) : poly_draws R := level_draw (mkV3 0 (1 / 10) (nr i / 20)).
Definition layer_draws2 (i : N) : poly_draws R := level_draw (mkV3 1 0 (nr i / 20 + 1 / 40)).
Lemma layers_inside i : (i < 15)%N -> in_box (mkBox (mkV3 0 0 0) (mkV3 1 1 1)) (d_center (layer_draws1 i)) /\
  in_box (mkBox (mkV3 0 0 0) (mkV3 1 1 1)) (d_center (layer_draws2 i)).
Proof.
  intros Hi. unfold in_box, layer_draws1, layer_draws2, nr. cbn [d_center level_draw b_min b_max vx vy vz].
  pose proof (pos_INR (N.to_nat i)). assert (INR (N.to_nat i) <= 14); [|lra].
  replace 14 with (INR 14) by (cbn; lra). apply le_INR. lia.
Qed.
Lemma nr_apart i j : i <> j -> 1 <= Rabs (nr i - nr j).
Proof.
  intros H. unfold nr. destruct (Nat.lt_ge_cases (N.to_nat i) (N.to_nat j)) as [L|L].
  - pose proof (le_INR _ _ L) as E. rewrite S_INR in E. rewrite Rabs_left; lra.
  - assert (N.to_nat j < N.to_nat i)%nat as L' by lia. pose proof (le_INR _ _ L') as E. rewrite S_INR in E. rewrite Rabs_pos_eq; lra.
Qed.
Lemma nr_half i j : 1 / 40 <= Rabs (nr i / 20 - (nr j / 20 + 1 / 40)).
Proof.
  destruct (N.eq_dec i j) as [->|N].
  - rewrite Rabs_left; lra.
  - pose proof (nr_apart i j N) as A. revert A. unfold Rabs. repeat destruct Rcase_abs; lra.
Qed.
Lemma nr_step a i j : i <> j -> 1 / 20 <= Rabs (nr i / 20 + a - (nr j / 20 + a)).
Proof. intros N. pose proof (nr_apart i j N) as A. revert A. unfold Rabs. repeat destruct Rcase_abs; lra. Qed.
Lemma far_enough x : 1 / 20 <= sqrt (1 / 25 + x * x).
Proof.
  rewrite <- (sqrt_square (1 / 20)) by lra. apply sqrt_le_1_alt. pose proof (Rle_0_sqr x) as S. unfold Rsqr in S. lra.
Qed.

Lemma layer11 i j : i <> j -> layered exact_ops (layer1 i) (layer1 j) /\
  ent_evaluate 1000 exact_ops (crun 0 (rev h_self)) (EFace (FQuad (layer1 i))) (EFace (FQuad (layer1 j))) = Ok true.
Proof.
  intros N. pose proof (nr_step 0 i j N) as S. rewrite !Rplus_0_r in S. split.
  - eapply layers; [|apply above_each]. lra.
  - eapply (layers_accepted _ _ _ _ _ _ _ _ _ h_self_calls); [| |apply above_each]; lra.
Qed.
Lemma layer22 i j : i <> j -> layered exact_ops (layer2 i) (layer2 j) /\
  ent_evaluate 1000 exact_ops (crun 0 (rev h_self)) (EFace (FQuad (layer2 i))) (EFace (FQuad (layer2 j))) = Ok true.
Proof.
  intros N. pose proof (nr_step (1 / 40) i j N) as S. split.
  - eapply layers; [|apply above_each]. lra.
  - eapply (layers_accepted _ _ _ _ _ _ _ _ _ h_self_calls); [| |apply above_each]; lra.
Qed.
Lemma layer12 i j : layered exact_ops (layer1 i) (layer2 j) /\ layered exact_ops (layer2 j) (layer1 i) /\
  ent_evaluate 1000 exact_ops (crun 0 (rev h_other)) (EFace (FQuad (layer1 i))) (EFace (FQuad (layer2 j))) = Ok true /\
  ent_evaluate 1000 exact_ops (crun 0 (rev h_other)) (EFace (FQuad (layer2 j))) (EFace (FQuad (layer1 i))) = Ok true.
Proof.
  pose proof (nr_half i j) as S. pose proof S as S'. rewrite Rabs_minus_sym in S'.
  pose proof (beside_each (nr i / 20) (nr j / 20 + 1 / 40)) as D. pose proof (set_dist_sym _ _ _ D) as D'.
  pose proof (far_enough (nr i / 20 - (nr j / 20 + 1 / 40))).
  split; [eapply layers; eassumption|]. split; [eapply layers; eassumption|].
  split; eapply (layers_accepted _ _ _ _ _ _ _ _ _ h_other_calls); eassumption.
Qed.
