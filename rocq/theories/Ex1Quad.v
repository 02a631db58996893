(** The size of the quadrilaterals of example 1, and the constraints for two of them: proofs. *)

From Coq Require Import ZArith Reals List Lra Lia Psatz Bool.
From Verif Require Import Base ConstraintsModel ConstraintsSpec.
From Verif Require Import NumModel VecModel LinModel RoundModel PolyModel DistModel IntModel AngModel CylIntModel EvalModel SampModel
  GeoSpec LinSpec RoundSpec PolySpec DistSpec IntSpec AngSpec EvalSpec SampSpec Ex1Spec
  GeoLemmas LinProofs EllProofs PolyProofs QuadProofs DistProofs LenProofs FaceIntProofs EvalProofs SampProofs SampPoly SampConvex SampMore.
Import ListNotations.
Local Open Scope R_scope.

Lemma frame_norm s d (v : pt) : dot v v = dot v (dip_dir s d) * dot v (dip_dir s d) + dot v (strike_dir s) * dot v (strike_dir s) +
  dot (plane_normal s d) v * dot (plane_normal s d) v.
Proof.
  unfold dip_dir, strike_dir, plane_normal. destruct v as [x y z]. unfold dot. cbn [vx vy vz].
  pose proof (sin2_cos2 s) as E1. pose proof (sin2_cos2 d) as E2. unfold Rsqr in *.
  set (a := sin s) in *. set (b := cos s) in *. set (u := sin d) in *. set (w := cos d) in *.
  assert (b * b = 1 - a * a) as Eb by lra. assert (w * w = 1 - u * u) as Ew by lra.
  transitivity ((x * x) * (b * b * (w * w + u * u) + a * a) + (y * y) * (a * a * (w * w + u * u) + b * b) +
    (z * z) * (u * u + w * w) + 2 * x * y * (a * b) * (w * w + u * u - 1)).
  - rewrite Ew, Eb. ring.
  - ring.
Qed.

Lemma corner_dist srt d q x y : sorts srt -> ex1_values d -> sample_quad srt d = Ok q ->
  In x (around (q_0 q) (q_1 q) (q_2 q) (q_3 q)) -> In y (around (q_0 q) (q_1 q) (q_2 q) (q_3 q)) ->
  dot (psub x y) (psub x y) <= 128 / 100.
Proof.
  intros HS [HU HL] E Hx Hy. pose proof (sampled_quad srt d q HS E) as EC.
  set (cs := [q_0 q; q_1 q; q_3 q; q_2 q]) in *.
  assert (Ix : In x cs) by (unfold cs, around in *; cbn in *; tauto).
  assert (Iy : In y cs) by (unfold cs, around in *; cbn in *; tauto).
  destruct (polygon_partial srt (four d) cs HS EC) as (_ & HP & _).
  destruct (sampled_extent srt (four d) cs HS EC) as (slen & dlen & w & h & k & Hk & (Es & Hs & _) & Hd & Hw & He & _).
  destruct (Hw HU) as [Hw1 Hh1]. change (d_slen (four d)) with (d_slen d) in *. change (d_dlen (four d)) with (d_dlen d) in *.
  assert (Hs' : 4 / 10 <= slen <= 8 / 10) by (rewrite <- Es; apply HL).
  assert (Hd' : 4 / 10 <= dlen <= 8 / 10).
  { destruct Hd as [(i & _ & <- & _)|[Hn _]]; [apply HL|]. pose proof (HL 0%nat). specialize (Hn 0%nat ltac:(lia)). lra. }
  rewrite Rabs_pos_eq in He by lra.
  destruct (He x y Ix Iy) as [A1 A2]. destruct (He y x Iy Ix) as [B1 B2].
  rewrite (frame_norm (d_strike (four d)) (d_dip (four d)) (psub x y)).
  rewrite (HP y x Iy Ix).
  replace (dot (psub y x) (dip_dir (d_strike (four d)) (d_dip (four d)))) with (- dot (psub x y) (dip_dir (d_strike (four d)) (d_dip (four d)))) in B1
    by (clear; coords; ring).
  replace (dot (psub y x) (strike_dir (d_strike (four d)))) with (- dot (psub x y) (strike_dir (d_strike (four d)))) in B2 by (clear; coords; ring).
  set (a := dot (psub x y) (dip_dir _ _)) in *. set (b := dot (psub x y) (strike_dir _)) in *.
  assert (w * dlen <= 8 / 10) by nra. assert (h * slen <= 8 / 10) by nra.
  assert (a * a <= 64 / 100) by nra. assert (b * b <= 64 / 100) by nra. lra.
Qed.
Lemma corner_near srt d q x y : sorts srt -> ex1_values d -> sample_quad srt d = Ok q ->
  In x (around (q_0 q) (q_1 q) (q_2 q) (q_3 q)) -> In y (around (q_0 q) (q_1 q) (q_2 q) (q_3 q)) -> dist x y <= 2.
Proof.
  intros HS HV E Hx Hy. unfold dist, norm. rewrite <- (sqrt_square 2) by lra. apply sqrt_le_1_alt.
  pose proof (corner_dist srt d q x y HS HV E Hx Hy). lra.
Qed.
Lemma quad_points srt d q x y : sorts srt -> ex1_values d -> sample_quad srt d = Ok q ->
  face_set (FQuad q) x -> face_set (FQuad q) y -> dist x y <= 2.
Proof.
  intros HS HV E Hx Hy. cbn [face_set] in *. eapply (hull_ball _ x 2 y); [|exact Hy]. intros c Hc.
  rewrite dist_sym. eapply (hull_ball _ c 2 x); [|exact Hx]. intros c' Hc'. apply (corner_near srt d q); assumption.
Qed.

Lemma area3_bound a b c : dot (psub b a) (psub b a) <= 128 / 100 -> dot (psub c a) (psub c a) <= 128 / 100 -> area3 a b c <= 64 / 100.
Proof.
  intros H1 H2. unfold area3. assert (norm (cross (psub b a) (psub c a)) <= 128 / 100); [|lra].
  unfold norm. rewrite <- (sqrt_square (128 / 100)) by lra. apply sqrt_le_1_alt. rewrite lagrange.
  pose proof (dot_nonneg (psub b a)). pose proof (dot_nonneg (psub c a)). pose proof (Rle_0_sqr (dot (psub b a) (psub c a))) as S. unfold Rsqr in S.
  assert (dot (psub b a) (psub b a) * dot (psub c a) (psub c a) <= 128 / 100 * (128 / 100)) by (apply Rmult_le_compat; assumption). lra.
Qed.
Lemma quad_shape srt d q : sorts srt -> sample_quad srt d = Ok q -> q = make_quad (q_0 q) (q_1 q) (q_2 q) (q_3 q).
Proof.
  intros HS E. unfold sample_quad in E. destruct (sample_corners srt (four d)) as [cs|e| |]; try discriminate. cbn [obind] in E.
  destruct cs as [|c0 [|c1 [|c2 [|c3 [|c4 cs]]]]]; try discriminate. cbn in E. injection E as <-. reflexivity.
Qed.
Lemma eps_small srt d q : sorts srt -> ex1_values d -> sample_quad srt d = Ok q -> eps_quad q < 1 / 10 ^ 7.
Proof.
  intros HS HV E. rewrite (quad_shape srt d q HS E). unfold eps_quad. rewrite confusion_R, quad_area_eq. rn.
  assert (I : forall x y, In x (around (q_0 q) (q_1 q) (q_2 q) (q_3 q)) -> In y (around (q_0 q) (q_1 q) (q_2 q) (q_3 q)) -> dot (psub x y) (psub x y) <= 128 / 100)
    by (intros; apply (corner_dist srt d q); assumption).
  unfold around in I. cbn [In] in I.
  pose proof (area3_bound (q_0 q) (q_1 q) (q_3 q) ltac:(apply I; auto) ltac:(apply I; auto)).
  pose proof (area3_bound (q_0 q) (q_3 q) (q_2 q) ltac:(apply I; auto) ltac:(apply I; auto)).
  assert (sqrt (area3 (q_0 q) (q_1 q) (q_3 q) + area3 (q_0 q) (q_3 q) (q_2 q)) <= 12 / 10).
  { rewrite <- (sqrt_square (12 / 10)) by lra. apply sqrt_le_1_alt. lra. }
  change (nlit 1 2) with (1 / 2). lra.
Qed.
Lemma eps_positive q : face_ok (FQuad q) -> 0 < eps_quad q.
Proof.
  intros (N & p0 & p1 & p2 & p3 & HC & ->). unfold eps_quad. rewrite confusion_R.
  pose proof (proj1 (quad_convex_ccw N p0 p1 p2 p3) HC) as (HU & HP & HF & A & B & C).
  rewrite (quad_area_shoelace N p0 p1 p2 p3 HU HP) by (rewrite (orient_rot N p0 p3 p2) in C; nra).
  pose proof (shoelace_pos N _ HC). rewrite Rabs_pos_eq by lra. rn. change (nlit 1 2) with (1 / 2).
  pose proof (sqrt_lt_R0 _ H). lra.
Qed.

(** the thresholds that are set by the constraints of example 1 *)
Definition calls_of (thr : R) (h : list (cop R)) : Prop :=
  active_distance h = Some (1 / 20) /\ active_angle h = Some thr /\ active_magnitude h = Some (1 / 20) /\
  active_is_distance h = Some (1 / 20) /\ active_eps h = None.

Section Pair.
Variables (top : R) (O : ent_ops R) (srt : list (V3 R) -> list (V3 R)).
Hypothesis HS : sorts srt.
Hypothesis HT : 2 <= top.
Variables (thr : R) (h : list (cop R)).
Hypothesis HH : calls_of thr h.
Variables (d1 d2 : poly_draws R) (q1 q2 : quad R).
Hypothesis HV1 : ex1_values d1.
Hypothesis HV2 : ex1_values d2.
Hypothesis E1 : sample_quad srt d1 = Ok q1.
Hypothesis E2 : sample_quad srt d2 = Ok q2.

Lemma calls_active : ~ no_constraint h.
Proof. destruct HH as (A & _). intros (B & _). congruence. Qed.
Lemma calls_eps : is_eps h (eps_quad q1) (eps_quad q2) = tol_of q1 q2.
Proof. destruct HH as (_ & _ & _ & _ & E). unfold is_eps. rewrite E. reflexivity. Qed.
Lemma edges_two d q : ex1_values d -> sample_quad srt d = Ok q -> proper_edges (corners (FQuad q)) -> edges_fit 2 (FQuad q).
Proof.
  intros HV E HP. split; [lra|]. split; [exact HP|]. intros [a b] Hab. destruct (edges_in _ _ _ Hab) as [Ha Hb].
  cbn [fst snd]. apply (corner_near srt d q a b HS HV E Ha Hb).
Qed.
Lemma within_two d q : ex1_values d -> sample_quad srt d = Ok q -> within top (FQuad q).
Proof.
  intros HV E x y Hx Hy. apply Rle_trans with 2; [|exact HT]. apply (quad_points srt d q x y HS HV E Hx).
  cbn [edge_set face_set] in *. destruct Hy as ([a b] & He & Hs). destruct (edges_in _ _ _ He) as [Ha Hb].
  apply (hull_between _ a b); [apply hull_corner, Ha|apply hull_corner, Hb|exact Hs].
Qed.
Lemma general_pair : general O q1 q2 -> pair_ok top O h (FQuad q1) (FQuad q2) (eps_quad q1) (eps_quad q2) 2.
Proof.
  intros (HC & B1 & B2 & P1 & P2 & HD). pose proof HC as [(F1 & F2 & _) _].
  pose proof (eps_positive q1 F1). pose proof (eps_positive q2 F2).
  constructor; rewrite ?calls_eps; try assumption; try reflexivity; try exact I.
  - unfold tol_of. apply Rmin_glb_lt; assumption.
  - apply (edges_two d1); assumption.
  - apply (edges_two d2); assumption.
  - apply (within_two d1); assumption.
  - apply (within_two d2); assumption.
Qed.

Lemma kept_spaced : general O q1 q2 -> kept h (eps_quad q1) (eps_quad q2) (2 / 10000000) 0 (FQuad q1) (FQuad q2) ->
  well_spaced thr (FQuad q1) (FQuad q2).
Proof.
  intros HG (K1 & K2 & K3). pose proof HG as (HC & B1 & B2 & P1 & P2 & (d & Hd & _)). pose proof HC as [(F1 & F2 & _) _].
  pose proof (eps_positive q1 F1). pose proof (eps_positive q2 F2).
  pose proof (eps_small srt d1 q1 HS HV1 E1) as T1. pose proof (eps_small srt d2 q2 HS HV2 E2) as T2.
  assert (0 < tol_of q1 q2) as HE by (unfold tol_of; apply Rmin_glb_lt; assumption).
  destruct (int_faces_exact _ _ _ _ HE B1 B2 HC) as (i & _ & Hi & Hk).
  destruct HH as (AD & AA & AM & AI & _). rewrite AD in K1. rewrite AM in K3. unfold angle_kept, end_kept in *. rewrite AA, AI in *.
  cbn [holds_if_set] in *.
  assert (OFF : forall q p, eps_quad q < 1 / 10 ^ 7 -> keeps_off (eps_quad q) (1 / 20) (2 / 10000000) 0 (edge_set (FQuad q)) p -> clear_of (FQuad q) p).
  { intros q p Hq Ho x Hx. destruct (Ho x Hx); [left; lra|right; lra]. }
  constructor.
  - intros HN x y Hx Hy. apply Rle_trans with d; [|apply Hd; assumption]. apply (K1 HN d Hd).
  - intros x theta Hx Hy Ht. destruct Hk as [->|[ [p ->]|[s ->] ] ].
    + exfalso. apply (Hi x). split; assumption.
    + apply (proj1 (K2 p Hi) theta Ht).
    + apply (proj1 (proj2 (K3 s Hi)) theta Ht).
  - intros s Hs. apply (proj1 (K3 s Hs)).
  - intros s p Hs Hp. destruct (K3 s Hs) as (_ & _ & A & B).
    destruct Hp as [-> | ->]; split; apply OFF; try assumption; tauto.
  - intros p Hp. destruct (K2 p Hp) as (_ & A). split; apply OFF; try assumption; tauto.
Qed.

Lemma eval_general : general O q1 q2 -> ent_evaluate top O (crun 0 (rev h)) (EFace (FQuad q1)) (EFace (FQuad q2)) = Ok true ->
  well_spaced thr (FQuad q1) (FQuad q2).
Proof.
  intros HG HE. apply kept_spaced; [exact HG|].
  destruct (eval_faces top O h _ _ _ _ 2 calls_active (general_pair HG)) as (b & Hb & _ & Hk). apply Hk. congruence.
Qed.
Lemma eval_layered : layered O q1 q2 -> ent_evaluate top O (crun 0 (rev h)) (EFace (FQuad q1)) (EFace (FQuad q2)) = Ok true ->
  well_spaced thr (FQuad q1) (FQuad q2).
Proof.
  intros (F1 & F2 & HA & HD) HE. pose proof (eps_positive q1 F1). pose proof (eps_positive q2 F2).
  assert (0 < tol_of q1 q2) as HP by (unfold tol_of; apply Rmin_glb_lt; assumption).
  destruct (int_faces_apart (eo_int O) _ _ _ HP F1 F2 I HA) as [_ HN].
  destruct (eval_apart top O h (FQuad q1) (FQuad q2) (eps_quad q1) (eps_quad q2) calls_active eq_refl eq_refl
    ltac:(rewrite calls_eps; exact HP) F1 F2 I ltac:(rewrite calls_eps; exact HA) HD) as (b & Hb & Hk).
  assert (b = true) as -> by congruence. pose proof (proj1 Hk eq_refl) as Hk'. destruct HH as (AD & _). rewrite AD in Hk'. cbn in Hk'.
  constructor.
  - intros _ x y Hx Hy. destruct HD as (d & Hd & _). apply Rle_trans with d; [apply Hk', Hd|apply Hd; assumption].
  - intros x theta Hx Hy. exfalso. apply (HN x). split; assumption.
  - intros s [_ Hs]. exfalso. apply (HN (s_src s)). apply Hs. exists 0. split; [lra|]. coords. v3; ring.
  - intros s p [_ Hs]. exfalso. apply (HN (s_src s)). apply Hs. exists 0. split; [lra|]. coords. v3; ring.
  - intros p Hp. exfalso. apply (HN p). apply Hp. reflexivity.
Qed.
Lemma eval_spaced : decided O q1 q2 -> ent_evaluate top O (crun 0 (rev h)) (EFace (FQuad q1)) (EFace (FQuad q2)) = Ok true ->
  well_spaced thr (FQuad q1) (FQuad q2).
Proof. intros [HG|HL]; [apply eval_general, HG|apply eval_layered, HL]. Qed.
End Pair.
