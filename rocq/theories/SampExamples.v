(** Concrete samples. *)

From Coq Require Import ZArith Reals Lra Lia Psatz Bool List Permutation.
From Verif Require Import Base NumModel VecModel LinModel RoundModel PolyModel DistModel IntModel SampModel
  GeoSpec LinSpec RoundSpec PolySpec SampSpec GeoLemmas MathProofs LinProofs EllProofs CylProofs SampProofs SampPoly SampConvex SampPy.
Import ListNotations.
Local Open Scope R_scope.

(** compute with the reals *)
Ltac listeq t := repeat (apply (f_equal2 cons); [t|]); reflexivity.
Ltac rabs := repeat match goal with
  | |- context [Rabs ?x] => first [rewrite (Rabs_pos_eq x) by lra | rewrite (Rabs_left x) by lra]
  end.
Ltac rtest := match goal with
  | |- context [Rltb ?a ?b] => first [rewrite (proj2 (Rltb_true a b)) by lra | rewrite (proj2 (Rltb_false a b)) by lra]
  end.

Lemma deltas4 a b : 0 < a < 1 -> 0 < b < 1 -> deltas_of [0; 1; a; b] = Ok [a; 1 - a; - b; - (1 - b)].
Proof.
  intros Ha Hb. unfold deltas_of, exploit_min, exploit_max. rn. change (nlit 0 1) with 0. change (nlit 1 1) with 1.
  change (nlit 1 10) with (1 / 10). change (nlit 9 10) with (9 / 10). change (nlit (-1) 1) with (-1).
  assert (pop_by Rltb [0; 1; a; b] = Some (0, [1; a; b])) as E1.
  { cbn [pop_by]. destruct (Rltb_spec b a); rtest; rtest; reflexivity. }
  rewrite E1.
  assert (pop_by (fun m a0 => Rltb a0 m) [1; a; b] = Some (1, [a; b])) as E2.
  { cbn [pop_by]. destruct (Rltb_spec a b); rtest; reflexivity. }
  rewrite E2. rtest. rtest. cbn [evens odds isort fold_right insert_by app diffs map].
  rtest. rtest. cbn [app diffs map]. rn. apply f_equal. listeq ltac:(ring).
Qed.

(** a draw of four corners *)
Definition unit4 (a b c e : R) : draws R := fun i => nth i [0; 1; a; b; 0; 1; c; e] 0.
Definition draw4 (a b c e slen dlen : R) : poly_draws R :=
  mkDraws (fun _ => 4%Z) (unit4 a b c e) (fun _ => slen) (fun _ => dlen) 0 0 zero3.

Lemma unit4_ok a b c e slen dlen : 0 < a < 1 -> 0 < b < 1 -> 0 < c < 1 -> 0 < e < 1 -> unit_draws (draw4 a b c e slen dlen).
Proof. intros Ha Hb Hc He i. cbn. do 9 (destruct i as [|i]; cbn; [lra|]). lra. Qed.

Lemma deltas_good : deltas_for 4 (unit4 (1 / 4) (1 / 2) (1 / 4) (1 / 2)) = Ok [(-1 / 2, 3 / 4); (-1 / 2, -1 / 2); (1 / 4, -1 / 2); (3 / 4, 1 / 4)].
Proof.
  unfold deltas_for, unit4. cbn [map seq nth]. rewrite !deltas4 by lra. cbn [obind].
  assert (isort nltb [1 / 4; 1 - 1 / 4; - (1 / 2); - (1 - 1 / 2)] = [- (1 / 2); - (1 - 1 / 2); 1 / 4; 1 - 1 / 4]) as Es.
  { rn. cbn [isort fold_right insert_by]. repeat (rtest; cbn [insert_by]). reflexivity. }
  rewrite Es.
  assert (max_delta2 [- (1 / 2); - (1 - 1 / 2); 1 / 4; 1 - 1 / 4] [1 / 4; 1 - 1 / 4; - (1 / 2); - (1 - 1 / 2)] = 18 / 16) as Em.
  { unfold max_delta2. rn. cbn [pop_by last]. repeat rtest. lra. }
  rewrite Em. rn. cbn [pair_up]. rn. repeat (cbn [pop_by]; rabs; repeat rtest; cbn [obind]).
  apply f_equal. listeq ltac:(apply (f_equal2 pair); lra).
Qed.

Lemma deltas_bad : deltas_for 4 (unit4 (1 / 4) (1 / 4) (1 / 2) (1 / 4)) = Ok [(-3 / 4, 1 / 2); (-1 / 4, -3 / 4); (1 / 4, 1 / 2); (3 / 4, -1 / 4)].
Proof.
  unfold deltas_for, unit4. cbn [map seq nth]. rewrite !deltas4 by lra. cbn [obind].
  assert (isort nltb [1 / 4; 1 - 1 / 4; - (1 / 4); - (1 - 1 / 4)] = [- (1 - 1 / 4); - (1 / 4); 1 / 4; 1 - 1 / 4]) as Es.
  { rn. cbn [isort fold_right insert_by]. repeat (rtest; cbn [insert_by]). reflexivity. }
  rewrite Es.
  assert (max_delta2 [- (1 - 1 / 4); - (1 / 4); 1 / 4; 1 - 1 / 4] [1 / 2; 1 - 1 / 2; - (1 / 4); - (1 - 1 / 4)] = 13 / 16) as Em.
  { unfold max_delta2. rn. cbn [pop_by last]. repeat rtest. lra. }
  rewrite Em. rn. cbn [pair_up]. rn. repeat (cbn [pop_by]; rabs; repeat rtest; cbn [obind]).
  apply f_equal. listeq ltac:(apply (f_equal2 pair); lra).
Qed.

(** the quadrant of the angle *)
Lemma atan_pos x : 0 < x -> 0 < atan x.
Proof. intros H. rewrite <- atan_0. apply atan_increasing, H. Qed.
Lemma atan_neg x : x < 0 -> atan x < 0.
Proof. intros H. rewrite <- atan_0. apply atan_increasing, H. Qed.

Ltac quadrant := intros; pose proof PI_RGT_0; unfold edge_angle; cbn [vx vy]; rn;
  change (nlit 1 1000000) with (1 / 1000000); change (nlit 0 1) with 0; change (nlit 2 1) with 2; change (nlit 3 1) with 3;
  change (@npi R _) with PI; change (@natan R _) with atan; rabs; repeat rtest.

Lemma quadrant1 x y : 1 <= x -> 1 / 4 <= y -> 0 <= edge_angle (mkV3 x y 0) <= PI / 2.
Proof.
  quadrant. assert (0 < y / x) as Hq by (apply Rdiv_lt_0_compat; lra).
  pose proof (atan_bound (y / x)). pose proof (atan_pos _ Hq). rtest. lra.
Qed.
Lemma quadrant2 x y : x <= -1 -> 1 / 4 <= y -> PI / 2 < edge_angle (mkV3 x y 0) < PI.
Proof.
  quadrant. assert (0 < y / - x) as Hq by (apply Rdiv_lt_0_compat; lra).
  replace (y / - x) with (- (y / x)) in Hq by (field; lra).
  pose proof (atan_bound (y / x)). pose proof (atan_neg (y / x) ltac:(lra)). lra.
Qed.
Lemma quadrant3 x y : x <= -1 -> y <= - 1 / 4 -> PI < edge_angle (mkV3 x y 0) < 3 * PI / 2.
Proof.
  quadrant. assert (0 < - y / - x) as Hq by (apply Rdiv_lt_0_compat; lra).
  replace (- y / - x) with (y / x) in Hq by (field; lra).
  pose proof (atan_bound (y / x)). pose proof (atan_pos _ Hq). lra.
Qed.
Lemma quadrant4 x y : 1 <= x -> y <= - 1 / 4 -> 3 * PI / 2 < edge_angle (mkV3 x y 0) < 2 * PI.
Proof.
  quadrant. assert (0 < - y / x) as Hq by (apply Rdiv_lt_0_compat; lra).
  replace (- y / x) with (- (y / x)) in Hq by (field; lra).
  pose proof (atan_bound (y / x)). pose proof (atan_neg (y / x) ltac:(lra)). rtest. lra.
Qed.

Lemma retry_first {B} (bad : B -> bool) s v l : bad v = true -> bad (s 0%nat) = false -> retry bad s 0 (S l) 0 v = (s 0%nat, 1%nat).
Proof. intros H1 H2. cbn. rewrite H1. apply retry_false, H2. Qed.

Lemma sample_draw4 srt a b c e slen dlen ds : 0 <= slen -> 0 <= dlen -> deltas_for 4 (unit4 a b c e) = Ok ds ->
  sample_corners srt (draw4 a b c e slen dlen) = Ok (place_polygon (srt (edge_vectors slen dlen ds)) 0 0 zero3).
Proof.
  intros Hs Hd E. unfold sample_corners, draw4. cbn [d_num d_unit d_slen d_dlen d_strike d_dip d_center].
  rewrite retry_first by reflexivity. cbn [Nat.eqb]. change (Z.to_nat 4) with 4%nat. rewrite E. cbn [obind]. rn. change (nlit 0 1) with 0.
  rewrite !retry_false by (apply Rltb_false; lra). reflexivity.
Qed.

Lemma in_plane_0 u v : in_plane 0 0 u v = mkV3 u v 0.
Proof. unfold in_plane, dip_dir, strike_dir. rewrite sin_0, cos_0. coords. v3; ring. Qed.

(** four corners in quadrants one to four *)
Definition good : poly_draws R := draw4 (1 / 4) (1 / 2) (1 / 4) (1 / 2) 2 4.
Definition good_corners : list pt := [mkV3 (-1) (-1) 0; mkV3 2 (-1 / 2) 0; mkV3 0 1 0; mkV3 (-2) 0 0].

Lemma good_draws : unit_draws good /\ first_at (fun v => (3 <= v)%Z) (d_num good) 0 4%Z /\
  0 <= d_slen good 0%nat /\ 0 <= d_dlen good 0%nat.
Proof.
  split; [apply unit4_ok; lra|]. split; [|cbn; lra].
  split; [reflexivity|]. split; [lia|intros j Hj; lia].
Qed.

Ltac rminmax := unfold bbox_mid, nmin, nmax; rn; change (nlit 0 1) with 0; cbn [fold_left];
  repeat (rtest; cbn [fold_left]).

Lemma good_sample : sample_corners (isort edge_before) good = Ok good_corners.
Proof.
  unfold good. rewrite (sample_draw4 _ (1 / 4) (1 / 2) (1 / 4) (1 / 2) 2 4 _ ltac:(lra) ltac:(lra) deltas_good).
  assert (isort edge_before (edge_vectors 2 4 [(-1 / 2, 3 / 4); (-1 / 2, -1 / 2); (1 / 4, -1 / 2); (3 / 4, 1 / 4)]) =
          [mkV3 3 (1 / 2) 0; mkV3 (-2) (3 / 2) 0; mkV3 (-2) (-1) 0; mkV3 1 (-1) 0]) as E.
  { assert (edge_vectors 2 4 [(-1 / 2, 3 / 4); (-1 / 2, -1 / 2); (1 / 4, -1 / 2); (3 / 4, 1 / 4)] =
      [mkV3 (-2) (3 / 2) 0; mkV3 (-2) (-1) 0; mkV3 1 (-1) 0; mkV3 3 (1 / 2) 0]) as Ev.
    { unfold edge_vectors. cbn [map fst snd]. rn. listeq ltac:(v3; lra). }
    rewrite Ev. pose proof (quadrant1 3 (1 / 2)). pose proof (quadrant2 (-2) (3 / 2)). pose proof (quadrant3 (-2) (-1)). pose proof (quadrant4 1 (-1)).
    cbn [isort fold_right insert_by]. unfold edge_before. rn. repeat (rtest; cbn [insert_by]; unfold edge_before; rn). reflexivity. }
  rewrite E, place_eq by (intros v [<-|[<-|[<-|[<-|[]]]]]; reflexivity). cbn zeta. f_equal.
  cbn [map vx vy]. rewrite !in_plane_0.
  assert (walk zero3 [mkV3 3 (1 / 2) 0; mkV3 (-2) (3 / 2) 0; mkV3 (-2) (-1) 0; mkV3 1 (-1) 0] =
    [mkV3 0 0 0; mkV3 3 (1 / 2) 0; mkV3 1 2 0; mkV3 (-1) 1 0]) as Ew.
  { cbn [walk]. unfold zero3, vadd. rn. cbn [vx vy vz]. listeq ltac:(v3; lra). }
  rewrite Ew. cbn [map vx vy vz]. rminmax. unfold good_corners, zero3. coords. listeq ltac:(v3; lra).
Qed.

Lemma good_edges i : (i < 4)%nat -> edge_vec good_corners i = nth i [mkV3 3 (1 / 2) 0; mkV3 (-2) (3 / 2) 0; mkV3 (-2) (-1) 0; mkV3 1 (-1) 0] zero3.
Proof. intros Hi. do 4 (destruct i as [|i]; [unfold edge_vec, good_corners; cbn -[psub]; coords; v3; lra|]). lia. Qed.

Lemma good_clear : clear_edges (d_strike good) (d_dip good) good_corners.
Proof.
  intros i Hi. change (length good_corners) with 4%nat in Hi. cbn zeta. rewrite (good_edges i Hi).
  unfold good, draw4. cbn [d_strike d_dip]. unfold dip_dir, strike_dir. rewrite sin_0, cos_0.
  do 4 (destruct i as [|i]; [cbn [nth]; coords; split; right; rabs; lra|]). lia.
Qed.

Lemma good_noncollinear : noncollinear (nth 0 good_corners zero3) (nth 1 good_corners zero3) (nth 2 good_corners zero3).
Proof. unfold noncollinear, good_corners, zero3. cbn [nth]. coords. intros E. injection E as E1. lra. Qed.

(** a strike length so small that the angles are not told apart *)
Definition flat_draw : poly_draws R := draw4 (1 / 4) (1 / 4) (1 / 2) (1 / 4) (1 / 10 ^ 7) 1.
Definition flat_corners : list pt :=
  [mkV3 (-1 / 2) (-3 / 8 / 10 ^ 7) 0; mkV3 (-1 / 4) (1 / 8 / 10 ^ 7) 0; mkV3 (1 / 2) (-1 / 8 / 10 ^ 7) 0; mkV3 (-1 / 4) (3 / 8 / 10 ^ 7) 0].

Lemma key_right x y : 0 < x -> - 1 / 1000000 < y < 1 / 1000000 -> edge_angle (mkV3 x y 0) = 0.
Proof.
  intros Hx Hy. unfold edge_angle. cbn [vx vy]. rn. change (nlit 1 1000000) with (1 / 1000000).
  rewrite (proj2 (Rltb_true _ _)) by (apply Rabs_def1; lra). rewrite (proj2 (Rltb_true _ _)) by (exact Hx). reflexivity.
Qed.
Lemma key_left x y : x <= 0 -> - 1 / 1000000 < y < 1 / 1000000 -> edge_angle (mkV3 x y 0) = PI.
Proof.
  intros Hx Hy. unfold edge_angle. cbn [vx vy]. rn. change (nlit 1 1000000) with (1 / 1000000).
  rewrite (proj2 (Rltb_true _ _)) by (apply Rabs_def1; lra). rewrite (proj2 (Rltb_false _ _)) by (change (nlit 0 1) with 0; lra). reflexivity.
Qed.

Lemma flat_sample : sample_corners (isort edge_before) flat_draw = Ok flat_corners.
Proof.
  unfold flat_draw. set (e := 1 / 10 ^ 7). assert (e = / 10000000) as He by (unfold e; cbn; lra).
  rewrite (sample_draw4 _ (1 / 4) (1 / 4) (1 / 2) (1 / 4) e 1 _ ltac:(lra) ltac:(lra) deltas_bad).
  assert (isort edge_before (edge_vectors e 1 [(-3 / 4, 1 / 2); (-1 / 4, -3 / 4); (1 / 4, 1 / 2); (3 / 4, -1 / 4)]) =
          [mkV3 (1 / 4) (1 / 2 * e) 0; mkV3 (3 / 4) (-1 / 4 * e) 0; mkV3 (-3 / 4) (1 / 2 * e) 0; mkV3 (-1 / 4) (-3 / 4 * e) 0]) as E.
  { assert (edge_vectors e 1 [(-3 / 4, 1 / 2); (-1 / 4, -3 / 4); (1 / 4, 1 / 2); (3 / 4, -1 / 4)] =
      [mkV3 (-3 / 4) (1 / 2 * e) 0; mkV3 (-1 / 4) (-3 / 4 * e) 0; mkV3 (1 / 4) (1 / 2 * e) 0; mkV3 (3 / 4) (-1 / 4 * e) 0]) as Ev.
    { unfold edge_vectors. cbn [map fst snd]. rn. change (nlit 0 1) with 0. listeq ltac:(v3; lra). }
    rewrite Ev. pose proof PI_RGT_0.
    assert (edge_angle (mkV3 (-3 / 4) (1 / 2 * e) 0) = PI) as K1 by (apply key_left; lra).
    assert (edge_angle (mkV3 (-1 / 4) (-3 / 4 * e) 0) = PI) as K2 by (apply key_left; lra).
    assert (edge_angle (mkV3 (1 / 4) (1 / 2 * e) 0) = 0) as K3 by (apply key_right; lra).
    assert (edge_angle (mkV3 (3 / 4) (-1 / 4 * e) 0) = 0) as K4 by (apply key_right; lra).
    cbn [isort fold_right insert_by]. unfold edge_before. rn. rewrite ?K1, ?K2, ?K3, ?K4.
    repeat (rtest; cbn [insert_by]; unfold edge_before; rn; rewrite ?K1, ?K2, ?K3, ?K4). reflexivity. }
  rewrite E, place_eq by (intros v [<-|[<-|[<-|[<-|[]]]]]; reflexivity). cbn zeta. f_equal.
  cbn [map vx vy]. rewrite !in_plane_0.
  assert (walk zero3 [mkV3 (1 / 4) (1 / 2 * e) 0; mkV3 (3 / 4) (-1 / 4 * e) 0; mkV3 (-3 / 4) (1 / 2 * e) 0; mkV3 (-1 / 4) (-3 / 4 * e) 0] =
    [mkV3 0 0 0; mkV3 (1 / 4) (1 / 2 * e) 0; mkV3 1 (1 / 4 * e) 0; mkV3 (1 / 4) (3 / 4 * e) 0]) as Ew.
  { cbn [walk]. unfold zero3, vadd. rn. cbn [vx vy vz]. listeq ltac:(v3; lra). }
  rewrite Ew. cbn [map vx vy vz]. rminmax. unfold flat_corners, zero3. coords. listeq ltac:(v3; lra).
Qed.

Lemma flat_not_convex N : ~ convex_ccw N flat_corners.
Proof.
  intros (_ & _ & _ & H & H0). pose proof (H 0%nat 2%nat 3%nat ltac:(lia) ltac:(cbn; lia)) as H1.
  unfold flat_corners in H0, H1. cbn [nth] in H0, H1. unfold orient in H0, H1. coords. destruct N as [n1 n2 n3]. cbn [vx vy vz] in H0, H1. lra.
Qed.
Lemma flat_unit : unit_draws flat_draw.
Proof. apply unit4_ok; lra. Qed.
Lemma flat_extent : (forall k, d_slen flat_draw k = 1 / 10 ^ 7) /\ forall p q, In p flat_corners -> In q flat_corners ->
  dot (psub p q) (strike_dir (d_strike flat_draw)) <= 75 / 100 * (1 / 10 ^ 7).
Proof.
  split; [intros k; reflexivity|]. intros p q Hp Hq. unfold flat_draw, draw4, strike_dir. cbn [d_strike]. rewrite sin_0, cos_0.
  unfold flat_corners in Hp, Hq. cbn [In] in Hp, Hq.
  repeat destruct Hp as [<-|Hp]; try contradiction; repeat destruct Hq as [<-|Hq]; try contradiction; unfold dot, psub; cbn [vx vy vz]; lra.
Qed.

(** the numbers drawn are used even if they are negative *)
Definition neg_dip : poly_draws R := mkDraws (fun _ => 4%Z) (unit4 (1 / 4) (1 / 2) (1 / 4) (1 / 2)) (fun _ => 2) (fun _ => -4) 0 0 zero3.
Lemma neg_dip_unit : unit_draws neg_dip.
Proof. apply (unit4_ok (1 / 4) (1 / 2) (1 / 4) (1 / 2) 2 (-4)); lra. Qed.

(** ** 29 corners over the floating-point numbers *)
From Coq Require PrimFloat.
Definition fdiv (a b : Z) : PrimFloat.float := PrimFloat.div (PrimFloat.of_uint63 (Uint63.of_Z a)) (PrimFloat.of_uint63 (Uint63.of_Z b)).
Definition spread : list PrimFloat.float :=
  fdiv 0 1 :: fdiv 1 1 :: flat_map (fun i => [fdiv (Z.of_nat i) 15; fdiv 0 1]) (seq 1 13) ++ [fdiv 14 15].
Definition many : poly_draws PrimFloat.float :=
  mkDraws (fun _ => 29%Z) (fun i => nth i (spread ++ spread) (fdiv 0 1)) (fun _ => fdiv 1 1) (fun _ => fdiv 1 1)
    (fdiv 0 1) (fdiv 0 1) (mkV3 (fdiv 0 1) (fdiv 0 1) (fdiv 0 1)).
Lemma many_unit (T : Trig PrimFloat.float) :
  forallb (fun i => PrimFloat.leb (fdiv 0 1) (d_unit many i) && PrimFloat.leb (d_unit many i) (fdiv 1 1)) (seq 0 58) = true /\
  py_sample_corners many 1 = Throw NameError.
Proof. split; vm_compute; reflexivity. Qed.
