(** Intersection angles: proofs. *)

From Coq Require Import Reals Lra Psatz Bool List.
From Verif Require Import Base NumModel VecModel LinModel RoundModel PolyModel DistModel IntModel AngModel
  GeoSpec LinSpec RoundSpec AngSpec GeoLemmas MathProofs LinProofs EllProofs ArcProofs CylProofs SegIntProofs.
Import ListNotations.
Local Open Scope R_scope.

(** * Two planes *)
Lemma angle_unique n1 n2 a b : n1 <> zero3 -> n2 <> zero3 -> angle_between n1 n2 a -> angle_between n1 n2 b -> a = b.
Proof.
  intros H1 H2 [Ra Ea] [Rb Eb]. pose proof (norm_pos _ H1). pose proof (norm_pos _ H2).
  assert (cos a = cos b) as E.
  { apply Rmult_eq_reg_r with (norm n1 * norm n2); [lra|]. apply Rgt_not_eq, Rmult_lt_0_compat; assumption. }
  pose proof PI_RGT_0. apply cos_inj; lra.
Qed.

Lemma abs_dot_unit n1 n2 : unit3 n1 -> unit3 n2 -> 0 <= Rabs (dot n1 n2) <= 1.
Proof.
  intros H1 H2. split; [apply Rabs_pos|]. pose proof (cauchy_norm n1 n2) as C.
  rewrite (norm_unit _ H1), (norm_unit _ H2) in C. lra.
Qed.
Lemma acos_range x : 0 <= x <= 1 -> 0 <= acos x <= PI / 2 /\ cos (acos x) = x.
Proof.
  intros Hx. assert (cos (acos x) = x) as E by (apply cos_acos; lra).
  split; [|exact E]. pose proof (acos_bound x) as [H1 H2]. split; [exact H1|].
  destruct (Rle_lt_dec (acos x) (PI / 2)) as [|L]; [assumption|].
  pose proof PI_RGT_0. pose proof (cos_lt_0 (acos x) L). lra.
Qed.
Lemma plane_angle_eq (p1 p2 : plane R) : plane_angle p1 p2 = acos (Rabs (dot (pl_n p1) (pl_n p2))).
Proof. unfold plane_angle, plane_cos. rewrite sprod_dot. reflexivity. Qed.
Lemma plane_angle_spec (p1 p2 : plane R) : unit3 (pl_n p1) -> unit3 (pl_n p2) ->
  angle_between (pl_n p1) (pl_n p2) (plane_angle p1 p2).
Proof.
  intros H1 H2. rewrite plane_angle_eq. destruct (acos_range _ (abs_dot_unit _ _ H1 H2)) as [R1 R2].
  split; [exact R1|]. rewrite R2, (norm_unit _ H1), (norm_unit _ H2). ring.
Qed.

Lemma angle_sym n1 n2 t : angle_between n1 n2 t -> angle_between n2 n1 t.
Proof. intros [H1 H2]. split; [exact H1|]. rewrite (dot_comm n2 n1), <- H2. ring. Qed.
Lemma plane_angle_sym (p1 p2 : plane R) : plane_angle p1 p2 = plane_angle p2 p1.
Proof. rewrite !plane_angle_eq, dot_comm. reflexivity. Qed.

Lemma angle_scale n1 n2 k t : k <> 0 -> angle_between n1 n2 t -> angle_between n1 (pscale k n2) t.
Proof.
  intros Hk [H1 H2]. split; [exact H1|]. rewrite norm_scale'.
  replace (dot n1 (pscale k n2)) with (k * dot n1 n2) by (coords; ring). rewrite Rabs_mult, <- H2. ring.
Qed.

Lemma plane_angle_flip (p1 p2 : plane R) s1 s2 b1 b2 n1 n2 q1 q2 :
  Rabs s1 = 1 -> Rabs s2 = 1 -> n1 = pscale s1 (pl_n p1) -> n2 = pscale s2 (pl_n p2) ->
  plane_angle (mkPlane q1 (fst b1) (snd b1) n1) (mkPlane q2 (fst b2) (snd b2) n2) = plane_angle p1 p2.
Proof.
  intros H1 H2 -> ->. rewrite !plane_angle_eq. cbn [pl_n].
  replace (dot (pscale s1 (pl_n p1)) (pscale s2 (pl_n p2))) with (s1 * s2 * dot (pl_n p1) (pl_n p2)) by (coords; ring).
  rewrite !Rabs_mult, H1, H2. f_equal. ring.
Qed.

Lemma dot_one_eq n1 n2 : unit3 n1 -> unit3 n2 -> dot n1 n2 = 1 -> n1 = n2.
Proof.
  intros H1 H2 E. apply psub_zero, dot_zero.
  transitivity (dot n1 n1 - 2 * dot n1 n2 + dot n2 n2); [coords; ring|].
  unfold unit3 in *. rewrite H1, H2, E. ring.
Qed.
Lemma plane_angle_zero (p1 p2 : plane R) : unit3 (pl_n p1) -> unit3 (pl_n p2) ->
  (plane_angle p1 p2 = 0 <-> pl_n p1 = pl_n p2 \/ pl_n p1 = pscale (-1) (pl_n p2)).
Proof.
  intros H1 H2. destruct (plane_angle_spec _ _ H1 H2) as [_ E]. rewrite (norm_unit _ H1), (norm_unit _ H2) in E.
  split.
  - intros Z. rewrite Z, cos_0 in E. unfold Rabs in E. destruct (Rcase_abs _) as [C|C].
    + right. apply dot_one_eq; [exact H1| |].
      * unfold unit3 in *. transitivity (dot (pl_n p2) (pl_n p2)); [coords; ring|exact H2].
      * transitivity (- dot (pl_n p1) (pl_n p2)); [coords; ring|lra].
    + left. apply dot_one_eq; [exact H1|exact H2|lra].
  - intros Hp. rewrite plane_angle_eq. replace (Rabs _) with 1; [apply acos_1|].
    destruct Hp as [-> | ->].
    + unfold unit3 in H2. rewrite H2. rewrite Rabs_R1. reflexivity.
    + replace (dot (pscale (-1) (pl_n p2)) (pl_n p2)) with (- dot (pl_n p2) (pl_n p2)) by (coords; ring).
      unfold unit3 in H2. rewrite H2, Rabs_Ropp, Rabs_R1. reflexivity.
Qed.
Lemma plane_angle_right (p1 p2 : plane R) : unit3 (pl_n p1) -> unit3 (pl_n p2) ->
  (plane_angle p1 p2 = PI / 2 <-> ortho (pl_n p1) (pl_n p2)).
Proof.
  intros H1 H2. destruct (plane_angle_spec _ _ H1 H2) as [_ E]. rewrite (norm_unit _ H1), (norm_unit _ H2) in E.
  split.
  - intros Z. rewrite Z, cos_PI2 in E. unfold ortho. destruct (Req_dec (dot (pl_n p1) (pl_n p2)) 0) as [|N]; [assumption|].
    pose proof (Rabs_pos_lt _ N). lra.
  - unfold ortho. intros Z. rewrite plane_angle_eq, Z, Rabs_R0. apply acos_0.
Qed.

Lemma dihedral_angle n1 n2 t : unit3 n1 -> unit3 n2 -> angle_between n1 n2 t -> dihedral n1 n2 t.
Proof.
  intros H1 H2 [Rt E]. split; [exact Rt|]. rewrite (norm_unit _ H1), (norm_unit _ H2) in E.
  intros l u1 u2 Hl Hu1 Hu2 L1 L2 U1 UL1 U2 UL2.
  replace (cos t) with (Rabs (dot n1 n2)) by lra. clear E Rt.
  assert (ortho_basis n1 u1 (to_dir (cross n1 u1))) as Hb.
  { apply cross_basis; try assumption. unfold ortho in *. rewrite dot_comm. exact U1. }
  set (m := to_dir (cross n1 u1)) in *.
  pose proof Hb as (_ & _ & Hm & B1 & B2 & B3 & _).
  (* l is m up to the sign *)
  assert (l = pscale (dot l m) m) as El.
  { rewrite (basis_coords n1 u1 m l Hb) at 1. unfold ortho in *. rewrite L1, (dot_comm l u1), UL1. apply v3_eq; coords; ring. }
  assert (dot l m <> 0) as Ml.
  { intros Z. rewrite Z in El. apply (unit3_nonzero _ Hl). rewrite El. apply v3_eq; coords; ring. }
  assert (forall v, dot l v = 0 -> dot v m = 0) as Hv.
  { intros v Hv. rewrite El in Hv. apply Rmult_eq_reg_l with (dot l m); [|exact Ml].
    rewrite Rmult_0_r, <- Hv. set (k := dot l m). clearbody k. clear. coords. ring. }
  assert (dot n2 m = 0) as N2 by (apply Hv, L2).
  assert (dot u2 m = 0) as V2 by (apply Hv; rewrite dot_comm; exact UL2).
  pose proof (basis_coords n1 u1 m n2 Hb) as En. pose proof (basis_coords n1 u1 m u2 Hb) as Eu.
  rewrite N2 in En. rewrite V2 in Eu.
  set (al := dot n2 n1) in *. set (be := dot n2 u1) in *. set (ga := dot u2 n1) in *. set (de := dot u2 u1) in *.
  assert (al * al + be * be = 1) as A1.
  { unfold unit3 in H2. rewrite <- H2. rewrite En at 1 2. clearbody al be.
    transitivity (al * al * dot n1 n1 + 2 * al * be * dot n1 u1 + be * be * dot u1 u1); [|coords; ring].
    unfold unit3, ortho in *. rewrite H1, B1, Hu1. ring. }
  assert (ga * ga + de * de = 1) as A2.
  { unfold unit3 in Hu2. rewrite <- Hu2. rewrite Eu at 1 2. clearbody ga de.
    transitivity (ga * ga * dot n1 n1 + 2 * ga * de * dot n1 u1 + de * de * dot u1 u1); [|coords; ring].
    unfold unit3, ortho in *. rewrite H1, B1, Hu1. ring. }
  assert (ga * al + de * be = 0) as A3.
  { unfold ortho in U2. rewrite <- U2. rewrite En, Eu. clearbody al be ga de.
    transitivity (ga * al * dot n1 n1 + (ga * be + de * al) * dot n1 u1 + de * be * dot u1 u1); [|coords; ring].
    unfold unit3, ortho in *. rewrite H1, B1, Hu1. ring. }
  rewrite (dot_comm n1 n2), (dot_comm u1 u2). fold al de.
  assert (al * al = de * de) as Q.
  { replace (al * al) with (al * al * (ga * ga + de * de)) by (rewrite A2; ring).
    replace (de * de) with (de * de * (al * al + be * be)) at 2 by (rewrite A1; ring).
    assert (ga * al = - (de * be)) as A4 by lra.
    replace (al * al * (ga * ga + de * de)) with (ga * al * (ga * al) + al * al * (de * de)) by ring. rewrite A4. ring. }
  apply Rsqr_eq_abs_0. unfold Rsqr. exact Q.
Qed.

(** * A plane and a cylinder surface *)
Lemma radial_char (c : cyl R) p w : unit3 (e_n (c_bot c)) -> radial c p w ->
  w = axw (e_c (c_bot c)) (e_n (c_bot c)) p.
Proof. intros Hn [Ho [z E]]. destruct (ax_unique _ _ Hn z w p Ho E) as [_ E2]. symmetry. exact E2. Qed.
Lemma radial_ex (c : cyl R) p : unit3 (e_n (c_bot c)) -> radial c p (axw (e_c (c_bot c)) (e_n (c_bot c)) p).
Proof.
  intros Hn. split; [apply ax_ortho, Hn|]. exists (axz (e_c (c_bot c)) (e_n (c_bot c)) p).
  apply ax_split.
Qed.
Lemma angle_at_unique n (c : cyl R) p a b : n <> zero3 -> unit3 (e_n (c_bot c)) ->
  axw (e_c (c_bot c)) (e_n (c_bot c)) p <> zero3 -> angle_at n c p a -> angle_at n c p b -> a = b.
Proof.
  intros H0 Hn Hw [w [W1 A]] [w' [W2 B]]. apply (radial_char _ _ _ Hn) in W1, W2. subst w w'.
  exact (angle_unique _ _ _ _ H0 Hw A B).
Qed.

Lemma tangent_normal (c : cyl R) p : cyl_ok c ->
  pl_n (surf_tangent c p) = to_dir (axw (e_c (c_bot c)) (e_n (c_bot c)) p).
Proof.
  intros Hok. pose proof Hok as (Hn & Hh & _). unfold surf_tangent. rewrite (cyl_seg c Hok), (ax_vec _ _ _ Hn Hh). reflexivity.
Qed.

Lemma tangent_angle (pl : plane R) (c : cyl R) p : cyl_ok c -> unit3 (pl_n pl) ->
  axw (e_c (c_bot c)) (e_n (c_bot c)) p <> zero3 ->
  angle_at (pl_n pl) c p (plane_angle pl (surf_tangent c p)).
Proof.
  intros Hok Hp Hw. exists (axw (e_c (c_bot c)) (e_n (c_bot c)) p).
  split; [apply radial_ex, Hok|].
  assert (unit3 (pl_n (surf_tangent c p))) as Ht by (rewrite (tangent_normal _ _ Hok); apply to_dir_unit, Hw).
  pose proof (plane_angle_spec pl (surf_tangent c p) Hp Ht) as S.
  set (w := axw _ _ p) in *. pose proof (norm_pos _ Hw).
  apply (angle_scale _ _ (norm w)) in S; [|lra].
  rewrite (tangent_normal _ _ Hok) in S. fold w in S.
  replace (pscale (norm w) (to_dir w)) with w in S; [exact S|].
  rewrite (to_dir_scale _ Hw). apply v3_eq; unfold pscale; cbn [vx vy vz]; field; lra.
Qed.

Lemma lateral_offset (c : cyl R) p : surf_ok c -> cyl_lateral_set c p ->
  norm (axw (e_c (c_bot c)) (e_n (c_bot c)) p) = e_a (c_bot c) /\
  axw (e_c (c_bot c)) (e_n (c_bot c)) p <> zero3.
Proof.
  intros [Hok Ha] Hp. pose proof Hok as (Hn & _). unfold cyl_lateral_set, lateral_cyl in Hp.
  rewrite (cyl_set_char _ _ _ Hn) in Hp. destruct Hp as [_ Hw]. split; [exact Hw|].
  intros E. rewrite E, norm_zero3 in Hw. lra.
Qed.

Lemma point_angle (pl : plane R) (c : cyl R) p : surf_ok c -> unit3 (pl_n pl) -> cyl_lateral_set c p ->
  angle_at (pl_n pl) c p (plane_angle pl (surf_tangent c p)).
Proof.
  intros Hs Hp Hl. apply tangent_angle; [apply Hs|exact Hp|]. apply (lateral_offset _ _ Hs Hl).
Qed.

(** the tangent plane is the same along a generator *)
Lemma radial_shift (c : cyl R) p w k : radial c p w -> radial c (padd p (pscale k (e_n (c_bot c)))) w.
Proof.
  intros [Ho [z E]]. split; [exact Ho|]. exists (z + k). rewrite E. apply v3_eq; coords; ring.
Qed.
Lemma angle_generator n (c : cyl R) p q t : on_line p (e_n (c_bot c)) q -> angle_at n c p t -> angle_at n c q t.
Proof. intros [k ->] [w [W A]]. exists w. split; [apply radial_shift, W|exact A]. Qed.

(** * Minima over samples *)
Lemma nmin_min (a b : R) : nmin a b = Rmin a b.
Proof. unfold nmin, Rmin. rn. rcmp; destruct (Rle_dec a b); lra. Qed.
Lemma min_over_spec top (f : R -> R) l : let m := min_over top f l in
  m <= top /\ (forall t, In t l -> m <= f t) /\ (m = top \/ exists t, In t l /\ m = f t).
Proof.
  unfold min_over. revert top. induction l as [|x l IH]; intros top; cbn [fold_left].
  - split; [lra|]. split; [contradiction|]. left. reflexivity.
  - specialize (IH (nmin top (f x))). cbn zeta in IH. destruct IH as (H1 & H2 & H3).
    rewrite nmin_min in H1, H2, H3. rewrite nmin_min. pose proof (Rmin_l top (f x)). pose proof (Rmin_r top (f x)).
    set (m := fold_left _ l _) in *. split; [lra|]. split.
    + intros t [->|Ht]; [lra|]. apply H2, Ht.
    + destruct H3 as [E|[t [Ht E]]].
      * unfold Rmin in E. destruct (Rle_dec top (f x)); [left; exact E|]. right. exists x. split; [left; reflexivity|exact E].
      * right. exists t. split; [right; exact Ht|exact E].
Qed.
Lemma min_over_attained top (f : R -> R) l : l <> [] -> (forall t, In t l -> f t <= top) ->
  let m := min_over top f l in (forall t, In t l -> m <= f t) /\ exists t, In t l /\ m = f t.
Proof.
  intros Hl Ht m. destruct (min_over_spec top f l) as (H1 & H2 & H3). fold m in H1, H2, H3.
  split; [exact H2|]. destruct H3 as [E|H3]; [|exact H3].
  destruct l as [|x l]; [congruence|]. exists x. split; [left; reflexivity|].
  pose proof (Ht x (or_introl eq_refl)). pose proof (H2 x (or_introl eq_refl)). lra.
Qed.

Lemma params5_eq : @params5 R _ = [0; 1 / 4; 1 / 2; 3 / 4; 1].
Proof. unfold params5. rn. unfold Rlit. repeat f_equal; lra. Qed.
Lemma params9_eq : @params9 R _ = [0; 1 / 8; 1 / 4; 3 / 8; 1 / 2; 5 / 8; 3 / 4; 7 / 8; 1].
Proof. unfold params9. rn. unfold Rlit. repeat f_equal; lra. Qed.

Lemma plane_angle_range (p1 p2 : plane R) : unit3 (pl_n p1) -> unit3 (pl_n p2) -> 0 <= plane_angle p1 p2 <= PI / 2.
Proof. intros H1 H2. apply (plane_angle_spec _ _ H1 H2). Qed.
Lemma tangent_unit (c : cyl R) p : surf_ok c -> cyl_lateral_set c p -> unit3 (pl_n (surf_tangent c p)).
Proof. intros Hs Hp. rewrite tangent_normal by apply Hs. apply to_dir_unit, (lateral_offset _ _ Hs Hp). Qed.

(** * Ellipses on the surface: the sampled minimum is the minimum over all points *)
Section Section_ellipse.
Variables (pl : plane R) (c : cyl R) (e : ell R).
Hypothesis Hs : surf_ok c.
Hypothesis He : ell_ok e.
Hypothesis Hp : unit3 (pl_n pl).
Hypothesis Hn : pl_n pl = e_n e \/ pl_n pl = pscale (-1) (e_n e).
Hypothesis Hon : forall p, on_ellipse e p -> cyl_lateral_set c p.
Let d := e_n (c_bot c).
Let r := e_a (c_bot c).
Let ax p := axw (e_c (c_bot c)) d p.
(* the parts of the axes of the ellipse perpendicular to the axis of the cylinder *)
Let M := psub (e_maj e) (pscale (dot (e_maj e) d) d).
Let N := psub (e_min e) (pscale (dot (e_min e) d) d).
Let w0 := ax (e_c e).

Lemma sec_dd : dot d d = 1.
Proof. apply Hs. Qed.
Lemma sec_ax phi : ax (ell_at e phi) =
  padd w0 (padd (pscale (e_a e * cos phi) M) (pscale (e_b e * sin phi) N)).
Proof.
  unfold w0, ax, M, N, axw, axz, ell_at, at_coords. generalize (e_a e * cos phi), (e_b e * sin phi). intros x y.
  set (dd := d). clearbody dd. apply v3_eq; coords; ring.
Qed.
Lemma sec_M : dot M d = 0.
Proof. unfold M. pose proof sec_dd. transitivity (dot (e_maj e) d - dot (e_maj e) d * dot d d); [coords; ring|rewrite H; ring]. Qed.
Lemma sec_N : dot N d = 0.
Proof. unfold N. pose proof sec_dd. transitivity (dot (e_min e) d - dot (e_min e) d * dot d d); [coords; ring|rewrite H; ring]. Qed.
Lemma sec_norm phi : let x := e_a e * cos phi in let y := e_b e * sin phi in
  dot w0 w0 + x * x * dot M M + y * y * dot N N + 2 * x * dot w0 M + 2 * y * dot w0 N + 2 * x * y * dot M N = r * r.
Proof.
  intros x y. destruct (lateral_offset c (ell_at e phi) Hs) as [E _]; [apply Hon; exists phi; reflexivity|].
  fold d in E. change (norm (ax (ell_at e phi)) = r) in E. rewrite <- E, norm_sq, sec_ax.
  fold x y. clearbody x y w0 M N. coords. ring.
Qed.
Lemma sec_eqs : dot M N = 0 /\ e_a e * e_a e * dot M M = e_b e * e_b e * dot N N /\ dot w0 M = 0 /\ dot w0 N = 0.
Proof.
  destruct He as (_ & Ha & Hb).
  pose proof (sec_norm 0) as Q1. pose proof (sec_norm PI) as Q2. pose proof (sec_norm (PI / 2)) as Q3.
  pose proof (sec_norm (- (PI / 2))) as Q4. pose proof (sec_norm (PI / 4)) as Q5. 
  cbn zeta in *. rewrite cos_0, sin_0 in Q1. rewrite cos_PI, sin_PI in Q2. rewrite cos_PI2, sin_PI2 in Q3.
  rewrite cos_neg, sin_neg, cos_PI2, sin_PI2 in Q4. rewrite cos_PI4, sin_PI4 in Q5.
  assert (0 < sqrt 2) as Hs2 by (apply sqrt_lt_R0; lra).
  assert (sqrt 2 * sqrt 2 = 2) as Es2 by (apply sqrt_sqrt; lra).
  set (a := e_a e) in *. set (b := e_b e) in *. set (s := / sqrt 2).
  assert (s * s = 1 / 2) as Ess by (unfold s; rewrite <- Rinv_mult, Es2; lra).
  assert (s <> 0) as Hs0 by (intros Z; rewrite Z in Ess; lra).
  assert (dot w0 M = 0) as W1 by (apply Rmult_eq_reg_l with (4 * a); [lra|lra]).
  assert (dot w0 N = 0) as W2 by (apply Rmult_eq_reg_l with (4 * b); [lra|lra]).
  rewrite W1, W2 in *. split; [|split; [lra|split; reflexivity]].
  replace (1 / sqrt 2) with s in Q5 by (unfold s; field; lra).
  apply Rmult_eq_reg_l with (a * b); [|apply Rgt_not_eq, Rmult_lt_0_compat; assumption].
  replace (a * s * (a * s)) with (a * a * (s * s)) in Q5 by ring.
  replace (b * s * (b * s)) with (b * b * (s * s)) in Q5 by ring.
  replace (2 * (a * s) * (b * s)) with (2 * (a * b) * (s * s)) in Q5 by ring.
  rewrite Ess in Q5. lra.
Qed.
Lemma sec_MM : 0 < dot M M /\ 0 < dot N N.
Proof.
  destruct sec_eqs as (_ & E & _ & _). destruct He as ((Hu & Hv & _ & Huv & _) & Ha & Hb).
  pose proof (dot_nonneg M) as PM. pose proof (dot_nonneg N) as PN.
  assert (0 < e_a e * e_a e) by (apply Rmult_lt_0_compat; assumption).
  assert (0 < e_b e * e_b e) by (apply Rmult_lt_0_compat; assumption).
  destruct (Req_dec (dot M M) 0) as [Z|Z].
  - exfalso. assert (dot N N = 0) as Z2 by (rewrite Z in E; apply Rmult_eq_reg_l with (e_b e * e_b e); lra).
    apply dot_zero in Z, Z2. unfold M in Z. unfold N in Z2. apply psub_zero in Z, Z2.
    unfold unit3, ortho in *. pose proof sec_dd as D.
    set (x := dot (e_maj e) d) in *. set (y := dot (e_min e) d) in *.
    assert (x * x = 1) as X1 by (rewrite <- Hu; rewrite Z at 1 2; transitivity (x * x * dot d d); [rewrite D; ring|clearbody x; coords; ring]).
    assert (y * y = 1) as Y1 by (rewrite <- Hv; rewrite Z2 at 1 2; transitivity (y * y * dot d d); [rewrite D; ring|clearbody y; coords; ring]).
    assert (x * y = 0) as XY by (rewrite <- Huv; rewrite Z, Z2; transitivity (x * y * dot d d); [rewrite D; ring|clearbody x y; coords; ring]).
    nra.
  - assert (0 < dot M M) by lra. split; [assumption|].
    assert (0 < e_a e * e_a e * dot M M) by (apply Rmult_lt_0_compat; assumption).
    destruct (Req_dec (dot N N) 0) as [Z2|]; [rewrite Z2 in E; lra|lra].
Qed.
Lemma sec_center : w0 = zero3.
Proof.
  destruct sec_eqs as (MN & _ & W1 & W2). destruct sec_MM as [PM PN].
  assert (M <> zero3) as HM by (intros Z; rewrite Z in PM; coords; lra).
  assert (N <> zero3) as HN by (intros Z; rewrite Z in PN; coords; lra).
  assert (dot w0 d = 0) as W3 by (apply (ax_ortho (e_c (c_bot c)) d); apply Hs).
  assert (dot (pscale (/ norm M) M) d = 0) as X1 by (transitivity (/ norm M * dot M d); [generalize (/ norm M); intros; coords; ring|rewrite sec_M; ring]).
  assert (dot (pscale (/ norm N) N) d = 0) as X2 by (transitivity (/ norm N * dot N d); [generalize (/ norm N); intros; coords; ring|rewrite sec_N; ring]).
  assert (dot (pscale (/ norm M) M) (pscale (/ norm N) N) = 0) as X3.
  { transitivity (/ norm M * / norm N * dot M N); [generalize (/ norm M), (/ norm N); intros; coords; ring|rewrite MN; ring]. }
  assert (forall v : pt, dot w0 v = 0 -> forall k, dot w0 (pscale k v) = 0) as Hk.
  { intros v Hv k. transitivity (k * dot w0 v); [generalize w0; intros; coords; ring|rewrite Hv; ring]. }
  pose proof (cross_basis d (to_dir M) sec_dd (to_dir_unit _ HM)) as Hb.
  rewrite !(to_dir_scale _ HM) in Hb.
  assert (ortho d (pscale (/ norm M) M)) as O1 by (unfold ortho; rewrite dot_comm; exact X1).
  specialize (Hb O1).
  apply (basis_complete _ _ _ _ Hb); [exact W3|apply Hk, W1|].
  (* the third direction is parallel to N *)
  pose proof (basis_coords _ _ _ N Hb) as EN.
  set (m3 := to_dir (cross d _)) in *.
  rewrite sec_N in EN. 
  replace (dot N (pscale (/ norm M) M)) with 0 in EN by (symmetry; transitivity (/ norm M * dot M N); [generalize (/ norm M); intros; coords; ring|rewrite MN; ring]).
  assert (N = pscale (dot N m3) m3) as EN2 by (rewrite EN at 1; generalize (dot N m3); intros; apply v3_eq; coords; ring).
  assert (dot N m3 <> 0) as NZ by (intros Z; rewrite Z in EN2; apply HN; rewrite EN2; apply v3_eq; coords; ring).
  apply Rmult_eq_reg_l with (dot N m3); [|exact NZ]. rewrite Rmult_0_r.
  transitivity (dot w0 (pscale (dot N m3) m3)); [generalize (dot N m3), w0; intros; coords; ring|].
  rewrite <- EN2. exact W2.
Qed.
(* one of the axes of the ellipse is perpendicular to the axis of the cylinder *)
Lemma sec_axis : dot (e_maj e) d * dot (e_min e) d = 0.
Proof.
  destruct sec_eqs as (MN & _). destruct He as ((_ & _ & _ & Huv & _) & _).
  assert (dot M N = dot (e_maj e) (e_min e) - 2 * (dot (e_maj e) d * dot (e_min e) d) + dot (e_maj e) d * dot (e_min e) d * dot d d) as E.
  { unfold M, N. clear. coords. ring. }
  rewrite sec_dd in E. unfold ortho in Huv. rewrite Huv, MN in E. lra.
Qed.
Lemma sec_dot phi : Rabs (dot (pl_n pl) (ax (ell_at e phi))) =
  Rabs (dot (e_n e) d) * Rabs (e_a e * cos phi * dot (e_maj e) d + e_b e * sin phi * dot (e_min e) d).
Proof.
  assert (dot (e_n e) (ax (ell_at e phi)) =
    - (dot (e_n e) d * (e_a e * cos phi * dot (e_maj e) d + e_b e * sin phi * dot (e_min e) d))) as E.
  { rewrite sec_ax, sec_center. destruct He as ((_ & _ & _ & _ & Hun & Hvn & _) & _). unfold ortho in *.
    unfold M, N. generalize (e_a e * cos phi), (e_b e * sin phi). intros x y.
    transitivity (x * dot (e_maj e) (e_n e) + y * dot (e_min e) (e_n e) - dot (e_n e) d * (x * dot (e_maj e) d + y * dot (e_min e) d)).
    - clear. coords. ring.
    - rewrite Hun, Hvn. ring. }
  destruct Hn as [-> | ->].
  - rewrite E, Rabs_Ropp, Rabs_mult. reflexivity.
  - replace (dot (pscale (-1) (e_n e)) (ax (ell_at e phi))) with (- dot (e_n e) (ax (ell_at e phi))) by (generalize (ax (ell_at e phi)); intros; clear; coords; ring).
    rewrite Rabs_Ropp, E, Rabs_Ropp, Rabs_mult. reflexivity.
Qed.

(* the angle at the end of one of the two axes is the smallest one *)
Lemma sec_best : exists t, (t = 0 \/ t = 1 / 4) /\ forall phi,
  Rabs (dot (pl_n pl) (ax (ell_at e phi))) <= Rabs (dot (pl_n pl) (ax (ell_at e (2 * PI * t)))).
Proof.
  pose proof sec_axis as E. destruct He as (_ & Ha & Hb).
  apply Rmult_integral in E. destruct E as [E|E].
  - exists (1 / 4). split; [right; reflexivity|]. intros phi. rewrite !sec_dot, E, !Rmult_0_r, !Rplus_0_l.
    apply Rmult_le_compat_l; [apply Rabs_pos|].
    replace (2 * PI * (1 / 4)) with (PI / 2) by field. rewrite sin_PI2, !Rabs_mult, Rabs_R1.
    apply Rmult_le_compat_r; [apply Rabs_pos|]. apply Rmult_le_compat_l; [apply Rabs_pos|]. apply Rabs_le. apply SIN_bound.
  - exists 0. split; [left; reflexivity|]. intros phi. rewrite !sec_dot, E, !Rmult_0_r, !Rplus_0_r.
    apply Rmult_le_compat_l; [apply Rabs_pos|]. rewrite cos_0, !Rabs_mult, Rabs_R1.
    apply Rmult_le_compat_r; [apply Rabs_pos|]. apply Rmult_le_compat_l; [apply Rabs_pos|]. apply Rabs_le. apply COS_bound.
Qed.

Lemma acos_anti x y : 0 <= x <= 1 -> 0 <= y <= 1 -> x <= y -> acos y <= acos x.
Proof.
  intros Hx Hy L. destruct (acos_range x Hx) as [Rx Ex]. destruct (acos_range y Hy) as [Ry Ey].
  destruct (Rle_lt_dec (acos y) (acos x)) as [|C]; [assumption|]. pose proof PI_RGT_0.
  pose proof (cos_decreasing_1 (acos x) (acos y)). lra.
Qed.

Lemma ellipse_angle top : PI / 2 <= top ->
  exists theta, face_surf_angle top pl c (PcEll e) = Ok theta /\
    smallest_angle (pl_n pl) c (on_ellipse e) theta.
Proof.
  intros Ht. set (f := fun t => plane_angle pl (surf_tangent c (ell_point e t))).
  exists (min_over top f params9). split; [reflexivity|].
  assert (forall t, ell_point e t = ell_at e (2 * PI * t)) as Ep.
  { intros t. unfold ell_point. rewrite ell_angle_point_eq by exact He. rewrite twopi_lit. reflexivity. }
  assert (forall t, on_ellipse e (ell_point e t)) as Hpt by (intros t; rewrite Ep; eexists; reflexivity).
  destruct (min_over_attained top f params9) as [Hle [t [Hin Hm]]].
  - rewrite params9_eq. discriminate.
  - intros t _. apply Rle_trans with (PI / 2); [|exact Ht].
    apply plane_angle_range; [exact Hp|]. apply tangent_unit; [exact Hs|]. apply Hon, Hpt.
  - set (m := min_over top f params9) in *. split.
    + exists (ell_point e t). split; [apply Hpt|]. rewrite Hm. apply point_angle; [exact Hs|exact Hp|apply Hon, Hpt].
    + intros p th [phi ->] Hth.
      assert (th = plane_angle pl (surf_tangent c (ell_at e phi))) as ->.
      { apply (angle_at_unique (pl_n pl) c (ell_at e phi)).
        - apply unit3_nonzero, Hp.
        - apply Hs.
        - apply (lateral_offset _ _ Hs). apply Hon. eexists; reflexivity.
        - exact Hth.
        - apply point_angle; [exact Hs|exact Hp|]. apply Hon. eexists; reflexivity. }
      destruct sec_best as [t0 [T0 Hbest]].
      assert (m <= f t0) as Hm0 by (apply Hle; rewrite params9_eq; cbn; destruct T0 as [-> | ->]; tauto).
      apply Rle_trans with (f t0); [exact Hm0|]. unfold f. rewrite Ep, !plane_angle_eq.
      assert (forall phi, Rabs (dot (pl_n pl) (pl_n (surf_tangent c (ell_at e phi)))) = / r * Rabs (dot (pl_n pl) (ax (ell_at e phi)))) as Et.
      { intros q. destruct (lateral_offset c (ell_at e q) Hs) as [L1 L2]; [apply Hon; eexists; reflexivity|].
        rewrite tangent_normal by apply Hs. fold d. rewrite to_dir_scale by exact L2. fold d in L1. rewrite L1. fold r.
        unfold ax. set (w := axw _ d _). replace (dot (pl_n pl) (pscale (/ r) w)) with (/ r * dot (pl_n pl) w) by (generalize (/ r), w; intros; clear; coords; ring).
        rewrite Rabs_mult. f_equal. apply Rabs_pos_eq. left. apply Rinv_0_lt_compat. apply Hs. }
      apply acos_anti.
      * apply abs_dot_unit; [exact Hp|]. apply tangent_unit; [exact Hs|]. apply Hon. eexists; reflexivity.
      * apply abs_dot_unit; [exact Hp|]. apply tangent_unit; [exact Hs|]. apply Hon. eexists; reflexivity.
      * rewrite !Et. apply Rmult_le_compat_l; [left; apply Rinv_0_lt_compat, Hs|]. apply Hbest.
Qed.
End Section_ellipse.
