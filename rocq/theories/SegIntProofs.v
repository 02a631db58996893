(** Proofs about the intersection of planes, lines and segments. *)

From Coq Require Import Reals Lra Lia Psatz Nsatz List Bool ZArith.
From Verif Require Import Base NumModel VecModel LinModel RoundModel PolyModel IntModel
  GeoSpec LinSpec RoundSpec PolySpec IntSpec GeoLemmas LinProofs ArcProofs.
Import ListNotations.
Local Open Scope R_scope.

(** equality of points, by coordinates *)
Ltac pq := apply v3_eq; unfold padd, psub, pscale, zero3; cbn [vx vy vz].

(** ** angles *)
Lemma gp_angle_eq (u v : pt) : gp_angle u v = angle u v.
Proof. unfold gp_angle, angle. rewrite sprod_dot, !vlen_norm. reflexivity. Qed.

Lemma ang_tol_eq : (angular : R) = ang_tol.
Proof. rewrite angular_eq. unfold ang_tol. lra. Qed.
Lemma ang_tol_pos : 0 < ang_tol.
Proof. unfold ang_tol. lra. Qed.
Lemma ang_tol_small : ang_tol < 1.
Proof. unfold ang_tol. lra. Qed.

Lemma norm_scale' c (u : pt) : norm (pscale c u) = Rabs c * norm u.
Proof.
  unfold norm. replace (dot (pscale c u) (pscale c u)) with (Rsqr c * dot u u) by (unfold Rsqr; coords; ring).
  rewrite sqrt_mult; [|apply Rle_0_sqr|apply dot_nonneg]. rewrite sqrt_Rsqr_abs. reflexivity.
Qed.
Lemma parallel_angle (u v : pt) : u <> zero3 -> parallel u v -> angle u v = 0 \/ angle u v = PI.
Proof.
  intros Hu (c & Hc & ->). unfold angle. rewrite norm_scale'. pose proof (norm_pos u Hu) as Hn.
  replace (dot u (pscale c u)) with (c * (norm u * norm u)) by (rewrite norm_sq; coords; ring).
  destruct (Rlt_le_dec 0 c) as [Hp|Hp].
  - rewrite (Rabs_right c) by lra. left. replace (_ / _) with 1 by (field; split; lra). apply acos_1.
  - rewrite (Rabs_left c) by lra. right.
    replace (c * (norm u * norm u) / (norm u * (- c * norm u))) with (- (1)) by (field; split; lra).
    rewrite acos_opp, acos_1. lra.
Qed.
Lemma angle_cos_range (u v : pt) : u <> zero3 -> v <> zero3 -> -1 <= dot u v / (norm u * norm v) <= 1.
Proof.
  intros Hu Hv. pose proof (norm_pos u Hu). pose proof (norm_pos v Hv).
  pose proof (cauchy_norm u v) as Hc. assert (Hm : 0 < norm u * norm v) by (apply Rmult_lt_0_compat; assumption).
  set (m := norm u * norm v) in *. clearbody m.
  assert (- m <= dot u v <= m) by (unfold Rabs in Hc; destruct Rcase_abs in Hc; lra).
  split; apply (Rmult_le_reg_r m); try exact Hm; unfold Rdiv; rewrite Rmult_assoc, Rinv_l by lra; lra.
Qed.
Lemma angle_dir (u v : pt) : u <> zero3 -> v <> zero3 -> angle (to_dir u) (to_dir v) = angle u v.
Proof.
  intros Hu Hv. unfold angle. rewrite (norm_unit _ (to_dir_unit u Hu)), (norm_unit _ (to_dir_unit v Hv)).
  rewrite !to_dir_scale by assumption. f_equal. pose proof (norm_pos u Hu). pose proof (norm_pos v Hv).
  replace (dot (pscale (/ norm u) u) (pscale (/ norm v) v)) with (/ norm u * / norm v * dot u v)
    by (generalize (/ norm u) (/ norm v); clear; intros; coords; ring).
  field. split; lra.
Qed.
Lemma gp_parallel_true (u v : pt) : u <> zero3 -> parallel u v -> gp_parallel u v angular = true.
Proof.
  intros Hu Hp. unfold gp_parallel. rewrite gp_angle_eq, ang_tol_eq. cbn [nleb nsub R_num npi R_trig].
  pose proof ang_tol_pos. destruct (parallel_angle u v Hu Hp) as [->| ->]; unfold Rleb.
  - destruct Rle_dec; [reflexivity|lra].
  - destruct (Rle_dec (PI - PI) ang_tol); [|lra]. apply orb_true_r.
Qed.
Lemma gp_parallel_false (u v : pt) : oblique ang_tol u v -> gp_parallel u v angular = false.
Proof.
  intros [H1 H2]. unfold gp_parallel. rewrite gp_angle_eq, ang_tol_eq. cbn [nleb nsub R_num npi R_trig].
  unfold Rleb. destruct Rle_dec; [lra|]. destruct Rle_dec; [lra|]. reflexivity.
Qed.
Lemma oblique_not_parallel (u v : pt) : u <> zero3 -> oblique ang_tol u v -> ~ parallel u v.
Proof.
  intros Hu [H1 H2] Hp. pose proof ang_tol_pos. destruct (parallel_angle u v Hu Hp) as [E|E]; rewrite E in *; lra.
Qed.
Lemma gp_normal_iff (u v : pt) : gp_normal u v angular = true <-> Rabs (PI / 2 - angle u v) <= ang_tol.
Proof.
  unfold gp_normal. rewrite gp_angle_eq, ang_tol_eq. cbn [nleb nltb nsub ndiv nopp R_num npi R_trig].
  change (nlit 2 1) with 2. change n0 with 0. unfold Rltb, Rleb, Rabs.
  destruct Rlt_dec; destruct Rcase_abs; destruct Rle_dec; try lra; split; auto; try discriminate; intros; lra.
Qed.
Lemma gp_normal_ortho (u v : pt) : dot u v = 0 -> gp_normal u v angular = true.
Proof.
  intros Hd. apply gp_normal_iff. unfold angle. rewrite Hd. unfold Rdiv. rewrite Rmult_0_l.
  replace (acos 0) with (PI / 2) by (rewrite <- cos_PI2, acos_cos; [reflexivity|pose proof PI_RGT_0; lra]).
  replace (PI * / 2 - PI / 2) with 0 by lra. rewrite Rabs_R0. left. apply ang_tol_pos.
Qed.

(** ** segments on a line, by their coordinates on the line *)
Lemma on_seg_1d (P u : pt) (a b : R) x : on_segment (padd P (pscale a u)) (padd P (pscale b u)) x <->
  exists t, (a <= t <= b \/ b <= t <= a) /\ x = padd P (pscale t u).
Proof.
  split.
  - intros (t & Ht & ->). exists ((1 - t) * a + t * b). split.
    + destruct (Rle_lt_dec a b); [left|right]; nra.
    + pq; ring.
  - intros (t & Ht & ->). destruct (Req_dec a b) as [->|Hn].
    + assert (t = b) as -> by lra. exists 0. split; [lra|]. pq; ring.
    + assert (Hr : 0 <= (t - a) / (b - a) <= 1).
      { destruct (Rlt_le_dec a b).
        - split; [apply Rmult_le_pos; [lra|left; apply Rinv_0_lt_compat; lra]|].
          apply (Rmult_le_reg_r (b - a)); [lra|]. unfold Rdiv. rewrite Rmult_assoc, Rinv_l by lra. lra.
        - assert (Hb : b < a) by lra. replace ((t - a) / (b - a)) with ((a - t) / (a - b)) by (field; lra).
          split; [apply Rmult_le_pos; [lra|left; apply Rinv_0_lt_compat; lra]|].
          apply (Rmult_le_reg_r (a - b)); [lra|]. unfold Rdiv. rewrite Rmult_assoc, Rinv_l by lra. lra. }
      exists ((t - a) / (b - a)). split; [exact Hr|]. pq; field; lra.
Qed.
Lemma line_coord (P u : pt) a b : u <> zero3 -> padd P (pscale a u) = padd P (pscale b u) -> a = b.
Proof.
  intros Hu E. assert (pscale (a - b) u = zero3) as Z.
  { unfold padd, pscale in E. injection E as E1 E2 E3. unfold pscale, zero3. f_equal; lra. }
  destruct (Req_dec a b); [assumption|]. exfalso. apply Hu.
  unfold pscale, zero3 in Z. injection Z as Z1 Z2 Z3. destruct u as [x y z]. cbn in *. unfold zero3.
  f_equal; nra.
Qed.
Lemma on_seg_1d_at (P u : pt) (a b t : R) : u <> zero3 ->
  (on_segment (padd P (pscale a u)) (padd P (pscale b u)) (padd P (pscale t u)) <-> (a <= t <= b \/ b <= t <= a)).
Proof.
  intros Hu. rewrite on_seg_1d. split.
  - intros (t' & Ht & E). apply line_coord in E; [|exact Hu]. subst. exact Ht.
  - intros Ht. exists t. auto.
Qed.
Lemma seg_end_on (s : segment R) p : is_end s p -> seg_pts s p.
Proof.
  unfold seg_pts. intros [->| ->]; [exists 0|exists 1]; (split; [lra|]); pq; ring.
Qed.

(** two parallel segments with a common point lie on one line *)
Lemma same_line (s1 s2 : segment R) x : nondeg s1 -> parallel (seg_vec s1) (seg_vec s2) ->
  seg_pts s1 x -> seg_pts s2 x ->
  exists P u a b c d, u <> zero3 /\ s_src s1 = padd P (pscale a u) /\ s_tgt s1 = padd P (pscale b u) /\
    s_src s2 = padd P (pscale c u) /\ s_tgt s2 = padd P (pscale d u).
Proof.
  intros Hn (k & Hk & E) (t1 & _ & E1) (t2 & _ & E2).
  exists x, (seg_vec s1), (- t1), (1 - t1), (- t2 * k), ((1 - t2) * k).
  unfold seg_vec in *. set (w := psub (s_tgt s1) (s_src s1)) in *.
  assert (Hw : s_tgt s1 = padd (s_src s1) w) by (unfold w; pq; ring).
  assert (Hw2 : s_tgt s2 = padd (s_src s2) (pscale k w)).
  { rewrite <- E. pq; ring. }
  split.
  { intros Z. apply Hn. rewrite Hw, Z. pq; ring. }
  clearbody w. clear E. rewrite Hw in *. rewrite Hw2 in *.
  assert (F1 : s_src s1 = psub x (pscale t1 w)) by (rewrite E1; pq; ring).
  assert (F2 : s_src s2 = psub x (pscale (t2 * k) w)) by (rewrite E2; pq; ring).
  clear E1 E2. rewrite F1, F2. repeat split; pq; ring.
Qed.

(** the distances from the supporting line of a parallel segment *)
Lemma parallel_offset (s1 s2 : segment R) : nondeg s1 -> nondeg s2 -> parallel (seg_vec s1) (seg_vec s2) ->
  forall eps, 0 < eps ->
  line_contains (seg_line s1) (s_tgt s2) eps = line_contains (seg_line s1) (s_src s2) eps /\
  line_contains (seg_line s2) (s_src s1) eps = line_contains (seg_line s1) (s_src s2) eps /\
  line_contains (seg_line s2) (s_tgt s1) eps = line_contains (seg_line s1) (s_src s2) eps.
Proof.
  intros H1 H2 (k & Hk & E) eps He.
  pose proof (sd_u s1 H1) as U1. pose proof (sd_u s2 H2) as U2.
  pose proof (sd_tgt s1 H1) as T1. pose proof (sd_tgt s2 H2) as T2.
  pose proof (sd_L s1 H1) as L1. pose proof (sd_L s2 H2) as L2.
  set (m1 := norm (psub (s_tgt s1) (s_src s1))) in *. set (m2 := norm (psub (s_tgt s2) (s_src s2))) in *.
  assert (EU : exists c, seg_dir s2 = pscale c (seg_dir s1) /\ c * c = 1).
  { exists (k * m1 / m2). unfold seg_vec in E.
    assert (E' : pscale m2 (seg_dir s2) = pscale (k * m1) (seg_dir s1)).
    { transitivity (psub (s_tgt s2) (s_src s2)); [rewrite T2; pq; ring|]. rewrite E, T1.
      clear. pq; ring. }
    assert (E2 : seg_dir s2 = pscale (k * m1 / m2) (seg_dir s1)).
    { transitivity (pscale (/ m2) (pscale m2 (seg_dir s2))).
      - pq; field; lra.
      - rewrite E'. pq; field; lra. }
    split; [exact E2|]. rewrite E2 in U2. unfold unit3 in *.
    replace (dot (pscale (k * m1 / m2) (seg_dir s1)) (pscale (k * m1 / m2) (seg_dir s1)))
      with (k * m1 / m2 * (k * m1 / m2) * dot (seg_dir s1) (seg_dir s1)) in U2
      by (generalize (k * m1 / m2); clear; intros; coords; ring).
    rewrite U1 in U2. lra. }
  destruct EU as (c & EU & Hc). clearbody m1 m2. clear E.
  assert (C : forall (l : line R) p, line_contains l p eps = true <->
     dot (psub p (line_proj l p)) (psub p (line_proj l p)) < eps * eps).
  { intros l p. rewrite line_contains_eq by lra. apply dist_lt_eps. lra. }
  repeat split; apply eq_true_iff_eq; rewrite !C, !line_proj_eq; cbn [seg_line l_sup l_dir].
  - rewrite T2, EU. unfold unit3 in U1. revert U1. generalize (seg_dir s1) (s_src s1) (s_src s2). clear. intros u P Q U.
    match goal with |- ?a < _ <-> ?b < _ => replace a with b; [reflexivity|] end. coords. nsatz.
  - rewrite EU. unfold unit3 in U1. revert U1 Hc. generalize (seg_dir s1) (s_src s1) (s_src s2). clear. intros u P Q U Hc.
    match goal with |- ?a < _ <-> ?b < _ => replace a with b; [reflexivity|] end. coords. nsatz.
  - rewrite EU, T1. unfold unit3 in U1. revert U1 Hc. generalize (seg_dir s1) (s_src s1) (s_src s2). clear. intros u P Q U Hc.
    match goal with |- ?a < _ <-> ?b < _ => replace a with b; [reflexivity|] end. coords. nsatz.
Qed.

Lemma contains_skip (s : segment R) p eps : line_contains (seg_line s) p eps = true ->
  seg_contains s p eps false = seg_contains s p eps true.
Proof. intros H. unfold seg_contains. rewrite H. reflexivity. Qed.

Lemma contains_near (s : segment R) p eps : nondeg s -> 0 < eps ->
  (seg_contains s p eps true = true <-> exists q, seg_pts s q /\ dist p q < eps).
Proof.
  intros Hn He. destruct (seg_dist_exists s p Hn) as [d Hd].
  rewrite (seg_contains_iff s p Hn eps d He Hd). destruct Hd as [(y & Hy & <-) Hm]. split.
  - intros H. exists y. auto.
  - intros (q & Hq & Hl). specialize (Hm q Hq). lra.
Qed.
Lemma contains_clear (s : segment R) p eps : nondeg s -> 0 < eps ->
  seg_pts s p \/ far_from (seg_pts s) eps p ->
  (seg_contains s p eps true = true <-> seg_pts s p).
Proof.
  intros Hn He Hc. rewrite contains_near by assumption. split.
  - intros (q & Hq & Hl). destruct Hc as [Hc|Hc]; [exact Hc|]. specialize (Hc q Hq). lra.
  - intros H. exists p. rewrite dist_self. auto.
Qed.
Lemma pt_eq_dist (p q : pt) eps : 0 < eps -> (pt_eq p q eps = true <-> dist p q < eps).
Proof. intros He. rewrite pt_eq_spec by lra. rewrite ?(dist_sym q p). reflexivity. Qed.

(** ** two segments *)
Section SegSeg.
Variable K : kernel R.
Variables (sg1 sg2 : segment R) (eps : R).
Hypothesis N1 : nondeg sg1.
Hypothesis N2 : nondeg sg2.
Hypothesis He : 0 < eps.
Let common := both (seg_pts sg1) (seg_pts sg2).

Let rest : outcome (isect R) :=
    let es := k_fragment K sg1 sg2 (nlit 1 10 * eps)%num in
    if Nat.eqb (length es) 3 || Nat.eqb (length es) 4 then
      match first_on_both sg1 sg2 eps es with
      | Some p => Ok (IsPoint p)
      | None => Throw RuntimeError
      end
    else if pt_eq (s_src sg1) (s_src sg2) eps then Ok (IsPoint (s_src sg1))
    else if pt_eq (s_src sg1) (s_tgt sg2) eps then Ok (IsPoint (s_src sg1))
    else if pt_eq (s_tgt sg1) (s_src sg2) eps then Ok (IsPoint (s_tgt sg1))
    else if pt_eq (s_tgt sg1) (s_tgt sg2) eps then Ok (IsPoint (s_tgt sg1))
    else Ok IsEmpty.

Lemma vecs_nonzero : seg_vec sg1 <> zero3 /\ seg_vec sg2 <> zero3.
Proof. split; apply seg_nondeg; assumption. Qed.

Lemma seg_seg_unparallel : oblique ang_tol (seg_vec sg1) (seg_vec sg2) -> seg_seg K sg1 sg2 eps = rest.
Proof.
  intros Ho. unfold seg_seg. destruct vecs_nonzero as [V1 V2].
  rewrite gp_parallel_false; [reflexivity|]. unfold oblique. rewrite !vec_to_psub, angle_dir by assumption. exact Ho.
Qed.
Lemma dirs_parallel : parallel (seg_vec sg1) (seg_vec sg2) ->
  gp_parallel (to_dir (vec_to (s_src sg1) (s_tgt sg1))) (to_dir (vec_to (s_src sg2) (s_tgt sg2))) angular = true.
Proof.
  intros (c & Hc & E). destruct vecs_nonzero as [V1 V2]. rewrite !vec_to_psub.
  apply gp_parallel_true; [apply unit3_nonzero, to_dir_unit; exact V1|].
  change (psub (s_tgt sg1) (s_src sg1)) with (seg_vec sg1). change (psub (s_tgt sg2) (s_src sg2)) with (seg_vec sg2).
  rewrite !to_dir_scale by assumption. pose proof (norm_pos _ V1). pose proof (norm_pos _ V2).
  exists (norm (seg_vec sg1) * c * / norm (seg_vec sg2)). split.
  - apply Rmult_integral_contrapositive_currified; [apply Rmult_integral_contrapositive_currified; lra|].
    apply Rinv_neq_0_compat. lra.
  - rewrite E at 2. pq; field; lra.
Qed.

Definition overlap_case : outcome (isect R) :=
    if negb (line_contains (seg_line sg1) (s_src sg2) eps) then Ok IsEmpty
    else
      let s2_on1 := seg_contains sg1 (s_src sg2) eps false in
      let t2_on1 := seg_contains sg1 (s_tgt sg2) eps false in
      if s2_on1 && t2_on1 then Ok (IsSeg sg2)
      else
        let s1_on2 := seg_contains sg2 (s_src sg1) eps false in
        let t1_on2 := seg_contains sg2 (s_tgt sg1) eps false in
        if s1_on2 && t1_on2 then Ok (IsSeg sg1)
        else if s2_on1 && s1_on2 then Ok (IsSeg (mkSeg (s_src sg2) (s_src sg1)))
        else if s2_on1 && t1_on2 then Ok (IsSeg (mkSeg (s_src sg2) (s_tgt sg1)))
        else if t2_on1 && s1_on2 then Ok (IsSeg (mkSeg (s_tgt sg2) (s_src sg1)))
        else if t2_on1 && t1_on2 then Ok (IsSeg (mkSeg (s_tgt sg2) (s_tgt sg1)))
        else rest.
Lemma seg_seg_parallel : parallel (seg_vec sg1) (seg_vec sg2) -> seg_seg K sg1 sg2 eps = overlap_case.
Proof. intros Hp. unfold seg_seg. rewrite (dirs_parallel Hp). reflexivity. Qed.

Hypothesis HC : clear sg1 sg2 eps.
Hypothesis HF : fragments sg1 sg2 (k_fragment K sg1 sg2 (1 / 10 * eps)).

Lemma frag_eq : k_fragment K sg1 sg2 (nlit 1 10 * eps)%num = k_fragment K sg1 sg2 (1 / 10 * eps).
Proof. reflexivity. Qed.

Lemma ends_equal e1 e2 : is_end sg1 e1 -> is_end sg2 e2 -> pt_eq e1 e2 eps = true -> common e1.
Proof.
  intros H1 H2 H. apply pt_eq_dist in H; [|exact He]. split; [apply seg_end_on, H1|].
  destruct HC as [Hc _]. destruct (Hc e1 H1) as [|Hf]; [assumption|].
  specialize (Hf e2 (seg_end_on _ _ H2)). lra.
Qed.
Lemma is_src (s : segment R) : is_end s (s_src s). Proof. left. reflexivity. Qed.
Lemma is_tgt (s : segment R) : is_end s (s_tgt s). Proof. right. reflexivity. Qed.

(** no common point: the end points are not equal, and the answer is "empty" *)
Lemma rest_empty : (forall x, ~ common x) -> rest = Ok IsEmpty.
Proof.
  intros Hn. unfold rest. rewrite frag_eq. rewrite (proj1 HF Hn). cbn [Nat.eqb orb].
  repeat match goal with |- context [pt_eq ?a ?b eps] =>
    let E := fresh "E" in destruct (pt_eq a b eps) eqn:E;
    [exfalso; eapply Hn; eapply (ends_equal a b); [| |exact E]; auto using is_src, is_tgt|] end.
  reflexivity.
Qed.

Lemma vertex_common p v : (forall x, common x <-> x = p) -> is_end sg1 v \/ is_end sg2 v \/ v = p ->
  seg_contains sg1 v eps true && seg_contains sg2 v eps true = true -> v = p.
Proof.
  intros Hp Hv Hb. apply andb_true_iff in Hb. destruct Hb as [B1 B2]. destruct HC as [C1 C2].
  destruct Hv as [Hv|[Hv|Hv]]; [| |exact Hv]; apply Hp; split.
  - apply seg_end_on, Hv.
  - apply (contains_clear sg2 v eps N2 He (C1 v Hv)), B2.
  - apply (contains_clear sg1 v eps N1 He (C2 v Hv)), B1.
  - apply seg_end_on, Hv.
Qed.
Lemma first_common p es : (forall x, common x <-> x = p) ->
  (exists e, In e es /\ (fst e = p \/ snd e = p)) ->
  (forall e v, In e es -> fst e = v \/ snd e = v -> is_end sg1 v \/ is_end sg2 v \/ v = p) ->
  first_on_both sg1 sg2 eps es = Some p.
Proof.
  intros Hp. induction es as [|[a b] es IH]; intros (e & Hin & Hv) Ha; [destruct Hin|]. cbn [first_on_both].
  assert (Hpp : seg_contains sg1 p eps true && seg_contains sg2 p eps true = true).
  { assert (Hc : common p) by (apply Hp; reflexivity). destruct Hc as [c1 c2].
    apply andb_true_iff. split; [apply (seg_own_points sg1 p N1 c1)|apply (seg_own_points sg2 p N2 c2)]; exact He. }
  destruct (seg_contains sg1 a eps true && seg_contains sg2 a eps true) eqn:Ea.
  { f_equal. apply vertex_common; [exact Hp| |exact Ea]. apply (Ha (a, b) a); [left; reflexivity|left; reflexivity]. }
  destruct (seg_contains sg1 b eps true && seg_contains sg2 b eps true) eqn:Eb.
  { f_equal. apply vertex_common; [exact Hp| |exact Eb]. apply (Ha (a, b) b); [left; reflexivity|right; reflexivity]. }
  apply IH.
  - destruct Hin as [<-|Hin]; [|exists e; auto]. cbn in Hv. destruct Hv as [->| ->]; congruence.
  - intros e' v Hi. apply Ha. right. exact Hi.
Qed.

(** exactly one common point: the answer is this point *)
Lemma rest_point p : (forall x, common x <-> x = p) -> rest = Ok (IsPoint p).
Proof.
  intros Hp. unfold rest. rewrite frag_eq. destruct (proj2 HF p Hp) as (F2 & F31 & F32 & F4 & Fe & Fv).
  set (es := k_fragment K sg1 sg2 (1 / 10 * eps)) in *.
  assert (Hc : common p) by (apply Hp; reflexivity).
  assert (D : forall s, is_end s p \/ ~ is_end s p) by (intros; apply Classical_Prop.classic).
  assert (Hcase : (is_end sg1 p /\ is_end sg2 p /\ length es = 2%nat) \/ (length es = 3 \/ length es = 4)%nat).
  { destruct (D sg1), (D sg2); auto. }
  destruct Hcase as [(e1 & e2 & HL)|HL].
  - rewrite HL. cbn [Nat.eqb orb].
    assert (Heq : pt_eq p p eps = true) by (apply pt_eq_dist; [exact He|rewrite dist_self; exact He]).
    repeat match goal with |- context [pt_eq ?a ?b eps] =>
      let E := fresh "E" in destruct (pt_eq a b eps) eqn:E;
      [f_equal; f_equal; apply Hp; eapply (ends_equal a b); [| |exact E]; auto using is_src, is_tgt|] end.
    exfalso. destruct e1 as [A|A], e2 as [B|B]; rewrite <- A, <- B in *; congruence.
  - rewrite (first_common p es Hp Fe Fv). destruct HL as [-> | ->]; reflexivity.
Qed.

Lemma oblique_unique : oblique ang_tol (seg_vec sg1) (seg_vec sg2) ->
  forall x y, common x -> common y -> x = y.
Proof.
  intros Ho x y [(a & _ & A) (b & _ & B)] [(c & _ & C) (d & _ & D)].
  destruct (Req_dec a c) as [->|Hac]; [congruence|]. exfalso.
  apply (oblique_not_parallel _ _ (proj1 vecs_nonzero) Ho).
  assert (E1 : psub y x = pscale (c - a) (seg_vec sg1)) by (rewrite A, C; unfold seg_vec; pq; ring).
  assert (E2 : psub y x = pscale (d - b) (seg_vec sg2)) by (rewrite B, D; unfold seg_vec; pq; ring).
  assert (Hdb : d - b <> 0).
  { intros Z. rewrite E1, Z in E2. destruct vecs_nonzero as [V _]. apply V.
    unfold pscale in E2. injection E2 as e1 e2 e3. apply v3_eq; cbn; nra. }
  exists ((c - a) / (d - b)). split.
  - unfold Rdiv. apply Rmult_integral_contrapositive_currified; [lra|apply Rinv_neq_0_compat, Hdb].
  - transitivity (pscale (/ (d - b)) (psub y x)).
    + rewrite E2. pq; field; exact Hdb.
    + rewrite E1. pq; field; exact Hdb.
Qed.

Lemma seg_seg_oblique : oblique ang_tol (seg_vec sg1) (seg_vec sg2) ->
  exists r, seg_seg K sg1 sg2 eps = Ok r /\ describes r common /\
    (r = IsEmpty \/ exists p, r = IsPoint p).
Proof.
  intros Ho. rewrite (seg_seg_unparallel Ho).
  destruct (Classical_Prop.classic (exists p, common p)) as [[p Hp]|Hn].
  - assert (U : forall x, common x <-> x = p).
    { intros x. split; [intros Hx; exact (oblique_unique Ho x p Hx Hp)|intros ->; exact Hp]. }
    exists (IsPoint p). split; [exact (rest_point p U)|]. split; [exact U|right; eauto].
  - exists IsEmpty. split; [apply rest_empty; intros x Hx; apply Hn; eauto|]. split; [|left; reflexivity].
    cbn. intros x Hx. apply Hn. eauto.
Qed.

(** *** parallel segments *)
Section Par.
Hypothesis HP : parallel (seg_vec sg1) (seg_vec sg2).

Lemma memberships : line_contains (seg_line sg1) (s_src sg2) eps = true ->
  (seg_contains sg1 (s_src sg2) eps false = true <-> seg_pts sg1 (s_src sg2)) /\
  (seg_contains sg1 (s_tgt sg2) eps false = true <-> seg_pts sg1 (s_tgt sg2)) /\
  (seg_contains sg2 (s_src sg1) eps false = true <-> seg_pts sg2 (s_src sg1)) /\
  (seg_contains sg2 (s_tgt sg1) eps false = true <-> seg_pts sg2 (s_tgt sg1)).
Proof.
  intros HL. destruct (parallel_offset sg1 sg2 N1 N2 HP eps He) as (O1 & O2 & O3). rewrite HL in *.
  destruct HC as [C1 C2].
  rewrite !contains_skip by assumption. repeat split; intros H;
    (apply contains_clear; [assumption|assumption| |exact H] || (eapply contains_clear; [| | |exact H])); auto using is_src, is_tgt.
Qed.

Lemma off_line : line_contains (seg_line sg1) (s_src sg2) eps = false -> forall x, ~ common x.
Proof.
  intros HL x [X1 X2]. destruct (same_line sg1 sg2 x N1 HP X1 X2) as (P & u & a & b & c & d & Hu & E1 & E2 & E3 & E4).
  assert (on_line (s_src sg1) (seg_dir sg1) (s_src sg2)) as Hon.
  { pose proof (sd_tgt sg1 N1) as T. pose proof (sd_L sg1 N1) as HLp.
    set (m := norm (psub (s_tgt sg1) (s_src sg1))) in *. clearbody m.
    assert (Hab : b - a <> 0). { intros Z. apply N1. rewrite E1, E2. replace b with a by lra. reflexivity. }
    exists ((c - a) / (b - a) * m).
    assert (Eu : pscale m (seg_dir sg1) = pscale (b - a) u).
    { transitivity (psub (s_tgt sg1) (s_src sg1)); [rewrite T; pq; ring|rewrite E1, E2; pq; ring]. }
    transitivity (padd (s_src sg1) (pscale ((c - a) / (b - a)) (pscale m (seg_dir sg1)))); [|pq; ring].
    rewrite Eu, E1, E3. pq; field; exact Hab. }
  assert (line_contains (seg_line sg1) (s_src sg2) eps = true); [|congruence].
  apply (line_contains_dist (seg_line sg1) (s_src sg2) eps 0); [apply (sd_u sg1 N1)|lra| |exact He].
  split; [exists (s_src sg2); split; [exact Hon|apply dist_self]|]. intros. apply dist_nonneg.
Qed.

(** the line as coordinates *)
Lemma parallel_result :
  (forall p, ~ touch_at sg1 sg2 p) ->
  exists r, seg_seg K sg1 sg2 eps = Ok r /\ describes r common /\ (r = IsEmpty \/ exists s, r = IsSeg s).
Proof.
  intros HT. rewrite (seg_seg_parallel HP). unfold overlap_case.
  destruct (line_contains (seg_line sg1) (s_src sg2) eps) eqn:HL; cbn [negb].
  2: { exists IsEmpty. split; [reflexivity|]. split; [exact (off_line HL)|left; reflexivity]. }
  destruct (memberships HL) as (M1 & M2 & M3 & M4).
  destruct (Classical_Prop.classic (exists x, common x)) as [[x [X1 X2]]|Hn].
  - destruct (same_line sg1 sg2 x N1 HP X1 X2) as (P & u & a & b & c & d & Hu & E1 & E2 & E3 & E4).
    unfold seg_pts in *. unfold common, touch_at, both, seg_pts in *.
    destruct sg1 as [p1 q1], sg2 as [p2 q2]. unfold nondeg in N1, N2. cbn [s_src s_tgt] in *. subst p1 q1 p2 q2.
    rewrite on_seg_1d_at in M1, M2, M3, M4 by exact Hu.
    assert (Hab : a <> b) by (intros ->; apply N1; reflexivity).
    assert (Hcd : c <> d) by (intros ->; apply N2; reflexivity).
    apply on_seg_1d in X1. destruct X1 as (t & Ht & ->). apply on_seg_1d_at in X2; [|exact Hu].
    assert (D : forall al be, al <> be ->
      (forall z, ((a <= z <= b \/ b <= z <= a) /\ (c <= z <= d \/ d <= z <= c)) <-> (al <= z <= be \/ be <= z <= al)) ->
      describes (IsSeg (mkSeg (padd P (pscale al u)) (padd P (pscale be u))))
        (fun x => on_segment (padd P (pscale a u)) (padd P (pscale b u)) x /\
                  on_segment (padd P (pscale c u)) (padd P (pscale d u)) x)).
    { intros al be Hne Hz. cbn. split; [intros E; apply line_coord in E; [|exact Hu]; contradiction|].
      intros y. rewrite !on_seg_1d. split.
      - intros [(t1 & T1 & ->) (t2 & T2 & E)]. apply line_coord in E; [|exact Hu]. subst t2.
        exists t1. split; [apply Hz; auto|reflexivity].
      - intros (t1 & T1 & ->). apply Hz in T1. destruct T1. split; exists t1; auto. }
    assert (NT : forall al, ~ (forall z, ((a <= z <= b \/ b <= z <= a) /\ (c <= z <= d \/ d <= z <= c)) <-> z = al)).
    { intros al Hz. apply (HT (padd P (pscale al u))). split; [exact HP|]. intros y. rewrite !on_seg_1d. split.
      - intros [(t1 & T1 & ->) (t2 & T2 & E)]. apply line_coord in E; [|exact Hu]. subst t2.
        f_equal. f_equal. apply Hz. auto.
      - intros ->. assert (al = al) as T by reflexivity. apply Hz in T. destruct T. split; exists al; auto. }
    destruct (seg_contains _ _ eps false) eqn:B1 in |- *;
      [assert (Q1 : a <= c <= b \/ b <= c <= a) by (apply M1, B1)
      |assert (Q1 : ~ (a <= c <= b \/ b <= c <= a)) by (intros Q; apply M1 in Q; congruence)]; clear M1 B1;
    (destruct (seg_contains _ _ eps false) eqn:B1 in |- *;
      [assert (Q2 : a <= d <= b \/ b <= d <= a) by (apply M2, B1)
      |assert (Q2 : ~ (a <= d <= b \/ b <= d <= a)) by (intros Q; apply M2 in Q; congruence)]); clear M2 B1;
    (destruct (seg_contains _ _ eps false) eqn:B1 in |- *;
      [assert (Q3 : c <= a <= d \/ d <= a <= c) by (apply M3, B1)
      |assert (Q3 : ~ (c <= a <= d \/ d <= a <= c)) by (intros Q; apply M3 in Q; congruence)]); clear M3 B1;
    (destruct (seg_contains _ _ eps false) eqn:B1 in |- *;
      [assert (Q4 : c <= b <= d \/ d <= b <= c) by (apply M4, B1)
      |assert (Q4 : ~ (c <= b <= d \/ d <= b <= c)) by (intros Q; apply M4 in Q; congruence)]); clear M4 B1;
    cbn [andb]; try (exfalso; lra).
    all: eexists; (split; [reflexivity|]); (split; [|right; eexists; reflexivity]); apply D;
      [first [assumption|match goal with |- ?al <> ?be => intros EE; apply (NT al); intros z; split; [intros; lra|intros ->; lra] end]|intros z; lra].
  - exists IsEmpty. split; [|split; [cbn; intros x Hx; apply Hn; eauto|left; reflexivity]].
    assert (Hn' : forall x, ~ common x) by (intros x Hx; apply Hn; eauto).
    assert (forall b P, (b = true <-> P) -> ~ P -> b = false) as FB.
    { intros b P Hb HnP. destruct b; [exfalso; apply HnP, Hb; reflexivity|reflexivity]. }
    rewrite (FB _ _ M1), (FB _ _ M3), (FB _ _ M4); cbn [andb].
    + rewrite !andb_false_r. apply rest_empty, Hn'.
    + intros H. apply (Hn' (s_tgt sg1)). split; [apply seg_end_on, is_tgt|exact H].
    + intros H. apply (Hn' (s_src sg1)). split; [apply seg_end_on, is_src|exact H].
    + intros H. apply (Hn' (s_src sg2)). split; [exact H|apply seg_end_on, is_src].
Qed.
End Par.
End SegSeg.
