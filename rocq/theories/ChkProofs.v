(** Proofs for C116: the checks of debug builds over the reals. *)

From Coq Require Import Reals Lra Lia Psatz List Bool.
From Verif Require Import ChkSpec Base NumModel VecModel LinModel RoundModel PolyModel DistModel IntModel SampModel ChkModel GeoSpec LinSpec RoundSpec PolySpec IntSpec
  GeoLemmas LinProofs EllProofs PolyProofs PolyBridge QuadProofs DistProofs SegIntProofs SegIntProofs2.
Import ListNotations.
Local Open Scope R_scope.

Lemma conf_pow : @confusion R _ = 1 / 10 ^ 7.
Proof. rewrite confusion_R. lra. Qed.

Lemma psub_zero (a b : pt) : psub a b = zero3 -> a = b.
Proof. destruct a as [a1 a2 a3], b as [b1 b2 b3]. unfold psub, zero3. cbn [vx vy vz]. intros E. injection E as E1 E2 E3. v3; lra. Qed.

(** ** quadrilaterals *)
Lemma quad_normal (p0 p1 p2 : pt) : noncollinear p0 p1 p2 -> pl_n (plane_3p p0 p1 p2) = tri_normal p0 p1 p2 /\ unit3 (tri_normal p0 p1 p2).
Proof. intros H. destruct (tri_normal_facts p0 p1 p2 H) as (A & B & C & _ & D). split; [apply plane_3p_normal; assumption|exact A]. Qed.
Lemma quad_checked (p0 p1 p2 p3 : pt) D : noncollinear p0 p1 p2 -> dist_to (on_plane p0 (cross (psub p1 p0) (psub p2 p0))) p3 D ->
  (quad_check p0 p1 p2 p3 = true <-> D < 1 / 10 ^ 7 * dist p3 p0).
Proof.
  intros H HD. destruct (quad_normal p0 p1 p2 H) as [A B]. unfold quad_check. rewrite (plane_contains_dist _ p3 _ D).
  - rewrite conf_pow, vlen_norm, vec_to_psub. rn. reflexivity.
  - rewrite A. exact B.
  - rewrite A. change (pl_sup (plane_3p p0 p1 p2)) with p0.
    assert (forall x : pt, on_plane p0 (cross (psub p1 p0) (psub p2 p0)) x <-> on_plane p0 (tri_normal p0 p1 p2) x) as E.
    { intros x. unfold on_plane, tri_normal. rewrite (to_dir_k (cross _ _)). pose proof (Rinv_0_lt_compat _ (norm_pos _ H)) as Hk. revert Hk.
      generalize (cross (psub p1 p0) (psub p2 p0)) (psub x p0). clear. intros c w. generalize (/ norm c). intros k Hk.
      replace (dot (pscale k c) w) with (k * dot c w) by (coords; ring). split; intros E; [rewrite E; ring|]. apply Rmult_integral in E. destruct E as [E|E]; [lra|exact E]. }
    destruct HD as [(y & Hy & Ey) Hm]. split; [exists y; split; [apply E, Hy|exact Ey]|]. intros z Hz. apply Hm, E, Hz.
Qed.
Lemma quad_planar_checked (p0 p1 p2 p3 : pt) : noncollinear p0 p1 p2 -> on_plane p0 (cross (psub p1 p0) (psub p2 p0)) p3 -> p3 <> p0 -> quad_check p0 p1 p2 p3 = true.
Proof.
  intros H Hp Hne. apply (quad_checked p0 p1 p2 p3 0 H).
  - split; [exists p3; split; [exact Hp|]|intros; unfold dist; apply norm_nonneg]. unfold dist, norm. replace (dot _ _) with 0 by (coords; ring). apply sqrt_0.
  - assert (0 < dist p3 p0); [|lra]. unfold dist. apply norm_pos. intros E. apply Hne, psub_zero, E.
Qed.

(** ** polygons *)
Lemma poly_checked (cs : list pt) pg N : make_poly cs = Ok pg -> unit3 N -> planar N cs -> noncollinear (nth 0 cs zero3) (nth 1 cs zero3) (nth 2 cs zero3) ->
  (poly_check pg = true <-> po_c pg <> nth 0 cs zero3).
Proof.
  intros E HN HP HC. assert (3 <= length cs)%nat as HL by (unfold make_poly in E; destruct (Nat.ltb_spec (length cs) 3); [discriminate|assumption]).
  destruct (make_poly_eq cs HL) as (pg' & E' & H1 & _ & H3 & _). rewrite E in E'. injection E' as <-.
  unfold poly_check. rewrite H1, H3. change (at_ cs 0) with (nth 0 cs (zero3 : pt)).
  destruct (quad_normal _ _ _ HC) as [A B]. destruct (tri_normal_facts _ _ _ HC) as (_ & T1 & T2 & _ & T3).
  set (a := nth 0 cs zero3) in *. set (b := nth 1 cs zero3) in *. set (d := nth 2 cs zero3) in *.
  assert (In a cs) as Ia by (apply nth_In; lia). assert (In b cs) as Ib by (apply nth_In; lia). assert (In d cs) as Id by (apply nth_In; lia).
  assert (forall c, In c cs -> dot (tri_normal a b d) (psub c a) = 0) as Hz.
  { intros c Hc. unfold tri_normal. rewrite to_dir_k. rewrite (cross_parallel N (psub b a) (psub d a) HN (HP a b Ia Ib) (HP a d Ia Id)).
    pose proof (HP a c Ia Hc) as E0. revert E0. generalize (det3 (psub b a) (psub d a) N). intros x E0. generalize (/ norm (pscale x N)). intros k.
    replace (dot (pscale k (pscale x N)) (psub c a)) with (k * x * dot N (psub c a)) by (clear; coords; ring). rewrite E0. ring. }
  rewrite forallb_forall.
  assert (forall c, In c cs -> (plane_contains (plane_3p a b d) c (@confusion R _ * vlen (vec_to (po_c pg) a))%num = true <-> 0 < norm (psub a (po_c pg)))) as K.
  { intros c Hc. rewrite plane_contains_iff, A. change (pl_sup (plane_3p a b d)) with a. rewrite (Hz c Hc), Rabs_R0, conf_pow, vlen_norm, vec_to_psub. rn. lra. }
  split.
  - intros Q Eq. specialize (Q a Ia). apply (K a Ia) in Q. rewrite Eq in Q. unfold norm in Q. replace (dot _ _) with 0 in Q by (clear; coords; ring). rewrite sqrt_0 in Q. lra.
  - intros Hne c Hc. apply (K c Hc). apply norm_pos. intros Z. apply Hne. symmetry. apply psub_zero, Z.
Qed.

(** the center of a convex polygon is not its first corner *)
Lemma fold_center (w : pt) (ts : list (tri R)) (c : pt) :
  dot w (fold_left (fun c t => vadd c (vscale (vec_to origin (t_c t)) (t_area t))) ts c) = dot w c + sum (map (fun t => t_area t * dot w (t_c t)) ts).
Proof.
  revert c. induction ts as [|t ts IH]; intros c; cbn [fold_left map]; [unfold sum; cbn; lra|]. rewrite IH, sum_cons.
  replace (dot w (vadd c (vscale (vec_to origin (t_c t)) (t_area t)))) with (dot w c + t_area t * dot w (t_c t)); [lra|].
  destruct t as [? ? ? tc ? ta]. cbn [t_c t_area]. unfold vadd, vscale, vec_to, origin, dot. rn. cbn [vx vy vz]. ring.
Qed.
Lemma sum_scale (ts : list (tri R)) k : sum (map (fun t => t_area t * k) ts) = sum (map t_area ts) * k.
Proof. induction ts as [|t ts IH]; [unfold sum; cbn; lra|]. cbn [map]. rewrite !sum_cons, IH. lra. Qed.
Lemma center_off N cs pg : convex_ccw N cs -> make_poly cs = Ok pg -> po_c pg <> nth 0 cs zero3.
Proof.
  intros HC E. pose proof (cc_len N cs HC) as HL. pose proof (cc_first N cs HC) as HF. set (a := nth 0 cs zero3) in *. set (b := nth 1 cs zero3) in *. set (d := nth 2 cs zero3) in *.
  set (w := cross N (psub b a)). assert (forall x, dot w (psub x a) = orient N a b x) as Hw by (intros; unfold w, orient; clear; coords; ring).
  set (ts := triangulate cs).
  assert (po_c pg = vdiv (fold_left (fun (c : pt) t => vadd c (vscale (vec_to origin (t_c t)) (t_area t))) ts origin) (fold_left (fun a0 t => nadd a0 (t_area t)) ts n0)) as ->.
  { unfold make_poly in E. destruct (Nat.ltb_spec (length cs) 3); [lia|]. match type of E with Ok ?x = Ok ?y => assert (x = y) as <- by congruence end. reflexivity. }
  set (s := fold_left (fun (c : pt) t => vadd c (vscale (vec_to origin (t_c t)) (t_area t))) ts origin).
  assert (fold_left (fun a0 t => nadd a0 (t_area t)) ts n0 = sum (map t_area ts)) as EA by (rn; rewrite (fold_sum t_area); lra). rewrite EA. clear EA.
  assert (forall t, In t ts -> 0 <= t_area t /\ 0 <= dot w (psub (t_c t) a)) as Ht.
  { intros t Hi. unfold ts in Hi. rewrite (triangulate_chain cs HL) in Hi. apply in_map_iff in Hi as ([p q] & <- & Hpq). rewrite (chain_tl_seq N cs HC) in Hpq.
    apply in_map_iff in Hpq as (i & Ei & Hi). apply in_seq in Hi. injection Ei as <- <-. cbn [fst snd]. split; [rewrite make_tri_area; apply area3_nonneg|].
    assert (forall j, (j < length cs)%nat -> 0 <= dot w (psub (nth j cs zero3) a)) as Hj.
    { intros j Hj. rewrite Hw. apply (cc_left N cs HC). { apply (cc_edge N cs HC 0). lia. } apply nth_In. exact Hj. }
    match goal with |- 0 <= dot w (psub (t_c (make_tri ?p ?q ?r)) a) => assert (dot w (psub (t_c (make_tri p q r)) a) = 1 / 3 * (dot w (psub p a) + dot w (psub q a) + dot w (psub r a))) as -> end.
    { unfold make_tri. cbn [t_c]. unfold dot, psub. rn. cbn [vx vy vz]. field. }
    pose proof (Hj 0%nat ltac:(lia)) as J0.
    match goal with |- 0 <= 1 / 3 * (_ + dot w (psub (nth ?i cs zero3) a) + dot w (psub (nth ?j cs zero3) a)) => pose proof (Hj i ltac:(lia)); pose proof (Hj j ltac:(lia)) end. lra. }
  assert (In (make_tri a b d) ts) as I1 by (left; reflexivity).
  assert (0 < t_area (make_tri a b d)) as A1.
  { rewrite make_tri_area. unfold area3. assert (0 < norm (cross (psub b a) (psub d a))); [|lra]. apply norm_pos. intros Z. rewrite orient_dot, Z in HF. revert HF. clear. unfold dot, zero3. cbn [vx vy vz]. lra. }
  assert (0 < dot w (psub (t_c (make_tri a b d)) a)) as A2.
  { assert (dot w (psub (t_c (make_tri a b d)) a) = 1 / 3 * (dot w (psub d a) + dot w (psub b a))) as ->.
    { unfold make_tri. cbn [t_c]. unfold dot, psub. rn. cbn [vx vy vz]. field. }
    rewrite Hw. assert (dot w (psub b a) = 0) as -> by (unfold w; clear; coords; ring). lra. }
  assert (0 < sum (map t_area ts)) as SA.
  { eapply Rlt_le_trans; [exact A1|]. apply (sum_each_le t_area ts (make_tri a b d)); [intros t Hi; apply (Ht t Hi)|exact I1]. }
  assert (0 < sum (map (fun t => t_area t * dot w (psub (t_c t) a)) ts)) as SB.
  { eapply Rlt_le_trans; [apply (Rmult_lt_0_compat _ _ A1 A2)|]. apply (sum_each_le (fun t => t_area t * dot w (psub (t_c t) a)) ts (make_tri a b d)); [|exact I1].
    intros t Hi. destruct (Ht t Hi). apply Rmult_le_pos; assumption. }
  assert (dot w s = sum (map (fun t => t_area t * dot w (psub (t_c t) a)) ts) + sum (map t_area ts) * dot w a) as ES.
  { unfold s. rewrite (fold_center w ts origin), <- sum_scale, <- sum_plus. replace (dot w origin) with 0 by (unfold dot, origin; rn; cbn [vx vy vz]; ring).
    rewrite Rplus_0_l. apply sum_ext. intros t _. rewrite <- Rmult_plus_distr_l. f_equal. clear. coords. ring. }
  intros Eq. rewrite vdiv_pscale in Eq. assert (dot w (pscale (/ sum (map t_area ts)) s) = dot w a) as K by (rewrite Eq; reflexivity).
  replace (dot w (pscale (/ sum (map t_area ts)) s)) with (/ sum (map t_area ts) * dot w s) in K by (clear; coords; ring).
  rewrite ES in K. rewrite Rmult_plus_distr_l, <- Rmult_assoc, Rinv_l, Rmult_1_l in K by lra.
  pose proof (Rmult_lt_0_compat _ _ (Rinv_0_lt_compat _ SA) SB). lra.
Qed.
Lemma convex_checked N cs pg : convex_ccw N cs -> make_poly cs = Ok pg -> poly_check pg = true.
Proof.
  intros HC E. apply (poly_checked cs pg N E); [apply HC|apply HC| |exact (center_off N cs pg HC E)].
  intros Z. pose proof (cc_first N cs HC) as HF. rewrite orient_dot, Z in HF. revert HF. unfold dot, zero3. cbn [vx vy vz]. lra.
Qed.

(** a concave polygon whose centroid is its first corner *)
Definition dart : list pt := [mkV3 0 0 0; mkV3 2 1 0; mkV3 (-2) 0 0; mkV3 2 (-1) 0].
Lemma dart_center pg : make_poly dart = Ok pg -> po_c pg = nth 0 dart zero3.
Proof.
  intros E.
  assert (po_c pg = vdiv (fold_left (fun (c : pt) t => vadd c (vscale (vec_to origin (t_c t)) (t_area t))) (triangulate dart) origin) (fold_left (fun a0 t => nadd a0 (t_area t)) (triangulate dart) n0)) as ->.
  { unfold make_poly in E. destruct (Nat.ltb_spec (length dart) 3) as [L|L]; [cbn in L; lia|]. match type of E with Ok ?x = Ok ?y => assert (x = y) as <- by congruence end. reflexivity. }
  assert (triangulate dart = [make_tri (mkV3 0 0 0) (mkV3 2 1 0) (mkV3 (-2) 0 0); make_tri (mkV3 0 0 0) (mkV3 (-2) 0 0) (mkV3 2 (-1) 0)]) as -> by reflexivity.
  assert (forall x y : pt, cross (psub x (mkV3 0 0 0)) (psub y (mkV3 0 0 0)) = mkV3 0 0 2 -> t_area (make_tri (mkV3 0 0 0) x y) = 1) as Ar.
  { intros x y H. rewrite make_tri_area. unfold area3. rewrite H. unfold norm, dot. cbn [vx vy vz]. replace (0 * 0 + 0 * 0 + 2 * 2) with (2 * 2) by ring. rewrite sqrt_square; lra. }
  cbn [fold_left]. rewrite !Ar by (unfold cross, psub; rn; cbn [vx vy vz]; v3; ring). unfold make_tri. cbn [t_c]. unfold vdiv, vadd, vscale, vec_to, origin. rn. cbn [vx vy vz nth dart]. v3; field.
Qed.
Lemma dart_planar : unit3 (mkV3 0 0 1) /\ planar (mkV3 0 0 1) dart /\ noncollinear (nth 0 dart zero3) (nth 1 dart zero3) (nth 2 dart zero3).
Proof.
  split; [unfold unit3, dot; cbn; ring|]. split.
  - intros a b Ha Hb. cbn [dart In] in Ha, Hb. unfold dot, psub. destruct Ha as [<-|[<-|[<-|[<-|[]]]]]; destruct Hb as [<-|[<-|[<-|[<-|[]]]]]; cbn [vx vy vz]; ring.
  - intros E. apply (f_equal vz) in E. revert E. unfold cross, psub, zero3. rn. cbn [nth dart vx vy vz]. lra.
Qed.
Lemma dart_fails : exists pg, make_poly dart = Ok pg /\ poly_check pg = false.
Proof.
  destruct (make_poly_eq dart ltac:(cbn; lia)) as (pg & E & _). exists pg. split; [exact E|].
  destruct dart_planar as (A & B & C). pose proof (poly_checked dart pg _ E A B C) as K. destruct (poly_check pg); [|reflexivity]. exfalso. apply (proj1 K eq_refl). apply dart_center, E.
Qed.

(** ** planes *)
Lemma plane_checked (b1 b2 n : pt) : ortho_basis b1 b2 n -> plane_check b1 b2 n = true.
Proof.
  intros (_ & _ & _ & A & B & _). unfold plane_check. rewrite !sprod_dot, A, B. rn. rewrite Rabs_R0. apply andb_true_intro. split; apply Rltb_true; lra.
Qed.
Lemma plane_uses (b1 b2 n : pt) : ortho b1 n -> ortho b1 b2 -> plane_check b1 b2 n = true.
Proof. intros A B. unfold plane_check. rewrite !sprod_dot, A, B. rn. rewrite Rabs_R0. apply andb_true_intro. split; apply Rltb_true; lra. Qed.

(** ** right-hand systems *)
Lemma right_hand_checked (u v w : pt) : (right_hand_check u v w = true <-> 1 / 10 ^ 21 * (norm u * norm v * norm w) < Rabs (det3 u v w)).
Proof.
  unfold right_hand_check. rewrite box_det, !vlen_norm, conf_pow. rn. rewrite Rltb_true.
  replace (norm u * (1 / 10 ^ 7) * norm v * (1 / 10 ^ 7) * norm w * (1 / 10 ^ 7)) with (1 / 10 ^ 21 * (norm u * norm v * norm w)) by (field; apply pow_nonzero; lra). reflexivity.
Qed.

(** ** arcs *)
Lemma arc_checked (e : ell R) s t : ell_ok e -> on_ellipse e s -> on_ellipse e t -> arc_check e s t = true.
Proof.
  intros Hok Hs Ht. unfold arc_check. rewrite conf_pow. rn.
  assert (forall p, on_ellipse e p -> ell_contains e p (e_a e * (1 / 10 ^ 7)) true = true) as K; [|rewrite (K s Hs), (K t Ht); reflexivity].
  intros p [phi ->]. apply (ell_contains_char e Hok). destruct Hok as (B & Ha & Hb). destruct B as (B1 & B2 & B3 & B4 & B5 & B6 & _). unfold unit3, ortho in *.
  assert (psub (ell_at e phi) (e_c e) = padd (pscale (e_a e * cos phi) (e_maj e)) (pscale (e_b e * sin phi) (e_min e))) as -> by (unfold ell_at, at_coords; clear; coords; v3; ring).
  assert (forall x y (w : pt), dot (padd (pscale x (e_maj e)) (pscale y (e_min e))) w = x * dot (e_maj e) w + y * dot (e_min e) w) as L by (intros; clear; coords; ring).
  rewrite !L, (dot_comm (e_min e) (e_maj e)), B1, B2, B4, B5, B6. split.
  - intros _. replace (_ + _) with 0 by ring. rewrite Rabs_R0. lra.
  - unfold quad_form. match goal with |- Rabs ?x < _ => assert (x = cos phi * cos phi + sin phi * sin phi - 1) as -> by (field; lra) end. pose proof (sin2_cos2 phi) as Q. unfold Rsqr in Q.
    replace (cos phi * cos phi + sin phi * sin phi - 1) with 0 by lra. rewrite Rabs_R0. lra.
Qed.
Lemma near_char (e : ell R) eps p : ell_ok e -> (ell_contains e p eps true = true <-> near_ellipse eps e p).
Proof.
  intros Hok. rewrite (ell_contains_char e Hok). unfold quad_form. pose proof Hok as (B & Ha & Hb). split.
  - intros [H1 H2]. eexists _, _, _. split; [|split; [exact (H1 eq_refl)|exact H2]].
    pose proof (basis_coords _ _ _ (psub p (e_c e)) B) as E. revert E.
    generalize (dot (psub p (e_c e)) (e_maj e)) (dot (psub p (e_c e)) (e_min e)) (dot (psub p (e_c e)) (e_n e)). unfold at_coords.
    destruct p as [p1 p2 p3], (e_c e) as [c1 c2 c3], (e_maj e) as [u1 u2 u3], (e_min e) as [v1 v2 v3], (e_n e) as [n1 n2 n3]. clear. intros x y z E.
    unfold psub, padd, pscale in *. cbn [vx vy vz] in *. injection E as E1 E2 E3. v3; lra.
  - intros (x & y & z & -> & H1 & H2). destruct B as (B1 & B2 & B3 & B4 & B5 & B6 & _). unfold unit3, ortho in *.
    assert (forall w : pt, dot (psub (padd (at_coords (e_c e) (e_maj e) (e_min e) x y) (pscale z (e_n e))) (e_c e)) w = x * dot (e_maj e) w + y * dot (e_min e) w + z * dot (e_n e) w) as L
      by (intros w; unfold at_coords; clear; coords; ring).
    rewrite !L, (dot_comm (e_min e) (e_maj e)), (dot_comm (e_n e) (e_maj e)), (dot_comm (e_n e) (e_min e)), B1, B2, B3, B4, B5, B6. split.
    + intros _. replace (_ + _) with z by ring. exact H1.
    + replace (x * 1 + y * 0 + z * 0) with x by ring. replace (x * 0 + y * 1 + z * 0) with y by ring. exact H2.
Qed.
Lemma arc_exact (e : ell R) s t : ell_ok e -> (arc_check e s t = true <-> near_ellipse (e_a e / 10 ^ 7) e s /\ near_ellipse (e_a e / 10 ^ 7) e t).
Proof.
  intros Hok. unfold arc_check. rewrite conf_pow. rn. replace (e_a e * (1 / 10 ^ 7)) with (e_a e / 10 ^ 7) by (field; apply pow_nonzero; lra).
  rewrite andb_true_iff, !(near_char e _ _ Hok). reflexivity.
Qed.
(** the center of a large ellipse *)
Lemma arc_center (e : ell R) : ell_ok e -> 10 ^ 7 < e_a e -> arc_check e (e_c e) (e_c e) = true /\ ~ on_ellipse e (e_c e).
Proof.
  intros Hok HA. split.
  - unfold arc_check. rewrite conf_pow. rn. assert (ell_contains e (e_c e) (e_a e * (1 / 10 ^ 7)) true = true) as ->; [|reflexivity]. apply (ell_contains_char e Hok).
    assert (psub (e_c e) (e_c e) = zero3) as -> by (clear; coords; v3; ring). assert (forall w : pt, dot zero3 w = 0) as Z by (intros; clear; coords; ring). rewrite !Z, Rabs_R0.
    assert (1 < e_a e * (1 / 10 ^ 7)). { assert (0 < 10 ^ 7) as P by (apply pow_lt; lra). apply Rmult_lt_reg_r with (10 ^ 7); [exact P|]. replace (e_a e * (1 / 10 ^ 7) * 10 ^ 7) with (e_a e) by (field; lra). lra. }
    split; [lra|]. unfold quad_form. match goal with |- Rabs ?x < _ => assert (x = -1) as -> by (destruct Hok as (_ & Ha & Hb); field; lra) end. rewrite Rabs_left; lra.
  - intros [phi E]. destruct Hok as (B & Ha & Hb). destruct B as (B1 & B2 & B3 & B4 & B5 & B6 & _). unfold unit3, ortho in *.
    assert (padd (pscale (e_a e * cos phi) (e_maj e)) (pscale (e_b e * sin phi) (e_min e)) = zero3) as Z.
    { revert E. unfold ell_at, at_coords. generalize (padd (pscale (e_a e * cos phi) (e_maj e)) (pscale (e_b e * sin phi) (e_min e))) (e_c e). clear. intros [x y z] [a b c] E.
      unfold padd in E. cbn [vx vy vz] in E. injection E as E1 E2 E3. unfold zero3. v3; lra. }
    assert (forall x y (w : pt), dot (padd (pscale x (e_maj e)) (pscale y (e_min e))) w = x * dot (e_maj e) w + y * dot (e_min e) w) as L by (intros; clear; coords; ring).
    assert (forall w : pt, dot zero3 w = 0) as Z0 by (intros; clear; coords; ring).
    pose proof (L (e_a e * cos phi) (e_b e * sin phi) (e_maj e)) as P1. pose proof (L (e_a e * cos phi) (e_b e * sin phi) (e_min e)) as P2.
    rewrite Z, Z0 in P1, P2. rewrite (dot_comm (e_min e) (e_maj e)), B1, B4 in P1. rewrite B2, B4 in P2.
    assert (cos phi = 0) as C by (apply Rmult_eq_reg_l with (e_a e); lra). assert (sin phi = 0) as S by (apply Rmult_eq_reg_l with (e_b e); lra).
    pose proof (sin2_cos2 phi) as Q. rewrite C, S in Q. unfold Rsqr in Q. lra.
Qed.

(** ** angles between planes *)
Lemma angle_checked K (p1 p2 : plane R) d : unit3 (pl_n p1) -> ~ oblique ang_tol (pl_n p1) (pl_n p2) -> dist_to (plane_pts p1) (pl_sup p2) d ->
  (angle_check K p1 p2 = Ok true <-> d < 1 / 10 ^ 7).
Proof.
  intros HU HO HD. unfold angle_check. rewrite (plane_plane_parallel K p1 p2 _ d HU HO HD). cbn [obind]. rewrite conf_pow. destruct Rlt_dec; split; intros; [assumption|reflexivity|discriminate|contradiction].
Qed.
