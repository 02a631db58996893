(** The functions of PolyModel in terms of the geometry of PolyProofs. *)

From Coq Require Import Reals Lra Lia Psatz List Bool.
From Verif Require Import Base NumModel VecModel LinModel PolyModel GeoSpec LinSpec PolySpec
  GeoLemmas LinProofs PolyProofs.
Import ListNotations.
Local Open Scope R_scope.

Lemma cross_parallel N u v : unit3 N -> dot N u = 0 -> dot N v = 0 -> cross u v = pscale (det3 u v N) N.
Proof.
  intros HN Hu Hv. set (w := cross u v).
  assert (E : cross N (cross N w) = psub (pscale (dot N w) N) (pscale (dot N N) w)) by apply cross_cross.
  assert (Z : cross N w = zero3).
  { unfold w. rewrite cross_cross, Hu, Hv. clear. coords. v3; ring. }
  rewrite Z in E. unfold unit3 in HN. rewrite HN in E.
  replace (det3 u v N) with (dot N w) by (unfold w; coords; ring).
  clearbody w. generalize dependent (dot N w). clear. intros d E. coords. injection E as Ex Ey Ez.
  destruct w as [wx wy wz]. cbn [vx vy vz] in *. v3; lra.
Qed.
Lemma to_dir_k (v : pt) : to_dir v = pscale (/ norm v) v.
Proof. unfold to_dir. rewrite vlen_norm. apply vdiv_pscale. Qed.
Lemma to_dir_pos k (N : pt) : 0 < k -> unit3 N -> to_dir (pscale k N) = N.
Proof.
  intros Hk HN. rewrite to_dir_k. assert (E : norm (pscale k N) = k).
  { unfold norm. replace (dot (pscale k N) (pscale k N)) with (k * k * dot N N) by (clear; coords; ring).
    unfold unit3 in HN. rewrite HN, Rmult_1_r. apply sqrt_square. lra. }
  rewrite E. unfold pscale. destruct N as [nx ny nz]. cbn [vx vy vz]. v3; field; lra.
Qed.
Lemma norm_pscale k v : 0 <= k -> norm (pscale k v) = k * norm v.
Proof.
  intros Hk. unfold norm. replace (dot (pscale k v) (pscale k v)) with (k * k * dot v v) by (clear; coords; ring).
  rewrite sqrt_mult by (try apply dot_nonneg; nra). rewrite sqrt_square by exact Hk. reflexivity.
Qed.

(** normals *)
Lemma plane_3p_normal N (a b d : pt) : unit3 N -> dot N (psub b a) = 0 -> dot N (psub d a) = 0 ->
  0 < orient N a b d -> pl_n (plane_3p a b d) = N.
Proof.
  intros HN Hb Hd Ho. unfold plane_3p. cbn [pl_n]. rewrite !vec_to_psub, (to_dir_k (psub b a)).
  unfold orient in Ho. set (u := psub b a) in *. set (v := psub d a) in *.
  assert (Hu : u <> zero3). { intros ->. revert Ho. clear. coords. lra. }
  pose proof (norm_pos u Hu) as Hn. assert (Hi : 0 < / norm u) by (apply Rinv_0_lt_compat, Hn).
  set (k := / norm u) in *. clearbody k.
  rewrite (cross_parallel N (pscale k u) v HN).
  - apply to_dir_pos; [|exact HN]. replace (det3 (pscale k u) v N) with (k * det3 u v N)
      by (clearbody u v; clear; coords; ring). nra.
  - replace (dot N (pscale k u)) with (k * dot N u) by (clearbody u v; clear; coords; ring). rewrite Hb. ring.
  - exact Hd.
Qed.
Lemma plane_contains_iff pl (p : pt) eps :
  plane_contains pl p eps = true <-> Rabs (dot (pl_n pl) (psub p (pl_sup pl))) < eps.
Proof. unfold plane_contains. rn. rewrite Rltb_true, sprod_dot, vec_to_psub, dot_comm. reflexivity. Qed.

(** ** Triangles *)
Definition tri_normal (a b d : pt) : pt := to_dir (cross (psub b a) (psub d a)).

Lemma tri_normal_facts a b d : noncollinear a b d ->
  let N := tri_normal a b d in
  unit3 N /\ dot N (psub b a) = 0 /\ dot N (psub d a) = 0 /\
  orient N a b d = norm (cross (psub b a) (psub d a)) /\ 0 < orient N a b d.
Proof.
  intros Hc. cbn zeta. unfold tri_normal. pose proof (norm_pos _ Hc) as Hp. pose proof (to_dir_unit _ Hc) as HU.
  rewrite orient_dot. rewrite (to_dir_k (cross _ _)) in *. set (u := psub b a) in *. set (v := psub d a) in *.
  assert (Hi : / norm (cross u v) * norm (cross u v) = 1) by (apply Rinv_l; lra).
  assert (Hw : dot (pscale (/ norm (cross u v)) (cross u v)) (cross u v) = norm (cross u v)).
  { replace (dot (pscale (/ norm (cross u v)) (cross u v)) (cross u v))
      with (/ norm (cross u v) * dot (cross u v) (cross u v))
      by (generalize (/ norm (cross u v)); generalize (cross u v); clear; intros; coords; ring).
    rewrite <- norm_sq. transitivity (/ norm (cross u v) * norm (cross u v) * norm (cross u v)); [ring|].
    rewrite Hi. ring. }
  repeat split.
  - exact HU.
  - generalize (/ norm (cross u v)). clearbody u v. clear. intros. coords. ring.
  - generalize (/ norm (cross u v)). clearbody u v. clear. intros. coords. ring.
  - exact Hw.
  - rewrite Hw. exact Hp.
Qed.
Lemma tri_convex_ccw a b d : noncollinear a b d -> convex_ccw (tri_normal a b d) [a; b; d].
Proof.
  intros Hc. destruct (tri_normal_facts a b d Hc) as (HN & Hb & Hd & He & Hp).
  set (N := tri_normal a b d) in *. clearbody N.
  assert (HZ : dot N (psub b a) = 0 /\ dot N (psub d a) = 0 /\ dot N (psub a b) = 0 /\
    dot N (psub a d) = 0 /\ dot N (psub d b) = 0 /\ dot N (psub b d) = 0 /\
    dot N (psub a a) = 0 /\ dot N (psub b b) = 0 /\ dot N (psub d d) = 0).
  { clear - Hb Hd. coords. repeat split; lra. }
  destruct HZ as (z1 & z2 & z3 & z4 & z5 & z6 & z7 & z8 & z9).
  split; [exact HN|]. split.
  { intros x y Hx Hy. cbn in Hx, Hy.
    destruct Hx as [<-|[<-|[<-|[]]]]; destruct Hy as [<-|[<-|[<-|[]]]]; assumption. }
  split; [cbn; lia|]. split; [|exact Hp].
  intros i j k Hij Hk. cbn in Hk. assert (i = 0 /\ j = 1 /\ k = 2)%nat as (-> & -> & ->) by lia.
  cbn [nth]. lra.
Qed.
Lemma edges3 (a b d : pt) : edges [a; b; d] = [(a, b); (b, d); (d, a)].
Proof. reflexivity. Qed.
Lemma tri_other (a b d p : pt) :
  n0 + t_area (make_tri a b p) + t_area (make_tri b d p) + t_area (make_tri d a p) = areas [a; b; d] p.
Proof. rewrite !make_tri_area. unfold areas. rewrite edges3. cbn. lra. Qed.
Lemma tri_area_shoelace a b d : noncollinear a b d ->
  area3 a b d = shoelace (tri_normal a b d) [a; b; d].
Proof.
  intros Hc. rewrite <- (fan_total _ _ (tri_convex_ccw a b d Hc)). unfold fan_area. cbn. lra.
Qed.

Lemma tri_contains_iff (a b d p : pt) eps chk : noncollinear a b d ->
  tri_contains Rabs (make_tri a b d) p eps chk = true <->
  (chk = true -> Rabs (dot (tri_normal a b d) (psub p a)) < eps) /\
  Rabs (shoelace (tri_normal a b d) [a; b; d] - areas [a; b; d] p) < eps * eps.
Proof.
  intros Hc. unfold tri_contains.
  assert (HP : plane_contains (tri_plane (make_tri a b d)) p eps = true <->
               Rabs (dot (tri_normal a b d) (psub p a)) < eps).
  { rewrite plane_contains_iff. reflexivity. }
  change (t_p1 (make_tri a b d)) with a. change (t_p2 (make_tri a b d)) with b.
  change (t_p3 (make_tri a b d)) with d. rewrite tri_other, make_tri_area, (tri_area_shoelace a b d Hc).
  destruct (plane_contains (tri_plane (make_tri a b d)) p eps); destruct chk; cbn [andb negb];
    rn; rewrite ?Rltb_true.
  1,2,4: intuition discriminate.
  split; [discriminate|]. intros [H1 _]. specialize (H1 eq_refl). apply HP in H1. discriminate.
Qed.

Lemma small_sq_zero x : 0 <= x -> (forall eps, 0 < eps -> x < eps * eps) -> x = 0.
Proof.
  intros Hx H. destruct (Req_dec x 0) as [|Hn]; [assumption|]. exfalso.
  assert (Hp : 0 < x) by lra. destruct (Rle_lt_dec x 1).
  - specialize (H x Hp). nra.
  - specialize (H 1 ltac:(lra)). lra.
Qed.
Lemma small_zero x : (forall eps, 0 < eps -> Rabs x < eps) -> x = 0.
Proof.
  intros H. destruct (Req_dec x 0) as [|Hn]; [assumption|]. exfalso.
  pose proof (Rabs_pos_lt x Hn). specialize (H (Rabs x) H0). lra.
Qed.

(** abstract statements shared by triangles, quadrilaterals and polygons *)
Section Test.
Variables (N : pt) (cs : list pt) (s : pt) (test : pt -> R -> bool -> bool).
Hypothesis HC : convex_ccw N cs.
Hypothesis Hs : In s cs.
Hypothesis HT : forall p eps chk, test p eps chk = true <->
  (chk = true -> Rabs (dot N (psub p s)) < eps) /\ Rabs (shoelace N cs - areas cs p) < eps * eps.

Lemma shift_plane p a : In a cs -> dot N (psub p a) = dot N (psub p s).
Proof.
  intros Ha. pose proof (cc_planar N cs HC s a Hs Ha) as E.
  replace (dot N (psub p a)) with (dot N (psub p s) - dot N (psub a s)) by (clear; coords; ring). lra.
Qed.
Lemma in0 : In (nth 0 cs zero3) cs.
Proof. apply nth_In. pose proof (cc_len N cs HC). lia. Qed.
Lemma t_planar p eps chk : 0 < eps -> dot N (psub p s) = 0 -> (test p eps chk = true <-> overhang N cs p < eps * eps).
Proof.
  intros He Hp. rewrite HT. rewrite <- (area_test N cs HC p eps); [|rewrite (shift_plane p _ in0); exact Hp].
  split; [tauto|]. intros Ha. split; [|exact Ha]. intros _. rewrite Hp, Rabs_R0. exact He.
Qed.
Lemma t_hull p eps chk : 0 < eps -> hull cs p -> test p eps chk = true.
Proof.
  intros He Hh. apply (hull_iff N cs HC) in Hh as [Hp Ho].
  apply t_planar; [exact He|rewrite <- (shift_plane p _ in0); exact Hp|]. rewrite Ho. nra.
Qed.
Lemma t_near p eps : test p eps true = true -> Rabs (dot N (psub p s)) < eps /\ overhang N cs p < eps * eps.
Proof. rewrite HT. intros [H1 H2]. split; [apply H1; reflexivity|]. apply area_test_near with (1 := HC). exact H2. Qed.
Lemma t_exact p : (forall eps, 0 < eps -> test p eps true = true) <-> hull cs p.
Proof.
  split.
  - intros H. apply (hull_iff N cs HC). split.
    + rewrite (shift_plane p _ in0). apply small_zero. intros eps He. apply (t_near p eps (H eps He)).
    + apply small_sq_zero; [apply overhang_nonneg|]. intros eps He. apply (t_near p eps (H eps He)).
  - intros Hh eps He. apply t_hull; assumption.
Qed.
End Test.

(** ** Polygons *)
Lemma at_nth (cs : list pt) i : at_ cs i = nth i cs zero3.
Proof. reflexivity. Qed.
Lemma triangulate_chain (cs : list pt) : (3 <= length cs)%nat ->
  triangulate cs = map (fun ab => make_tri (nth 0 cs zero3) (fst ab) (snd ab)) (chain (tl cs)).
Proof.
  intros HL. unfold triangulate. change (at_ cs) with (fun i => nth i cs zero3). cbn beta.
  destruct cs as [|a [|b [|d l]]]; [cbn in HL; lia..|]. cbn [tl].
  change (chain (b :: d :: l)) with ((b, d) :: chain (d :: l)). cbn [map fst snd]. f_equal.
  rewrite <- (chain_seq (d :: l) zero3), map_map. cbn [length Nat.sub].
  rewrite Nat.sub_0_r.
  rewrite <- (map_map (fun i => S (S i)) (fun i => make_tri (nth 0 (a :: b :: d :: l) zero3)
     (nth i (a :: b :: d :: l) zero3) (nth (S i) (a :: b :: d :: l) zero3))).
  f_equal. rewrite <- !seq_shift, map_map. reflexivity.
Qed.
Lemma triangulate_length (cs : list pt) : (3 <= length cs)%nat -> length (triangulate cs) = (length cs - 2)%nat.
Proof. intros HL. unfold triangulate. cbn [length]. rewrite map_length, seq_length. lia. Qed.

Lemma other_areas (cs : list pt) p : cs <> [] -> poly_other_area cs p = areas cs p.
Proof.
  intros Hn. unfold poly_other_area, areas. cbn zeta. change (at_ cs) with (fun i => nth i cs zero3). cbn beta.
  rn. rewrite (fold_sum (fun i => t_area (make_tri (nth i cs zero3) (nth (S i) cs zero3) p))).
  rewrite (edges_eq cs zero3 Hn), map_app, sum_app. rewrite <- (chain_seq cs zero3), map_map. cbn [map fst snd].
  rewrite sum_cons. change (sum []) with 0. rewrite make_tri_area, nth_last.
  rewrite (sum_ext _ (fun i => area3 (nth i cs zero3) (nth (S i) cs zero3) p)) by (intros; apply make_tri_area).
  replace (nth 0 cs zero3) with (hd zero3 cs) by (destruct cs; reflexivity). lra.
Qed.

Lemma make_poly_eq (cs : list pt) : (3 <= length cs)%nat ->
  exists pg, make_poly cs = Ok pg /\ po_cs pg = cs /\ po_convex pg = corners_convex cs /\
    po_plane pg = plane_3p (nth 0 cs zero3) (nth 1 cs zero3) (nth 2 cs zero3) /\
    po_area pg = sum (map (fun ab => area3 (nth 0 cs zero3) (fst ab) (snd ab)) (chain (tl cs))).
Proof.
  intros HL. unfold make_poly. destruct (Nat.ltb_spec (length cs) 3); [lia|]. eexists. split; [reflexivity|].
  cbn [po_cs po_convex po_plane po_area]. repeat split. rn. rewrite fold_sum, (triangulate_chain cs HL), map_map.
  rewrite (sum_ext _ (fun ab => area3 (nth 0 cs zero3) (fst ab) (snd ab))) by (intros; apply make_tri_area). lra.
Qed.

(** convexity *)
Lemma turn_sign N (a b d : pt) : unit3 N -> dot N (psub b a) = 0 -> dot N (psub d b) = 0 -> a <> b -> b <> d ->
  exists k, 0 < k /\ cross (to_dir (psub b a)) (to_dir (psub d b)) = pscale (k * orient N a b d) N.
Proof.
  intros HN Hb Hd Hab Hbd.
  assert (Hu : psub b a <> zero3) by (intros E; apply Hab, dist_zero; unfold dist, norm; clear - E;
    coords; injection E as Ex Ey Ez; replace (_ + _ + _) with 0 by nra; apply sqrt_0).
  assert (Hv : psub d b <> zero3) by (intros E; apply Hbd, dist_zero; unfold dist, norm; clear - E;
    coords; injection E as Ex Ey Ez; replace (_ + _ + _) with 0 by nra; apply sqrt_0).
  rewrite !to_dir_k. pose proof (Rinv_0_lt_compat _ (norm_pos _ Hu)) as H1.
  pose proof (Rinv_0_lt_compat _ (norm_pos _ Hv)) as H2.
  exists (/ norm (psub b a) * / norm (psub d b)). split; [nra|].
  replace (orient N a b d) with (det3 (psub b a) (psub d b) N) by (unfold orient; coords; ring).
  set (u := psub b a) in *. set (v := psub d b) in *. generalize (/ norm u) (/ norm v). intros k1 k2.
  transitivity (pscale (k1 * k2) (cross u v)).
  - clearbody u v. clear. coords. v3; ring.
  - rewrite (cross_parallel N u v HN Hb Hd). generalize (det3 u v N). clear. intros x. coords. v3; ring.
Qed.

Lemma corners_convex_true N (cs : list pt) : convex_ccw N cs -> proper_edges cs -> corners_convex cs = true.
Proof.
  intros HC HP. unfold corners_convex. cbn zeta. apply forallb_forall. intros i Hi. apply in_seq in Hi.
  pose proof (cc_len N cs HC) as HL.
  set (m := fun i => Nat.modulo i (length cs)).
  assert (Hm : forall i, (m i < length cs)%nat) by (intros; apply Nat.mod_upper_bound; lia).
  assert (Hdir : forall i, seg_dir (corners_edge cs i) = to_dir (psub (nth (m (S i)) cs zero3) (nth i cs zero3))) by reflexivity.
  assert (Hedge : forall i, (i < length cs)%nat -> In (nth i cs zero3, nth (m (S i)) cs zero3) (edges cs)).
  { intros j Hj. rewrite (edges_seq cs zero3 (cc_nonempty N cs HC)). apply in_map_iff. exists j. split; [reflexivity|].
    apply in_seq. lia. }
  assert (Hturn : forall i j, (i < length cs)%nat -> j = m (S i) ->
     exists x, 0 <= x /\ cross (seg_dir (corners_edge cs i)) (seg_dir (corners_edge cs j)) = pscale x N).
  { intros i0 j Hi0 Hj. assert (Hj2 : (j < length cs)%nat) by (rewrite Hj; apply Hm).
    pose proof (Hedge i0 Hi0) as E1. pose proof (Hedge j Hj2) as E2. rewrite <- Hj in E1.
    destruct (turn_sign N (nth i0 cs zero3) (nth j cs zero3) (nth (m (S j)) cs zero3)
      (cc_unit N cs HC)) as (k & Hk & E).
    - apply (cc_planar N cs HC); apply nth_In; assumption.
    - apply (cc_planar N cs HC); apply nth_In; [assumption|apply Hm].
    - exact (HP _ E1).
    - exact (HP _ E2).
    - exists (k * orient N (nth i0 cs zero3) (nth j cs zero3) (nth (m (S j)) cs zero3)). split.
      + apply Rmult_le_pos; [lra|]. apply (cc_left N cs HC _ _ _ E1). apply nth_In, Hm.
      + rewrite !Hdir, <- Hj. exact E. }
  destruct (Hturn (length cs - 1)%nat 0%nat) as (x & Hx & Ex); [lia| |].
  { unfold m. replace (S (length cs - 1)) with (length cs) by lia. symmetry. apply Nat.mod_same. lia. }
  destruct (Hturn i (S i)) as (y & Hy & Ey); [lia| |].
  { unfold m. symmetry. apply Nat.mod_small. lia. }
  rewrite Ex, Ey. rewrite sprod_dot. rn. apply negb_true_iff. apply Rltb_false.
  replace (dot (pscale y N) (pscale x N)) with (y * x * dot N N) by (clear; coords; ring).
  pose proof (cc_unit N cs HC) as HU. unfold unit3 in HU. rewrite HU. nra.
Qed.

Section PolyOk.
Variables (N : pt) (cs : list pt).
Hypothesis HC : convex_ccw N cs.
Hypothesis HP : proper_edges cs.

Lemma poly_made : exists pg, make_poly cs = Ok pg /\ po_cs pg = cs /\ po_convex pg = true /\
  po_area pg = shoelace N cs /\ pl_n (po_plane pg) = N /\ pl_sup (po_plane pg) = nth 0 cs zero3.
Proof.
  pose proof (cc_len N cs HC) as HL. destruct (make_poly_eq cs HL) as (pg & E & H1 & H2 & H3 & H4).
  exists pg. rewrite E, H1, H2, H3, H4. split; [reflexivity|]. split; [reflexivity|].
  split; [apply (corners_convex_true N); assumption|]. split; [exact (fan_total N cs HC)|]. split; [|reflexivity].
  assert (I : forall i, (i < length cs)%nat -> In (nth i cs zero3) cs) by (intros; apply nth_In; assumption).
  apply plane_3p_normal.
  - apply (cc_unit N cs HC).
  - apply (cc_planar N cs HC); apply I; lia.
  - apply (cc_planar N cs HC); apply I; lia.
  - apply (cc_first N cs HC).
Qed.

Lemma poly_test pg : make_poly cs = Ok pg ->
  (forall p eps chk, poly_contains pg p eps chk = Ok (poly_contains_convex pg p eps chk)) /\
  (forall p eps chk, poly_contains_convex pg p eps chk = true <->
    (chk = true -> Rabs (dot N (psub p (nth 0 cs zero3))) < eps) /\
    Rabs (shoelace N cs - areas cs p) < eps * eps).
Proof.
  intros E. destruct poly_made as (pg' & E' & H1 & H2 & H3 & H4 & H5). rewrite E in E'. injection E' as <-.
  split; [intros; unfold poly_contains; rewrite H2; reflexivity|].
  intros p eps chk. unfold poly_contains_convex. rewrite H1, H3, (other_areas cs p (cc_nonempty N cs HC)).
  assert (HPl : plane_contains (po_plane pg) p eps = true <-> Rabs (dot N (psub p (nth 0 cs zero3))) < eps).
  { rewrite plane_contains_iff, H4, H5. reflexivity. }
  destruct (plane_contains (po_plane pg) p eps); destruct chk; cbn [andb negb]; rn; rewrite ?Rltb_true.
  1,2,4: intuition discriminate.
  split; [discriminate|]. intros [Hx _]. specialize (Hx eq_refl). apply HPl in Hx. discriminate.
Qed.
End PolyOk.
