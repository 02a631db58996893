(** Proofs about the shapes of geometries. *)

From Coq Require Import Reals Lra Psatz List Bool.
From Verif Require Import Base NumModel VecModel LinModel RoundModel PolyModel DistModel IntModel ShapeModel GeoSpec LinSpec RoundSpec PolySpec IntSpec ShapeSpec
  GeoLemmas MathProofs LinProofs EllProofs ArcProofs CylProofs PolyProofs.
Import ListNotations.
Local Open Scope R_scope.

Lemma unit_norm (u : pt) : unit3 u -> norm u = 1.
Proof. intros H. unfold norm. rewrite H. apply sqrt_1. Qed.
Lemma gp_dir_unit (u : pt) : unit3 u -> gp_dir u = Ok u.
Proof.
  intros H. unfold gp_dir. rewrite vlen_norm, (unit_norm u H). rn. destruct (Rleb_spec 1 0); [lra|]. now rewrite to_dir_of_unit.
Qed.

(** the frame of gp_Ax2 for a normal and a perpendicular direction *)
Lemma gp_ax2_ok (o n u v : pt) : ortho_basis u v n -> gp_ax2 o n u = Ok (mkFrame o u v n).
Proof.
  intros B. pose proof B as (Hu & Hv & Hn & Huv & Hun & Hvn & Hd). unfold gp_ax2.
  assert (cross n (cross u n) = u) as ->.
  { rewrite cross_cross. assert (dot n n = 1) as -> by exact Hn.
    assert (dot n u = 0) as -> by (rewrite dot_comm; exact Hun). apply v3_eq; coords; ring. }
  rewrite (gp_dir_unit u Hu). cbn [obind].
  assert (cross n u = v) as E.
  { assert (unit3 (cross n u)) as Hc by (apply cross_unit; [exact Hn|exact Hu|unfold ortho; rewrite dot_comm; exact Hun]).
    apply psub_zero. apply (basis_complete u v n); [exact B|..].
    - rewrite dot_comm. transitivity (dot u (cross n u) - dot u v); [coords; unfold dot; cbn; ring|].
      rewrite Huv. assert (dot (cross n u) u = 0) as Z by apply cross_ortho_r. rewrite dot_comm, Z. ring.
    - transitivity (dot v (cross n u) - dot v v); [coords; unfold dot; cbn; ring|].
      rewrite Hv. assert (dot v (cross n u) = det3 u v n) as -> by (unfold dot, det3; coords; ring). rewrite Hd. ring.
    - transitivity (dot n (cross n u) - dot n v); [coords; unfold dot; cbn; ring|].
      assert (dot (cross n u) n = 0) as Z by apply cross_ortho_l. rewrite dot_comm, Z. rewrite dot_comm, Hvn. ring. }
  rewrite E, (gp_dir_unit v Hv). reflexivity.
Qed.

Lemma conic_ok (e : ell R) : ell_ok e -> e_b e <= e_a e ->
  conic_of e = Ok (mkConic (mkFrame (e_c e) (e_maj e) (e_min e) (e_n e)) (e_a e) (e_b e)).
Proof.
  intros (B & Ha & Hb) Hab. pose proof B as (Hu & Hv & Hn & _). unfold conic_of.
  rewrite (gp_dir_unit _ Hn), (gp_dir_unit _ Hu). cbn [obind]. rewrite (gp_ax2_ok _ _ _ _ B). cbn [obind].
  unfold gp_elips. rn. destruct (Rltb_spec (e_b e) 0); [lra|]. destruct (Rltb_spec (e_a e) (e_b e)); [lra|]. reflexivity.
Qed.
Lemma conic_at_ell (e : ell R) u : conic_at (mkConic (mkFrame (e_c e) (e_maj e) (e_min e) (e_n e)) (e_a e) (e_b e)) u = ell_at e u.
Proof. reflexivity. Qed.

Lemma ellipse_shape e : ell_ok e -> e_b e <= e_a e -> represents (shape_ellipse e) (on_ellipse e).
Proof.
  intros Hok Hab. unfold shape_ellipse. rewrite (conic_ok e Hok Hab). cbn [obind]. eexists. split; [reflexivity|].
  intros x. cbn [shape_pts]. setoid_rewrite conic_at_ell. rewrite twopi_lit. rn. split.
  - intros (u & _ & ->). now exists u.
  - intros Hx. destruct (on_ellipse_range e Hok x Hx) as (phi & Hr & ->). exists phi. split; [lra|reflexivity].
Qed.

(** the constructors of the geometries do not demand that the major axis is the longer one *)
Lemma swapped_axes_shape e : ell_ok e -> e_a e < e_b e ->
  shape_ellipse e = Throw RuntimeError /\ shape_disk e = Throw RuntimeError.
Proof.
  intros (B & Ha & Hb) Hab. pose proof B as (Hu & Hv & Hn & _).
  assert (conic_of e = Throw RuntimeError) as E.
  { unfold conic_of. rewrite (gp_dir_unit _ Hn), (gp_dir_unit _ Hu). cbn [obind]. rewrite (gp_ax2_ok _ _ _ _ B). cbn [obind].
    unfold gp_elips. rn. destruct (Rltb_spec (e_b e) 0); [lra|]. destruct (Rltb_spec (e_a e) (e_b e)); [reflexivity|lra]. }
  unfold shape_ellipse, shape_disk. rewrite E. split; reflexivity.
Qed.

Lemma circle_shape c n r : unit3 n -> 0 < r -> represents (shape_circle (make_circle c n r)) (on_circle c n r).
Proof.
  intros Hn Hr. destruct (make_circle_ok c n r Hn Hr) as (Hok & Ec & En & Ea & Eb).
  unfold shape_circle. pose proof Hok as ((Hu & Hv & _ & Huv & _) & _). rewrite Ea.
  assert (ell_ok (make_ell (e_c (make_circle c n r)) (e_maj (make_circle c n r)) (e_min (make_circle c n r)) r r)) as H
    by (apply make_ell_ok; assumption).
  destruct (ellipse_shape _ H (Rle_refl r)) as (sh & Es & Hs). exists sh. split; [exact Es|]. intros x. rewrite Hs.
  rewrite <- (circle_ellipse c n r x Hn Hr). unfold on_ellipse, ell_at. cbn [make_ell e_c e_maj e_min e_a e_b]. rewrite Ea, Eb. reflexivity.
Qed.

Lemma disk_shape e : ell_ok e -> e_b e <= e_a e -> represents (shape_disk e) (in_disk 1 e).
Proof.
  intros Hok Hab. pose proof Hok as (B & Ha & Hb). unfold shape_disk. rewrite (conic_ok e Hok Hab). cbn [obind]. eexists. split; [reflexivity|].
  intros p. cbn [shape_pts co_f co_a co_b fr_o fr_x fr_y]. split.
  - intros (k & u & Hk & ->). exists (k * (e_a e * cos u)), (k * (e_b e * sin u)). split; [|reflexivity].
    rewrite !Rmult_1_l. replace (k * (e_a e * cos u) / e_a e) with (k * cos u) by (field; lra).
    replace (k * (e_b e * sin u) / e_b e) with (k * sin u) by (field; lra).
    pose proof (sin2_cos2 u) as SC. unfold Rsqr in SC. nra.
  - intros (x & y & Hq & ->). rewrite !Rmult_1_l in Hq. set (X := x / e_a e) in *. set (Y := y / e_b e) in *.
    assert (x = e_a e * X) as Ex by (unfold X; field; lra). assert (y = e_b e * Y) as Ey by (unfold Y; field; lra).
    clearbody X Y. rewrite Ex, Ey. clear x y Ex Ey. pose proof (pow2_ge_0 X). pose proof (pow2_ge_0 Y).
    destruct (Req_dec (X ^ 2 + Y ^ 2) 0) as [Z|Z].
    + assert (X = 0) as E1 by nra. assert (Y = 0) as E2 by nra. rewrite E1, E2. exists 0, 0. split; [lra|].
      apply v3_eq; unfold at_coords; coords; ring.
    + set (k := sqrt (X ^ 2 + Y ^ 2)). assert (k * k = X ^ 2 + Y ^ 2) as Hk by (apply sqrt_sqrt; lra).
      assert (0 < k) as Hk0 by (apply sqrt_lt_R0; lra).
      destruct (unit_circle_angle (X / k) (Y / k)) as (u & _ & E1 & E2).
      { replace ((X / k) ^ 2 + (Y / k) ^ 2) with ((X ^ 2 + Y ^ 2) / (k * k)) by (field; lra). rewrite Hk. field. lra. }
      exists k, u. split; [nra|]. rewrite <- E1, <- E2.
      f_equal; field; lra.
Qed.

(** arcs *)
Lemma arc_shape e src tgt c : ell_ok e -> e_b e <= e_a e -> on_ellipse e src -> on_ellipse e tgt ->
  make_arc e src tgt = Ok c -> a_full c = false -> a_s c <> a_t c ->
  represents (shape_arc c) (on_arc e (a_s c) (a_t c)).
Proof.
  intros Hok Hab Hs Ht Hm Hf Hne.
  destruct (make_arc_inv e Hok _ _ _ Hm) as (Ee & _ & _ & _ & As & At & _). specialize (At Hf).
  destruct (get_angle_on e Hok _ _ Hs As) as (Rs & _). destruct (get_angle_on e Hok _ _ Ht At) as (Rt & _).
  unfold shape_arc. rewrite Ee, (conic_ok e Hok Hab). cbn [obind]. rewrite twopi_lit. rn.
  destruct (Rltb_spec (a_t c) (a_s c)) as [L|L].
  - destruct (Reqb_spec (a_s c) (a_t c + 2 * PI)) as [E|E]; [lra|]. eexists. split; [reflexivity|].
    intros x. cbn [shape_pts]. setoid_rewrite conic_at_ell. split.
    + intros (u & Hu & ->). destruct (Rlt_or_le u (2 * PI)) as [U|U].
      * exists u. unfold between. repeat split; try lra.
      * exists (u - 2 * PI). unfold between. repeat split; try lra.
        rewrite <- (ell_at_period e (u - 2 * PI)). f_equal. ring.
    + intros (phi & Hr & [[B1 B2]|[B1 [B2|B2]]] & ->); [lra|..].
      * exists phi. split; [lra|reflexivity].
      * exists (phi + 2 * PI). split; [lra|]. now rewrite (ell_at_period e).
  - destruct (Reqb_spec (a_s c) (a_t c)) as [E|E]; [lra|]. eexists. split; [reflexivity|].
    intros x. cbn [shape_pts]. setoid_rewrite conic_at_ell. split.
    + intros (u & Hu & ->). exists u. unfold between. repeat split; try lra.
    + intros (phi & Hr & [[B1 B2]|[B1 B2]] & ->); [|lra]. exists phi. split; [lra|reflexivity].
Qed.
(** arcs whose ends have the same angle *)
Lemma equal_arc_shape e c : a_ell c = e -> ell_ok e -> e_b e <= e_a e -> a_s c = a_t c -> shape_arc c = Throw RuntimeError.
Proof.
  intros Ee Hok Hab Hst. unfold shape_arc. rewrite Ee, (conic_ok e Hok Hab). cbn [obind]. rewrite Hst. rn.
  destruct (Rltb_spec (a_t c) (a_t c)); [lra|]. destruct (Reqb_spec (a_t c) (a_t c)); [reflexivity|lra].
Qed.
Lemma small_snapped (a : R) : 0 <= a < 1 / 10 ^ 10 -> snap a = a -> a = 0.
Proof.
  intros [H0 H1] <-. unfold snap. destruct (Req_dec a 0) as [Z|Z].
  { rewrite Z, cos_0, sin_0, Rabs_R1, Rabs_R0. pose proof kk_pos. destruct (Rlt_dec 1 kk); [lra|].
    destruct (Rlt_dec 0 kk); [|lra]. destruct (Rlt_dec 1 0); lra. }
  assert (0 < a) as Hp0 by lra. pose proof PI_RGT_0. pose proof PI2_3_2. pose proof kk_pos.
  assert (1 / 10 ^ 10 < kk) as Hk2 by (unfold kk; lra).
  assert (sin a < a) by (apply sin_lt_x; exact Hp0). assert (0 < sin a) by (apply sin_gt_0; lra).
  pose proof (sc1 a) as SC. assert (0 < cos a) by (apply cos_gt_0; lra). assert (1 / 2 < cos a) by nra.
  destruct (Rlt_dec (Rabs (cos a)) kk) as [C|C]; [destruct (Rabs_def2 _ _ C); lra|].
  destruct (Rlt_dec (Rabs (sin a)) kk) as [C'|C'].
  - destruct (Rlt_dec (cos a) 0); lra.
  - exfalso. apply C'. apply Rabs_def1; lra.
Qed.
Lemma full_arc_shape e p c : ell_ok e -> e_b e <= e_a e -> on_ellipse e p -> make_arc e p p = Ok c ->
  (1 / 10 ^ 10 <= a_s c -> shape_arc c = Throw RuntimeError) /\
  (a_s c < 1 / 10 ^ 10 -> represents (shape_arc c) (on_ellipse e)).
Proof.
  intros Hok Hab Hp Hm. destruct (make_arc_inv e Hok _ _ _ Hm) as (Ee & _ & _ & Hf & As & _ & Hfull).
  assert (a_full c = true) as F.
  { apply Hf. rewrite dist_self. pose proof (ea e Hok). unfold kk in *. lra. }
  specialize (Hfull F). destruct (get_angle_on e Hok _ _ Hp As) as (Rs & Ss & _). split.
  - intros L. destruct (Rlt_dec (a_s c) (1 / 10 ^ 10)); [lra|]. now apply (equal_arc_shape e).
  - intros L. assert (a_s c = 0) as Z by (apply small_snapped; [lra|exact Ss]). destruct (Rlt_dec (a_s c) (1 / 10 ^ 10)); [|lra]. unfold shape_arc. rewrite Ee, (conic_ok e Hok Hab). cbn [obind]. rewrite Hfull, Z, ?twopi_lit. rn.
    pose proof PI_RGT_0. destruct (Rltb_spec (2 * PI) 0); [lra|]. destruct (Reqb_spec 0 (2 * PI)); [lra|].
    eexists. split; [reflexivity|]. intros x. cbn [shape_pts]. setoid_rewrite conic_at_ell. split.
    + intros (u & _ & ->). now exists u.
    + intros Hx. destruct (on_ellipse_range e Hok x Hx) as (phi & Hr & ->). exists phi. split; [lra|reflexivity].
Qed.

(** straight edges *)
Lemma make_edge_ok (p q : pt) : p <> q -> make_edge p q = Ok (p, q).
Proof.
  intros Hne. unfold make_edge. rewrite vlen_norm. rn. destruct (Rleb_spec (norm (vec_to p q)) 0) as [L|L]; [|reflexivity].
  exfalso. assert (vec_to p q <> zero3) as Hz.
  { intros E. apply Hne. destruct p, q. unfold vec_to, zero3 in E. cbn in E. injection E as E1 E2 E3. f_equal; lra. }
  pose proof (norm_pos _ Hz). lra.
Qed.
Lemma make_edge_same (p : pt) : make_edge p p = Throw RuntimeError.
Proof.
  unfold make_edge. rewrite vlen_norm. rn. assert (norm (vec_to p p) = 0) as ->.
  { unfold norm. assert (dot (vec_to p p) (vec_to p p) = 0) as -> by (unfold dot; coords; ring). apply sqrt_0. }
  destruct (Rleb_spec 0 0); [reflexivity|lra].
Qed.
Lemma segment_shape (s : segment R) : (s_src s <> s_tgt s -> represents (shape_segment s) (on_segment (s_src s) (s_tgt s))) /\
  (s_src s = s_tgt s -> shape_segment s = Throw RuntimeError).
Proof.
  unfold shape_segment. split.
  - intros H. rewrite (make_edge_ok _ _ H). cbn. eexists. split; [reflexivity|]. intros x. reflexivity.
  - intros ->. now rewrite make_edge_same.
Qed.

(** faces with straight edges *)
Lemma hull_incl cs ds x : (forall c, In c cs -> In c ds) -> hull cs x -> hull ds x.
Proof. intros H Hx. induction Hx as [c Hc|a b x _ IHa _ IHb Hs]; [apply hull_corner; auto|exact (hull_between ds a b x IHa IHb Hs)]. Qed.
Lemma make_edges_ok (l : list (pt * pt)) : (forall e, In e l -> fst e <> snd e) -> make_edges l = Ok l.
Proof.
  induction l as [|[p q] l IH]; intros Hl; cbn [make_edges]; [reflexivity|].
  rewrite (make_edge_ok p q) by (apply (Hl (p, q)); now left). cbn [obind]. rewrite IH by (intros e He; apply Hl; now right). reflexivity.
Qed.
Lemma classic_pt (p q : pt) : p = q \/ p <> q.
Proof.
  destruct p as [x y z], q as [x' y' z'].
  destruct (Req_dec x x') as [->|]; [destruct (Req_dec y y') as [->|]; [destruct (Req_dec z z') as [->|]|]|]; [now left|right; congruence..].
Qed.
Lemma make_edges_throw (l : list (pt * pt)) p : In (p, p) l -> make_edges l = Throw RuntimeError.
Proof.
  induction l as [|[a b] l IH]; intros Hl; [destruct Hl|]. cbn [make_edges].
  destruct (classic_pt a b) as [->|Hne].
  - now rewrite make_edge_same.
  - rewrite (make_edge_ok a b Hne). cbn [obind]. destruct Hl as [[= -> ->]|Hl]; [tauto|]. now rewrite (IH Hl).
Qed.

Lemma poly_edges (cs : list pt) c0 : (2 <= length cs)%nat -> 
  (nth 0 cs c0, nth 1 cs c0) :: map (fun i => (nth i cs c0, nth ((i + 1) mod length cs) cs c0)) (seq 1 (length cs - 1)) = edges cs.
Proof.
  intros Hl. rewrite (edges_eq cs c0) by (destruct cs; cbn in Hl; [Lia.lia|discriminate]). rewrite <- (chain_seq cs c0), <- nth_last.
  destruct (length cs) as [|[|n]] eqn:El; try Lia.lia. replace (S (S n) - 1)%nat with (S n) by Lia.lia.
  assert (hd c0 cs = nth 0 cs c0) as -> by (destruct cs; reflexivity).
  assert (map (fun i => (nth i cs c0, nth ((i + 1) mod S (S n)) cs c0)) (seq 1 (S n)) =
    map (fun i => (nth i cs c0, nth (S i) cs c0)) (seq 1 n) ++ [(nth (S n) cs c0, nth 0 cs c0)]) as ->.
  { rewrite seq_S, map_app. f_equal.
    - apply map_ext_in. intros i Hi. apply in_seq in Hi. rewrite PeanoNat.Nat.mod_small by Lia.lia. now rewrite PeanoNat.Nat.add_1_r.
    - cbn [map]. replace (1 + n + 1)%nat with (S (S n)) by Lia.lia. rewrite PeanoNat.Nat.mod_same by discriminate. reflexivity. }
  cbn [seq map app]. reflexivity.
Qed.
Lemma edges_fst (cs : list pt) : (2 <= length cs)%nat -> map fst (edges cs) = cs.
Proof.
  intros Hl. destruct cs as [|a cs]; [cbn in Hl; Lia.lia|]. unfold edges. cbn [firstn app].
  assert (forall l (b : pt), map fst (chain (l ++ [b])) = l) as E; [|apply (E (a :: cs))].
  clear. induction l as [|x l IH]; intros b; [reflexivity|]. destruct l as [|y l]; [reflexivity|].
  change (chain ((x :: y :: l) ++ [b])) with ((x, y) :: chain ((y :: l) ++ [b])). cbn [map fst]. now rewrite IH.
Qed.
Lemma shape_poly_eq fp (pg : poly R) : (2 <= length (po_cs pg))%nat ->
  shape_poly fp pg = obind (make_edges (edges (po_cs pg))) (make_face fp).
Proof.
  intros Hl. unfold shape_poly. destruct (po_cs pg) as [|c0 [|c1 cs]] eqn:Ec; cbn [length] in Hl; try Lia.lia.
  rewrite <- (poly_edges (c0 :: c1 :: cs) c0) by exact Hl. cbn [nth]. cbn [make_edges].
  destruct (make_edge c0 c1) as [e1|x| |] eqn:E1; cbn [obind]; try reflexivity.
  destruct (make_edges _) as [es|x| |]; reflexivity.
Qed.
Lemma poly_shape fp N pg : plane_found fp -> convex_ccw N (po_cs pg) -> proper_edges (po_cs pg) ->
  shape_poly fp pg = Ok (ShFace (edges (po_cs pg))) /\ represents (shape_poly fp pg) (hull (po_cs pg)).
Proof.
  intros Hf Hc Hp. pose proof Hc as (_ & _ & Hl & _).
  assert (shape_poly fp pg = Ok (ShFace (edges (po_cs pg)))) as E.
  { rewrite shape_poly_eq by Lia.lia. rewrite make_edges_ok by exact Hp. cbn [obind]. unfold make_face.
    rewrite (Hf N (po_cs pg) Hc); [reflexivity|]. intros [a b] He. apply edges_in in He. exact He. }
  split; [exact E|]. eexists. split; [exact E|]. intros x. cbn [shape_pts]. rewrite edges_fst by Lia.lia. reflexivity.
Qed.
Lemma poly_shape_throws fp pg c : (2 <= length (po_cs pg))%nat -> In (c, c) (edges (po_cs pg)) -> shape_poly fp pg = Throw RuntimeError.
Proof. intros Hl H. rewrite shape_poly_eq by exact Hl. now rewrite (make_edges_throw _ _ H). Qed.

Lemma shape_quad_eq fp (q : quad R) : shape_quad fp q = obind (make_edges (edges [q_0 q; q_1 q; q_3 q; q_2 q])) (make_face fp).
Proof.
  unfold shape_quad, edges. cbn [firstn app chain make_edges].
  repeat match goal with |- context [obind (make_edge ?a ?b) _] => destruct (make_edge a b) as [?e| | |]; cbn [obind]; try reflexivity end.
Qed.
Lemma quad_shape fp N q : plane_found fp -> convex_ccw N (around (q_0 q) (q_1 q) (q_2 q) (q_3 q)) ->
  proper_edges (around (q_0 q) (q_1 q) (q_2 q) (q_3 q)) ->
  shape_quad fp q = Ok (ShFace (edges [q_0 q; q_1 q; q_3 q; q_2 q])) /\
  represents (shape_quad fp q) (hull (around (q_0 q) (q_1 q) (q_2 q) (q_3 q))).
Proof.
  intros Hf Hc Hp.
  assert (shape_quad fp q = Ok (ShFace (edges [q_0 q; q_1 q; q_3 q; q_2 q]))) as E.
  { rewrite shape_quad_eq. rewrite make_edges_ok.
    - cbn [obind]. unfold make_face. rewrite (Hf N _ Hc); [reflexivity|]. intros [a b] He. apply edges_in in He.
      unfold around. cbn in He |- *. tauto.
    - intros [a b] He. apply Hp. unfold edges, around in *. cbn [firstn app chain] in *. cbn in *. tauto. }
  split; [exact E|]. eexists. split; [exact E|]. intros x. cbn [shape_pts]. rewrite edges_fst by (cbn; Lia.lia).
  split; apply hull_incl; unfold around; cbn; tauto.
Qed.

(** cylinders *)
Lemma cyl_frame_ok (b : ell R) : ell_ok b -> cyl_frame b = Ok (mkFrame (e_c b) (e_maj b) (e_min b) (e_n b)).
Proof.
  intros (B & _). pose proof B as (Hu & Hv & Hn & _). unfold cyl_frame. rewrite (gp_dir_unit _ Hn), (gp_dir_unit _ Hu). cbn [obind].
  now rewrite (gp_ax2_ok _ _ _ _ B).
Qed.
Lemma make_cylinder_ok {B} (b : ell R) h (mk : frame R -> R -> R -> B) : ell_ok b -> 0 < h ->
  make_cylinder b h mk = Ok (mk (mkFrame (e_c b) (e_maj b) (e_min b) (e_n b)) (e_a b) h).
Proof.
  intros Hok Hh. unfold make_cylinder. rewrite (cyl_frame_ok b Hok). cbn [obind]. pose proof (ea b Hok). rn.
  destruct (Rleb_spec (e_a b) 0); [lra|]. destruct (Rleb_spec h 0); [lra|]. reflexivity.
Qed.
Lemma surface_shape (c : cyl R) : cyl_ok c -> ell_ok (c_bot c) -> represents (shape_surface c) (cyl_lateral_set c).
Proof.
  intros (_ & Hh & _) Hb. unfold shape_surface. rewrite (make_cylinder_ok _ _ _ Hb Hh). eexists. split; [reflexivity|]. intros x. reflexivity.
Qed.
Lemma cylinder_shape (c : cyl R) : cyl_ok c -> 0 < e_a (c_bot c) -> represents (shape_cylinder c) (cyl_solid c).
Proof.
  intros (Hn & Hh & Hr & Et) Ha. destruct (make_circle_ok (e_c (c_bot c)) _ _ Hn Ha) as (Hok & Ec & En & Ea & Eb).
  unfold shape_cylinder, cyl_lateral, make_surf. cbn [c_bot c_h]. rewrite (make_cylinder_ok _ _ _ Hok Hh).
  eexists. split; [reflexivity|]. intros x. cbn [shape_pts fr_o fr_z]. rewrite Ec, En, Ea. reflexivity.
Qed.
Lemma box_shape (b : box R) : vx (b_min b) < vx (b_max b) -> vy (b_min b) < vy (b_max b) -> vz (b_min b) < vz (b_max b) ->
  represents (shape_box b) (in_box b).
Proof.
  intros Hx Hy Hz. unfold shape_box. rn. repeat (match goal with |- context [Rleb ?a 0] => destruct (Rleb_spec a 0); [lra|] end). cbn.
  eexists. split; [reflexivity|]. intros x. destruct b. reflexivity.
Qed.
Lemma flat_box_shape (b : box R) : box_ok b -> vx (b_min b) = vx (b_max b) \/ vy (b_min b) = vy (b_max b) \/ vz (b_min b) = vz (b_max b) ->
  shape_box b = Throw RuntimeError.
Proof.
  intros (Hx & Hy & Hz) H. unfold shape_box. rn.
  destruct (Rleb_spec (vx (b_max b) - vx (b_min b)) 0); [reflexivity|]. destruct (Rleb_spec (vy (b_max b) - vy (b_min b)) 0); [reflexivity|].
  destruct (Rleb_spec (vz (b_max b) - vz (b_min b)) 0); [reflexivity|]. lra.
Qed.
Lemma sphere_shape (s : sphere R) : 0 < sp_r s -> represents (shape_sphere s) (ball (sp_c s) (sp_r s)).
Proof.
  intros Hr. unfold shape_sphere. rn. destruct (Rleb_spec (sp_r s) 0); [lra|]. eexists. split; [reflexivity|]. intros x. reflexivity.
Qed.
Lemma point_shape (p : pt) : represents (shape_point p) (eq p).
Proof. eexists. split; [reflexivity|]. intros x. cbn. split; auto. Qed.
(** the wires of faces, whether they are convex or not *)
Lemma make_edges_inv (l w : list (pt * pt)) : make_edges l = Ok w -> w = l.
Proof.
  revert w. induction l as [|[p q] l IH]; intros w; cbn [make_edges]; [intros [= <-]; reflexivity|].
  unfold make_edge. destruct (vlen (vec_to p q) <=? n0)%num; cbn [obind]; [discriminate|].
  destruct (make_edges l) as [es| | |]; cbn [obind]; try discriminate. intros [= <-]. now rewrite (IH es eq_refl).
Qed.
Lemma face_wire fp (l : list (pt * pt)) sh : obind (make_edges l) (make_face fp) = Ok sh -> sh = ShFace l.
Proof.
  destruct (make_edges l) as [w| | |] eqn:E; cbn [obind]; try discriminate. apply make_edges_inv in E. subst w.
  unfold make_face. destruct (fp l); [|discriminate]. intros [= <-]. reflexivity.
Qed.
Lemma wires fp : (forall (q : quad R) sh, shape_quad fp q = Ok sh -> sh = ShFace (edges [q_0 q; q_1 q; q_3 q; q_2 q])) /\
  (forall (pg : poly R) sh, shape_poly fp pg = Ok sh -> sh = ShFace (edges (po_cs pg))).
Proof.
  split.
  - intros q sh. rewrite shape_quad_eq. apply face_wire.
  - intros pg sh Hs. assert (2 <= length (po_cs pg))%nat as Hl.
    { unfold shape_poly in Hs. destruct (po_cs pg) as [|? [|? ?]]; try discriminate. cbn. Lia.lia. }
    rewrite shape_poly_eq in Hs by exact Hl. now apply face_wire in Hs.
Qed.
Lemma flat_points x y : represents (shape_point (gp_point1 x)) (eq (mkV3 x 0 0)) /\
  represents (shape_point (gp_point2 x y)) (eq (mkV3 x y 0)).
Proof. split; apply point_shape. Qed.
