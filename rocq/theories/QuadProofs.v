(** Centers, quadrilaterals and the counterexamples for polygonal geometries. *)

From Coq Require Import Reals Lra Lia Psatz List Bool.
From Verif Require Import Base NumModel VecModel LinModel PolyModel GeoSpec LinSpec PolySpec
  GeoLemmas LinProofs PolyProofs PolyBridge.
Import ListNotations.
Local Open Scope R_scope.

(** ** Centers *)
Lemma tri_center_hull cs (a b d : pt) : In a cs -> In b cs -> In d cs -> hull cs (t_c (make_tri a b d)).
Proof.
  intros Ha Hb Hd. apply (hull_comb3 cs a b d _ (/ 3) (/ 3) (/ 3)); auto; try lra.
  unfold make_tri. cbn [t_c]. rn. unfold padd, pscale. v3; lra.
Qed.

(** weighted means *)
Definition acc (s : pt * R) (t : tri R) : pt * R :=
  (padd (fst s) (pscale (t_area t) (t_c t)), snd s + t_area t).
Definition mean_ok (cs : list pt) (s : pt * R) : Prop :=
  0 <= snd s /\ (snd s = 0 -> fst s = zero3) /\ (0 < snd s -> hull cs (pscale (/ snd s) (fst s))).
Lemma acc_ok cs s t : hull cs (t_c t) -> 0 <= t_area t -> mean_ok cs s -> mean_ok cs (acc s t).
Proof.
  intros Hh Ht (H0 & Hz & Hp). destruct s as [c a]. destruct t as [p1 p2 p3 tc tn ta].
  unfold acc, mean_ok in *. cbn [fst snd t_area t_c] in *.
  split; [lra|]. split.
  - intros E. assert (a = 0) by lra. assert (ta = 0) by lra. rewrite (Hz H). subst. clear. coords. v3; ring.
  - intros Hs. destruct (Req_dec a 0) as [Ea|Ea].
    + rewrite (Hz Ea). replace (pscale _ _) with tc; [exact Hh|]. subst a. clear - Hs.
      rewrite Rplus_0_l in *. unfold pscale, padd, zero3. cbn [vx vy vz]. destruct tc as [x y z]. cbn [vx vy vz].
      v3; field; lra.
    + apply (hull_between cs (pscale (/ a) c) tc); [apply Hp; lra|exact Hh|].
      exists (ta / (a + ta)). split.
      * split; [apply Rmult_le_pos; [lra|]; apply Rlt_le, Rinv_0_lt_compat; lra|].
        apply Rmult_le_reg_r with (a + ta); [lra|]. unfold Rdiv. rewrite Rmult_assoc, Rinv_l by lra. lra.
      * unfold pscale, padd. cbn [vx vy vz]. v3; field; lra.
Qed.
Lemma accs_ok cs ts s : (forall t, In t ts -> hull cs (t_c t) /\ 0 <= t_area t) -> mean_ok cs s ->
  mean_ok cs (fold_left acc ts s).
Proof.
  revert s. induction ts as [|t ts IH]; intros s Hts Hs; [exact Hs|]. cbn [fold_left]. apply IH.
  - intros t' Ht'. apply Hts. right. exact Ht'.
  - destruct (Hts t (or_introl eq_refl)). apply acc_ok; assumption.
Qed.
Lemma accs_split ts c a :
  fold_left acc ts (c, a) =
  (fold_left (fun c t => vadd c (vscale (vec_to origin (t_c t)) (t_area t))) ts c,
   fold_left (fun a t => nadd a (t_area t)) ts a).
Proof.
  revert c a. induction ts as [|t ts IH]; intros c a; [reflexivity|]. cbn [fold_left]. unfold acc at 2. cbn [fst snd].
  rewrite IH. f_equal. f_equal. unfold vadd, padd, pscale, vscale, vec_to, origin. rn. v3; ring.
Qed.
Lemma mean_start cs : mean_ok cs (origin, 0).
Proof. unfold mean_ok. cbn [fst snd]. split; [lra|]. split; [intros _; reflexivity|lra]. Qed.

Lemma poly_center_hull N cs pg : convex_ccw N cs -> make_poly cs = Ok pg -> hull cs (po_c pg).
Proof.
  intros HC E. pose proof (cc_len N cs HC) as HL. unfold make_poly in E.
  destruct (Nat.ltb_spec (length cs) 3); [lia|]. injection E as <-. cbn [po_c].
  assert (HM : mean_ok cs (fold_left acc (triangulate cs) (origin, 0))).
  { apply accs_ok; [|apply mean_start]. intros t Ht. rewrite (triangulate_chain cs HL) in Ht.
    apply in_map_iff in Ht as ([a b] & <- & Hab). cbn [fst snd]. rewrite (chain_tl_seq N cs HC) in Hab.
    apply in_map_iff in Hab as (i & Ei & Hi). apply in_seq in Hi. injection Ei as <- <-. split.
    - apply tri_center_hull; apply nth_In; lia.
    - rewrite make_tri_area. apply area3_nonneg. }
  rewrite accs_split in HM. destruct HM as (_ & _ & HM). cbn [fst snd] in HM. rewrite vdiv_pscale. apply HM.
  rn. rewrite fold_sum, (triangulate_chain cs HL), map_map.
  rewrite (sum_ext _ (fun ab => area3 (nth 0 cs zero3) (fst ab) (snd ab))) by (intros; apply make_tri_area).
  pose proof (fan_total N cs HC) as HF. unfold fan_area in HF. rewrite HF.
  pose proof (shoelace_pos N cs HC). lra.
Qed.

(** ** Quadrilaterals: the corners are numbered such that 2, 0, 1, 3 go around *)

Lemma edges4 (a b d e : pt) : edges [a; b; d; e] = [(a, b); (b, d); (d, e); (e, a)].
Proof. reflexivity. Qed.
Lemma quad_other (p0 p1 p2 p3 p : pt) :
  n0 + t_area (make_tri p0 p1 p) + t_area (make_tri p1 p3 p) + t_area (make_tri p3 p2 p)
     + t_area (make_tri p2 p0 p) = areas (around p0 p1 p2 p3) p.
Proof. rewrite !make_tri_area. unfold areas, around. rewrite edges4. cbn. lra. Qed.
Lemma quad_shoelace N p0 p1 p2 p3 :
  2 * shoelace N (around p0 p1 p2 p3) = orient N p0 p1 p3 + orient N p0 p3 p2.
Proof.
  rewrite <- (orient_total N (around p0 p1 p2 p3) p0). unfold around. rewrite edges4. cbn.
  rewrite orient_abb, orient_aba, (orient_rot N p0 p1 p3), (orient_rot N p0 p3 p2). lra.
Qed.

Lemma quad_planar N p0 p1 p2 p3 :
  dot N (psub p1 p0) = 0 -> dot N (psub p2 p0) = 0 -> dot N (psub p3 p0) = 0 -> planar N (around p0 p1 p2 p3).
Proof.
  intros H1 H2 H3 a b Ha Hb. unfold around in *. cbn in Ha, Hb.
  destruct Ha as [<-|[<-|[<-|[<-|[]]]]]; destruct Hb as [<-|[<-|[<-|[<-|[]]]]]; clear - H1 H2 H3; coords; lra.
Qed.
Lemma planar_quad N p0 p1 p2 p3 : planar N (around p0 p1 p2 p3) ->
  dot N (psub p1 p0) = 0 /\ dot N (psub p2 p0) = 0 /\ dot N (psub p3 p0) = 0.
Proof. intros H. unfold around in H. repeat split; apply H; cbn; auto. Qed.

Lemma quad_convex_ccw N p0 p1 p2 p3 : convex_ccw N (around p0 p1 p2 p3) <->
  unit3 N /\ planar N (around p0 p1 p2 p3) /\ 0 < orient N p0 p1 p2 /\
  0 <= orient N p0 p1 p3 /\ 0 <= orient N p1 p3 p2 /\ 0 <= orient N p3 p2 p0.
Proof.
  unfold convex_ccw. split.
  - intros (HU & HP & HL & HO & HF). unfold around in *. cbn [nth] in HF.
    pose proof (HO 1%nat 2%nat 3%nat ltac:(lia) ltac:(cbn; lia)) as A.
    pose proof (HO 0%nat 2%nat 3%nat ltac:(lia) ltac:(cbn; lia)) as B.
    pose proof (HO 0%nat 1%nat 3%nat ltac:(lia) ltac:(cbn; lia)) as C.
    cbn [nth] in A, B, C. rewrite <- (orient_rot N p2 p0 p1) in HF. rewrite <- (orient_rot N p2 p1 p3) in B.
    rewrite <- (orient_rot N p2 p0 p3), <- (orient_rot N p0 p3 p2) in C. auto 10.
  - intros (HU & HP & HF & A & B & C). split; [exact HU|]. split; [exact HP|]. split; [cbn; lia|].
    unfold around. split.
    + rewrite (orient_rot N p2 p1 p3) in B. rewrite (orient_rot N p0 p3 p2), (orient_rot N p2 p0 p3) in C.
      rewrite (orient_rot N p2 p0 p1) in HF.
      intros i j k Hij Hk. cbn [length] in Hk.
      assert (Hc : ((i = 0 /\ j = 1 /\ k = 2) \/ (i = 0 /\ j = 1 /\ k = 3) \/
        (i = 0 /\ j = 2 /\ k = 3) \/ (i = 1 /\ j = 2 /\ k = 3))%nat) by lia.
      destruct Hc as [(-> & -> & ->)|[(-> & -> & ->)|[(-> & -> & ->)|(-> & -> & ->)]]]; cbn [nth]; lra.
    + cbn [nth]. rewrite (orient_rot N p2 p0 p1) in HF. exact HF.
Qed.

(** a unit normal fixed by three corners *)
Lemma convex_flag_iff p0 p1 p2 p3 : noncollinear p0 p1 p2 ->
  dot (tri_normal p0 p1 p2) (psub p3 p0) = 0 ->
  (q_convex (make_quad p0 p1 p2 p3) = true <-> convex_ccw (tri_normal p0 p1 p2) (around p0 p1 p2 p3)).
Proof.
  intros Hc H3. destruct (tri_normal_facts p0 p1 p2 Hc) as (HN & H1 & H2 & _ & Hp).
  set (N := tri_normal p0 p1 p2) in *. clearbody N. rewrite quad_convex_ccw.
  assert (HP : planar N (around p0 p1 p2 p3)) by (apply quad_planar; assumption).
  unfold make_quad. cbn [q_convex]. unfold quad_is_convex. cbn zeta. rewrite !sprod_dot, !vec_to_psub.
  assert (HQ : forall a b d x y z, In a (around p0 p1 p2 p3) -> In b (around p0 p1 p2 p3) ->
     In d (around p0 p1 p2 p3) -> In x (around p0 p1 p2 p3) -> In y (around p0 p1 p2 p3) ->
     In z (around p0 p1 p2 p3) ->
     dot (cross (psub b a) (psub d b)) (cross (psub y x) (psub z y)) = orient N a b d * orient N x y z).
  { intros a b d x y z Ha Hb Hd Hx Hy Hz.
    rewrite (cross_parallel N (psub b a) (psub d b)), (cross_parallel N (psub y x) (psub z y)) by (auto using HP).
    replace (det3 (psub b a) (psub d b) N) with (orient N a b d) by (unfold orient; coords; ring).
    replace (det3 (psub y x) (psub z y) N) with (orient N x y z) by (unfold orient; coords; ring).
    generalize (orient N a b d) (orient N x y z). intros r1 r2.
    replace (dot (pscale r1 N) (pscale r2 N)) with (r1 * r2 * dot N N) by (clear; coords; ring).
    unfold unit3 in HN. rewrite HN. ring. }
  assert (I0 : In p0 (around p0 p1 p2 p3)) by (cbn; auto). assert (I1 : In p1 (around p0 p1 p2 p3)) by (cbn; auto).
  assert (I2 : In p2 (around p0 p1 p2 p3)) by (cbn; auto). assert (I3 : In p3 (around p0 p1 p2 p3)) by (cbn; auto).
  rewrite (HQ p2 p0 p1 p0 p1 p3), (HQ p2 p0 p1 p1 p3 p2), (HQ p2 p0 p1 p3 p2 p0) by assumption.
  rewrite <- (orient_rot N p2 p0 p1). set (w := orient N p0 p1 p2) in *. rn.
  split.
  - intros Hif. assert (Hm : forall x, Rltb (w * x) 0 = false -> 0 <= x).
    { intros x Hx. apply Rltb_false in Hx. nra. }
    repeat split; auto; apply Hm;
    destruct (Rltb (w * orient N p0 p1 p3) 0); try discriminate;
    destruct (Rltb (w * orient N p1 p3 p2) 0); try discriminate;
    destruct (Rltb (w * orient N p3 p2 p0) 0); try discriminate; reflexivity.
  - intros (_ & _ & _ & A & B & C).
    assert (Hm : forall x, 0 <= x -> Rltb (w * x) 0 = false) by (intros; apply Rltb_false; nra).
    rewrite !Hm by assumption. reflexivity.
Qed.
(** the normal is the only choice *)
Lemma convex_normal_unique N p0 p1 p2 p3 : convex_ccw N (around p0 p1 p2 p3) ->
  noncollinear p0 p1 p2 /\ N = tri_normal p0 p1 p2 /\ dot N (psub p3 p0) = 0.
Proof.
  intros HC. apply quad_convex_ccw in HC as (HU & HP & HF & _).
  destruct (planar_quad N p0 p1 p2 p3 HP) as (H1 & H2 & H3).
  assert (E : cross (psub p1 p0) (psub p2 p0) = pscale (orient N p0 p1 p2) N) by (apply cross_parallel; assumption).
  split.
  - intros Z. rewrite Z in E. rewrite orient_dot, Z in HF. revert HF. clear. coords. lra.
  - split; [|exact H3]. unfold tri_normal. rewrite E. symmetry. apply to_dir_pos; assumption.
Qed.

Lemma quad_area_eq (p0 p1 p2 p3 : pt) : q_area (make_quad p0 p1 p2 p3) = area3 p0 p1 p3 + area3 p0 p3 p2.
Proof. unfold make_quad. cbn [q_area]. rewrite !make_tri_area. reflexivity. Qed.
(** the two triangles have the same orientation *)
Lemma quad_area_shoelace N p0 p1 p2 p3 : unit3 N -> planar N (around p0 p1 p2 p3) ->
  0 <= orient N p0 p1 p3 * orient N p0 p3 p2 ->
  q_area (make_quad p0 p1 p2 p3) = Rabs (shoelace N (around p0 p1 p2 p3)).
Proof.
  intros HU HP Ho. destruct (planar_quad N p0 p1 p2 p3 HP) as (H1 & H2 & H3). rewrite quad_area_eq.
  pose proof (area3_planar N p0 p1 p3 HU H1 H3) as E1. pose proof (area3_planar N p0 p3 p2 HU H3 H2) as E2.
  pose proof (quad_shoelace N p0 p1 p2 p3) as ES. revert E1 E2 ES Ho.
  generalize (orient N p0 p1 p3) (orient N p0 p3 p2) (shoelace N (around p0 p1 p2 p3)). intros x y s E1 E2 ES Ho.
  unfold Rabs in *. destruct (Rcase_abs x), (Rcase_abs y), (Rcase_abs s); nra.
Qed.

Lemma quad_test N p0 p1 p2 p3 : convex_ccw N (around p0 p1 p2 p3) ->
  forall p eps chk, quad_contains (make_quad p0 p1 p2 p3) p eps chk = true <->
    (chk = true -> Rabs (dot N (psub p p0)) < eps) /\
    Rabs (shoelace N (around p0 p1 p2 p3) - areas (around p0 p1 p2 p3) p) < eps * eps.
Proof.
  intros HC p eps chk. unfold quad_contains.
  pose proof (proj1 (quad_convex_ccw N p0 p1 p2 p3) HC) as (HU & HP & HF & A & B & C).
  destruct (planar_quad N p0 p1 p2 p3 HP) as (H1 & H2 & H3).
  change (q_0 (make_quad p0 p1 p2 p3)) with p0. change (q_1 (make_quad p0 p1 p2 p3)) with p1.
  change (q_2 (make_quad p0 p1 p2 p3)) with p2. change (q_3 (make_quad p0 p1 p2 p3)) with p3.
  rewrite quad_other. rewrite (quad_area_shoelace N p0 p1 p2 p3 HU HP).
  2:{ rewrite (orient_rot N p0 p3 p2) in C. nra. }
  rewrite (Rabs_pos_eq (shoelace N _)) by (pose proof (shoelace_pos N _ HC); lra).
  assert (HPl : plane_contains (q_plane (make_quad p0 p1 p2 p3)) p eps = true <-> Rabs (dot N (psub p p0)) < eps).
  { rewrite plane_contains_iff. unfold make_quad. cbn [q_plane].
    rewrite (plane_3p_normal N p0 p1 p2 HU H1 H2 HF). reflexivity. }
  destruct (plane_contains (q_plane (make_quad p0 p1 p2 p3)) p eps); destruct chk; cbn [andb negb]; rn;
    rewrite ?Rltb_true.
  1,2,4: intuition discriminate.
  split; [discriminate|]. intros [Hx _]. specialize (Hx eq_refl). apply HPl in Hx. discriminate.
Qed.
Lemma quad_center_hull N p0 p1 p2 p3 : convex_ccw N (around p0 p1 p2 p3) ->
  hull (around p0 p1 p2 p3) (q_c (make_quad p0 p1 p2 p3)).
Proof.
  intros HC. set (cs := around p0 p1 p2 p3). set (t1 := make_tri p0 p1 p3). set (t2 := make_tri p0 p3 p2).
  assert (HM : mean_ok cs (fold_left acc [t1; t2] (origin, 0))).
  { apply accs_ok; [|apply mean_start].
    intros t [<-|[<-|[]]]; (split; [apply tri_center_hull; cbn; auto|unfold t1, t2; rewrite make_tri_area; apply area3_nonneg]). }
  rewrite accs_split in HM. destruct HM as (_ & _ & HM). cbn [fst snd fold_left] in HM.
  unfold make_quad. cbn [q_c]. rewrite vdiv_pscale. rn. fold t1 t2. rewrite Rplus_0_l in HM. apply HM.
  pose proof (quad_area_eq p0 p1 p2 p3) as EA. unfold make_quad in EA. cbn [q_area] in EA. rn. fold t1 t2 in EA.
  rewrite EA. rewrite <- quad_area_eq.
  pose proof (proj1 (quad_convex_ccw N p0 p1 p2 p3) HC) as (HU & HP & HF & A & B & C).
  rewrite (quad_area_shoelace N p0 p1 p2 p3 HU HP).
  - pose proof (shoelace_pos N _ HC). rewrite Rabs_pos_eq; lra.
  - rewrite (orient_rot N p0 p3 p2) in C. nra.
Qed.
