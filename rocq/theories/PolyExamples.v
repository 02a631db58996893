(** Concrete triangles, polygons and quadrilaterals. *)

From Coq Require Import Reals Lra Lia Psatz List Bool ZArith.
From Coq Require PrimFloat.
From Verif Require Import Base NumModel VecModel LinModel PolyModel GeoSpec LinSpec PolySpec
  GeoLemmas LinProofs PolyProofs PolyBridge QuadProofs.
Import ListNotations.
Local Open Scope R_scope.

Definition ez : pt := mkV3 0 0 1.
Definition fl (x y : R) : pt := mkV3 x y 0.
Lemma ez_unit : unit3 ez. Proof. unfold ez. coords. ring. Qed.
Lemma orient_fl x1 y1 x2 y2 x3 y3 :
  orient ez (fl x1 y1) (fl x2 y2) (fl x3 y3) = (x2 - x1) * (y3 - y1) - (x3 - x1) * (y2 - y1).
Proof. unfold orient, ez, fl. coords. ring. Qed.
Lemma orient_fl_N N x1 y1 x2 y2 x3 y3 :
  orient N (fl x1 y1) (fl x2 y2) (fl x3 y3) = vz N * ((x2 - x1) * (y3 - y1) - (x3 - x1) * (y2 - y1)).
Proof. unfold orient, fl. coords. ring. Qed.
Lemma dot_fl x1 y1 x2 y2 : dot ez (psub (fl x1 y1) (fl x2 y2)) = 0.
Proof. unfold ez, fl. coords. ring. Qed.
Lemma area3_fl x1 y1 x2 y2 x3 y3 :
  2 * area3 (fl x1 y1) (fl x2 y2) (fl x3 y3) = Rabs ((x2 - x1) * (y3 - y1) - (x3 - x1) * (y2 - y1)).
Proof. rewrite (area3_planar ez) by (apply ez_unit || apply dot_fl). rewrite orient_fl. reflexivity. Qed.
Lemma planar_fl l : planar ez (map (fun q => fl (fst q) (snd q)) l).
Proof.
  intros a b Ha Hb. apply in_map_iff in Ha as ([x1 y1] & <- & _). apply in_map_iff in Hb as ([x2 y2] & <- & _).
  apply dot_fl.
Qed.
Lemma dist_vy p q : Rabs (vy p - vy q) <= dist p q.
Proof.
  unfold dist, norm. rewrite <- sqrt_Rsqr_abs. apply sqrt_le_1_alt. unfold Rsqr, dot, psub. cbn [vx vy vz].
  pose proof (Rle_0_sqr (vx p - vx q)) as A. pose proof (Rle_0_sqr (vz p - vz q)) as B. unfold Rsqr in A, B. lra.
Qed.
Lemma hull_vy cs m p : (forall c, In c cs -> m <= vy c) -> hull cs p -> m <= vy p.
Proof.
  intros Hc Hp. induction Hp as [x Hx|x y z _ IHx _ IHy (t & Ht & ->)]; [apply Hc, Hx|].
  unfold padd, pscale. cbn [vy]. nra.
Qed.

Ltac flat_triples :=
  intros i j k Hij Hk; cbn [length] in Hk;
  destruct i as [|[|[|i]]]; destruct j as [|[|[|[|j]]]]; destruct k as [|[|[|[|[|k]]]]]; try lia;
  cbn [nth]; rewrite orient_fl; lra.
Ltac flat_convex :=
  split; [apply ez_unit|split; [| split; [cbn; lia|split; [flat_triples|cbn [nth]; rewrite orient_fl; lra]]]].

(** *** Triangles *)
Definition unit_tri : list pt := [fl 0 0; fl 1 0; fl 0 1].
Lemma unit_tri_nc : noncollinear (fl 0 0) (fl 1 0) (fl 0 1).
Proof. unfold noncollinear, fl. coords. unfold zero3. intros E. injection E. lra. Qed.
Lemma unit_tri_normal : tri_normal (fl 0 0) (fl 1 0) (fl 0 1) = ez.
Proof.
  unfold tri_normal. replace (cross _ _) with ez; [apply to_dir_of_unit, ez_unit|].
  unfold ez, fl. coords. v3; ring.
Qed.
Lemma unit_tri_convex : convex_ccw ez unit_tri.
Proof. rewrite <- unit_tri_normal. apply tri_convex_ccw, unit_tri_nc. Qed.

Lemma tri_int_abs f : (forall x, Rabs x < 1 -> f x = 0) ->
  let t := make_tri (fl 0 0) (fl 1 0) (fl 0 1) in
  let p := fl (1 / 2) (- (1 / 2)) in
  (forall eps, 0 < eps -> tri_contains f t p eps true = true) /\
  (forall q, hull unit_tri q -> 1 / 2 <= dist p q).
Proof.
  intros Hf t p. split.
  - intros eps He. unfold tri_contains. cbn [andb].
    assert (HP : plane_contains (tri_plane t) p eps = true).
    { apply plane_contains_iff. unfold tri_plane, plane_pn. cbn [pl_n pl_sup].
      change (t_n t) with (tri_normal (fl 0 0) (fl 1 0) (fl 0 1)). rewrite unit_tri_normal.
      change (t_p1 t) with (fl 0 0). unfold p. rewrite dot_fl, Rabs_R0. exact He. }
    rewrite HP. cbn [negb]. change (t_p1 t) with (fl 0 0). change (t_p2 t) with (fl 1 0). change (t_p3 t) with (fl 0 1).
    unfold t, p. rewrite !make_tri_area.
    pose proof (area3_fl 0 0 1 0 0 1) as E1. pose proof (area3_fl 0 0 1 0 (1 / 2) (- (1 / 2))) as E2.
    pose proof (area3_fl 1 0 0 1 (1 / 2) (- (1 / 2))) as E3. pose proof (area3_fl 0 1 0 0 (1 / 2) (- (1 / 2))) as E4.
    rn. unfold Rabs in E1, E2, E3, E4.
    repeat match type of E1 with context [Rcase_abs ?x] => destruct (Rcase_abs x); try lra end.
    repeat match type of E2 with context [Rcase_abs ?x] => destruct (Rcase_abs x); try lra end.
    repeat match type of E3 with context [Rcase_abs ?x] => destruct (Rcase_abs x); try lra end.
    repeat match type of E4 with context [Rcase_abs ?x] => destruct (Rcase_abs x); try lra end.
    rewrite Hf; [apply Rltb_true; nra|]. apply Rabs_def1; lra.
  - intros q Hq. eapply Rle_trans; [|apply dist_vy].
    assert (0 <= vy q).
    { apply (hull_vy unit_tri 0 q); [|exact Hq]. intros c [<-|[<-|[<-|[]]]]; unfold fl; cbn [vy]; lra. }
    unfold p, fl. cbn [vy]. rewrite Rabs_left1 by lra. lra.
Qed.

(** the same triangle and point in both arithmetics *)
Section Both.
Context {A : Type} `{Num A}.
Definition big_a : V3 A := mkV3 n0 n0 n0.
Definition big_b : V3 A := mkV3 (nlit 100 1) n0 n0.
Definition big_c : V3 A := mkV3 n0 (nlit 100 1) (nlit 100 1).
Definition big_p : V3 A := mkV3 (nlit 11 1) (nlit 7 1) (nlit 7 1).
Definition big_tri : tri A := make_tri big_a big_b big_c.
(** ... and a rhombus *)
Definition rh_0 : V3 A := mkV3 n0 n0 n0.
Definition rh_1 : V3 A := mkV3 (nlit 50 1) (nlit 1 16) (nlit 1 16).
Definition rh_2 : V3 A := mkV3 (nlit (-50) 1) (nlit 1 16) (nlit 1 16).
Definition rh_3 : V3 A := mkV3 n0 (nlit 1 8) (nlit 1 8).
Definition rh_p : V3 A := mkV3 (nlit 3 1) (nlit 1 16) (nlit 1 16).
End Both.

Lemma tri_double :
  tri_contains PrimFloat.abs (big_tri (A := PrimFloat.float)) big_p confusion false = false /\
  hull [big_a; big_b; big_c] (big_p : pt).
Proof.
  split; [vm_compute; reflexivity|].
  apply (hull_comb3 [big_a; big_b; big_c] big_a big_b big_c _ (82 / 100) (11 / 100) (7 / 100)); cbn; auto; try lra.
  unfold big_a, big_b, big_c, big_p, padd, pscale. rn. v3; lra.
Qed.
Lemma quad_double :
  quad_contains_default (make_quad (A := PrimFloat.float) rh_0 rh_1 rh_2 rh_3) rh_p false = false /\
  hull (around rh_0 rh_1 rh_2 rh_3) rh_p.
Proof.
  split; [vm_compute; reflexivity|].
  apply (hull_comb3 (around rh_0 rh_1 rh_2 rh_3) rh_1 rh_2 rh_2 _ (53 / 100) (47 / 100) 0); cbn; auto; try lra.
  unfold rh_1, rh_2, rh_p, padd, pscale. rn. v3; lra.
Qed.
Lemma poly_double :
  (exists pg, make_poly (A := PrimFloat.float) [rh_0; rh_1; rh_3; rh_2] = Ok pg /\
     poly_contains_default pg rh_p false = Ok false) /\
  hull [rh_0; rh_1; rh_3; rh_2] (rh_p : pt).
Proof.
  split; [eexists; split; [vm_compute; reflexivity|vm_compute; reflexivity]|].
  apply (hull_comb3 [rh_0; rh_1; rh_3; rh_2] rh_1 rh_2 rh_2 _ (53 / 100) (47 / 100) 0); cbn; auto 10; try lra.
  unfold rh_1, rh_2, rh_p, padd, pscale. rn. v3; lra.
Qed.

(** *** The tolerance *)
Definition square : list pt := [fl 0 0; fl 1 0; fl 1 1; fl 0 1].
Lemma square_planar : planar ez square.
Proof. apply (planar_fl [(0, 0); (1, 0); (1, 1); (0, 1)]). Qed.
Lemma square_convex : convex_ccw ez square.
Proof. unfold square. flat_convex. apply square_planar. Qed.
Lemma square_proper : proper_edges square.
Proof.
  intros ab Hab. unfold square in Hab. rewrite edges4 in Hab.
  cbn in Hab. destruct Hab as [<-|[<-|[<-|[<-|[]]]]]; cbn [fst snd]; unfold fl; intros E; injection E; lra.
Qed.
Lemma square_overhang x y : overhang ez square (fl x y) =
  Rmax 0 (- y) + (Rmax 0 (x - 1) + (Rmax 0 (y - 1) + Rmax 0 (- x))).
Proof.
  unfold overhang, square. rewrite edges4. cbn [map sum fold_right]. unfold beyond. cbn [fst snd].
  rewrite !orient_fl. rewrite Rplus_0_r. repeat f_equal; lra.
Qed.
Lemma square_below x y : 0 <= x <= 1 -> y <= 0 -> overhang ez square (fl x y) = - y.
Proof.
  intros Hx Hy. rewrite square_overhang. unfold Rmax.
  destruct (Rle_dec 0 (- y)), (Rle_dec 0 (x - 1)), (Rle_dec 0 (y - 1)), (Rle_dec 0 (- x)); lra.
Qed.
Lemma tolerance_too_small pg eps : make_poly square = Ok pg -> 0 < eps <= 1 / 2 ->
  exists p q, hull square q /\ dist p q < eps /\ poly_contains pg p eps true = Ok false.
Proof.
  intros E He. exists (fl (1 / 2) (- (eps / 2))), (fl (1 / 2) 0). split.
  - apply (hull_iff ez square square_convex). split; [apply dot_fl|]. rewrite square_below by lra. lra.
  - split.
    + unfold dist, norm. replace (dot _ _) with ((eps / 2) * (eps / 2)) by (unfold fl; coords; field).
      rewrite sqrt_square by lra. lra.
    + destruct (poly_test ez square square_convex square_proper pg E) as [H1 H2]. rewrite H1. f_equal.
      destruct (poly_contains_convex pg (fl (1 / 2) (- (eps / 2))) eps true) eqn:EC; [|reflexivity]. exfalso.
      apply (t_near ez square _ _ square_convex H2) in EC as [_ EO]. rewrite square_below in EO by lra. nra.
Qed.
Lemma tolerance_too_large pg : make_poly square = Ok pg ->
  poly_contains pg (fl (1 / 2) (-50)) 10 true = Ok true /\
  forall q, hull square q -> 50 <= dist (fl (1 / 2) (-50)) q.
Proof.
  intros E. split.
  - destruct (poly_test ez square square_convex square_proper pg E) as [H1 H2]. rewrite H1. f_equal.
    apply (t_planar ez square (nth 0 square zero3) (poly_contains_convex pg) square_convex); try exact H2.
    + left. reflexivity.
    + lra.
    + apply dot_fl.
    + rewrite square_below by lra. lra.
  - intros q Hq. eapply Rle_trans; [|apply dist_vy].
    assert (0 <= vy q).
    { apply (hull_vy square 0 q); [|exact Hq]. intros c [<-|[<-|[<-|[<-|[]]]]]; unfold fl; cbn [vy]; lra. }
    unfold fl. cbn [vy]. rewrite Rabs_left1 by lra. lra.
Qed.

(** *** Convexity of polygons *)
Lemma corners_edge_dir (cs : list pt) i :
  seg_dir (corners_edge cs i) = to_dir (psub (nth (Nat.modulo (S i) (length cs)) cs zero3) (nth i cs zero3)).
Proof. reflexivity. Qed.
Lemma flat_turn x1 y1 x2 y2 x3 y3 : (x1, y1) <> (x2, y2) -> (x2, y2) <> (x3, y3) ->
  exists k, 0 < k /\ cross (to_dir (psub (fl x2 y2) (fl x1 y1))) (to_dir (psub (fl x3 y3) (fl x2 y2)))
    = pscale (k * ((x2 - x1) * (y3 - y1) - (x3 - x1) * (y2 - y1))) ez.
Proof.
  intros H1 H2. destruct (turn_sign ez (fl x1 y1) (fl x2 y2) (fl x3 y3) ez_unit) as (k & Hk & E).
  - apply dot_fl.
  - apply dot_fl.
  - intros Ex. apply H1. injection Ex as -> ->. reflexivity.
  - intros Ex. apply H2. injection Ex as -> ->. reflexivity.
  - exists k. split; [exact Hk|]. rewrite E, orient_fl. reflexivity.
Qed.
Lemma flat_product a b : sprod (pscale a ez) (pscale b ez) = a * b.
Proof. unfold ez. coords. ring. Qed.
Ltac flat_turn_at E x1 y1 x2 y2 x3 y3 :=
  let k := fresh "k" in let Hk := fresh "Hk" in
  destruct (flat_turn x1 y1 x2 y2 x3 y3) as (k & Hk & E);
  [intros Hp; injection Hp; lra|intros Hp; injection Hp; lra|].

(** reflex at corner 1 *)
Definition dart : list pt := [fl 4 0; fl 1 1; fl 0 4; fl 0 0].
Lemma dart_flag : corners_convex dart = true.
Proof.
  unfold corners_convex. cbn zeta. cbn [length Nat.sub dart seq forallb]. rewrite !corners_edge_dir.
  cbn [length dart Nat.modulo Nat.divmod fst snd Nat.sub nth].
  flat_turn_at E0 0 0 4 0 1 1. flat_turn_at E2 1 1 0 4 0 0. flat_turn_at E3 0 4 0 0 4 0.
  rewrite E0, E2, E3, !flat_product. rn.
  assert (Hs : forall x, 0 <= x -> Rltb x 0 = false) by (intros; apply Rltb_false; assumption).
  rewrite !Hs by nra. reflexivity.
Qed.
Lemma dart_not_convex N : ~ convex_ccw N dart.
Proof.
  intros (_ & _ & _ & HO & HF). unfold dart in *. cbn [nth] in HF. rewrite orient_fl_N in HF.
  pose proof (HO 0%nat 2%nat 3%nat ltac:(lia) ltac:(cbn; lia)) as A. cbn [nth] in A. rewrite orient_fl_N in A. lra.
Qed.
Lemma dart_area : exists pg, make_poly dart = Ok pg /\ poly_get_area pg = Ok 12 /\ shoelace ez dart = 4.
Proof.
  destruct (make_poly_eq dart ltac:(cbn; lia)) as (pg & E & _ & H2 & _ & H4). exists pg. split; [exact E|]. split.
  - unfold poly_get_area. rewrite H2, dart_flag, H4. f_equal. unfold dart. cbn [nth tl chain map fst snd].
    rewrite !sum_cons. change (sum []) with 0.
    pose proof (area3_fl 4 0 1 1 0 4) as A1. pose proof (area3_fl 4 0 0 4 0 0) as A2. unfold Rabs in A1, A2.
    destruct (Rcase_abs ((1 - 4) * (4 - 0) - (0 - 4) * (1 - 0))); destruct (Rcase_abs ((0 - 4) * (0 - 0) - (0 - 4) * (4 - 0))); lra.
  - unfold shoelace, dart. rewrite edges4. cbn [map fst snd sum fold_right]. unfold ez, fl. coords. lra.
Qed.

(** a star *)
Definition star : list pt := [fl 0 3; fl (-2) (-2); fl 3 1; fl (-3) 1; fl 2 (-2)].
Lemma star_flag : corners_convex star = true.
Proof.
  unfold corners_convex. cbn zeta. cbn [length Nat.sub star seq forallb]. rewrite !corners_edge_dir.
  cbn [length star Nat.modulo Nat.divmod fst snd Nat.sub nth].
  flat_turn_at E0 2 (-2) 0 3 (-2) (-2). flat_turn_at E2 (-2) (-2) 3 1 (-3) 1.
  flat_turn_at E3 3 1 (-3) 1 2 (-2). flat_turn_at E4 (-3) 1 2 (-2) 0 3.
  rewrite E0, E2, E3, E4, !flat_product. rn.
  assert (Hs : forall x y a b, 0 < x -> 0 < y -> 0 <= a -> 0 <= b -> Rltb (x * a * (y * b)) 0 = false).
  { intros. apply Rltb_false. assert (0 <= x * a) by nra. assert (0 <= y * b) by nra. nra. }
  rewrite !Hs by (assumption || lra). reflexivity.
Qed.
Lemma star_not_convex N : ~ convex_ccw N star.
Proof.
  intros (_ & _ & _ & HO & HF). unfold star in *. cbn [nth] in HF. rewrite orient_fl_N in HF.
  pose proof (HO 0%nat 1%nat 3%nat ltac:(lia) ltac:(cbn; lia)) as A. cbn [nth] in A. rewrite orient_fl_N in A. lra.
Qed.

(** the first corner on the line through its neighbours *)
Definition notched : list pt := [fl 1 0; fl 4 0; fl 1 1; fl 0 4; fl 0 0].
Lemma notched_flag : corners_convex notched = true.
Proof.
  unfold corners_convex. cbn zeta. cbn [length Nat.sub notched seq forallb]. rewrite !corners_edge_dir.
  cbn [length notched Nat.modulo Nat.divmod fst snd Nat.sub nth].
  flat_turn_at E0 0 0 1 0 4 0. flat_turn_at E2 4 0 1 1 0 4. flat_turn_at E3 1 1 0 4 0 0.
  flat_turn_at E4 0 4 0 0 1 0.
  rewrite E0, E2, E3, E4, !flat_product. rn.
  assert (Hs : forall x y a, Rltb (x * a * (y * ((1 - 0) * (0 - 0) - (4 - 0) * (0 - 0)))) 0 = false).
  { intros. apply Rltb_false. apply Req_le. ring. }
  rewrite !Hs. reflexivity.
Qed.
Lemma notched_not_convex N : ~ convex_ccw N notched.
Proof.
  intros (_ & _ & _ & HO & HF). unfold notched in *. cbn [nth] in HF. rewrite orient_fl_N in HF.
  pose proof (HO 1%nat 2%nat 3%nat ltac:(lia) ltac:(cbn; lia)) as A. cbn [nth] in A. rewrite orient_fl_N in A. lra.
Qed.

(** *** Quadrilaterals *)
(** reflex at corner 1: the area is wrong *)
Definition dq : quad R := make_quad (fl 4 0) (fl 1 1) (fl 0 0) (fl 0 4).
Lemma dq_area : q_area dq = 12 /\ q_convex dq = false /\ shoelace ez (around (fl 4 0) (fl 1 1) (fl 0 0) (fl 0 4)) = 4.
Proof.
  split; [|split].
  - unfold dq. rewrite quad_area_eq.
    pose proof (area3_fl 4 0 1 1 0 4) as A1. pose proof (area3_fl 4 0 0 4 0 0) as A2. unfold Rabs in A1, A2.
    destruct (Rcase_abs ((1 - 4) * (4 - 0) - (0 - 4) * (1 - 0))); destruct (Rcase_abs ((0 - 4) * (0 - 0) - (0 - 4) * (4 - 0))); lra.
  - unfold dq, make_quad. cbn [q_convex]. unfold quad_is_convex, fl. coords.
    match goal with |- (if Rltb ?x 0 then _ else _) = _ => replace (Rltb x 0) with true; [reflexivity|] end.
    symmetry. apply Rltb_true. lra.
  - pose proof (quad_shoelace ez (fl 4 0) (fl 1 1) (fl 0 0) (fl 0 4)) as E. rewrite !orient_fl in E. lra.
Qed.

(** reflex at corner 0: points of the quadrilateral are not contained *)
Definition cq : quad R := make_quad (fl 1 1) (fl 0 4) (fl 4 0) (fl 0 0).
Lemma cq_contains : q_area cq = 4 /\
  hull [fl 1 1; fl 0 0; fl 4 0] (fl 2 (1 / 2)) /\
  forall eps chk, 0 < eps <= 1 -> quad_contains cq (fl 2 (1 / 2)) eps chk = false.
Proof.
  assert (EA : q_area cq = 4).
  { unfold cq. rewrite quad_area_eq. pose proof (area3_fl 1 1 0 4 0 0) as A1. pose proof (area3_fl 1 1 0 0 4 0) as A2.
    unfold Rabs in A1, A2.
    destruct (Rcase_abs ((0 - 1) * (0 - 1) - (0 - 1) * (4 - 1))); destruct (Rcase_abs ((0 - 1) * (0 - 1) - (4 - 1) * (0 - 1))); lra. }
  split; [exact EA|]. split.
  - apply (hull_comb3 [fl 1 1; fl 0 0; fl 4 0] (fl 1 1) (fl 0 0) (fl 4 0) _ (1 / 2) (1 / 8) (3 / 8)); cbn; auto; try lra.
    unfold fl, padd, pscale. v3; lra.
  - intros eps chk He. unfold quad_contains. destruct (chk && _); [reflexivity|]. rewrite EA. unfold cq.
    cbn [make_quad q_0 q_1 q_2 q_3]. rewrite !make_tri_area.
    pose proof (area3_fl 1 1 0 4 2 (1 / 2)) as A1. pose proof (area3_fl 0 4 0 0 2 (1 / 2)) as A2.
    pose proof (area3_fl 0 0 4 0 2 (1 / 2)) as A3. pose proof (area3_fl 4 0 1 1 2 (1 / 2)) as A4.
    rewrite Rabs_left in A1 by lra. rewrite Rabs_pos_eq in A2 by lra. rewrite Rabs_pos_eq in A3 by lra.
    rewrite Rabs_pos_eq in A4 by lra. rn. apply Rltb_false. rewrite Rabs_left by lra. nra.
Qed.

(** a tilted square *)
Lemma tilted_case : let N := mkV3 0 (- (3 / 5)) (4 / 5) in
  let p0 := zero3 in let p1 := mkV3 5 0 0 in let p2 := mkV3 0 4 3 in let p3 := mkV3 5 4 3 in
  convex_ccw N (around p0 p1 p2 p3) /\ q_convex (make_quad p0 p1 p2 p3) = true /\
  q_area (make_quad p0 p1 p2 p3) = 25.
Proof.
  intros N p0 p1 p2 p3.
  assert (HP : planar N (around p0 p1 p2 p3)).
  { apply quad_planar; unfold N, p0, p1, p2, p3; coords; lra. }
  assert (HU : unit3 N) by (unfold N; coords; lra).
  assert (O1 : orient N p0 p1 p2 = 25) by (unfold orient, N, p0, p1, p2; coords; lra).
  assert (O2 : orient N p0 p1 p3 = 25) by (unfold orient, N, p0, p1, p3; coords; lra).
  assert (O3 : orient N p1 p3 p2 = 25) by (unfold orient, N, p1, p2, p3; coords; lra).
  assert (O4 : orient N p3 p2 p0 = 25) by (unfold orient, N, p0, p2, p3; coords; lra).
  assert (HC : convex_ccw N (around p0 p1 p2 p3)).
  { apply quad_convex_ccw. split; [exact HU|]. split; [exact HP|]. repeat split; lra. }
  destruct (convex_normal_unique N p0 p1 p2 p3 HC) as (Hn & E & Hp).
  split; [exact HC|]. split.
  - apply convex_flag_iff; [exact Hn|rewrite <- E; exact Hp|rewrite <- E; exact HC].
  - rewrite (quad_area_shoelace N p0 p1 p2 p3 HU HP).
    + pose proof (quad_shoelace N p0 p1 p2 p3) as ES. rewrite O2 in ES.
      rewrite <- (orient_rot N p0 p3 p2), O4 in ES. rewrite Rabs_pos_eq; lra.
    + rewrite O2, <- (orient_rot N p0 p3 p2), O4. lra.
Qed.

(** a pentagon *)
Definition penta : list pt := [fl 0 0; fl 2 0; fl 3 2; fl 1 3; fl (-1) 2].
Lemma penta_convex : convex_ccw ez penta.
Proof. unfold penta. flat_convex. apply (planar_fl [(0, 0); (2, 0); (3, 2); (1, 3); (-1, 2)]). Qed.
Lemma penta_proper : proper_edges penta.
Proof.
  intros ab Hab. unfold penta in Hab. cbn in Hab.
  destruct Hab as [<-|[<-|[<-|[<-|[<-|[]]]]]]; cbn [fst snd]; unfold fl; intros E; injection E; lra.
Qed.
Lemma penta_area : shoelace ez penta = 8.
Proof. unfold shoelace, penta. cbn [edges app firstn chain map fst snd sum fold_right]. unfold ez, fl. coords. lra. Qed.

(** *** The faces of a box *)
Lemma rect_area (p0 p1 p2 p3 : pt) a b : 0 <= a -> 0 <= b ->
  dot (cross (psub p1 p0) (psub p3 p0)) (cross (psub p1 p0) (psub p3 p0)) = (a * b) * (a * b) ->
  dot (cross (psub p3 p0) (psub p2 p0)) (cross (psub p3 p0) (psub p2 p0)) = (a * b) * (a * b) ->
  q_area (make_quad p0 p1 p2 p3) = a * b.
Proof.
  intros Ha Hb E1 E2. rewrite quad_area_eq. unfold area3, norm. rewrite E1, E2, sqrt_square by nra. lra.
Qed.
Lemma rect_convex (p0 p1 p2 p3 : pt) :
  p3 = padd p0 (padd (psub p1 p0) (psub p2 p0)) -> q_convex (make_quad p0 p1 p2 p3) = true.
Proof.
  intros ->. unfold make_quad. cbn [q_convex]. unfold quad_is_convex. cbn zeta.
  set (u := psub p1 p0). set (v := psub p2 p0).
  assert (F : forall x, x = dot (cross u v) (cross u v) -> @nsign R R_num x = false).
  { intros x ->. rn. apply Rltb_false, dot_nonneg. }
  rewrite F; [|unfold u, v; clear; coords; ring]. rewrite F; [|unfold u, v; clear; coords; ring].
  rewrite F; [|unfold u, v; clear; coords; ring]. reflexivity.
Qed.
Lemma box_faces (b : box R) : box_ok b ->
  let dx := vx (b_max b) - vx (b_min b) in
  let dy := vy (b_max b) - vy (b_min b) in
  let dz := vz (b_max b) - vz (b_min b) in
  (forall i q, box_face_quad b i = Ok q -> q_convex q = true) /\
  map (fun i => omapo q_area (box_face_quad b i)) [0; 1; 2; 3; 4; 5]%nat =
    map Ok [dx * dy; dx * dz; dy * dz; dy * dz; dx * dz; dx * dy].
Proof.
  intros (Hx & Hy & Hz) dx dy dz. split.
  - intros i q. unfold box_face_quad. do 6 (destruct i as [|i]; [cbn [box_face face_corners obind box_corner fst snd];
      intros E; injection E as <-; apply rect_convex; coords; v3; ring|]). discriminate.
  - cbn [map omapo box_face_quad box_face face_corners obind box_corner fst snd].
    assert (0 <= dx) by (unfold dx; lra). assert (0 <= dy) by (unfold dy; lra). assert (0 <= dz) by (unfold dz; lra).
    rewrite (rect_area _ _ _ _ dx dy), (rect_area _ _ _ _ dx dz), (rect_area _ _ _ _ dy dz),
      (rect_area _ _ _ _ dy dz), (rect_area _ _ _ _ dx dz), (rect_area _ _ _ _ dx dy); try assumption;
      try (unfold dx, dy, dz; coords; ring).
    reflexivity.
Qed.

(** *** Packaged statements *)
Section TriPack.
Variables a b d : pt.
Hypothesis Hc : noncollinear a b d.
Let T := tri_contains Rabs (make_tri a b d).
Let HT : forall p eps chk, T p eps chk = true <->
  (chk = true -> Rabs (dot (tri_normal a b d) (psub p a)) < eps) /\
  Rabs (shoelace (tri_normal a b d) [a; b; d] - areas [a; b; d] p) < eps * eps.
Proof. intros. apply tri_contains_iff, Hc. Qed.
Lemma tri_hull p eps chk : 0 < eps -> hull [a; b; d] p -> tri_contains Rabs (make_tri a b d) p eps chk = true.
Proof. apply (t_hull _ _ a T (tri_convex_ccw a b d Hc) (or_introl eq_refl) HT). Qed.
Lemma tri_exact p : (forall eps, 0 < eps -> tri_contains Rabs (make_tri a b d) p eps true = true) <-> hull [a; b; d] p.
Proof. apply (t_exact _ _ a T (tri_convex_ccw a b d Hc) (or_introl eq_refl) HT). Qed.
Lemma tri_planar_iff p eps chk : 0 < eps -> on_plane a (tri_normal a b d) p ->
  (tri_contains Rabs (make_tri a b d) p eps chk = true <-> overhang (tri_normal a b d) [a; b; d] p < eps * eps).
Proof. apply (t_planar _ _ a T (tri_convex_ccw a b d Hc) (or_introl eq_refl) HT). Qed.
Lemma tri_near p eps : tri_contains Rabs (make_tri a b d) p eps true = true ->
  Rabs (dot (tri_normal a b d) (psub p a)) < eps /\ overhang (tri_normal a b d) [a; b; d] p < eps * eps.
Proof. apply (t_near _ _ a T (tri_convex_ccw a b d Hc) HT). Qed.
End TriPack.

Lemma tri_construction (a b d : pt) :
  let t := make_tri a b d in
  tri_corner t 0 = Ok a /\ tri_corner t 1 = Ok b /\ tri_corner t 2 = Ok d /\
  tri_edge t 0 = Ok (mkSeg a b) /\ tri_edge t 1 = Ok (mkSeg b d) /\ tri_edge t 2 = Ok (mkSeg d a) /\
  t_c t = pscale (1 / 3) (padd a (padd b d)) /\ hull [a; b; d] (t_c t) /\
  (noncollinear a b d ->
     t_n t = tri_normal a b d /\ unit3 (t_n t) /\ ortho (t_n t) (psub b a) /\ ortho (t_n t) (psub d a) /\
     0 < orient (t_n t) a b d /\ t_area t = orient (t_n t) a b d / 2 /\
     t_area t = shoelace (t_n t) [a; b; d]).
Proof.
  cbn zeta. repeat (split; [reflexivity|]). split.
  { unfold make_tri. cbn [t_c]. rn. unfold pscale, padd. v3; lra. }
  split; [apply tri_center_hull; cbn; auto|]. intros Hc.
  destruct (tri_normal_facts a b d Hc) as (HN & Hb & Hd & He & Hp). split; [reflexivity|].
  change (t_n (make_tri a b d)) with (tri_normal a b d). split; [exact HN|]. split; [exact Hb|]. split; [exact Hd|].
  split; [exact Hp|]. rewrite make_tri_area. split; [|apply tri_area_shoelace, Hc].
  unfold area3. rewrite He. lra.
Qed.

Lemma tri_default f (a b d p : pt) chk : tri_contains_default f (make_tri a b d) p chk = UB.
Proof. reflexivity. Qed.

Lemma beyond_edge N cs ab p : In ab (edges cs) -> beyond N ab p <= overhang N cs p.
Proof. intros H. apply (sum_each_le (fun ab => beyond N ab p)); [intros; apply beyond_nonneg|exact H]. Qed.

Section PolyPack.
Variables (N : pt) (cs : list pt) (pg : poly R).
Hypothesis HC : convex_ccw N cs.
Hypothesis HP : proper_edges cs.
Hypothesis E : make_poly cs = Ok pg.
Let T := poly_contains_convex pg.
Let H1 := proj1 (poly_test N cs HC HP pg E).
Let H2 := proj2 (poly_test N cs HC HP pg E).
Lemma n0_in : In (nth 0 cs zero3) cs.
Proof. apply nth_In. pose proof (cc_len N cs HC). lia. Qed.
Lemma ok_true (b : bool) : @Ok bool b = Ok true <-> b = true.
Proof. split; [intros F; injection F as ->; reflexivity|intros ->; reflexivity]. Qed.
Lemma poly_hull p eps chk : 0 < eps -> hull cs p -> poly_contains pg p eps chk = Ok true.
Proof. intros He Hh. rewrite H1. apply ok_true. apply (t_hull N cs _ T HC n0_in H2); assumption. Qed.
Lemma poly_exact p : (forall eps, 0 < eps -> poly_contains pg p eps true = Ok true) <-> hull cs p.
Proof.
  rewrite <- (t_exact N cs _ T HC n0_in H2 p). split; intros H eps He; specialize (H eps He).
  - rewrite H1 in H. apply ok_true, H.
  - rewrite H1. apply ok_true, H.
Qed.
Lemma poly_planar_iff p eps chk : 0 < eps -> on_plane (nth 0 cs zero3) N p ->
  (poly_contains pg p eps chk = Ok true <-> overhang N cs p < eps * eps).
Proof. intros He Hp. rewrite H1, ok_true. apply (t_planar N cs _ T HC n0_in H2); assumption. Qed.
Lemma poly_near p eps : poly_contains pg p eps true = Ok true ->
  Rabs (dot N (psub p (nth 0 cs zero3))) < eps /\ overhang N cs p < eps * eps.
Proof. rewrite H1, ok_true. apply (t_near N cs _ T HC H2). Qed.
Lemma poly_never_throws p eps chk : exists b, poly_contains pg p eps chk = Ok b.
Proof. rewrite H1. eexists. reflexivity. Qed.
Lemma poly_area_ok : poly_get_area pg = Ok (shoelace N cs) /\ 0 < shoelace N cs.
Proof.
  split; [|apply shoelace_pos, HC]. destruct (poly_made N cs HC HP) as (pg' & E' & A & B & C & _).
  rewrite E in E'. injection E' as <-. unfold poly_get_area. rewrite B, C. reflexivity.
Qed.
Lemma poly_default p chk : hull cs p -> po_c pg <> nth 0 cs zero3 -> poly_contains_default pg p chk = Ok true.
Proof.
  intros Hh Hn. unfold poly_contains_default. apply poly_hull; [|exact Hh].
  destruct (poly_made N cs HC HP) as (pg' & E' & A & _). rewrite E in E'. injection E' as <-.
  rewrite A, vlen_norm, vec_to_psub, at_nth. change (confusion (A := R)) with (1 / 10000000).
  apply Rmult_lt_0_compat; [lra|]. change (0 < dist (po_c pg) (nth 0 cs zero3)).
  destruct (Rle_lt_or_eq_dec _ _ (dist_nonneg (po_c pg) (nth 0 cs zero3))) as [|Hz]; [assumption|].
  exfalso. apply Hn, dist_zero. auto.
Qed.
End PolyPack.

Lemma poly_few (cs : list pt) : (length cs < 3)%nat -> make_poly cs = Throw RuntimeError.
Proof. intros H. unfold make_poly. destruct (Nat.ltb_spec (length cs) 3); [reflexivity|lia]. Qed.
Lemma poly_flag_false (cs : list pt) pg p eps chk : make_poly cs = Ok pg -> po_convex pg = false ->
  poly_get_area pg = Throw RuntimeError /\ poly_contains pg p eps chk = Throw RuntimeError.
Proof. intros _ H. unfold poly_get_area, poly_contains. rewrite H. auto. Qed.
Lemma poly_edges (cs : list pt) pg : make_poly cs = Ok pg ->
  map (poly_edge pg) (seq 0 (length cs)) = map (fun ab => Ok (mkSeg (fst ab) (snd ab))) (edges cs) /\
  map (poly_corner pg) (seq 0 (length cs)) = map Ok cs.
Proof.
  intros E. unfold make_poly in E. destruct (Nat.ltb_spec (length cs) 3) as [|HL]; [discriminate|]. injection E as <-.
  unfold poly_edge, poly_corner. cbn [po_cs]. split.
  - rewrite (edges_seq cs zero3) by (intros ->; cbn in HL; lia). rewrite map_map. apply map_ext_in. intros i Hi.
    apply in_seq in Hi. destruct (Nat.ltb_spec i (length cs)); [|lia]. reflexivity.
  - transitivity (map (fun i => Ok (nth i cs zero3)) (seq 0 (length cs))).
    + apply map_ext_in. intros i Hi. apply in_seq in Hi. destruct (Nat.ltb_spec i (length cs)); [|lia]. reflexivity.
    + rewrite <- (map_map (fun i => nth i cs zero3) Ok). f_equal. clear.
      induction cs as [|a cs IH]; [reflexivity|]. cbn [length seq map nth]. f_equal.
      rewrite <- seq_shift, map_map. exact IH.
Qed.
(** with three corners *)
Lemma tri_poly_flag (a b d : pt) pg : noncollinear a b d -> make_poly [a; b; d] = Ok pg -> po_convex pg = true.
Proof.
  intros Hc E. assert (HC := tri_convex_ccw a b d Hc).
  assert (HP : proper_edges [a; b; d]).
  { intros ab Hab. rewrite edges3 in Hab. cbn in Hab.
    destruct Hab as [<-|[<-|[<-|[]]]]; cbn [fst snd]; intros Ex; subst; apply Hc;
    unfold zero3; coords; v3; ring. }
  destruct (poly_made _ _ HC HP) as (pg' & E' & _ & B & _). rewrite E in E'. injection E' as <-. exact B.
Qed.
Lemma poly_not_flagged N cs pg : proper_edges cs -> make_poly cs = Ok pg -> po_convex pg = false -> ~ convex_ccw N cs.
Proof.
  intros HP E Hf HC. destruct (poly_made _ _ HC HP) as (pg' & E' & _ & B & _).
  rewrite E in E'. injection E' as <-. congruence.
Qed.
Lemma bad_flag (cs : list pt) : (3 <= length cs)%nat -> corners_convex cs = true ->
  exists pg, make_poly cs = Ok pg /\ po_convex pg = true.
Proof.
  intros HL Hf. destruct (make_poly_eq cs HL) as (pg & E & _ & H2 & _). exists pg. rewrite H2. auto.
Qed.

Section QuadPack.
Variables (N p0 p1 p2 p3 : pt).
Hypothesis HC : convex_ccw N (around p0 p1 p2 p3).
Let q := make_quad p0 p1 p2 p3.
Let T := quad_contains q.
Let HT := quad_test N p0 p1 p2 p3 HC.
Lemma p0_in : In p0 (around p0 p1 p2 p3). Proof. cbn. auto. Qed.
Lemma quad_hull p eps chk : 0 < eps -> hull (around p0 p1 p2 p3) p -> quad_contains q p eps chk = true.
Proof. apply (t_hull N _ p0 T HC p0_in HT). Qed.
Lemma quad_exact p : (forall eps, 0 < eps -> quad_contains q p eps true = true) <-> hull (around p0 p1 p2 p3) p.
Proof. apply (t_exact N _ p0 T HC p0_in HT). Qed.
Lemma quad_planar_iff p eps chk : 0 < eps -> on_plane p0 N p ->
  (quad_contains q p eps chk = true <-> overhang N (around p0 p1 p2 p3) p < eps * eps).
Proof. apply (t_planar N _ p0 T HC p0_in HT). Qed.
Lemma quad_near p eps : quad_contains q p eps true = true ->
  Rabs (dot N (psub p p0)) < eps /\ overhang N (around p0 p1 p2 p3) p < eps * eps.
Proof. apply (t_near N _ p0 T HC HT). Qed.
Lemma quad_area_ok : q_area q = shoelace N (around p0 p1 p2 p3) /\ 0 < q_area q.
Proof.
  pose proof (proj1 (quad_convex_ccw N p0 p1 p2 p3) HC) as (HU & HP & HF & A & B & C).
  pose proof (shoelace_pos N _ HC) as HS. unfold q. rewrite (quad_area_shoelace N p0 p1 p2 p3 HU HP).
  - rewrite Rabs_pos_eq by lra. split; [reflexivity|exact HS].
  - rewrite (orient_rot N p0 p3 p2) in C. nra.
Qed.
End QuadPack.

Lemma quad_edges (p0 p1 p2 p3 : pt) : let q := make_quad p0 p1 p2 p3 in
  map (quad_corner q) [0; 1; 2; 3]%nat = map Ok [p0; p1; p2; p3] /\
  map (quad_edge q) [2; 0; 1; 3]%nat =
    map (fun ab => Ok (mkSeg (fst ab) (snd ab))) [(p0, p2); (p0, p1); (p1, p3); (p2, p3)] /\
  edges (around p0 p1 p2 p3) = [(p2, p0); (p0, p1); (p1, p3); (p3, p2)].
Proof. repeat split. Qed.
