(** The Python functions over the real numbers, and examples. *)

From Coq Require Import ZArith Reals Lra Psatz String List Bool Lia.
From Coquelicot Require Import Coquelicot.
From Verif Require Import Base NumModel VecModel LinModel RoundModel PolyModel DistModel PyBindModel
  GeoSpec LinSpec PolySpec RoundSpec DistSpec PyBindSpec GeoLemmas LinProofs PolyProofs PolyExamples DistProofs LenProofs PyBindProofs.
Import ListNotations.
Local Open Scope R_scope.

Lemma dist_self p : dist p p = 0.
Proof. destruct p as [x y z]. apply dist_3d; lra. Qed.
Lemma dist_nonneg p q : 0 <= dist p q.
Proof. unfold dist, norm. apply sqrt_pos. Qed.
Lemma dist_zero (P : pt -> Prop) p : P p -> dist_to P p 0.
Proof. intros Hp. split; [exists p; split; [exact Hp|apply dist_self]|]. intros y _. apply dist_nonneg. Qed.

Section Boundary.
Context {S : Type} (oc : @occ R S).

Lemma bounded_shape (g : geo R S) sg : bounded g -> oc_shape oc g = Ok sg -> exists k, get_shape_of oc g = Ok (GWrap k sg).
Proof. intros Hb E. destruct g; try contradiction Hb; cbn [get_shape_of]; rewrite E; cbn [obind]; eauto. Qed.
Lemma bounded_kind (g : geo R S) : bounded g -> has_boundary g \/ exists b, g = GBox b.
Proof. destruct g; try contradiction; cbn; eauto. Qed.
Lemma boundary_distance p (g : geo R S) d : bounded g -> occ_exact oc p g (points_of g) -> dist_to (points_of g) p d ->
  py_distance_boundary oc (PObj (GPoint p)) (PObj g) = Ok d.
Proof.
  intros Hb (sp & sg & E1 & E2 & E3) Hd. apply (boundary_point oc p g sp sg); [apply bounded_kind, Hb|exact E1|apply bounded_shape; assumption|apply E3, Hd].
Qed.
Lemma boundary_inside p (g : geo R S) : bounded g -> occ_exact oc p g (points_of g) -> points_of g p ->
  py_distance_boundary oc (PObj (GPoint p)) (PObj g) = Ok 0.
Proof. intros Hb He Hp. apply boundary_distance; [exact Hb|exact He|apply dist_zero, Hp]. Qed.

Lemma chain_incl (l : list pt) ab : In ab (chain l) -> In (fst ab) l /\ In (snd ab) l.
Proof.
  induction l as [|a [|b l] IH]; cbn [chain]; try contradiction.
  intros [<-|Hi]; [cbn; auto|]. destruct (IH Hi). cbn in *; tauto.
Qed.
Lemma boundary_hull cs p : boundary cs p -> hull cs p.
Proof.
  intros (ab & Hi & Hs). assert (In (fst ab) cs /\ In (snd ab) cs) as [Ha Hb].
  { clear Hs. unfold edges in Hi. destruct cs as [|c cs]; [contradiction Hi|].
    apply chain_incl in Hi. rewrite !in_app_iff in Hi. cbn in *. tauto. }
  apply (hull_between cs (fst ab) (snd ab)); [constructor; assumption|constructor; assumption|exact Hs].
Qed.
Lemma boundary_points (g : geo R S) p : bounded g -> boundary_of g p -> points_of g p.
Proof.
  destruct g; try contradiction; cbn [bounded boundary_of points_of]; intros Hb H.
  - destruct Hb as (_ & Ha & Hb). destruct H as [phi ->]. exists (e_a d * cos phi), (e_b d * sin phi). split; [|reflexivity].
    replace (_ + _) with (Rsqr (sin phi) + Rsqr (cos phi)) by (unfold Rsqr; field; split; lra). rewrite sin2_cos2. lra.
  - apply boundary_hull, H.
  - apply boundary_hull, H.
  - exact (proj1 H).
  - destruct Hb as (Hu & Hh & Hr & Et). destruct H as [[Hd Ho]|[Hd Ho]].
    + exists 0, (psub p (e_c (c_bot c))). split; [lra|]. split; [exact Ho|]. split; [exact Hd|]. destruct p as [px py pz]. unfold psub, padd, pscale. cbn [vx vy vz]. f_equal; ring.
    + rewrite Et in Hd, Ho. exists (c_h c), (psub p (padd (e_c (c_bot c)) (pscale (c_h c) (e_n (c_bot c))))).
      split; [lra|]. split; [exact Ho|]. split; [exact Hd|]. destruct p as [px py pz]. unfold psub, padd, pscale. cbn [vx vy vz]. f_equal; ring.
Qed.
Lemma boundary_outside p (g : geo R S) y : bounded g -> occ_exact oc p g (points_of g) ->
  boundary_of g y -> (forall x, points_of g x -> dist p y <= dist p x) ->
  py_distance_boundary oc (PObj (GPoint p)) (PObj g) = Ok (dist p y) /\ dist_to (boundary_of g) p (dist p y).
Proof.
  intros Hb He Hy Hmin. split.
  - apply boundary_distance; [exact Hb|exact He|]. split; [exists y; split; [apply boundary_points; assumption|reflexivity]|exact Hmin].
  - split; [exists y; split; [exact Hy|reflexivity]|]. intros x Hx. apply Hmin, boundary_points; assumption.
Qed.

(** boxes *)
Definition clamp (lo hi x : R) : R := Rmax lo (Rmin x hi).
Lemma clamp_range lo hi x : lo <= hi -> lo <= clamp lo hi x <= hi.
Proof. intros. unfold clamp, Rmax, Rmin. destruct (Rle_dec x hi); destruct (Rle_dec lo _); lra. Qed.
Lemma clamp_min lo hi x z : lo <= z <= hi -> (x - clamp lo hi x) * (x - clamp lo hi x) <= (x - z) * (x - z).
Proof. intros. unfold clamp, Rmax, Rmin. pose proof (Rle_0_sqr (x - z)) as Hs. unfold Rsqr in Hs.
  destruct (Rle_dec x hi) as [?|Hx]; [|apply Rnot_le_lt in Hx]; (destruct (Rle_dec lo _) as [?|Hl]; [|apply Rnot_le_lt in Hl]); nra. Qed.
Lemma clamp_out lo hi x : lo <= hi -> ~ (lo < x < hi) -> clamp lo hi x = lo \/ clamp lo hi x = hi.
Proof.
  intros Hr Hn. assert (x <= lo \/ hi <= x) by (destruct (Rle_dec x lo), (Rle_dec hi x); auto; exfalso; apply Hn; lra).
  unfold clamp, Rmax, Rmin. destruct (Rle_dec x hi); destruct (Rle_dec lo _); lra.
Qed.
Definition clamp_box (b : box R) (p : pt) : pt :=
  mkV3 (clamp (vx (b_min b)) (vx (b_max b)) (vx p)) (clamp (vy (b_min b)) (vy (b_max b)) (vy p)) (clamp (vz (b_min b)) (vz (b_max b)) (vz p)).
Lemma clamp_box_min b p x : in_box b x -> dist p (clamp_box b p) <= dist p x.
Proof.
  intros (Hx & Hy & Hz). pose proof (clamp_min _ _ (vx p) _ Hx). pose proof (clamp_min _ _ (vy p) _ Hy). pose proof (clamp_min _ _ (vz p) _ Hz).
  unfold dist, norm. apply sqrt_le_1_alt. unfold dot, psub, clamp_box. cbn [vx vy vz]. lra.
Qed.
Lemma clamp_box_face b p : box_ok b -> ~ strictly_inside b p -> on_bounding_face b (clamp_box b p).
Proof.
  intros (Hx & Hy & Hz) Hn. split; [unfold in_box, clamp_box; cbn [vx vy vz]; split; [|split]; apply clamp_range; assumption|].
  unfold clamp_box; cbn [vx vy vz].
  destruct (Rlt_dec (vx (b_min b)) (vx p)); [|destruct (clamp_out _ _ (vx p) Hx); [intros ?; lra|tauto|tauto]].
  destruct (Rlt_dec (vx p) (vx (b_max b))); [|destruct (clamp_out _ _ (vx p) Hx); [intros ?; lra|tauto|tauto]].
  destruct (Rlt_dec (vy (b_min b)) (vy p)); [|destruct (clamp_out _ _ (vy p) Hy); [intros ?; lra|tauto|tauto]].
  destruct (Rlt_dec (vy p) (vy (b_max b))); [|destruct (clamp_out _ _ (vy p) Hy); [intros ?; lra|tauto|tauto]].
  destruct (clamp_out _ _ (vz p) Hz); [|tauto|tauto]. intros Hz'. apply Hn. repeat split; lra.
Qed.
Lemma boundary_box b p : box_ok b -> occ_exact oc p (GBox b) (in_box b) -> ~ strictly_inside b p ->
  exists d, py_distance_boundary oc (PObj (GPoint p)) (PObj (GBox b)) = Ok d /\ dist_to (on_bounding_face b) p d.
Proof.
  intros Hb He Hn. exists (dist p (clamp_box b p)). apply (boundary_outside p (GBox b) (clamp_box b p)); [exact Hb|exact He|apply clamp_box_face; assumption|].
  intros x Hx. apply clamp_box_min, Hx.
Qed.
End Boundary.

(** the middle of the unit square *)
Definition center2 : pt := fl (1 / 2) (1 / 2).
Definition unit_quad : quad R := make_quad (fl 0 0) (fl 1 0) (fl 0 1) (fl 1 1).
Definition zero_occ : @occ R bool := mkOcc
  (fun g => Ok (match g with GPoint _ => true | _ => false end))
  (fun _ _ => Ok 0) (fun _ => Ok 0) (fun _ _ => Ok 0) (fun _ => Ok cube).
Lemma center_low y : vx y = 0 \/ vx y = 1 \/ vy y = 0 \/ vy y = 1 -> 1 / 2 <= dist center2 y.
Proof.
  intros H. unfold dist, norm. rewrite <- (sqrt_square (1 / 2)) by lra. apply sqrt_le_1_alt.
  destruct y as [x y z]. unfold center2, fl. coords.
  pose proof (Rle_0_sqr (1 / 2 - x)) as X. pose proof (Rle_0_sqr (1 / 2 - y)) as Y. pose proof (Rle_0_sqr (0 - z)) as Z.
  unfold Rsqr in *. destruct H as [->|[->|[->| ->]]]; lra.
Qed.
Lemma center_case : let g := @GQuad R bool unit_quad in
  bounded g /\ occ_exact zero_occ center2 g (points_of g) /\ points_of g center2 /\ dist_to (boundary_of g) center2 (1 / 2).
Proof.
  cbn zeta. assert (Hp : points_of (@GQuad R bool unit_quad) center2).
  { cbn [points_of unit_quad make_quad q_0 q_1 q_2 q_3]. apply (hull_between _ (fl 0 0) (fl 1 1)); [constructor; cbn; auto|constructor; cbn; auto|].
    exists (1 / 2). split; [lra|]. unfold center2, fl. coords. f_equal; field. }
  split; [exact I|]. split; [|split; [exact Hp|]].
  - exists true, false. split; [reflexivity|]. split; [reflexivity|]. intros d Hd. cbn. f_equal.
    apply (dist_to_unique _ _ _ _ (dist_zero _ _ Hp) Hd).
  - split.
    + exists (fl 0 (1 / 2)). split; [|apply dist_3d; lra].
      exists (fl 0 1, fl 0 0). split; [cbn; auto|]. exists (1 / 2). split; [lra|]. unfold fl. cbn [fst snd]. coords. f_equal; field.
    + intros y (ab & Hi & t & Ht & ->). apply center_low. cbn in Hi. unfold fl in Hi.
      destruct Hi as [<-|[<-|[<-|[<-|[]]]]]; cbn [fst snd]; coords; lra.
Qed.
Lemma cube_mid_case : ~ strictly_inside cube (mkV3 2 0 0) /\ dist_to (in_box cube) (mkV3 2 0 0) 1.
Proof.
  split; [unfold strictly_inside, cube; cbn; lra|]. split.
  - exists (mkV3 1 0 0). split; [unfold in_box, cube; cbn; lra|apply dist_3d; lra].
  - intros [x y z] (Hx & Hy & Hz). unfold cube in *. cbn in Hx, Hy, Hz. unfold dist, norm. rewrite <- (sqrt_square 1) by lra. apply sqrt_le_1_alt.
    coords. nra.
Qed.

(** arcs *)
Lemma arc_length_circle r s t : 0 <= r -> s < t -> arc_length r r s t = r * (t - s).
Proof.
  intros Hr Hst. unfold arc_length. destruct (Rlt_dec s t); [|lra]. rewrite (RInt_ext _ (fun _ => r)).
  - rewrite RInt_const. unfold scal. cbn. unfold mult. cbn. ring.
  - intros x _. unfold speed. replace (_ + _) with (r * r * (Rsqr (sin x) + Rsqr (cos x))) by (unfold Rsqr; ring).
    rewrite sin2_cos2, Rmult_1_r. apply sqrt_square, Hr.
Qed.
Section Arcs.
Context {S : Type} (oc : @occ R S).
Lemma py_length_arc (c : arc R) : py_length oc (PObj (GArc c)) = Ok (PI * (e_a (a_ell c) + e_b (a_ell c))).
Proof. reflexivity. Qed.
Lemma py_distance_to_arc (c : arc R) p d : occ_exact oc p (GEllipse (a_ell c)) (on_ellipse (a_ell c)) ->
  dist_to (on_ellipse (a_ell c)) p d -> py_distance oc (PObj (GPoint p)) (PObj (GArc c)) = Ok d.
Proof.
  intros (sp & sg & E1 & E2 & E3) Hd. rewrite py_distance_arc by (split; [discriminate|cbn; tauto]).
  cbn [distance get_shape_of]. rewrite E1. cbn [obind]. rewrite E2. cbn [obind]. apply E3, Hd.
Qed.
End Arcs.
Definition unit_ell : ell R := mkEll (mkV3 0 0 0) (mkV3 1 0 0) (mkV3 0 1 0) (mkV3 0 0 1) 1 1.
Definition quarter : arc R := mkArc unit_ell (mkV3 1 0 0) (mkV3 0 1 0) 0 (PI / 2) false.
Lemma unit_ell_at phi : ell_at unit_ell phi = mkV3 (cos phi) (sin phi) 0.
Proof. unfold ell_at, at_coords, unit_ell. cbn [e_a e_b e_c e_maj e_min]. coords. f_equal; ring. Qed.
Lemma quarter_case : arc_length 1 1 (a_s quarter) (a_t quarter) = PI / 2 /\
  py_length zero_occ (PObj (GArc quarter)) = Ok (2 * PI) /\
  (let p := mkV3 (- 1) 0 0 in
   occ_exact zero_occ p (GEllipse (a_ell quarter)) (on_ellipse (a_ell quarter)) /\
   dist_to (on_ellipse (a_ell quarter)) p 0 /\ forall q, on_arc quarter q -> 1 <= dist p q).
Proof.
  pose proof PI_RGT_0 as HP. split; [|split].
  - cbn [quarter a_s a_t]. rewrite arc_length_circle by lra. lra.
  - rewrite py_length_arc. f_equal. cbn. ring.
  - cbn zeta. cbn [quarter a_ell]. assert (Hd : dist_to (on_ellipse unit_ell) (mkV3 (- 1) 0 0) 0).
    { apply dist_zero. exists PI. rewrite unit_ell_at, cos_PI, sin_PI. reflexivity. }
    split; [|split; [exact Hd|]].
    + exists true, false. split; [reflexivity|]. split; [reflexivity|]. intros d Hd'. cbn. f_equal. apply (dist_to_unique _ _ _ _ Hd Hd').
    + intros q (phi & Hb & ->). cbn [quarter a_s a_t a_ell] in *. rewrite unit_ell_at. unfold between in Hb.
      assert (0 <= phi <= PI / 2) as [H1 H2] by lra. pose proof (cos_ge_0 phi ltac:(lra) ltac:(lra)) as Hc.
      unfold dist, norm. rewrite <- (sqrt_square 1) by lra. apply sqrt_le_1_alt. coords.
      pose proof (Rle_0_sqr (0 - sin phi)). unfold Rsqr in *. nra.
Qed.

(** contains() *)
Lemma number_py {S} (v : pyval R S) x : number v x -> py_number v x.
Proof. intros [->|(z & -> & ->)]; [left; reflexivity|right]. exists z. split; [reflexivity|]. unfold nlit. cbn. field. Qed.
Definition up (h : R) : pt := mkV3 0 0 h.
Lemma disk_up h eps chk : disk_contains unit_ell (up h) eps chk = negb chk || (if Rlt_dec (Rabs h) eps then true else false).
Proof.
  assert (P : plane_contains (ell_plane unit_ell) (up h) eps = if Rlt_dec (Rabs h) eps then true else false).
  { unfold plane_contains, ell_plane, unit_ell, up, plane_basis. cbn [e_a e_b e_c e_maj e_min e_n pl_n pl_sup]. coords.
    match goal with |- Rltb (Rabs ?x) _ = _ => replace x with h by ring end.
    rcmp; destruct (Rlt_dec (Rabs h) eps); try reflexivity; lra. }
  unfold disk_contains. rewrite P. unfold unit_ell, up. cbn [e_a e_b e_c e_maj e_min]. coords.
  match goal with |- context [Rleb ?x ?y] => replace (Rleb x y) with true; [|symmetry; apply Rleb_true] end.
  - destruct chk, (Rlt_dec (Rabs h) eps); reflexivity.
  - replace (_ / _ + _ / _) with 0 by field. nra.
Qed.
Lemma flag_case : let g := @GDisk R bool unit_ell in
  py_contains Rabs g [PObj (GPoint (up 5)); PInt 0] [] = Ok true /\
  py_contains Rabs g [PObj (GPoint (up 5)); PFloat 0] [] = Ok false /\
  py_contains Rabs g [PObj (GPoint (up (1 / 2))); PInt 1] [] = Ok false /\
  py_contains Rabs g [PObj (GPoint (up (1 / 2))); PFloat 1] [] = Ok true.
Proof.
  cbn zeta. split; [|split; [|split]].
  - rewrite (contains_int Rabs (@GDisk R bool unit_ell) _ _ _ _ eq_refl eq_refl). unfold disk_contains_default. rewrite disk_up. reflexivity.
  - rewrite (proj1 (contains_float Rabs (@GDisk R bool unit_ell) _ _ (up 5) 0 true eq_refl eq_refl)). rewrite disk_up. cbn.
    destruct (Rlt_dec (Rabs 5) 0) as [C|C]; [pose proof (Rabs_pos 5); lra|reflexivity].
  - rewrite (contains_int Rabs (@GDisk R bool unit_ell) _ _ _ _ eq_refl eq_refl). unfold disk_contains_default. rewrite disk_up, confusion_R.
    rewrite Rabs_right by lra. cbn. destruct (Rlt_dec _ _); [lra|reflexivity].
  - rewrite (proj1 (contains_float Rabs (@GDisk R bool unit_ell) _ _ (up (1 / 2)) 1 true eq_refl eq_refl)). rewrite disk_up. cbn.
    rewrite Rabs_right by lra. destruct (Rlt_dec _ _); [reflexivity|lra].
Qed.

(** constructors *)
Lemma forall2_number {S} (l : list (pyval R S)) xs : Forall2 number l xs -> Forall2 py_number l xs.
Proof. induction 1; constructor; [apply number_py; assumption|assumption]. Qed.
Lemma point_from_args {S} (l : list (pyval R S)) xs : Forall2 number l xs -> (1 <= length xs <= 3)%nat ->
  exists g, py_point l [] = Ok g /\ a_point g /\ coords_of g = Some xs.
Proof. intros Hf. apply point_args, forall2_number, Hf. Qed.
Lemma point_from_list {S} (l : list (pyval R S)) xs : Forall2 number l xs -> (1 <= length xs <= 3)%nat ->
  exists g, py_point [PList l] [] = Ok g /\ a_point g /\ coords_of g = Some xs.
Proof.
  intros Hf Hl. destruct (point_list _ _ (forall2_number _ _ Hf)) as (g & E & Hp & Hc). exists g. split; [exact E|]. split; [exact Hp|].
  etransitivity; [exact Hc|]. destruct xs as [|? [|? [|? [|? ?]]]]; cbn in Hl; try lia; reflexivity.
Qed.
Lemma vector_from_args {S} (l : list (pyval R S)) xs : Forall2 number l xs -> (2 <= length xs <= 3)%nat ->
  exists g, py_vector l [] = Ok g /\ a_vector g /\ coords_of g = Some xs.
Proof. intros Hf. apply vector_args, forall2_number, Hf. Qed.
Lemma vector_from_list {S} (l : list (pyval R S)) xs : Forall2 number l xs -> (1 <= length xs <= 3)%nat ->
  exists g, py_vector [PList l] [] = Ok g /\ a_vector g /\ coords_of g = Some xs.
Proof.
  intros Hf Hl. destruct (vector_list _ _ (forall2_number _ _ Hf)) as (g & E & Hp & Hc). exists g. split; [exact E|]. split; [exact Hp|].
  etransitivity; [exact Hc|]. destruct xs as [|? [|? [|? [|? ?]]]]; cbn in Hl; try lia; reflexivity.
Qed.
Lemma lists_cut {S} (l : list (pyval R S)) xs : Forall2 number l xs -> (length xs > 3)%nat ->
  (exists g, py_point [PList l] [] = Ok g /\ a_point g /\ coords_of g = Some (firstn 3 xs)) /\
  (exists g, py_vector [PList l] [] = Ok g /\ a_vector g /\ coords_of g = Some (firstn 3 xs)).
Proof.
  intros Hf Hl. apply forall2_number in Hf. destruct xs as [|x [|y [|z [|w r]]]]; cbn in Hl; try lia. split.
  - destruct (point_list _ _ Hf) as (g & E & Hp & Hc). exists g. auto.
  - destruct (vector_list _ _ Hf) as (g & E & Hp & Hc). exists g. auto.
Qed.
Lemma lists_empty {S} : py_point [@PList R S []] [] = Ok (GPoint (mkV3 0 0 0)) /\ py_vector [@PList R S []] [] = Ok (GVector (mkV3 0 0 0)).
Proof. split; reflexivity. Qed.
Lemma two_points {S} (p q : pt) u w c n (v : pyval R S) x : number v x ->
  py_vector [PObj (GPoint p); PObj (@GPoint R S q)] [] = Ok (GVector (psub q p)) /\
  py_vector [PObj (@GDirection R S u)] [] = Ok (GVector u) /\
  py_direction [PObj (@GVector R S w)] [] = Ok (GDirection (to_dir w)) /\
  py_circle [PObj (GPoint c); PObj (@GDirection R S n); v] [] = Ok (GCircle (make_circle c n x)).
Proof.
  intros Hv. split; [exact (vector_points p q)|]. split; [apply vector_direction|]. split; [apply direction_vector|apply circle_args, number_py, Hv].
Qed.
Lemma list_case : Forall2 number [PInt 1; @PFloat R bool 2; PInt 3; PInt 4] [1; 2; 3; 4].
Proof.
  apply Forall2_cons; [right; exists 1%Z; split; reflexivity|]. apply Forall2_cons; [left; reflexivity|].
  apply Forall2_cons; [right; exists 3%Z; split; reflexivity|]. apply Forall2_cons; [right; exists 4%Z; split; reflexivity|constructor].
Qed.

(** distances to lists *)
Lemma distance_list {S} (oc : @occ R S) v gs ds : Forall2 (fun g d => py_distance oc v (PObj g) = Ok d) gs ds -> gs <> [] ->
  exists m, py_distance oc v (PList (map PObj gs)) = Ok m /\ is_min m ds.
Proof.
  intros Hf Hn. assert (Hf' : Forall2 (fun w d => py_distance1 oc v w = Ok d) (map PObj gs) ds).
  { clear Hn. induction Hf; cbn; constructor; assumption. }
  rewrite (py_distance_list oc v _ _ Hf'). destruct ds as [|d ds]; [inversion Hf; subst; exfalso; apply Hn; reflexivity|].
  cbn [py_min]. eexists. split; [reflexivity|]. 
  assert (E : fold_left nmin ds d = fold_left Rmin ds d).
  { clear. revert d. induction ds as [|x ds IH]; intros d; cbn; [reflexivity|]. rewrite nmin_Rmin. apply IH. }
  rewrite E. split.
  - destruct (fold_min_in ds d) as [->|Hi]; [left; reflexivity|right; exact Hi].
  - destruct (fold_min_le ds d) as [H1 H2]. intros x [<-|Hx]; [exact H1|apply H2, Hx].
Qed.
Lemma distance_empty {S} (oc : @occ R S) v : py_distance oc v (PList []) = Throw ValueError.
Proof. reflexivity. Qed.
Lemma distance_to_line {S} (oc : @occ R S) (p : pt) l sp : unit3 (l_dir l) -> oc_shape oc (GPoint p) = Ok sp ->
  py_distance oc (PObj (GPoint p)) (PObj (GLine l)) = Throw TypeError /\
  exists d, distance oc (GPoint p) (GLine l) = Ok d /\ dist_to (on_line (l_sup l) (l_dir l)) p d.
Proof.
  intros Hu E. split; [rewrite py_distance_line, E; reflexivity|]. exists (dist_line p l). split; [reflexivity|]. apply dist_line_ok, Hu.
Qed.
Lemma list_distance_case : Forall2 (fun g d => py_distance zero_occ (PObj (GPoint (mkV3 0 0 0))) (PObj g) = Ok d)
  [GPoint (mkV3 0 3 4); GPoint (mkV3 0 0 2)] [5; 2].
Proof.
  repeat constructor; rewrite py_distance_ok by (split; [discriminate|cbn; tauto]); cbn [distance]; rewrite dist_points_eq; f_equal; apply dist_3d; lra.
Qed.
Lemma dim_right {S} (oc : @occ R S) dim (g : geo R S) : class_of g <> CArc -> In (class_of g) magnitude_classes ->
  my_dimension (PObj g) = Some dim -> py_dim_magnitude oc dim (PObj g) = magnitude oc g.
Proof.
  intros Ha Hi E. rewrite dim_magnitude, E, Nat.eqb_refl. apply magnitude_own; assumption.
Qed.
Lemma dim_guard {S} (oc : @occ R S) dim v x : py_dim_magnitude oc dim v = Ok x -> my_dimension v = Some dim.
Proof.
  unfold py_dim_magnitude. destruct (my_dimension v) as [d|]; [|discriminate]. destruct (Nat.eqb d dim) eqn:E; [|discriminate].
  apply Nat.eqb_eq in E. subst. reflexivity.
Qed.
Lemma keywords {S} (p q c n : pt) (v : pyval R S) x : number v x ->
  (py_point [] [("x"%string, v)] = Throw OutOfRange /\
   py_point1 [] [("x"%string, v)] = Ok (GPoint1 x)) /\
  (py_vector [] [("source"%string, PObj (@GPoint R S p)); ("target"%string, PObj (GPoint q))] = Throw TypeError /\
   py_vector3 [] [("source"%string, PObj (@GPoint R S p)); ("target"%string, PObj (GPoint q))] = Ok (GVector (psub q p))) /\
  (py_direction [] [("vector"%string, PObj (@GVector R S c))] = Throw RuntimeError /\
   py_direction3 [] [("vector"%string, PObj (@GVector R S c))] = Ok (GDirection (to_dir c))) /\
  (py_circle [] [("center"%string, PObj (@GPoint R S c)); ("normal"%string, PObj (GDirection n)); ("radius"%string, v)] = Throw RuntimeError /\
   py_circle3 [] [("center"%string, PObj (@GPoint R S c)); ("normal"%string, PObj (GDirection n)); ("radius"%string, v)] = Ok (GCircle (make_circle c n x))).
Proof.
  intros Hv. destruct (class_keywords p q c n v x (number_py _ _ Hv)) as (H1 & H2 & H3 & H4).
  split; [split; [apply point_keyword|exact H1]|]. split; [split; [apply vector_keywords|exact H2]|].
  split; [split; [apply direction_keyword|exact H3]|]. split; [apply circle_keywords|exact H4].
Qed.
Lemma one_number {S} (v : pyval R S) x : number v x ->
  py_vector [v] [] = Throw RuntimeError /\ py_vector1 [v] [] = Ok (GVector1 x).
Proof. intros Hv. apply number_py in Hv. split; [apply (vector_number v x Hv)|]. destruct Hv as [->|(z & -> & ->)]; reflexivity. Qed.
