(** Intersections of lateral cylinder surfaces with planar faces: the form of the results for any
    result of the boolean operations, and faces that are almost orthogonal to the axis. *)

From Coq Require Import Reals Lra Lia Psatz List Bool ZArith.
From Verif Require Import Base NumModel VecModel LinModel RoundModel PolyModel DistModel IntModel AngModel CylIntModel
  GeoSpec LinSpec RoundSpec PolySpec IntSpec AngSpec CylIntSpec
  GeoLemmas MathProofs LinProofs BoxProofs EllProofs ArcProofs CylProofs PolyBridge QuadProofs SegIntProofs SegIntProofs2 IntProofs FaceIntProofs CylIntProofs.
Import ListNotations.
Local Open Scope R_scope.

(** * The form of the result *)
Lemma obind_ok {X Y} (o : outcome X) (g : X -> outcome Y) y : obind o g = Ok y -> exists x, o = Ok x /\ g x = Ok y.
Proof. destruct o as [x|ex| |]; cbn; intros H; try discriminate. exists x. auto. Qed.
Lemma omapo_ok {X Y} (g : X -> Y) (o : outcome X) y : omapo g o = Ok y -> exists x, o = Ok x /\ y = g x.
Proof. destruct o as [x|ex| |]; cbn; intros H; try discriminate. injection H as <-. exists x. auto. Qed.

Lemma make_arc_ell (e : ell R) p q a : make_arc e p q = Ok a -> a_ell a = e.
Proof.
  unfold make_arc. destruct (pt_eq p q _); intros H.
  - apply obind_ok in H as (s & _ & H). injection H as <-. reflexivity.
  - apply obind_ok in H as (s & _ & H). apply obind_ok in H as (t & _ & H). injection H as <-. reflexivity.
Qed.
Lemma wire_arc_ell w (e : ell R) eps a : wire_arc w e eps = Ok a -> a_ell a = e.
Proof.
  unfold wire_arc. intros H. apply obind_ok in H as (a1 & H1 & H). apply obind_ok in H as (a2 & H2 & H). injection H as <-.
  destruct (first_arc _ _ _ _); eapply make_arc_ell; eassumption.
Qed.

(** a piece made from a wire: an arc of the ellipse, or a segment if there is no ellipse *)
Definition wire_piece (el : option (ell R)) (i : apiece R) : Prop :=
  match i with PcSeg _ => el = None | PcArc a => el = Some (a_ell a) | _ => False end.
Lemma outer_form el ws eps is : outer_pieces el ws eps = Ok is -> length is = length ws /\ forall i, In i is -> wire_piece el i.
Proof.
  revert is. induction ws as [|w ws IH]; intros is H; cbn [outer_pieces] in H.
  - injection H as <-. split; [reflexivity|]. intros i [].
  - apply obind_ok in H as (p & H1 & H). apply obind_ok in H as (ps & H2 & H). injection H as <-.
    destruct (IH _ H2) as [I1 I2]. split; [cbn; rewrite I1; reflexivity|]. intros i [<-|Hi]; [|apply I2, Hi].
    destruct el as [e|].
    + apply omapo_ok in H1 as (a & H1 & ->). cbn. rewrite (wire_arc_ell _ _ _ _ H1). reflexivity.
    + injection H1 as <-. reflexivity.
Qed.
Lemma parse_form el ws eps segs arcs : parse_wires el ws eps = Ok (Some (segs, arcs)) ->
  forall i, In i (map PcSeg segs ++ map PcArc arcs) -> wire_piece el i.
Proof.
  revert segs arcs. induction ws as [|w ws IH]; intros segs arcs H; cbn [parse_wires] in H.
  - injection H as <- <-. intros i [].
  - destruct (w_closed w); [discriminate|]. destruct el as [e|].
    + apply obind_ok in H as (a & H1 & H). apply omapo_ok in H as ([[sg ar]|] & H2 & H); [|discriminate].
      cbn in H. injection H as -> ->. specialize (IH _ _ H2). intros i. rewrite in_app_iff. cbn [map In].
      intros [Hi|[<-|Hi]]; [apply IH, in_app_iff; auto| |apply IH, in_app_iff; auto].
      cbn. rewrite (wire_arc_ell _ _ _ _ H1). reflexivity.
    + apply omapo_ok in H as ([[sg ar]|] & H2 & H); [|discriminate]. cbn in H. injection H as -> ->.
      specialize (IH _ _ H2). intros i. cbn [map app In]. intros [<-|Hi]; [reflexivity|apply IH, Hi].
Qed.
Lemma isolated_sub segs arcs (ps : list pt) eps r : isolated segs arcs ps eps = Ok r ->
  forall l1 p l2, r = l1 ++ p :: l2 -> exists m1 m2, ps = m1 ++ p :: m2 /\ incl l2 m2.
Proof.
  revert r. induction ps as [|q ps IH]; intros r H l1 p l2 E; cbn [isolated] in H.
  - injection H as <-. destruct l1; discriminate.
  - apply obind_ok in H as (b & _ & H). apply obind_ok in H as (r' & H2 & H). injection H as <-.
    destruct (negb _ && negb b).
    + destruct l1 as [|x l1]; cbn in E; injection E as -> E.
      * exists [], ps. split; [reflexivity|]. subst r'. intros x Hx. destruct (in_split _ _ Hx) as (k1 & k2 & ->).
        destruct (IH _ H2 k1 x k2 eq_refl) as (m1 & m2 & -> & _). apply in_app_iff. cbn. auto.
      * destruct (IH _ H2 l1 p l2 E) as (m1 & m2 & -> & Hi). exists (x :: m1), m2. auto.
    + destruct (IH _ H2 l1 p l2 E) as (m1 & m2 & -> & Hi). exists (q :: m1), m2. auto.
Qed.

(** the points: within the tolerance of the surface, not close to each other *)
Definition spaced (eps : R) (ps : list pt) : Prop := forall l1 p l2, ps = l1 ++ p :: l2 -> forall q, In q l2 -> eps <= dist p q.
Lemma spaced_snoc eps ps p : spaced eps ps -> (forall q, In q ps -> eps <= dist q p) -> spaced eps (ps ++ [p]).
Proof.
  intros HS Hp l1 x l2 E q Hq. destruct (exists_last (l := l2)) as (l2' & z & El2); [intros ->; destruct Hq|].
  subst l2. rewrite app_comm_cons, app_assoc in E. apply app_inj_tail in E as [-> ->].
  apply in_app_iff in Hq as [Hq|[<-|[]]]; [eapply HS; [reflexivity|exact Hq]|]. apply Hp, in_app_iff. cbn. auto.
Qed.
Lemma touch_form c eps vs : 0 < eps -> spaced eps (touch_candidates c vs eps) /\
  forall p, In p (touch_candidates c vs eps) -> In p vs /\ surf_contains c p eps = true.
Proof.
  intros Heps. unfold touch_candidates.
  assert (forall (found : list pt), spaced eps found -> let r := fold_left (fun found p =>
      if surf_contains c p eps && negb (existsb (fun tp => pt_eq tp p eps) found) then found ++ [p] else found) vs found in
    spaced eps r /\ forall p, In p r -> In p found \/ (In p vs /\ surf_contains c p eps = true)) as M.
  { induction vs as [|v vs IH]; intros found HS; cbn [fold_left]; [split; [exact HS|auto]|].
    destruct (surf_contains c v eps) eqn:Es; cbn [andb].
    - destruct (existsb (fun tp => pt_eq tp v eps) found) eqn:Ex; cbn [negb].
      + destruct (IH found HS) as [A B]. split; [exact A|]. intros p Hp. destruct (B p Hp) as [|[]]; cbn; auto.
      + assert (spaced eps (found ++ [v])) as HS'.
        { apply spaced_snoc; [exact HS|]. intros q Hq. destruct (Rle_lt_dec eps (dist q v)) as [|L]; [assumption|]. exfalso.
          apply (pt_eq_spec q v eps) in L; [|lra]. assert (existsb (fun tp => pt_eq tp v eps) found = true) as C; [|congruence].
          apply existsb_exists. exists q. auto. }
        destruct (IH _ HS') as [A B]. split; [exact A|]. intros p Hp. destruct (B p Hp) as [H|[]]; cbn; auto.
        apply in_app_iff in H as [|[<-|[]]]; auto.
    - destruct (IH found HS) as [A B]. split; [exact A|]. intros p Hp. destruct (B p Hp) as [|[]]; cbn; auto. }
  destruct (M [] ltac:(intros [|? ?]; discriminate)) as [A B]. split; [exact A|]. intros p Hp. destruct (B p Hp) as [[]|H]; exact H.
Qed.
Lemma spaced_sub segs arcs (ps : list pt) eps r : isolated segs arcs ps eps = Ok r -> spaced eps ps -> spaced eps r /\ incl r ps.
Proof.
  intros H HS. split.
  - intros l1 p l2 E q Hq. destruct (isolated_sub _ _ _ _ _ H l1 p l2 E) as (m1 & m2 & -> & Hi). eapply HS; [reflexivity|apply Hi, Hq].
  - intros x Hx. destruct (in_split _ _ Hx) as (l1 & l2 & E). destruct (isolated_sub _ _ _ _ _ H l1 x l2 E) as (m1 & m2 & -> & _).
    apply in_app_iff. cbn. auto.
Qed.

(** all forms of a result *)
Definition form (c : cyl R) (eps : R) (el : option (ell R)) (is : list (apiece R)) : Prop :=
  is = [PcEmpty] \/ (exists e, el = Some e /\ is = [PcEll e]) \/
  (is <> [] /\ exists ps ws, is = map PcPoint ps ++ ws /\ (forall i, In i ws -> wire_piece el i) /\ spaced eps ps /\
     forall p, In p ps -> surf_contains c p eps = true).
Lemma planar_form K C c f L eps is : 0 < eps -> cyl_planar K C c f L eps = Ok is ->
  exists el, inf_ellipse K c f L eps = Ok el /\ form c eps el is.
Proof.
  intros Heps H. unfold cyl_planar in H. apply obind_ok in H as (el & E & H). exists el. split; [exact E|]. rewrite tenth_lit in H.
  destruct (touch_form c eps (ck_cut C c f (1 / 10 * eps)) Heps) as [T1 T2].
  set (ts := touch_candidates c (ck_cut C c f (1 / 10 * eps)) eps) in *.
  destruct (Nat.eqb (ck_faces C c f (1 / 10 * eps)) 0).
  - destruct (ck_outer C c f (1 / 10 * eps)) as [|w ws].
    + assert (is = [PcEmpty] \/ (is <> [] /\ is = map PcPoint ts ++ [])) as [->|[Hn ->]].
      { rewrite app_nil_r. destruct ts; injection H as <-; [auto|]. right. split; [discriminate|reflexivity]. }
      * left. reflexivity.
      * right. right. split; [exact Hn|]. exists ts, []. split; [reflexivity|]. split; [intros i []|]. split; [exact T1|]. intros p Hp. apply T2, Hp.
    + destruct (outer_form _ _ _ _ H) as [O1 O2]. right. right. split; [intros ->; discriminate|].
      exists [], is. split; [reflexivity|]. split; [exact O2|]. split; [intros [|? ?]; discriminate|intros p []].
  - apply obind_ok in H as (r & H1 & H). destruct r as [[segs arcs]|].
    + apply obind_ok in H as (ps & H2 & H). destruct (spaced_sub _ _ _ _ _ H2 T1) as [S1 S2].
      pose proof (parse_form _ _ _ _ _ H1) as P.
      assert (is = [PcEmpty] \/ (is <> [] /\ is = map PcPoint ps ++ map PcSeg segs ++ map PcArc arcs)) as [->|[Hn ->]].
      { destruct (map PcPoint ps ++ map PcSeg segs ++ map PcArc arcs); injection H as <-; [auto|]. right. split; [discriminate|reflexivity]. }
      * left. reflexivity.
      * right. right. split; [exact Hn|]. exists ps, (map PcSeg segs ++ map PcArc arcs). split; [reflexivity|].
        split; [exact P|]. split; [exact S1|]. intros p Hp. apply T2, S2, Hp.
    + destruct el as [e|]; [|discriminate]. injection H as <-. right. left. exists e. auto.
Qed.
Lemma int_form K C c f eps is : 0 < eps -> int_cyl_face K C c f eps = Ok is ->
  is = [PcEmpty] \/ exists L el, inf_ellipse K c f L eps = Ok el /\ form c eps el is.
Proof.
  intros Heps H. unfold int_cyl_face in H. destruct (do_intersect _ _ _); cbn [negb] in H; [|injection H as <-; auto].
  right. destruct f as [d|q|p]; cbn [cyl_face] in H.
  - eexists. apply (planar_form _ _ _ _ _ _ _ Heps H).
  - destruct (q_convex q); cbn [negb] in H; [|discriminate]. eexists. apply (planar_form _ _ _ _ _ _ _ Heps H).
  - destruct (po_convex p); cbn [negb] in H; [|discriminate]. eexists. apply (planar_form _ _ _ _ _ _ _ Heps H).
Qed.
(** the length passed on is positive *)
Lemma int_form_ok K C c f eps is : 0 < eps -> face_ok f -> larger f eps -> int_cyl_face K C c f eps = Ok is ->
  is = [PcEmpty] \/ exists L el, 0 < L /\ inf_ellipse K c f L eps = Ok el /\ form c eps el is.
Proof.
  intros Heps Hf HL H. unfold int_cyl_face in H. destruct (do_intersect _ _ _); cbn [negb] in H; [|injection H as <-; auto].
  right. destruct (cyl_face_planar K C c f eps Heps Hf HL) as (L & HL' & E). rewrite E in H.
  destruct (planar_form _ _ _ _ _ _ _ Heps H) as (el & E1 & E2). exists L, el. auto.
Qed.

(** ** statements about the pieces *)
Definition kinds (is : list (apiece R)) : Prop :=
  is = [PcEmpty] \/ (exists e, is = [PcEll e]) \/
  (is <> [] /\ exists ps ws, is = map PcPoint ps ++ ws /\
     ((forall i, In i ws -> exists s, i = PcSeg s) \/ (exists e, forall i, In i ws -> exists a, i = PcArc a /\ a_ell a = e))).
Lemma form_kinds c eps el is : form c eps el is -> kinds is.
Proof.
  intros [->|[(e & _ & ->)|(Hn & ps & ws & -> & HW & _)]]; [left; reflexivity|right; left; eauto|right; right].
  split; [exact Hn|]. exists ps, ws. split; [reflexivity|]. destruct el as [e|].
  - right. exists e. intros i Hi. specialize (HW i Hi). destruct i; cbn in HW; try contradiction; try discriminate.
    injection HW as ->. eauto.
  - left. intros i Hi. specialize (HW i Hi). destruct i; cbn in HW; try contradiction; try discriminate. eauto.
Qed.
Lemma int_kinds K C c f eps is : 0 < eps -> int_cyl_face K C c f eps = Ok is -> kinds is.
Proof.
  intros Heps H. destruct (int_form _ _ _ _ _ _ Heps H) as [->|(L & el & _ & HF)]; [left; reflexivity|]. apply (form_kinds _ _ _ _ HF).
Qed.
Lemma form_points c eps el is p : form c eps el is -> In (PcPoint p) is -> surf_contains c p eps = true.
Proof.
  intros [->|[(e & _ & ->)|(Hn & ps & ws & -> & HW & _ & HC)]] Hi.
  - destruct Hi as [|[]]; discriminate.
  - destruct Hi as [|[]]; discriminate.
  - apply in_app_iff in Hi as [Hi|Hi]; [|destruct (HW _ Hi)]. apply in_map_iff in Hi as (q & [= ->] & Hq). auto.
Qed.
Lemma int_points_near K C c f eps is p : 0 < eps -> cyl_ok c -> int_cyl_face K C c f eps = Ok is -> In (PcPoint p) is ->
  exists q, cyl_lateral_set c q /\ dist p q <= sqrt 2 * eps.
Proof.
  intros Heps Hc H Hi. destruct (int_form _ _ _ _ _ _ Heps H) as [->|(L & el & _ & HF)]; [destruct Hi as [|[]]; discriminate|].
  apply (surf_contains_near c p eps Hc Heps), (form_points _ _ _ _ _ HF Hi).
Qed.
Lemma form_apart c eps el is l1 p l2 q : form c eps el is -> is = l1 ++ PcPoint p :: l2 -> In (PcPoint q) l2 -> eps <= dist p q.
Proof.
  intros [->|[(e & _ & ->)|(Hn & ps & ws & -> & HW & HS & _)]] E Hq.
  - destruct l1 as [|? [|]]; discriminate.
  - destruct l1 as [|? [|]]; discriminate.
  - clear Hn. revert l1 E HS. induction ps as [|x ps IH]; intros l1 E HS.
    + cbn in E. exfalso. apply (HW (PcPoint p)). rewrite E. apply in_app_iff. cbn. auto.
    + destruct l1 as [|y l1]; cbn in E; [injection E as Ex E|injection E as _ E].
      * subst x l2. apply in_app_iff in Hq as [Hq|Hq]; [|destruct (HW _ Hq)]. apply in_map_iff in Hq as (q' & [= ->] & Hq).
        apply (HS [] p ps eq_refl q Hq).
      * apply (IH l1 E). intros k1 z k2 -> . apply (HS (x :: k1) z k2). reflexivity.
Qed.
Lemma int_points_apart K C c f eps is l1 p l2 q : 0 < eps -> int_cyl_face K C c f eps = Ok is ->
  is = l1 ++ PcPoint p :: l2 -> In (PcPoint q) l2 -> eps <= dist p q.
Proof.
  intros Heps H. destruct (int_form _ _ _ _ _ _ Heps H) as [->|(L & el & _ & HF)].
  - intros E. destruct l1 as [|? [|]]; discriminate.
  - apply (form_apart c eps el). exact HF.
Qed.

(** the ellipse of a piece *)
Definition has_ell (i : apiece R) (e : ell R) : Prop := i = PcEll e \/ exists a, i = PcArc a /\ a_ell a = e.
Lemma form_ell c eps el is i e : form c eps el is -> In i is -> has_ell i e -> el = Some e.
Proof.
  intros [->|[(e' & -> & ->)|(Hn & ps & ws & -> & HW & _ & HC)]] Hi He.
  - destruct Hi as [<-|[]]. destruct He as [|(a & Ha & _)]; discriminate.
  - destruct Hi as [<-|[]]. destruct He as [[= ->]|(a & Ha & _)]; [reflexivity|discriminate].
  - apply in_app_iff in Hi as [Hi|Hi].
    + apply in_map_iff in Hi as (q & <- & Hq). destruct He as [|(a & Ha & _)]; discriminate.
    + specialize (HW i Hi). destruct He as [->|(a & -> & <-)]; [destruct HW|exact HW].
Qed.
Lemma int_section K C c f eps is i e : 0 < eps -> tube_ok c -> face_ok f -> larger f eps ->
  across c f \/ (slanted c f /\ axis_met K c f) -> int_cyl_face K C c f eps = Ok is -> In i is -> has_ell i e ->
  section_of c f e.
Proof.
  intros Heps Hc Hf HL Ho H Hi He. destruct (int_form_ok _ _ _ _ _ _ Heps Hf HL H) as [->|(L & el & HL' & E & HF)].
  { destruct Hi as [<-|[]]. destruct He as [|(a & Ha & _)]; discriminate. }
  pose proof (form_ell _ _ _ _ _ _ HF Hi He) as ->. destruct Ho as [Ha|[Hs Hm]].
  - destruct (ellipse_across K c f L eps Hc (face_unit f Hf) Ha) as (e' & E' & S & _). rewrite E' in E. injection E as <-. exact S.
  - destruct (ellipse_slanted K c f L eps Hc (face_unit f Hf) (center_in f Hf) Hs Hm HL' Heps) as (e' & E' & S & _).
    rewrite E' in E. injection E as <-. exact S.
Qed.

(** * Faces almost orthogonal to the axis *)
Lemma tilt_norm (n d : pt) : unit3 n -> unit3 d -> angle n d <= ang_tol \/ PI - ang_tol <= angle n d ->
  norm (psub n (pscale (dot n d) d)) <= ang_tol.
Proof.
  intros Un Ud Ha. pose proof (unit_dot_bound n d Un Ud) as Hb. rewrite (angle_units n d Un Ud) in Ha. set (k := dot n d) in *.
  assert (norm (psub n (pscale k d)) = sin (acos k)) as ->.
  { rewrite sin_acos by exact Hb. unfold norm. f_equal. unfold Rsqr, unit3 in *.
    transitivity (dot n n - 2 * k * dot n d + k * k * dot d d); [clear; coords; ring|]. fold k. rewrite Un, Ud. ring. }
  assert (small : forall x, 0 <= x -> sin x <= x).
  { intros x [Hx|<-]; [left; apply sin_lt_x, Hx|rewrite sin_0; lra]. }
  destruct (acos_bound k) as [B1 B2]. destruct Ha as [Ha|Ha].
  - pose proof (small _ B1). lra.
  - rewrite <- sin_PI_x. pose proof (small (PI - acos k)). lra.
Qed.
Lemma norm_shift (a b : pt) : Rabs (norm (padd a b) - norm b) <= norm a.
Proof.
  pose proof (norm_triangle a b) as T1. pose proof (norm_triangle (padd a b) (pscale (-1) a)) as T2.
  replace (padd (padd a b) (pscale (-1) a)) with b in T2 by (clear; apply v3_eq; coords; ring).
  assert (norm (pscale (-1) a) = norm a) as E.
  { unfold norm. f_equal. clear. coords. ring. }
  rewrite E in T2. apply Rabs_le. lra.
Qed.
Lemma tilt_bounds K c f L eps : tube_ok c -> unit3 (pl_n (face_plane f)) ->
  (angle (pl_n (face_plane f)) (e_n (c_bot c)) <= ang_tol \/ PI - ang_tol <= angle (pl_n (face_plane f)) (e_n (c_bot c))) ->
  exists e, inf_ellipse K c f L eps = Ok (Some e) /\ forall x h0, on_ellipse e x ->
    (exists q, plane_pts (face_plane f) q /\ dist (e_c (c_bot c)) q <= h0) ->
    (exists y, plane_pts (face_plane f) y /\ dist x y <= e_a (c_bot c) * ang_tol) /\
    (exists y, line_pts (axis_line c) y /\ ortho (psub x y) (e_n (c_bot c)) /\ Rabs (dist x y - e_a (c_bot c)) <= h0 * ang_tol).
Proof.
  intros (Hc & He & Hb) Un Hang. pose proof Hc as (Ud & _). pose proof (ea _ He) as Hr.
  unfold inf_ellipse, lies_across, cyl_dir.
  assert (gp_parallel (pl_n (face_plane f)) (e_n (c_bot c)) angular = true) as ->.
  { unfold gp_parallel. rewrite gp_angle_eq, ang_tol_eq. cbn [nleb nsub R_num npi R_trig]. apply orb_true_iff.
    destruct Hang; [left|right]; apply Rleb_true; lra. }
  eexists. split; [reflexivity|]. intros x h0 [phi ->] (q & Hq & Hd0).
  pose proof (tilt_norm _ _ Un Ud Hang) as Ht. pose proof He as ((B1 & B2 & B3 & B4 & B5 & B6 & B7) & _ & _).
  assert (0 < ang_tol) as Htp by (unfold ang_tol; lra).
  rewrite plane_proj_eq. cbn [cyl_axis s_src]. unfold ell_at, make_ell, at_coords, cyl_radius. cbn [e_c e_maj e_min e_a e_b].
  set (n := pl_n (face_plane f)) in *. set (d := e_n (c_bot c)) in *. set (s := pl_sup (face_plane f)) in *. set (o := e_c (c_bot c)) in *.
  set (u := e_maj (c_bot c)) in *. set (v := e_min (c_bot c)) in *. set (r := e_a (c_bot c)) in *.
  set (h := dot n (psub o s)). set (k := dot n d) in *.
  set (w := padd (pscale (r * cos phi) u) (pscale (r * sin phi) v)).
  assert (Hw : dot w w = r * r).
  { unfold w. transitivity (r * r * (cos phi * cos phi * dot u u + sin phi * sin phi * dot v v + 2 * cos phi * sin phi * dot u v)); [clear; coords; ring|].
    unfold unit3, ortho in *. rewrite B1, B2, B4. pose proof (sin2_cos2 phi) as E. unfold Rsqr in E. nra. }
  assert (Hwd : dot w d = 0).
  { unfold w. transitivity (r * cos phi * dot u d + r * sin phi * dot v d); [clear; coords; ring|]. unfold ortho in *. rewrite B5, B6. ring. }
  assert (Hwn : norm w = r) by (apply norm_eq_sq; assumption).
  fold w.
  set (m := psub n (pscale k d)) in *.
  assert (Hnw : Rabs (dot n w) <= r * ang_tol).
  { assert (dot n w = dot m w) as ->.
    { unfold m. transitivity (dot n w - k * dot w d); [rewrite Hwd; ring|clear; coords; ring]. }
    eapply Rle_trans; [apply cauchy_norm|]. rewrite Hwn, Rmult_comm. apply Rmult_le_compat_l; [lra|exact Ht]. }
  assert (Hh : Rabs h <= h0).
  { unfold plane_pts, on_plane in Hq. fold n s in Hq. assert (h = dot n (psub o q)) as E.
    { unfold h. transitivity (dot n (psub o q) + dot n (psub q s)); [clear; coords; ring|rewrite Hq; ring]. }
    rewrite E. eapply Rle_trans; [apply cauchy_norm|]. rewrite (norm_unit n Un), Rmult_1_l. exact Hd0. }
  split.
  - exists (padd (padd (padd o (pscale (- h) n)) w) (pscale (- dot n w) n)). split.
    + unfold plane_pts, on_plane. fold n s. transitivity (h - h * dot n n + dot n w - dot n w * dot n n).
      * unfold h. clear. coords. ring.
      * unfold unit3 in Un. rewrite Un. ring.
    + unfold dist. match goal with |- norm ?X <= _ => assert (X = pscale (dot n w) n) as -> by (clear; apply v3_eq; coords; ring) end.
      rewrite norm_scale', (norm_unit n Un), Rmult_1_r. exact Hnw.
  - exists (padd o (pscale (- h * k) d)). split; [eexists; reflexivity|].
    assert (psub (padd (padd o (pscale (- h) n)) w) (padd o (pscale (- h * k) d)) = padd (pscale (- h) m) w) as E
      by (unfold m; clear; apply v3_eq; coords; ring).
    rewrite E. split.
    + unfold ortho, m. transitivity (- h * (dot n d - k * dot d d) + dot w d); [clear; coords; ring|].
      fold k. unfold unit3 in Ud. rewrite Ud, Hwd. ring.
    + unfold dist. rewrite E, <- Hwn. eapply Rle_trans; [apply norm_shift|]. rewrite norm_scale', Rabs_Ropp.
      apply Rmult_le_compat; [apply Rabs_pos|apply norm_nonneg|exact Hh|exact Ht].
Qed.
Lemma int_tilted K C c f eps is i e : 0 < eps -> tube_ok c -> face_ok f ->
  (angle (pl_n (face_plane f)) (e_n (c_bot c)) <= ang_tol \/ PI - ang_tol <= angle (pl_n (face_plane f)) (e_n (c_bot c))) ->
  int_cyl_face K C c f eps = Ok is -> In i is -> has_ell i e -> forall x h0, on_ellipse e x ->
    (exists q, plane_pts (face_plane f) q /\ dist (e_c (c_bot c)) q <= h0) ->
    (exists y, plane_pts (face_plane f) y /\ dist x y <= e_a (c_bot c) * ang_tol) /\
    (exists y, line_pts (axis_line c) y /\ ortho (psub x y) (e_n (c_bot c)) /\ Rabs (dist x y - e_a (c_bot c)) <= h0 * ang_tol).
Proof.
  intros Heps Hc Hf Ha H Hi He. destruct (int_form _ _ _ _ _ _ Heps H) as [->|(L & el & E & HF)].
  { destruct Hi as [<-|[]]. destruct He as [|(a & Ha' & _)]; discriminate. }
  pose proof (form_ell _ _ _ _ _ _ HF Hi He) as ->.
  destruct (tilt_bounds K c f L eps Hc (face_unit f Hf) Ha) as (e' & E' & B). rewrite E' in E. injection E as <-. exact B.
Qed.

(** * Concave faces *)
Lemma concave_cyl K C c f eps : do_intersect (ck_box C c) (k_face_box K f) eps = true ->
  match f with
  | FDisk _ => False
  | FQuad q => exists a0 a1 a2 a3, q = make_quad a0 a1 a2 a3 /\ noncollinear a0 a1 a2 /\
      on_plane a0 (tri_normal a0 a1 a2) a3 /\ forall N, ~ convex_ccw N (around a0 a1 a2 a3)
  | FPoly p => po_convex p = false
  end -> int_cyl_face K C c f eps = Throw RuntimeError.
Proof.
  intros D H. unfold int_cyl_face. rewrite D. cbn [negb]. destruct f as [d|q|p]; cbn [cyl_face]; [contradiction| |rewrite H; reflexivity].
  destruct H as (a0 & a1 & a2 & a3 & -> & Hn & Hp & Hc).
  destruct (q_convex (make_quad a0 a1 a2 a3)) eqn:E; [|reflexivity]. exfalso. apply convex_flag_iff in E; try assumption. exact (Hc _ E).
Qed.
