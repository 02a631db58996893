(** The constraints on face shapes: a square plate with a square hole, a quadrilateral that crosses
    it (as a geometry of the library and as a shape), and a cylinder surface. *)

From Coq Require Import Reals List Lra Psatz Bool ZArith.
From Verif Require FaceFaceExamples.
From Verif Require Import Base ConstraintsModel ConstraintsSpec.
From Verif Require Import NumModel VecModel LinModel RoundModel PolyModel DistModel IntModel AngModel CylIntModel EvalModel FaceFaceModel ShEvalModel
  GeoSpec LinSpec RoundSpec PolySpec DistSpec IntSpec AngSpec CylIntSpec EvalSpec FaceFaceSpec ShEvalSpec
  GeoLemmas LinProofs DistProofs LenProofs IntProofs FaceIntProofs AngProofs AngProofs2 BoxProofs IntExamples SegIntProofs EvalProofs CylIntExamples EvalExamples
  FaceFaceProofs ShEvalProofs.
Import ListNotations.
Local Open Scope R_scope.

Inductive fig := Plate | Strip | Up | Down | Tube | TubeUp | TubeDown.
Inductive rim := Outer | Hole | Of (f : fig).
Inductive tr := Trace | Ring.

(** the square with the corners (a, a) and (-a, -a) in the plane z = 0 *)
Definition square (a : R) (p : pt) : Prop := (vz p = 0 /\ - a <= vx p <= a) /\ - a <= vy p <= a.
Definition frame (a : R) (p : pt) : Prop := square a p /\ (vx p = a \/ vx p = - a \/ vy p = a \/ vy p = - a).
Definition plate (p : pt) : Prop := square 4 p /\ ~ (- (1 / 4) < vx p < 1 / 4 /\ - (1 / 4) < vy p < 1 / 4).
Definition tube (p : pt) : Prop := vx p * vx p + vy p * vy p = 1 /\ -1 <= vz p <= 1.
Definition fig_pts (f : fig) (p : pt) : Prop :=
  match f with
  | Plate => plate p
  | Strip => face_set qb p
  | Up => face_set qb p /\ 0 <= vz p
  | Down => face_set qb p /\ vz p <= 0
  | Tube => tube p
  | TubeUp => tube p /\ 0 <= vz p
  | TubeDown => tube p /\ vz p <= 0
  end.
Definition tr_pts (e : tr) (p : pt) : Prop :=
  match e with Trace => exists t, p = ox t /\ 1 / 2 <= t <= 1 | Ring => tube p /\ vz p = 0 end.
Definition rim_pts (w : rim) (p : pt) : Prop :=
  match w with Outer => frame 4 p | Hole => frame (1 / 4) p | Of Strip => edge_set qb p | Of _ => False end.
Definition fig_normal (f : fig) (p : pt) : pt := match f with Plate => e3 | _ => mkV3 0 1 0 end.

(** membership, as far as it is needed *)
Definition on_fig (p : pt) (f : fig) : bool :=
  match f with
  | Plate => Reqb (vz p) 0 && (Rleb (vx p) 4 && Rleb (1 / 4) (vx p)) && (Rleb (vy p) 4 && Rleb (-4) (vy p))
  | Strip => Reqb (vy p) 0 && (Rleb (vx p) 1 && Rleb (1 / 2) (vx p)) && (Rleb (vz p) 3 && Rleb (-3) (vz p))
  | _ => false
  end.
Definition kern : shape_kernel R fig tr rim := {|
  sk_common _ _ _ := [];
  sk_cut f g _ := match f, g with Strip, Plate => [Up; Down] | Tube, Plate => [TubeUp; TubeDown] | _, _ => [f] end;
  sk_wires f := match f with Plate => [Outer; Hole] | _ => [Of f] end;
  sk_wire_common w f _ := match w, f with Of Up, Plate | Of Down, Plate => [Trace] | Of TubeUp, Plate | Of TubeDown, Plate => [Ring] | _, _ => [] end;
  sk_edge_common _ _ _ := [];
  sk_same e e' := match e, e' with Trace, Trace | Ring, Ring => true | _, _ => false end;
  sk_face_vertices _ := [];
  sk_edge_vertices e := match e with Trace => [ox (1 / 2); ox 1] | Ring => [ox 1] end;
  sk_wire_cut w _ _ := match w with
    | Outer => [mkV3 4 4 0; mkV3 (-4) 4 0; mkV3 (-4) (-4) 0; mkV3 4 (-4) 0]
    | Hole => [mkV3 (1 / 4) (1 / 4) 0; mkV3 (- (1 / 4)) (1 / 4) 0; mkV3 (- (1 / 4)) (- (1 / 4)) 0; mkV3 (1 / 4) (- (1 / 4)) 0]
    | Of Strip => [mkV3 (1 / 2) 0 (-3); mkV3 1 0 (-3); ox 1; mkV3 1 0 3; mkV3 (1 / 2) 0 3; ox (1 / 2)]
    | Of Tube => [mkV3 1 0 (-1); ox 1; mkV3 1 0 1]
    | _ => []
    end;
  sk_point_common p f _ := if on_fig p f then [p] else [];
  sk_box _ := mkBox (mkV3 (-10) (-10) (-10)) (mkV3 10 10 10) |}.

Definition plate_surface : surface R := mkSurf (fun _ _ => (mkV3 1 0 0, mkV3 0 1 0)) (fun p => (0, (vx p, vy p))).
Definition strip_surface : surface R := mkSurf (fun _ _ => (mkV3 1 0 0, mkV3 0 0 1)) (fun p => (0, (vx p, vz p))).
Definition ops : shape_ops R fig tr rim := {|
  so_ent := xo; so_shapes := kern;
  so_face := fun _ => Strip; so_surf := fun _ => Tube;
  so_surf_box := fun _ => mkBox (mkV3 (-10) (-10) (-10)) (mkV3 10 10 10);
  so_surface := fun f => match f with Plate => plate_surface | _ => strip_surface end;
  so_curve := fun _ => mkCurve 2 3 (fun t => ox (t / 2 - 1 / 2));
  so_first := fun e => match e with Trace => ox (1 / 2) | Ring => ox 1 end; so_last := fun _ => ox 1;
  so_length := fun e => match e with Trace => Ok (1 / 2) | Ring => Ok (2 * PI) end;
  so_area := fun _ => Throw RuntimeError;
  so_outer := fun f => match f with Plate => Outer | _ => Of f end;
  so_wire_box := fun w => match w with Outer => mkBox (mkV3 (-4) (-4) 0) (mkV3 4 4 0) | _ => mkBox (mkV3 (1 / 2) 0 (-3)) (mkV3 1 0 3) end;
  so_dist := fun _ _ => Ok 0;
  so_point_wire := fun p w => match w with Outer => Ok (4 - vx p) | _ => Ok (Rmin (vx p - 1 / 2) (1 - vx p)) end;
  so_ellipse_wire := fun _ _ => Ok 0 |}.
Definition tr_len (e : tr) : R := match e with Trace => 1 / 2 | Ring => 2 * PI end.

(** the sets *)
Lemma qb_box x : face_set qb x -> (vy x = 0 /\ 1 / 2 <= vx x <= 1) /\ -3 <= vz x <= 3.
Proof.
  intros Hx. change (hull (corners qb) x) in Hx.
  apply (hull_box _ (mkV3 (1 / 2) 0 (-3)) (mkV3 1 0 3)) in Hx; [unfold in_box in Hx; cbn in Hx; lra|]. in_corners.
Qed.
Lemma qb_ox t : 1 / 2 <= t <= 1 -> face_set qb (ox t).
Proof. intros Ht. apply (proj2 (on_x_at _ _ _ t quads_common) Ht). Qed.
Lemma plate_ox t : 1 / 2 <= t <= 1 -> plate (ox t).
Proof. intros Ht. unfold plate, square, ox. cbn. split; [lra|]. lra. Qed.
Lemma strip_plate : on_x (both (face_set qb) plate) (1 / 2) 1.
Proof.
  intros x. split.
  - intros [H1 H2]. apply qb_box in H1. exists (vx x). split; [|lra]. destruct H2 as [H2 _]. unfold square in H2. apply v3_eq; cbn; lra.
  - intros (t & -> & Ht). split; [apply qb_ox, Ht|apply plate_ox, Ht].
Qed.
Lemma on_plate p : on_fig p Plate = true -> plate p.
Proof.
  cbn [on_fig]. intros H. repeat (apply andb_prop in H as [H ?H]). repeat match goal with K : andb _ _ = true |- _ => apply andb_prop in K as [K ?K] end.
  repeat match goal with K : Rleb _ _ = true |- _ => apply Rleb_true in K end. apply Reqb_true in H.
  unfold plate, square. split; [lra|lra].
Qed.

Lemma strip_edge e eps : boundary_edge kern Strip Plate eps e -> e = Trace.
Proof.
  intros (g & w & Hg & Hw & He). cbn in Hg. destruct Hg as [<-|[<-|[]]]; cbn in Hw; destruct Hw as [<-|[]]; cbn in He; destruct He as [<-|[]]; reflexivity.
Qed.
Lemma on_strip_out p : ~ ((vy p = 0 /\ 1 / 2 <= vx p <= 1) /\ -3 <= vz p <= 3) -> on_fig p Strip = false.
Proof.
  intros Hn. destruct (on_fig p Strip) eqn:H; [|reflexivity]. exfalso. apply Hn. cbn [on_fig] in H.
  repeat (apply andb_prop in H as [H ?H]). repeat match goal with K : andb _ _ = true |- _ => apply andb_prop in K as [K ?K] end.
  repeat match goal with K : Rleb _ _ = true |- _ => apply Rleb_true in K end. apply Reqb_true in H. lra.
Qed.
Lemma vertex_common p eps : boundary_vertex kern Strip Plate eps p -> face_set qb p /\ plate p.
Proof.
  intros [(w & Hw & Hp) Hn]. cbn in Hw. destruct Hw as [<-|[]]. cbn [kern sk_point_common] in Hn.
  destruct (on_fig p Plate) eqn:C; [|tauto]. apply on_plate in C. split; [|exact C]. destruct C as [[[C _] _] _].
  cbn in Hp. destruct Hp as [<-|[<-|[<-|[<-|[<-|[<-|[]]]]]]]; cbn in C; try lra; apply qb_ox; lra.
Qed.
Lemma vertex_none p eps : ~ boundary_vertex kern Plate Strip eps p.
Proof.
  intros [(w & Hw & Hp) Hn]. cbn [kern sk_point_common] in Hn. rewrite on_strip_out in Hn; [tauto|].
  cbn in Hw. destruct Hw as [<-|[<-|[]]]; cbn in Hp; destruct Hp as [<-|[<-|[<-|[<-|[]]]]]; cbn; lra.
Qed.
Lemma kern_common eps : finds_common kern fig_pts tr_pts Strip Plate eps.
Proof.
  split.
  - intros f x [].
  - intros e x He Hx. apply strip_edge in He as ->. cbn in Hx. destruct Hx as (t & -> & Ht). split; [apply qb_ox, Ht|apply plate_ox, Ht].
  - intros p Hp. apply (vertex_common p eps Hp).
  - intros p Hp. destruct (vertex_none p eps Hp).
Qed.
Lemma kern_all eps : finds_all kern fig_pts tr_pts Strip Plate eps.
Proof.
  split.
  - intros x H1 H2. right. left. exists Trace. split; [|apply strip_plate; split; assumption].
    exists Up, (Of Up). cbn. auto.
  - intros f p [].
  - intros e p Hp. destruct e; cbn in Hp.
    + destruct Hp as [<-|[<-|[]]]; cbn; eexists; (split; [reflexivity|lra]).
    + destruct Hp as [<-|[]]. cbn. unfold tube, ox. cbn. lra.
  - intros e f x [].
  - intros [|] [|] x; cbn; intros; try discriminate; reflexivity.
Qed.
Lemma kern_boxed f : f = Strip \/ f = Plate -> shape_boxed kern fig_pts f.
Proof.
  intros [-> | ->] x Hx; cbn in Hx; unfold in_box; cbn; [apply qb_box in Hx|destruct Hx as [Hx _]; unfold square in Hx]; lra.
Qed.

(** the distances *)
Lemma ox_far t y c : vx y = c -> Rabs (t - c) <= dist (ox t) y.
Proof.
  intros <-. unfold dist, norm, dot, psub, ox. cbn [vx vy vz]. rn. rewrite <- sqrt_Rsqr_abs. apply sqrt_le_1_alt. unfold Rsqr.
  pose proof (Rle_0_sqr (0 - vy y)). pose proof (Rle_0_sqr (0 - vz y)). unfold Rsqr in *. lra.
Qed.
Lemma ox_far_y t y c : vy y = c -> Rabs c <= dist (ox t) y.
Proof.
  intros <-. unfold dist, norm, dot, psub, ox. cbn [vx vy vz]. rn. rewrite <- sqrt_Rsqr_abs. apply sqrt_le_1_alt. unfold Rsqr.
  pose proof (Rle_0_sqr (t - vx y)). pose proof (Rle_0_sqr (0 - vz y)). unfold Rsqr in *. lra.
Qed.
Lemma ox_far_z t y c : vz y = c -> Rabs c <= dist (ox t) y.
Proof.
  intros <-. unfold dist, norm, dot, psub, ox. cbn [vx vy vz]. rn. rewrite <- sqrt_Rsqr_abs. apply sqrt_le_1_alt. unfold Rsqr.
  pose proof (Rle_0_sqr (t - vx y)). pose proof (Rle_0_sqr (0 - vy y)). unfold Rsqr in *. lra.
Qed.
Ltac absv := unfold Rabs in *; repeat match goal with |- context [Rcase_abs ?x] => destruct (Rcase_abs x) | H : context [Rcase_abs ?x] |- _ => destruct (Rcase_abs x) end; lra.
Lemma outer_dist t : 1 / 2 <= t <= 1 -> dist_to (frame 4) (ox t) (4 - t).
Proof.
  intros Ht. split.
  - exists (ox 4). split; [unfold frame, square, ox; cbn; lra|]. rewrite ox_dist. absv.
  - intros y [Hy [C|[C|[C|C]]]].
    + pose proof (ox_far t y _ C). absv.
    + pose proof (ox_far t y _ C). absv.
    + pose proof (ox_far_y t y _ C). absv.
    + pose proof (ox_far_y t y _ C). absv.
Qed.
Lemma hole_dist t : 1 / 2 <= t <= 1 -> dist_to (frame (1 / 4)) (ox t) (t - 1 / 4).
Proof.
  intros Ht. split.
  - exists (ox (1 / 4)). split; [unfold frame, square, ox; cbn; lra|]. rewrite ox_dist. absv.
  - intros y [Hy _]. unfold square in Hy. pose proof (ox_far t y _ eq_refl). absv.
Qed.
Lemma qb_edge y : edge_set qb y -> vx y = 1 / 2 \/ vx y = 1 \/ vz y = 3 \/ vz y = -3.
Proof. intros (ab & He & (t & Ht & ->)). edge_cases He; cbn; rn; lra. Qed.
Lemma qb_ends a : a = 1 / 2 \/ a = 1 -> edge_set qb (ox a).
Proof.
  intros [-> | ->].
  - exists (mkV3 (1 / 2) 0 3, mkV3 (1 / 2) 0 (-3)). split; [cbn; auto|]. exists (1 / 2). split; [lra|]. apply v3_eq; cbn; rn; lra.
  - exists (mkV3 1 0 (-3), mkV3 1 0 3). split; [cbn; auto|]. exists (1 / 2). split; [lra|]. apply v3_eq; cbn; rn; lra.
Qed.
Lemma strip_dist t : 1 / 2 <= t <= 1 -> dist_to (edge_set qb) (ox t) (Rmin (t - 1 / 2) (1 - t)).
Proof.
  intros Ht. split.
  - unfold Rmin. destruct (Rle_dec _ _).
    + exists (ox (1 / 2)). split; [apply qb_ends; auto|]. rewrite ox_dist. absv.
    + exists (ox 1). split; [apply qb_ends; auto|]. rewrite ox_dist. absv.
  - intros y Hy. pose proof (Rmin_l (t - 1 / 2) (1 - t)). pose proof (Rmin_r (t - 1 / 2) (1 - t)). apply qb_edge in Hy as [C|[C|[C|C]]].
    + pose proof (ox_far t y _ C). absv.
    + pose proof (ox_far t y _ C). absv.
    + pose proof (ox_far_z t y _ C). absv.
    + pose proof (ox_far_z t y _ C). absv.
Qed.

Definition tp : R := eps_box (mkBox (mkV3 (-4) (-4) 0) (mkV3 4 4 0)).
Definition ts : R := eps_box (mkBox (mkV3 (1 / 2) 0 (-3)) (mkV3 1 0 3)).
Definition tk : R := eps_box (mkBox (mkV3 (-10) (-10) (-10)) (mkV3 10 10 10)).
Lemma plate_fits M (P : pt -> Prop) : (forall p, P p -> exists t, p = ox t /\ 1 / 2 <= t <= 1) -> sh_fits 1000 ops fig_pts rim_pts fig_normal M P (SShape Plate) tp.
Proof.
  intros HP. cbn [sh_fits]. split; [|split; [reflexivity|]].
  - intros p _. exists (vx p), (vy p). split; [reflexivity|]. cbn. unfold det3, ortho, dot, cross, e3. cbn. repeat split; lra.
  - intros p Hp. apply HP in Hp as (t & -> & Ht). exists (4 - t). split; [apply outer_dist, Ht|reflexivity].
Qed.
Lemma strip_fits M (P : pt -> Prop) : (forall p, P p -> exists t, p = ox t /\ 1 / 2 <= t <= 1) -> sh_fits 1000 ops fig_pts rim_pts fig_normal M P (SShape Strip) ts.
Proof.
  intros HP. cbn [sh_fits]. split; [|split; [reflexivity|]].
  - intros p _. exists (vx p), (vz p). split; [reflexivity|]. cbn. unfold det3, ortho, dot, cross. cbn. repeat split; lra.
  - intros p Hp. apply HP in Hp as (t & -> & Ht). eexists. split; [apply strip_dist, Ht|reflexivity].
Qed.
Lemma quad_fits (P : pt -> Prop) : sh_fits 1000 ops fig_pts rim_pts fig_normal 6 P (SGeo (EFace qb)) tb.
Proof.
  cbn [sh_fits]. split; [apply sq_xz_ok; lra|]. split; [exact qb_fit|]. split; [exact I|]. split; [|split; [reflexivity|intros x; reflexivity]].
  apply (quad_within qb (corners qb) eq_refl eq_refl). in_corners.
Qed.
Lemma trace_stations p : In p (stations ops Trace) -> exists t, p = ox t /\ 1 / 2 <= t <= 1.
Proof.
  unfold stations. intros H. apply in_map_iff in H as (tau & <- & Ht). cbn. eexists. split; [reflexivity|].
  cbn in Ht. destruct Ht as [<-|[<-|[<-|[<-|[<-|[]]]]]]; lra.
Qed.
Lemma trace_edge h u1 u2 e : boundary_edge kern Strip Plate (is_eps h u1 u2) e ->
  so_length ops e = Ok (tr_len e) /\ tr_pts e (so_first ops e) /\ tr_pts e (so_last ops e) /\ forall p, In p (stations ops e) -> tr_pts e p.
Proof.
  intros He. apply strip_edge in He as ->. split; [reflexivity|]. split; [cbn; eexists; split; [reflexivity|lra]|].
  split; [cbn; eexists; split; [reflexivity|lra]|]. exact trace_stations.
Qed.
Lemma common_ox p : both (face_set qb) plate p -> exists t, p = ox t /\ 1 / 2 <= t <= 1.
Proof. apply strip_plate. Qed.
Lemma small_PI : PI <= 1000.
Proof. pose proof PI_4. lra. Qed.

Lemma quad_plate m d : sh_pair 1000 ops fig_pts tr_pts rim_pts fig_normal tr_len (calls m d) (SGeo (EFace qb)) (SShape Plate) tb tk tb tp 6.
Proof.
  constructor.
  - exact small_PI.
  - lra.
  - intros u v u' v'. reflexivity.
  - apply quad_fits.
  - apply plate_fits, common_ox.
  - reflexivity.
  - reflexivity.
  - cbn. lra.
  - apply kern_common.
  - apply kern_all.
  - apply kern_boxed. auto.
  - apply kern_boxed. auto.
  - reflexivity.
  - apply trace_edge.
  - exists 0. split; [|reflexivity]. apply (met_dist _ _ (ox 1)); [apply qb_ox; lra|apply plate_ox; lra].
Qed.
Lemma shapes_pair m d : sh_pair 1000 ops fig_pts tr_pts rim_pts fig_normal tr_len (calls m d) (SShape Strip) (SShape Plate) tk tk ts tp 6.
Proof.
  constructor.
  - exact small_PI.
  - lra.
  - exact I.
  - apply strip_fits, common_ox.
  - apply plate_fits, common_ox.
  - reflexivity.
  - reflexivity.
  - cbn. lra.
  - apply kern_common.
  - apply kern_all.
  - apply kern_boxed. auto.
  - apply kern_boxed. auto.
  - reflexivity.
  - apply trace_edge.
  - exists 0. split; [|reflexivity]. apply (met_dist _ _ (ox 1)); [apply qb_ox; lra|apply plate_ox; lra].
Qed.

(** The result: the segment from (1/2, 0, 0) to (1, 0, 0), which is found twice. *)
Lemma near_pt (p : pt) : pt_eq p p (1 / 10) = true.
Proof. apply pt_eq_dist; [lra|]. rewrite dist_self. lra. Qed.
Lemma kern_meet (b b' : box R) : b = mkBox (mkV3 (-10) (-10) (-10)) (mkV3 10 10 10) -> b' = b -> do_intersect b b' (1 / 10) = true.
Proof. intros -> ->. apply (do_intersect_shared _ _ _ (mkV3 0 0 0)); [lra|..]; unfold in_box; cbn; lra. Qed.
Lemma on_plate_in p : (vz p = 0 /\ 1 / 4 <= vx p <= 4) /\ -4 <= vy p <= 4 -> on_fig p Plate = true.
Proof.
  intros H. cbn [on_fig]. repeat (apply andb_true_intro; split); try (apply Rleb_true; lra). apply Reqb_true. lra.
Qed.
Lemma on_plate_out p : ~ plate p -> on_fig p Plate = false.
Proof. intros H. destruct (on_fig p Plate) eqn:C; [|reflexivity]. apply on_plate in C. tauto. Qed.
Ltac off_plate := apply on_plate_out; unfold plate, square, ox; cbn; lra.
Ltac off_strip := apply on_strip_out; unfold ox; cbn; lra.
Lemma strip_candidates : candidates kern Strip Plate (1 / 10) = [ox 1; ox (1 / 2)].
Proof.
  unfold candidates, is_on. cbn [kern sk_wires flat_map app sk_wire_cut filter sk_point_common].
  rewrite (on_plate_out (mkV3 (1 / 2) 0 (-3))), (on_plate_out (mkV3 1 0 (-3))), (on_plate_out (mkV3 1 0 3)), (on_plate_out (mkV3 (1 / 2) 0 3)), (on_plate_in (ox 1)), (on_plate_in (ox (1 / 2)))
    by (unfold plate, square, ox; cbn; lra).
  rewrite !on_strip_out by (cbn; lra). reflexivity.
Qed.
Lemma strip_result : int_face_face kern Strip Plate (1 / 10) = [SpEdge Trace].
Proof.
  unfold int_face_face. rewrite kern_meet by reflexivity. cbn [negb]. unfold face_face_3d. rewrite strip_candidates.
  cbn -[pt_eq ox]. rewrite !near_pt, ?orb_true_r. cbn -[pt_eq ox]. rewrite ?orb_true_r. reflexivity.
Qed.
Lemma tube_candidates : candidates kern Tube Plate (1 / 10) = [ox 1].
Proof.
  unfold candidates, is_on. cbn [kern sk_wires flat_map app sk_wire_cut filter sk_point_common].
  rewrite (on_plate_out (mkV3 1 0 (-1))), (on_plate_out (mkV3 1 0 1)), (on_plate_in (ox 1)) by (unfold plate, square, ox; cbn; lra).
  reflexivity.
Qed.
Lemma tube_result : face_face_3d kern Tube Plate (1 / 10) = [SpEdge Ring].
Proof.
  unfold face_face_3d. rewrite tube_candidates. cbn -[pt_eq ox]. rewrite !near_pt. reflexivity.
Qed.

Lemma tp_pos : 0 < tp.
Proof. unfold tp, eps_box, confusion, seg_len, vlen. cbn. apply Rmult_lt_0_compat; [apply sqrt_lt_R0; rn; lra|rn; lra]. Qed.
Lemma tp_small : tp < 1 / 1000.
Proof.
  unfold tp, eps_box, confusion, seg_len, vlen. cbn. rn. match goal with |- sqrt ?x * _ < _ => assert (sqrt x <= 12) end; [|lra].
  rewrite <- (sqrt_square 12) by lra. apply sqrt_le_1_alt. lra.
Qed.
Lemma ts_pos : 0 < ts.
Proof. unfold ts, eps_box, confusion, seg_len, vlen. cbn. apply Rmult_lt_0_compat; [apply sqrt_lt_R0; rn; lra|rn; lra]. Qed.

Lemma right_angle (u v : pt) theta : dot u v = 0 -> norm u = 1 -> norm v = 1 -> angle_between u v theta -> 1 <= theta.
Proof.
  intros H0 Hu Hv [H1 H2]. rewrite H0, Hu, Hv, Rabs_R0 in H2. assert (cos theta = 0) as C by lra. pose proof PI2_1. pose proof PI_RGT_0.
  assert (theta = PI / 2) as -> by (apply cos_inj; try lra; rewrite cos_PI2; exact C). lra.
Qed.
Lemma e3_norm : norm e3 = 1.
Proof. apply norm_unit. unfold unit3, dot, e3. cbn. ring. Qed.

(** The constraints hold with the distance 1 between the ends of the segment and the boundaries;
    the outer boundary is at the distances 7/2 and 3. *)
Lemma quad_kept m d a b : m <= 1 / 2 -> d + b <= 3 -> 0 <= a ->
  sh_kept ops fig_pts rim_pts fig_normal tr_len (calls m d) tb tp a b (SGeo (EFace qb)) (SShape Plate) [SpEdge Trace].
Proof.
  intros Hm Hd Ha. unfold sh_kept. split; [|split].
  - intros X. exfalso. apply (X (ox 1)). apply strip_plate. exists 1. split; [reflexivity|lra].
  - intros p [X|[]]. discriminate.
  - intros e [He|[]]. injection He as <-. split; [exact Hm|]. split.
    + intros p _. unfold sh_angle_kept. cbn. intros th Hth. apply (right_angle (face_normal qb) e3); [| |exact e3_norm|exact Hth].
      * rewrite <- face_plane_normal. unfold qb. rewrite (proj2 (sq_xz_plane (1 / 2) 1 3 ltac:(lra) ltac:(lra))). unfold dot, e2n, e3. cbn. ring.
      * rewrite <- face_plane_normal. unfold qb. rewrite (proj2 (sq_xz_plane (1 / 2) 1 3 ltac:(lra) ltac:(lra))). apply norm_unit. unfold unit3, dot, e2n. cbn. ring.
    + assert (forall t, t = 1 / 2 \/ t = 1 -> sh_end_kept ops rim_pts (calls m d) tb tp a b (SGeo (EFace qb)) (SShape Plate) (ox t)) as HE.
      { intros t Ht. unfold sh_end_kept. cbn [calls active_is_distance holds_if_set sh_bound rim_pts so_outer ops]. split.
        - intros x Hx. left. pose proof (qb_on t x Ht Hx). pose proof tb_pos. lra.
        - intros x Hx. right. rewrite (dist_to_unique _ _ _ _ Hx (outer_dist t ltac:(lra))). lra. }
      split; apply HE; auto.
Qed.
Lemma quad_eval m d : m <= 1 / 2 -> d <= 2 -> sh_evaluate 1000 ops (crun 0 (rev (calls m d))) (SGeo (EFace qb)) (SShape Plate) = Ok true.
Proof.
  intros Hm Hd. destruct (eval_shapes 1000 ops fig_pts tr_pts rim_pts fig_normal tr_len (calls m d) _ _ _ _ _ _ _ (quad_plate m d) (calls_active m d)) as (b & -> & B & _).
  rewrite B; [reflexivity|]. unfold sh_result. change (int_face_face _ _ _ _) with (int_face_face kern Strip Plate (1 / 10)). rewrite strip_result. apply quad_kept; lra.
Qed.
(** too close to the outer boundary *)
Lemma quad_rejected m d : 7 / 2 < d -> sh_evaluate 1000 ops (crun 0 (rev (calls m d))) (SGeo (EFace qb)) (SShape Plate) = Ok false.
Proof.
  intros Hd. destruct (eval_shapes 1000 ops fig_pts tr_pts rim_pts fig_normal tr_len (calls m d) _ _ _ _ _ _ _ (quad_plate m d) (calls_active m d)) as (b & -> & _ & B).
  destruct b; [|reflexivity]. exfalso. specialize (B eq_refl). unfold sh_result in B. change (int_face_face _ _ _ _) with (int_face_face kern Strip Plate (1 / 10)) in B. rewrite strip_result in B.
  destruct B as (_ & _ & B). destruct (B Trace (or_introl eq_refl)) as (_ & _ & [_ K] & _). cbn [holds_if_set] in K.
  destruct (K (4 - 1 / 2) (outer_dist (1 / 2) ltac:(lra))) as [C|C]; [|cbn in C; lra]. pose proof tp_small. lra.
Qed.
(** the hole is at the distance 1/4 from an end of the segment *)
Lemma hole_near a b : 0 <= a <= 1 / 10 -> 0 <= b -> ~ keeps_off tp 1 a b (all_bounds ops rim_pts Plate) (ox (1 / 2)).
Proof.
  intros Ha Hb K. assert (dist_to (all_bounds ops rim_pts Plate) (ox (1 / 2)) (1 / 4)) as HD.
  { destruct (hole_dist (1 / 2) ltac:(lra)) as [(y & Hy & Ey) Hm]. split.
    - exists y. split; [exists Hole; split; [cbn; auto|exact Hy]|lra].
    - intros z (w & Hw & Hz). cbn in Hw. destruct Hw as [<-|[<-|[]]]; cbn in Hz.
      + apply (proj2 (outer_dist (1 / 2) ltac:(lra))) in Hz. lra.
      + apply Hm in Hz. lra. }
  destruct (K _ HD) as [C|C]; [|lra]. pose proof tp_small. lra.
Qed.
(** a point at the distance 3 of the outer boundary: the tolerance makes no difference *)
Lemma eps_ignored : on_shape_boundary ops (ox 1) Plate 10 = Ok false /\ dist_to (rim_pts Outer) (ox 1) 3 /\ 3 < 10.
Proof.
  split; [|split; [|lra]].
  - unfold on_shape_boundary. cbn [ops so_point_wire so_outer so_wire_box obind]. fold tp. rn. cbn [ox vx]. rcmp; [pose proof tp_small; lra|reflexivity].
  - replace 3 with (4 - 1) by lra. apply outer_dist. lra.
Qed.
(** the cylinder surface *)
Definition only_angle : list (cop R) := [SetMinAngle 1; SetEps (1 / 10)].
Lemma tube_thrown c u : ent_eps (ESurf c) = Ok u -> sh_evaluate 1000 ops (crun 0 (rev only_angle)) (SGeo (ESurf c)) (SShape Plate) = Throw RuntimeError.
Proof.
  intros Hu. apply (surf_shape_throws 1000 ops only_angle (SGeo (ESurf c)) (SShape Plate) u tk [PEdge Ring] 1 Hu eq_refl I); try reflexivity.
  - cbn [sh_intersect_eps]. change (is_eps only_angle u tk) with (1 / 10). unfold int_surf_face.
    cbn [ops so_shapes so_surf_box so_surf]. rewrite kern_meet by reflexivity. cbn [negb]. rewrite tube_result. reflexivity.
  - intros f [C|[]]. discriminate.
Qed.

(** two squares that overlap (FaceFaceExamples) *)
Definition flat_ops : shape_ops R FaceFaceExamples.fig FaceFaceExamples.border FaceFaceExamples.fig := {|
  so_ent := xo; so_shapes := FaceFaceExamples.figs; so_face := fun _ => FaceFaceExamples.Floor; so_surf := fun _ => FaceFaceExamples.Floor;
  so_surf_box := fun _ => mkBox (mkV3 (-10) (-10) (-10)) (mkV3 10 10 10);
  so_surface := fun _ => plate_surface; so_curve := fun _ => mkCurve 0 1 ox; so_first := fun _ => ox 0; so_last := fun _ => ox 1;
  so_length := fun _ => Ok 1; so_area := fun _ => Ok (1 / 2); so_outer := fun f => f;
  so_wire_box := fun _ => mkBox (mkV3 0 0 0) (mkV3 1 1 0); so_dist := fun _ _ => Ok 0; so_point_wire := fun _ _ => Ok 0; so_ellipse_wire := fun _ _ => Ok 0 |}.
Definition overlap (h : list (cop R)) (r : list (@sh_piece R FaceFaceExamples.fig FaceFaceExamples.border)) : Prop :=
  let g1 := SShape FaceFaceExamples.Floor in let g2 := SShape FaceFaceExamples.Slab in
  exists u1 u2, sh_eps flat_ops g1 = Ok u1 /\ sh_eps flat_ops g2 = Ok u2 /\ sh_intersect_eps flat_ops g1 g2 (is_eps h u1 u2) = Ok r.
Lemma overlap_case h : active_eps h = Some (1 / 10) -> overlap h [PFace FaceFaceExamples.Right].
Proof.
  intros He. do 2 eexists. split; [reflexivity|]. split; [reflexivity|]. unfold is_eps. rewrite He. cbn [sh_intersect_eps flat_ops so_shapes].
  rewrite FaceFaceExamples.slab_result. reflexivity.
Qed.
(** with a distance between the faces and their common boundaries, this pair is not admissible; it
    is if only the area is limited, and overlaps are allowed *)
Definition area_calls (a : bool) : list (cop R) := [AllowEquiDim a; SetMinMagnitude (1 / 3); SetEps (1 / 10)].
Lemma overlap_area : sh_evaluate 1000 flat_ops (crun 0 (rev (area_calls true))) (SShape FaceFaceExamples.Floor) (SShape FaceFaceExamples.Slab) = Ok true.
Proof.
  unfold sh_evaluate, evaluate. cbn [area_calls rev app crun fold_left cstep c_init useMinIsMagnitude useMinIsAngle useMinIsDistance useMinDistance useIntersectionEps intersectionEps
    negb andb orb k_intersect sh_kernel sh_intersect sh_intersect_eps flat_ops so_shapes].
  rewrite FaceFaceExamples.slab_result. cbn [map of_spiece obind is_empty forallb is_empty_piece andb negb allowEquiDimIS minIsMagnitude].
  unfold adm_mag. cbn [all_of]. change (adm_mag_piece (fun x y : R => nleb y x) (sh_kernel 1000 flat_ops) (1 / 3) (PFace FaceFaceExamples.Right)) with (@Ok bool (nleb (1 / 3) (1 / 2))).
  rn. replace (Rleb (1 / 3) (1 / 2)) with true by (symmetry; apply Rleb_true; lra). reflexivity.
Qed.
Lemma overlap_cases :
  (forall a, overlap (area_calls a) [PFace FaceFaceExamples.Right] /\ ~ no_constraint (area_calls a) /\ equi_dim_allowed (area_calls a) = a) /\
  overlap (calls 1 1) [PFace FaceFaceExamples.Right] /\
  sh_evaluate 1000 flat_ops (crun 0 (rev (area_calls true))) (SShape FaceFaceExamples.Floor) (SShape FaceFaceExamples.Slab) = Ok true.
Proof.
  split; [|split; [apply overlap_case; reflexivity|exact overlap_area]]. intros a. split; [apply overlap_case; reflexivity|]. split; [|reflexivity].
  unfold no_constraint. cbn. intros (_ & _ & H & _). discriminate.
Qed.
Lemma holes_case :
  sh_intersect_eps ops (SGeo (EFace qb)) (SShape Plate) (1 / 10) = Ok [PEdge Trace] /\ so_first ops Trace = ox (1 / 2) /\
  active_is_distance (calls (1 / 2) 1) = Some 1 /\
  sh_evaluate 1000 ops (crun 0 (rev (calls (1 / 2) 1))) (SGeo (EFace qb)) (SShape Plate) = Ok true /\
  forall a b, 0 <= a <= 1 / 10 -> 0 <= b -> ~ keeps_off tp 1 a b (all_bounds ops rim_pts Plate) (ox (1 / 2)).
Proof.
  split; [cbn [sh_intersect_eps]; unfold int_geo_face; cbn [ops so_shapes so_face]; rewrite strip_result; reflexivity|].
  split; [reflexivity|]. split; [reflexivity|]. split; [apply quad_eval; lra|exact hole_near].
Qed.
