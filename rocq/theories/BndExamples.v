(** A rod beside a square, and a point in a hollow ball and in a plate with a hole. *)

From Coq Require Import Reals List Lra Psatz.
From Verif Require Import Base NumModel VecModel LinModel RoundModel PolyModel IntModel DistModel BndModel GeoSpec LinSpec RoundSpec PolySpec
  DistSpec IntSpec EvalSpec BndSpec GeoLemmas LinProofs PolyProofs PolyBridge QuadProofs DistProofs SegIntProofs2 FaceIntProofs EvalProofs BndProofs.
Import ListNotations.
Local Open Scope R_scope.

Inductive thing := Rod | Spot | Side (s : segment R) | Curve | Ball | Hollow | Plate | OuterOf (h : thing).
Inductive geom := GRod | GSpot.

Definition spot : pt := mkV3 (3 / 2) 0 0.
Definition origin : pt := mkV3 0 0 0.
(** the rod, spheres about the origin, squares about the origin *)
Definition rod (p : pt) : Prop := vx p = -3 /\ 0 <= vy p <= 4 /\ vz p = 0.
Definition sphere_of (r : R) (p : pt) : Prop := dist origin p = r.
Definition rim (a : R) (p : pt) : Prop := vz p = 0 /\ - a <= vx p <= a /\ - a <= vy p <= a /\ (vx p = a \/ vx p = - a \/ vy p = a \/ vy p = - a).

Definition outer_of (h : thing) : pt -> Prop :=
  match h with Ball | Hollow => sphere_of 4 | Plate => rim 4 | _ => fun _ => False end.
Definition whole_of (h : thing) : pt -> Prop :=
  match h with
  | Ball => sphere_of 4
  | Hollow => fun p => sphere_of 4 p \/ sphere_of 1 p
  | Plate => fun p => rim 4 p \/ rim 1 p
  | _ => fun _ => False end.
Definition pts_of (h : thing) : pt -> Prop :=
  match h with Rod => rod | Spot => eq spot | Side s => on_segment (s_src s) (s_tgt s) | OuterOf h => outer_of h | _ => fun _ => False end.
Definition kern : bnd_ops R thing geom := {|
  bo_dist h h' := match h, h' with
    | Rod, Side s => Ok (Rmin (vx (s_src s)) (vx (s_tgt s)) + 3)
    | Spot, OuterOf _ => Ok (5 / 2)
    | _, _ => Throw RuntimeError end;
  bo_geo g := match g with GRod => Rod | GSpot => Spot end;
  bo_segment := Side; bo_ellipse := fun _ => Curve; bo_wire := OuterOf; bo_shell := OuterOf |}.

Definition sq : quad R := make_quad (mkV3 0 0 0) (mkV3 4 0 0) (mkV3 0 4 0) (mkV3 4 4 0).

(** distances along the first axis *)
Lemma dist_x (p q : pt) : vx q - vx p <= dist p q.
Proof.
  unfold dist, norm. eapply Rle_trans; [apply Rle_abs|]. rewrite <- sqrt_Rsqr_abs. apply sqrt_le_1_alt.
  destruct p as [px py pz], q as [qx qy qz]. unfold Rsqr, dot, psub. cbn [vx vy vz].
  pose proof (Rle_0_sqr (py - qy)). pose proof (Rle_0_sqr (pz - qz)). unfold Rsqr in *. lra.
Qed.
Lemma dist_row (p q : pt) : vx p <= vx q -> vy p = vy q -> vz p = vz q -> dist p q = vx q - vx p.
Proof.
  intros H1 H2 H3. unfold dist, norm.
  replace (dot (psub p q) (psub p q)) with ((vx q - vx p) * (vx q - vx p)) by (destruct p as [px py pz], q as [qx qy qz]; unfold dot, psub; cbn [vx vy vz] in *; rewrite H2, H3; ring).
  apply sqrt_square. lra.
Qed.

Lemma rod_side (a b : pt) : 0 <= vx a -> 0 <= vx b -> 0 <= vy a <= 4 -> 0 <= vy b <= 4 -> vz a = 0 -> vz b = 0 ->
  set_dist rod (on_segment a b) (Rmin (vx a) (vx b) + 3).
Proof.
  intros Xa Xb Ya Yb Za Zb. split.
  - assert (W : forall c : pt, 0 <= vx c -> 0 <= vy c <= 4 -> vz c = 0 -> rod (mkV3 (-3) (vy c) 0) /\ vx c + 3 = dist (mkV3 (-3) (vy c) 0) c).
    { intros c Xc Yc Zc. split; [unfold rod; cbn; lra|]. rewrite dist_row by (cbn; lra). cbn. lra. }
    unfold Rmin. destruct (Rle_dec (vx a) (vx b)).
    + destruct (W a) as [W1 W2]; [assumption..|]. exists (mkV3 (-3) (vy a) 0), a. split; [exact W1|]. split; [|exact W2].
      exists 0. split; [lra|]. destruct a as [ax ay az], b as [bx yb bz]. unfold padd, pscale. cbn [vx vy vz]. f_equal; ring.
    + destruct (W b) as [W1 W2]; [assumption..|]. exists (mkV3 (-3) (vy b) 0), b. split; [exact W1|]. split; [|exact W2].
      exists 1. split; [lra|]. destruct a as [ax ay az], b as [bx yb bz]. unfold padd, pscale. cbn [vx vy vz]. f_equal; ring.
  - intros x y (Hx & _ & _) (t & Ht & ->). eapply Rle_trans; [|apply dist_x]. rewrite Hx. unfold padd, pscale. cbn [vx].
    destruct a as [ax ay az], b as [bx bym bz]. cbn [vx] in *. unfold Rmin. destruct (Rle_dec ax bx); cbn; nra.
Qed.
Lemma sq_computes : computes kern pts_of outer_of Rod (TQuad sq).
Proof.
  cbn [computes corners]. unfold around. rewrite edges4. intros a b Hab.
  assert (C : forall c : pt, In c [mkV3 0 0 0; mkV3 4 0 0; mkV3 0 4 0; mkV3 4 4 0] -> 0 <= vx c /\ 0 <= vy c <= 4 /\ vz c = 0).
  { intros c [<-|[<-|[<-|[<-|[]]]]]; cbn; lra. }
  assert (In a [mkV3 0 0 0; mkV3 4 0 0; mkV3 0 4 0; mkV3 4 4 0] /\ In b [mkV3 0 0 0; mkV3 4 0 0; mkV3 0 4 0; mkV3 4 4 0]) as [Ha Hb].
  { destruct Hab as [E|[E|[E|[E|[]]]]]; injection E as <- <-; cbn; auto 8. }
  apply C in Ha, Hb. destruct Ha as (A1 & A2 & A3), Hb as (B1 & B2 & B3).
  split; (eexists; split; [apply rod_side; assumption|reflexivity]).
Qed.
Lemma sq_dist : set_dist rod (edge_set (FQuad sq)) 3.
Proof.
  split.
  - exists (mkV3 (-3) 0 0), (mkV3 0 0 0). split; [unfold rod; cbn; lra|]. split; [|rewrite dist_row by (cbn; lra); cbn; lra].
    cbn [edge_set]. unfold boundary, around. rewrite edges4. exists (q_0 sq, q_1 sq). split; [cbn; auto|].
    exists 0. split; [lra|]. cbn [sq make_quad q_0 q_1 fst snd]. unfold padd, pscale. cbn [vx vy vz]. f_equal; ring.
  - intros x y (Hx & _) Hy. eapply Rle_trans; [|apply dist_x]. rewrite Hx.
    cbn [edge_set] in Hy. unfold boundary, around in Hy. rewrite edges4 in Hy. destruct Hy as (ab & [<-|[<-|[<-|[<-|[]]]]] & t & Ht & ->);
      cbn [sq make_quad q_0 q_1 q_2 q_3 fst snd]; unfold padd, pscale; cbn [vx vy vz]; lra.
Qed.
(** spheres *)
Lemma spot_sphere r : 3 / 2 <= r -> set_dist (eq spot) (sphere_of r) (r - 3 / 2).
Proof.
  intros Hr. split.
  - exists spot, (mkV3 r 0 0). split; [reflexivity|]. unfold sphere_of, spot, origin. rewrite !dist_row by (cbn; lra). cbn. lra.
  - intros x y <- Hy. unfold sphere_of in Hy. pose proof (dist_triangle origin spot y). rewrite Hy in *.
    unfold origin, spot in *. rewrite (dist_row (mkV3 0 0 0)) in * by (cbn; lra). cbn [vx] in *. lra.
Qed.
Lemma spot_inner : set_dist (eq spot) (sphere_of 1) (1 / 2).
Proof.
  assert (E : dist origin spot = 3 / 2) by (unfold origin, spot; rewrite dist_row by (cbn; lra); cbn; lra). split.
  - exists spot, (mkV3 1 0 0). split; [reflexivity|]. unfold sphere_of, origin, spot. rewrite dist_row by (cbn; lra).
    split; [cbn; lra|]. rewrite dist_sym, dist_row by (cbn; lra). cbn. lra.
  - intros x y <- Hy. unfold sphere_of in Hy. pose proof (dist_triangle origin y spot) as T. rewrite (dist_sym y spot) in T. lra.
Qed.
Lemma ball_computes : computes kern pts_of outer_of Spot (TSolid Ball) /\ unpierced (G:=geom) outer_of whole_of (TSolid Ball) /\
  set_dist (eq spot) (whole_of Ball) (5 / 2).
Proof.
  pose proof (spot_sphere 4 ltac:(lra)) as S. replace (4 - 3 / 2) with (5 / 2) in S by lra.
  split; [exists (5 / 2); split; [exact S|reflexivity]|]. split; [intros x; reflexivity|exact S].
Qed.
Lemma hollow_lemma : computes kern pts_of outer_of (bo_geo kern GSpot) (TSolid Hollow) /\
  set_dist (pts_of (bo_geo kern GSpot)) (target_bound (G:=geom) whole_of (TSolid Hollow)) (1 / 2) /\
  geo_to_boundary kern GSpot (TSolid Hollow) = Ok (5 / 2).
Proof.
  pose proof (spot_sphere 4 ltac:(lra)) as S. replace (4 - 3 / 2) with (5 / 2) in S by lra.
  split; [exists (5 / 2); split; [exact S|reflexivity]|]. split; [|reflexivity].
  cbn [target_bound whole_of bo_geo kern pts_of].
  replace (1 / 2) with (Rmin (5 / 2) (1 / 2)) by (rewrite Rmin_right; lra). apply set_dist_union; [exact S|exact spot_inner].
Qed.
(** plates *)
Lemma spot_rim : set_dist (eq spot) (rim 4) (5 / 2).
Proof.
  split.
  - exists spot, (mkV3 4 0 0). unfold rim, spot. split; [reflexivity|]. rewrite dist_row by (cbn; lra). cbn. split; [lra|lra].
  - intros x y <- (Hz & Hx & Hy & Hs). unfold dist, norm. rewrite <- (sqrt_square (5 / 2)) by lra. apply sqrt_le_1_alt.
    destruct y as [a b c]. unfold dot, psub, spot. cbn [vx vy vz] in *. destruct Hs as [->|[->|[->| ->]]]; nra.
Qed.
Lemma spot_hole : set_dist (eq spot) (rim 1) (1 / 2).
Proof.
  split.
  - exists spot, (mkV3 1 0 0). unfold rim, spot. split; [reflexivity|]. rewrite dist_sym, dist_row by (cbn; lra). cbn. split; [lra|lra].
  - intros x y <- (Hz & Hx & Hy & Hs). rewrite dist_sym. eapply Rle_trans; [|apply dist_x]. unfold spot. cbn [vx]. lra.
Qed.
Lemma plate_lemma : computes kern pts_of outer_of (bo_geo kern GSpot) (TFace Plate) /\
  set_dist (pts_of (bo_geo kern GSpot)) (target_bound (G:=geom) whole_of (TFace Plate)) (1 / 2) /\
  geo_to_boundary kern GSpot (TFace Plate) = Ok (5 / 2).
Proof.
  split; [exists (5 / 2); split; [exact spot_rim|reflexivity]|]. split; [|reflexivity].
  cbn [target_bound whole_of bo_geo kern pts_of].
  replace (1 / 2) with (Rmin (5 / 2) (1 / 2)) by (rewrite Rmin_right; lra). apply set_dist_union; [exact spot_rim|exact spot_hole].
Qed.
Lemma sq_lemma top : 3 <= top -> shape_to_boundary top kern (bo_geo kern GRod) (TQuad sq) = Some (Ok 3) /\
  geo_to_boundary kern GRod (TQuad sq) = Throw RuntimeError.
Proof.
  intros Ht. split; [|reflexivity].
  exact (shape_bound kern pts_of outer_of whole_of top Rod (TQuad sq) 3 sq_computes I sq_dist Ht).
Qed.
