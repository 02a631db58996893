(** Examples for the intersections of face shapes. *)

From Coq Require Import Reals Lra List Bool.
From Verif Require Import Base NumModel VecModel LinModel FaceFaceModel GeoSpec LinSpec FaceFaceSpec GeoLemmas LinProofs BoxProofs SegIntProofs FaceFaceProofs.
Import ListNotations.
Local Open Scope R_scope.

(** A square, its two halves, a wall on the line between them, a square that overlaps with the
    right half, a triangle that stands on its tip, and a bowl that touches the square. *)
Inductive fig := Floor | Left | Right | Wall | Slab | Fin | Bowl.
Definition square (x0 x1 : R) (p : pt) : Prop := (x0 <= vx p <= x1 /\ 0 <= vy p <= 1) /\ vz p = 0.
Definition fig_pts (f : fig) (p : pt) : Prop :=
  match f with
  | Floor => square 0 1 p
  | Left => square 0 (1 / 2) p
  | Right => square (1 / 2) 1 p
  | Slab => square (1 / 2) (3 / 2) p
  | Wall => (0 <= vy p <= 1 /\ -1 <= vz p <= 1) /\ vx p = 1 / 2
  | Fin => (0 <= vz p <= 1 /\ - vz p <= vx p - 1 / 2 <= vz p) /\ vy p = 1 / 2
  | Bowl => vz p <= 1 /\ vz p = (vx p - 1 / 2) * (vx p - 1 / 2) + (vy p - 1 / 2) * (vy p - 1 / 2)
  end.
Lemma fig_dec f p : {fig_pts f p} + {~ fig_pts f p}.
Proof.
  assert (forall A B : Prop, {A} + {~ A} -> {B} + {~ B} -> {A /\ B} + {~ (A /\ B)}) as D by tauto.
  destruct f; cbn; unfold square; repeat (apply D); try apply Rle_dec; apply Req_EM_T.
Qed.
(** the edge between the halves, in the orientation of the left and of the right half *)
Inductive border := OfLeft | OfRight.
Definition border_pts (e : border) (p : pt) : Prop := (vx p = 1 / 2 /\ 0 <= vy p <= 1) /\ vz p = 0.

Definition corners (x0 x1 z : R) : list pt := [mkV3 x0 0 z; mkV3 x1 0 z; mkV3 x1 1 z; mkV3 x0 1 z].
Definition tip : pt := mkV3 (1 / 2) (1 / 2) 0.
(** every face has one wire, named like the face *)
Definition figs : shape_kernel R fig border fig := {|
  sk_common f g _ := match f, g with Floor, Slab => [Right] | _, _ => [] end;
  sk_cut f g _ := match f, g with Floor, Wall => [Left; Right] | Floor, Slab => [Left] | _, _ => [f] end;
  sk_wires f := [f];
  sk_wire_common w f _ := match w, f with Left, Wall | Left, Slab => [OfLeft] | Right, Wall => [OfRight] | _, _ => [] end;
  sk_edge_common e f _ := match f with Left | Right => [e] | _ => [] end;
  sk_same _ _ := true;
  sk_face_vertices f := match f with Right => corners (1 / 2) 1 0 | _ => [] end;
  sk_edge_vertices _ := [mkV3 (1 / 2) 0 0; mkV3 (1 / 2) 1 0];
  sk_wire_cut w f _ := match w, f with
    | Floor, Wall => corners 0 1 0 ++ [mkV3 (1 / 2) 0 0; mkV3 (1 / 2) 1 0]
    | Wall, _ => [mkV3 (1 / 2) 0 1; mkV3 (1 / 2) 1 1; mkV3 (1 / 2) 0 (-1); mkV3 (1 / 2) 1 (-1); mkV3 (1 / 2) 0 0; mkV3 (1 / 2) 1 0]
    | Floor, Slab => corners 0 (1 / 2) 0
    | Slab, _ => corners 1 (3 / 2) 0
    | Floor, _ => corners 0 1 0
    | Fin, _ => [tip; mkV3 (-1 / 2) (1 / 2) 1; mkV3 (3 / 2) (1 / 2) 1]
    | Bowl, _ => [mkV3 (3 / 2) (1 / 2) 1]
    | _, _ => []
    end;
  sk_point_common p f _ := if fig_dec f p then [p] else [];
  sk_box _ := mkBox (mkV3 (-5) (-5) (-5)) (mkV3 5 5 5);
|}.

Lemma figs_boxed f : shape_boxed figs fig_pts f.
Proof. intros [x y z] Hp. destruct f; cbn in Hp; unfold square in Hp; cbn in Hp; unfold in_box; cbn; repeat split; try lra;
  pose proof (Rle_0_sqr (x - 1 / 2)); pose proof (Rle_0_sqr (y - 1 / 2)); unfold Rsqr in *; nra. Qed.

(** cases of boundary edges and vertices *)
Lemma border_cases f g eps e : boundary_edge figs f g eps e ->
  exists h, In h (sk_cut figs f g eps) /\ In e (sk_wire_common figs h g eps).
Proof. intros (h & w & Hh & [<-|[]] & He). eauto. Qed.
Lemma vertex_cases f g eps p : boundary_vertex figs f g eps p <-> In p (sk_wire_cut figs f g eps) /\ fig_pts g p.
Proof.
  unfold boundary_vertex. cbn [sk_wires sk_point_common figs]. split.
  - intros [(w & [<-|[]] & Hp) Hn]. split; [exact Hp|]. destruct (fig_dec g p); tauto.
  - intros [Hp Hg]. split; [exists f; cbn; auto|]. destruct (fig_dec g p); [discriminate|tauto].
Qed.

Ltac on_cases H := cbn in H; repeat (destruct H as [<-|H]; [|]); try destruct H.
Ltac close := try discriminate; try tauto; cbn in *; unfold square, border_pts in *; cbn in *; try tauto; try lra; repeat split; try lra; try nra.

Lemma vertex_own f g eps p : In p (sk_wire_cut figs f g eps) -> fig_pts f p.
Proof. destruct f, g; cbn; intros H; repeat (destruct H as [<-|H]); try destruct H; close. Qed.
Lemma figs_vertices f g eps p : boundary_vertex figs f g eps p -> fig_pts f p /\ fig_pts g p.
Proof. intros H. apply vertex_cases in H as [H1 H2]. split; [now apply vertex_own in H1|exact H2]. Qed.

Definition pair_of (g : fig) : Prop := g = Wall \/ g = Slab \/ g = Fin \/ g = Bowl.
Lemma figs_common g eps : pair_of g -> finds_common figs fig_pts border_pts Floor g eps.
Proof.
  intros Hg. split.
  - intros f x Hf Hx. destruct Hg as [->|[->|[->| ->]]]; on_cases Hf; close.
  - intros e x He Hx. apply border_cases in He as (h & Hh & He). destruct Hg as [->|[->|[->| ->]]]; on_cases Hh; on_cases He; close.
  - intros p Hp. now apply figs_vertices in Hp.
  - intros p Hp. apply figs_vertices in Hp. tauto.
Qed.
Lemma figs_all g eps : g = Wall \/ g = Slab \/ g = Fin -> finds_all figs fig_pts border_pts Floor g eps.
Proof.
  intros Hg. split.
  - intros x H1 H2. destruct Hg as [->|[->| ->]].
    + right. left. exists OfLeft. split; [|close]. exists Left, Left. cbn. auto.
    + left. exists Right. cbn. split; [auto|close].
    + right. right. right. apply vertex_cases. split; [|exact H1]. destruct x as [x y z]. cbn in *. unfold square in *. cbn in *. left. unfold tip. f_equal; lra.
  - intros f p Hp. destruct f; on_cases Hp; close.
  - intros e p Hp. on_cases Hp; close.
  - intros e f x Hf Hs Hx. destruct Hg as [->|[->| ->]]; on_cases Hf; close.
  - intros e e' x _. cbn. reflexivity.
Qed.

(** ** The results *)

Lemma figs_meet f g : do_intersect (sk_box figs f) (sk_box figs g) (1 / 10) = true.
Proof. apply (do_intersect_shared _ _ _ (mkV3 0 0 0)); [lra|..]; unfold in_box; cbn; lra. Qed.
Lemma far_pt (p q : pt) : 1 / 10 <= dist p q -> pt_eq p q (1 / 10) = false.
Proof. intros H. destruct (pt_eq p q (1 / 10)) eqn:E; [|reflexivity]. apply pt_eq_dist in E; lra. Qed.
Lemma near_pt (p : pt) : pt_eq p p (1 / 10) = true.
Proof. apply pt_eq_dist; [lra|]. rewrite dist_self. lra. Qed.
Lemma is_on_in p f eps : fig_pts f p -> is_on figs p f eps = true.
Proof. intros H. apply is_on_spec. cbn. destruct (fig_dec f p); [discriminate|tauto]. Qed.
Lemma is_on_out p f eps : ~ fig_pts f p -> is_on figs p f eps = false.
Proof. intros H. unfold is_on. cbn. destruct (fig_dec f p); [tauto|reflexivity]. Qed.
Ltac on_off := repeat (first [rewrite is_on_in by close | rewrite is_on_out by (intros ?C; close)]).

(** the left and the right half have the same edge, which is returned once *)
Lemma wall_result : int_face_face figs Floor Wall (1 / 10) = [SpEdge OfLeft].
Proof.
  unfold int_face_face. rewrite figs_meet. cbn [negb]. unfold face_face_3d, candidates.
  cbn [sk_common sk_wires sk_wire_cut figs flat_map app corners filter]. on_off.
  cbn -[pt_eq]. rewrite !near_pt, ?orb_true_r. cbn -[pt_eq]. rewrite ?orb_true_r. reflexivity.
Qed.
(** the edge is on the common face *)
Lemma slab_result : int_face_face figs Floor Slab (1 / 10) = [SpFace Right].
Proof.
  unfold int_face_face. rewrite figs_meet. cbn [negb]. unfold face_face_3d, candidates.
  cbn [sk_common sk_wires sk_wire_cut figs flat_map app corners filter]. on_off.
  cbn -[pt_eq]. rewrite !near_pt, ?orb_true_r. cbn -[pt_eq]. rewrite ?orb_true_r. reflexivity.
Qed.
Lemma fin_result : int_face_face figs Floor Fin (1 / 10) = [SpPoint tip].
Proof.
  unfold int_face_face. rewrite figs_meet. cbn [negb]. unfold face_face_3d, candidates.
  cbn [sk_common sk_wires sk_wire_cut figs flat_map app corners filter]. unfold tip. on_off. reflexivity.
Qed.
(** the bowl and the square touch in the tip *)
Lemma bowl_empty : fig_pts Floor tip /\ fig_pts Bowl tip /\ int_face_face figs Floor Bowl (1 / 10) = [SpEmpty].
Proof.
  split; [unfold tip; close|]. split; [unfold tip; close|]. apply inner_touch.
  - reflexivity.
  - intros e He. apply border_cases in He as (h & Hh & He). on_cases Hh. on_cases He.
  - intros p Hp. apply vertex_cases in Hp as [Hp Hb]. cbn in Hp. repeat (destruct Hp as [<-|Hp]); try destruct Hp; cbn in Hb; lra.
  - intros p Hp. apply vertex_cases in Hp as [Hp Hb]. cbn in Hp. repeat (destruct Hp as [<-|Hp]); try destruct Hp; cbn in Hb; unfold square in Hb; cbn in Hb; lra.
Qed.

(** the floor as a geometry with its own bounding box *)
Lemma floor_case : (forall x, fig_pts ((fun _ : unit => Floor) tt) x -> in_box ((fun _ : unit => mkBox (mkV3 0 0 0) (mkV3 1 1 0)) tt) x) /\
  finds_common figs fig_pts border_pts Floor Slab (1 / 10) /\ finds_all figs fig_pts border_pts Floor Slab (1 / 10) /\
  int_geo_face figs (fun _ : unit => Floor) tt Slab (1 / 10) = [SpFace Right].
Proof.
  split; [intros x H; cbn in H; unfold square in H; unfold in_box; cbn; lra|].
  split; [apply figs_common; unfold pair_of; auto|]. split; [apply figs_all; auto|]. exact slab_result.
Qed.
(** what is found, and what is left of it *)
Lemma kept_case : boundary_edge figs Floor Wall (1 / 10) OfLeft /\ boundary_edge figs Floor Wall (1 / 10) OfRight /\ int_face_face figs Floor Wall (1 / 10) = [SpEdge OfLeft] /\
  boundary_edge figs Floor Slab (1 / 10) OfLeft /\ share_edge figs OfLeft Right (1 / 10) /\ int_face_face figs Floor Slab (1 / 10) = [SpFace Right] /\
  boundary_vertex figs Fin Floor (1 / 10) tip /\ int_face_face figs Floor Fin (1 / 10) = [SpPoint tip].
Proof.
  split; [exists Left, Left; cbn; auto|]. split; [exists Right, Right; cbn; auto|]. split; [exact wall_result|].
  split; [exists Left, Left; cbn; auto|]. split; [discriminate|]. split; [exact slab_result|].
  split; [apply vertex_cases; unfold tip; split; [left; reflexivity|close]|exact fin_result].
Qed.
