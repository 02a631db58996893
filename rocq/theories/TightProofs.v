(** Further facts about tolerances and intersections (used by TightProps). *)

From Coq Require Import ZArith Reals List Bool Lra Lia Psatz.
From Verif Require Import Base NumModel VecModel LinModel RoundModel PolyModel DistModel IntModel
  GeoSpec GeoLemmas LinSpec BoxProofs RoundSpec PolySpec PolyProofs PolyBridge QuadProofs PolyExamples DistSpec DistProofs LenProofs IntSpec IntProofs FaceIntProofs IntExamples.
Import ListNotations.
Local Open Scope R_scope.

Lemma dist_pos_ne p q : p <> q -> 0 < dist p q.
Proof.
  intros Hn. unfold dist. apply norm_pos. intros E. apply Hn. clear Hn.
  destruct p as [a b c], q as [x y z]. unfold psub in E. cbn in E. injection E as E1 E2 E3. f_equal; lra.
Qed.

Lemma quad_default N p0 p1 p2 p3 : convex_ccw N (around p0 p1 p2 p3) -> p0 <> p3 ->
  forall p chk, hull (around p0 p1 p2 p3) p -> quad_contains_default (make_quad p0 p1 p2 p3) p chk = true.
Proof.
  intros HC Hn p chk Hp. unfold quad_contains_default. apply (quad_hull N p0 p1 p2 p3 HC); [|exact Hp].
  change (0 < confusion * seg_len (mkSeg p0 p3)).
  rewrite seg_len_eq, confusion_R. cbn [s_src s_tgt]. pose proof (dist_pos_ne p0 p3 Hn). rn. nra.
Qed.

(** the default tolerances *)
Lemma eps_values :
  (forall s : segment R, eps_segment s = 1 / 10000000 * dist (s_src s) (s_tgt s)) /\
  (forall c : ell R, eps_circle c = 1 / 10000000 * e_a c) /\
  (forall e : ell R, eps_ellipse e = 1 / 10000000 * ((e_a e + e_b e) / 2) /\ eps_disk e = eps_ellipse e) /\
  (forall q : quad R, eps_quad q = 1 / 10000000 * (sqrt (q_area q) / 2)) /\
  (forall (pg : poly R) a, poly_get_area pg = Ok a -> eps_poly pg = Ok (1 / 10000000 * (sqrt a / 2))) /\
  (forall c : cyl R, eps_surf c = 1 / 10000000 * ((cyl_radius c + c_h c) / 2)) /\
  (forall b : box R, eps_box b = Ok (1 / 10000000 * dist (b_min b) (b_max b))) /\
  (forall s : sphere R, eps_sphere s = 1 / 10000000 * sp_r s).
Proof.
  repeat match goal with |- _ /\ _ => split end.
  - intros s. unfold eps_segment. rewrite seg_len_eq, confusion_R. rn. lra.
  - intros c. unfold eps_circle. rewrite confusion_R. rn. lra.
  - intros e. split; [|destruct e; reflexivity]. unfold eps_ellipse. rewrite confusion_R. rn. lra.
  - intros q. unfold eps_quad. rewrite confusion_R. rn. lra.
  - intros pg a E. unfold eps_poly. rewrite E. cbn [obind]. rewrite confusion_R. rn. f_equal. lra.
  - intros c. unfold eps_surf. rewrite confusion_R. rn. lra.
  - intros b. unfold eps_box. cbn [box_corner obind]. rewrite seg_len_eq, confusion_R. cbn [s_src s_tgt].
    destruct b as [[a1 a2 a3] [c1 c2 c3]]. cbn. rn. f_equal.
  - intros s. unfold eps_sphere. rewrite confusion_R. rn. lra.
Qed.

(** two disks of the same size whose parts on the common line are segments *)
Lemma disks_traces K (d1 d2 : ell R) l s1 s2 eps :
  do_intersect (k_face_box K (FDisk d1)) (k_face_box K (FDisk d2)) eps = true ->
  do_intersect (k_seg_box K s1) (k_seg_box K s2) eps = true ->
  e_a d1 = e_a d2 ->
  plane_plane K (ell_plane d1) (ell_plane d2) eps = Ok (IsLine l) ->
  int_face_line K (FDisk d1) l eps = Ok (IsSeg s1) ->
  int_face_line K (FDisk d2) l eps = Ok (IsSeg s2) ->
  int_faces K (FDisk d1) (FDisk d2) eps = int_segs K s1 s2 eps.
Proof.
  intros B1 B2 Ha Hl H1 H2. unfold int_faces, int_segs. rewrite B1, B2. cbn [negb].
  unfold disk_disk, planar_planar. cbn [face_plane]. rewrite Hl. cbn [obind].
  unfold int_face_line in H1, H2.
  assert (E1 : nmax (e_a d1) (e_a d2) = e_a d1).
  { unfold nmax. rewrite Ha. destruct (_ <? _)%num; reflexivity. }
  rewrite E1, H1. cbn [obind]. rewrite Ha, H2. cbn [obind].
  unfold seg_seg.
  repeat match goal with
  | |- context [if ?c then _ else _] => destruct c; cbn [obind]; try reflexivity
  | |- context [match first_on_both ?a ?b ?c ?d ?e with _ => _ end] => destruct (first_on_both a b c d e); cbn [obind]; try reflexivity
  | |- context [match first_on_both ?a ?b ?c ?d with _ => _ end] => destruct (first_on_both a b c d); cbn [obind]; try reflexivity
  end.
Qed.

(** concave faces *)
Lemma concave_throws K (f1 f2 : face R) eps :
  do_intersect (k_face_box K f1) (k_face_box K f2) eps = true ->
  match f1, f2 with
  | FQuad q1, FQuad q2 => q_convex q1 = false \/ q_convex q2 = false
  | FPoly p1, FPoly p2 => po_convex p1 = false \/ po_convex p2 = false
  | _, _ => False
  end -> int_faces K f1 f2 eps = Throw RuntimeError.
Proof.
  intros B H. unfold int_faces. rewrite B. cbn [negb].
  destruct f1 as [d1|q1|p1], f2 as [d2|q2|p2]; try contradiction.
  - unfold quad_quad. destruct H as [-> | ->]; cbn; [reflexivity|]. rewrite orb_true_r. reflexivity.
  - unfold poly_poly. destruct H as [-> | ->]; cbn; [reflexivity|]. rewrite orb_true_r. reflexivity.
Qed.

Lemma concave_quads K a0 a1 a2 a3 b0 b1 b2 b3 eps :
  let q1 := make_quad a0 a1 a2 a3 in let q2 := make_quad b0 b1 b2 b3 in
  do_intersect (k_face_box K (FQuad q1)) (k_face_box K (FQuad q2)) eps = true ->
  (noncollinear a0 a1 a2 /\ on_plane a0 (tri_normal a0 a1 a2) a3 /\ (forall N, ~ convex_ccw N (around a0 a1 a2 a3)))
  \/ (noncollinear b0 b1 b2 /\ on_plane b0 (tri_normal b0 b1 b2) b3 /\ (forall N, ~ convex_ccw N (around b0 b1 b2 b3))) ->
  int_faces K (FQuad q1) (FQuad q2) eps = Throw RuntimeError.
Proof.
  intros q1 q2 B H. apply concave_throws; [exact B|].
  destruct H as [(Hn & Hp & Hc) | (Hn & Hp & Hc)]; [left|right]; apply not_true_is_false; intros E;
    apply convex_flag_iff in E; try assumption; exact (Hc _ E).
Qed.

Lemma dq_concave : noncollinear (fl 4 0) (fl 1 1) (fl 0 0) /\ on_plane (fl 4 0) (tri_normal (fl 4 0) (fl 1 1) (fl 0 0)) (fl 0 4) /\
  forall N, ~ convex_ccw N (around (fl 4 0) (fl 1 1) (fl 0 0) (fl 0 4)).
Proof.
  assert (Hn : noncollinear (fl 4 0) (fl 1 1) (fl 0 0)).
  { unfold noncollinear, cross, psub, fl, zero3. cbn. intros E. injection E as E. lra. }
  split; [exact Hn|].
  assert (HP : on_plane (fl 4 0) (tri_normal (fl 4 0) (fl 1 1) (fl 0 0)) (fl 0 4)).
  { unfold on_plane, tri_normal, to_dir, vdiv. set (L := vlen _). clearbody L. unfold cross, psub, fl, dot. cbn. rn. unfold Rdiv. ring. }
  split; [exact HP|]. intros N HC.
  destruct (convex_normal_unique N _ _ _ _ HC) as (_ & -> & _).
  apply convex_flag_iff in HC; [|assumption|assumption].
  destruct dq_area as (_ & E & _). unfold dq in E. rewrite E in HC. discriminate.
Qed.
Lemma dq_case : int_faces xk (FQuad dq) (FQuad dq) (1 / 10) = Throw RuntimeError.
Proof.
  apply concave_throws; [|left; exact (proj1 (proj2 dq_area))].
  apply (do_intersect_shared _ _ _ (mkV3 0 0 0)); [lra| |]; unfold in_box; cbn; lra.
Qed.
