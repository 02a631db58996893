(** Proofs about the intersection of a disk or a quadrilateral with a line. *)

From Coq Require Import Reals Lra Lia Psatz List Bool ZArith.
From Verif Require Import Base NumModel VecModel LinModel RoundModel PolyModel IntModel
  GeoSpec LinSpec RoundSpec PolySpec IntSpec GeoLemmas LinProofs BoxProofs EllProofs ArcProofs PolyProofs PolyBridge QuadProofs
  SegIntProofs SegIntProofs2 IntProofs FaceIntProofs.
Import ListNotations.
Local Open Scope R_scope.


Lemma face_line_throws K f l eps : is_poly f -> int_face_line K f l eps = Throw RuntimeError.
Proof. destruct f; cbn; tauto. Qed.

Lemma face_line_shape K f l eps : face_ok f -> ~ is_poly f ->
  exists L ceps, int_face_line K f l eps = planar_line K f l L ceps eps /\ reach f (2 * L).
Proof.
  intros HF HP. destruct f as [d|q|p]; cbn [is_poly] in HP; [| |tauto]; unfold int_face_line.
  - do 2 eexists. split; [reflexivity|]. pose proof (disk_size d HF). apply reach_disk; [exact HF|lra].
  - do 2 eexists. split; [reflexivity|]. intros x Hx.
    destruct (max_from_ge (quad_edge_lens q) n0) as [_ M].
    destruct (quad_lens_le q _ M) as (A & B & C & D). apply quad_radius; assumption.
Qed.

Lemma face_line_in K f l eps : 0 < eps -> face_ok f -> ~ is_poly f -> unit3 (l_dir l) ->
  (forall x, line_pts l x -> plane_pts (face_plane f) x) -> larger f eps -> exact_on K f l (1 / 10 * eps) ->
  exact_result (int_face_line K f l eps) (both (face_set f) (line_pts l)).
Proof.
  intros He HF HP Ud Hin HL HK. destruct (face_line_shape K f l eps HF HP) as (L & ceps & -> & HR).
  pose proof (larger_reach _ _ _ HL HR). apply planar_line_exact; auto using face_unit; [lra|].
  intros x Hx _. specialize (HR x Hx). lra.
Qed.

Lemma face_line_apart K f l eps : 0 < eps -> face_ok f -> ~ is_poly f ->
  ortho (l_dir l) (pl_n (face_plane f)) -> (forall q, plane_pts (face_plane f) q -> eps < dist (l_sup l) q) ->
  int_face_line K f l eps = Ok IsEmpty /\ forall x, ~ both (face_set f) (line_pts l) x.
Proof.
  intros He HF HP Ho Hs. pose proof (face_unit f HF) as Un.
  assert (Hh := Hs _ (plane_proj_on (face_plane f) (l_sup l) Un)). rewrite plane_dist in Hh by exact Un.
  split.
  - destruct (face_line_shape K f l eps HF HP) as (L & ceps & -> & _). unfold planar_line, plane_line.
    rewrite gp_normal_ortho by exact Ho. cbn [negb]. rewrite proj_dist by exact Un. cbn [nltb R_num].
    assert (Rltb eps (Rabs (dot (pl_n (face_plane f)) (psub (l_sup l) (pl_sup (face_plane f))))) = true) as ->
      by (apply Rltb_true; exact Hh). reflexivity.
  - intros x [A [t ->]]. apply (face_in f _ HF) in A. unfold plane_pts, on_plane in A.
    assert (E : dot (pl_n (face_plane f)) (psub (l_sup l) (pl_sup (face_plane f))) = 0).
    { rewrite <- A. unfold ortho in Ho. revert Ho. generalize (l_dir l) (pl_n (face_plane f)) (l_sup l) (pl_sup (face_plane f)).
      clear. intros d n p q Ho. replace (dot n (psub (padd p (pscale t d)) q)) with (dot n (psub p q) + t * dot d n) by (coords; ring).
      rewrite Ho. ring. }
    rewrite E, Rabs_R0 in Hh. lra.
Qed.

Lemma face_line_cross K f l eps : 0 < eps -> face_ok f -> ~ is_poly f -> unit3 (l_dir l) ->
  ~ level ang_tol l (face_plane f) -> point_ok (face_plane f) l (k_plane_line K (face_plane f) l) ->
  exists p, (forall x, both (plane_pts (face_plane f)) (line_pts l) x <-> x = p) /\
    (face_set f p -> int_face_line K f l eps = Ok (IsPoint p)) /\
    (~ thick f eps p -> int_face_line K f l eps = Ok IsEmpty) /\
    (int_face_line K f l eps = Ok (IsPoint p) \/ int_face_line K f l eps = Ok IsEmpty).
Proof.
  intros He HF HP Ud Hl Hp. pose proof (face_unit f HF) as Un.
  destruct (plane_line_exact K (face_plane f) l eps Un Ud He) as (r & E & D); [right; auto|].
  destruct Hp as (p & Ep & P1 & P2).
  assert (gp_normal (l_dir l) (pl_n (face_plane f)) angular = false) as Hg.
  { apply not_true_iff_false. rewrite gp_normal_iff. exact Hl. }
  assert (PC : plane_contains (face_plane f) p eps = true).
  { apply (plane_contains_dist (face_plane f) p eps 0 Un); [|exact He]. split; [exists p; split; [exact P1|apply dist_self]|].
    intros. apply dist_nonneg. }
  assert (E' : plane_line K (face_plane f) l eps = Ok (IsPoint p)).
  { unfold plane_line. rewrite Hg. cbn [negb]. rewrite Ep, PC. reflexivity. }
  rewrite E' in E. injection E as <-. exists p. split; [exact D|].
  assert (C : exists b, (int_face_line K f l eps = Ok (if b : bool then IsPoint p else IsEmpty)) /\
     (face_set f p -> b = true) /\ (~ thick f eps p -> b = false)).
  { destruct f as [d|q|pg]; cbn [is_poly] in HP; [| |tauto].
    - exists (disk_contains d p confusion false). unfold int_face_line, planar_line. rewrite E'. cbn [obind face_contains].
      split; [destruct disk_contains; reflexivity|]. destruct HF as [HF _].
      assert (Hz : dot (psub p (e_c d)) (e_n d) = 0).
      { change (dot (e_n d) (psub p (e_c d)) = 0) in P1. rewrite dot_comm. exact P1. }
      assert (Q : 0 < 1 + (1 / 10 ^ 7) * (1 / 10 ^ 7)) by (pose proof (pow_lt 10 7); nra).
      assert (Hk : (confusion : R) = 1 / 10 ^ 7) by (unfold confusion; rn; lra).
      split.
      + intros Hd. apply (disk_contains_char d HF). split; [discriminate|].
        apply (in_disk_char d HF 1 p ltac:(lra)) in Hd. rewrite Hk. nra.
      + cbn [thick]. intros Ht. apply not_true_iff_false. intros Hc. apply Ht.
        apply (disk_contains_char d HF) in Hc as [_ Hc]. rewrite Hk in Hc.
        apply in_disk_char; [exact HF|apply sqrt_lt_R0; exact Q|]. split; [exact Hz|].
        rewrite sqrt_sqrt by lra. exact Hc.
    - exists (quad_contains q p eps false). unfold int_face_line, planar_line. rewrite E'. cbn [obind face_contains].
      split; [destruct quad_contains; reflexivity|].
      destruct HF as (N & p0 & p1 & p2 & p3 & HC & ->). pose proof (quad_test N p0 p1 p2 p3 HC) as QT.
      cbn [thick face_set] in *.
      change (q_0 (make_quad p0 p1 p2 p3)) with p0 in *. change (q_1 (make_quad p0 p1 p2 p3)) with p1 in *.
      change (q_2 (make_quad p0 p1 p2 p3)) with p2 in *. change (q_3 (make_quad p0 p1 p2 p3)) with p3 in *.
      assert (I0 : In p0 (around p0 p1 p2 p3)) by (unfold around; cbn; auto). split.
      + intros Hh. apply (t_hull N (around p0 p1 p2 p3) p0 _ HC I0 QT); assumption.
      + intros Ht. apply not_true_iff_false. intros Hc. apply Ht. exists N. split; [exact HC|].
        apply (t_planar N (around p0 p1 p2 p3) p0 _ HC I0 QT) in Hc; [exact Hc|exact He|].
        apply quad_convex_ccw in HC as (HU & HPl & HF & _). destruct (planar_quad _ _ _ _ _ HPl) as (H1 & H2 & _).
        unfold plane_pts, on_plane in P1. cbn [face_plane make_quad q_plane] in P1.
        rewrite (plane_3p_normal N p0 p1 p2 HU H1 H2 HF) in P1. exact P1. }
  destruct C as (b & -> & B1 & B2). split; [intros H; rewrite (B1 H); reflexivity|].
  split; [intros H; rewrite (B2 H); reflexivity|]. destruct b; auto.
Qed.

(** ** intersect(segment, segment) *)
Lemma boxed_segs K s1 s2 eps r (S : isect R -> Prop) : 0 < eps -> seg_boxed K s1 -> seg_boxed K s2 ->
  (exists i, r = Ok i /\ describes i (both (seg_pts s1) (seg_pts s2)) /\ S i) -> S IsEmpty ->
  exists i, (if negb (do_intersect (k_seg_box K s1) (k_seg_box K s2) eps) then Ok IsEmpty else r) = Ok i /\
    describes i (both (seg_pts s1) (seg_pts s2)) /\ S i.
Proof.
  intros He B1 B2 Hr HS. destruct (do_intersect _ _ eps) eqn:D; cbn [negb]; [exact Hr|].
  exists IsEmpty. split; [reflexivity|]. split; [|exact HS]. cbn. intros x [A B].
  assert (do_intersect (k_seg_box K s1) (k_seg_box K s2) eps = true) by (apply (do_intersect_shared _ _ eps x); auto). congruence.
Qed.
Lemma int_segs_collinear K s1 s2 eps : 0 < eps -> nondeg s1 -> nondeg s2 -> seg_boxed K s1 -> seg_boxed K s2 -> clear s1 s2 eps ->
  fragments s1 s2 (k_fragment K s1 s2 (1 / 10 * eps)) -> parallel (seg_vec s1) (seg_vec s2) -> (forall p, ~ touch_at s1 s2 p) ->
  exists r, int_segs K s1 s2 eps = Ok r /\ describes r (both (seg_pts s1) (seg_pts s2)) /\ (r = IsEmpty \/ exists s, r = IsSeg s).
Proof.
  intros He N1 N2 B1 B2 HC HF HP HT. apply boxed_segs; auto. apply parallel_result; auto.
Qed.
Lemma int_segs_oblique K s1 s2 eps : 0 < eps -> nondeg s1 -> nondeg s2 -> seg_boxed K s1 -> seg_boxed K s2 -> clear s1 s2 eps ->
  fragments s1 s2 (k_fragment K s1 s2 (1 / 10 * eps)) -> oblique ang_tol (seg_vec s1) (seg_vec s2) ->
  exists r, int_segs K s1 s2 eps = Ok r /\ describes r (both (seg_pts s1) (seg_pts s2)) /\ (r = IsEmpty \/ exists p, r = IsPoint p).
Proof.
  intros He N1 N2 B1 B2 HC HF HO. apply boxed_segs; auto. apply seg_seg_oblique; auto.
Qed.
Lemma int_segs_touch K s1 s2 eps p : 0 < eps -> nondeg s1 -> nondeg s2 -> seg_boxed K s1 -> seg_boxed K s2 -> clear s1 s2 eps ->
  touch_at s1 s2 p -> int_segs K s1 s2 eps = Ok (IsSeg (mkSeg p p)).
Proof.
  intros He N1 N2 B1 B2 HC HT. unfold int_segs. destruct (proj2 (proj2 HT p) eq_refl) as [T1 T2].
  assert (do_intersect (k_seg_box K s1) (k_seg_box K s2) eps = true) as -> by (apply (do_intersect_shared _ _ eps p); auto).
  apply seg_seg_touch; auto.
Qed.
Lemma int_segs_sound K s1 s2 eps : nondeg s1 -> nondeg s2 -> 0 < eps ->
  parallel (seg_vec s1) (seg_vec s2) \/ oblique ang_tol (seg_vec s1) (seg_vec s2) ->
  (forall p, int_segs K s1 s2 eps = Ok (IsPoint p) -> near (seg_pts s1) eps p /\ near (seg_pts s2) eps p) /\
  (forall s, int_segs K s1 s2 eps = Ok (IsSeg s) ->
     forall x, seg_pts s x -> near (seg_pts s1) eps x /\ near (seg_pts s2) eps x).
Proof.
  intros N1 N2 He HO. destruct (seg_seg_sound K s1 s2 eps N1 N2 He HO) as (A & B & _). unfold int_segs.
  destruct negb; [split; intros; discriminate|]. split; assumption.
Qed.
