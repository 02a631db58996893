From Coq Require Import ZArith List Bool Reals Lra Lia.
From Verif Require Import Base NumModel VecModel LinModel DistModel GeoSpec LinSpec GeoLemmas MathProofs LinProofs DistProofs GeoLemmas LowModel LowSpec LowProofs.
Import ListNotations.
Local Open Scope R_scope.

Lemma up_inj (v w : list R) : same_space v w -> low v -> up v = up w -> v = w.
Proof.
  intros S L E. apply low_cases in L. unfold same_space in S. unfold up in E.
  destruct L as [(x & ->)|[(x & y & ->)|(x & y & z & ->)]]; destruct w as [|x' [|y' [|z' [|? ?]]]]; try discriminate S; cbn [nth] in E; injection E; intros; subst; reflexivity.
Qed.
Lemma g_dist (p q : list R) e : low p -> same_space p q -> d_dist p q = dist (up p) (up q) /\ (0 <= e -> (d_eq p q e = true <-> dist (up p) (up q) < e)).
Proof.
  intros L S. rewrite up_dist by assumption. split; [apply dist_points_eq|]. intros He. rewrite up_eq by assumption. rewrite pt_eq_spec by exact He; reflexivity.
Qed.
Lemma g_dir (v : list R) : low v -> up v <> zero3 -> length (d_dir v) = length v /\ unit3 (up (d_dir v)) /\ exists c, 0 < c /\ up v = pscale c (up (d_dir v)).
Proof. intros L N. split; [apply dir_len|]. rewrite up_dir by exact L. apply to_dir_spec. exact N. Qed.
Lemma g_invert (d : list R) : low d ->
  length (d_invert d) = length d /\ up (d_invert d) = pscale (-1) (up d) /\ (unit3 (up d) -> unit3 (up (d_invert d))).
Proof.
  intros L. assert (up (d_invert d) = pscale (-1) (up d)) as E.
  { unfold d_invert. rewrite up_scale by exact L. unfold vscale, pscale. rn. replace (IZR (-1) / IZR 1) with (-1) by lra. destruct (up d) as [x y z]. cbn [vx vy vz]. f_equal; ring. }
  split; [unfold d_invert, d_scale; apply map_length|]. split; [exact E|]. intros U. rewrite E. revert U. unfold unit3, dot, pscale. destruct (up d) as [x y z]. cbn [vx vy vz]. intros U. rewrite <- U. ring.
Qed.
Lemma g_line (p a d : list R) : low p -> same_space p a -> same_space p d -> unit3 (up d) ->
  length (d_line_proj (a, d) p) = length p /\ closest (on_line (up a) (up d)) (up p) (up (d_line_proj (a, d) p)) /\
  dist_to (on_line (up a) (up d)) (up p) (d_dist_line p (a, d)) /\
  (forall e, 0 <= e -> (d_line_contains (a, d) p e = true <-> d_dist_line p (a, d) < e)).
Proof.
  intros L Sa Sd U. rewrite up_proj, up_dist_line by assumption. split; [apply proj_len; assumption|].
  pose proof (dist_line_ok (up p) (up_line (a, d)) U) as D.
  split; [apply line_proj_closest; exact U|]. split; [exact D|]. intros e He.
  rewrite up_line_contains by assumption. apply line_contains_dist; assumption.
Qed.
Lemma g_seg (p a b : list R) : low p -> same_space p a -> same_space p b -> a <> b -> forall d,
  dist_to (on_segment (up a) (up b)) (up p) d ->
  (forall e, 0 < e -> (d_seg_contains (a, b) p e true = true <-> d < e)) /\
  d_dist_seg p (a, b) <= d <= d_dist_seg p (a, b) + d_seg_len (a, b) / 10000000.
Proof.
  intros L Sa Sb N d D.
  assert (up a <> up b) as N'. { intros E. apply N. apply up_inj; [apply (sab p); assumption|apply (la p); assumption|exact E]. }
  split.
  - intros e He. rewrite up_seg_contains by assumption. apply (seg_contains_iff (up_seg (a, b)) (up p)); assumption.
  - rewrite up_dist_seg by assumption. rewrite (up_seg_len p) by assumption.
    replace (seg_len (up_seg (a, b))) with (dist (s_src (up_seg (a, b))) (s_tgt (up_seg (a, b)))).
    2:{ symmetry. apply (seg_end_points (up_seg (a, b))). }
    apply (dist_segment_bounds (up_seg (a, b)) (up p)); assumption.
Qed.
Lemma g_point (a b : list R) t : low a -> same_space a b -> 0 <= t <= 1 ->
  length (d_seg_point (a, b) t) = length a /\ on_segment (up a) (up b) (up (d_seg_point (a, b) t)).
Proof.
  intros L S Ht. split.
  - unfold d_seg_point. cbn [fst snd]. apply add_len. unfold same_space. rewrite scale_len, to_len by exact S. reflexivity.
  - rewrite (up_seg_point a a b L eq_refl S). apply (seg_point_on (up_seg (a, b))). exact Ht.
Qed.
(** Nothing is closer outside the line or the plane. *)
Lemma g_seg_same (p a b : list R) x : low p -> same_space p a -> same_space p b -> on_segment (up a) (up b) x ->
  exists q, same_space p q /\ x = up q.
Proof.
  intros L Sa Sb H. destruct (on_seg_point (up_seg (a, b)) x H) as (t & _ & ->). exists (d_seg_point (a, b) t). split.
  - unfold same_space, d_seg_point. cbn [fst snd]. rewrite add_len; [exact Sa|]. unfold same_space. rewrite scale_len, to_len by (apply (sab p); assumption). reflexivity.
  - symmetry. apply (up_seg_point p a b L Sa Sb).
Qed.
Lemma g_cross (v w : list R) : length v = 2%nat -> same_space v w -> exists x, d_cross v w = Ok x /\
  x = det3 (up v) (up w) (mkV3 0 0 1) /\ (x = 0 <-> cross (up v) (up w) = zero3).
Proof.
  intros Lv S. destruct v as [|x [|y [|? ?]]]; try discriminate Lv. unfold same_space in S. destruct w as [|x' [|y' [|? ?]]]; try discriminate S.
  exists (x * y' - y * x'). split; [reflexivity|]. split; [unfold det3, up; cbn; ring|].
  unfold cross, up, zero3; cbn. split.
  - intros E. f_equal; [ring|ring|lra].
  - intros E. injection E. intros. lra.
Qed.
