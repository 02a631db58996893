From Coq Require Import ZArith List Bool Reals Lra Lia.
From Verif Require Import Base NumModel VecModel LinModel DistModel LowModel LowSpec.
Import ListNotations.
Local Open Scope R_scope.

(** Three dimensions, for any coordinate type. *)
Section Three.
Context {A : Type} `{Num A}.
Lemma three_cases (v : list A) : length v = 3%nat -> exists x y z, v = [x; y; z].
Proof. intros L. destruct v as [|x [|y [|z [|? ?]]]]; try discriminate. eauto. Qed.
Ltac three := match goal with L : length ?v = 3%nat |- _ => apply three_cases in L; destruct L as (? & ? & ? & ->) end.
Lemma three_ops (v w : list A) c e : length v = 3%nat -> length w = 3%nat ->
  up (d_add v w) = vadd (up v) (up w) /\ up (d_sub v w) = vsub (up v) (up w) /\ up (d_scale v c) = vscale (up v) c /\
  up (d_div v c) = vdiv (up v) c /\ up (d_dir v) = to_dir (up v) /\
  d_sprod v w = sprod (up v) (up w) /\ d_len v = vlen (up v) /\ d_dist v w = dist_points (up v) (up w) /\ d_eq v w e = pt_eq (up v) (up w) e.
Proof. intros. repeat three. repeat split. Qed.
Lemma three_lines (p a b : list A) e t ck : length p = 3%nat -> length a = 3%nat -> length b = 3%nat ->
  up (d_line_proj (a, b) p) = line_proj (up_line (a, b)) (up p) /\
  d_line_contains (a, b) p e = line_contains (up_line (a, b)) (up p) e /\
  d_seg_contains (a, b) p e ck = seg_contains (up_seg (a, b)) (up p) e ck /\
  up (d_seg_point (a, b) t) = seg_point (up_seg (a, b)) t /\
  d_dist_line p (a, b) = dist_line (up p) (up_line (a, b)) /\ d_dist_seg p (a, b) = dist_segment (up p) (up_seg (a, b)).
Proof. intros. repeat three. repeat split. Qed.
End Three.

(** The reals. *)
Lemma low_cases (v : list R) : low v -> (exists x, v = [x]) \/ (exists x y, v = [x; y]) \/ (exists x y z, v = [x; y; z]).
Proof. intros [L|[L|L]]; destruct v as [|x [|y [|z [|? ?]]]]; try discriminate; eauto 8. Qed.
Ltac same_list H w := unfold same_space in H; destruct w as [|? [|? [|? [|? ?]]]]; try discriminate H; clear H.
Ltac by_dim v := match goal with L : low v |- _ => apply low_cases in L; destruct L as [(? & ->)|[(? & ? & ->)|(? & ? & ? & ->)]] end.
Ltac v3 := cbn [nth map combine fst snd fold_left]; apply f_equal3 || idtac.

Lemma up_add (v w : list R) : low v -> same_space v w -> up (d_add v w) = vadd (up v) (up w).
Proof.
  intros L S. by_dim v; same_list S w; unfold up, d_add, vadd; cbn [nth map combine fst snd vx vy vz]; cbn [nadd nlit R_num Rlit]; f_equal; ring.
Qed.
Lemma up_sub (v w : list R) : low v -> same_space v w -> up (d_sub v w) = vsub (up v) (up w).
Proof.
  intros L S. by_dim v; same_list S w; unfold up, d_sub, vsub; cbn [nth map combine fst snd vx vy vz]; cbn [nsub nlit R_num Rlit]; f_equal; ring.
Qed.
Lemma up_to (v w : list R) : low v -> same_space v w -> up (d_to v w) = vec_to (up v) (up w).
Proof.
  intros L S. by_dim v; same_list S w; unfold up, d_to, d_sub, vec_to; cbn [nth map combine fst snd vx vy vz]; cbn [nsub nlit R_num Rlit]; f_equal; ring.
Qed.
Lemma up_scale (v : list R) (c : R) : low v -> up (d_scale v c) = vscale (up v) c.
Proof. intros L. by_dim v; unfold up, d_scale, vscale; cbn [nth map vx vy vz]; cbn [nmul nlit R_num Rlit]; f_equal; ring. Qed.
Lemma up_div (v : list R) (c : R) : low v -> up (d_div v c) = vdiv (up v) c.
Proof. intros L. by_dim v; unfold up, d_div, vdiv; cbn [nth map vx vy vz]; cbn [ndiv nlit R_num Rlit]; f_equal; unfold Rdiv; ring. Qed.
Lemma up_sqlen (v : list R) : low v -> d_sqlen v = sqlen (up v).
Proof. intros L. by_dim v; unfold up, d_sqlen, sqlen; cbn [nth fold_left vx vy vz]; cbn [nadd nmul nlit R_num Rlit]; ring. Qed.
Lemma up_len (v : list R) : low v -> d_len v = vlen (up v).
Proof. intros L. unfold d_len, vlen. rewrite up_sqlen by exact L. reflexivity. Qed.
Lemma up_sprod (v w : list R) : low v -> same_space v w -> d_sprod v w = sprod (up v) (up w).
Proof.
  intros L S. by_dim v; same_list S w; unfold up, d_sprod, sprod; cbn [nth combine fold_left fst snd vx vy vz]; cbn [nadd nmul nlit R_num Rlit]; ring.
Qed.
Lemma up_dir (v : list R) : low v -> up (d_dir v) = to_dir (up v).
Proof. intros L. unfold d_dir, to_dir. rewrite up_div, up_len by exact L. reflexivity. Qed.
Lemma len_map2 {B} (f : R * R -> B) (v w : list R) : same_space v w -> length (map f (combine v w)) = length v.
Proof. intros S. rewrite map_length, combine_length. unfold same_space in S. lia. Qed.
Lemma low_map2 {B} (f : R * R -> B) (v w : list R) : low v -> same_space v w -> low (map f (combine v w)).
Proof. intros L S. unfold low in *. rewrite len_map2 by exact S. exact L. Qed.
Lemma low_same {B C} (v : list B) (w : list C) : low v -> length w = length v -> low w.
Proof. intros L E. unfold low in *. rewrite E. exact L. Qed.
Lemma to_len (v w : list R) : same_space v w -> length (@d_to R _ v w) = length v.
Proof. intros S. unfold d_to, d_sub. rewrite len_map2 by (symmetry; exact S). symmetry. exact S. Qed.
Lemma scale_len (v : list R) c : length (d_scale v c) = length v.
Proof. apply map_length. Qed.
Lemma dir_len (v : list R) : length (d_dir v) = length v.
Proof. apply map_length. Qed.
Lemma add_len (v w : list R) : same_space v w -> length (d_add v w) = length v.
Proof. apply len_map2. Qed.
Lemma up_eq (p q : list R) (e : R) : low p -> same_space p q -> d_eq p q e = pt_eq (up p) (up q) e.
Proof.
  intros L S. unfold d_eq, pt_eq. rewrite up_sqlen, up_to; try assumption; [reflexivity|]. apply (low_same p); [exact L|apply to_len, S].
Qed.
Lemma up_dist (p q : list R) : low p -> same_space p q -> d_dist p q = dist_points (up p) (up q).
Proof. intros L S. unfold d_dist, dist_points. rewrite up_len, up_to; try assumption; [reflexivity|]. apply (low_same p); [exact L|apply to_len, S]. Qed.

Section Lines.
Context (p a b : list R) (L : low p) (Sa : same_space p a) (Sb : same_space p b).
Lemma la : low a. Proof. apply (low_same p); [exact L|symmetry; exact Sa]. Qed.
Lemma lb : low b. Proof. apply (low_same p); [exact L|symmetry; exact Sb]. Qed.
Lemma sab : same_space a b. Proof. unfold same_space in *. congruence. Qed.
Lemma proj_len : length (d_line_proj (a, b) p) = length p.
Proof.
  unfold d_line_proj. cbn [fst snd]. rewrite add_len; [symmetry; exact Sa|]. unfold same_space. rewrite scale_len. apply sab.
Qed.
Lemma up_proj : up (d_line_proj (a, b) p) = line_proj (up_line (a, b)) (up p).
Proof.
  unfold d_line_proj, line_proj, up_line. cbn [fst snd l_sup l_dir].
  rewrite up_add; [|apply la|unfold same_space; rewrite scale_len; apply sab]. rewrite up_scale by apply lb.
  assert (same_space a p) as Sa' by (symmetry; exact Sa).
  rewrite up_sprod; [|apply lb|unfold same_space; rewrite to_len by exact Sa'; symmetry; apply sab]. rewrite up_to; [reflexivity|apply la|exact Sa'].
Qed.
Lemma up_line_contains e : d_line_contains (a, b) p e = line_contains (up_line (a, b)) (up p) e.
Proof.
  unfold d_line_contains, line_contains. assert (same_space p (d_line_proj (a, b) p)) as S by (symmetry; apply proj_len).
  rewrite up_sqlen, up_to, up_proj; [reflexivity|exact L|exact S|]. apply (low_same p); [exact L|apply to_len, S].
Qed.
Lemma up_dist_line : d_dist_line p (a, b) = dist_line (up p) (up_line (a, b)).
Proof.
  unfold d_dist_line, dist_line. assert (same_space p (d_line_proj (a, b) p)) as S by (symmetry; apply proj_len).
  rewrite up_len, up_to, up_proj; [reflexivity|exact L|exact S|]. apply (low_same p); [exact L|apply to_len, S].
Qed.
End Lines.

Section Segs.
Context (p a b : list R) (L : low p) (Sa : same_space p a) (Sb : same_space p b).
Lemma seg_dir_len : length (d_seg_dir (a, b)) = length p.
Proof. unfold d_seg_dir. rewrite dir_len. cbn [fst snd]. rewrite to_len by apply (sab p a b Sa Sb). symmetry. exact Sa. Qed.
Lemma up_seg_dir : up (d_seg_dir (a, b)) = seg_dir (up_seg (a, b)).
Proof.
  unfold d_seg_dir, seg_dir, up_seg. cbn [fst snd s_src s_tgt]. pose proof (sab p a b Sa Sb) as S. pose proof (la p a L Sa) as La.
  rewrite up_dir, up_to; try assumption; [reflexivity|]. apply (low_same a); [exact La|apply to_len, S].
Qed.
Lemma up_seg_len : d_seg_len (a, b) = seg_len (up_seg (a, b)).
Proof.
  unfold d_seg_len, seg_len, up_seg. cbn [fst snd s_src s_tgt]. pose proof (sab p a b Sa Sb) as S. pose proof (la p a L Sa) as La.
  rewrite up_len, up_to; try assumption; [reflexivity|]. apply (low_same a); [exact La|apply to_len, S].
Qed.
Lemma up_seg_line : up_line (d_seg_line (a, b)) = seg_line (up_seg (a, b)).
Proof. unfold d_seg_line, seg_line, up_line. cbn [fst snd]. rewrite up_seg_dir. reflexivity. Qed.
Lemma up_seg_contains e ck : d_seg_contains (a, b) p e ck = seg_contains (up_seg (a, b)) (up p) e ck.
Proof.
  unfold d_seg_contains, seg_contains. cbn [fst snd]. unfold d_seg_line at 1 2 3. cbn [fst snd].
  assert (same_space p (d_seg_dir (a, b))) as Sd by (symmetry; apply seg_dir_len).
  assert (same_space a p) as Sa' by (symmetry; exact Sa). assert (same_space b p) as Sb' by (symmetry; exact Sb).
  pose proof (la p a L Sa) as La. pose proof (la p b L Sb) as Lb.
  assert (low (d_to a p)) as L1 by (apply (low_same a); [exact La|apply to_len, Sa']).
  assert (low (d_to b p)) as L2 by (apply (low_same b); [exact Lb|apply to_len, Sb']).
  assert (low (d_seg_dir (a, b))) as L3 by (apply (low_same p); [exact L|apply seg_dir_len]).
  assert (same_space (d_seg_dir (a, b)) (d_to a p)) as S1 by (unfold same_space; rewrite seg_dir_len, to_len by exact Sa'; exact Sa).
  assert (same_space (d_seg_dir (a, b)) (d_to b p)) as S2 by (unfold same_space; rewrite seg_dir_len, to_len by exact Sb'; exact Sb).
  rewrite (up_line_contains p a (d_seg_dir (a, b)) L Sa Sd). rewrite !up_sprod, !up_sqlen by assumption. rewrite !up_to by assumption.
  rewrite up_seg_dir.
  replace (up_line (a, d_seg_dir (a, b))) with (seg_line (up_seg (a, b))) by (symmetry; exact up_seg_line). reflexivity.
Qed.
Lemma up_seg_point t : up (d_seg_point (a, b) t) = seg_point (up_seg (a, b)) t.
Proof.
  unfold d_seg_point, seg_point, up_seg. cbn [fst snd s_src s_tgt]. pose proof (sab p a b Sa Sb) as S. pose proof (la p a L Sa) as La.
  rewrite up_add; [|exact La|unfold same_space; rewrite scale_len, to_len by exact S; reflexivity].
  rewrite up_scale by (apply (low_same a); [exact La|apply to_len, S]). rewrite up_to by assumption. reflexivity.
Qed.
End Segs.
Lemma up_dist_seg (p a b : list R) : low p -> same_space p a -> same_space p b -> d_dist_seg p (a, b) = dist_segment (up p) (up_seg (a, b)).
Proof.
  intros L Sa Sb. unfold d_dist_seg, dist_segment. cbn [fst snd]. unfold d_seg_line. cbn [fst snd].
  assert (same_space p (d_seg_dir (a, b))) as Sd by (symmetry; apply seg_dir_len; assumption).
  assert (same_space p (d_line_proj (a, d_seg_dir (a, b)) p)) as Sp by (symmetry; apply proj_len; assumption).
  assert (low (d_line_proj (a, d_seg_dir (a, b)) p)) as Lp by (apply (low_same p); [exact L|symmetry; exact Sp]).
  assert (up (d_line_proj (a, d_seg_dir (a, b)) p) = line_proj (seg_line (up_seg (a, b))) (up p)) as Ep.
  { rewrite up_proj by assumption. f_equal. apply (up_seg_line p); assumption. }
  unfold d_seg_contains_default, seg_contains_default. rewrite (up_seg_contains _ a b Lp); [|unfold same_space in *; congruence..].
  rewrite (up_seg_len p) by assumption. rewrite !up_len; [|apply (low_same p); [exact L|apply to_len; assumption]..]. rewrite !up_to by assumption. rewrite Ep. reflexivity.
Qed.

Lemma cross_up (x y x' y' : R) : d_cross [x; y] [x'; y'] = Ok (vz (cross (up [x; y]) (up [x'; y']))) /\
  vx (cross (up [x; y]) (up [x'; y'])) = 0 /\ vy (cross (up [x; y]) (up [x'; y'])) = 0.
Proof. repeat split; unfold cross, up; cbn [nth vx vy vz]; cbn [nsub nmul nlit R_num Rlit]; ring. Qed.
Lemma up_parallel (v w : list R) e : length v = 2%nat \/ length v = 3%nat -> same_space v w -> d_parallel v w e = is_parallel (up v) (up w) e.
Proof.
  intros Lv S. unfold d_parallel. assert (low v) as L by (unfold low; tauto). assert (low w) as Lw by (apply (low_same v); [exact L|symmetry; exact S]).
  replace (Nat.eqb (length v) 1) with false by (destruct Lv as [-> | ->]; reflexivity).
  unfold is_parallel. rewrite up_sprod, !up_len by assumption. reflexivity.
Qed.

(** Construction. *)
Section Make.
Context {A : Type} `{Num A}.
Lemma of_list_read wd (l : list A) i x : nth_error l i = Some x -> (i < wd)%nat -> d_coord (d_of_list wd l) i = Ok x.
Proof.
  intros E Hi. unfold d_coord, d_of_list. assert (i < length l)%nat as Hl by (apply nth_error_Some; congruence).
  rewrite nth_error_app1 by (rewrite map_length, firstn_length; lia). rewrite nth_error_map.
  assert (nth_error (firstn wd l) i = Some x) as ->; [|reflexivity].
  rewrite <- E. rewrite <- (firstn_skipn wd l) at 2. symmetry. apply nth_error_app1. rewrite firstn_length. lia.
Qed.
Lemma of_list_short wd (l : list A) i : (length l <= i < wd)%nat -> d_coord (d_of_list wd l) i = UB.
Proof.
  intros Hi. unfold d_coord, d_of_list. rewrite nth_error_app2 by (rewrite map_length, firstn_length; lia).
  destruct (nth_error (repeat None _) _) as [o|] eqn:E; [|reflexivity]. apply nth_error_In, repeat_spec in E. subst o. reflexivity.
Qed.
Lemma default_read wd i : (i < wd)%nat -> d_coord (d_default wd) i = Ok n0.
Proof. intros Hi. unfold d_coord, d_default. rewrite (nth_error_nth' _ (Some n0)) by (rewrite repeat_length; exact Hi). rewrite nth_repeat. reflexivity. Qed.
Lemma default_dir_read wd i : d_coord (@d_default_dir A wd) i = UB.
Proof. unfold d_coord, d_default_dir. destruct (nth_error _ i) as [o|] eqn:E; [|reflexivity]. apply nth_error_In, repeat_spec in E. subst o. reflexivity. Qed.
End Make.
