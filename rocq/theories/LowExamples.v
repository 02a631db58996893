From Coq Require Import ZArith List Bool Reals Lra Lia Floats.
From Verif Require Import Base NumModel VecModel LinModel DistModel GeoSpec LinSpec GeoLemmas LowModel LowSpec LowProofs LowGeo.
Import ListNotations.
Local Open Scope R_scope.

Lemma ex_dist : low [3; 4] /\ same_space [3; 4] [0; 0] /\ d_dist [3; 4] [0; 0] = 5 /\ d_eq [3; 4] [0; 0] 6 = true /\ d_eq [3; 4] [0; 0] 5 = false.
Proof.
  assert (low [3; 4] /\ same_space [3; 4] [0; 0]) as [L S] by (unfold low, same_space; cbn; auto). split; [exact L|]. split; [exact S|].
  assert (dist (up [3; 4]) (up [0; 0]) = 5) as D.
  { unfold dist, norm, dot, psub, up. cbn. replace ((3 - 0) * (3 - 0) + (4 - 0) * (4 - 0) + (0 - 0) * (0 - 0)) with (5 * 5) by ring. apply sqrt_square. lra. }
  assert (dist (up [3; 4]) (up [0; 0]) = 5) as D' by exact D.
  repeat split.
  - rewrite (proj1 (g_dist [3; 4] [0; 0] 1 L S)). exact D.
  - apply (g_dist [3; 4] [0; 0] 6 L S); lra.
  - apply not_true_iff_false. intros E. apply (g_dist [3; 4] [0; 0] 5 L S) in E; lra.
Qed.
Lemma ex_dir : low [3; 4] /\ up [3; 4] <> zero3 /\ d_dir [3; 4] = [3 / 5; 4 / 5] /\ d_dir [-7] = [-1].
Proof.
  split; [unfold low; cbn; auto|]. split; [intros E; injection E; lra|].
  assert (d_len [3; 4] = 5) as E.
  { unfold d_len, d_sqlen. cbn. replace (0 + 3 * 3 + 4 * 4) with (5 * 5) by ring. apply sqrt_square. lra. }
  assert (d_len [-7] = 7) as E'.
  { unfold d_len, d_sqlen. cbn. replace (0 + -7 * -7) with (7 * 7) by ring. apply sqrt_square. lra. }
  unfold d_dir. rewrite E, E'. split; [reflexivity|]. cbn. f_equal. lra.
Qed.
Lemma ex_line : low [2; 7] /\ same_space [2; 7] [1; 1] /\ unit3 (up [0; 1]) /\ d_line_proj ([1; 1], [0; 1]) [2; 7] = [1; 7].
Proof.
  split; [unfold low; cbn; auto|]. split; [reflexivity|]. split; [unfold unit3, dot, up; cbn; lra|].
  unfold d_line_proj, d_add, d_scale, d_sprod, d_to, d_sub. cbn. f_equal; [ring|f_equal; ring].
Qed.
Lemma ex_seg : low [2; 1] /\ same_space [2; 1] [0; 0] /\ [0; 0] <> [4; 0] /\ dist_to (on_segment (up [0; 0]) (up [4; 0])) (up [2; 1]) 1.
Proof.
  split; [unfold low; cbn; auto|]. split; [reflexivity|]. split; [intros E; injection E; lra|]. split.
  - exists (up [2; 0]). split.
    + exists (1 / 2). split; [lra|]. unfold up, padd, pscale. cbn. f_equal; lra.
    + unfold dist, norm, dot, psub, up. cbn. replace ((2 - 2) * (2 - 2) + (1 - 0) * (1 - 0) + (0 - 0) * (0 - 0)) with (1 * 1) by ring. apply sqrt_square. lra.
  - intros y (t & Ht & ->). unfold dist, norm. rewrite <- sqrt_1 at 1. apply sqrt_le_1_alt. unfold dot, psub, up, padd, pscale. cbn. pose proof (Rle_0_sqr (2 - 4 * t)) as Q. unfold Rsqr in Q. match goal with |- _ <= ?x => replace x with ((2 - 4 * t) * (2 - 4 * t) + 1) by ring end. lra.
Qed.
Lemma ex_cross : d_cross [1; 2] [3; 4] = Ok (-2).
Proof. unfold d_cross. cbn. f_equal. ring. Qed.
Lemma ex_float : low [3; 4]%float /\ d_dist [3; 4]%float [0; 0]%float = 5%float /\ d_eq [0.1]%float [0.2]%float 0.5%float = true.
Proof. split; [unfold low; cbn; auto|]. split; vm_compute; reflexivity. Qed.
Lemma ex_list : d_coord (d_of_list 2 [5; 6; 7]) 1 = Ok 6 /\ d_coord (d_of_list 3 [5; 6]) 2 = UB.
Proof. split; reflexivity. Qed.
