(** More examples for C60 and C74: two segments that cross, and lines beside and through a disk. *)

From Coq Require Import Reals Lra Psatz List Bool.
From Verif Require Import Base NumModel VecModel LinModel RoundModel PolyModel IntModel
  GeoSpec LinSpec RoundSpec PolySpec IntSpec GeoLemmas LinProofs SegIntProofs IntProofs LineIntProofs IntExamples.
Import ListNotations.
Local Open Scope R_scope.

Lemma apart_x (p q : pt) d : 0 <= d -> d <= Rabs (vx p - vx q) -> d <= dist p q.
Proof.
  intros H0 H. unfold dist, norm. rewrite <- (sqrt_square d H0). apply sqrt_le_1_alt. unfold dot, psub. cbn [vx vy vz].
  assert (d * d <= (vx p - vx q) * (vx p - vx q)) by (unfold Rabs in H; destruct (Rcase_abs (vx p - vx q)); nra).
  pose proof (Rle_0_sqr (vy p - vy q)). pose proof (Rle_0_sqr (vz p - vz q)). unfold Rsqr in *. lra.
Qed.
Lemma apart_y (p q : pt) d : 0 <= d -> d <= Rabs (vy p - vy q) -> d <= dist p q.
Proof.
  intros H0 H. unfold dist, norm. rewrite <- (sqrt_square d H0). apply sqrt_le_1_alt. unfold dot, psub. cbn [vx vy vz].
  assert (d * d <= (vy p - vy q) * (vy p - vy q)) by (unfold Rabs in H; destruct (Rcase_abs (vy p - vy q)); nra).
  pose proof (Rle_0_sqr (vx p - vx q)). pose proof (Rle_0_sqr (vz p - vz q)). unfold Rsqr in *. lra.
Qed.
Lemma apart_z (p q : pt) d : 0 <= d -> d <= Rabs (vz p - vz q) -> d <= dist p q.
Proof.
  intros H0 H. unfold dist, norm. rewrite <- (sqrt_square d H0). apply sqrt_le_1_alt. unfold dot, psub. cbn [vx vy vz].
  assert (d * d <= (vz p - vz q) * (vz p - vz q)) by (unfold Rabs in H; destruct (Rcase_abs (vz p - vz q)); nra).
  pose proof (Rle_0_sqr (vx p - vx q)). pose proof (Rle_0_sqr (vy p - vy q)). unfold Rsqr in *. lra.
Qed.

(** ** Segments *)
Definition bar : segment R := mkSeg (mkV3 1 (-1) 0) (mkV3 1 1 0).
Definition cross_kernel : kernel R := mkKernel R
  (fun _ _ _ => Some xaxis) (fun pl l => Some (ox 0))
  (fun _ _ _ => [(ox 0, ox 1); (ox 1, ox 2); (mkV3 1 (-1) 0, ox 1); (ox 1, mkV3 1 1 0)])
  (fun _ _ _ => []) (fun s _ _ => [s_src s; s_tgt s])
  (fun _ => mkBox (mkV3 (-1000) (-1000) (-1000)) (mkV3 1000 1000 1000))
  (fun _ => mkBox (mkV3 (-1000) (-1000) (-1000)) (mkV3 1000 1000 1000)).
Lemma bar_pts x : seg_pts bar x <-> vx x = 1 /\ -1 <= vy x <= 1 /\ vz x = 0.
Proof.
  unfold seg_pts, on_segment, bar. cbn [s_src s_tgt]. split.
  - intros (t & Ht & ->). unfold padd, pscale, psub. cbn [vx vy vz]. lra.
  - destruct x as [x y z]. cbn [vx vy vz]. intros (-> & Hy & ->). exists ((y + 1) / 2). split; [lra|].
    unfold padd, pscale, psub. cbn [vx vy vz]. f_equal; field.
Qed.
Lemma beam_pts x : seg_pts (xs 0 2) x <-> 0 <= vx x <= 2 /\ vy x = 0 /\ vz x = 0.
Proof.
  rewrite (xs_pts 0 2 ltac:(lra) x). split; [intros (t & -> & Ht); cbn; lra|]. destruct x as [x y z]. cbn [vx vy vz]. intros (H & -> & ->). exists x. split; [reflexivity|exact H].
Qed.
Lemma cross_point x : both (seg_pts (xs 0 2)) (seg_pts bar) x <-> x = ox 1.
Proof.
  unfold both. rewrite beam_pts, bar_pts. split; [|intros ->; cbn; lra]. destruct x as [x y z]. cbn [vx vy vz]. intros [(A & -> & ->) (-> & _)]. reflexivity.
Qed.
Lemma cross_case : nondeg (xs 0 2) /\ nondeg bar /\ seg_boxed cross_kernel (xs 0 2) /\ seg_boxed cross_kernel bar /\ clear (xs 0 2) bar (1 / 10) /\
  fragments (xs 0 2) bar (k_fragment cross_kernel (xs 0 2) bar (1 / 10 * (1 / 10))) /\ oblique ang_tol (seg_vec (xs 0 2)) (seg_vec bar) /\
  (forall x, both (seg_pts (xs 0 2)) (seg_pts bar) x <-> x = ox 1).
Proof.
  split; [apply xs_nondeg; lra|]. split; [intros E; injection E; lra|]. split; [|split; [|split; [|split; [|split; [|exact cross_point]]]]].
  - intros x Hx. apply beam_pts in Hx. unfold in_box. cbn. lra.
  - intros x Hx. apply bar_pts in Hx. unfold in_box. cbn. lra.
  - split; intros p [->| ->]; right; intros q Hq.
    + apply bar_pts in Hq. apply apart_x; [lra|]. cbn. rewrite Rabs_left; lra.
    + apply bar_pts in Hq. apply apart_x; [lra|]. cbn. rewrite Rabs_right; lra.
    + apply beam_pts in Hq. apply apart_y; [lra|]. cbn. rewrite Rabs_left; lra.
    + apply beam_pts in Hq. apply apart_y; [lra|]. cbn. rewrite Rabs_right; lra.
  - cbn [k_fragment cross_kernel]. split; [intros H; exfalso; apply (H (ox 1)), cross_point; reflexivity|].
    intros p Hp. assert (p = ox 1) as -> by (apply cross_point, Hp; reflexivity).
    assert (~ is_end (xs 0 2) (ox 1)) as N1 by (intros [E|E]; injection E; lra). assert (~ is_end bar (ox 1)) as N2 by (intros [E|E]; injection E; lra).
    split; [contradiction|]. split; [contradiction|]. split; [contradiction|]. split; [reflexivity|]. split; [eexists; split; [left; reflexivity|right; reflexivity]|].
    intros e v [<-|[<-|[<-|[<-|[]]]]] [<-|<-]; cbn [fst snd]; auto; [left; left|left; right|right; left; left|right; left; right]; reflexivity.
  - unfold oblique, angle. replace (dot (seg_vec (xs 0 2)) (seg_vec bar)) with 0 by (unfold seg_vec, xs, bar, ox, psub, dot; cbn; ring).
    unfold Rdiv. rewrite Rmult_0_l, acos_0. pose proof ang_tol_small. pose proof PI2_1. lra.
Qed.

(** ** A line beside a disk, one through it, and one that passes by *)
Definition beside : line R := mkLine (mkV3 0 0 1) (mkV3 1 0 0).
Definition through (x : R) : line R := mkLine (mkV3 x 0 3) (mkV3 0 0 1).
Definition pierce (x : R) : kernel R := mkKernel R
  (fun _ _ _ => Some xaxis) (fun _ _ => Some (ox x)) (fun _ _ _ => []) (fun _ _ _ => []) (fun s _ _ => [s_src s; s_tgt s])
  (fun _ => mkBox (mkV3 (-1000) (-1000) (-1000)) (mkV3 1000 1000 1000)) (fun _ => mkBox (mkV3 (-1000) (-1000) (-1000)) (mkV3 1000 1000 1000)).
Lemma beside_case : face_ok (disk_xy 0 0 2) /\ ~ is_poly (disk_xy 0 0 2) /\ ortho (l_dir beside) (pl_n (face_plane (disk_xy 0 0 2))) /\
  forall q, plane_pts (face_plane (disk_xy 0 0 2)) q -> 1 / 10 < dist (l_sup beside) q.
Proof.
  split; [apply disk_xy_ok; lra|]. split; [exact (fun H => H)|]. split; [unfold ortho, dot; cbn; ring|].
  intros q Hq. apply disk_xy_in in Hq. apply Rlt_le_trans with 1; [lra|]. apply apart_z; [lra|]. cbn. rewrite Hq. rewrite Rabs_right; lra.
Qed.
Lemma through_case x : unit3 (l_dir (through x)) /\ ~ level ang_tol (through x) (face_plane (disk_xy 0 0 2)) /\
  point_ok (face_plane (disk_xy 0 0 2)) (through x) (k_plane_line (pierce x) (face_plane (disk_xy 0 0 2)) (through x)).
Proof.
  split; [unfold unit3, dot; cbn; ring|]. split.
  - unfold level. assert (angle (l_dir (through x)) (pl_n (face_plane (disk_xy 0 0 2))) = 0) as ->.
    { unfold angle. replace (pl_n (face_plane (disk_xy 0 0 2))) with (l_dir (through x)) by reflexivity.
      assert (unit3 (l_dir (through x))) as U by (unfold unit3, dot; cbn; ring). rewrite (norm_unit _ U), U. replace (1 / (1 * 1)) with 1 by field. apply acos_1. }
    pose proof ang_tol_small. pose proof PI2_1. rewrite Rminus_0_r, Rabs_pos_eq; lra.
  - exists (ox x). split; [reflexivity|]. split; [apply disk_xy_in; reflexivity|]. exists (-3). unfold padd, pscale, through, ox. cbn. f_equal; ring.
Qed.
Lemma through_results : face_set (disk_xy 0 0 2) (ox 1) /\ ~ thick (disk_xy 0 0 2) (1 / 10) (ox 5).
Proof.
  split.
  - exists 1, 0. split; [cbn; lra|]. unfold at_coords, padd, pscale, e1, e2, ox. cbn. f_equal; ring.
  - cbn [thick disk_xy]. intros (a & b & H & E). unfold at_coords, padd, pscale, e1, e2, ox in E. cbn in E. injection E as E1 E2. cbn [e_a e_b] in H.
    set (k := sqrt _) in H. assert (1 <= k <= 11 / 10) as [K1 K2].
    { unfold k. split; [rewrite <- sqrt_1 at 1; apply sqrt_le_1_alt; lra|]. apply Rle_trans with (sqrt (11 / 10 * (11 / 10))); [apply sqrt_le_1_alt; lra|rewrite sqrt_square; lra]. }
    assert (a = 5) by lra. subst a. assert (1 < (5 / (k * 2)) ^ 2); [|pose proof (pow2_ge_0 (b / (k * 2))); lra].
    replace ((5 / (k * 2)) ^ 2) with (25 / (4 * (k * k))) by (field; lra). apply (Rmult_lt_reg_r (4 * (k * k))); [nra|]. unfold Rdiv. rewrite Rmult_assoc, Rinv_l by nra. nra.
Qed.
