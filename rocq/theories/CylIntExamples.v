(** Intersections of lateral cylinder surfaces with planar faces: examples and counterexamples. *)

From Coq Require Import Reals Lra Lia Psatz List Bool ZArith.
From Verif Require Import Base NumModel VecModel LinModel RoundModel PolyModel DistModel IntModel AngModel CylIntModel
  GeoSpec LinSpec RoundSpec PolySpec IntSpec AngSpec CylIntSpec
  GeoLemmas MathProofs LinProofs BoxProofs EllProofs ArcProofs CylProofs SegIntProofs SegIntProofs2 IntProofs FaceIntProofs CylIntProofs CylIntProofs2.
Import ListNotations.
Local Open Scope R_scope.

(** the cylinder of radius one and height ten on the third axis *)
Definition rod : cyl R := make_cyl_z 1 10 0.
Lemma rod_bot : c_bot rod = mkEll (mkV3 0 0 0) (mkV3 1 0 0) (mkV3 0 1 0) (mkV3 0 0 1) 1 1 /\ c_h rod = 10.
Proof.
  split; [|reflexivity]. unfold rod, make_cyl_z, make_ell. cbn [c_bot].
  assert ((n0 : R) = 0) as -> by (rn; lra). assert ((n1 : R) = 1) as -> by (rn; lra). rewrite to_dir_x, to_dir_y.
  replace (cross (mkV3 1 0 0) (mkV3 0 1 0)) with (mkV3 0 0 1 : pt) by (apply v3_eq; coords; ring). rewrite to_dir_z. reflexivity.
Qed.
Lemma rod_ok : CylIntSpec.tube_ok rod.
Proof.
  destruct (make_cyl_z_spec 1 10 0 ltac:(lra) ltac:(lra)) as [Hc _]. destruct rod_bot as [E _]. split; [exact Hc|]. rewrite E. split; [|reflexivity].
  rewrite <- E. unfold rod, make_cyl_z. cbn [c_bot]. assert ((n0 : R) = 0) as -> by (rn; lra). assert ((n1 : R) = 1) as -> by (rn; lra).
  rewrite to_dir_x, to_dir_y. apply make_ell_ok; try lra; unfold unit3, ortho; coords; ring.
Qed.
Lemma rod_lat p : cyl_lateral_set rod p <-> 0 <= vz p <= 10 /\ vx p * vx p + vy p * vy p = 1.
Proof.
  destruct rod_bot as [E Eh]. unfold cyl_lateral_set, lateral_cyl, cyl_set. rewrite E, Eh. cbn [e_c e_n e_a]. split.
  - intros (z & w & Hz & Ho & Hn & ->). apply norm_eq_sq in Hn; [|lra]. destruct w as [a b c]. unfold ortho, dot, padd, pscale in *. cbn in *.
    assert (c = 0) as -> by lra. split; [lra|]. nra.
  - intros [Hz Hr]. exists (vz p), (mkV3 (vx p) (vy p) 0). split; [exact Hz|]. split; [unfold ortho; coords; ring|]. split.
    + apply norm_eq_sq; [lra|]. unfold dot. cbn [vx vy vz]. lra.
    + apply v3_eq; coords; ring.
Qed.
Definition rod_box : box R := mkBox (mkV3 (-100) (-100) (-100)) (mkV3 100 100 100).
Lemma rod_in_box p : cyl_lateral_set rod p -> in_box rod_box p.
Proof. intros H. apply rod_lat in H. unfold in_box, rod_box. cbn. nra. Qed.
(** a kernel that finds the point p of the axis, and operations with given results *)
Definition one_kernel (p : pt) : kernel R :=
  mkKernel R (fun _ _ _ => None) (fun _ _ => Some p) (fun _ _ _ => []) (fun _ _ _ => []) (fun _ _ _ => [])
    (fun _ => rod_box) (fun _ => rod_box).
Definition ops (n : nat) (outer : list (wire R)) (cut : list pt) (inner : list (wire R)) : cyl_kernel R :=
  mkCylKernel R (fun _ _ _ => n) (fun _ _ _ => outer) (fun _ _ _ => cut) (fun _ _ _ => inner) (fun _ => rod_box).
Lemma ops_boxed n outer cut inner : tube_boxed (ops n outer cut inner) rod.
Proof. intros x Hx. apply rod_in_box, Hx. Qed.

(** disks with orthonormal axes *)
Section Disk.
Variables c u v : pt.
Variable r : R.
Hypothesis Uu : unit3 u.
Hypothesis Uv : unit3 v.
Hypothesis Uo : ortho u v.
Hypothesis Hr : 0 < r.
Definition dk : ell R := mkEll c u v (cross u v) r r.
Lemma dk_ok : ell_ok dk.
Proof.
  pose proof (make_ell_ok c u v r r Uu Uv Uo Hr Hr) as H. unfold make_ell in H.
  rewrite (to_dir_of_unit _ (cross_unit _ _ Uu Uv Uo)) in H. exact H.
Qed.
Lemma dk_face : face_ok (FDisk dk).
Proof. split; [exact dk_ok|cbn; lra]. Qed.
Lemma dk_char x : face_set (FDisk dk) x <-> dot (psub x c) (cross u v) = 0 /\ dot (psub x c) (psub x c) <= r * r.
Proof.
  cbn [face_set]. unfold in_disk, at_coords, dk. cbn [e_c e_maj e_min e_a e_b]. unfold unit3, ortho in *. split.
  - intros (a & b & Hab & ->). split; [clear; coords; ring|].
    replace (psub _ c) with (padd (pscale a u) (pscale b v)) by (clear; apply v3_eq; coords; ring).
    apply Rle_trans with (a * a * dot u u + 2 * a * b * dot u v + b * b * dot v v); [right; clear; coords; ring|]. rewrite Uu, Uv, Uo.
    assert ((a / (1 * r)) ^ 2 + (b / (1 * r)) ^ 2 = (a * a + b * b) / (r * r)) as E by (field; lra). rewrite E in Hab.
    assert (0 < r * r) by nra. apply (Rmult_le_compat_r (r * r)) in Hab; [|lra]. unfold Rdiv in Hab. rewrite Rmult_assoc, Rinv_l in Hab; lra.
  - intros [Hn Hd]. pose proof (basis_coords u v (cross u v) (psub x c) (proj1 dk_ok)) as E. rewrite Hn in E.
    set (a := dot (psub x c) u) in *. set (b := dot (psub x c) v) in *. exists a, b. split.
    + assert (dot (psub x c) (psub x c) = a * a + b * b) as Q.
      { rewrite E. transitivity (a * a * dot u u + 2 * a * b * dot u v + b * b * dot v v); [clear; coords; ring|]. rewrite Uu, Uv, Uo. ring. }
      assert ((a / (1 * r)) ^ 2 + (b / (1 * r)) ^ 2 = (a * a + b * b) / (r * r)) as -> by (field; lra). rewrite <- Q.
      assert (0 < r * r) by nra. apply (Rmult_le_reg_r (r * r)); [lra|]. unfold Rdiv. rewrite Rmult_assoc, Rinv_l; lra.
    + transitivity (padd c (psub x c)); [clear; apply v3_eq; coords; ring|]. rewrite E. clear. apply v3_eq; coords; ring.
Qed.
Lemma dk_larger eps : eps <= 2 * r -> larger (FDisk dk) eps.
Proof.
  intros He. exists (padd c (pscale r u)), (padd c (pscale (- r) u)). unfold unit3, ortho in *. rewrite !dk_char.
  repeat match goal with |- _ /\ _ => split end.
  - clear. coords. ring.
  - apply Rle_trans with (r * r * dot u u); [right; clear; coords; ring|]. rewrite Uu. lra.
  - clear. coords. ring.
  - apply Rle_trans with (r * r * dot u u); [right; clear; coords; ring|]. rewrite Uu. lra.
  - unfold dist. replace (psub _ _) with (pscale (2 * r) u) by (clear; apply v3_eq; coords; ring).
    rewrite norm_scale', (norm_unit u Uu), Rabs_pos_eq; lra.
Qed.
End Disk.
Lemma dk_boxed c u v r p : unit3 u -> unit3 v -> ortho u v -> 0 < r <= 10 -> dot c c <= 400 -> boxed (one_kernel p) (FDisk (dk c u v r)).
Proof.
  intros Hu Hv Ho Hr Hc x Hx. apply dk_char in Hx; try assumption; [|lra]. destruct Hx as [_ Hd].
  assert (Q : forall a b, a * a <= 400 -> (b - a) * (b - a) <= 100 -> -100 <= b <= 100).
  { intros a b H1 H2. assert (-20 <= a <= 20) by (split; nra). assert (-10 <= b - a <= 10) by (split; nra). lra. }
  destruct x as [a b d], c as [a' b' d']. unfold dot, psub in *. cbn in *. unfold in_box, rod_box. cbn.
  assert (r * r <= 100) by nra. pose proof (Q a' a). pose proof (Q b' b). pose proof (Q d' d).
  pose proof (Rle_0_sqr a'). pose proof (Rle_0_sqr b'). pose proof (Rle_0_sqr d').
  pose proof (Rle_0_sqr (a - a')). pose proof (Rle_0_sqr (b - b')). pose proof (Rle_0_sqr (d - d')). unfold Rsqr in *. lra.
Qed.

(** the axes *)
Lemma axes : unit3 (mkV3 1 0 0) /\ unit3 (mkV3 0 1 0) /\ unit3 (mkV3 0 0 1) /\ ortho (mkV3 1 0 0) (mkV3 0 1 0) /\ ortho (mkV3 0 1 0) (mkV3 0 0 1).
Proof. unfold unit3, ortho, dot. cbn [vx vy vz]. repeat split; ring. Qed.

(** * An orthogonal face that covers one half of the circle *)
Definition half : face R := FDisk (dk (mkV3 4 0 5) (mkV3 1 0 0) (mkV3 0 1 0) (sqrt 17)).
Definition half_ell : ell R := mkEll (mkV3 0 0 5) (mkV3 1 0 0) (mkV3 0 1 0) (mkV3 0 0 1) 1 1.
Definition half_edge (p : pt) : option R :=
  if Req_EM_T (vz p) 5 then if Req_EM_T (vx p * vx p + vy p * vy p) 1 then if Rle_dec 0 (vx p) then Some 0 else None else None else None.
Definition half_wire : wire R := mkWire (mkV3 0 1 5) (mkV3 0 (-1) 5) false [half_edge].
Definition half_ops : cyl_kernel R := ops 1 [] [mkV3 (4 + sqrt 17) 0 5; mkV3 0 1 5; mkV3 0 (-1) 5] [half_wire].

Lemma s17 : sqrt 17 * sqrt 17 = 17 /\ 4 < sqrt 17 < 5.
Proof.
  assert (sqrt 17 * sqrt 17 = 17) as E by (apply sqrt_sqrt; lra). split; [exact E|]. pose proof (sqrt_pos 17). split; nra.
Qed.
Lemma half_ok : face_ok half.
Proof. destruct axes as (A & B & _ & D & _). destruct s17. apply dk_face; try assumption; lra. Qed.
Lemma half_set x : common_set rod half x <-> vz x = 5 /\ vx x * vx x + vy x * vy x = 1 /\ 0 <= vx x.
Proof.
  destruct axes as (A & B & _ & D & _). destruct s17 as [S1 S2]. unfold common_set, both, half. rewrite dk_char, rod_lat, S1 by (assumption || lra).
  destruct x as [a b c]. unfold dot, psub, cross. cbn. split.
  - intros [[H1 H2] [H3 H4]]. assert (c = 5) as -> by lra. split; [reflexivity|]. split; [exact H4|]. nra.
  - intros (-> & H2 & H3). split; [split; [ring|nra]|]. split; [lra|exact H2].
Qed.
Lemma half_ell_ok : ell_ok half_ell.
Proof.
  destruct axes as (A & B & _ & D & _). pose proof (dk_ok (mkV3 0 0 5) (mkV3 1 0 0) (mkV3 0 1 0) 1 A B D ltac:(lra)) as H.
  unfold dk in H. replace (cross (mkV3 1 0 0) (mkV3 0 1 0)) with (mkV3 0 0 1 : pt) in H by (apply v3_eq; coords; ring). exact H.
Qed.
Lemma half_canonical : canonical rod half (Some half_ell).
Proof.
  destruct rod_bot as [E _]. unfold canonical, framed, rim_axes, across, axis_line. cbn [half face_plane]. unfold ell_plane, plane_basis.
  cbn [pl_n pl_sup dk e_n e_c e_maj e_min]. rewrite E. cbn [e_c e_n e_a half_ell e_maj e_min e_b].
  assert (cross (mkV3 1 0 0) (mkV3 0 1 0) = mkV3 0 0 1 :> pt) as EC by (apply v3_eq; coords; ring). rewrite EC.
  split.
  - split; [unfold plane_pts, on_plane; cbn [pl_n pl_sup]; coords; lra|]. split; [unfold line_pts; cbn [l_sup l_dir]; exists 5; apply v3_eq; coords; ring|]. split; [reflexivity|].
    split; [reflexivity|]. replace (dot (mkV3 0 0 1) (mkV3 0 0 1)) with 1 by (coords; ring). rewrite Rabs_R1. ring.
  - left. split; [exists 1; split; [lra|apply v3_eq; coords; ring]|auto].
Qed.
Lemma half_at phi : ell_at half_ell phi = mkV3 (cos phi) (sin phi) 5.
Proof. unfold ell_at, at_coords, half_ell. cbn [e_c e_maj e_min e_a e_b]. apply v3_eq; coords; ring. Qed.
(** the half circle *)
Lemma half_track x : arc_pts half_ell (3 * PI / 2) (PI / 2) x <-> vz x = 5 /\ vx x * vx x + vy x * vy x = 1 /\ 0 <= vx x.
Proof.
  pose proof PI_RGT_0 as HP. unfold arc_pts, arc_at. destruct (Rlt_dec (3 * PI / 2) (PI / 2)) as [C|_]; [lra|].
  split.
  - intros (tau & Ht & ->). rewrite half_at. cbn [vx vy vz]. split; [reflexivity|].
    match goal with |- context [cos ?x] => set (a := x) end.
    pose proof (sin2_cos2 a) as S. unfold Rsqr in S. split; [lra|].
    assert (a = - PI / 2 + tau * PI + 2 * INR 1 * PI) as -> by (unfold a; cbn; field).
    rewrite cos_period. apply cos_ge_0; nra.
  - intros (Hz & Hu & Hx). set (al := asin (vy x)).
    assert (-1 <= vy x <= 1) as Hb by nra. destruct (asin_bound (vy x)) as [A1 A2]. fold al in A1, A2.
    assert (sin al = vy x) as Es by (apply sin_asin, Hb).
    assert (cos al = vx x) as Ec.
    { unfold al. rewrite cos_asin by exact Hb. unfold Rsqr. replace (1 - vy x * vy x) with (vx x * vx x) by lra. apply sqrt_square, Hx. }
    exists ((al + PI / 2) / PI). split.
    + split; [apply Rmult_le_pos; [lra|left; apply Rinv_0_lt_compat, HP]|]. apply (Rmult_le_reg_r PI); [exact HP|].
      unfold Rdiv. rewrite Rmult_assoc, Rinv_l by lra. lra.
    + rewrite half_at. replace (3 * PI / 2 + (2 * PI - 3 * PI / 2 + PI / 2) * ((al + PI / 2) / PI)) with (al + 2 * INR 1 * PI) by (cbn; field; lra).
      rewrite sin_period, cos_period, Es, Ec. destruct x as [a b c]. cbn in *. subst c. reflexivity.
Qed.
Lemma other_middle : arc_at half_ell (PI / 2) (3 * PI / 2) (1 / 2) = mkV3 (-1) 0 5.
Proof.
  pose proof PI_RGT_0 as HP. unfold arc_at. destruct (Rlt_dec (PI / 2) (3 * PI / 2)) as [_|C]; [|lra].
  rewrite half_at. replace (PI / 2 + (3 * PI / 2 - PI / 2) * (1 / 2)) with PI by field. rewrite cos_PI, sin_PI. reflexivity.
Qed.
Lemma half_tip1 : ell_at half_ell (PI / 2) = mkV3 0 1 5.
Proof. rewrite half_at, cos_PI2, sin_PI2. reflexivity. Qed.
Lemma half_tip2 : ell_at half_ell (3 * PI / 2) = mkV3 0 (-1) 5.
Proof. rewrite half_at. replace (3 * PI / 2) with (3 * (PI / 2)) by field. rewrite cos_3PI2, sin_3PI2. reflexivity. Qed.
Lemma far_x (p q : pt) d : 0 <= d -> d <= Rabs (vx p - vx q) -> d <= dist p q.
Proof.
  intros H0 H. unfold dist, norm. rewrite <- (sqrt_square d H0). apply sqrt_le_1_alt. unfold dot, psub. cbn [vx vy vz].
  assert (d * d <= (vx p - vx q) * (vx p - vx q)) by (unfold Rabs in H; destruct (Rcase_abs (vx p - vx q)); nra).
  pose proof (Rle_0_sqr (vy p - vy q)). pose proof (Rle_0_sqr (vz p - vz q)). unfold Rsqr in *. lra.
Qed.
Lemma far_y (p q : pt) d : 0 <= d -> d <= Rabs (vy p - vy q) -> d <= dist p q.
Proof.
  intros H0 H. unfold dist, norm. rewrite <- (sqrt_square d H0). apply sqrt_le_1_alt. unfold dot, psub. cbn [vx vy vz].
  assert (d * d <= (vy p - vy q) * (vy p - vy q)) by (unfold Rabs in H; destruct (Rcase_abs (vy p - vy q)); nra).
  pose proof (Rle_0_sqr (vx p - vx q)). pose proof (Rle_0_sqr (vz p - vz q)). unfold Rsqr in *. lra.
Qed.
Lemma half_follows : follows (Some half_ell) (1 / 10) half_wire (TArc (3 * PI / 2) (PI / 2)).
Proof.
  pose proof PI_RGT_0 as HP. split; [reflexivity|]. unfold follows_arc.
  split; [lra|]. split; [lra|]. split; [lra|]. split; [exact unsnapped_3quarter|]. split; [exact unsnapped_quarter|].
  rewrite half_tip1, half_tip2, other_middle. split.
  { change (e_a half_ell) with 1. apply Rle_trans with 2; [lra|]. apply far_y; [lra|]. cbn. rewrite Rabs_left; lra. }
  split; [right; split; reflexivity|]. split.
  - exists [arc_pts half_ell (3 * PI / 2) (PI / 2)]. split.
    + constructor; [|constructor]. split.
      * intros x Hx. apply half_track in Hx as (H1 & H2 & H3). unfold half_edge.
        destruct (Req_EM_T (vz x) 5); [|contradiction]. destruct (Req_EM_T _ 1); [|contradiction]. destruct (Rle_dec 0 (vx x)); [reflexivity|contradiction].
      * intros x d Hd. exists x. unfold half_edge in Hd. rewrite half_track, dist_self.
        destruct (Req_EM_T (vz x) 5); [|discriminate]. destruct (Req_EM_T _ 1); [|discriminate]. destruct (Rle_dec 0 (vx x)); [|discriminate].
        injection Hd as <-. auto.
    + intros x. split; [intros H; eexists; split; [left; reflexivity|exact H]|]. intros (E & [<-|[]] & H). exact H.
  - intros q Hq. apply half_track in Hq as (_ & _ & H). apply far_x; [lra|]. cbn [vx]. rewrite Rabs_left; lra.
Qed.
Lemma sqrt2_lt : sqrt 2 < 2.
Proof. pose proof (sqrt_pos 2). assert (sqrt 2 * sqrt 2 = 2) by (apply sqrt_sqrt; lra). nra. Qed.
Lemma half_sharp : sharp rod (1 / 10) (common_set rod half) (ck_cut half_ops rod half (1 / 10 * (1 / 10))).
Proof.
  destruct s17 as [S1 S2]. pose proof sqrt2_lt. cbn [half_ops ops ck_cut]. split.
  - intros v Hv. rewrite half_set. cbn [In] in Hv. destruct Hv as [<-|[<-|[<-|[]]]]; cbn [vx vy vz].
    + right. intros q Hq. apply rod_lat in Hq. apply Rlt_le_trans with 1; [lra|]. apply far_x; [lra|]. cbn [vx].
      assert (vx q <= 1) by nra. rewrite Rabs_pos_eq; lra.
    + left. lra.
    + left. lra.
  - intros v w Hv Hw. cbn [In] in Hv, Hw.
    assert (forall a b : pt, a = b \/ 1 / 10 <= Rabs (vx a - vx b) \/ 1 / 10 <= Rabs (vy a - vy b) -> a = b \/ 1 / 10 <= dist a b) as M.
    { intros a b [-> |[H0|H0]]; [left; reflexivity|right; apply far_x; lra|right; apply far_y; lra]. }
    apply M. destruct Hv as [<-|[<-|[<-|[]]]]; destruct Hw as [<-|[<-|[<-|[]]]]; cbn [vx vy vz]; auto; right.
    + left. rewrite Rabs_pos_eq; lra.
    + left. rewrite Rabs_pos_eq; lra.
    + left. rewrite Rabs_left; lra.
    + right. rewrite Rabs_pos_eq; lra.
    + left. rewrite Rabs_left; lra.
    + right. rewrite Rabs_left; lra.
Qed.
Lemma half_splits : splits half_ops rod half (1 / 10) (Some half_ell).
Proof.
  unfold splits. right. right. right. split; [discriminate|]. split; [exact half_sharp|]. exists [TArc (3 * PI / 2) (PI / 2)].
  split; [constructor; [exact half_follows|constructor]|]. split.
  - intros x. split; [|intros [(tr & [<-|[]] & H)|[H _]]; [apply half_set, half_track, H|exact H]].
    intros H. left. eexists. split; [left; reflexivity|]. apply half_track, half_set, H.
  - intros v _ Hv tr [<-|[]]. left. apply half_track, half_set, Hv.
Qed.
Lemma half_case : CylIntSpec.tube_ok rod /\ face_ok half /\ larger half (1 / 10) /\ boxed (one_kernel zero3) half /\ tube_boxed half_ops rod /\
  across rod half /\ canonical rod half (Some half_ell) /\ splits half_ops rod half (1 / 10) (Some half_ell).
Proof.
  destruct axes as (A & B & _ & D & _). destruct s17.
  split; [exact rod_ok|]. split; [exact half_ok|]. split; [apply dk_larger; try assumption; lra|].
  split; [apply dk_boxed; try assumption; [lra|coords; lra]|]. split; [apply ops_boxed|].
  split; [|split; [exact half_canonical|exact half_splits]].
  destruct rod_bot as [E _]. unfold across. rewrite E. cbn [half face_plane ell_plane plane_basis pl_n dk e_n].
  exists 1. split; [lra|]. apply v3_eq; coords; ring.
Qed.

(** * An oblique face that contains the whole section: the plane x + z = 5 *)
Definition s2 : R := / sqrt 2.
Lemma s2_sq : s2 * s2 = 1 / 2 /\ 0 < s2 /\ sqrt 2 * s2 = 1.
Proof.
  assert (0 < sqrt 2) by (apply sqrt_lt_R0; lra). assert (sqrt 2 * sqrt 2 = 2) as E by (apply sqrt_sqrt; lra).
  assert (sqrt 2 * s2 = 1) as E1 by (unfold s2; apply Rinv_r; lra). split; [|split; [apply Rinv_0_lt_compat; lra|exact E1]].
  assert (2 * (s2 * s2) = 1); [|lra]. rewrite <- E. transitivity ((sqrt 2 * s2) * (sqrt 2 * s2)); [ring|rewrite E1; ring].
Qed.
Definition ramp : face R := FDisk (dk (mkV3 0 0 5) (mkV3 s2 0 (- s2)) (mkV3 0 1 0) 4).
Definition ramp_ell : ell R := mkEll (mkV3 0 0 5) (mkV3 (- s2) 0 s2) (mkV3 0 (-1) 0) (mkV3 s2 0 s2) (sqrt 2) 1.
Definition ramp_ops : cyl_kernel R := ops 1 [] [] [mkWire zero3 zero3 true []].
Lemma ramp_axes : unit3 (mkV3 s2 0 (- s2)) /\ unit3 (mkV3 0 1 0) /\ ortho (mkV3 s2 0 (- s2)) (mkV3 0 1 0) /\
  cross (mkV3 s2 0 (- s2)) (mkV3 0 1 0) = mkV3 s2 0 s2 :> pt.
Proof.
  destruct s2_sq as [E _]. unfold unit3, ortho, dot. cbn [vx vy vz]. split; [lra|]. split; [ring|]. split; [ring|]. apply v3_eq; coords; ring.
Qed.
Lemma ramp_n : pl_n (face_plane ramp) = mkV3 s2 0 s2.
Proof. destruct ramp_axes as (_ & _ & _ & E). exact E. Qed.
Lemma ramp_slanted : slanted rod ramp.
Proof.
  destruct s2_sq as (E & P & _). destruct rod_bot as [Eb _]. unfold slanted, oblique. rewrite ramp_n, Eb. cbn [e_n].
  assert (U1 : unit3 (mkV3 s2 0 s2)) by (unfold unit3, dot; cbn [vx vy vz]; lra). destruct axes as (_ & _ & U2 & _).
  rewrite (angle_units _ _ U1 U2). replace (dot (mkV3 s2 0 s2) (mkV3 0 0 1)) with (cos (PI / 4)).
  2: { rewrite cos_PI4. unfold s2, dot. cbn [vx vy vz]. field. apply Rgt_not_eq, sqrt_lt_R0. lra. }
  pose proof PI_RGT_0. pose proof PI2_3_2. rewrite acos_cos by lra. unfold ang_tol. split; [lra|]. rewrite Rabs_pos_eq; lra.
Qed.
Lemma ramp_canonical : canonical rod ramp (Some ramp_ell).
Proof.
  destruct s2_sq as (E & P & E1). destruct rod_bot as [Eb _]. split.
  - unfold framed, axis_line. rewrite ramp_n, Eb. cbn [e_c e_n e_a ramp_ell e_maj e_min e_b].
    split; [unfold plane_pts, on_plane; rewrite ramp_n; cbn [ramp face_plane ell_plane plane_basis pl_sup dk e_c]; coords; ring|].
    split; [unfold line_pts; cbn [l_sup l_dir]; exists 5; apply v3_eq; coords; ring|].
    split; [apply v3_eq; coords; ring|]. split; [reflexivity|].
    replace (dot (mkV3 s2 0 s2) (mkV3 0 0 1)) with s2 by (coords; ring). rewrite Rabs_pos_eq by lra. exact E1.
  - right. split; [exact ramp_slanted|]. unfold slope_axes, flat_axis. rewrite ramp_n, Eb. cbn [e_n ramp_ell e_maj e_min].
    replace (dot (mkV3 s2 0 s2) (mkV3 0 0 1)) with s2 by (coords; ring).
    assert (psub (mkV3 0 0 1) (pscale s2 (mkV3 s2 0 s2)) = mkV3 (- (1 / 2)) 0 (1 / 2) :> pt) as -> by (apply v3_eq; coords; lra).
    assert (norm (mkV3 (- (1 / 2)) 0 (1 / 2)) = s2) as -> by (apply norm_eq_sq; [exact P|coords; lra]).
    assert (/ s2 = 2 * s2) as -> by (apply (Rmult_eq_reg_r s2); [rewrite Rinv_l by lra; lra|lra]).
    split; apply v3_eq; coords; lra.
Qed.
Lemma ramp_set x : common_set rod ramp x <-> on_ellipse ramp_ell x.
Proof.
  destruct s2_sq as (E & P & E1). destruct ramp_axes as (A & B & D & EC). destruct rod_bot as [Eb _].
  assert (Hf : face_ok ramp) by (apply dk_face; try assumption; lra).
  rewrite (proj2 (canonical_section rod ramp ramp_ell rod_ok Hf ramp_canonical) x).
  rewrite (unbounded_iff rod x (proj1 rod_ok)), Eb. cbn [e_c e_n e_a]. rewrite norm_eq_sq by lra.
  assert (forall y, dot (axw (mkV3 0 0 0) (mkV3 0 0 1) y) (axw (mkV3 0 0 0) (mkV3 0 0 1) y) = vx y * vx y + vy y * vy y) as Ew
    by (intros y; unfold axw, axz; coords; ring). rewrite Ew.
  unfold common_set, both. rewrite rod_lat. unfold plane_pts, on_plane. rewrite ramp_n.
  unfold ramp at 1. rewrite dk_char, EC by (assumption || lra).
  cbn [ramp face_plane ell_plane plane_basis pl_sup dk e_c].
  destruct x as [a b c]. unfold dot, psub. cbn. split.
  - intros [[H1 H2] [H3 H4]]. split; lra.
  - intros [H1 H2]. assert (a + (c - 5) = 0) as H3 by (apply (Rmult_eq_reg_l s2); lra).
    assert (-1 <= a <= 1) by (split; nra). assert (c = 5 - a) as -> by lra. split; split; try lra. nra.
Qed.
Lemma ramp_case : CylIntSpec.tube_ok rod /\ face_ok ramp /\ larger ramp (1 / 10) /\ boxed (one_kernel (mkV3 0 0 5)) ramp /\ tube_boxed ramp_ops rod /\
  slanted rod ramp /\ axis_met (one_kernel (mkV3 0 0 5)) rod ramp /\
  canonical rod ramp (Some ramp_ell) /\ splits ramp_ops rod ramp (1 / 10) (Some ramp_ell).
Proof.
  destruct ramp_axes as (A & B & D & EC).
  split; [exact rod_ok|]. split; [apply dk_face; try assumption; lra|]. split; [apply dk_larger; try assumption; lra|].
  split; [apply dk_boxed; try assumption; [lra|coords; lra]|]. split; [apply ops_boxed|].
  split; [exact ramp_slanted|]. split; [|split; [exact ramp_canonical|]].
  - destruct ramp_canonical as [(P1 & P2 & _) _]. exists (mkV3 0 0 5). split; [reflexivity|]. split; assumption.
  - unfold splits. right. right. left. split; [discriminate|]. split; [eexists; split; reflexivity|]. exists ramp_ell. split; [reflexivity|]. exact ramp_set.
Qed.

(** * A face along the axis: two segments *)
Definition slice : face R := FDisk (dk (mkV3 0 0 5) (mkV3 0 1 0) (mkV3 0 0 1) (sqrt 17)).
Definition slice_segs : list track := [TSeg (mkV3 0 1 1) (mkV3 0 1 9); TSeg (mkV3 0 (-1) 1) (mkV3 0 (-1) 9)].
Definition slice_ops : cyl_kernel R :=
  ops 1 [] [mkV3 0 (sqrt 17) 5; mkV3 0 1 1; mkV3 0 1 9; mkV3 0 (-1) 1; mkV3 0 (-1) 9]
    [mkWire (mkV3 0 1 1) (mkV3 0 1 9) false []; mkWire (mkV3 0 (-1) 1) (mkV3 0 (-1) 9) false []].
Lemma along_z f : unit3 (pl_n (face_plane f)) -> vz (pl_n (face_plane f)) = 0 -> along rod f.
Proof.
  intros Un Hz. destruct rod_bot as [Eb _]. unfold along. rewrite Eb. cbn [e_n]. destruct axes as (_ & _ & U2 & _).
  rewrite (angle_units _ _ Un U2). replace (dot (pl_n (face_plane f)) (mkV3 0 0 1)) with 0 by (unfold dot; cbn [vx vy vz]; lra).
  rewrite acos_0. replace (PI / 2 - PI / 2) with 0 by ring. rewrite Rabs_R0. unfold ang_tol. lra.
Qed.
Lemma slice_set x : common_set rod slice x <-> vx x = 0 /\ 1 <= vz x <= 9 /\ (vy x = 1 \/ vy x = -1).
Proof.
  destruct axes as (_ & A & B & _ & D). destruct s17 as [S1 S2]. unfold common_set, both, slice. rewrite dk_char, rod_lat, S1 by (assumption || lra).
  destruct x as [a b c]. unfold dot, psub, cross. cbn. split.
  - intros [[H1 H2] [H3 H4]]. assert (a = 0) as -> by lra. split; [reflexivity|]. split; [split; nra|].
    assert ((b - 1) * (b + 1) = 0) as Z by lra. apply Rmult_integral in Z. destruct Z; [left|right]; lra.
  - intros (-> & H2 & [-> | ->]); (split; [split; [ring|nra]|]; split; lra).
Qed.
Lemma vert_seg a b z0 z1 x : z0 < z1 -> on_segment (mkV3 a b z0) (mkV3 a b z1) x <-> vx x = a /\ vy x = b /\ z0 <= vz x <= z1.
Proof.
  intros Hz. split.
  - intros (t & Ht & ->). unfold padd, pscale, psub. cbn. split; [ring|]. split; [ring|]. nra.
  - intros (H1 & H2 & H3). exists ((vz x - z0) / (z1 - z0)). split.
    + split; [apply Rmult_le_pos; [lra|left; apply Rinv_0_lt_compat; lra]|]. apply (Rmult_le_reg_r (z1 - z0)); [lra|].
      unfold Rdiv. rewrite Rmult_assoc, Rinv_l by lra. lra.
    + destruct x as [p q r]. cbn in *. subst p q. apply v3_eq; coords; field; lra.
Qed.
Lemma slice_tracks x : common_set rod slice x <-> exists tr, In tr slice_segs /\ track_pts None tr x.
Proof.
  rewrite slice_set. unfold slice_segs. split.
  - intros (H1 & H2 & [H3|H3]); [exists (TSeg (mkV3 0 1 1) (mkV3 0 1 9))|exists (TSeg (mkV3 0 (-1) 1) (mkV3 0 (-1) 9))];
      (split; [cbn; auto|]); cbn [track_pts]; apply vert_seg; lra.
  - intros (tr & [<-|[<-|[]]] & H); cbn [track_pts] in H; apply vert_seg in H; lra.
Qed.
Lemma far_z (p q : pt) d : 0 <= d -> d <= Rabs (vz p - vz q) -> d <= dist p q.
Proof.
  intros H0 H. unfold dist, norm. rewrite <- (sqrt_square d H0). apply sqrt_le_1_alt. unfold dot, psub. cbn [vx vy vz].
  assert (d * d <= (vz p - vz q) * (vz p - vz q)) by (unfold Rabs in H; destruct (Rcase_abs (vz p - vz q)); nra).
  pose proof (Rle_0_sqr (vx p - vx q)). pose proof (Rle_0_sqr (vy p - vy q)). unfold Rsqr in *. lra.
Qed.
Lemma slice_case : CylIntSpec.tube_ok rod /\ face_ok slice /\ larger slice (1 / 10) /\ boxed (one_kernel zero3) slice /\ tube_boxed slice_ops rod /\
  along rod slice /\ canonical rod slice None /\ splits slice_ops rod slice (1 / 10) None.
Proof.
  destruct axes as (_ & A & B & _ & D). destruct s17 as [S1 S2]. pose proof sqrt2_lt as S3.
  assert (along rod slice) as Ha.
  { apply along_z; [apply face_unit, dk_face; try assumption; lra|]. cbn [slice face_plane ell_plane plane_basis pl_n dk e_n]. coords. ring. }
  split; [exact rod_ok|]. split; [apply dk_face; try assumption; lra|]. split; [apply dk_larger; try assumption; lra|].
  split; [apply dk_boxed; try assumption; [lra|coords; lra]|]. split; [apply ops_boxed|].
  split; [exact Ha|]. split; [exact Ha|]. unfold splits. right. right. right. split; [discriminate|]. split.
  - cbn [slice_ops ops ck_cut]. split.
    + intros v Hv. rewrite slice_set. cbn [In] in Hv. destruct Hv as [<-|Hv].
      * right. intros q Hq. apply rod_lat in Hq. apply Rlt_le_trans with 1; [lra|]. apply far_y; [lra|]. cbn [vy].
        assert (vy q <= 1) by nra. rewrite Rabs_pos_eq; lra.
      * left. destruct Hv as [<-|[<-|[<-|[<-|[]]]]]; cbn [vx vy vz]; lra.
    + intros v w Hv Hw. cbn [In] in Hv, Hw.
      assert (forall a b : pt, a = b \/ 1 / 10 <= Rabs (vy a - vy b) \/ 1 / 10 <= Rabs (vz a - vz b) -> a = b \/ 1 / 10 <= dist a b) as M.
      { intros a b [-> |[H0|H0]]; [left; reflexivity|right; apply far_y; lra|right; apply far_z; lra]. }
      assert (P : forall a b, 1 / 10 <= a - b \/ 1 / 10 <= b - a -> 1 / 10 <= Rabs (a - b)).
      { intros a b [K|K]; unfold Rabs; destruct (Rcase_abs (a - b)); lra. }
      apply M. destruct Hv as [<-|[<-|[<-|[<-|[<-|[]]]]]]; destruct Hw as [<-|[<-|[<-|[<-|[<-|[]]]]]]; cbn [vx vy vz]; auto; right;
        first [left; apply P; lra|right; apply P; lra].
  - exists slice_segs. cbn [slice_ops ops ck_inner]. split; [|split].
    + unfold slice_segs. constructor; [|constructor; [|constructor]]; (split; [reflexivity|]); cbn [w_first w_last];
        (split; [intros E; injection E; lra|split; reflexivity]).
    + intros x. rewrite <- slice_tracks. tauto.
    + intros v Hv HS tr Htr. rewrite slice_set in HS. unfold slice_segs in Htr. cbn [In] in Htr.
      assert (forall b, vy v = b \/ 1 <= Rabs (vy v - b) -> on_segment (mkV3 0 b 1) (mkV3 0 b 9) v \/ far_from (on_segment (mkV3 0 b 1) (mkV3 0 b 9)) (1 / 10) v) as M.
      { intros b [E|E]; [left; apply vert_seg; lra|right]. intros q Hq. apply vert_seg in Hq; [|lra]. apply far_y; [lra|].
        replace (vy q) with b by lra. lra. }
      assert (P : forall a b, 1 <= a - b \/ 1 <= b - a -> 1 <= Rabs (a - b)).
      { intros a b [K|K]; unfold Rabs; destruct (Rcase_abs (a - b)); lra. }
      destruct Htr as [<-|[<-|[]]]; cbn [track_pts off_track]; apply M; destruct HS as (_ & _ & [-> | ->]); auto; right; apply P; lra.
Qed.

(** * A face tangent to the surface *)
Definition tangent : face R := FDisk (dk (mkV3 1 0 5) (mkV3 0 1 0) (mkV3 0 0 1) 6).
Lemma no_part K C c f eps : 0 < eps -> cyl_ok c -> face_ok f -> larger f eps -> along c f ->
  ck_faces C c f (1 / 10 * eps) = 0%nat -> ck_outer C c f (1 / 10 * eps) = [] ->
  (forall v q, In v (ck_cut C c f (1 / 10 * eps)) -> cyl_lateral_set c q -> sqrt 2 * eps < dist v q) ->
  int_cyl_face K C c f eps = Ok [PcEmpty].
Proof.
  intros Heps Hc Hf HL Ha H0 Ho Hv. unfold int_cyl_face. destruct (do_intersect _ _ _); cbn [negb]; [|reflexivity].
  destruct (cyl_face_planar K C c f eps Heps Hf HL) as (L & _ & ->). unfold cyl_planar. rewrite (ellipse_along K c f L eps Ha). cbn [obind].
  rewrite tenth_lit, H0, Ho. cbn [Nat.eqb].
  destruct (touch_form c eps (ck_cut C c f (1 / 10 * eps)) Heps) as [_ T]. destruct (touch_candidates _ _ _) as [|p ps]; [reflexivity|].
  exfalso. destruct (T p (or_introl eq_refl)) as [Hi Hs]. destruct (surf_contains_near c p eps Hc Heps Hs) as (q & Hq & Hd).
  specialize (Hv p q Hi Hq). lra.
Qed.
Lemma tangent_set x : common_set rod tangent x <-> vx x = 1 /\ vy x = 0 /\ 0 <= vz x <= 10.
Proof.
  destruct axes as (_ & A & B & _ & D). unfold common_set, both, tangent. rewrite dk_char, rod_lat by (assumption || lra).
  destruct x as [a b c]. unfold dot, psub, cross. cbn. split.
  - intros [[H1 H2] [H3 H4]]. assert (a = 1) as -> by lra. assert (b * b = 0) as Z by lra. apply Rmult_integral in Z. split; [reflexivity|]. lra.
  - intros (-> & -> & H2). split; [split; [ring|nra]|]. split; lra.
Qed.
Lemma tangent_rim x : on_ellipse (dk (mkV3 1 0 5) (mkV3 0 1 0) (mkV3 0 0 1) 6) x -> forall q, cyl_lateral_set rod q -> 1 / 2 < dist x q.
Proof.
  intros [phi ->] q Hq. apply rod_lat in Hq. set (x := ell_at _ phi).
  assert (vy x * vy x + (vz x - 5) * (vz x - 5) = 36) as Hx.
  { unfold x, ell_at, at_coords, dk. cbn [e_c e_maj e_min e_a e_b]. pose proof (sin2_cos2 phi) as S. unfold Rsqr in S. coords.
    transitivity (36 * (sin phi * sin phi + cos phi * cos phi)); [ring|rewrite S; ring]. }
  clearbody x. destruct (Rlt_le_dec (1 / 2) (dist x q)) as [|L]; [assumption|exfalso].
  set (d := psub x q). assert (dot d d <= 1 / 4) as Hd.
  { assert (0 <= dist x q) by apply dist_nonneg. assert (dist x q * dist x q = dot d d) as <- by (unfold dist; apply norm_sq). nra. }
  destruct x as [x1 y1 z1], q as [x2 y2 z2]. unfold d, dot, psub in Hd. cbn in *.
  assert (exists p, y1 = y2 + p) as [p ->] by (exists (y1 - y2); ring). assert (exists r, z1 = z2 + r) as [r ->] by (exists (z1 - z2); ring).
  assert (p * p + r * r <= 1 / 4) as Hpr by (pose proof (Rle_0_sqr (x1 - x2)) as K; unfold Rsqr in K; lra).
  assert (y2 * y2 + (z2 - 5) * (z2 - 5) <= 26) as Hq2 by nra.
  replace (z2 + r - 5) with ((z2 - 5) + r) in Hx by ring. set (w := z2 - 5) in *. clearbody w.
  assert (y2 * p + w * r <= 3) as Hc.
  { assert ((y2 * p + w * r) * (y2 * p + w * r) <= 26 * (1 / 4)) as Q.
    { assert ((y2 * p + w * r) * (y2 * p + w * r) <= (y2 * y2 + w * w) * (p * p + r * r)) as Q0.
      { pose proof (Rle_0_sqr (y2 * r - w * p)) as K. unfold Rsqr in K. lra. }
      eapply Rle_trans; [exact Q0|]. apply Rmult_le_compat; try lra; nra. }
    nra. }
  nra.
Qed.
(** the face does not enter the cylinder *)
Lemma tangent_outside x : face_set tangent x -> forall y, line_pts (axis_line rod) y -> 1 <= dist x y.
Proof.
  destruct axes as (_ & A & B & _ & D). destruct rod_bot as [Eb _]. unfold tangent. rewrite dk_char by (assumption || lra). intros [H1 _] y.
  unfold line_pts, axis_line. rewrite Eb. cbn [l_sup l_dir e_c e_n]. intros [t ->]. apply far_x; [lra|].
  assert (vx x = 1) as ->. { destruct x as [a b c]. unfold dot, psub, cross in H1. cbn in *. lra. }
  unfold padd, pscale. cbn. replace (1 - (0 + t * 0)) with 1 by ring. rewrite Rabs_R1. lra.
Qed.
Lemma tangent_missed K C eps : 0 < eps <= 1 / 4 ->
  ck_faces C rod tangent (1 / 10 * eps) = 0%nat -> ck_outer C rod tangent (1 / 10 * eps) = [] ->
  (forall v, In v (ck_cut C rod tangent (1 / 10 * eps)) -> on_ellipse (dk (mkV3 1 0 5) (mkV3 0 1 0) (mkV3 0 0 1) 6) v) ->
  int_cyl_face K C rod tangent eps = Ok [PcEmpty].
Proof.
  destruct axes as (_ & A & B & _ & D). pose proof sqrt2_lt as L2. pose proof (sqrt_pos 2) as L1. intros He H0 Ho Hv. apply no_part; try assumption; try lra.
  - apply rod_ok.
  - apply dk_face; try assumption; lra.
  - apply dk_larger; try assumption; lra.
  - apply along_z; [apply face_unit, dk_face; try assumption; lra|]. cbn [tangent face_plane ell_plane plane_basis pl_n dk e_n]. coords. ring.
  - intros v q Hi Hq. pose proof (tangent_rim v (Hv v Hi) q Hq). nra.
Qed.
Lemma tangent_ok : CylIntSpec.tube_ok rod /\ face_ok tangent /\ along rod tangent.
Proof.
  destruct axes as (_ & A & B & _ & D). split; [exact rod_ok|]. split; [apply dk_face; try assumption; lra|].
  apply along_z; [apply face_unit, dk_face; try assumption; lra|]. cbn [tangent face_plane ell_plane plane_basis pl_n dk e_n]. coords. ring.
Qed.
Lemma ramp_point : common_set rod ramp (mkV3 1 0 4).
Proof.
  apply ramp_set. exists PI. destruct s2_sq as (_ & _ & E). unfold ell_at, at_coords, ramp_ell. cbn [e_c e_maj e_min e_a e_b].
  rewrite cos_PI, sin_PI. apply v3_eq; coords; lra.
Qed.

(** two touching points *)
Definition two_ops : cyl_kernel R := ops 0 [] [mkV3 1 0 0; mkV3 5 5 5; mkV3 0 1 0; mkV3 1 0 0] [].
Definition far_face : face R := FDisk (dk (mkV3 2 2 0) (mkV3 1 0 0) (mkV3 0 1 0) 1).
Lemma two_points : int_cyl_face (one_kernel zero3) two_ops rod far_face (1 / 10) = Ok [PcPoint (mkV3 1 0 0); PcPoint (mkV3 0 1 0)].
Proof.
  destruct axes as (A & B & _ & D & _). unfold int_cyl_face.
  assert (do_intersect (ck_box two_ops rod) (k_face_box (one_kernel zero3) far_face) (1 / 10) = true) as ->.
  { apply (do_intersect_shared _ _ _ zero3); [lra| |]; unfold in_box; cbn; lra. }
  cbn [negb cyl_face far_face]. unfold cyl_planar.
  assert (across rod far_face) as Ha.
  { destruct rod_bot as [E _]. unfold across. rewrite E. exists 1. split; [lra|]. cbn [far_face face_plane ell_plane plane_basis pl_n dk e_n]. apply v3_eq; coords; ring. }
  destruct (ellipse_across (one_kernel zero3) rod far_face 1 (1 / 10) rod_ok) as (e & Ee & _); [|exact Ha|].
  { apply face_unit, dk_face; try assumption; lra. }
  change (e_a (dk (mkV3 2 2 0) (mkV3 1 0 0) (mkV3 0 1 0) 1)) with 1. fold far_face. rewrite Ee. cbn [obind two_ops ops ck_faces ck_outer ck_cut Nat.eqb].
  unfold touch_candidates. cbn [fold_left].
  assert (S1 : forall v, cyl_lateral_set rod v -> surf_contains rod v (1 / 10) = true).
  { intros v Hv. apply (surf_contains_all rod v (proj1 rod_ok)); [exact Hv|lra]. }
  rewrite (S1 (mkV3 1 0 0)) by (apply rod_lat; cbn; lra). cbn [existsb negb andb app].
  assert (surf_contains rod (mkV3 5 5 5) (1 / 10) = false) as ->.
  { destruct (surf_contains rod (mkV3 5 5 5) (1 / 10)) eqn:E; [|reflexivity]. exfalso.
    destruct (surf_contains_near rod _ (1 / 10) (proj1 rod_ok) ltac:(lra) E) as (q & Hq & Hd). apply rod_lat in Hq.
    pose proof sqrt2_lt. assert (4 <= dist (mkV3 5 5 5) q) as K; [|lra]. apply far_x; [lra|]. cbn [vx]. assert (vx q <= 1) by nra. rewrite Rabs_pos_eq; lra. }
  cbn [andb]. rewrite (S1 (mkV3 0 1 0)) by (apply rod_lat; cbn; lra).
  assert (forall p q : pt, 1 / 10 <= dist p q -> pt_eq p q (1 / 10) = false) as Pf.
  { intros p q H. destruct (pt_eq p q (1 / 10)) eqn:E; [|reflexivity]. apply pt_eq_spec in E; lra. }
  cbn [existsb andb]. rewrite (Pf (mkV3 1 0 0) (mkV3 0 1 0)).
  2: { apply far_x; [lra|]. cbn. rewrite Rabs_pos_eq; lra. }
  cbn [orb negb andb app existsb]. assert (pt_eq (mkV3 1 0 0) (mkV3 1 0 0) (1 / 10) = true) as ->.
  { apply pt_eq_spec; [lra|]. rewrite dist_self. lra. }
  cbn [orb negb]. rewrite ?andb_false_r. cbn [andb map]. reflexivity.
Qed.

(** the face of half_case is orthogonal to the axis *)
Lemma half_angle : angle (pl_n (face_plane half)) (e_n (c_bot rod)) <= ang_tol.
Proof.
  destruct rod_bot as [E _]. rewrite E. cbn [half face_plane ell_plane plane_basis pl_n dk e_n].
  replace (cross (mkV3 1 0 0) (mkV3 0 1 0)) with (mkV3 0 0 1 : pt) by (apply v3_eq; coords; ring).
  assert (unit3 (mkV3 0 0 1)) as U by (unfold unit3; coords; ring). unfold angle. rewrite (norm_unit _ U), U. replace (1 / (1 * 1)) with 1 by field. rewrite acos_1.
  unfold ang_tol. lra.
Qed.
Lemma half_level : ~ slanted rod half.
Proof.
  intros [H _]. pose proof half_angle as A. unfold oblique in *. lra.
Qed.
