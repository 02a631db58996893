(** Examples for C109: a horizontal and a vertical quadrilateral that meet in a segment of length one. *)

From Coq Require Import ZArith Reals List Lra Lia Psatz Bool.
From Flocq Require Import Core.Core IEEE754.BinarySingleNaN IEEE754.PrimFloat.
From Coq Require Import Floats.
From Verif Require Import Base ConstraintsModel NumModel VecModel LinModel RoundModel PolyModel DistModel IntModel AngModel CylIntModel EvalModel
  GeoSpec PolySpec DistSpec DblSpec GeoLemmas DblLemmas DblProofs DblLen DblExamples LinDblSpec LinDblBase LinDblFoot LinDblProofs LinDblExamples RndDblProofs
  TrigDblSpec TrigDblExamples AngDblExamples BdDblSpec BdDblProofs.
Import ListNotations.
Local Open Scope R_scope.

Definition bd_floor : quad PrimFloat.float := make_quad (mkV3 0 0 3)%float (mkV3 7 0 3)%float (mkV3 0 7 3)%float (mkV3 7 7 3)%float.
Definition bd_wall : quad PrimFloat.float := make_quad (mkV3 3 3 0)%float (mkV3 4 3 0)%float (mkV3 3 3 7)%float (mkV3 4 3 7)%float.
Definition floor_cs : list (V3 PrimFloat.float) := [mkV3 0 7 3; mkV3 0 0 3; mkV3 7 0 3; mkV3 7 7 3]%float.
Definition wall_cs : list (V3 PrimFloat.float) := [mkV3 3 3 7; mkV3 3 3 0; mkV3 4 3 0; mkV3 4 3 7]%float.
Definition cut_s : V3 PrimFloat.float := mkV3 3%float 3%float 3%float.
Definition cut_t : V3 PrimFloat.float := mkV3 4%float 3%float 3%float.
(** the largest double *)
Definition bd_top : PrimFloat.float := 0x1.fffffffffffffp1023%float.

(** what OpenCascade returns for them *)
Definition bd_kernel : IntModel.kernel PrimFloat.float :=
  IntModel.mkKernel _ (fun _ _ _ => Some (mkLine (mkV3 0 3 3)%float axis_x)) (fun _ _ => None) (fun _ _ _ => [])
    (fun _ f _ => match f with FQuad q => if PrimFloat.eqb (vx (q_0 q)) 0%float then [(mkV3 0 3 3, mkV3 7 3 3)]%float else [(cut_s, cut_t)] | _ => [] end) (fun _ _ _ => [])
    (fun f => match f with FQuad q => mkBox (q_0 q) (q_3 q) | _ => cube end) (fun _ => cube).
Definition bd_ops (C : cyl_kernel PrimFloat.float) : ent_ops PrimFloat.float :=
  mkEntOps _ bd_kernel C (fun _ _ => Ok 0%float) (fun _ _ => Ok 0%float) (fun _ _ => Ok 0%float) (fun _ => Ok 0%float).

(** points with small integers *)
Lemma floor_pts : forall a, In a floor_cs -> number3 a /\ within3 12 a /\ vz (val3 a) = 3.
Proof.
  destruct zero_val as [N0 V0], v3 as [N3 V3'], v7 as [N7 V7].
  assert (forall x, 0 <= x <= 12 -> Rabs x <= 12) as K by (intros x H; rewrite Rabs_pos_eq; lra).
  intros a Ha. unfold floor_cs in Ha. cbn [In] in Ha.
  repeat destruct Ha as [<-|Ha]; try contradiction; unfold number3, within3, val3; cbn [vx vy vz]; rewrite ?V0, ?V3', ?V7; repeat split; try assumption; apply K; lra.
Qed.
Lemma wall_pts : forall a, In a wall_cs -> number3 a /\ within3 12 a /\ vy (val3 a) = 3.
Proof.
  destruct zero_val as [N0 V0], v3 as [N3 V3'], v4 as [N4 V4], v7 as [N7 V7].
  assert (forall x, 0 <= x <= 12 -> Rabs x <= 12) as K by (intros x H; rewrite Rabs_pos_eq; lra).
  intros a Ha. unfold wall_cs in Ha. cbn [In] in Ha.
  repeat destruct Ha as [<-|Ha]; try contradiction; unfold number3, within3, val3; cbn [vx vy vz]; rewrite ?V0, ?V3', ?V4, ?V7; repeat split; try assumption; apply K; lra.
Qed.
Lemma cut_upto : point_upto 12 cut_s /\ point_upto 12 cut_t.
Proof.
  destruct v3 as [N3 V3'], v4 as [N4 V4]. assert (forall x, 0 <= x <= 12 -> Rabs x <= 12) as K by (intros x H; rewrite Rabs_pos_eq; lra).
  unfold point_upto, number3, within3, cut_s, cut_t. cbn [vx vy vz]. rewrite V3', V4. repeat split; try assumption; apply K; lra.
Qed.
Lemma cut_len : dist (val3 cut_s) (val3 cut_t) = 1.
Proof.
  unfold dist, norm, dot, psub, val3, cut_s, cut_t. cbn [vx vy vz]. rewrite (proj2 v3), (proj2 v4).
  replace ((3 - 4) * (3 - 4) + (3 - 3) * (3 - 3) + (3 - 3) * (3 - 3)) with 1 by ring. apply sqrt_1.
Qed.
Lemma floor_vals : map val3 floor_cs = [mkV3 0 7 3; mkV3 0 0 3; mkV3 7 0 3; mkV3 7 7 3].
Proof. unfold floor_cs, val3. cbn [map vx vy vz]. rewrite (proj2 zero_val), (proj2 v3), (proj2 v7). reflexivity. Qed.
Lemma wall_vals : map val3 wall_cs = [mkV3 3 3 7; mkV3 3 3 0; mkV3 4 3 0; mkV3 4 3 7].
Proof. unfold wall_cs, val3. cbn [map vx vy vz]. rewrite (proj2 zero_val), (proj2 v3), (proj2 v4), (proj2 v7). reflexivity. Qed.

(** sides along a coordinate axis *)
Lemma gap_int (x y : PrimFloat.float) a b : val x = IZR a -> val y = IZR b -> gap x y.
Proof.
  intros X Y. unfold gap. rewrite X, Y. destruct (Z.eq_dec a b) as [->|H]; [left; lra|right]. rewrite <- minus_IZR, <- abs_IZR.
  rewrite two_p. apply Rle_trans with 1; [change 1 with (bpow radix2 0); apply bpow_le; lia|apply IZR_le; lia].
Qed.
Lemma side_int a b (x y z x' y' z' : Z) : point_upto 12 a -> point_upto 12 b -> val3 a = mkV3 (IZR x) (IZR y) (IZR z) -> val3 b = mkV3 (IZR x') (IZR y') (IZR z') ->
  (x, y, z) <> (x', y', z') -> side 12 a b.
Proof.
  intros Ha Hb A B D. split; [exact Ha|]. split; [exact Hb|]. unfold val3 in A, B. injection A as A1 A2 A3. injection B as B1 B2 B3. split.
  - split; [|split]; eapply gap_int; eassumption.
  - cbv zeta. assert (1 <= norm (psub (val3 b) (val3 a))) as L.
    { unfold norm, dot, psub, val3. cbn [vx vy vz]. rewrite A1, A2, A3, B1, B2, B3, <- !minus_IZR, <- !mult_IZR, <- !plus_IZR. rewrite <- sqrt_1. apply sqrt_le_1_alt, IZR_le.
      assert (x' - x <> 0 \/ y' - y <> 0 \/ z' - z <> 0)%Z as [H|[H|H]] by (destruct (Z.eq_dec x x'), (Z.eq_dec y y'), (Z.eq_dec z z'); subst; [congruence|lia..]);
        generalize dependent (x' - x)%Z; generalize dependent (y' - y)%Z; generalize dependent (z' - z)%Z; clear; intros; nia. }
    split; [destruct p_400 as (_ & _ & P); lra|]. rewrite two_p. change (bpow radix2 (-42)) with (/ 4398046511104). lra.
Qed.
Ltac ints := unfold val3; cbn [vx vy vz]; rewrite ?(proj2 zero_val), ?(proj2 v3), ?(proj2 v4), ?(proj2 v7); reflexivity.
Lemma floor_ok : cornered (FQuad bd_floor) floor_cs /\ outline 12 floor_cs /\ edges_below 7 (map val3 floor_cs).
Proof.
  split; [reflexivity|split].
  - intros a b Ha Hb I. destruct (floor_pts a Ha) as (Na & Wa & _). destruct (floor_pts b Hb) as (Nb & Wb & _). rewrite floor_vals in I. unfold edges in I. cbn [firstn app chain In] in I.
    repeat destruct I as [I|I]; try contradiction; apply pair_equal_spec in I as [A B];
      (eapply side_int; [split; assumption|split; assumption|symmetry; exact A|symmetry; exact B|discriminate]) .
  - intros ab I. rewrite floor_vals in I. unfold edges in I. cbn [firstn app chain In] in I.
    repeat destruct I as [I|I]; try contradiction; subst ab; cbn [fst snd]; unfold dist, norm, dot, psub; cbn [vx vy vz]; (apply Rle_trans with (R_sqrt.sqrt (7 * 7)); [apply sqrt_le_1_alt; lra|rewrite sqrt_square; lra]).
Qed.
Lemma wall_ok : cornered (FQuad bd_wall) wall_cs /\ outline 12 wall_cs /\ edges_below 7 (map val3 wall_cs).
Proof.
  split; [reflexivity|split].
  - intros a b Ha Hb I. destruct (wall_pts a Ha) as (Na & Wa & _). destruct (wall_pts b Hb) as (Nb & Wb & _). rewrite wall_vals in I. unfold edges in I. cbn [firstn app chain In] in I.
    repeat destruct I as [I|I]; try contradiction; apply pair_equal_spec in I as [A B];
      (eapply side_int; [split; assumption|split; assumption|symmetry; exact A|symmetry; exact B|discriminate]) .
  - intros ab I. rewrite wall_vals in I. unfold edges in I. cbn [firstn app chain In] in I.
    repeat destruct I as [I|I]; try contradiction; subst ab; cbn [fst snd]; unfold dist, norm, dot, psub; cbn [vx vy vz]; (apply Rle_trans with (R_sqrt.sqrt (7 * 7)); [apply sqrt_le_1_alt; lra|rewrite sqrt_square; lra]).
Qed.

(** both ends are three away from the boundary of the floor, and on the boundary of the wall *)
Lemma floor_far p : p = cut_s \/ p = cut_t -> dist_to (boundary (map val3 floor_cs)) (val3 p) 3.
Proof.
  intros Hp. rewrite floor_vals.
  assert (exists x, 3 <= x <= 4 /\ val3 p = mkV3 x 3 3) as (x & Hx & ->).
  { destruct Hp as [->| ->]; [exists 3|exists 4]; (split; [lra|]); unfold cut_s, cut_t; ints. }
  split.
  - exists (mkV3 x 0 3). split.
    + exists (mkV3 0 0 3, mkV3 7 0 3). split; [cbn; auto|]. exists (x / 7). split; [lra|]. unfold padd, pscale. cbn [fst snd vx vy vz]. f_equal; field.
    + unfold dist, norm, dot, psub. cbn [vx vy vz]. replace (_ + _) with (3 * 3) by ring. apply sqrt_square. lra.
  - intros y (ab & I & t & Ht & ->). unfold edges in I. cbn [firstn app chain In] in I.
    assert (forall a b c, 3 <= a \/ a <= - 3 \/ 3 <= b \/ b <= - 3 -> 3 * 3 <= a * a + b * b + c * c) as K by (intros; nra).
    repeat destruct I as [I|I]; try contradiction; subst ab; unfold padd, pscale, dist, norm, dot, psub; cbn [fst snd vx vy vz]; (apply Rle_trans with (R_sqrt.sqrt (3 * 3)); [rewrite sqrt_square; lra|apply sqrt_le_1_alt, K; lra]).
Qed.
Lemma wall_near p : p = cut_s \/ p = cut_t -> dist_to (boundary (map val3 wall_cs)) (val3 p) 0.
Proof.
  intros Hp. rewrite wall_vals. split; [|intros; apply sqrt_pos]. exists (val3 p). split; [|unfold dist, norm, dot, psub; cbn [vx vy vz]; rewrite <- sqrt_0; f_equal; ring].
  destruct Hp as [->| ->].
  - replace (val3 cut_s) with (mkV3 3 3 3) by (symmetry; unfold cut_s; ints). exists (mkV3 3 3 7, mkV3 3 3 0). split; [cbn; auto|]. exists (4 / 7). split; [lra|]. unfold padd, pscale. cbn [fst snd vx vy vz]. f_equal; field.
  - replace (val3 cut_t) with (mkV3 4 3 3) by (symmetry; unfold cut_t; ints). exists (mkV3 4 3 0, mkV3 4 3 7). split; [cbn; auto|]. exists (3 / 7). split; [lra|]. unfold padd, pscale. cbn [fst snd vx vy vz]. f_equal; field.
Qed.

Lemma top_val : number bd_top /\ powerRZ 2 500 <= val bd_top.
Proof.
  destruct (int_val bd_top 9007199254740991 971 ltac:(vm_compute; reflexivity)) as [N V]. split; [exact N|]. rewrite V, two_p.
  apply Rle_trans with (1 * bpow radix2 971); [rewrite Rmult_1_l; apply bpow_le; lia|]. apply Rmult_le_compat_r; [apply bpow_ge_0|lra].
Qed.
(** the default tolerances *)
Lemma floor_eps : number (eps_quad bd_floor) /\ / 10000000 <= val (eps_quad bd_floor) <= / 1000000.
Proof.
  assert (Prim2SF (eps_quad bd_floor) = S754_finite false 6611313076017503 (-74)) as E by (vm_compute; reflexivity). destruct (int_val _ _ _ E) as [N V]. split; [exact N|]. rewrite V. change (bpow radix2 (-74)) with (/ 18889465931478580854784). lra.
Qed.
Lemma wall_eps : number (eps_quad bd_wall) /\ / 10000000 <= val (eps_quad bd_wall) <= / 1000000.
Proof.
  assert (Prim2SF (eps_quad bd_wall) = S754_finite false 4997682925351937 (-75)) as E by (vm_compute; reflexivity). destruct (int_val _ _ _ E) as [N V]. split; [exact N|]. rewrite V. change (bpow radix2 (-75)) with (/ 37778931862957161709568). lra.
Qed.

Section Cases.
Context (T : Trig PrimFloat.float).
Hypothesis HT : accurate T.

(** the intersection *)
Lemma bd_not_parallel : gp_parallel (pl_n (q_plane bd_floor)) (pl_n (q_plane bd_wall)) angular = false.
Proof.
  unfold gp_parallel, gp_angle. cbn [ndiv nmul nsub nltb nleb nopp F_num].
  assert ((sprod (pl_n (q_plane bd_floor)) (pl_n (q_plane bd_wall)) / (vlen (pl_n (q_plane bd_floor)) * vlen (pl_n (q_plane bd_wall))))%float =
    (sprod (e_n flat_disk) (e_n wall_disk) / (vlen (e_n flat_disk) * vlen (e_n wall_disk)))%float) as -> by (vm_compute; reflexivity).
  exact (right_not_parallel T HT).
Qed.
Lemma bd_inter C : ent_intersect_eps (bd_ops C) (EFace (FQuad bd_floor)) (EFace (FQuad bd_wall)) 0x1p-10%float = Ok [PSegment cut_s cut_t].
Proof.
  unfold ent_intersect_eps, int_faces, bd_ops. cbn [eo_int bd_kernel k_face_box].
  assert (do_intersect (mkBox (q_0 bd_floor) (q_3 bd_floor)) (mkBox (q_0 bd_wall) (q_3 bd_wall)) 0x1p-10%float = true) as -> by (vm_compute; reflexivity). cbn [negb].
  unfold quad_quad. assert (q_convex bd_floor = true) as -> by (vm_compute; reflexivity). assert (q_convex bd_wall = true) as -> by (vm_compute; reflexivity). cbn [negb orb].
  unfold planar_planar, plane_plane. cbn [face_plane]. rewrite bd_not_parallel.
  change (k_plane_plane bd_kernel (q_plane bd_floor) (q_plane bd_wall) 0x1p-10%float) with (Some (mkLine (mkV3 0 3 3)%float axis_x)). cbn [obind l_sup l_dir].
  assert (to_dir axis_x = axis_x) as -> by (vm_compute; reflexivity).
  assert (forall c, planar_line bd_kernel (FQuad bd_floor) (mkLine (mkV3 0 3 3)%float axis_x) c 0x1p-10%float 0x1p-10%float = Ok (IsSeg (mkSeg (mkV3 0 3 3) (mkV3 7 3 3))%float)) as K1.
  { intros c. unfold planar_line, plane_line. cbn [face_plane l_dir l_sup]. rewrite (right_normal T HT) by (vm_compute; reflexivity). cbn [negb nltb F_num].
    assert (PrimFloat.ltb 0x1p-10 (vlen (vec_to (mkV3 0 3 3) (plane_proj (q_plane bd_floor) (mkV3 0 3 3))))%float = false) as -> by (vm_compute; reflexivity). cbn [obind k_common bd_kernel].
    assert (PrimFloat.eqb (vx (q_0 bd_floor)) 0 = true) as -> by (vm_compute; reflexivity). reflexivity. }
  assert (forall c, planar_line bd_kernel (FQuad bd_wall) (mkLine (mkV3 0 3 3)%float axis_x) c 0x1p-10%float 0x1p-10%float = Ok (IsSeg (mkSeg cut_s cut_t))) as K2.
  { intros c. unfold planar_line, plane_line. cbn [face_plane l_dir l_sup]. rewrite (right_normal T HT) by (vm_compute; reflexivity). cbn [negb nltb F_num].
    assert (PrimFloat.ltb 0x1p-10 (vlen (vec_to (mkV3 0 3 3) (plane_proj (q_plane bd_wall) (mkV3 0 3 3))))%float = false) as -> by (vm_compute; reflexivity). cbn [obind k_common bd_kernel].
    assert (PrimFloat.eqb (vx (q_0 bd_wall)) 0 = false) as -> by (vm_compute; reflexivity). reflexivity. }
  rewrite K1, K2. cbn [obind]. unfold seg_seg. cbn [s_src s_tgt].
  assert (to_dir (vec_to (mkV3 0 3 3) (mkV3 7 3 3))%float = axis_x) as -> by (vm_compute; reflexivity).
  assert (to_dir (vec_to cut_s cut_t) = axis_x) as -> by (vm_compute; reflexivity). rewrite (same_parallel T HT).
  assert (line_contains (seg_line (mkSeg (mkV3 0 3 3) (mkV3 7 3 3))%float) cut_s 0x1p-10%float = true) as -> by (vm_compute; reflexivity). cbn [negb].
  assert (seg_contains (mkSeg (mkV3 0 3 3) (mkV3 7 3 3))%float cut_s 0x1p-10%float false = true) as -> by (vm_compute; reflexivity).
  assert (seg_contains (mkSeg (mkV3 0 3 3) (mkV3 7 3 3))%float cut_t 0x1p-10%float false = true) as -> by (vm_compute; reflexivity).
  cbn [andb obind of_isect s_src s_tgt]. reflexivity.
Qed.

(** a distance of one is respected, a distance of four is not *)
Lemma bd_boundary C : (forall p, In p [cut_s; cut_t] ->
    (clear_of floor_cs (val 1%float + (7 / 10000000 + powerRZ 2 (-42) * 12)) p \/ near_to floor_cs (val (eps_quad bd_floor) - powerRZ 2 (-45) * 12) p) /\
    (clear_of wall_cs (val 1%float + (7 / 10000000 + powerRZ 2 (-42) * 12)) p \/ near_to wall_cs (val (eps_quad bd_wall) - powerRZ 2 (-45) * 12) p)) /\
  clear_of floor_cs (val (eps_quad bd_floor) + (7 / 10000000 + powerRZ 2 (-42) * 12)) cut_s /\ near_to floor_cs (val 4%float - powerRZ 2 (-45) * 12) cut_s /\
  ent_evaluate bd_top (bd_ops C) (boundary_only 0x1p-10%float 1%float) (EFace (FQuad bd_floor)) (EFace (FQuad bd_wall)) = Ok true /\
  ent_evaluate bd_top (bd_ops C) (boundary_only 0x1p-10%float 4%float) (EFace (FQuad bd_floor)) (EFace (FQuad bd_wall)) = Ok false.
Proof.
  destruct floor_ok as (C1 & O1 & B1). destruct wall_ok as (C2 & O2 & B2). destruct floor_eps as [N1 E1]. destruct wall_eps as [N2 E2].
  destruct top_val as [NT VT]. destruct one_val as [M1 V1]. destruct v4 as [M4 V4].
  assert (powerRZ 2 (-42) <= / 1000000000000 /\ powerRZ 2 (-45) <= / 1000000000000 /\ 0 <= powerRZ 2 (-45)) as (P42 & P45 & P0).
  { rewrite !two_p. change (bpow radix2 (-42)) with (/ 4398046511104). change (bpow radix2 (-45)) with (/ 35184372088832). lra. }
  assert (forall p, In p [cut_s; cut_t] -> p = cut_s \/ p = cut_t) as I by (intros p [<-|[<-|[]]]; auto).
  assert (forall p, In p [cut_s; cut_t] ->
    (clear_of floor_cs (val 1%float + (7 / 10000000 + powerRZ 2 (-42) * 12)) p \/ near_to floor_cs (val (eps_quad bd_floor) - powerRZ 2 (-45) * 12) p) /\
    (clear_of wall_cs (val 1%float + (7 / 10000000 + powerRZ 2 (-42) * 12)) p \/ near_to wall_cs (val (eps_quad bd_wall) - powerRZ 2 (-45) * 12) p)) as A.
  { intros p Hp. split.
    - left. intros y Hy. destruct (floor_far p (I p Hp)) as [_ F]. specialize (F y Hy). lra.
    - right. destruct (wall_near p (I p Hp)) as [(y & Hy & E) _]. exists y. split; [exact Hy|]. lra. }
  assert (clear_of floor_cs (val (eps_quad bd_floor) + (7 / 10000000 + powerRZ 2 (-42) * 12)) cut_s) as Q1.
  { intros y Hy. destruct (floor_far cut_s (or_introl eq_refl)) as [_ F]. specialize (F y Hy). lra. }
  assert (near_to floor_cs (val 4%float - powerRZ 2 (-45) * 12) cut_s) as Q2.
  { destruct (floor_far cut_s (or_introl eq_refl)) as [(y & Hy & E) _]. exists y. split; [exact Hy|]. lra. }
  assert (forall p, In p (ends (PSegment cut_s cut_t : ent_piece (A := PrimFloat.float))) -> point_upto 12 p) as Hup.
  { intros p [<-|[<-|[]]]; apply cut_upto. }
  split; [exact A|]. split; [exact Q1|]. split; [exact Q2|]. split.
  - destruct (boundary_constraint T bd_top (bd_ops C) 12 7 _ _ _ _ _ 1%float _ _ _ NT VT moderate_12 C1 C2 O1 O2 B1 B2 M1 eq_refl eq_refl N1 N2 (bd_inter C) ltac:(discriminate) Hup) as (b & -> & S & _).
    rewrite S; [reflexivity|exact A].
  - destruct (boundary_constraint T bd_top (bd_ops C) 12 7 _ _ _ _ _ 4%float _ _ _ NT VT moderate_12 C1 C2 O1 O2 B1 B2 M4 eq_refl eq_refl N1 N2 (bd_inter C) ltac:(discriminate) Hup) as (b & -> & _ & S).
    rewrite (S cut_s); [reflexivity|left; reflexivity|]. left. split; [exact Q1|exact Q2].
Qed.
(** the length is one: a thousandth is respected, three is not *)
Lemma bd_length C top :
  ent_evaluate top (bd_ops C) (length_only 0x1p-10%float 0x1p-10%float) (EFace (FQuad bd_floor)) (EFace (FQuad bd_wall)) = Ok true /\
  ent_evaluate top (bd_ops C) (length_only 0x1p-10%float 3%float) (EFace (FQuad bd_floor)) (EFace (FQuad bd_wall)) = Ok false.
Proof.
  destruct cut_upto as [S1 S2]. pose proof cut_len as L. destruct vmilli as [Nm Vm]. destruct v3 as [N3 V3'].
  assert (powerRZ 2 (-48) <= / 1000000000000) as P48 by (rewrite two_p; change (bpow radix2 (-48)) with (/ 281474976710656); lra).
  split.
  - destruct (length_constraint T top (bd_ops C) 12 _ _ _ _ _ _ moderate_12 S1 S2 Nm (bd_inter C)) as (b & -> & S & _). rewrite S; [reflexivity|]. rewrite L, Vm. lra.
  - destruct (length_constraint T top (bd_ops C) 12 _ _ _ _ _ _ moderate_12 S1 S2 N3 (bd_inter C)) as (b & -> & _ & S). rewrite S; [reflexivity|]. rewrite L, V3'. lra.
Qed.
End Cases.

(** the floor as a polygon *)
Lemma floor_poly : exists pg, make_poly floor_cs = Ok pg.
Proof. eexists. reflexivity. Qed.
Lemma bd_on : number 0x1p-10%float /\ val 0x1p-10%float + (7 / 10000000 + powerRZ 2 (-42) * 12) <= 3 /\ 0 + powerRZ 2 (-45) * 12 < val 0x1p-10%float /\
  on_quad_boundary cut_s bd_floor 0x1p-10%float = Ok false /\ on_quad_boundary cut_s bd_wall 0x1p-10%float = Ok true.
Proof.
  destruct vmilli as [Nm Vm]. split; [exact Nm|]. rewrite Vm, !two_p. change (bpow radix2 (-42)) with (/ 4398046511104). change (bpow radix2 (-45)) with (/ 35184372088832).
  split; [lra|]. split; [lra|]. split; vm_compute; reflexivity.
Qed.
