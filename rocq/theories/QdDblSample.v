(** Proofs for C118: the edges and the plane of the quadrilaterals, and the lengths that are drawn. *)

From Coq Require Import ZArith Reals Lra Lia Psatz Bool List.
From Flocq Require Import Core.Core.
From Coq Require Import Floats.
From Verif Require Import Base NumModel VecModel LinModel RoundModel PolyModel DistModel IntModel SampModel GeoSpec LinSpec PolySpec SampSpec DblSpec GeoLemmas
  DblLemmas DblProofs DblLen DblEq LinDblSpec LinDblBase LinDblFoot LinDblProofs TrigDblSpec RndDblProofs FrDblProofs SdDblSpec SdDblProofs SdDblFrame SpDblSpec SpDblProofs QdDblSpec QdDblProofs.
Import ListNotations.
Local Open Scope R_scope.

Section Quad.
Variables (r s d : R) (c : pt) (x1 x2 y1 y2 : R) (q : quad PrimFloat.float).
Hypothesis H : corners_near r s d c x1 x2 y1 y2 q.
Let apart (p p' a a' : pt) : dist p a <= r -> dist p' a' <= r -> Rabs (dist p p' - dist a a') <= 2 * r.
Proof.
  unfold dist. intros A B. pose proof (norm_near (psub p p') (psub a a')) as L. eapply Rle_trans; [exact L|].
  replace (psub (psub p p') (psub a a')) with (padd (psub p a) (pscale (-1) (psub p' a'))) by (clear; destruct p as [p1 p2 p3], p' as [q1 q2 q3], a as [a1 a2 a3], a' as [b1 b2 b3]; pts; f_equal; ring).
  eapply Rle_trans; [apply norm_tri|]. rewrite norm_mul, Rabs_left by lra. lra.
Qed.
Let side u v v' : dist (padd c (SampSpec.in_plane s d u v)) (padd c (SampSpec.in_plane s d u v')) = Rabs (v - v').
Proof.
  unfold dist. replace (psub _ _) with (pscale (v - v') (strike_dir s)).
  - rewrite norm_mul. destruct (dirs_unit s d) as (A & _). rewrite (norm_unit _ A). ring.
  - unfold SampSpec.in_plane. clear. generalize (strike_dir s) (dip_dir s d). destruct c as [c1 c2 c3]. intros [a1 a2 a3] [b1 b2 b3]. pts. f_equal; ring.
Qed.
Lemma quad_sides : Rabs (dist (val3 (q_0 q)) (val3 (q_2 q)) - Rabs y1) <= 2 * r /\ Rabs (dist (val3 (q_1 q)) (val3 (q_3 q)) - Rabs y2) <= 2 * r.
Proof.
  destruct H as (A & B & C & D). split.
  - pose proof (apart _ _ _ _ A C) as E. rewrite side in E. replace (- (y1 / 2) - y1 / 2) with (- y1) in E by field. rewrite Rabs_Ropp in E. exact E.
  - pose proof (apart _ _ _ _ B D) as E. rewrite side in E. replace (- (y2 / 2) - y2 / 2) with (- y2) in E by field. rewrite Rabs_Ropp in E. exact E.
Qed.
Lemma quad_plane : forall p, In p [q_0 q; q_1 q; q_2 q; q_3 q] -> Rabs (dot (plane_normal s d) (psub (val3 p) c)) <= r.
Proof.
  assert (forall p u v, dist (val3 p) (padd c (SampSpec.in_plane s d u v)) <= r -> Rabs (dot (plane_normal s d) (psub (val3 p) c)) <= r) as K.
  { intros p u v E. destruct (dirs_unit s d) as (_ & _ & N & O1 & O2). unfold ortho in O1, O2.
    replace (dot (plane_normal s d) (psub (val3 p) c)) with (dot (plane_normal s d) (psub (val3 p) (padd c (SampSpec.in_plane s d u v)))).
    - eapply Rle_trans; [apply cauchy_norm|]. rewrite (norm_unit _ N), Rmult_1_l. exact E.
    - transitivity (dot (plane_normal s d) (psub (val3 p) c) - (u * dot (plane_normal s d) (dip_dir s d) + v * dot (plane_normal s d) (strike_dir s))); [|rewrite O1, O2; ring].
      unfold SampSpec.in_plane. clear. generalize (strike_dir s) (dip_dir s d) (plane_normal s d) (val3 p). destruct c as [c1 c2 c3]. intros [a1 a2 a3] [b1 b2 b3] [n1 n2 n3] [p1 p2 p3]. pts. ring. }
  destruct H as (A & B & C & D). intros p [<-|[<-|[<-|[<-|[]]]]]; eapply K; eassumption.
Qed.
End Quad.

Lemma f_ltb_val x y : number x -> number y -> ((x <? y)%num = true <-> val x < val y).
Proof. intros Nx Ny. exact (f_ltb x y Nx Ny). Qed.
Section Lengths.
Context {T : Trig PrimFloat.float}.
Variables (strike dip : PrimFloat.float) (c : V3 PrimFloat.float) (edge : draws PrimFloat.float) (min : PrimFloat.float).
Hypotheses (Ne : forall i, number (edge i)) (Nm : number min).
Lemma old_quad_dbl : ((exists i, (i < 4)%nat /\ val (edge i) < val min) -> sample_old_quad strike dip c edge min = Diverge) /\
  ((forall i, (i < 4)%nat -> val min <= val (edge i)) -> sample_old_quad strike dip c edge min = Ok (strike_dip_quad strike dip c (edge 0%nat) (edge 1%nat) (edge 2%nat) (edge 3%nat))).
Proof.
  assert (forall i, edge_length min (edge i) = if (edge i <? min)%num then Diverge else Ok (edge i)) as L by reflexivity.
  assert (forall i, val min <= val (edge i) -> (edge i <? min)%num = false) as F.
  { intros i Hi. destruct (edge i <? min)%num eqn:E; [|reflexivity]. apply f_ltb_val in E; [lra|apply Ne|exact Nm]. }
  unfold sample_old_quad. rewrite !L. split.
  - intros (i & Hi & Lt). assert ((edge i <? min)%num = true) as E by (apply f_ltb_val; [apply Ne|exact Nm|exact Lt]).
    destruct i as [|[|[|[|i]]]]; try lia; rewrite E; repeat (match goal with |- context [if ?b then _ else _] => destruct b end; cbn [obind]; try reflexivity).
  - intros Hi. rewrite !F by (apply Hi; lia). reflexivity.
Qed.
Lemma py_edge_dbl i j fuel l k : py_edge_length min edge (edge i) j fuel = Ok (l, k) -> (exists m, l = edge m) /\ val min <= val l.
Proof.
  assert (forall m, (edge m <? min)%num = false -> val min <= val (edge m)) as F.
  { intros m Hm. apply Rnot_lt_le. intros Lt. apply f_ltb_val in Lt; [congruence|apply Ne|exact Nm]. }
  unfold py_edge_length. destruct (edge i <? min)%num eqn:E.
  - clear E. revert j. induction fuel as [|f IH]; intros j; cbn [draw_until]; [discriminate|]. destruct (edge j <? min)%num eqn:E; cbn [negb]; [apply IH|].
    intros [= <- <-]. split; [exists j; reflexivity|apply F, E].
  - intros [= <- <-]. split; [exists i; reflexivity|apply F, E].
Qed.
Lemma py_quad_dbl fuel q : py_old_quad strike dip c edge min fuel = Ok q -> exists k1 k2 k3 k4,
  Forall (fun k => val min <= val (edge k)) [k1; k2; k3; k4] /\ q = strike_dip_quad strike dip c (edge k1) (edge k2) (edge k3) (edge k4).
Proof.
  unfold py_old_quad.
  destruct (py_edge_length min edge (edge 0%nat) 4 fuel) as [[a1 j1]| | |] eqn:E1; cbn [obind snd fst]; try discriminate.
  destruct (py_edge_length min edge (edge 1%nat) j1 fuel) as [[a2 j2]| | |] eqn:E2; cbn [obind snd fst]; try discriminate.
  destruct (py_edge_length min edge (edge 2%nat) j2 fuel) as [[a3 j3]| | |] eqn:E3; cbn [obind snd fst]; try discriminate.
  destruct (py_edge_length min edge (edge 3%nat) j3 fuel) as [[a4 j4]| | |] eqn:E4; cbn [obind snd fst]; try discriminate.
  intros E. match type of E with Ok ?x = Ok ?y => assert (x = y) as <- by congruence end.
  apply py_edge_dbl in E1, E2, E3, E4. destruct E1 as ((k1 & ->) & L1), E2 as ((k2 & ->) & L2), E3 as ((k3 & ->) & L3), E4 as ((k4 & ->) & L4).
  exists k1, k2, k3, k4. split; [repeat (apply Forall_cons; [assumption|]); apply Forall_nil|reflexivity].
Qed.
End Lengths.

Lemma old_near (T : Trig PrimFloat.float) strike dip M c edge min q : accurate T -> usual_angle strike -> usual_angle dip -> scale M -> point_upto M c -> (forall i, length_upto M (edge i)) -> number min ->
  sample_old_quad strike dip c edge min = Ok q ->
  corners_near (powerRZ 2 (-40) * M) (val strike) (val dip) (val3 c) (val (edge 0%nat)) (val (edge 1%nat)) (val (edge 2%nat)) (val (edge 3%nat)) q.
Proof.
  intros HT Hs Hd HM Hc He Nm E. destruct (old_quad_dbl strike dip c edge min (fun i => proj1 (He i)) Nm) as [A B].
  destruct (Rlt_dec (val (edge 0%nat)) (val min)) as [L0|L0]. { rewrite A in E by (exists 0%nat; split; [lia|exact L0]). discriminate. }
  destruct (Rlt_dec (val (edge 1%nat)) (val min)) as [L1|L1]. { rewrite A in E by (exists 1%nat; split; [lia|exact L1]). discriminate. }
  destruct (Rlt_dec (val (edge 2%nat)) (val min)) as [L2|L2]. { rewrite A in E by (exists 2%nat; split; [lia|exact L2]). discriminate. }
  destruct (Rlt_dec (val (edge 3%nat)) (val min)) as [L3|L3]. { rewrite A in E by (exists 3%nat; split; [lia|exact L3]). discriminate. }
  rewrite B in E. 2:{ intros i Hi. destruct i as [|[|[|[|i]]]]; try lia; lra. }
  match type of E with Ok ?x = Ok ?y => assert (x = y) as <- by congruence end. apply (quad_corners T); try assumption; apply He.
Qed.
