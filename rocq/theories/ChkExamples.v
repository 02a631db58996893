(** Examples for C116. *)

From Coq Require Import ZArith Reals Lra Lia Psatz List Bool.
From Verif Require Import Base NumModel VecModel LinModel RoundModel PolyModel IntModel SampModel ChkModel GeoSpec LinSpec RoundSpec PolySpec IntSpec GeoLemmas LinProofs
  PolyBridge IntExamples ChkProofs.
Import ListNotations.
Local Open Scope R_scope.

Lemma square_case : noncollinear (mkV3 0 0 0) (mkV3 1 0 0) (mkV3 0 1 0) /\ on_plane (mkV3 0 0 0) (cross (psub (mkV3 1 0 0) (mkV3 0 0 0)) (psub (mkV3 0 1 0) (mkV3 0 0 0))) (mkV3 1 1 0)
  /\ (mkV3 1 1 0 : pt) <> mkV3 0 0 0.
Proof.
  split; [|split].
  - intros E. apply (f_equal vz) in E. revert E. unfold cross, psub, zero3. rn. cbn [vx vy vz]. lra.
  - unfold on_plane, dot, cross, psub. rn. cbn [vx vy vz]. ring.
  - intros E. apply (f_equal vx) in E. cbn in E. lra.
Qed.
(** a plane at the distance 10^-7 from another one *)
Definition floor_plane (z : R) : plane R := mkPlane (mkV3 0 0 z) (mkV3 1 0 0) (mkV3 0 1 0) (mkV3 0 0 1).
Lemma floor_planes (h : R) : 0 <= h -> unit3 (pl_n (floor_plane 0)) /\ ~ oblique ang_tol (pl_n (floor_plane 0)) (pl_n (floor_plane h)) /\ dist_to (plane_pts (floor_plane 0)) (pl_sup (floor_plane h)) h.
Proof.
  intros Hh. split; [unfold unit3, dot; cbn; ring|]. split.
  - unfold oblique, angle. cbn [floor_plane pl_n]. intros [A _]. revert A. unfold norm. replace (dot _ _) with 1 by (unfold dot; cbn; ring). rewrite sqrt_1.
    replace (1 / (1 * 1)) with 1 by field. rewrite acos_1. unfold ang_tol. pose proof (pow_lt 10 10 ltac:(lra)) as P. pose proof (Rinv_0_lt_compat _ P). lra.
  - cbn [floor_plane pl_sup]. split.
    + exists (mkV3 0 0 0). split; [unfold plane_pts, on_plane, dot, psub; cbn; ring|]. unfold dist, norm, dot, psub. cbn [vx vy vz]. replace (_ + _ + _) with (h * h) by ring. apply sqrt_square, Hh.
    + intros y Hy. unfold plane_pts, on_plane, dot, psub in Hy. cbn [floor_plane pl_sup pl_n vx vy vz] in Hy. unfold dist, norm, dot, psub. cbn [vx vy vz].
      rewrite <- (sqrt_square h Hh) at 1. apply sqrt_le_1_alt. assert (vz y = 0) as -> by lra. nra.
Qed.
Lemma floor_apart K : angle_check K (floor_plane 0) (floor_plane (1 / 10 ^ 7)) <> Ok true.
Proof.
  assert (0 <= 1 / 10 ^ 7) as H by (pose proof (Rinv_0_lt_compat _ (pow_lt 10 7 ltac:(lra))); lra).
  destruct (floor_planes (1 / 10 ^ 7) H) as (A & B & C). intros E. apply (angle_checked K _ _ _ A B C) in E. lra.
Qed.
Lemma floor_apart_false K : angle_check K (floor_plane 0) (floor_plane (1 / 10 ^ 7)) = Ok false.
Proof.
  assert (0 <= 1 / 10 ^ 7) as H by (pose proof (Rinv_0_lt_compat _ (pow_lt 10 7 ltac:(lra))); lra).
  destruct (floor_planes (1 / 10 ^ 7) H) as (A & B & C). unfold angle_check. rewrite (SegIntProofs2.plane_plane_parallel K _ _ _ _ A B C), conf_pow. destruct Rlt_dec; [lra|reflexivity].
Qed.
(** an ellipse with the axes x and y *)
Definition flat_ell (a b : R) : ell R := mkEll (mkV3 0 0 0) (mkV3 1 0 0) (mkV3 0 1 0) (mkV3 0 0 1) a b.
Lemma flat_ell_ok a b : 0 < a -> 0 < b -> ell_ok (flat_ell a b).
Proof.
  intros Ha Hb. split; [|split; assumption]. unfold ortho_basis, unit3, ortho, det3, dot. cbn. repeat split; ring.
Qed.
Lemma flat_basis : ortho_basis (mkV3 1 0 0) (mkV3 0 1 0) (mkV3 0 0 1).
Proof. unfold ortho_basis, unit3, ortho, det3, dot. cbn. repeat split; ring. Qed.
