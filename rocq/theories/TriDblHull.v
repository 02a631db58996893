(** Points in or near convex figures, in double precision. *)

From Coq Require Import ZArith Reals Floats List Lra Lia Psatz Bool.
From Flocq Require Import Core.Core IEEE754.BinarySingleNaN IEEE754.PrimFloat Relative.
From Verif Require Import Base NumModel VecModel LinModel PolyModel GeoSpec PolySpec DblSpec GeoLemmas PolyProofs PolyBridge
  DblLemmas DblProofs DblLen DblEq LinDblSpec LinDblBase LinDblFoot LinDblProofs LinDblDist TriDblSpec TriDblBase TriDblProofs.
Import ListNotations.
Local Open Scope R_scope.

(** moving the point changes the area of a triangle by half the base times the way *)
Lemma area_move (a b p x : pt) : Rabs (triangle_area a b p - triangle_area a b x) <= norm (psub b a) * norm (psub p x) / 2.
Proof.
  unfold triangle_area. set (u := psub b a).
  pose proof (norm_dif (xprod u (psub p a)) (xprod u (psub x a))) as D.
  replace (psub (xprod u (psub p a)) (xprod u (psub x a))) with (xprod u (psub p x)) in D
    by (destruct u as [u1 u2 u3], p as [p1 p2 p3], x as [x1 x2 x3], a as [a1 a2 a3]; unfold xprod, psub; cbn [vx vy vz]; f_equal; ring).
  set (w := psub p x) in *.
  assert (norm (xprod u w) <= norm u * norm w) as K.
  { pose proof (norm_nonneg u). pose proof (norm_nonneg w). apply Rsqr_incr_0; [|apply norm_nonneg|apply Rmult_le_pos; assumption]. unfold Rsqr.
    replace (norm u * norm w * (norm u * norm w)) with (norm u * norm u * (norm w * norm w)) by ring. rewrite !norm_sq.
    assert (dot (xprod u w) (xprod u w) = dot u u * dot w w - dot u w * dot u w) as -> by (unfold xprod, dot; cbn [vx vy vz]; ring).
    pose proof (Rle_0_sqr (dot u w)) as P. unfold Rsqr in P. lra. }
  apply Rabs_def2_le in D. apply Rabs_le. lra.
Qed.
Lemma sum_move (l : list (pt * pt)) S p x h : 0 <= h -> norm (psub p x) <= h -> (forall ab, In ab l -> norm (psub (snd ab) (fst ab)) <= 2 * S) ->
  Rabs (sum (map (fun ab => triangle_area (fst ab) (snd ab) p) l) - sum (map (fun ab => triangle_area (fst ab) (snd ab) x) l)) <= INR (length l) * (S * h).
Proof.
  intros Hh Hp. induction l as [|[a b] l IH]; intros HL.
  - cbn [map sum fold_right length INR]. replace (0 - 0) with 0 by ring. rewrite Rabs_R0. lra.
  - cbn [map fst snd]. rewrite !sum_cons. change (length ((a, b) :: l)) with (Datatypes.S (length l)). rewrite S_INR.
    specialize (IH (fun y Hy => HL y (or_intror Hy))). pose proof (HL (a, b) (or_introl eq_refl)) as E. cbn [fst snd] in E. pose proof (area_move a b p x) as M.
    assert (norm (psub b a) * norm (psub p x) <= 2 * S * h) as K by (apply Rmult_le_compat; try apply norm_nonneg; assumption).
    apply Rabs_def2_le in IH. apply Rabs_def2_le in M. apply Rabs_le. lra.
Qed.
Lemma edges_len (cs : list pt) : (1 <= length cs)%nat -> length (edges cs) = length cs.
Proof. intros H. unfold edges. rewrite chain_len, app_length. destruct cs; [cbn in H; lia|]. cbn. lia. Qed.
Lemma chain_in (l : list pt) ab : In ab (chain l) -> In (fst ab) l /\ In (snd ab) l.
Proof.
  induction l as [|a l IH]; [intros []|]. destruct l as [|b l]; [intros []|]. intros [<-|H]; [cbn; auto|]. destruct (IH H). split; right; assumption.
Qed.
Lemma edges_in (cs : list pt) ab : In ab (edges cs) -> In (fst ab) cs /\ In (snd ab) cs.
Proof.
  intros H. apply chain_in in H as [A B]. assert (forall y, In y (cs ++ firstn 1 cs) -> In y cs) as K.
  { intros y Hy. apply in_app_or in Hy as [|Hy]; [assumption|]. destruct cs as [|c cs]; [destruct Hy|]. destruct Hy as [<-|[]]. left. reflexivity. }
  auto.
Qed.
Lemma spread_edge S cs ab : spread S cs -> In ab (edges (map val3 cs)) -> norm (psub (snd ab) (fst ab)) <= 2 * S.
Proof.
  intros [_ HD] H. apply edges_in in H as [A B]. apply in_map_iff in A as (a & EA & IA). apply in_map_iff in B as (b & EB & IB). rewrite <- EA, <- EB.
  destruct (HD b a IB IA) as (X & Y & Z). eapply Rle_trans; [apply (norm_le _ S); unfold psub, val3; cbn [vx vy vz]; assumption|]. pose proof (Rabs_pos (val (vx b) - val (vx a))). lra.
Qed.
Section Hull.
Variables (S : R) (cs : list (V3 PrimFloat.float)) (N : pt).
Hypothesis HS : medium S.
Hypothesis HC : convex_ccw N (map val3 cs).
Lemma near_hull p x h : spread S (p :: cs) -> hull (map val3 cs) x -> dist (val3 p) x <= h ->
  Rabs (area_fan (map val3 cs) - area_seen (map val3 cs) (val3 p)) <= INR (length cs) * S * h.
Proof.
  intros Hp Hx Hh. rewrite (fan_areas N _ HC).
  assert (area_seen (map val3 cs) x = shoelace N (map val3 cs)) as <-.
  { apply (hull_iff N _ HC) in Hx as [Hpl Ho]. rewrite seen_areas.
    rewrite (areas_planar N _ x (cc_unit N _ HC) (cc_planar N _ HC) (planar0 N _ HC x Hpl)), Ho. ring. }
  rewrite Rabs_minus_sym. unfold area_seen.
  assert (norm (psub (val3 p) x) <= h) as Hn by exact Hh.
  pose proof (sum_move (edges (map val3 cs)) S (val3 p) x h) as K. rewrite edges_len, map_length in K by (pose proof (cc_len N _ HC) as L; lia).
  rewrite Rmult_assoc. apply K; [pose proof (norm_nonneg (psub (val3 p) x)); lra|exact Hn|].
  intros ab Hab. apply (spread_edge S cs); [|exact Hab]. apply (spread_sub S (p :: cs)); [exact Hp|]. intros y Hy. right. exact Hy.
Qed.
Lemma far_hull p : overhang N (map val3 cs) p <= Rabs (area_fan (map val3 cs) - area_seen (map val3 cs) p).
Proof.
  rewrite (fan_areas N _ HC), seen_areas, Rabs_minus_sym. pose proof (areas_lower N (map val3 cs) p (cc_unit N _ HC)) as K. eapply Rle_trans; [|apply Rle_abs]. lra.
Qed.
End Hull.

Lemma decides_finds b S cs N p e : medium S -> convex_ccw N (map val3 cs) -> spread S (p :: cs) ->
  decides b (Rabs (area_fan (map val3 cs) - area_seen (map val3 cs) (val3 p))) (e * e) (area_error (INR (length cs)) S) -> finds b S N (map val3 cs) (val3 p) e.
Proof.
  intros HS HC Hp [D1 D2]. unfold finds. rewrite map_length. cbv zeta. split.
  - intros x h Hx Hh H. apply D1. pose proof (near_hull S cs N HC p x h Hp Hx Hh). lra.
  - intros H. apply D2. pose proof (far_hull cs N HC (val3 p)). lra.
Qed.
Lemma fan3 (a b c : pt) : area_fan [a; b; c] = triangle_area a b c.
Proof. unfold area_fan. cbn [chain map fst snd sum fold_right]. ring. Qed.
Lemma c105_triangle_area_lemma S a b c : medium S -> spread S [a; b; c] ->
  number (t_area (make_tri a b c)) /\ Rabs (val (t_area (make_tri a b c)) - triangle_area (val3 a) (val3 b) (val3 c)) <= powerRZ 2 (-48) * (S * S).
Proof.
  intros HS Hp. destruct (area_err S HS a b c Hp) as [N E]. split; [exact N|]. eapply Rle_trans; [exact E|]. destruct (US_small S HS) as (_ & _ & _ & UQ). rewrite two_p.
  replace (bpow radix2 (-48)) with (32 * U) by (change U with (/ 9007199254740992); change (bpow radix2 (-48)) with (/ 281474976710656); lra). lra.
Qed.
Lemma c105_triangle_lemma S a b c p e : medium S -> spread S [a; b; c; p] -> tolerance e ->
  let cs := [val3 a; val3 b; val3 c] in let r := tri_contains PrimFloat.abs (make_tri a b c) p e false in
  decides r (Rabs (triangle_area (val3 a) (val3 b) (val3 c) - area_seen cs (val3 p))) (val e * val e) (area_error 3 S) /\
  (forall N, convex_ccw N cs -> finds r S N cs (val3 p) (val e)).
Proof.
  intros HS Hp He cs r. pose proof (tri_decides S a b c p e HS Hp He) as D. split; [exact D|]. intros N HC.
  apply (decides_finds r S [a; b; c] N p (val e) HS HC).
  - apply (spread_sub S _ _ Hp). intros y [<-|[<-|[<-|[<-|[]]]]]; cbn; auto 10.
  - cbn [map length]. replace (INR 3) with 3 by (cbn; lra). rewrite fan3. exact D.
Qed.
Lemma c105_quadrilateral_lemma S p0 p1 p2 p3 p e : medium S -> spread S [p0; p1; p2; p3; p] -> tolerance e ->
  let cs := map val3 [p0; p1; p3; p2] in let q := make_quad p0 p1 p2 p3 in let r := quad_contains q p e false in
  (number (q_area q) /\ Rabs (val (q_area q) - area_fan cs) <= area_error 4 S) /\
  decides r (Rabs (area_fan cs - area_seen cs (val3 p))) (val e * val e) (area_error 4 S) /\
  (forall N, convex_ccw N cs -> area_fan cs = shoelace N cs /\ finds r S N cs (val3 p) (val e)).
Proof.
  intros HS Hp He cs q r. destruct (quad_core S p0 p1 p2 p3 p HS Hp) as [A [N E]]. pose proof (test_decides _ e _ _ He N E) as D.
  split; [exact A|]. split; [exact D|]. intros M HC. split; [apply fan_areas, HC|].
  apply (decides_finds r S [p0; p1; p3; p2] M p (val e) HS HC).
  - apply (spread_sub S _ _ Hp). intros y [<-|[<-|[<-|[<-|[<-|[]]]]]]; cbn; auto 10.
  - cbn [length]. replace (INR 4) with 4 by (cbn; lra). exact D.
Qed.
Lemma c105_polygon_lemma S cs p e pg b : medium S -> spread S (p :: cs) -> (length cs <= 1000)%nat -> tolerance e -> make_poly cs = Ok pg ->
  let ps := map val3 cs in let n := INR (length cs) in
  (forall a, poly_get_area pg = Ok a -> number a /\ Rabs (val a - area_fan ps) <= area_error n S) /\
  (poly_contains pg p e false = Ok b ->
     decides b (Rabs (area_fan ps - area_seen ps (val3 p))) (val e * val e) (area_error n S) /\
     (forall N, convex_ccw N ps -> area_fan ps = shoelace N ps /\ finds b S N ps (val3 p) (val e))).
Proof.
  intros HS Hp Hl He HM ps n. destruct (poly_core S cs p pg HS Hp Hl HM) as [A [N E]]. split.
  - unfold poly_get_area. intros a. destruct (po_convex pg); [|discriminate]. intros H. assert (a = po_area pg) as -> by congruence. exact A.
  - unfold poly_contains. destruct (po_convex pg); [|discriminate]. intros H.
    assert (b = poly_contains_convex pg p e false) as -> by congruence.
    pose proof (test_decides _ e _ _ He N E) as D. split; [exact D|]. intros M HC. split; [apply fan_areas, HC|]. apply (decides_finds _ S cs M p (val e) HS HC Hp D).
Qed.

(** the centre of a triangle *)
Lemma third_err : number (nlit 1 3 : PrimFloat.float) /\ Rabs (val (nlit 1 3 : PrimFloat.float) - / 3) <= U.
Proof.
  assert (number (nlit 1 3 : PrimFloat.float) /\ val (nlit 1 3 : PrimFloat.float) = 6004799503160661 * / 18014398509481984) as [N V].
  { rewrite number_SF, val_SF. replace (Prim2SF (nlit 1 3)) with (S754_finite false 6004799503160661 (-54)) by (vm_compute; reflexivity). split; [reflexivity|].
    cbn [BinarySingleNaN.SF2R cond_Zopp]. unfold F2R. cbn [Fnum Fexp]. change (bpow radix2 (-54)) with (/ 18014398509481984). reflexivity. }
  split; [exact N|]. rewrite V. change U with (/ 9007199254740992). apply Rabs_le. lra.
Qed.
Lemma mean_err M (x y z : PrimFloat.float) : moderate M -> number x -> number y -> number z -> Rabs (val x) <= M -> Rabs (val y) <= M -> Rabs (val z) <= M ->
  number (nlit 1 3 * (x + y + z))%float /\ Rabs (val (nlit 1 3 * (x + y + z))%float - (val x + val y + val z) / 3) <= powerRZ 2 (-50) * M.
Proof.
  intros [L H] Nx Ny Nz Bx By Bz. rewrite two_p in L, H. pose proof (bpow_gt_0 radix2 (-400)) as P0.
  assert (forall k, 1 <= k <= 4 -> bpow radix2 (-1000) <= k * M /\ k * M <= bpow radix2 1000) as K.
  { intros k Hk. split.
    - apply Rle_trans with (1 * bpow radix2 (-400)); [rewrite Rmult_1_l; apply bpow_le; lia|]. apply Rmult_le_compat; lra.
    - apply Rle_trans with (bpow radix2 2 * bpow radix2 400); [change (bpow radix2 2) with 4; apply Rmult_le_compat; lra|]. rewrite <- bpow_plus. apply bpow_le. lia. }
  pose proof U_pos as UP. assert (0 <= U * M <= / 1000000 * M) as UM by (split; [apply Rmult_le_pos; lra|apply Rmult_le_compat_r; lra]).
  apply Rabs_def2_le in Bx. apply Rabs_def2_le in By. apply Rabs_def2_le in Bz.
  destruct (K 2 ltac:(lra)) as [A1 A2]. destruct (add_err x y (2 * M) Nx Ny A1 A2) as [N1 E1]; [apply Rabs_le; lra|]. apply Rabs_def2_le in E1.
  destruct (K (31 / 10) ltac:(lra)) as [C1 C2]. destruct (add_err (x + y)%float z (31 / 10 * M) N1 Nz C1 C2) as [N2 E2]; [apply Rabs_le; lra|]. apply Rabs_def2_le in E2.
  destruct third_err as [N3 E3]. set (s := (x + y + z)%float) in *. set (t := nlit 1 3 : PrimFloat.float) in *.
  assert (Rabs (val s) <= 32 / 10 * M) as Bs by (apply Rabs_le; lra).
  assert (Rabs (val t * val s - / 3 * val s) <= U * (32 / 10 * M)) as E4.
  { replace (val t * val s - / 3 * val s) with ((val t - / 3) * val s) by ring. apply prod_le; assumption. }
  apply Rabs_def2_le in E4. apply Rabs_def2_le in Bs.
  destruct (K (11 / 10) ltac:(lra)) as [D1 D2]. destruct (mul_err t s (11 / 10 * M) N3 N2 D1 D2) as [N5 E5]; [apply Rabs_le; lra|]. split; [exact N5|].
  apply Rabs_def2_le in E5. rewrite two_p. replace (bpow radix2 (-50)) with (8 * U) by (change U with (/ 9007199254740992); change (bpow radix2 (-50)) with (/ 1125899906842624); lra).
  apply Rabs_le. lra.
Qed.
Lemma c105_triangle_center_lemma M a b c : moderate M -> point_upto M a -> point_upto M b -> point_upto M c ->
  let m := t_c (make_tri a b c) in let third x y z := (val x + val y + val z) / 3 in
  number3 m /\ Rabs (val (vx m) - third (vx a) (vx b) (vx c)) <= powerRZ 2 (-50) * M /\ Rabs (val (vy m) - third (vy a) (vy b) (vy c)) <= powerRZ 2 (-50) * M /\
  Rabs (val (vz m) - third (vz a) (vz b) (vz c)) <= powerRZ 2 (-50) * M.
Proof.
  intros HM [(A1 & A2 & A3) (A4 & A5 & A6)] [(B1 & B2 & B3) (B4 & B5 & B6)] [(C1 & C2 & C3) (C4 & C5 & C6)]. unfold make_tri. cbn [t_c]. cbv zeta. unfold number3. cbn [vx vy vz].
  destruct (mean_err M _ _ _ HM A1 B1 C1 A4 B4 C4) as [X1 X2]. destruct (mean_err M _ _ _ HM A2 B2 C2 A5 B5 C5) as [Y1 Y2]. destruct (mean_err M _ _ _ HM A3 B3 C3 A6 B6 C6) as [Z1 Z2].
  auto 10.
Qed.
