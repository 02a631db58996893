(** Proofs for C116: the check on sampled polygons in double precision. *)

From Coq Require Import Nsatz ZArith Reals Lra Lia Psatz Bool List Permutation.
From Flocq Require Import Core.Core IEEE754.BinarySingleNaN IEEE754.PrimFloat.
From Coq Require Import Floats.
From Verif Require Import Base NumModel VecModel LinModel RoundModel PolyModel DistModel IntModel SampModel ChkModel GeoSpec LinSpec PolySpec SampSpec DblSpec GeoLemmas
  DblLemmas DblProofs DblLen DblExamples DblEq LinDblSpec LinDblBase LinDblFoot LinDblProofs TrigDblSpec RndDblSpec RndDblProofs PtDblSpec FrDblProofs SdDblSpec SdDblProofs SdDblDisk SdDblFrame SampPoly SpDblSpec SpDblProofs SpDblDeltas ChkSpec.
Import ListNotations.
Local Open Scope R_scope.
Notation F := PrimFloat.float.

(** ** Points near the origin *)
Lemma near_origin (p o : V3 F) (m : R) : number3 p -> number3 o -> val3 o = (zero3 : pt) -> norm (val3 p) <= m -> / 1000000000000 <= m <= 95 / 1000000000 -> pt_eq_default p o = true.
Proof.
  intros (Nx & Ny & Nz) (Ox & Oy & Oz) Eo Hp [m0 m1]. unfold val3, zero3 in Eo. injection Eo as Zx Zy Zz. pose proof U_pos as [U0 _]. assert (U <= / 1000000000000) as U1 by (unfold U; lra).
  destruct (comp_le (val3 p)) as (Cx & Cy & Cz). cbn [vx vy vz val3] in Cx, Cy, Cz.
  assert (val (vx p) * val (vx p) + val (vy p) * val (vy p) + val (vz p) * val (vz p) <= m * m) as SQ.
  { pose proof (norm_nonneg (val3 p)). replace (val (vx p) * val (vx p) + val (vy p) * val (vy p) + val (vz p) * val (vz p)) with (norm (val3 p) * norm (val3 p)); [apply Rmult_le_compat; lra|].
    unfold norm. rewrite sqrt_sqrt by apply dot_nonneg. unfold dot, val3. cbn [vx vy vz]. ring. }
  set (B := m * m) in *. assert (/ 1000000000000000000000000 <= B <= 9025 / 1000000000000000000) as [B0 B1] by (unfold B; split; nra).
  destruct (big_bounds 1 ltac:(lra)) as [_ S1].
  assert (bpow radix2 (-1000) <= B) as L by (eapply Rle_trans; [apply (bpow_le radix2 (-1000) (-100)); lia|]; change (bpow radix2 (-100)) with (/ 1267650600228229401496703205376); lra).
  assert (B <= bpow radix2 1000) as L' by lra.
  assert (bpow radix2 (-1000) <= 2 * B) as L2 by lra. assert (2 * B <= bpow radix2 1000) as L2' by lra.
  assert (forall x o : F, number x -> number o -> val o = 0 -> Rabs (val x) <= m -> number (o - x)%float /\ val (o - x)%float = - val x) as D.
  { intros x o' Nx' No Vo Bx. destruct (f_sub o' x No Nx') as [N V]; [rewrite Vo; apply small_1023; rewrite Rminus_0_l, Rabs_Ropp; lra|]. split; [exact N|]. rewrite V, Vo, Rminus_0_l, rnd_opp, rnd_val. reflexivity. }
  assert (forall x : F, number x -> Rabs (val x) <= m -> number (x * x)%float /\ Rabs (val (x * x)%float - val x * val x) <= U * B) as M1.
  { intros x Nx' Bx. apply mul_err; try assumption. rewrite Rabs_mult. apply Rmult_le_compat; try apply Rabs_pos; assumption. }
  destruct (D (vx p) (vx o) Nx Ox Zx ltac:(lra)) as [N1 V1]. destruct (D (vy p) (vy o) Ny Oy Zy ltac:(lra)) as [N2 V2]. destruct (D (vz p) (vz o) Nz Oz Zz ltac:(lra)) as [N3 V3].
  set (dx := (vx o - vx p)%float) in *. set (dy := (vy o - vy p)%float) in *. set (dz := (vz o - vz p)%float) in *.
  destruct (M1 dx N1 ltac:(rewrite V1, Rabs_Ropp; lra)) as [N4 E4]. destruct (M1 dy N2 ltac:(rewrite V2, Rabs_Ropp; lra)) as [N5 E5]. destruct (M1 dz N3 ltac:(rewrite V3, Rabs_Ropp; lra)) as [N6 E6].
  rewrite V1 in E4. rewrite V2 in E5. rewrite V3 in E6. apply Rabs_def2_le in E4, E5, E6.
  pose proof (Rle_0_sqr (val (vx p))) as Q1. pose proof (Rle_0_sqr (val (vy p))) as Q2. pose proof (Rle_0_sqr (val (vz p))) as Q3. unfold Rsqr in Q1, Q2, Q3.
  assert (0 <= U * B <= / 1000000000000 * B) as UB by (split; [apply Rmult_le_pos; lra|apply Rmult_le_compat_r; lra]).
  destruct (zero_add (dx * dx)%float N4) as [N4' E4']; [eapply Rle_trans; [|exact L2']; apply Rabs_le; lra|]. set (s0 := (nlit 0 1 + dx * dx)%float) in *. rewrite <- E4' in E4.
  destruct (add_err s0 (dy * dy)%float (2 * B) N4' N5 L2 L2') as [N7 E7]; [apply Rabs_le; lra|]. apply Rabs_def2_le in E7.
  destruct (add_err (s0 + dy * dy)%float (dz * dz)%float (2 * B) N7 N6 L2 L2') as [N8 E8]; [apply Rabs_le; lra|]. apply Rabs_def2_le in E8.
  destruct (int_val (@confusion _ F_num) 7555786372591432 (-76) ltac:(vm_compute; reflexivity)) as [Nc Vc]. change (bpow radix2 (-76)) with (/ 75557863725914323419136) in Vc.
  destruct (mul_err (@confusion _ F_num) (@confusion _ F_num) (11 / 1000000000000000) Nc Nc) as [N9 E9];
    [eapply Rle_trans; [apply (bpow_le radix2 (-1000) (-100)); lia|]; change (bpow radix2 (-100)) with (/ 1267650600228229401496703205376); lra|lra|rewrite Vc, Rabs_pos_eq; lra|].
  rewrite Vc in E9. apply Rabs_def2_le in E9.
  change (PrimFloat.ltb (s0 + dy * dy + dz * dz) (@confusion _ F_num * @confusion _ F_num) = true). apply f_ltb; [exact N8|exact N9|].
  assert (U * (11 / 1000000000000000) <= / 1000000000000 * (11 / 1000000000000000)) by (apply Rmult_le_compat_r; lra). lra.
Qed.

Section Closing.
Context {T : Trig PrimFloat.float}.
Variables (strike dip : F) (M : R).
Hypotheses (HT : accurate T) (Hs : usual_angle strike) (Hd : usual_angle dip) (HM : scale M).
Variable es : list (V3 F).
Hypotheses (He : edges_upto M es) (Hn : (1 <= length es <= 999)%nat).
Let g := gr T strike dip.
Let o : V3 F := mkV3 n0 n0 n0.
Let es' := es ++ [o].
Let vs' := walk o (map g es').
Lemma o_zero : number3 o /\ val3 o = (zero3 : pt).
Proof. destruct zero_val as [N V]. split; [repeat split; exact N|]. unfold val3, o, zero3. cbn [vx vy vz]. change (n0 : F) with 0%float. rewrite V. reflexivity. Qed.
Lemma es'_ok : edges_upto M es'.
Proof.
  destruct He as [A B]. destruct o_zero as [N V]. pose proof (f_equal vx V : val (vx o) = 0) as Vx. pose proof (f_equal vy V : val (vy o) = 0) as Vy. pose proof (f_equal vz V : val (vz o) = 0) as Vz. split.
  - apply Forall_app. split; [exact A|]. constructor; [split; assumption|constructor].
  - unfold es'. rewrite map_app, sum_app. cbn [map]. unfold sum at 2. cbn [fold_right]. rewrite Vx, Vy, Rabs_R0. lra.
Qed.
Lemma len' : length es' = S (length es).
Proof. unfold es'. rewrite app_length. cbn [length]. lia. Qed.
Lemma vs'_sum j : (j <= length es)%nat -> exists X Y, X = sum (map (fun e => val (vx e)) (firstn j es)) /\ Y = sum (map (fun e => val (vy e)) (firstn j es)) /\
  norm (psub (val3 (nth j vs' origin)) (SampSpec.in_plane (val strike) (val dip) X Y)) <= INR j * (2050 * (U * M)).
Proof.
  pose proof len' as L'. assert (1 <= length es' <= 1000)%nat as Hn' by lia. destruct (vs_ok T strike dip M HT Hs Hd HM es' es'_ok Hn') as (_ & _ & _ & D).
  change (walk (mkV3 n0 n0 n0) (map (gr T strike dip) es')) with vs' in D.
  induction j as [|j IH]; intros Hj.
  - exists 0, 0. split; [reflexivity|]. split; [reflexivity|]. assert (nth 0 vs' origin = o) as ->.
    { unfold vs', es'. destruct es as [|e r]; reflexivity. }
    rewrite (proj2 o_zero). set (w := psub _ _). replace w with (zero3 : pt).
    + unfold norm. replace (dot (zero3 : pt) zero3) with 0 by (unfold dot, zero3; cbn [vx vy vz]; ring). rewrite sqrt_0. cbn [INR]. lra.
    + unfold w, SampSpec.in_plane. generalize (dip_dir (val strike) (val dip)) (strike_dir (val strike)). intros [d e f] [p q r]. unfold zero3, psub, padd, pscale. cbn [vx vy vz]. f_equal; ring.
  - destruct (IH ltac:(lia)) as (X & Y & EX & EY & D'). specialize (D j origin origin ltac:(lia)). unfold hr in D. assert (nth j es' origin = nth j es origin) as Ne by (unfold es'; apply app_nth1; lia). rewrite Ne in D.
    set (e := nth j es origin) in *. exists (X + val (vx e)), (Y + val (vy e)).
    assert (firstn (S j) es = firstn j es ++ [e]) as FS.
    { clear - Hj. unfold e. revert Hj. generalize es. clear. induction j as [|j IH]; intros [|a r] H; cbn [length] in H; try lia; cbn [firstn nth app]; [reflexivity|]. f_equal. apply IH. lia. }
    rewrite FS, !map_app, !sum_app, <- EX, <- EY. cbn [map]. assert (forall x, sum [x] = x) as S1 by (intros x; unfold sum; cbn [fold_right]; ring). rewrite !S1. split; [reflexivity|]. split; [reflexivity|]. rewrite S_INR.
    set (p := val3 (nth (S j) vs' origin)) in *. set (q := val3 (nth j vs' origin)) in *.
    replace (psub p (SampSpec.in_plane (val strike) (val dip) (X + val (vx e)) (Y + val (vy e))))
      with (padd (psub q (SampSpec.in_plane (val strike) (val dip) X Y)) (psub (psub p q) (SampSpec.in_plane (val strike) (val dip) (val (vx e)) (val (vy e))))).
    + eapply Rle_trans; [apply norm_tri|]. lra.
    + unfold SampSpec.in_plane. clear. generalize p q (dip_dir (val strike) (val dip)) (strike_dir (val strike)) (val (vx e)) (val (vy e)). intros [p1 p2 p3] [q1 q2 q3] [d1 d2 d3] [s1 s2 s3] x y. unfold psub, padd, pscale. cbn [vx vy vz]. f_equal; ring.
Qed.
(** the vertex reached by the last edge *)
Lemma walk_last (l : list (V3 F)) : l <> [] -> forall p, nth (length l) (walk p (map g (l ++ [o]))) origin = vadd (last (walk p (map g l)) origin) (last (map g l) origin).
Proof.
  induction l as [|a r IH]; intros Hl p; [congruence|]. destruct r as [|b r]; [reflexivity|]. cbn [app map walk length nth]. specialize (IH ltac:(discriminate) (vadd p (g a))).
  cbn [app map walk length nth] in IH. rewrite IH. reflexivity.
Qed.
Lemma closing_ok c : Rabs (sum (map (fun e => val (vx e)) es)) <= INR (length es) * (c * U * M) -> Rabs (sum (map (fun e => val (vy e)) es)) <= INR (length es) * (c * U * M) -> 0 <= c <= 2 ->
  INR (length es) * M <= 400000 -> closing_check es strike dip = true.
Proof.
  intros Sx Sy Hc HB. unfold closing_check, rotate_all. cbv zeta. rewrite ez_is, map_map.
  assert (es <> []) as Hne by (intros E; rewrite E in Hn; cbn in Hn; lia).
  change (pt_eq_default (vadd (last (walk o (map g es)) origin) (last (map g es) origin)) (hd origin (walk o (map g es))) = true). rewrite <- (walk_last es Hne o). change (walk o (map g (es ++ [o]))) with vs'.
  replace (hd origin (walk o (map g es))) with o by (destruct es as [|e r]; [congruence|reflexivity]).
  destruct (vs'_sum (length es) ltac:(lia)) as (X & Y & EX & EY & D). rewrite firstn_all in EX, EY. subst X Y.
  pose proof len' as L'. assert (1 <= length es' <= 1000)%nat as Hn' by lia. destruct (vs_ok T strike dip M HT Hs Hd HM es' es'_ok Hn') as (Lv & Fv & _).
  change (walk (mkV3 n0 n0 n0) (map (gr T strike dip) es')) with vs' in Lv, Fv. rewrite Forall_forall in Fv. destruct (Fv (nth (length es) vs' origin)) as [Nl _]; [apply nth_In; lia|].
  pose proof (plane_norm (val strike) (val dip) (sum (map (fun e => val (vx e)) es)) (sum (map (fun e => val (vy e)) es))) as PN.
  set (l := nth (length es) vs' origin) in *. set (w := SampSpec.in_plane _ _ _ _) in *.
  assert (norm (val3 l) <= norm (psub (val3 l) w) + norm w) as TR.
  { pose proof (norm_near (val3 l) w) as Q. apply Rabs_def2_le in Q. lra. }
  pose proof U_pos as [U0 _]. destruct o_zero as [No Vo]. apply (near_origin l o (95 / 1000000000) Nl No Vo); [|lra].
  assert (0 < M) as M0 by (destruct HM as [h _]; pose proof (powerRZ_lt 2 (-300) ltac:(lra)); lra).
  replace (INR (length es) * (2050 * (U * M))) with (2050 * U * (INR (length es) * M)) in D by ring. replace (INR (length es) * (c * U * M)) with (c * (U * (INR (length es) * M))) in Sx, Sy by ring.
  assert (0 <= INR (length es) * M) as P0 by (apply Rmult_le_pos; [apply pos_INR|lra]). assert (0 <= U * (INR (length es) * M) <= U * 400000) as [P1 P2] by (split; [apply Rmult_le_pos; lra|apply Rmult_le_compat_l; lra]).
  assert (c * (U * (INR (length es) * M)) <= 2 * (U * (INR (length es) * M))) by (apply Rmult_le_compat_r; lra).
  replace (2050 * U * (INR (length es) * M)) with (2050 * (U * (INR (length es) * M))) in D by ring. assert (U * 400000 * 2054 <= 95 / 1000000000) by (unfold U; lra). lra.
Qed.
End Closing.
Section Sampled.
Context {T : Trig PrimFloat.float}.
Variables (esort : list (V3 F) -> list (V3 F)) (d : poly_draws F) (M : R).
Hypotheses (HT : accurate T) (HM : scale M) (Hp : forall l, Permutation (esort l) l) (Hd : drawn_lengths M d).
Lemma sampled_check b : sample_check esort d = Ok b -> b = true.
Proof.
  destruct Hd as [H1 H2 H3 H4 H5 H6]. unfold sample_check. pose proof (num_retry (d_num d)) as Hn. destruct (retry (fun k : Z => (k <? 3)%Z) (d_num d) 0 100 0 0%Z) as [n cnt].
  destruct Hn as [_ Hn2]. destruct (Nat.eqb_spec cnt 100) as [E|E]; [discriminate|]. destruct (Hn2 E) as (G3 & i & Hi & Hf). destruct (H6 i) as [K1 K2]. rewrite (proj1 Hf) in K1, K2.
  destruct (deltas_for_dbl (Z.to_nat n) (d_unit d)) as (ds0 & Ed & D1 & D2); [lia|exact H3|]. rewrite Ed. cbn [obind].
  pose proof (len_dbl (d_slen d) (fun i => proj1 (H4 i))) as Ls. destruct (retry (fun l : F => nltb l n0) (d_slen d) 1 100 0 (d_slen d 0%nat)) as [slen cs].
  destruct Ls as (_ & Hs2 & _). destruct (Nat.eqb_spec cs 100) as [G|G]; [discriminate|].
  destruct (Hs2 G) as (k & Hk' & Hfk). pose proof (len_dbl (d_dlen d) (fun i => proj1 (H5 i))) as Hl. destruct (retry (fun l : F => nltb l n0) (d_dlen d) 1 100 0 (d_dlen d 0%nat)) as [dlen cd].
  destruct Hl as (_ & _ & Hl). intros R. injection R as <-.
  pose proof (Hp (edge_vectors slen dlen ds0)) as P. unfold edge_vectors at 2 in P. apply Permutation_map_inv in P. destruct P as (ds & Ees & P). fold (edge_vectors slen dlen ds) in Ees. rewrite Ees.
  apply (steps1_perm _ _ _ (Permutation_map fst P)) in D1. apply (steps1_perm _ _ _ (Permutation_map snd P)) in D2.
  destruct (H4 k) as [Ns Bs]. rewrite (proj1 Hfk) in Ns, Bs. destruct (used_in (d_dlen d) dlen Hl) as [j Ej]. destruct (H5 j) as [Nd Bd]. rewrite <- Ej in Nd, Bd.
  destruct (edges_dbl M (Z.to_nat n) slen dlen ds HM ltac:(lia) Ns Bs Nd Bd D1 D2) as (He & Le & _ & Sx & Sy & _). set (es := edge_vectors slen dlen ds) in *.
  rewrite <- Le in Sx, Sy. apply (closing_ok (d_strike d) (d_dip d) M HT H1 H2 HM es He ltac:(lia) 2 Sx Sy); [lra|]. rewrite Le, INR_IZR_INZ, Z2Nat.id by lia. exact K2.
Qed.
Lemma sampled_check_ok cs : sample_corners esort d = Ok cs -> sample_check esort d = Ok true.
Proof.
  intros E. destruct (sample_check esort d) as [b| | |] eqn:C; [f_equal; exact (sampled_check b C)|exfalso..];
  revert E C; unfold sample_check, sample_corners; destruct (retry (fun k : Z => (k <? 3)%Z) (d_num d) 0 100 0 0%Z) as [n cnt]; destruct (Nat.eqb cnt 100); try discriminate;
  destruct (deltas_for (Z.to_nat n) (d_unit d)) as [ds| | |]; cbn [obind]; try discriminate;
  destruct (retry (fun l : F => nltb l n0) (d_slen d) 1 100 0 (d_slen d 0%nat)) as [slen c1]; destruct (Nat.eqb c1 100); try discriminate;
  destruct (retry (fun l : F => nltb l n0) (d_dlen d) 1 100 0 (d_dlen d 0%nat)) as [dlen c2]; discriminate.
Qed.
End Sampled.
