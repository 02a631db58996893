(** Proofs for C113: planes and lines. *)

From Coq Require Import ZArith Reals Lra Lia Psatz Bool List.
From Flocq Require Import Core.Core IEEE754.BinarySingleNaN IEEE754.PrimFloat.
From Coq Require Import Floats.
From Verif Require Import Base NumModel VecModel LinModel RoundModel PolyModel DistModel IntModel GeoSpec LinSpec DblSpec GeoLemmas
  DblLemmas DblProofs DblLen DblExamples DblEq LinDblSpec LinDblBase LinDblFoot LinDblProofs LinDblSeg LinDblDist RndDblSpec PtDblSpec DkDblSpec DkDblProofs IxDblSpec IxDblProofs.
Import ListNotations.
Local Open Scope R_scope.

Lemma minus_one : number (nlit (-1) 1 : PrimFloat.float) /\ val (nlit (-1) 1) = -1.
Proof.
  assert (Prim2SF (nlit (-1) 1 : PrimFloat.float) = S754_finite true 4503599627370496 (-52)) as E by (vm_compute; reflexivity).
  rewrite number_SF, val_SF, E. split; [reflexivity|]. change (IZR (-4503599627370496) * bpow radix2 (-52) = -1). change (bpow radix2 (-52)) with (/ 4503599627370496). lra.
Qed.
Lemma plane_dist_ex (s n p : pt) : 0 < norm n -> exists D, dist_to (on_plane s n) p D.
Proof.
  intros Hn. pose proof (norm_sq n) as N2. assert (dot n n <> 0) as N0 by (rewrite <- N2; apply Rmult_integral_contrapositive; lra).
  set (k := dot n (psub p s) / dot n n). exists (dist p (psub p (pscale k n))). split.
  - exists (psub p (pscale k n)). split; [|reflexivity]. unfold on_plane. transitivity (dot n (psub p s) - k * dot n n); [|unfold k; field; exact N0].
    generalize k. intros k'. destruct n as [a b c], p as [p1 p2 p3], s as [s1 s2 s3]. unfold dot, psub, pscale. cbn [vx vy vz]. ring.
  - intros y Hy. unfold on_plane in Hy. replace (dist p (psub p (pscale k n))) with (Rabs k * norm n).
    2:{ rewrite <- norm_mul. unfold dist. f_equal. generalize k. intros k'. destruct n as [a b c], p as [p1 p2 p3]. unfold psub, pscale. cbn [vx vy vz]. f_equal; ring. }
    apply (Rmult_le_reg_l (norm n)); [exact Hn|]. replace (norm n * (Rabs k * norm n)) with (Rabs (k * dot n n)).
    2:{ rewrite Rabs_mult, (Rabs_pos_eq (dot n n)) by apply dot_nonneg. rewrite <- N2. ring. }
    replace (k * dot n n) with (dot n (psub p y)).
    + unfold dist. apply cauchy_norm.
    + transitivity (dot n (psub p s) - dot n (psub y s)); [|rewrite Hy; unfold k; field; exact N0].
      destruct n as [a b c], p as [p1 p2 p3], y as [y1 y2 y3], s as [s1 s2 s3]. unfold dot, psub. cbn [vx vy vz]. ring.
Qed.

(** the vector from a point to its projection *)
Section PlaneFoot.
Variables (pl : plane PrimFloat.float) (p : V3 PrimFloat.float) (M D : R).
Hypotheses (HM : modx M) (Hs : point_upto M (pl_sup pl)) (Hp : point_upto M p) (Hn : direction (pl_n pl)).
Hypothesis HD : dist_to (plane_pts pl) (val3 p) D.
Let v := vec_to p (plane_proj pl p).
Let n := val3 (pl_n pl).
Let tau := dot n (psub (val3 p) (val3 (pl_sup pl))).
Lemma plane_foot : number3 v /\ within3 (6 * M) v /\ norm (psub (val3 v) (pscale (- tau) n)) <= 80 * (U * M).
Proof.
  destruct Hs as [Ns Bs], Hp as [Np Bp]. destruct (dir_norm _ Hn) as (P & Q & K). fold n in P, Q, K. pose proof (moderate_sized M HM) as HS. pose proof (UM_small M HS) as UM. pose proof (sized_pos M HS) as M0.
  destruct (along_err (pl_sup pl) (pl_n pl) p M Ns (proj1 Hn) Np HS Bs Bp Q) as [Nt Et]. fold n tau in Et.
  destruct (vec_err (pl_sup pl) p M Ns Np HS Bs Bp) as (_ & _ & _ & NW). destruct (dir_comp (pl_n pl) Q) as (D1 & D2 & D3).
  unfold v, plane_proj. cbv zeta. set (t := sprod (pl_n pl) (vec_to (pl_sup pl) p)) in *.
  assert (Rabs tau <= 3471 / 1000 * M) as Bt.
  { eapply Rle_trans; [apply cauchy_norm|]. eapply Rle_trans; [apply Rmult_le_compat; [apply norm_nonneg|apply norm_nonneg|exact Q|exact NW]|]. lra. }
  assert (Rabs (val t) <= 35 / 10 * M) as Bt' by (apply Rabs_def2_le in Et; apply Rabs_def2_le in Bt; apply Rabs_le; lra).
  pose proof (sized_scale (351 / 100) M ltac:(lra) HS) as [S1 S2]. pose proof (sized_scale (352 / 100) M ltac:(lra) HS) as [S7 S8]. pose proof (sized_scale (46 / 10) M ltac:(lra) HS) as [S3 S4]. pose proof (sized_scale (565 / 100) M ltac:(lra) HS) as [S5 S6].
  destruct minus_one as [N1 V1].
  assert (K2 : forall dx px : PrimFloat.float, number dx -> number px -> Rabs (val dx) <= 1001 / 1000 -> Rabs (val px) <= M ->
    number (px + dx * t * nlit (-1) 1 - px)%float /\ Rabs (val (px + dx * t * nlit (-1) 1 - px)%float) <= 6 * M /\
    Rabs (val (px + dx * t * nlit (-1) 1 - px)%float - (- tau * val dx)) <= 44 * (U * M)).
  { intros dx px Nx Np' B1 B2. pose proof (prod_le _ _ _ _ B1 Bt') as Q1. pose proof (prod_err _ _ _ _ _ B1 Et) as Q2.
    destruct (mul_err dx t (351 / 100 * M) Nx Nt S1 S2 ltac:(lra)) as [Nq Eq]. set (q := (dx * t)%float) in *.
    replace (U * (351 / 100 * M)) with (351 / 100 * (U * M)) in Eq by ring.
    apply Rabs_def2_le in Q1. apply Rabs_def2_le in Q2. apply Rabs_def2_le in Eq. apply Rabs_def2_le in B2.
    destruct (mul_err q (nlit (-1) 1) (352 / 100 * M) Nq N1 S7 S8) as [Nm Em]; [rewrite V1; apply Rabs_le; lra|]. set (m := (q * nlit (-1) 1)%float) in *. rewrite V1 in Em.
    replace (U * (352 / 100 * M)) with (352 / 100 * (U * M)) in Em by ring. apply Rabs_def2_le in Em.
    destruct (add_err px m (46 / 10 * M) Np' Nm S3 S4) as [Nr Er]; [apply Rabs_le; lra|]. set (r := (px + m)%float) in *.
    replace (U * (46 / 10 * M)) with (46 / 10 * (U * M)) in Er by ring. apply Rabs_def2_le in Er.
    destruct (sub_err r px (565 / 100 * M) Nr Np' S5 S6) as [Nv Ev]; [apply Rabs_le; lra|].
    replace (U * (565 / 100 * M)) with (565 / 100 * (U * M)) in Ev by ring. apply Rabs_def2_le in Ev.
    split; [exact Nv|]. split; apply Rabs_le; lra. }
  destruct Np as (N4 & N5 & N6), (proj1 Hn) as (N7 & N8 & N9), Bp as (B4 & B5 & B6).
  destruct (K2 _ _ N7 N4 D1 B4) as (X1 & X2 & X3). destruct (K2 _ _ N8 N5 D2 B5) as (Y1 & Y2 & Y3). destruct (K2 _ _ N9 N6 D3 B6) as (Z1 & Z2 & Z3).
  unfold vec_to, vadd, vscale, number3, within3. cbn [vx vy vz nadd nsub nmul F_num].
  split; [auto|]. split; [auto|]. eapply Rle_trans; [apply (norm_le _ (44 * (U * M)))|lra]; unfold psub, pscale, n, val3; cbn [vx vy vz]; assumption.
Qed.
Lemma plane_gap : number (vlen v) /\ Rabs (val (vlen v) - D) <= powerRZ 2 (-45) * M.
Proof.
  destruct plane_foot as (Nv & Bv & F). destruct (vlen_mixed v Nv (within_6 M v HM Bv)) as (Nl & _ & L). split; [exact Nl|].
  pose proof (sized_pos M (moderate_sized M HM)) as M0. pose proof (UM_small M (moderate_sized M HM)) as UM.
  assert (bpow radix2 (-500) <= U * M) as T.
  { destruct HM as [H _]. rewrite two_p in H. change U with (bpow radix2 (-53)). apply Rle_trans with (bpow radix2 (-53) * bpow radix2 (-400)); [rewrite <- bpow_plus; apply bpow_le; lia|].
    apply Rmult_le_compat_l; [apply bpow_ge_0|exact H]. }
  assert (norm (val3 v) <= 11 * M) as N11.
  { destruct Bv as (A & B & C). pose proof (norm_le (val3 v) (6 * M) A B C). lra. }
  destruct (dir_norm _ Hn) as (P & Q & K). pose proof (plane_dist _ _ _ D P HD) as ED. fold n in P, Q, K, ED. fold tau in ED.
  destruct Hs as [Ns Bs], Hp as [Np Bp]. destruct (vec_err (pl_sup pl) p M Ns Np (moderate_sized M HM) Bs Bp) as (_ & _ & _ & NW).
  assert (0 <= D) as D0 by (destruct HD as [(y & _ & <-) _]; apply norm_nonneg).
  assert (D <= 34705 / 10000 * M) as DM.
  { assert (D * norm n <= norm n * (3467 / 1000 * M)) as C.
    { rewrite ED. eapply Rle_trans; [apply cauchy_norm|]. apply Rmult_le_compat_l; [lra|exact NW]. }
    rewrite Rmult_comm in C. apply Rmult_le_reg_l in C; [lra|exact P]. }
  pose proof (norm_dif (val3 v) (pscale (- tau) n)) as G. rewrite norm_mul, Rabs_Ropp, <- ED in G.
  assert (Rabs (D * norm n * norm n - D) <= 60 * (U * M)) as E1.
  { replace (D * norm n * norm n - D) with (D * ((norm n - 1) * (norm n + 1))) by ring. rewrite Rabs_mult, (Rabs_pos_eq D D0), Rabs_mult, (Rabs_pos_eq (norm n + 1)) by lra.
    apply Rle_trans with (34705 / 10000 * M * (8 * U * (2001 / 1000))); [|lra]. apply Rmult_le_compat; [exact D0| |exact DM|].
    - apply Rmult_le_pos; [apply Rabs_pos|lra].
    - apply Rmult_le_compat; [apply Rabs_pos|lra|exact K|lra]. }
  rewrite two_p. change (bpow radix2 (-45)) with (/ 35184372088832). apply Rabs_def2_le in L. apply Rabs_def2_le in E1.
  assert (Rabs (norm (val3 v) - D * norm n * norm n) <= 80 * (U * M)) as G' by lra. apply Rabs_def2_le in G'. unfold U in *. apply Rabs_le. lra.
Qed.
End PlaneFoot.

(** ** A plane and a line *)
Section PL.
Context (T : Trig PrimFloat.float).
Variables (K : kernel PrimFloat.float) (pl : plane PrimFloat.float) (l : line PrimFloat.float) (e : PrimFloat.float) (M : R).
Hypotheses (HM : moderate M) (Hpl : plane_upto M pl) (Hl : point_upto M (l_sup l)) (He : tolerance e).
Hypothesis HK : forall p, k_plane_line K pl l = Some p -> point_upto M p.
Let rho := powerRZ 2 (-45) * M.
Lemma rho_47 : powerRZ 2 (-47) * M <= rho.
Proof.
  unfold rho. rewrite !two_p. change (bpow radix2 (-45)) with (/ 35184372088832). change (bpow radix2 (-47)) with (/ 140737488355328).
  pose proof (sized_pos M (moderate_sized M (moderate_x M HM))). lra.
Qed.
Lemma plane_true p D : point_upto M p -> dist_to (plane_pts pl) (val3 p) D -> plane_contains pl p e = true -> D < val e + rho.
Proof.
  intros Hp HD H. destruct Hpl as [Hs Hn]. destruct (plane_contains_dbl pl p e M D (moderate_x M HM) Hs Hp Hn (proj1 He) HD) as [_ F].
  apply Rnot_le_lt. intros C. pose proof rho_47. rewrite F in H by lra. discriminate H.
Qed.
Lemma plane_false p D : point_upto M p -> dist_to (plane_pts pl) (val3 p) D -> plane_contains pl p e = false -> val e - rho <= D.
Proof.
  intros Hp HD H. destruct Hpl as [Hs Hn]. destruct (plane_contains_dbl pl p e M D (moderate_x M HM) Hs Hp Hn (proj1 He) HD) as [F _].
  apply Rnot_lt_le. intros C. pose proof rho_47. rewrite F in H by lra. discriminate H.
Qed.
Lemma plane_ex p : exists D, dist_to (plane_pts pl) (val3 p) D.
Proof. destruct Hpl as [_ Hn]. apply plane_dist_ex. apply (dir_norm _ Hn). Qed.
Lemma plane_line_sound r : plane_line K pl l e = Ok r ->
  match r with
  | IsPoint p => k_plane_line K pl l = Some p /\ reached (val e + rho) (plane_pts pl) (val3 p)
  | IsLine l' => l' = l /\ reached (val e + rho) (plane_pts pl) (val3 (l_sup l))
  | IsEmpty => (exists p, k_plane_line K pl l = Some p /\ forall D, dist_to (plane_pts pl) (val3 p) D -> val e - rho <= D) \/
      (gp_normal (l_dir l) (pl_n pl) angular = true /\ forall D, dist_to (plane_pts pl) (val3 (l_sup l)) D -> val e - rho <= D)
  | _ => False
  end.
Proof.
  destruct Hpl as [Hs Hn]. unfold plane_line. destruct (gp_normal _ _ _) eqn:G; cbn [negb].
  - destruct (plane_ex (l_sup l)) as [D HD]. destruct (plane_gap pl (l_sup l) M D (moderate_x M HM) Hs Hl Hn HD) as [Nv Ev]. fold rho in Ev. apply Rabs_def2_le in Ev.
    cbv zeta. cbn [nltb F_num]. destruct (PrimFloat.ltb e _) eqn:C; intros [= <-].
    + apply (f_ltb _ _ (proj1 He) Nv) in C. right. split; [reflexivity|]. intros D' HD'.
      assert (D' = D) as ->; [|lra]. destruct HD as [(y & Hy & <-) A], HD' as [(y' & Hy' & <-) A']. apply Rle_antisym; [apply A'|apply A]; assumption.
    + apply (f_ltb_false _ _ (proj1 He) Nv) in C. split; [reflexivity|]. apply (reached_dist _ _ _ D HD). lra.
  - destruct (k_plane_line K pl l) as [p|] eqn:E; [|discriminate]. destruct (plane_contains pl p e) eqn:C; intros [= <-].
    + split; [reflexivity|]. destruct (plane_ex p) as [D HD]. apply (reached_dist _ _ _ D HD). left. exact (plane_true p D (HK p eq_refl) HD C).
    + left. exists p. split; [reflexivity|]. intros D HD. exact (plane_false p D (HK p eq_refl) HD C).
Qed.
Lemma plane_line_throws x : plane_line K pl l e = Throw x <-> (x = RuntimeError /\ gp_normal (l_dir l) (pl_n pl) angular = false /\ k_plane_line K pl l = None).
Proof.
  clear HK. unfold plane_line. destruct (gp_normal _ _ _); cbn [negb].
  - cbv zeta. split; [destruct (nltb _ _); discriminate|]. intros (_ & X & _). discriminate X.
  - destruct (k_plane_line K pl l); [destruct (plane_contains _ _ _)|]; split; try discriminate; [intros (_ & _ & X); discriminate X|intros (_ & _ & X); discriminate X|intros [= <-]; auto|intros (-> & _); reflexivity].
Qed.
End PL.

(** ** Two planes *)
Lemma plane_plane_sound (T : Trig PrimFloat.float) K p1 p2 e M r : moderate M -> plane_upto M p1 -> point_upto M (pl_sup p2) -> tolerance e -> plane_plane K p1 p2 e = Ok r ->
  match r with
  | IsPlane p => p = p1 /\ reached (val e + powerRZ 2 (-45) * M) (plane_pts p1) (val3 (pl_sup p2))
  | IsLine l => exists l', k_plane_plane K p1 p2 e = Some l' /\ l = mkLine (l_sup l') (to_dir (l_dir l'))
  | IsEmpty => gp_parallel (pl_n p1) (pl_n p2) angular = true /\ forall D, dist_to (plane_pts p1) (val3 (pl_sup p2)) D -> val e - powerRZ 2 (-45) * M <= D
  | _ => False
  end.
Proof.
  intros HM H1 H2 He. unfold plane_plane. destruct (gp_parallel _ _ _) eqn:G.
  - destruct (plane_contains p1 (pl_sup p2) e) eqn:C; intros [= <-].
    + split; [reflexivity|]. destruct (plane_ex p1 M H1 (pl_sup p2)) as [D HD]. apply (reached_dist _ _ _ D HD). left. exact (plane_true p1 e M HM H1 He _ D H2 HD C).
    + split; [reflexivity|]. intros D HD. exact (plane_false p1 e M HM H1 He _ D H2 HD C).
  - destruct (k_plane_plane K p1 p2 e) as [l|] eqn:E; [|discriminate]. intros [= <-]. exists l. auto.
Qed.

(** ** A disk and a line that crosses its plane *)
Lemma conf_tol : tolerance (confusion : PrimFloat.float).
Proof.
  destruct conf_dbl as [N V]. split; [exact N|]. apply Rabs_def2_le in V. unfold moderate. rewrite !two_p.
  assert (bpow radix2 (-400) <= bpow radix2 (-30)) as A by (apply bpow_le; lia). assert (bpow radix2 0 <= bpow radix2 400) as B by (apply bpow_le; lia).
  change (bpow radix2 (-30)) with (/ 1073741824) in A. change (bpow radix2 0) with 1 in B. unfold U in V. lra.
Qed.
Lemma disk_line_point (T : Trig PrimFloat.float) K (d : ell PrimFloat.float) l e M m p k : moderate M -> ellipse_upto M d -> axes_from m M d -> point_upto M (l_sup l) -> tolerance e ->
  (forall q, k_plane_line K (ell_plane d) l = Some q -> point_upto M q) -> gp_normal (l_dir l) (e_n d) angular = false ->
  int_face_line K (FDisk d) l e = Ok (IsPoint p) -> ell_factor d p k ->
  k_plane_line K (ell_plane d) l = Some p /\ reached (val e + powerRZ 2 (-45) * M) (in_plane d) (val3 p) /\
  k < (1 + powerRZ 2 (-50)) * widened 1 (val confusion) + powerRZ 2 (-47) * M / m.
Proof.
  intros HM Hd Hm Hl He HK G H Hk. unfold int_face_line, planar_line in H. cbn [face_plane] in H.
  destruct (plane_line K (ell_plane d) l e) as [r| | |] eqn:E; try discriminate. cbn [obind] in H.
  assert (plane_upto M (ell_plane d)) as Hp by (split; [exact (proj1 Hd)|exact (proj1 (proj2 (proj2 (proj2 Hd))))]).
  assert (r = IsEmpty \/ exists q, r = IsPoint q) as R.
  { unfold plane_line in E. change (pl_n (ell_plane d)) with (e_n d) in E. rewrite G in E. cbn [negb] in E. destruct (k_plane_line K (ell_plane d) l); [|discriminate]. destruct (plane_contains _ _ _); injection E as <-; eauto. }
  pose proof (plane_line_sound T K (ell_plane d) l e M HM Hp Hl He HK r E) as S.
  destruct R as [-> | (q & ->)]; [discriminate|]. cbn [face_contains obind] in H. destruct (disk_contains d q confusion false) eqn:C; [|discriminate]. injection H as ->.
  destruct S as [S1 S2]. split; [exact S1|]. split; [exact S2|].
  destruct (plane_ex (ell_plane d) M Hp p) as [D HD].
  destruct (disk_contains_dbl d p confusion M m D k HM Hd (HK p S1) Hm conf_tol HD Hk) as (_ & F & _).
  apply Rnot_le_lt. intros X. rewrite F in C by exact X. discriminate C.
Qed.
