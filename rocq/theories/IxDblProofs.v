(** Proofs for C113. *)

From Coq Require Import ZArith Reals Lra Lia Psatz Bool List.
From Flocq Require Import Core.Core IEEE754.BinarySingleNaN IEEE754.PrimFloat.
From Coq Require Import Floats.
From Verif Require Import Base NumModel VecModel LinModel RoundModel PolyModel DistModel IntModel GeoSpec LinSpec DblSpec GeoLemmas
  DblLemmas DblProofs DblLen DblEq LinDblSpec LinDblBase LinDblFoot LinDblProofs LinDblSeg LinDblDist IxDblSpec.
Import ListNotations.
Local Open Scope R_scope.

(** ** Sets *)
Lemma reached_mono r r' S p : r <= r' -> reached r S p -> reached r' S p.
Proof. intros H (y & Hy & E). exists y. split; [exact Hy|lra]. Qed.
Lemma reached_dist r S p D : dist_to S p D -> D <= r -> reached r S p.
Proof. intros [(y & Hy & E) _] H. exists y. split; [exact Hy|lra]. Qed.
Lemma reached_ends r a b (s t : pt) : reached r (on_segment s t) a -> reached r (on_segment s t) b -> forall x, on_segment a b x -> reached r (on_segment s t) x.
Proof.
  intros (y & (k & Hk & ->) & Ey) (z & (l & Hl & ->) & Ez) x (m & Hm & ->).
  set (y := padd (pscale (1 - k) s) (pscale k t)) in *. set (z := padd (pscale (1 - l) s) (pscale l t)) in *.
  exists (padd (pscale (1 - m) y) (pscale m z)). split.
  - exists ((1 - m) * k + m * l). split; [split; nra|]. unfold y, z. destruct s as [s1 s2 s3], t as [t1 t2 t3]. unfold padd, pscale. cbn [vx vy vz]. f_equal; ring.
  - unfold dist in *. replace (psub _ _) with (padd (pscale (1 - m) (psub a y)) (pscale m (psub b z))).
    2:{ generalize y z. intros [y1 y2 y3] [z1 z2 z3]. destruct a as [a1 a2 a3], b as [b1 b2 b3]. unfold padd, pscale, psub. cbn [vx vy vz]. f_equal; ring. }
    eapply Rle_trans; [apply norm_tri|]. rewrite !norm_mul, !Rabs_pos_eq by lra. nra.
Qed.

(** ** The distance to a line and the cross product *)
Lemma cross_dist (s e p : pt) : unit3 e -> dist p (padd s (pscale (dot e (psub p s)) e)) = norm (cross (psub p s) e).
Proof.
  intros He. unfold dist, norm. f_equal. unfold unit3 in He. set (w := psub p s). replace (psub p (padd s (pscale (dot e w) e))) with (psub w (pscale (dot e w) e)).
  2:{ unfold w. generalize (dot e (psub p s)). intros c. destruct e as [e1 e2 e3], s as [s1 s2 s3], p as [p1 p2 p3]. unfold psub, padd, pscale. cbn [vx vy vz]. f_equal; ring. }
  transitivity (dot w w - 2 * dot e w * dot e w + dot e w * dot e w * dot e e).
  - destruct w as [w1 w2 w3], e as [e1 e2 e3]. unfold dot, psub, pscale. cbn [vx vy vz]. ring.
  - rewrite He. transitivity (dot w w * dot e e - dot e w * dot e w); [rewrite He; ring|]. destruct w as [w1 w2 w3], e as [e1 e2 e3]. unfold dot, cross. cbn [vx vy vz nmul nsub R_num]. ring.
Qed.
Lemma cross_le (v w : pt) : norm (cross v w) <= norm v * norm w.
Proof.
  apply Rsqr_incr_0; try apply norm_nonneg; [|apply Rmult_le_pos; apply norm_nonneg]. unfold Rsqr.
  replace (norm v * norm w * (norm v * norm w)) with ((norm v * norm v) * (norm w * norm w)) by ring. rewrite !norm_sq.
  assert (dot (cross v w) (cross v w) = dot v v * dot w w - dot v w * dot v w) as ->.
  { destruct v as [v1 v2 v3], w as [w1 w2 w3]. unfold dot, cross. cbn [vx vy vz nmul nsub R_num]. ring. }
  pose proof (Rle_0_sqr (dot v w)). unfold Rsqr in *. lra.
Qed.
(** turning the direction by a sine of k *)
Lemma cross_turn (w u1 u2 : pt) k : unit3 u1 -> unit3 u2 -> norm (cross u1 u2) <= k -> norm (cross w u2) <= norm (cross w u1) + k * norm w.
Proof.
  intros H1 H2 Hk. unfold unit3 in *. set (c := dot u1 u2). set (z := psub u2 (pscale c u1)).
  assert (norm z = norm (cross u1 u2)) as Ez.
  { unfold norm. f_equal. transitivity (dot u2 u2 - 2 * c * c + c * c * dot u1 u1).
    - unfold z. unfold c. destruct u1 as [a1 a2 a3], u2 as [b1 b2 b3]. unfold dot, psub, pscale. cbn [vx vy vz]. ring.
    - rewrite H1, H2. transitivity (dot u1 u1 * dot u2 u2 - c * c); [rewrite H1, H2; ring|]. unfold c. destruct u1 as [a1 a2 a3], u2 as [b1 b2 b3]. unfold dot, cross. cbn [vx vy vz nmul nsub R_num]. ring. }
  replace (cross w u2) with (padd (pscale c (cross w u1)) (cross w z)).
  2:{ unfold z. generalize c. intros c'. destruct w as [w1 w2 w3], u1 as [a1 a2 a3], u2 as [b1 b2 b3]. unfold padd, pscale, cross, psub. cbn [vx vy vz nmul nsub R_num]. f_equal; ring. }
  eapply Rle_trans; [apply norm_tri|]. rewrite norm_mul. pose proof (norm_nonneg (cross w u1)) as N1. pose proof (norm_nonneg w) as N2.
  assert (Rabs c <= 1) as C.
  { eapply Rle_trans; [apply cauchy_norm|]. unfold norm. rewrite H1, H2, sqrt_1. lra. }
  pose proof (cross_le w z) as Q. rewrite Ez in Q. pose proof (norm_nonneg (cross u1 u2)). nra.
Qed.

(** ** What [contains] says without and with the check of the line *)
Section Free.
Variables (s t p : V3 PrimFloat.float) (M D : R).
Hypotheses (HM : modx M) (Hs : point_upto M s) (Ht : point_upto M t) (Hp : point_upto M p) (G : gap3 s t) (Hst : val3 s <> val3 t).
Hypothesis HD : dist_to (on_segment (val3 s) (val3 t)) (val3 p) D.
Let W := psub (val3 t) (val3 s).
Let L := norm W.
Let u := pscale (/ L) W.
Lemma free_dbl eps B : eps_ok eps -> norm (cross (psub (val3 p) (val3 s)) u) <= B -> seg_contains (mkSeg s t) p eps false = true ->
  D <= Rmax ((1 + powerRZ 2 (-50)) * val eps) B + 100 * (U * M).
Proof.
  intros He HB. pose proof (W_pos s t Hst) as LP. fold W L in LP. pose proof (moderate_sized M HM) as HS. pose proof (UM_small M HS) as UM.
  destruct (along_dbl s t p M HM Hs Ht Hp G Hst s Hs) as [N1 A1]. destruct (along_dbl s t p M HM Hs Ht Hp G Hst t Ht) as [N2 A2].
  destruct (end_dbl p M HM Hp s Hs) as (Ns & Bs & Es). destruct (end_dbl p M HM Hp t Ht) as (Nt & Bt & Et).
  destruct (sq_test _ eps Ns Bs He) as [_ S2]. destruct (sq_test _ eps Nt Bt He) as [_ T2].
  pose proof (coord_t (val3 s) (val3 t) (val3 p) LP) as CT. fold W L u in CT, A1, A2. rewrite CT in A2.
  pose proof (D_le (val3 s) (val3 t) (val3 p) LP D HD) as (Ds & Dt & Dr). pose proof (D_in (val3 s) (val3 t) (val3 p) LP D HD) as Din.
  pose proof (D_left (val3 s) (val3 t) (val3 p) LP D HD) as Dl. pose proof (D_right (val3 s) (val3 t) (val3 p) LP D HD) as Dg.
  pose proof (ends_bound (val3 s) (val3 t) (val3 p) LP) as (Bs' & Bt').
  fold W L u in Dr, Din, Dl, Dg, Bs', Bt'. rewrite <- (cross_dist _ _ _ (e_unit (val3 s) (val3 t) LP)) in HB. set (a := dot u (psub (val3 p) (val3 s))) in *. fold W L u in HB. fold a in HB. set (r := dist (val3 p) (padd (val3 s) (pscale a u))) in *.
  pose proof (Rmax_l ((1 + powerRZ 2 (-50)) * val eps) B) as R1. pose proof (Rmax_r ((1 + powerRZ 2 (-50)) * val eps) B) as R2.
  set (hi := (1 + powerRZ 2 (-50)) * val eps) in *. set (um := U * M) in *.
  apply Rabs_def2_le in Es. apply Rabs_def2_le in Et. apply Rabs_def2_le in A1. apply Rabs_def2_le in A2.
  unfold seg_contains, seg_line. cbn [s_src s_tgt l_dir nmul nltb F_num andb]. set (d := seg_dir (mkSeg s t)) in *.
  set (sp1 := sprod d (vec_to s p)) in *. set (sp2 := sprod d (vec_to t p)) in *.
  destruct (xorb (nsign sp1) (nsign sp2)) eqn:X.
  - intros _. destruct (Rle_lt_dec a 0) as [C1|C1].
    + rewrite (Dl C1). rewrite Rabs_left1 in Bs' by exact C1. destruct (Rle_lt_dec (-100 * um) a) as [C2|C2]; [lra|]. rewrite (sign_neg sp1), (sign_neg sp2) in X by (assumption || lra). discriminate X.
    + destruct (Rle_lt_dec L a) as [C3|C3].
      * rewrite (Dg C3). rewrite Rabs_left1 in Bt' by lra. destruct (Rle_lt_dec a (L + 100 * um)) as [C2|C2]; [lra|]. rewrite (sign_pos sp1), (sign_pos sp2) in X by (assumption || lra). discriminate X.
      * rewrite Din by lra. lra.
  - destruct (Rle_lt_dec hi (norm (val3 (vec_to s p)))) as [C1|C1]; [rewrite (S2 C1)|intros _; lra].
    destruct (Rle_lt_dec hi (norm (val3 (vec_to t p)))) as [C2|C2]; [rewrite (T2 C2)|intros _; lra]. discriminate.
Qed.
(** the check of the line *)
Lemma line_true eps : eps_ok eps -> line_contains (seg_line (mkSeg s t)) p eps = true ->
  norm (cross (psub (val3 p) (val3 s)) u) <= (1 + powerRZ 2 (-50)) * val eps + 180 * (U * M).
Proof.
  intros He H. pose proof (W_pos s t Hst) as LP. fold W L in LP. pose proof (moderate_sized M HM) as HS. pose proof (UM_small M HS) as UM.
  destruct (seg_dir_dbl s t M HM Hs Ht G Hst) as (Nd & Uu & Ed & Ud). fold W L u in Nd, Uu, Ed, Ud. set (d := seg_dir (mkSeg s t)) in *.
  destruct (foot_err s d p M (proj1 Hs) Nd (proj1 Hp) HS (proj2 Hs) (proj2 Hp) Ud) as (Nv & Bv & _).
  pose proof (foot_len s d p M (proj1 Hs) Nd (proj1 Hp) HS (proj2 Hs) (proj2 Hp) Ud u (16 * U) Uu Ed) as F. cbv zeta in F.
  rewrite <- (cross_dist _ _ _ Uu). unfold line_contains, seg_line in H. cbn [s_src l_sup nmul nltb F_num] in H. fold d in H.
  set (v := vec_to p (line_proj (mkLine s d) p)) in *. destruct (sq_test v eps Nv (within_6 M v HM Bv) He) as [_ L2].
  apply Rnot_lt_le. intros C. apply Rabs_def2_le in F. rewrite L2 in H by lra. discriminate H.
Qed.
Lemma line_false eps : eps_ok eps -> line_contains (seg_line (mkSeg s t)) p eps = false ->
  (1 - powerRZ 2 (-50)) * val eps - 180 * (U * M) <= norm (cross (psub (val3 p) (val3 s)) u).
Proof.
  intros He H. pose proof (W_pos s t Hst) as LP. fold W L in LP. pose proof (moderate_sized M HM) as HS. pose proof (UM_small M HS) as UM.
  destruct (seg_dir_dbl s t M HM Hs Ht G Hst) as (Nd & Uu & Ed & Ud). fold W L u in Nd, Uu, Ed, Ud. set (d := seg_dir (mkSeg s t)) in *.
  destruct (foot_err s d p M (proj1 Hs) Nd (proj1 Hp) HS (proj2 Hs) (proj2 Hp) Ud) as (Nv & Bv & _).
  pose proof (foot_len s d p M (proj1 Hs) Nd (proj1 Hp) HS (proj2 Hs) (proj2 Hp) Ud u (16 * U) Uu Ed) as F. cbv zeta in F.
  rewrite <- (cross_dist _ _ _ Uu). unfold line_contains, seg_line in H. cbn [s_src l_sup nmul nltb F_num] in H. fold d in H.
  set (v := vec_to p (line_proj (mkLine s d) p)) in *. destruct (sq_test v eps Nv (within_6 M v HM Bv) He) as [L1 _].
  apply Rnot_lt_le. intros C. apply Rabs_def2_le in F. rewrite L1 in H by lra. discriminate H.
Qed.
End Free.
(** equality of points *)
Lemma eq_true (p q : V3 PrimFloat.float) M eps : modx M -> point_upto M p -> point_upto M q -> eps_ok eps -> pt_eq p q eps = true ->
  dist (val3 q) (val3 p) <= (1 + powerRZ 2 (-50)) * val eps + 4 * (U * M).
Proof.
  intros HM Hp Hq He H. destruct (end_dbl q M HM Hq p Hp) as (N & B & E). destruct (sq_test _ eps N B He) as [_ T].
  apply Rnot_lt_le. intros C. apply Rabs_def2_le in E. unfold pt_eq in H. cbn [nmul nltb F_num] in H. rewrite T in H by lra. discriminate H.
Qed.
Lemma eq_false (p q : V3 PrimFloat.float) M eps : modx M -> point_upto M p -> point_upto M q -> eps_ok eps -> pt_eq p q eps = false ->
  (1 - powerRZ 2 (-50)) * val eps - 4 * (U * M) <= dist (val3 q) (val3 p).
Proof.
  intros HM Hp Hq He H. destruct (end_dbl q M HM Hq p Hp) as (N & B & E). destruct (sq_test _ eps N B He) as [T _].
  apply Rnot_lt_le. intros C. apply Rabs_def2_le in E. unfold pt_eq in H. cbn [nmul nltb F_num] in H. rewrite T in H by lra. discriminate H.
Qed.

(** ** Two segments *)
Lemma found_on_both (s1 s2 : segment PrimFloat.float) e es p : first_on_both s1 s2 e es = Some p ->
  vertex_of es p /\ seg_contains s1 p e true = true /\ seg_contains s2 p e true = true.
Proof.
  induction es as [|[a b] es IH]; [discriminate|]. cbn [first_on_both].
  destruct (seg_contains s1 a e true && seg_contains s2 a e true) eqn:A.
  { intros [= <-]. apply andb_true_iff in A. split; [exists a, b; cbn; auto|exact A]. }
  destruct (seg_contains s1 b e true && seg_contains s2 b e true) eqn:B.
  { intros [= <-]. apply andb_true_iff in B. split; [exists a, b; cbn; auto|exact B]. }
  intros H. destruct (IH H) as ((c & d & Hi & Hp) & Q). split; [exists c, d; cbn; auto|exact Q].
Qed.
Lemma found_none (s1 s2 : segment PrimFloat.float) e es : first_on_both s1 s2 e es = None ->
  forall p, vertex_of es p -> seg_contains s1 p e true = false \/ seg_contains s2 p e true = false.
Proof.
  induction es as [|[a b] es IH]; [intros _ p (c & d & [] & _)|]. cbn [first_on_both].
  destruct (seg_contains s1 a e true && seg_contains s2 a e true) eqn:A; [discriminate|].
  destruct (seg_contains s1 b e true && seg_contains s2 b e true) eqn:B; [discriminate|].
  intros H p (c & d & [[= <- <-]|Hi] & Hp).
  - destruct Hp as [-> | ->]; apply andb_false_iff; assumption.
  - apply (IH H). exists c, d. auto.
Qed.

Section Segs.
Context (T : Trig PrimFloat.float).
Variables (K : kernel PrimFloat.float) (sg1 sg2 : segment PrimFloat.float) (e : PrimFloat.float) (M : R).
Hypotheses (HM : moderate M) (H1 : segment_upto M sg1) (H2 : segment_upto M sg2) (He : tolerance e).
Let es := k_fragment K sg1 sg2 (nlit 1 10 * e)%num.
Hypothesis Hes : forall p, vertex_of es p -> point_upto M p.
Let hi := (1 + powerRZ 2 (-50)) * val e.
Let lo := (1 - powerRZ 2 (-50)) * val e.
Let rho := powerRZ 2 (-44) * M.

Lemma um : 0 <= U * M /\ rho = 512 * (U * M).
Proof.
  split; [apply (UM_small M (moderate_sized M (moderate_x M HM)))|]. unfold rho. rewrite two_p. change (bpow radix2 (-44)) with (/ 17592186044416). unfold U. lra.
Qed.
Lemma contains_near sg p : segment_upto M sg -> point_upto M p -> seg_contains sg p e true = true -> reached (hi + rho) (seg_pts sg) (val3 p).
Proof.
  intros (Hs & Ht & G & N) Hp H. destruct (seg_dist_ex (val3 (s_src sg)) (val3 (s_tgt sg)) (val3 p) N) as [D HD].
  destruct (c104_segment_lemma _ _ _ e M D HM Hs Ht Hp G N He HD) as [_ F]. destruct sg as [s t]. cbn [s_src s_tgt] in *.
  apply (reached_dist _ _ _ D HD). apply Rnot_lt_le. intros C. rewrite F in H by (fold hi rho; lra). discriminate H.
Qed.
Lemma contains_far sg p D : segment_upto M sg -> point_upto M p -> dist_to (seg_pts sg) (val3 p) D -> seg_contains sg p e true = false -> lo - rho < D.
Proof.
  intros (Hs & Ht & G & N) Hp HD H. destruct sg as [s t]. cbn [s_src s_tgt] in *. unfold seg_pts in HD. cbn [s_src s_tgt] in HD.
  destruct (c104_segment_lemma _ _ _ e M D HM Hs Ht Hp G N He HD) as [F _].
  apply Rnot_le_lt. intros C. rewrite F in H by (fold lo rho; lra). discriminate H.
Qed.
Lemma src_pts sg : seg_pts sg (val3 (s_src sg)).
Proof. exists 0. split; [lra|]. generalize (val3 (s_src sg)) (val3 (s_tgt sg)). intros [a b c] [a' b' c']. unfold padd, pscale. cbn [vx vy vz]. f_equal; ring. Qed.
Lemma tgt_pts sg : seg_pts sg (val3 (s_tgt sg)).
Proof. exists 1. split; [lra|]. generalize (val3 (s_src sg)) (val3 (s_tgt sg)). intros [a b c] [a' b' c']. unfold padd, pscale. cbn [vx vy vz]. f_equal; ring. Qed.
Lemma reached_self r (S : pt -> Prop) x : 0 <= r -> S x -> reached r S x.
Proof. intros Hr Hx. exists x. split; [exact Hx|]. rewrite dist_self. exact Hr. Qed.
Lemma hi_pos : 0 < hi /\ 0 < val e.
Proof.
  assert (0 < val e) as E.
  { destruct (tol_eps e He) as [_ [Q _]]. pose proof (bpow_gt_0 radix2 (-400)). lra. }
  split; [|exact E]. unfold hi. rewrite two_p. pose proof (bpow_gt_0 radix2 (-50)). nra.
Qed.
Lemma equal_near p q (S : pt -> Prop) : point_upto M p -> point_upto M q -> S (val3 q) -> pt_eq p q e = true -> reached (hi + rho) S (val3 p).
Proof.
  intros Hp Hq HS H. exists (val3 q). split; [exact HS|]. pose proof (eq_true p q M e (moderate_x M HM) Hp Hq (tol_eps e He) H) as Q. rewrite GeoLemmas.dist_sym in Q. fold hi in Q.
  destruct um as [P ->]. lra.
Qed.

(** after the check for an overlap *)
Let rest :=
    if Nat.eqb (length es) 3 || Nat.eqb (length es) 4 then
      match first_on_both sg1 sg2 e es with
      | Some p => Ok (IsPoint p)
      | None => Throw RuntimeError
      end
    else if pt_eq (s_src sg1) (s_src sg2) e then Ok (IsPoint (s_src sg1))
    else if pt_eq (s_src sg1) (s_tgt sg2) e then Ok (IsPoint (s_src sg1))
    else if pt_eq (s_tgt sg1) (s_src sg2) e then Ok (IsPoint (s_tgt sg1))
    else if pt_eq (s_tgt sg1) (s_tgt sg2) e then Ok (IsPoint (s_tgt sg1))
    else Ok IsEmpty.
Let para := gp_parallel (to_dir (vec_to (s_src sg1) (s_tgt sg1))) (to_dir (vec_to (s_src sg2) (s_tgt sg2))) angular.
Lemma seg_seg_eq : seg_seg K sg1 sg2 e =
  if para then
    if negb (line_contains (seg_line sg1) (s_src sg2) e) then Ok IsEmpty
    else
      let s2_on1 := seg_contains sg1 (s_src sg2) e false in
      let t2_on1 := seg_contains sg1 (s_tgt sg2) e false in
      if s2_on1 && t2_on1 then Ok (IsSeg sg2)
      else
        let s1_on2 := seg_contains sg2 (s_src sg1) e false in
        let t1_on2 := seg_contains sg2 (s_tgt sg1) e false in
        if s1_on2 && t1_on2 then Ok (IsSeg sg1)
        else if s2_on1 && s1_on2 then Ok (IsSeg (mkSeg (s_src sg2) (s_src sg1)))
        else if s2_on1 && t1_on2 then Ok (IsSeg (mkSeg (s_src sg2) (s_tgt sg1)))
        else if t2_on1 && s1_on2 then Ok (IsSeg (mkSeg (s_tgt sg2) (s_src sg1)))
        else if t2_on1 && t1_on2 then Ok (IsSeg (mkSeg (s_tgt sg2) (s_tgt sg1)))
        else rest
  else rest.
Proof. reflexivity. Qed.
Lemma rest_point r : rest = Ok r -> r = IsEmpty \/ exists p, r = IsPoint p /\ reached (hi + rho) (seg_pts sg1) (val3 p) /\ reached (hi + rho) (seg_pts sg2) (val3 p).
Proof.
  pose proof hi_pos as [P _]. destruct um as [Q _]. assert (0 <= hi + rho) as P0 by (destruct um as [_ ->]; lra).
  destruct H1 as (Hs1 & Ht1 & _), H2 as (Hs2 & Ht2 & _). unfold rest. destruct (_ || _).
  - destruct (first_on_both sg1 sg2 e es) as [p|] eqn:F; [|discriminate]. intros [= <-]. right. exists p. split; [reflexivity|].
    destruct (found_on_both _ _ _ _ _ F) as (V & C1 & C2). split; apply contains_near; auto.
  - destruct (pt_eq (s_src sg1) (s_src sg2) e) eqn:E1; [intros [= <-]; right; eexists; split; [reflexivity|]; split; [apply reached_self; [exact P0|apply src_pts]|apply (equal_near _ _ _ Hs1 Hs2 (src_pts sg2) E1)]|].
    destruct (pt_eq (s_src sg1) (s_tgt sg2) e) eqn:E2; [intros [= <-]; right; eexists; split; [reflexivity|]; split; [apply reached_self; [exact P0|apply src_pts]|apply (equal_near _ _ _ Hs1 Ht2 (tgt_pts sg2) E2)]|].
    destruct (pt_eq (s_tgt sg1) (s_src sg2) e) eqn:E3; [intros [= <-]; right; eexists; split; [reflexivity|]; split; [apply reached_self; [exact P0|apply tgt_pts]|apply (equal_near _ _ _ Ht1 Hs2 (src_pts sg2) E3)]|].
    destruct (pt_eq (s_tgt sg1) (s_tgt sg2) e) eqn:E4; [intros [= <-]; right; eexists; split; [reflexivity|]; split; [apply reached_self; [exact P0|apply tgt_pts]|apply (equal_near _ _ _ Ht1 Ht2 (tgt_pts sg2) E4)]|].
    intros [= <-]. left. reflexivity.
Qed.
(** the first four decisions, by the sets *)
Section Overlap.
Variable k : R.
Hypotheses (Hk : 0 <= k) (Ha : aligned k sg1 sg2) (Hl : line_contains (seg_line sg1) (s_src sg2) e = true).
Let d := hi + rho + 7 * (k * M).
Let v := psub (val3 (s_tgt sg1)) (val3 (s_src sg1)).
Let w := psub (val3 (s_tgt sg2)) (val3 (s_src sg2)).
Let z := psub (val3 (s_src sg2)) (val3 (s_src sg1)).
Lemma sizes : norm v <= 3467 / 1000 * M /\ norm w <= 3467 / 1000 * M /\ norm z <= 3467 / 1000 * M /\ 0 < norm v /\ 0 < norm w.
Proof.
  destruct H1 as ([Ns1 Bs1] & [Nt1 Bt1] & _ & N1), H2 as ([Ns2 Bs2] & [Nt2 Bt2] & _ & N2). pose proof (moderate_sized M (moderate_x M HM)) as HS.
  destruct (vec_err (s_src sg1) (s_tgt sg1) M Ns1 Nt1 HS Bs1 Bt1) as (_ & _ & _ & A). destruct (vec_err (s_src sg2) (s_tgt sg2) M Ns2 Nt2 HS Bs2 Bt2) as (_ & _ & _ & B).
  destruct (vec_err (s_src sg1) (s_src sg2) M Ns1 Ns2 HS Bs1 Bs2) as (_ & _ & _ & C).
  split; [exact A|]. split; [exact B|]. split; [exact C|]. split; [exact (W_pos _ _ N1)|exact (W_pos _ _ N2)].
Qed.
Let u1 := pscale (/ norm v) v.
Let u2 := pscale (/ norm w) w.
Lemma units : unit3 u1 /\ unit3 u2 /\ v = pscale (norm v) u1 /\ w = pscale (norm w) u2.
Proof.
  destruct sizes as (_ & _ & _ & P & Q). destruct (unit_of v P) as (A & _ & B). destruct (unit_of w Q) as (C & _ & E). repeat split; assumption.
Qed.
Lemma cross_scale (c c' : R) (a b : pt) : cross (pscale c a) (pscale c' b) = pscale (c * c') (cross a b) :> pt.
Proof. destruct a as [a1 a2 a3], b as [b1 b2 b3]. unfold cross, pscale. cbn [vx vy vz nmul nsub R_num]. f_equal; ring. Qed.
Lemma turned : norm (cross u1 u2) <= k.
Proof.
  destruct sizes as (_ & _ & _ & P & Q). unfold aligned in Ha. cbv zeta in Ha. fold v w in Ha. unfold u1, u2. rewrite cross_scale, norm_mul.
  assert (0 < / norm v * / norm w) as I by (apply Rmult_lt_0_compat; apply Rinv_0_lt_compat; assumption). rewrite Rabs_pos_eq by lra.
  apply Rle_trans with (/ norm v * / norm w * (k * norm v * norm w)); [apply Rmult_le_compat_l; [lra|exact Ha]|]. right. field. lra.
Qed.
Lemma norm_cross_sym (a b : pt) : norm (cross a b) = norm (cross b a).
Proof. unfold norm. f_equal. destruct a as [a1 a2 a3], b as [b1 b2 b3]. unfold dot, cross. cbn [vx vy vz nmul nsub R_num]. ring. Qed.
Lemma cross_sum (a b c : pt) : norm (cross (padd a b) c) <= norm (cross a c) + norm (cross b c).
Proof.
  replace (cross (padd a b) c) with (padd (cross a c) (cross b c) : pt); [apply norm_tri|].
  destruct a as [a1 a2 a3], b as [b1 b2 b3], c as [c1 c2 c3]. unfold padd, cross. cbn [vx vy vz nmul nsub R_num]. f_equal; ring.
Qed.
(** the ends are close to the line of the other segment *)
Let B := hi + 180 * (U * M).
Lemma z_line : norm (cross z u1) <= B.
Proof.
  destruct H1 as (Hs1 & Ht1 & G1 & N1), H2 as (Hs2 & Ht2 & _). destruct sg1 as [s t]. cbn [s_src s_tgt] in *.
  exact (line_true s t (s_src sg2) M (moderate_x M HM) Hs1 Ht1 Hs2 G1 N1 e (tol_eps e He) Hl).
Qed.
Lemma lines : norm (cross (psub (val3 (s_tgt sg2)) (val3 (s_src sg1))) u1) <= B + 7 * (k * M) /\
  norm (cross (psub (val3 (s_src sg1)) (val3 (s_src sg2))) u2) <= B + 7 * (k * M) /\
  norm (cross (psub (val3 (s_tgt sg1)) (val3 (s_src sg2))) u2) <= B + 7 * (k * M).
Proof.
  destruct sizes as (Sv & Sw & Sz & Pv & Pw). destruct units as (U1 & U2 & Ev & Ew). pose proof turned as Tk. pose proof z_line as Z.
  assert (0 <= k * M) as KM by (apply Rmult_le_pos; [exact Hk|]; pose proof (sized_pos M (moderate_sized M (moderate_x M HM))); lra).
  assert (forall x, 0 <= x -> x <= 3467 / 1000 * M -> x * k <= 3467 / 1000 * (k * M)) as X.
  { intros x _ Hx. replace (3467 / 1000 * (k * M)) with (3467 / 1000 * M * k) by ring. apply Rmult_le_compat_r; assumption. }
  assert (norm (cross (psub (val3 (s_src sg1)) (val3 (s_src sg2))) u2) <= B + 3467 / 1000 * (k * M)) as C2.
  { replace (norm (cross (psub (val3 (s_src sg1)) (val3 (s_src sg2))) u2)) with (norm (cross z u2)).
    - pose proof (cross_turn z u1 u2 k U1 U2 Tk) as Q. pose proof (X (norm z) (norm_nonneg z) Sz). lra.
    - unfold norm. f_equal. unfold z. generalize (val3 (s_src sg1)) (val3 (s_src sg2)) u2. intros [a1 a2 a3] [b1 b2 b3] [c1 c2 c3]. unfold dot, cross, psub. cbn [vx vy vz nmul nsub R_num]. ring. }
  split; [|split; [lra|]].
  - replace (psub (val3 (s_tgt sg2)) (val3 (s_src sg1))) with (padd z w).
    2:{ unfold z, w. generalize (val3 (s_src sg1)) (val3 (s_src sg2)) (val3 (s_tgt sg2)). intros [a1 a2 a3] [b1 b2 b3] [c1 c2 c3]. unfold padd, psub. cbn [vx vy vz]. f_equal; ring. }
    eapply Rle_trans; [apply cross_sum|]. rewrite Ew at 1. replace u1 with (pscale 1 u1) at 2 by (generalize u1; intros [a b c]; unfold pscale; cbn [vx vy vz]; f_equal; ring).
    rewrite cross_scale, norm_mul, Rmult_1_r, Rabs_pos_eq by lra. rewrite norm_cross_sym in Tk.
    pose proof (X (norm w) (norm_nonneg w) Sw). assert (norm w * norm (cross u2 u1) <= norm w * k) by (apply Rmult_le_compat_l; lra). lra.
  - replace (psub (val3 (s_tgt sg1)) (val3 (s_src sg2))) with (padd (psub (val3 (s_src sg1)) (val3 (s_src sg2))) v).
    2:{ unfold v. generalize (val3 (s_src sg1)) (val3 (s_src sg2)) (val3 (s_tgt sg1)). intros [a1 a2 a3] [b1 b2 b3] [c1 c2 c3]. unfold padd, psub. cbn [vx vy vz]. f_equal; ring. }
    eapply Rle_trans; [apply cross_sum|]. rewrite Ev at 1. replace u2 with (pscale 1 u2) at 2 by (generalize u2; intros [a b c]; unfold pscale; cbn [vx vy vz]; f_equal; ring).
    rewrite cross_scale, norm_mul, Rmult_1_r, Rabs_pos_eq by lra.
    pose proof (X (norm v) (norm_nonneg v) Sv). assert (norm v * norm (cross u1 u2) <= norm v * k) by (apply Rmult_le_compat_l; lra). lra.
Qed.
Lemma free_near sg p : segment_upto M sg -> point_upto M p ->
  norm (cross (psub (val3 p) (val3 (s_src sg))) (pscale (/ norm (psub (val3 (s_tgt sg)) (val3 (s_src sg)))) (psub (val3 (s_tgt sg)) (val3 (s_src sg))))) <= B + 7 * (k * M) ->
  seg_contains sg p e false = true -> reached d (seg_pts sg) (val3 p).
Proof.
  intros (Hs & Ht & G & N) Hp HB H. destruct (seg_dist_ex (val3 (s_src sg)) (val3 (s_tgt sg)) (val3 p) N) as [D HD]. destruct sg as [s t]. cbn [s_src s_tgt] in *.
  apply (reached_dist _ _ _ D HD). pose proof (free_dbl s t p M D (moderate_x M HM) Hs Ht Hp G N HD e _ (tol_eps e He) HB H) as F. fold hi in F.
  destruct um as [P R]. assert (0 <= k * M) as KM by (apply Rmult_le_pos; [exact Hk|]; pose proof (sized_pos M (moderate_sized M (moderate_x M HM))); lra).
  assert (Rmax hi (B + 7 * (k * M)) <= hi + 180 * (U * M) + 7 * (k * M)) by (apply Rmax_lub; unfold B; lra). unfold d. rewrite R. lra.
Qed.
Lemma ends_near : (seg_contains sg1 (s_src sg2) e false = true -> reached d (seg_pts sg1) (val3 (s_src sg2))) /\
  (seg_contains sg1 (s_tgt sg2) e false = true -> reached d (seg_pts sg1) (val3 (s_tgt sg2))) /\
  (seg_contains sg2 (s_src sg1) e false = true -> reached d (seg_pts sg2) (val3 (s_src sg1))) /\
  (seg_contains sg2 (s_tgt sg1) e false = true -> reached d (seg_pts sg2) (val3 (s_tgt sg1))).
Proof.
  assert (0 <= k * M) as KM by (apply Rmult_le_pos; [exact Hk|]; pose proof (sized_pos M (moderate_sized M (moderate_x M HM))); lra).
  destruct lines as (L1 & L2 & L3). pose proof z_line as Z. destruct H1 as (Hs1 & Ht1 & _), H2 as (Hs2 & Ht2 & _).
  split; [|split; [|split]]; apply free_near; try assumption. fold v u1 z. lra.
Qed.
End Overlap.
Lemma seg_near d s : reached d (seg_pts sg1) (val3 (s_src s)) -> reached d (seg_pts sg1) (val3 (s_tgt s)) -> reached d (seg_pts sg2) (val3 (s_src s)) -> reached d (seg_pts sg2) (val3 (s_tgt s)) ->
  forall x, isect_pts (IsSeg s) x -> reached d (seg_pts sg1) x /\ reached d (seg_pts sg2) x.
Proof. intros A1 B1 A2 B2 x Hx. split; apply (reached_ends _ (val3 (s_src s)) (val3 (s_tgt s))); assumption. Qed.

Lemma segments_near k r : 0 <= k -> (para = true -> aligned k sg1 sg2) -> seg_seg K sg1 sg2 e = Ok r ->
  (r = IsEmpty \/ (exists p, r = IsPoint p) \/ exists s, r = IsSeg s) /\
  forall x, isect_pts r x -> reached (hi + rho + 7 * (k * M)) (seg_pts sg1) x /\ reached (hi + rho + 7 * (k * M)) (seg_pts sg2) x.
Proof.
  intros Hk Hp. assert (0 <= k * M) as KM by (apply Rmult_le_pos; [exact Hk|]; pose proof (sized_pos M (moderate_sized M (moderate_x M HM))); lra).
  pose proof hi_pos as [P _]. assert (0 <= hi + rho + 7 * (k * M)) as P0 by (destruct um as [? ->]; lra).
  assert (rest = Ok r -> (r = IsEmpty \/ (exists p, r = IsPoint p) \/ exists s, r = IsSeg s) /\
    forall x, isect_pts r x -> reached (hi + rho + 7 * (k * M)) (seg_pts sg1) x /\ reached (hi + rho + 7 * (k * M)) (seg_pts sg2) x) as R.
  { intros E. destruct (rest_point r E) as [-> | (p & -> & A & B)]; [split; [auto|intros x []]|]. split; [eauto|]. cbn [isect_pts]. intros x <-.
    split; [eapply reached_mono, A|eapply reached_mono, B]; lra. }
  rewrite seg_seg_eq. destruct para; [|exact R]. destruct (line_contains (seg_line sg1) (s_src sg2) e) eqn:Hl; cbn [negb]; [|intros [= <-]; split; [auto|intros x []]].
  destruct (ends_near k Hk (Hp eq_refl) Hl) as (A & B & C & D). cbv zeta. set (d := hi + rho + 7 * (k * M)) in *.
  assert (forall sg, reached d (seg_pts sg) (val3 (s_src sg)) /\ reached d (seg_pts sg) (val3 (s_tgt sg))) as Own by (intros sg; split; apply reached_self; [exact P0|apply src_pts|exact P0|apply tgt_pts]).
  destruct (Own sg1) as [O1 O1'], (Own sg2) as [O2 O2'].
  destruct (seg_contains sg1 (s_src sg2) e false), (seg_contains sg1 (s_tgt sg2) e false); cbn [andb].
  - intros [= <-]. split; [eauto|]. apply seg_near; auto.
  - destruct (seg_contains sg2 (s_src sg1) e false), (seg_contains sg2 (s_tgt sg1) e false); cbn [andb]; try exact R; intros [= <-]; (split; [eauto|]); apply seg_near; auto.
  - destruct (seg_contains sg2 (s_src sg1) e false), (seg_contains sg2 (s_tgt sg1) e false); cbn [andb]; try exact R; intros [= <-]; (split; [eauto|]); apply seg_near; auto.
  - destruct (seg_contains sg2 (s_src sg1) e false), (seg_contains sg2 (s_tgt sg1) e false); cbn [andb]; try exact R; intros [= <-]; (split; [eauto|]). apply seg_near; auto.
Qed.
Lemma point_near p : seg_seg K sg1 sg2 e = Ok (IsPoint p) -> reached (hi + rho) (seg_pts sg1) (val3 p) /\ reached (hi + rho) (seg_pts sg2) (val3 p).
Proof.
  assert (rest = Ok (IsPoint p) -> reached (hi + rho) (seg_pts sg1) (val3 p) /\ reached (hi + rho) (seg_pts sg2) (val3 p)) as R.
  { intros E. destruct (rest_point _ E) as [X | (q & [= ->] & X)]; [discriminate|exact X]. }
  rewrite seg_seg_eq. destruct para; [|exact R]. destruct (negb _); [discriminate|]. cbv zeta. repeat (destruct (_ && _); [discriminate|]). exact R.
Qed.
Lemma throws x : seg_seg K sg1 sg2 e = Throw x -> x = RuntimeError /\ (length es = 3%nat \/ length es = 4%nat) /\
  forall p D1 D2, vertex_of es p -> dist_to (seg_pts sg1) (val3 p) D1 -> dist_to (seg_pts sg2) (val3 p) D2 -> lo - rho < Rmax D1 D2.
Proof.
  assert (rest = Throw x -> x = RuntimeError /\ (length es = 3%nat \/ length es = 4%nat) /\
    forall p D1 D2, vertex_of es p -> dist_to (seg_pts sg1) (val3 p) D1 -> dist_to (seg_pts sg2) (val3 p) D2 -> lo - rho < Rmax D1 D2) as R.
  { unfold rest. destruct (Nat.eqb (length es) 3 || Nat.eqb (length es) 4) eqn:L; [|repeat (destruct (pt_eq _ _ _); [discriminate|]); discriminate].
    destruct (first_on_both sg1 sg2 e es) eqn:F; [discriminate|]. intros [= <-]. split; [reflexivity|].
    apply orb_true_iff in L. rewrite !Nat.eqb_eq in L. split; [exact L|]. intros p D1 D2 V E1 E2. pose proof (Rmax_l D1 D2). pose proof (Rmax_r D1 D2).
    destruct (found_none _ _ _ _ F p V) as [C|C]; [pose proof (contains_far _ _ _ H1 (Hes p V) E1 C)|pose proof (contains_far _ _ _ H2 (Hes p V) E2 C)]; lra. }
  rewrite seg_seg_eq. destruct para; [|exact R]. destruct (negb _); [discriminate|]. cbv zeta. repeat (destruct (_ && _); [discriminate|]). exact R.
Qed.
Lemma empty_means D : dist_to (on_line (val3 (s_src sg1)) (psub (val3 (s_tgt sg1)) (val3 (s_src sg1)))) (val3 (s_src sg2)) D -> seg_seg K sg1 sg2 e = Ok IsEmpty ->
  (para = true /\ lo - rho <= D) \/
  (length es <> 3%nat /\ length es <> 4%nat /\
   forall p q, p = s_src sg1 \/ p = s_tgt sg1 -> q = s_src sg2 \/ q = s_tgt sg2 -> lo - rho <= dist (val3 p) (val3 q)).
Proof.
  intros HD. destruct um as [P Q].
  assert (rest = Ok IsEmpty -> length es <> 3%nat /\ length es <> 4%nat /\
    forall p q, p = s_src sg1 \/ p = s_tgt sg1 -> q = s_src sg2 \/ q = s_tgt sg2 -> lo - rho <= dist (val3 p) (val3 q)) as R.
  { destruct H1 as (Hs1 & Ht1 & _), H2 as (Hs2 & Ht2 & _). unfold rest. destruct (Nat.eqb (length es) 3 || Nat.eqb (length es) 4) eqn:L; [destruct (first_on_both _ _ _ _); discriminate|].
    apply orb_false_iff in L. rewrite !Nat.eqb_neq in L.
    destruct (pt_eq (s_src sg1) (s_src sg2) e) eqn:E1; [discriminate|]. destruct (pt_eq (s_src sg1) (s_tgt sg2) e) eqn:E2; [discriminate|].
    destruct (pt_eq (s_tgt sg1) (s_src sg2) e) eqn:E3; [discriminate|]. destruct (pt_eq (s_tgt sg1) (s_tgt sg2) e) eqn:E4; [discriminate|].
    intros _. split; [apply L|]. split; [apply L|].
    assert (forall p q, point_upto M p -> point_upto M q -> pt_eq p q e = false -> lo - rho <= dist (val3 p) (val3 q)) as X.
    { intros p q Hp Hq E. pose proof (eq_false p q M e (moderate_x M HM) Hp Hq (tol_eps e He) E) as Y. rewrite GeoLemmas.dist_sym in Y. fold lo in Y. lra. }
    intros p q [-> | ->] [-> | ->]; apply X; assumption. }
  rewrite seg_seg_eq. destruct para; [|intros E; right; exact (R E)].
  destruct (line_contains (seg_line sg1) (s_src sg2) e) eqn:Hl; cbn [negb].
  - cbv zeta. repeat (destruct (_ && _); [discriminate|]). intros E. right. exact (R E).
  - intros _. left. split; [reflexivity|]. destruct H1 as (Hs1 & Ht1 & G1 & N1), H2 as (Hs2 & Ht2 & _).
    destruct sg1 as [s t]. cbn [s_src s_tgt] in *. pose proof (line_false s t (s_src sg2) M (moderate_x M HM) Hs1 Ht1 Hs2 G1 N1 e (tol_eps e He) Hl) as F. fold lo in F.
    pose proof (W_pos s t N1) as LP. destruct (unit_of _ LP) as (Uu & _ & Eu). rewrite <- (cross_dist _ _ _ Uu) in F.
    rewrite <- (line_dist _ _ _ _ _ D Uu (Rgt_not_eq _ _ LP) Eu HD) in F. lra.
Qed.
End Segs.
